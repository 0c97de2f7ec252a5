(** Specification of C91 and C92: several devices of one account exchange their messages. *)
From Verif Require Export BaseSpec Crypt_facts.

(** what the device would push, before encryption *)
Definition publishes (B : benv) (st : bstate) (z : bytes) : Prop := exists c, serialize (b_env B) (s_conf st) true = Ok (z, c).
(** both hold the same config: same content, same version, and they publish the same bytes *)
Definition agree (A : benv) (st : bstate) (B : benv) (st' : bstate) : Prop :=
  s_data st' = s_data st /\ s_seqno st' = s_seqno st /\ (s_state st' = Dirty <-> s_state st = Dirty) /\ forall z, publishes B st' z <-> publishes A st z.
(** A device that can write, has a key and has no edits that were not pushed. *)
Record settled_writer (B : benv) (st : bstate) : Prop := {
  sw_env : benv_ok B;
  sw_life : life B tame st;
  sw_write : readonly B = false;
  sw_state : s_state st <> Dirty;
  sw_keys : s_keys st <> []
}.

(** Devices of one account, named by the elements of [I]: the same config class, the same ability to sign, keys in common. *)
Record group {I : Type} (B : I -> benv) (st : I -> bstate) : Prop := {
  gp_aead : forall i, aead_ok (b_aead (B i));
  gp_env : forall i, benv_ok (B i);
  gp_same : forall i j, b_env (B i) = b_env (B j);
  gp_peer : forall i j, peer (B i) (B j);
  gp_write : forall i, readonly (B i) = false;
  gp_life : forall i, life (B i) tame (st i);
  gp_apart : forall i j, apart_hashes (B i) (st i) (B j) (st j)
}.
(** Every device has pushed: [c i] is what it sent, and [st1 i] its state after that, or after the server has confirmed
    it. *)
Definition all_push {I : Type} (B : I -> benv) (st : I -> bstate) (c : I -> bytes) (st1 : I -> bstate) : Prop :=
  forall i, exists n o s1, push (B i) (st i) = (Ok (n, c i, o), s1) /\ (st1 i = s1 \/ exists h, confirm_pushed (B i) n h s1 = (Ok tt, st1 i)).
Definition all_merge {I : Type} (B : I -> benv) (l : I -> list (bytes * bytes)) (st1 st2 : I -> bstate) : Prop :=
  forall i, exists hs, merge (B i) (l i) (st1 i) = (Ok hs, st2 i).
(** [l i], what device [i] fetches from the server, holds what the devices pushed, under any message hashes, in any order
    and any number of times; only its own message may be missing, if it has one.  And the keys fit. *)
Record all_fetch {I : Type} (B : I -> benv) (st : I -> bstate) (c : I -> bytes) (st1 : I -> bstate) (l : I -> list (bytes * bytes)) : Prop := {
  af_only : forall i h x, In (h, x) (l i) -> exists j, x = c j;
  af_all : forall i j, In (c j) (map snd (l i)) \/ j = i /\ (0 < s_seqno (st i))%Z;
  af_keys : forall i j k rest, s_keys (st i) = k :: rest -> opens (B i) (B j) (st1 j) k (c i)
}.

(** ** change sets the library could have written (C92) *)
(** A change set lists, per key, [""] (set) or ["-"] (removed), a nested change set, or for a set the lists of the added
    and removed elements. *)
Definition plain_elem (x : bt) : bool := match x with BInt z => int64_ok z | BStr _ => true | _ => false end.
Fixpoint plain_change (e : bt) : bool :=
  match e with
  | BStr m => eqb m (b "") || eqb m (b "-")
  | BDict d => forallb (fun p => plain_change (snd p)) d
  | BList [BList add; BList rem] => forallb plain_elem add && forallb plain_elem rem
  | _ => false
  end.
(** its own changes, and those of the earlier messages it lists *)
Definition plain_msg (m : msg) : Prop :=
  plain_change (BDict (m_diff m)) = true /\ forall h df, In (h, df) (m_lagged m) -> plain_change (BDict df) = true.
(** every message received in a merge is such a message *)
Definition plainly (B : benv) (o : op) (st st' : bstate) : Prop :=
  tame B o st st' /\
  match o with
  | OpMerge l => forall mine inc, merge_sees B l st mine inc -> forall h s m, In (h, s) inc -> parse_msg (b_env B) false s = Ok m -> plain_msg m
  | _ => True
  end.
(** seqno far from the ends of the 64-bit range *)
Definition room (E : env) (z : Z) : Prop := (- 2 ^ 63 + e_lag E <= z)%Z /\ (z + e_lag E < 2 ^ 63)%Z.
(** A received message (decrypted, decompressed) is a config message of this kind, or one that is rejected as invalid. *)
Definition decent (E : env) (s : bytes) : Prop :=
  parse_msg E false s = Err \/ exists m, parse_msg E false s = Ok m /\ plain_msg m /\ room E (m_seqno m).
(** a group of devices that never received anything but such messages *)
Record plain_group {I : Type} (B : I -> benv) (st : I -> bstate) : Prop := {
  pg_group : group B st;
  pg_life : forall i, life (B i) plainly (st i);
  pg_room : forall i, (s_seqno (st i) + e_lag (b_env (B i)) < 2 ^ 63)%Z
}.
