(** Specification vocabulary used in statements: canonical messages, messages on the wire, what a change set says
    about one field (named by its path of keys), which messages of a list are current.  Definitions only. *)
From Verif Require Export Merge.

(** ** canonical messages *)
(** data whose strings and containers are short enough to be written with 64-bit lengths *)
Definition sendable_v (v : value) : Prop := bt_ok (bt_of_value v) = true.
Definition sendable (d : dict) : Prop := bt_ok (BDict (bt_of_dict d)) = true.
(** a change set that loads as itself *)
Definition diff_ok (d : btdict) : Prop := bt_ok (BDict d) = true /\ load_diff d = Ok d.
Definition lag_ok (p : shash * btdict) : Prop :=
  int64_ok (fst (fst p)) = true /\ length (snd (fst p)) = 32 /\ diff_ok (snd p).
Definition unknown_key (k : bytes) : bool :=
  ltb (b "#") k && ltb k (b "~") && negb (eqb k (b "&")) && negb (eqb k (b "<")) && negb (eqb k (b "=")).
Record msg_ok (E : env) (m : msg) : Prop := {
  ok_seqno : int64_ok (m_seqno m) = true;
  ok_wf : wf (m_data m) = true;
  ok_pruned : pruned (m_data m) = true;
  ok_send : sendable (m_data m);
  ok_diff : diff_ok (m_diff m);
  ok_lag_sorted : msorted (m_lagged m);
  ok_lag : Forall lag_ok (m_lagged m);
  ok_range : m_lagged m <> [] -> int64_ok (m_seqno m - e_lag E) = true;
  ok_unk_sorted : msorted (m_unknown m);
  ok_unk : Forall (fun p => unknown_key (fst p) = true /\ str_ok (fst p) = true /\ bt_ok (snd p) = true) (m_unknown m);
  ok_sig : forall s, m_vsig m = Some s -> length s = 64
}.

(** the lagged change sets inside the window that serialisation keeps *)
Definition windowed (E : env) (m : msg) : lagged_t :=
  filter (fun p => in_window E (m_seqno m) (fst (fst p))) (m_lagged m).


(** ** messages on the wire *)
(** the signature field, seen from the bytes: the message is [pre ++ c]; at [c] comes the key "~", then a 64-byte
    string, then the end of the dict, and the verifier accepted that string for [pre] *)
Definition signed_by (v : bytes -> bytes -> bool) (s sig g : bytes) : Prop :=
  exists pre c c1, s = pre ++ c /\ parse_str c = Some (b "~", c1) /\ parse_str c1 = Some (sig, "e"%char :: g) /\
    length sig = 64 /\ v pre sig = true.
(** how the fields of an accepted message appear in the top-level dict [d] of its bytes ([g]: bytes after it) *)
Definition top_key (k : bytes) : Prop := unknown_key k = true \/ In k [b "#"; b "&"; b "<"; b "="; b "~"].
Record on_wire (E : env) (s : bytes) (m : msg) (d : btdict) (g : bytes) : Prop := {
  ow_parse : parse1 s = Some (BDict d, g);
  ow_sorted : msorted d;
  ow_keys : forall k, In k (keys d) -> top_key k;
  ow_seqno : lookup (b "#") d = Some (BInt (m_seqno m));
  ow_data : lookup (b "&") d = Some (BDict (bt_of_dict (m_data m)));
  ow_unknown : forall k, unknown_key k = true -> lookup k (m_unknown m) = option_map norm (lookup k d);
  ow_sig : match m_vsig m with Some x => lookup (b "~") d = Some (BStr x) | None => True end;
  ow_verified : forall v, e_verifier E = Some v ->
    exists sig, m_vsig m = Some sig /\ lookup (b "~") d = Some (BStr sig) /\ signed_by v s sig g
}.


(** ** environments *)
Definition hash32 (E : env) : Prop := forall s, length (e_hash E s) = 32.
Definition signer_ok (E : env) : Prop :=
  forall v g x, e_verifier E = Some v -> e_signer E = Some g -> v x (g x) = true.
(** no two different messages of the list have the same BLAKE2b hash *)
Definition no_collision (E : env) (l : list bytes) : Prop :=
  forall s t, In s l -> In t l -> e_hash E s = e_hash E t -> s = t.

(** ** merge results and histories *)
Definition index_free (m : msg) : msg := set_unmerged None m.
(** two merge results agree in everything but the reported index *)
Definition same_result (m m' : msg) : Prop :=
  index_free m = index_free m' /\ (m_unmerged m = None <-> m_unmerged m' = None).

Definition listed (x : msg) (m2 : msg) : Prop := In (m_sh x) (keys (m_lagged m2)).
Definition stale_in (E : env) (ms : list msg) (x : msg) : Prop := exists m2, In m2 ms /\ (m_seqno x + e_lag E <= m_seqno m2)%Z.
(** in a consistent history every message lists everything its ancestors listed, unless out of its window *)
Definition consistent (E : env) (ms : list msg) : Prop :=
  forall x y z, In x ms -> In y ms -> In z ms -> listed x y -> listed y z -> listed x z \/ (m_seqno x + e_lag E <= m_seqno z)%Z.

(** ** change sets and fields *)

(** the change set mentions the field, or a container the field lives in *)
Fixpoint touches (p : list bytes) (df : btdict) : bool :=
  match p with
  | [] => true
  | k :: rest =>
      match lookup k df with
      | None => false
      | Some (BDict sub) => match rest with [] => true | _ => touches rest sub end
      | Some _ => true
      end
  end.
(** wherever the change set descends towards the field, the data it was published with has a dict there *)
Fixpoint agrees (p : list bytes) (df : btdict) (src : dict) : bool :=
  match p with
  | [] => true
  | k :: rest =>
      match lookup k df with
      | Some (BDict sub) =>
          match rest with
          | [] => true
          | _ => match lookup k src with Some (VDict sd) => agrees rest sub sd | _ => false end
          end
      | _ => true
      end
  end.
Definition leaves_alone (p : list bytes) (df : btdict) (src : dict) : Prop :=
  touches p df = false /\ agrees p df src = true.
(** the change set says the field was assigned, and the data it was published with has this scalar there *)
Fixpoint assigns (p : list bytes) (df : btdict) (src : dict) : option scalar :=
  match p with
  | [] => None
  | k :: rest =>
      match rest, lookup k df, lookup k src with
      | [], Some (BStr []), Some (VScal s) => Some s
      | _ :: _, Some (BDict sub), Some (VDict sd) => assigns rest sub sd
      | _, _, _ => None
      end
  end.
(** the change set says the field was removed and the data it was published with does not have it *)
Fixpoint removes (p : list bytes) (df : btdict) (src : dict) : bool :=
  match p with
  | [] => false
  | k :: rest =>
      match rest, lookup k df, lookup k src with
      | [], Some (BStr ["-"%char]), None => true
      | _ :: _, Some (BDict sub), Some (VDict sd) => removes rest sub sd
      | _, _, _ => false
      end
  end.
(** a change recorded in a message: its own, or one of the lagged ones it carries *)
Definition records (c : msg) (k : shash) (df : btdict) : Prop :=
  (k = m_sh c /\ df = m_diff c) \/ lookup k (m_lagged c) = Some df.

(** ** set elements *)
Definition has_elem (p : list bytes) (x : scalar) (d : dict) : bool :=
  match get_path p d with Some (VSet l) => mem x l | _ => false end.
Definition names (x : scalar) (l : list bt) : bool :=
  existsb (fun e => match scalar_of_bt e with Some y => eqb y x | None => false end) l.
(** What a change set, published with data [src], says about element [x] of the set at path [p]:
    [Some None] nothing, [Some (Some true)] added, [Some (Some false)] removed, [None] it replaces or removes the set
    (or a container around it) as a whole. *)
Fixpoint says_elem (p : list bytes) (x : scalar) (df : btdict) (src : dict) : option (option bool) :=
  match p with
  | [] => None
  | k :: rest =>
      match lookup k df with
      | None => Some None
      | Some (BDict sub) =>
          match rest with
          | [] => None
          | _ => match lookup k src with Some (VDict sd) => says_elem rest x sub sd | _ => None end
          end
      | Some (BList [BList add; BList rem]) =>
          match rest, lookup k src with
          | [], Some (VSet _) => Some (if names x rem then Some false else if names x add then Some true else None)
          | _, _ => None
          end
      | Some _ => None
      end
  end.
(** the messages a merge has to reconcile: those parsed, not included in another one and not too old *)
Definition reconciled (E : env) (ms : list msg) (c : msg) : Prop :=
  In c ms /\
  (forall m2, In m2 ms -> ~ In (m_sh c) (keys (m_lagged m2))) /\
  (forall m2, In m2 ms -> (m_seqno m2 < m_seqno c + e_lag E)%Z).
(** every change recorded with rank above [k] by a reconciled message leaves the field alone *)
Definition unchallenged (E : env) (ms : list msg) (k : shash) (p : list bytes) : Prop :=
  forall c k' df, reconciled E ms c -> records c k' df -> lt k k' -> leaves_alone p df (m_data c).

(** ** message objects reachable through the API: created, loaded, merged, incremented, edited (any data the edit
    methods can leave behind), serialised, in any order *)
Inductive reach (E : env) : config -> Prop :=
| reach_new : reach E (Plain (empty_msg E))
| reach_load trust s m : parse_msg E trust s = Ok m -> reach E (Plain m)
| reach_merge l m bad : no_collision E l -> merge_msgs E l = Ok (m, bad) -> reach E (Plain m)
| reach_merge_mutable l c bad : no_collision E l -> merge_mutable E l = Ok (c, bad) -> reach E c
| reach_mutable s c : mutable_of E s = Ok c -> reach E c
| reach_increment c c' : reach E c -> increment E c = Ok c' -> reach E c'
| reach_retain c : reach E c -> reach E (retain c)
| reach_edit m orig d : reach E (Mut m orig) -> wf d = true -> sendable d -> reach E (Mut (set_data m d) orig)
| reach_serialize c sg s c' : reach E c -> serialize E c sg = Ok (s, c') -> reach E c'.

(** the same object later in its life: incremented, made mutable, edited, serialised any number of times *)
Inductive derived (E : env) (c0 : config) : config -> Prop :=
| derived_refl : derived E c0 c0
| derived_increment c c' : derived E c0 c -> increment E c = Ok c' -> derived E c0 c'
| derived_retain c : derived E c0 c -> derived E c0 (retain c)
| derived_edit m orig d : derived E c0 (Mut m orig) -> wf d = true -> sendable d -> derived E c0 (Mut (set_data m d) orig)
| derived_serialize c sg s c' : derived E c0 c -> serialize E c sg = Ok (s, c') -> derived E c0 c'.

(** loading from storage: no verifier, the stored signature is kept (base.cpp 392-417) *)
Definition store_env (E : env) : env := mkEnv (e_hash E) None None (e_lag E).
(** two messages with the same published content *)
Definition same_content (E : env) (m m' : msg) : Prop :=
  m_seqno m' = m_seqno m /\ m_data m' = m_data m /\ m_diff m' = m_diff m /\ m_unknown m' = m_unknown m /\ m_lagged m' = windowed E m.

(** an integer where a change marker, a set change or a nested change set should be *)
Fixpoint stray_int (e : bt) : bool :=
  match e with BInt _ => true | BDict d => existsb (fun p => stray_int (snd p)) d | _ => false end.

(** an entry of the "<" list whose change set has one *)
Definition stray_lag (e : bt) : bool := match e with BList (_ :: _ :: d :: _) => stray_int d | _ => false end.

(** a dict field of the message under key [k], anywhere in the bytes *)
Definition field_in (s k : bytes) (v : bt) : Prop := exists c t, (exists p, s = p ++ c) /\ consume c = Ok (k, v, t).

(** the seqno field of a message, read from its bytes *)
Definition seqno_field (s : bytes) (z : Z) : Prop := exists s0 s1, s = "d"%char :: s0 /\ consume s0 = Ok (b "#", BInt z, s1).
