(** C05, C07-C12, C21: config messages.  Statements only; proofs are in the *_facts files. *)
From Verif Require Import Spec Data_facts Diff_facts Bt_facts Message_facts Parse_facts Merge_facts Replay_facts Resolve_facts Wire_facts Reach_facts Round_facts Redeliver_facts Overflow_facts Data2_facts Toy.

(** an example message with data, an unknown top-level field and a lagged change set *)
Definition ex_msg1 : bytes := Eval vm_compute in b "d1:#i10e1:&d1:ai1e1:gd1:xi5eee1:<l" ++
  b "li9e32:" ++ repeat "z"%char 32 ++ b "d1:a0:ee" ++ b "e1:=d1:gd1:x0:ee2:UUi77ee".
Definition ex_m1 : msg := Eval vm_compute in get_ok (empty_msg toy) (parse_msg toy false ex_msg1).
Example ex_msg1_ok : parse_msg toy false ex_msg1 = Ok ex_m1 /\ m_seqno ex_m1 = 10%Z /\ length (m_lagged ex_m1) = 1 /\ m_unknown ex_m1 = [(b "UU", BInt 77)].
Proof. vm_compute. repeat split. Qed.
Definition ex_data2 : dict := [(b "a", VScal (SInt 1)); (b "g", VDict [(b "x", VScal (SStr (b "changed"))); (b "y", VSet [SInt 2])])].
(** ... loaded, incremented and edited *)
Definition ex_c2 : config := Eval vm_compute in
  match increment toy (Plain ex_m1) with Ok (Mut m o) => Mut (set_data m ex_data2) o | _ => Plain ex_m1 end.
Lemma ex_c2_reach : reach toy ex_c2.
Proof.
  assert (h : exists m o, increment toy (Plain ex_m1) = Ok (Mut m o) /\ ex_c2 = Mut (set_data m ex_data2) o).
  { eexists. eexists. split; [vm_compute; reflexivity|vm_compute; reflexivity]. }
  destruct h as (m & o & h & ->). apply reach_edit; [|reflexivity|reflexivity]. eapply reach_increment; [|exact h].
  eapply reach_load. apply ex_msg1_ok.
Qed.

(** ** C05 *)
(** For every object reachable by creating, loading, merging, incrementing, editing and serialising, computing its
    change set (the first step of serialising, incrementing and diff()) is defined. *)
Theorem C05_diff_defined E c : hash32 E -> (1 <= e_lag E)%Z -> reach E c -> exists c', refresh c = Ok c'.
Proof. intros h32 hlag hr. exact (refresh_no_ub E c (reach_ok E c h32 hlag hr)). Qed.
Print Assumptions C05_diff_defined.
(** the dereference is really reachable for unpruned data: the theorem rests on the prune calls *)
Example ex_C05_unpruned : diff [] [(b "a", VDict [])] = None /\ refresh (Mut (set_data ex_m1 [(b "a", VDict [])]) []) <> UB.
Proof. split; [reflexivity|discriminate]. Qed.
Example ex_C05 : reach toy ex_c2 /\ hash32 toy /\ (1 <= e_lag toy)%Z.
Proof. split; [exact ex_c2_reach|]. split; [apply toy_hash32|discriminate]. Qed.

(** ** C07 *)
(** Storing: any reachable object, serialised with or without signing, loads back (without a verifier, keeping the
    signature, as a dump does) with the same content, and serialises to the identical bytes again. *)
Theorem C07_store E c sg s c' :
  hash32 E -> (1 <= e_lag E)%Z -> reach E c -> serialize E c sg = Ok (s, c') ->
  exists m', parse_msg (store_env E) true s = Ok m' /\ same_content E (c_msg c') m' /\ serialize E (Plain m') false = Ok (s, Plain m').
Proof. exact (store_roundtrip E c sg s c'). Qed.
(** Publishing: the same through the verifying parser, for a message that does not carry a foreign signature. *)
Theorem C07_publish E c s c' :
  hash32 E -> (1 <= e_lag E)%Z -> signer_ok E -> read_only E = false -> reach E c ->
  serialize E c true = Ok (s, c') -> m_vsig (c_msg c') = None ->
  exists m', parse_msg E false s = Ok m' /\ same_content E (c_msg c') m' /\ serialize E (Plain m') true = Ok (s, Plain m').
Proof. exact (publish_roundtrip E c s c'). Qed.
Print Assumptions C07_store.
Print Assumptions C07_publish.
Example ex_C07 : exists s c', serialize toy ex_c2 true = Ok (s, c') /\ m_vsig (c_msg c') = None /\ read_only toy = false /\ length (m_lagged (c_msg c')) = 2.
Proof. eexists. eexists. split; [vm_compute; reflexivity|]. repeat split. Qed.
(** The signed case needs the restriction: a validly signed message that leaves out the "<" field is accepted, but
    its signature does not fit the bytes it is serialised to again. *)
Definition ex_noncanon_body : bytes := Eval vm_compute in b "d1:#i1e1:&d1:ai1ee1:=d1:a0:e".
Definition ex_noncanon : bytes := Eval vm_compute in with_sig ex_noncanon_body (toy_sign ex_noncanon_body).
Theorem C07_foreign_signature_refuted :
  exists E s m s', signer_ok E /\ parse_msg E false s = Ok m /\ serialize E (Plain m) true = Ok (s', Plain m) /\ parse_msg E false s' = Err.
Proof.
  exists toy_admin, ex_noncanon. eexists. eexists. split; [exact toy_signer_ok|]. split; [vm_compute; reflexivity|].
  split; [vm_compute; reflexivity|vm_compute; reflexivity].
Qed.
Print Assumptions C07_foreign_signature_refuted.

(** ** C08 *)
Theorem C08_accepts_canonical E t s m : parse_msg E t s = Ok m ->
  int64_ok (m_seqno m) = true /\
  wf (m_data m) = true /\
  (forall p, p <> [] -> get_path p (m_data m) <> Some (VSet []) /\ get_path p (m_data m) <> Some (VDict [])) /\
  msorted (m_lagged m) /\
  (forall k df, In (k, df) (m_lagged m) -> (m_seqno m - e_lag E < fst k < m_seqno m)%Z /\ length (snd k) = 32 /\ load_diff df = Ok df) /\
  load_diff (m_diff m) = Ok (m_diff m) /\
  exists d g, on_wire E s m d g.
Proof. exact (parse_canonical E t s m). Qed.
Print Assumptions C08_accepts_canonical.
Example ex_C08 : parse_msg toy false ex_msg1 = Ok ex_m1 /\
  parse_msg toy false (b "d1:#i10e1:&d1:bi1e1:ai1eee") = Err /\ parse_msg toy false (b "d1:#i10e1:&d1:adeee") = Err /\
  parse_msg toy false (b "d1:#i10e1:&d1:ali2ei1eeee") = Err.
Proof. vm_compute. repeat split. Qed.

(** ** C09 *)
(** [d] and [d'] are the top-level dicts of the received and of the re-serialised message; up to the order of nested
    dict entries ([norm]) every field with an unknown key is the same. *)
Theorem C09_unknown_survives E t s m c sg s' c' : hash32 E -> (1 <= e_lag E)%Z ->
  parse_msg E t s = Ok m -> derived E (Plain m) c -> serialize E c sg = Ok (s', c') ->
  exists d g d' g', parse1 s = Some (BDict d, g) /\ parse1 s' = Some (BDict d', g') /\
    forall k, unknown_key k = true -> option_map norm (lookup k d') = option_map norm (lookup k d).
Proof. exact (unknown_survives E t s m c sg s' c'). Qed.
Print Assumptions C09_unknown_survives.
Lemma ex_c2_derived : derived toy (Plain ex_m1) ex_c2.
Proof.
  assert (h : exists m o, increment toy (Plain ex_m1) = Ok (Mut m o) /\ ex_c2 = Mut (set_data m ex_data2) o).
  { eexists. eexists. split; [vm_compute; reflexivity|vm_compute; reflexivity]. }
  destruct h as (m & o & h & ->). apply derived_edit; [|reflexivity|reflexivity]. eapply derived_increment; [apply derived_refl|exact h].
Qed.
Example ex_C09 : exists s' c', parse_msg toy false ex_msg1 = Ok ex_m1 /\ derived toy (Plain ex_m1) ex_c2 /\ serialize toy ex_c2 true = Ok (s', c') /\
  unknown_key (b "UU") = true /\ exists g d', parse1 s' = Some (BDict d', g) /\ lookup (b "UU") d' = Some (BInt 77).
Proof.
  eexists. eexists. split; [apply ex_msg1_ok|]. split; [exact ex_c2_derived|]. split; [vm_compute; reflexivity|]. split; [reflexivity|].
  eexists. eexists. split; [vm_compute; reflexivity|vm_compute; reflexivity].
Qed.

(** ** C10: false. *)
Definition ex_u1 : bytes := Eval vm_compute in b "d1:#i1e1:&d1:ai1ee1:<le1:=d1:a0:e2:UUi77ee".
Definition ex_u2 : bytes := Eval vm_compute in b "d1:#i1e1:&d1:bi1ee1:<le1:=d1:b0:e2:UUi77ee".
(** Both conflicting messages carry the unknown field "UU" with the same value; the message published for the merge does
    not have it. *)
Theorem C10_unknown_dropped_by_merge_refuted :
  exists E l m bad s d g k v, hash32 E /\ no_collision E l /\ (forall t, In t l -> exists d g, parse1 t = Some (BDict d, g) /\ lookup k d = Some v) /\
    merge_msgs E l = Ok (m, bad) /\ bad = [] /\ serialize E (Plain m) true = Ok (s, Plain m) /\ unknown_key k = true /\
    parse1 s = Some (BDict d, g) /\ lookup k d = None.
Proof.
  exists toy, [ex_u1; ex_u2]. eexists. eexists. eexists. eexists. eexists. exists (b "UU"), (BInt 77).
  split; [apply toy_hash32|]. split; [apply no_collisionb_ok; vm_compute; reflexivity|]. split.
  { intros t [<-|[<-|[]]]; (eexists; eexists; split; [vm_compute; reflexivity|vm_compute; reflexivity]). }
  split; [vm_compute; reflexivity|]. split; [reflexivity|]. split; [vm_compute; reflexivity|]. split; [reflexivity|].
  split; [vm_compute; reflexivity|vm_compute; reflexivity].
Qed.
Print Assumptions C10_unknown_dropped_by_merge_refuted.

(** ** C11 *)
(** With a verifier [v], an accepted message is [pre ++ "1:~64:" sig "e" g] (the key and the length in any decimal
    spelling the parser reads) and [v] accepted [sig] for exactly [pre]; nothing follows the signature inside the
    message ([g] are bytes after the closing "e", which are ignored, see C61). *)
Theorem C11_only_signed E t s m v : parse_msg E t s = Ok m -> e_verifier E = Some v ->
  exists pre c c1 sig g, s = pre ++ c /\ parse_str c = Some (b "~", c1) /\ parse_str c1 = Some (sig, b "e" ++ g) /\
    length sig = 64 /\ v pre sig = true /\ m_vsig m = Some sig.
Proof. exact (accepted_signed E t s m v). Qed.
Print Assumptions C11_only_signed.
Definition ex_signed : bytes := Eval vm_compute in let x := b "d1:#i1e1:&d1:ai1ee1:<le1:=d1:a0:e" in with_sig x (toy_sign x).
Example ex_C11 : (exists m, parse_msg toy_reader false ex_signed = Ok m) /\
  parse_msg toy_reader false (b "d1:#i1e1:&d1:ai1ee1:<le1:=d1:a0:ee") = Err /\
  parse_msg toy_reader false (let x := b "d1:#i2e1:&d1:ai1ee1:<le1:=d1:a0:e" in with_sig x (toy_sign (b "other"))) = Err.
Proof. split; [eexists; vm_compute; reflexivity|]. split; vm_compute; reflexivity. Qed.

(** ** C12 *)
(** [E] is the publishing client, [E'] any client with the same lag whose verifier accepts the signer's signatures. *)
Theorem C12_signed_verifies E E' v c s c' g : hash32 E -> (1 <= e_lag E)%Z -> reach E c ->
  e_signer E = Some g -> serialize E c true = Ok (s, c') -> m_vsig (c_msg c') = None ->
  e_lag E' = e_lag E -> e_verifier E' = Some v -> (forall x, v x (g x) = true) ->
  (exists m', parse_msg E' false s = Ok m' /\ same_content E (c_msg c') m' /\ snd (m_sh m') = e_hash E' s) /\
  exists content, s = content ++ b "1:~64:" ++ g content ++ b "e" /\ length (g content) = 64.
Proof. exact (signed_verifies E E' v c s c' g). Qed.
Print Assumptions C12_signed_verifies.
(** a freshly created or edited (mutable) object never carries an old signature *)
Theorem C12_mutable_unsigned E m o sg s c' : serialize E (Mut m o) sg = Ok (s, c') -> m_vsig (c_msg c') = None.
Proof. exact (mutable_unsigned E m o sg s c'). Qed.
Print Assumptions C12_mutable_unsigned.
Definition ex_c12 : config := Eval vm_compute in
  match increment toy_admin (Plain (empty_msg toy_admin)) with Ok (Mut m o) => Mut (set_data m ex_data2) o | _ => Plain ex_m1 end.
Example ex_C12 : reach toy_admin ex_c12 /\ exists s c', serialize toy_admin ex_c12 true = Ok (s, c') /\ exists m', parse_msg toy_reader false s = Ok m' /\ m_data m' = ex_data2.
Proof.
  split.
  - assert (h : exists m o, increment toy_admin (Plain (empty_msg toy_admin)) = Ok (Mut m o) /\ ex_c12 = Mut (set_data m ex_data2) o).
    { eexists. eexists. split; [vm_compute; reflexivity|vm_compute; reflexivity]. }
    destruct h as (m & o & h & ->). apply reach_edit; [|reflexivity|reflexivity]. eapply reach_increment; [apply reach_new|exact h].
  - eexists. eexists. split; [vm_compute; reflexivity|]. eexists. split; [vm_compute; reflexivity|vm_compute; reflexivity].
Qed.

(** ** C21: false. *)
(** A 30-byte message on which the parser never returns: an integer inside the change set. *)
Theorem C21_parsing_terminates_refuted : exists s, forall E t, parse_msg E t s = Hang.
Proof. exists (b "d1:#i1e1:&de1:<le1:=d1:ai1eee"). intros E t. reflexivity. Qed.
Print Assumptions C21_parsing_terminates_refuted.
(** That is the only way: if no change set in the message contains an integer, parsing returns.  (Missing from the full
    claim: messages that do.) *)
Theorem C21_parsing_terminates_partial E t s :
  (forall d, field_in s (b "=") (BDict d) -> stray_int (BDict d) = false) ->
  (forall l, field_in s (b "<") (BList l) -> forall e, In e l -> stray_lag e = false) ->
  parse_msg E t s <> Hang.
Proof. exact (parse_terminates E t s). Qed.
Print Assumptions C21_parsing_terminates_partial.
Example ex_C21 : stray_int (BDict [(b "a", BStr []); (b "g", BDict [(b "x", BStr (b "-"))])]) = false /\ stray_int (BDict [(b "g", BDict [(b "x", BInt 1)])]) = true /\ field_in (b "d1:#i1e1:&de1:<le1:=d1:ai1eee") (b "=") (BDict [(b "a", BInt 1)]).
Proof. split; [reflexivity|]. split; [reflexivity|]. exists (b "1:=d1:ai1eee"), (b "e"). split; [exists (b "d1:#i1e1:&de1:<le"); reflexivity|vm_compute; reflexivity]. Qed.
