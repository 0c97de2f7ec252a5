(** C13-C20, C22, C61, C62: merging.  Statements only; proofs are in the *_facts files. *)
From Verif Require Import Spec Data_facts Diff_facts Bt_facts Message_facts Parse_facts Merge_facts Replay_facts Resolve_facts Wire_facts Reach_facts Round_facts Redeliver_facts Adopt_facts Overflow_facts Merge2_facts Data2_facts Signed_facts Conflict_facts Toy.

(** Example messages: a common base (seqno 1), two conflicting successors (seqno 2), and their resolution. *)
Definition x_base : bytes := Eval vm_compute in get_ok [] (edit_of toy (empty_msg toy) [(b "f", VScal (SInt 1)); (b "s", VSet [SInt 1])]).
Definition x_A : bytes := Eval vm_compute in get_ok [] (edit_of toy (parsed toy x_base) [(b "a", VScal (SInt 7)); (b "f", VScal (SInt 1)); (b "s", VSet [SInt 1; SInt 2])]).
Definition x_B : bytes := Eval vm_compute in get_ok [] (edit_of toy (parsed toy x_base) [(b "b", VScal (SInt 8)); (b "s", VSet [SInt 3])]).
Definition x_m : msg := Eval vm_compute in fst (get_ok (empty_msg toy, []) (merge_msgs toy [x_base; x_A; x_B])).
Definition x_M : bytes := Eval vm_compute in fst (get_ok ([], Plain x_m) (serialize toy (Plain x_m) true)).
Example x_merge : merge_msgs toy [x_base; x_A; x_B] = Ok (x_m, []) /\ m_unmerged x_m = None /\ serialize toy (Plain x_m) true = Ok (x_M, Plain x_m) /\
  m_data x_m = [(b "a", VScal (SInt 7)); (b "b", VScal (SInt 8)); (b "s", VSet [SInt 2; SInt 3])] /\ m_seqno x_m = 3%Z.
Proof. vm_compute. repeat split. Qed.
Example x_nc : no_collision toy [x_M; x_base; x_A; x_B].
Proof. apply no_collisionb_ok. vm_compute. reflexivity. Qed.

(** ** C13 and C17 *)
Theorem C13_order_independent E l l' m bad :
  (1 <= e_lag E)%Z -> no_collision E l -> Permutation l l' -> merge_msgs E l = Ok (m, bad) ->
  exists m' bad', merge_msgs E l' = Ok (m', bad') /\ same_result m m' /\
    forall sg s, serialize E (Plain m) sg = Ok (s, Plain m) -> serialize E (Plain m') sg = Ok (s, Plain m').
Proof.
  intros h1 h2 hp. apply (merge_order_free E l l' m bad h1 h2). intros s. split; apply Permutation_in; [exact hp|symmetry; exact hp].
Qed.
Theorem C17_duplicates_ignored E l l' m bad :
  (1 <= e_lag E)%Z -> no_collision E l -> (forall s, In s l <-> In s l') -> merge_msgs E l = Ok (m, bad) ->
  exists m' bad', merge_msgs E l' = Ok (m', bad') /\ same_result m m' /\
    forall sg s, serialize E (Plain m) sg = Ok (s, Plain m) -> serialize E (Plain m') sg = Ok (s, Plain m').
Proof. exact (merge_order_free E l l' m bad). Qed.
Print Assumptions C13_order_independent.
Print Assumptions C17_duplicates_ignored.
Example ex_C13 : no_collision toy [x_base; x_A; x_B] /\ merge_msgs toy [x_B; x_A; x_B; x_base] = Ok (x_m, []).
Proof. split; [apply no_collisionb_ok; vm_compute; reflexivity|vm_compute; reflexivity]. Qed.

(** ** C14 *)
(** Exactly one current message: it is the result, and the index reported designates it among the messages accepted. *)
Theorem C14_single_adopted E l ms bad s x : no_collision E l -> (1 <= e_lag E)%Z -> parse_all E 0 l = Ok (ms, bad) ->
  (forall m, In m ms -> int64_ok (m_seqno m + e_lag E) = true) ->
  In s l -> parse_msg E false s = Ok x -> (forall y, reconciled E ms y -> y = x) ->
  exists i, merge_msgs E l = Ok (set_unmerged (Some i) x, bad) /\ nth_error ms i = Some x.
Proof. exact (merge_msgs_single E l ms bad s x). Qed.
(** Conversely an unmerged result is one of the inputs, current, and (if the client can sign) the only current one. *)
Theorem C14_unmerged_is_input E l m bad ms i : no_collision E l -> parse_all E 0 l = Ok (ms, bad) -> merge_msgs E l = Ok (m, bad) ->
  m_unmerged m = Some i -> exists s x, In s l /\ parse_msg E false s = Ok x /\ m = set_unmerged (Some i) x /\ nth_error ms i = Some x /\ reconciled E ms x /\
    (read_only E = false -> forall y, reconciled E ms y -> y = x).
Proof. exact (merge_msgs_adopts E l m bad ms i). Qed.
(** If every message parses, the index is the position in the list given to the merge. *)
Theorem C14_index_all_parsed E l m i : merge_msgs E l = Ok (m, []) -> m_unmerged m = Some i ->
  exists s x, nth_error l i = Some s /\ parse_msg E false s = Ok x /\ m = set_unmerged (Some i) x.
Proof. exact (merge_msgs_index E l m i). Qed.
(** Otherwise it is not: after an unparseable message the reported index is the position of another message. *)
Theorem C14_index_refuted : exists E l m bad i s, merge_msgs E l = Ok (m, bad) /\ m_unmerged m = Some i /\ nth_error l i = Some s /\ parse_msg E false s = Err.
Proof. exists toy, [b "dx"; x_A]. eexists. eexists. eexists. eexists. split; [vm_compute; reflexivity|]. split; [reflexivity|]. split; [reflexivity|reflexivity]. Qed.
Print Assumptions C14_single_adopted.
Print Assumptions C14_unmerged_is_input.
Print Assumptions C14_index_all_parsed.
Print Assumptions C14_index_refuted.
Example ex_C14 : exists m, merge_msgs toy [x_base; x_M; x_A] = Ok (m, []) /\ m_unmerged m = Some 1 /\ m_data m = m_data x_m.
Proof. eexists. split; [vm_compute; reflexivity|]. split; vm_compute; reflexivity. Qed.

(** ** C15 *)
Theorem C15_resolution_seqno E l m bad ms : no_collision E l -> merge_msgs E l = Ok (m, bad) -> m_unmerged m = None -> parse_all E 0 l = Ok (ms, bad) ->
  (forall x, In x ms -> (m_seqno x < m_seqno m)%Z) /\ exists x, In x ms /\ m_seqno m = (m_seqno x + 1)%Z.
Proof. exact (conflict_seqno E l m bad ms). Qed.
(** Publishing the resolution - directly, or after further edits that keep its seqno - and merging the published
    message with any of the inputs again adopts it unchanged.  [consistent]: every message of the list includes what the
    messages it includes include (true of messages made by this code, see ex_C15). *)
Theorem C15_resolved_once E l m bad ms c0 c s c' l' :
  hash32 E -> (1 <= e_lag E)%Z -> signer_ok E -> no_collision E (s :: l) ->
  merge_msgs E l = Ok (m, bad) -> m_unmerged m = None -> parse_all E 0 l = Ok (ms, bad) -> consistent E ms ->
  int64_ok (m_seqno m + e_lag E) = true ->
  In c0 [Plain m; retain (Plain m); Mut m (m_data m)] -> derived E c0 c -> m_seqno (c_msg c) = m_seqno m ->
  serialize E c true = Ok (s, c') ->
  In s l' -> incl l' (s :: l) ->
  exists M i bad', parse_msg E false s = Ok M /\ same_content E (c_msg c') M /\ merge_msgs E l' = Ok (set_unmerged (Some i) M, bad').
Proof. exact (redelivery E l m bad ms c0 c s c' l'). Qed.
Print Assumptions C15_resolution_seqno.
Print Assumptions C15_resolved_once.
Example ex_C15 : consistent toy [parsed toy x_base; parsed toy x_A; parsed toy x_B] /\
  parse_all toy 0 [x_base; x_A; x_B] = Ok ([parsed toy x_base; parsed toy x_A; parsed toy x_B], []) /\
  int64_ok (m_seqno x_m + e_lag toy) = true /\ derived toy (Plain x_m) (Plain x_m).
Proof. split; [apply consistentb_ok; vm_compute; reflexivity|]. split; [vm_compute; reflexivity|]. split; [vm_compute; reflexivity|apply derived_refl]. Qed.

(** ** C16 *)
Theorem C16_stale_ignored E l1 s l2 m bad x t y :
  (1 <= e_lag E)%Z -> no_collision E (l1 ++ s :: l2) -> parse_msg E false s = Ok x ->
  In t (l1 ++ l2) -> parse_msg E false t = Ok y -> (m_seqno x + e_lag E <= m_seqno y)%Z ->
  merge_msgs E (l1 ++ s :: l2) = Ok (m, bad) ->
  exists m' bad', merge_msgs E (l1 ++ l2) = Ok (m', bad') /\ same_result m m' /\
    forall sg r, serialize E (Plain m) sg = Ok (r, Plain m) -> serialize E (Plain m') sg = Ok (r, Plain m').
Proof. exact (merge_stale E l1 s l2 m bad x t y). Qed.
Print Assumptions C16_stale_ignored.
Definition x_new : bytes := Eval vm_compute in b "d1:#i6e1:&d1:qi1ee1:<le1:=d1:q0:ee".
Example ex_C16 : no_collision toy ([x_new] ++ x_base :: [x_A]) /\ parse_msg toy false x_base = Ok (parsed toy x_base) /\ parse_msg toy false x_new = Ok (parsed toy x_new) /\
  (m_seqno (parsed toy x_base) + e_lag toy <= m_seqno (parsed toy x_new))%Z /\ exists m, merge_msgs toy ([x_new] ++ x_base :: [x_A]) = Ok (m, []).
Proof. split; [apply no_collisionb_ok; vm_compute; reflexivity|]. split; [vm_compute; reflexivity|]. split; [vm_compute; reflexivity|]. split; [vm_compute; discriminate|eexists; vm_compute; reflexivity]. Qed.

(** ** C18 *)
(** A message rejected with a config_error is skipped and reported. *)
Theorem C18_rejected_ignored_partial E s l1 l2 m bad : parse_msg E false s = Err -> merge_msgs E (l1 ++ l2) = Ok (m, bad) ->
  exists bad', merge_msgs E (l1 ++ s :: l2) = Ok (m, bad') /\ In (length l1) bad'.
Proof. exact (merge_msgs_err E s l1 l2 m bad). Qed.
(** Exactly the rejected messages are reported. *)
Theorem C18_reported E l ms bad : parse_all E 0 l = Ok (ms, bad) ->
  forall n, In n bad <-> exists k s, n = 0 + k /\ nth_error l k = Some s /\ parse_msg E false s = Err.
Proof. exact (parse_all_bad E l 0 ms bad). Qed.
(** Three kinds of bad input do stop the merge although a valid message is present: input that is not a dict at all,
    a change set with an integer in it, an integer above 2^63-1 in a set change; and one that is accepted makes replay throw. *)
Theorem C18_bad_input_aborts_refuted :
  exists E good, (exists m, merge_msgs E [good] = Ok (m, [])) /\
    merge_msgs E [good; b "x"] = Throw /\
    merge_msgs E [good; b "d1:#i1e1:&de1:<le1:=d1:ai1eee"] = Hang /\
    merge_msgs E [good; b "d1:#i1e1:&de1:<le1:=d1:all1:ai18446744073709551615eeleeee"] = Throw /\
    merge_msgs E [good; b "d1:#i2e1:&d1:sli1eee1:<le1:=d1:sllleeleeee"] = Throw.
Proof. exists toy, x_A. split; [eexists; vm_compute; reflexivity|]. repeat split; vm_compute; reflexivity. Qed.
Print Assumptions C18_rejected_ignored_partial.
Print Assumptions C18_reported.
Print Assumptions C18_bad_input_aborts_refuted.
Example ex_C18 : parse_msg toy false (b "d1:#i5e1:&d1:bi1e1:ai1eee") = Err /\ merge_msgs toy [x_A; b "d1:#i5e1:&d1:bi1e1:ai1eee"; x_B; x_base] =
  Ok (x_m, [1]).
Proof. split; vm_compute; reflexivity. Qed.

(** ** C19 *)
Theorem C19_reader_follows_highest E l m bad ms : no_collision E l -> (1 <= e_lag E)%Z -> read_only E = true -> parse_all E 0 l = Ok (ms, bad) -> merge_msgs E l = Ok (m, bad) ->
  exists s x i, In s l /\ parse_msg E false s = Ok x /\ m = set_unmerged (Some i) x /\ nth_error ms i = Some x /\ reconciled E ms x /\
    forall y, reconciled E ms y -> leb (m_sh y) (m_sh x) = true.
Proof. exact (merge_msgs_ro E l m bad ms). Qed.
Print Assumptions C19_reader_follows_highest.
Definition signed (x : bytes) : bytes := with_sig x (toy_sign x).
Definition x_s1 : bytes := Eval vm_compute in signed (b "d1:#i1e1:&d1:ai1ee1:<le1:=d1:a0:e").
Definition x_s2 : bytes := Eval vm_compute in signed (b "d1:#i1e1:&d1:ai2ee1:<le1:=d1:a0:e").
Example ex_C19 : read_only toy_reader = true /\ no_collision toy_reader [x_s1; x_s2] /\
  exists m ms i, parse_all toy_reader 0 [x_s1; x_s2] = Ok (ms, []) /\ merge_msgs toy_reader [x_s1; x_s2] = Ok (m, []) /\ m_unmerged m = Some i /\ (exists m2, merge_msgs toy_admin [x_s1; x_s2] = Ok (m2, []) /\ m_unmerged m2 = None).
Proof.
  split; [reflexivity|]. split; [apply no_collisionb_ok; vm_compute; reflexivity|]. eexists. eexists. eexists. split; [vm_compute; reflexivity|]. split; [vm_compute; reflexivity|].
  split; [vm_compute; reflexivity|]. eexists. split; [vm_compute; reflexivity|reflexivity].
Qed.

(** ** C20 *)
(** A scalar ends with the value of the highest-ranked change that assigned it (k: rank of the change, recorded by the
    reconciled message c either as its own or as a lagged change), provided every higher-ranked change leaves the field alone. *)
Theorem C20_assignment_wins E l m bad ms c k df p s :
  no_collision E l -> parse_all E 0 l = Ok (ms, bad) -> merge_msgs E l = Ok (m, bad) -> m_unmerged m = None -> p <> [] ->
  reconciled E ms c -> records c k df -> (forall n df', reconciled E ms n -> records n k df' -> leb (m_sh n) (m_sh c) = true) ->
  assigns p df (m_data c) = Some s -> unchallenged E ms k p -> get_path p (m_data m) = Some (VScal s).
Proof. exact (conflict_assign E l m bad ms c k df p s). Qed.
(** ... in particular the own change of a reconciled message. *)
Theorem C20_own_assignment_wins E l m bad ms c p s :
  no_collision E l -> parse_all E 0 l = Ok (ms, bad) -> merge_msgs E l = Ok (m, bad) -> m_unmerged m = None -> p <> [] ->
  reconciled E ms c -> assigns p (m_diff c) (m_data c) = Some s -> unchallenged E ms (m_sh c) p -> get_path p (m_data m) = Some (VScal s).
Proof.
  intros h1 h2 h3 h4 h5 h6 h7 h8. destruct (own_wins E l bad ms c h1 h2 h6) as [o1 o2].
  exact (conflict_assign E l m bad ms c _ _ p s h1 h2 h3 h4 h5 h6 o1 o2 h7 h8).
Qed.
Theorem C20_removal_wins E l m bad ms c k df p :
  no_collision E l -> parse_all E 0 l = Ok (ms, bad) -> merge_msgs E l = Ok (m, bad) -> m_unmerged m = None -> p <> [] ->
  reconciled E ms c -> records c k df -> (forall n df', reconciled E ms n -> records n k df' -> leb (m_sh n) (m_sh c) = true) ->
  removes p df (m_data c) = true -> unchallenged E ms k p -> get_path p (m_data m) = None.
Proof. exact (conflict_remove E l m bad ms c k df p). Qed.
Theorem C20_set_element_wins E l m bad ms c k df p x y :
  no_collision E l -> parse_all E 0 l = Ok (ms, bad) -> merge_msgs E l = Ok (m, bad) -> m_unmerged m = None -> p <> [] ->
  reconciled E ms c -> records c k df -> (forall n df', reconciled E ms n -> records n k df' -> leb (m_sh n) (m_sh c) = true) ->
  says_elem p x df (m_data c) = Some (Some y) ->
  (forall c' k' df', reconciled E ms c' -> records c' k' df' -> lt k k' -> says_elem p x df' (m_data c') = Some None) ->
  has_elem p x (m_data m) = y.
Proof. exact (conflict_elem E l m bad ms c k df p x y). Qed.
Theorem C20_untouched_kept E l m bad ms p :
  no_collision E l -> parse_all E 0 l = Ok (ms, bad) -> merge_msgs E l = Ok (m, bad) -> m_unmerged m = None -> p <> [] ->
  (forall c k df, reconciled E ms c -> records c k df -> leaves_alone p df (m_data c)) ->
  exists top, reconciled E ms top /\ (forall n, reconciled E ms n -> leb (m_sh n) (m_sh top) = true) /\
    get_path p (m_data m) = get_path p (m_data top).
Proof. exact (conflict_untouched E l m bad ms p). Qed.
(** "No independent change is lost" is false as stated.  B adds a/y; A concurrently removes a/x and nothing else of "a"
    (plus an unrelated field n).  Only B touches a/y, yet the merge loses it. *)
Definition y_base : bytes := Eval vm_compute in get_ok [] (edit_of toy (empty_msg toy) [(b "a", VDict [(b "x", VScal (SInt 1))])]).
Definition y_A : bytes := Eval vm_compute in get_ok [] (edit_of toy (parsed toy y_base) [(b "n", VScal (SInt 0))]).
Definition y_B : bytes := Eval vm_compute in get_ok [] (edit_of toy (parsed toy y_base) [(b "a", VDict [(b "x", VScal (SInt 1)); (b "y", VScal (SInt 2))])]).
Theorem C20_independent_change_lost_refuted :
  exists m, merge_msgs toy [y_A; y_B] = Ok (m, []) /\ m_unmerged m = None /\
    get_path [b "a"; b "y"] (m_data (parsed toy y_base)) = None /\
    assigns [b "a"; b "y"] (m_diff (parsed toy y_B)) (m_data (parsed toy y_B)) = Some (SInt 2) /\
    touches [b "a"; b "y"] (m_diff (parsed toy y_A)) = false /\
    get_path [b "a"; b "y"] (m_data m) = None.
Proof. eexists. split; [vm_compute; reflexivity|]. repeat split; vm_compute; reflexivity. Qed.
Print Assumptions C20_assignment_wins.
Print Assumptions C20_own_assignment_wins.
Print Assumptions C20_removal_wins.
Print Assumptions C20_set_element_wins.
Print Assumptions C20_untouched_kept.
Print Assumptions C20_independent_change_lost_refuted.
Example ex_C20 : reconciled toy [parsed toy x_base; parsed toy x_A; parsed toy x_B] (parsed toy x_A) /\
  assigns [b "a"] (m_diff (parsed toy x_A)) (m_data (parsed toy x_A)) = Some (SInt 7) /\
  unchallenged toy [parsed toy x_base; parsed toy x_A; parsed toy x_B] (m_sh (parsed toy x_A)) [b "a"].
Proof.
  assert (hr : reconciledb toy [parsed toy x_base; parsed toy x_A; parsed toy x_B] (parsed toy x_A) = true) by (vm_compute; reflexivity).
  split; [apply reconciledb_ok; [cbn; auto|exact hr]|]. split; [vm_compute; reflexivity|].
  apply unchallengedb_ok. vm_compute. reflexivity.
Qed.

(** ** C22 *)
(** If the seqno fields stay [lag] away from the ends of the 64-bit range, nothing in a merge overflows. *)
Theorem C22_no_overflow_partial E l : no_collision E l -> (1 <= e_lag E)%Z ->
  (forall s z, In s l -> seqno_field s z -> (- 2 ^ 63 + e_lag E <= z)%Z /\ (z + e_lag E < 2 ^ 63)%Z) -> merge_msgs E l <> UB.
Proof. exact (merge_msgs_no_ub E l). Qed.
(** Otherwise it does: one valid message with the largest seqno makes a merge undefined. *)
Theorem C22_overflow_refuted : exists E s m t m', parse_msg E false s = Ok m /\ parse_msg E false t = Ok m' /\ merge_msgs E [t] <> UB /\ merge_msgs E [t; s] = UB.
Proof. exists toy, (b "d1:#i9223372036854775807e1:&de1:<le1:=dee"). eexists. exists x_A. eexists. split; [vm_compute; reflexivity|]. split; [vm_compute; reflexivity|].
  split; [vm_compute; discriminate|vm_compute; reflexivity]. Qed.
Print Assumptions C22_no_overflow_partial.
Print Assumptions C22_overflow_refuted.
Example ex_C22 : seqno_field x_M 3 /\ merge_msgs toy [x_M; x_A] <> UB.
Proof. split; [exists (tl x_M); eexists; split; [reflexivity|vm_compute; reflexivity]|]. vm_compute. discriminate. Qed.

(** ** C61: false *)
(** Anyone can make a second accepted message out of a signed one by appending bytes; merging the two is a conflict. *)
Theorem C61_one_message_per_signature_refuted :
  exists E s g m m', signer_ok E /\ e_verifier E <> None /\ parse_msg E false s = Ok m /\ parse_msg E false (s ++ g) = Ok m' /\
    m_vsig m = m_vsig m' /\ m_sh m <> m_sh m' /\ exists r, merge_msgs E [s; s ++ g] = Ok (r, []) /\ m_unmerged r = None.
Proof.
  exists toy_admin, x_s1, (b "junk"). eexists. eexists. split; [exact toy_signer_ok|]. split; [discriminate|]. split; [vm_compute; reflexivity|]. split; [vm_compute; reflexivity|].
  split; [reflexivity|]. split; [vm_compute; discriminate|]. eexists. split; [vm_compute; reflexivity|reflexivity].
Qed.
Print Assumptions C61_one_message_per_signature_refuted.
(** What does hold: if the holder of the key signed only one byte string [pre] of which either message is an extension,
    two accepted messages have the same sequence number, data, change set, embedded change sets and unknown fields.
    (Missing: the hashes may differ, so the two still count as two messages.) *)
Theorem C61_same_content_partial E t t' s m s' m' v pre : e_verifier E = Some v ->
  (forall x r sig, v x sig = true -> s = x ++ r \/ s' = x ++ r -> x = pre) ->
  parse_msg E t s = Ok m -> parse_msg E t' s' = Ok m' ->
  m_seqno m = m_seqno m' /\ m_data m = m_data m' /\ m_lagged m = m_lagged m' /\ m_diff m = m_diff m' /\ m_unknown m = m_unknown m'.
Proof. exact (signed_content E t t' s m s' m' v pre). Qed.
Print Assumptions C61_same_content_partial.
Definition x_pre : bytes := b "d1:#i1e1:&d1:ai1ee1:<le1:=d1:a0:e".
Definition x_once : env := mkEnv toy_hash (Some (fun x _ => eqb x x_pre)) None 5.
Example ex_C61 : (forall x r sig, (fun (x _ : bytes) => eqb x x_pre) x sig = true -> x_s1 = x ++ r \/ x_s1 ++ b "junk" = x ++ r -> x = x_pre) /\
  exists m m', parse_msg x_once false x_s1 = Ok m /\ parse_msg x_once true (x_s1 ++ b "junk") = Ok m' /\ m_sh m <> m_sh m' /\ m_data m' = [(b "a", VScal (SInt 1))].
Proof.
  split; [intros x r sig h _; apply eqb_eq, h|]. eexists. eexists. split; [vm_compute; reflexivity|]. split; [vm_compute; reflexivity|].
  split; [vm_compute; discriminate|reflexivity].
Qed.

(** ** C62: false *)
(** A client without pending changes that resolves a conflict publishes the resolution through the retain_seqno
    constructor: its change set then names every field, not none; merged with a later independent change of field f it can
    take that change back. *)
Definition z_base : bytes := Eval vm_compute in get_ok [] (edit_of toy (empty_msg toy) [(b "f", VScal (SInt 1))]).
Definition z_A : bytes := Eval vm_compute in get_ok [] (edit_of toy (parsed toy z_base) [(b "a", VScal (SInt 7)); (b "f", VScal (SInt 1))]).
Definition z_B : bytes := Eval vm_compute in get_ok [] (edit_of toy (parsed toy z_base) [(b "b", VScal (SInt 8)); (b "f", VScal (SInt 1))]).
Definition publish_clean (m : msg) : bytes := fst (get_ok ([], Plain m) (serialize toy (retain (Plain m)) true)).
Definition z_M : bytes := Eval vm_compute in publish_clean (fst (get_ok (empty_msg toy, []) (merge_msgs toy [z_A; z_B]))).
Definition z_C : bytes := Eval vm_compute in get_ok [] (edit_of toy (parsed toy z_A) [(b "a", VScal (SInt 7)); (b "f", VScal (SInt 4))]).
Theorem C62_clean_resolution_has_empty_change_set_refuted :
  (exists m, merge_msgs toy [z_A; z_B] = Ok (m, []) /\ m_unmerged m = None /\ m_data (parsed toy z_M) = m_data m) /\
  map fst (m_diff (parsed toy z_M)) = map fst (m_data (parsed toy z_M)) /\ m_diff (parsed toy z_M) <> [] /\
  (* f = 1 in all inputs of the resolution; only z_C changes it *)
  get_path [b "f"] (m_data (parsed toy z_A)) = Some (VScal (SInt 1)) /\ get_path [b "f"] (m_data (parsed toy z_B)) = Some (VScal (SInt 1)) /\
  assigns [b "f"] (m_diff (parsed toy z_C)) (m_data (parsed toy z_C)) = Some (SInt 4) /\
  exists r, merge_msgs toy [z_M; z_C] = Ok (r, []) /\ get_path [b "f"] (m_data r) = Some (VScal (SInt 1)).
Proof.
  split; [eexists; split; [vm_compute; reflexivity|split; vm_compute; reflexivity]|]. split; [vm_compute; reflexivity|]. split; [vm_compute; discriminate|].
  split; [vm_compute; reflexivity|]. split; [vm_compute; reflexivity|]. split; [vm_compute; reflexivity|]. eexists. split; vm_compute; reflexivity.
Qed.
Print Assumptions C62_clean_resolution_has_empty_change_set_refuted.
(** What the publisher of a resolution does list as its changes.  A client with unsaved changes of its own lists none
    ([merge_mutable], the MutableConfigMessage constructor it uses). *)
Theorem C62_dirty_resolver_lists_nothing_partial E l c0 bad s c' : hash32 E -> (1 <= e_lag E)%Z -> signer_ok E -> no_collision E l ->
  merge_mutable E l = Ok (c0, bad) -> m_unmerged (c_msg c0) = None -> serialize E c0 true = Ok (s, c') ->
  exists m', parse_msg E false s = Ok m' /\ m_data m' = m_data (c_msg c0) /\ m_diff m' = [].
Proof. exact (dirty_changes E l c0 bad s c'). Qed.
(** A client without unsaved changes lists every top-level field of the result as changed, whatever the inputs were. *)
Theorem C62_clean_resolver_lists_everything_partial E l m bad s c' : hash32 E -> (1 <= e_lag E)%Z -> signer_ok E -> no_collision E l ->
  merge_msgs E l = Ok (m, bad) -> m_unmerged m = None -> serialize E (retain (Plain m)) true = Ok (s, c') ->
  exists m', parse_msg E false s = Ok m' /\ m_data m' = m_data m /\ map fst (m_diff m') = map fst (m_data m).
Proof. exact (clean_changes E l m bad s c'). Qed.
Print Assumptions C62_dirty_resolver_lists_nothing_partial.
Print Assumptions C62_clean_resolver_lists_everything_partial.
Example ex_C62 : no_collision toy [z_A; z_B] /\ exists c0 m s s' c c', merge_mutable toy [z_A; z_B] = Ok (c0, []) /\ merge_msgs toy [z_A; z_B] = Ok (m, []) /\
  m_unmerged (c_msg c0) = None /\ m_unmerged m = None /\ serialize toy c0 true = Ok (s, c) /\ serialize toy (retain (Plain m)) true = Ok (s', c') /\
  map fst (m_data m) = [b "a"; b "b"; b "f"].
Proof.
  split; [apply no_collisionb_ok; vm_compute; reflexivity|]. do 6 eexists. split; [vm_compute; reflexivity|]. split; [vm_compute; reflexivity|].
  split; [reflexivity|]. split; [reflexivity|]. split; [vm_compute; reflexivity|]. split; vm_compute; reflexivity.
Qed.

(** ** C10: what does hold *)
(** If the merge adopts one of the inputs (the reported index), everything stored or published from it has exactly the
    unknown fields of that input. *)
Theorem C10_adopted_keeps_unknown_partial E l m i c sg s' c' : hash32 E -> (1 <= e_lag E)%Z -> no_collision E l ->
  merge_msgs E l = Ok (m, []) -> m_unmerged m = Some i -> derived E (Plain m) c -> serialize E c sg = Ok (s', c') ->
  exists s d g d' g', nth_error l i = Some s /\ parse1 s = Some (BDict d, g) /\ parse1 s' = Some (BDict d', g') /\
    forall k, unknown_key k = true -> option_map norm (lookup k d') = option_map norm (lookup k d).
Proof. exact (adopted_unknown E l m i c sg s' c'). Qed.
(** If it resolves a conflict, nothing stored or published from it has any unknown field: the loss is complete. *)
Theorem C10_resolution_has_no_unknown_refuted E l m bad c0 c sg s' c' : hash32 E -> (1 <= e_lag E)%Z -> no_collision E l ->
  merge_msgs E l = Ok (m, bad) -> m_unmerged m = None -> In c0 [Plain m; retain (Plain m); Mut m (m_data m)] ->
  derived E c0 c -> serialize E c sg = Ok (s', c') ->
  exists d' g', parse1 s' = Some (BDict d', g') /\ forall k, unknown_key k = true -> lookup k d' = None.
Proof. exact (conflict_unknown E l m bad c0 c sg s' c'). Qed.
Print Assumptions C10_adopted_keeps_unknown_partial.
Print Assumptions C10_resolution_has_no_unknown_refuted.
Definition y_old : bytes := b "d1:#i1e1:&d1:ai1ee1:<le1:=d1:a0:e2:UUi77ee".
Definition y_new : bytes := Eval vm_compute in get_ok [] (edit_of toy (parsed toy y_old) [(b "a", VScal (SInt 2))]).
Example ex_C10 : no_collision toy [y_old; y_new] /\ exists m s', merge_msgs toy [y_old; y_new] = Ok (m, []) /\ m_unmerged m = Some 1 /\
  serialize toy (Plain m) true = Ok (s', Plain m) /\ exists d g, parse1 s' = Some (BDict d, g) /\ lookup (b "UU") d = Some (BInt 77).
Proof.
  split; [apply no_collisionb_ok; vm_compute; reflexivity|]. do 2 eexists. split; [vm_compute; reflexivity|]. split; [reflexivity|]. split; [vm_compute; reflexivity|].
  do 2 eexists. split; vm_compute; reflexivity.
Qed.
