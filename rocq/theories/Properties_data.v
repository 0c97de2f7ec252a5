(** C01-C04, C06: config data, change sets, pruning, encoding.  Statements only; proofs are in the *_facts files. *)
From Verif Require Import Spec Data_facts Diff_facts Bt_facts Message_facts Parse_facts Merge_facts Replay_facts Resolve_facts Wire_facts Reach_facts Round_facts Data2_facts Toy.

(** ** C01 *)
(** For every old and new data: replaying the change set on the old data, taking values from the new data, gives
    exactly the new data. *)
Theorem C01_diff_roundtrip old new df :
  wf old = true -> wf new = true -> diff old new = Some df -> apply_diff df new old = Some new.
Proof. exact (apply_diff_roundtrip old new df). Qed.
(** The same for every object reachable through the API: what a mutable message publishes as its change set turns the
    data it started from into the data it publishes. *)
Theorem C01_published E m orig sg s c' :
  hash32 E -> (1 <= e_lag E)%Z -> reach E (Mut m orig) -> serialize E (Mut m orig) sg = Ok (s, c') ->
  apply_diff (m_diff (c_msg c')) (m_data (c_msg c')) orig = Some (m_data (c_msg c')).
Proof. exact (published_diff_roundtrip E m orig sg s c'). Qed.
Print Assumptions C01_diff_roundtrip.
Print Assumptions C01_published.

Definition ex_old : dict :=
  [(b "a", VScal (SInt 1)); (b "g", VDict [(b "x", VScal (SStr (b "hi"))); (b "y", VSet [SInt 3; SStr (b "q")])]); (b "z", VSet [SStr (b "u")])].
Definition ex_new : dict :=
  [(b "a", VScal (SInt 2)); (b "g", VDict [(b "y", VSet [SInt 3; SInt 4]); (b "zz", VDict [(b "k", VScal (SInt 0))])]); (b "n", VScal (SStr []))].
Example ex_C01 :
  wf ex_old = true /\ wf ex_new = true /\
  exists df, diff ex_old ex_new = Some df /\ df <> [] /\ apply_diff df ex_new ex_old = Some ex_new.
Proof. split; [reflexivity|]. split; [reflexivity|]. eexists. split; [reflexivity|]. split; [discriminate|reflexivity]. Qed.

(** ** C02 *)
Theorem C02_diff_empty old new : wf old = true -> wf new = true -> diff old new = Some [] <-> old = new.
Proof. exact (diff_nil_iff old new). Qed.
Theorem C02_published E m orig sg s c' :
  hash32 E -> (1 <= e_lag E)%Z -> reach E (Mut m orig) -> serialize E (Mut m orig) sg = Ok (s, c') ->
  (m_diff (c_msg c') = [] <-> m_data (c_msg c') = orig).
Proof. exact (published_diff_empty E m orig sg s c'). Qed.
Print Assumptions C02_diff_empty.
Print Assumptions C02_published.
Example ex_C02 : diff ex_old ex_old = Some [] /\ diff ex_old ex_new <> Some [] /\ ex_old <> ex_new.
Proof. split; [reflexivity|]. split; discriminate. Qed.

(** ** C03 *)
Theorem C03_top_level df src data d' k :
  msorted data -> apply_diff df src data = Some d' -> lookup k df = None -> lookup k d' = lookup k data.
Proof. exact (apply_diff_other df src data d' k). Qed.
(** Nested fields: [touches p df = false] says that the change set names neither the field nor a container of it;
    [agrees] that the data the change set was published with still has a dict wherever the change set descends. *)
Theorem C03_nested p df src data d' :
  p <> [] -> wf data = true -> bt_ok (BDict df) = true -> apply_diff df src data = Some d' ->
  touches p df = false -> agrees p df src = true -> get_path p d' = get_path p data.
Proof. intros hp hw hb ha h1 h2. exact (apply_diff_frame p hp df src data d' hw hb ha (conj h1 h2)). Qed.
(** Without [agrees] the claim is false: a change set that only removes a/x, published by a client for which "a" became
    empty (and was pruned), erases a concurrently added a/y. *)
Theorem C03_nested_refuted :
  exists p df src data d', p <> [] /\ wf data = true /\ wf src = true /\ pruned src = true /\ bt_ok (BDict df) = true /\
    (exists old, wf old = true /\ pruned old = true /\ diff old src = Some df) /\
    apply_diff df src data = Some d' /\ touches p df = false /\ get_path p data <> None /\ get_path p d' = None.
Proof.
  exists [b "a"; b "y"], [(b "a", BDict [(b "x", BStr (b "-"))])], [], [(b "a", VDict [(b "x", VScal (SInt 1)); (b "y", VScal (SInt 2))])], [].
  split; [discriminate|]. repeat (split; [reflexivity|]). split.
  { exists [(b "a", VDict [(b "x", VScal (SInt 1))])]. repeat split. }
  split; [reflexivity|]. split; [reflexivity|]. split; [discriminate|reflexivity].
Qed.
Print Assumptions C03_top_level.
Print Assumptions C03_nested.
Print Assumptions C03_nested_refuted.
Example ex_C03 : exists df d', diff ex_old ex_new = Some df /\ apply_diff df ex_new [(b "g", VDict [(b "x", VScal (SInt 9)); (b "other", VScal (SInt 8))])] = Some d' /\
  bt_ok (BDict df) = true /\ touches [b "g"; b "other"] df = false /\ agrees [b "g"; b "other"] df ex_new = true /\ get_path [b "g"; b "other"] d' = Some (VScal (SInt 8)).
Proof. eexists. eexists. split; [reflexivity|]. split; [reflexivity|]. repeat split. Qed.

(** ** C04 *)
Theorem C04_prune d : wf d = true ->
  let d' := fst (prune d) in
  wf d' = true /\
  (forall p, p <> [] -> get_path p d' <> Some (VSet []) /\ get_path p d' <> Some (VDict [])) /\
  (forall p s, p <> [] -> get_path p d' = Some (VScal s) <-> get_path p d = Some (VScal s)) /\
  (forall p x, p <> [] -> has_elem p x d' = has_elem p x d) /\
  (forall p, p <> [] -> get_path p d = None -> get_path p d' = None) /\
  fst (prune d') = d' /\
  (snd (prune d) = true <-> d' <> d).
Proof. exact (prune_exact d). Qed.
Print Assumptions C04_prune.
Example ex_C04 : prune [(b "a", VDict [(b "e", VSet []); (b "f", VDict [(b "g", VDict [])])]); (b "k", VDict [(b "s", VSet [SInt 1]); (b "t", VSet [])])]
  = ([(b "k", VDict [(b "s", VSet [SInt 1])])], true).
Proof. reflexivity. Qed.

(** ** C06 *)
Theorem C06_encode_decode d : wf d = true -> pruned d = true -> sendable d ->
  exists l, parse1 (enc (BDict (bt_of_dict d))) = Some (BDict l, []) /\ dict_of_bt l = Some d.
Proof. exact (data_roundtrip d). Qed.
Theorem C06_injective d d' : wf d = true -> pruned d = true -> sendable d -> wf d' = true -> pruned d' = true -> sendable d' ->
  enc (BDict (bt_of_dict d)) = enc (BDict (bt_of_dict d')) -> d = d'.
Proof. exact (data_enc_inj d d'). Qed.
Print Assumptions C06_encode_decode.
Print Assumptions C06_injective.
Example ex_C06 : wf ex_new = true /\ pruned ex_new = true /\ sendable ex_new /\
  enc (BDict (bt_of_dict ex_new)) = b "d1:ai2e1:gd1:yli3ei4ee2:zzd1:ki0eee1:n0:e".
Proof. repeat split. Qed.
