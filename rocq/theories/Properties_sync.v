(** C27, C29, C30, C36, C37: several clients and restarts.  Statements only; proofs are in Conf3_facts.v to Conf6_facts Accept_facts.v,
    the vocabulary is in BaseSpec.v. *)
From Verif Require Import BaseSpec Crypt_facts Life_facts Life2_facts Life4_facts Conf_facts Conf2_facts Conf3_facts Conf4_facts Conf5_facts Conf6_facts Accept_facts Toy ToyCrypt ToyBase Properties_base.

(** the first client's message as it left the client, and the client once the server has stored it under hash "h" *)
Definition sent1 : bytes := Eval vm_compute in match fst (push tb w1) with Ok (_, c, _) => c | _ => [] end.
Definition w4 : bstate := Eval vm_compute in after tb (OpConfirm 1 (b "h")) w2.
Lemma w4_life : life tb tame w4.
Proof.
  apply (life_step _ _ w2 (OpConfirm 1 (b "h"))); [exact w2_life|].
  apply step_run with (x := Ok tt); [vm_compute; reflexivity|split; discriminate|]. split; [exact I|vm_compute; reflexivity].
Qed.

(** ** C27 *)
(** As long as the server never hands out a message again that the client has merged or stored already, push never
    asks to delete the live message. *)
Theorem C27_live_message_kept_partial B st n c o st' h : benv_ok B -> life B once st -> push B st = (Ok (n, c, o), st') ->
  In h o -> ~ In h (current_hashes st').
Proof. exact (push_obsolete B st n c o st' h). Qed.
(** Merging the live message a second time lists it for deletion. *)
Definition w5 : bstate := Eval vm_compute in after tb (OpMerge [(b "h", sent1)]) w4.
Lemma w5_life : life tb tame w5.
Proof.
  apply (life_step _ _ w4 (OpMerge [(b "h", sent1)])); [exact w4_life|].
  apply step_run with (x := Ok tt); [vm_compute; reflexivity|split; discriminate|]. split; [|vm_compute; reflexivity].
  apply (merge_op_ok _ _ _ (get_ok [] (m <- own_part tb w4 ;; Ok (fst m))) (get_ok [] (incoming tb (s_keys w4) (map (unwrap1 tb w4) [(b "h", sent1)]))));
    [vm_compute; reflexivity|vm_compute; reflexivity|apply no_collisionb_ok; vm_compute; reflexivity|..].
  - intros s hs. vm_compute in hs. destruct hs as [<-|[]]. vm_compute. reflexivity.
  - intros hv. exfalso. apply hv. reflexivity.
Qed.
Theorem C27_redelivered_refuted : ~ (forall B st n c o st' h, benv_ok B -> life B tame st -> push B st = (Ok (n, c, o), st') ->
  In h o -> ~ In h (current_hashes st')).
Proof.
  intros h. assert (g : exists n c st', push tb w5 = (Ok (n, c, [b "h"]), st') /\ current_hashes st' = [b "h"]).
  { do 3 eexists. split; vm_compute; reflexivity. }
  destruct g as (n & c & st' & g1 & g2). apply (h _ _ _ _ _ _ (b "h") tb_ok w5_life g1); [left; reflexivity|]. rewrite g2. left. reflexivity.
Qed.
Print Assumptions C27_live_message_kept_partial.
Print Assumptions C27_redelivered_refuted.
(** the same client that edits and pushes again: "h" is obsolete and not current *)
Definition w6 : bstate := Eval vm_compute in after tb (set_name "z") w4.
Lemma once_edit B o st st' : is_edit o = true -> op_ok B o st -> run B o st = (Ok tt, st') -> sendable (s_data st') -> step B (once B) st o st'.
Proof. intros h1 h2 h3 h4. destruct (tame_edit _ _ _ _ h1 h2 h3 h4) as [o x st' e1 e2 e3]. apply step_run with (x := x); [exact e1|exact e2|]. split; [exact e3|]. destruct o; try exact I; discriminate. Qed.
Example ex_C27 : life tb once w6 /\ exists c st', push tb w6 = (Ok (2%Z, c, [b "h"]), st') /\ current_hashes st' = [].
Proof.
  split.
  - apply (life_step _ _ w4 (set_name "z")); [|apply once_edit; [reflexivity|reflexivity|vm_compute; reflexivity|vm_compute; reflexivity]].
    apply (life_step _ _ w2 (OpConfirm 1 (b "h"))).
    2: { apply step_run with (x := Ok tt); [vm_compute; reflexivity|split; discriminate|]. split; [split; [exact I|vm_compute; reflexivity]|]. vm_compute. tauto. }
    apply (life_step _ _ w1 OpPush).
    2: { apply step_run with (x := Ok tt); [vm_compute; reflexivity|split; discriminate|]. split; [split; [exact I|vm_compute; reflexivity]|exact I]. }
    apply (life_step _ _ (start tb) (set_name "x")); [apply life_fresh|]. apply once_edit; [reflexivity|reflexivity|vm_compute; reflexivity|vm_compute; reflexivity].
  - do 2 eexists. split; vm_compute; reflexivity.
Qed.

(** ** C29 *)
(** Unsigned configs (all except groups): when a client with nothing unsaved is stopped and restored from its dump, the
    same edits followed by a push give the same seqno, the same encrypted message and the same obsolete hashes as without
    the restart. *)
Theorem C29_restart_same_partial B st d st1 st' l st2 r st3 : benv_ok B -> e_verifier (b_env B) = None -> e_signer (b_env B) = None ->
  life B tidy st -> s_state st <> Dirty ->
  dump B st = (Ok d, st1) -> (N.of_nat (length d) <= uint64_max)%N -> restore B (s_keys st) d = Ok st' ->
  forallb is_edit l = true -> steps B any st l st2 -> push B st2 = (Ok r, st3) ->
  exists st2' st3', steps B any st' l st2' /\ push B st2' = (Ok r, st3').
Proof. exact (restart_same B st d st1 st' l st2 r st3). Qed.
(** Signed configs: an administrator's own last message is dumped without its signature, so after a restart its hash in
    the next message is a different one. *)
Definition a1 : bstate := Eval vm_compute in after tb_admin (OpConfirm 1 (b "h")) (after tb_admin OpPush (after tb_admin (set_name "x") (start tb_admin))).
Lemma a1_life : life tb_admin tidy a1.
Proof.
  apply (life_step _ _ (after tb_admin OpPush (after tb_admin (set_name "x") (start tb_admin))) (OpConfirm 1 (b "h"))).
  2: { apply step_run with (x := Ok tt); [vm_compute; reflexivity|split; discriminate|]. split; [split; [exact I|vm_compute; reflexivity]|exact I]. }
  apply (life_step _ _ (after tb_admin (set_name "x") (start tb_admin)) OpPush).
  2: { apply step_run with (x := Ok tt); [vm_compute; reflexivity|split; discriminate|]. split; [split; [exact I|vm_compute; reflexivity]|exact I]. }
  apply (life_step _ _ (start tb_admin) (set_name "x")); [apply life_fresh|].
  apply step_run with (x := Ok tt); [vm_compute; reflexivity|split; discriminate|]. split; [split; [reflexivity|vm_compute; reflexivity]|exact I].
Qed.
Theorem C29_signed_refuted : ~ (forall B st d st1 st' l st2 r st3, benv_ok B ->
  life B tidy st -> s_state st <> Dirty ->
  dump B st = (Ok d, st1) -> (N.of_nat (length d) <= uint64_max)%N -> restore B (s_keys st) d = Ok st' ->
  forallb is_edit l = true -> steps B any st l st2 -> push B st2 = (Ok r, st3) ->
  exists st2' st3', steps B any st' l st2' /\ push B st2' = (Ok r, st3')).
Proof.
  intros h. set (d := get_ok [] (fst (dump tb_admin a1))). set (a1' := get_ok a1 (restore tb_admin [toy_key] d)).
  set (a2 := after tb_admin (set_name "y") a1). set (r := get_ok (0%Z, [], []) (fst (push tb_admin a2))).
  assert (g : exists st2' st3', steps tb_admin any a1' [set_name "y"] st2' /\ push tb_admin st2' = (Ok r, st3')).
  { apply (h tb_admin a1 d (snd (dump tb_admin a1)) a1' [set_name "y"] a2 r (snd (push tb_admin a2))).
    - exact tb_admin_ok.
    - exact a1_life.
    - discriminate.
    - vm_compute. reflexivity.
    - vm_compute. discriminate.
    - vm_compute. reflexivity.
    - reflexivity.
    - econstructor; [|constructor]. apply step_run with (x := Ok tt); [vm_compute; reflexivity|split; discriminate|exact I].
    - vm_compute. reflexivity. }
  destruct g as (s2 & s3 & g1 & g2). inversion g1 as [|o q1 l q2 g3 g4]; subst. inversion g4; subst. inversion g3 as [o x q g5 g6 g7]; subst.
  assert (e : s2 = after tb_admin (set_name "y") a1') by (unfold after; rewrite g5; reflexivity). subst s2.
  assert (e : get_ok (0%Z, [], []) (fst (push tb_admin (after tb_admin (set_name "y") a1'))) = r) by (rewrite g2; reflexivity). vm_compute in e. discriminate.
Qed.
Print Assumptions C29_restart_same_partial.
Print Assumptions C29_signed_refuted.
(** the unsigned client from above does satisfy the hypotheses *)
Example ex_C29 : s_state w4 <> Dirty /\ s_data w4 = [(b "n", VScal (SStr (b "x")))] /\ exists d st1 st' st2 r st3, dump tb w4 = (Ok d, st1) /\ restore tb (s_keys w4) d = Ok st' /\
  steps tb any w4 [set_name "z"] st2 /\ push tb st2 = (Ok r, st3) /\ fst (fst r) = 2%Z.
Proof.
  split; [discriminate|]. split; [reflexivity|]. do 3 eexists. exists w6. do 2 eexists. split; [vm_compute; reflexivity|]. split; [vm_compute; reflexivity|]. split.
  - econstructor; [|constructor]. apply step_run with (x := Ok tt); [vm_compute; reflexivity|split; discriminate|exact I].
  - split; vm_compute; reflexivity.
Qed.

(** ** C30 *)
(** After a dump, and any calls but another dump (and no edits, if there were unsaved changes when it was dumped): while
    needs_dump is false, a new dump differs from it at most in the list of hashes to be deleted, and the object still
    holds the same message, state and current hash. *)
Theorem C30_needs_dump_partial B st d st1 l st2 d2 st3 : life B every st -> dump B st = (Ok d, st1) -> steps B any st1 l st2 -> ~ In OpDump l ->
  s_state st <> Dirty \/ forallb (fun o => negb (is_edit o)) l = true ->
  s_needs_dump st2 = false -> dump B st2 = (Ok d2, st3) ->
  exists state msg curr old old2, d = enc (BDict [(b "!", BInt state); (b "$", BStr msg); (b "(", BStr curr); (b ")", BList (map BStr old))]) /\
    d2 = enc (BDict [(b "!", BInt state); (b "$", BStr msg); (b "(", BStr curr); (b ")", BList (map BStr old2))]) /\ (s_old st2 = s_old st1 -> d2 = d).
Proof. exact (quiet_dump B st d st1 l st2 d2 st3). Qed.
Theorem C30_unchanged_partial B st d st1 l st2 : life B every st -> dump B st = (Ok d, st1) -> steps B any st1 l st2 -> ~ In OpDump l ->
  s_state st <> Dirty \/ forallb (fun o => negb (is_edit o)) l = true ->
  s_needs_dump st2 = false -> s_conf st2 = s_conf st1 /\ s_state st2 = s_state st1 /\ s_curr st2 = s_curr st1.
Proof. exact (quiet_steps B st d st1 l st2). Qed.
(** The list of hashes to be deleted can change without needs_dump becoming true, *)
Theorem C30_obsolete_list_refuted : ~ (forall B st d st1 l st2 d2 st3, life B every st -> dump B st = (Ok d, st1) -> steps B any st1 l st2 -> ~ In OpDump l ->
  s_state st <> Dirty -> s_needs_dump st2 = false -> dump B st2 = (Ok d2, st3) -> d2 = d).
Proof.
  intros h. set (m := OpMerge [(b "h0", sent1)]). set (d := get_ok [] (fst (dump tb w4))). set (s1 := snd (dump tb w4)). set (s2 := after tb m s1).
  assert (e : get_ok [] (fst (dump tb s2)) = d).
  { apply (h tb w4 d s1 [m] s2 _ (snd (dump tb s2))).
    - apply (life_mono tb tame); [exact (fun _ _ _ _ _ => I)|exact w4_life].
    - vm_compute. reflexivity.
    - econstructor; [|constructor]. apply step_run with (x := Ok tt); [vm_compute; reflexivity|split; discriminate|exact I].
    - intros [e|[]]. discriminate.
    - discriminate.
    - vm_compute. reflexivity.
    - vm_compute. reflexivity. }
  vm_compute in e. discriminate.
Qed.
(** and, when there were unsaved changes at the time of the dump, so can the data. *)
Theorem C30_unsaved_changes_refuted : ~ (forall B st d st1 l st2 d2 st3, life B every st -> dump B st = (Ok d, st1) -> steps B any st1 l st2 -> ~ In OpDump l ->
  s_old st2 = s_old st1 -> s_needs_dump st2 = false -> dump B st2 = (Ok d2, st3) -> d2 = d).
Proof.
  intros h. set (d := get_ok [] (fst (dump tb w1))). set (s1 := snd (dump tb w1)). set (s2 := after tb (set_name "z") s1).
  assert (e : get_ok [] (fst (dump tb s2)) = d).
  { apply (h tb w1 d s1 [set_name "z"] s2 _ (snd (dump tb s2))).
    - apply (life_mono tb tame); [exact (fun _ _ _ _ _ => I)|exact w1_life].
    - vm_compute. reflexivity.
    - econstructor; [|constructor]. apply step_run with (x := Ok tt); [vm_compute; reflexivity|split; discriminate|exact I].
    - intros [e|[]]. discriminate.
    - reflexivity.
    - vm_compute. reflexivity.
    - vm_compute. reflexivity. }
  vm_compute in e. discriminate.
Qed.
Print Assumptions C30_needs_dump_partial.
Print Assumptions C30_unchanged_partial.
Print Assumptions C30_obsolete_list_refuted.
Print Assumptions C30_unsaved_changes_refuted.
Example ex_C30 : s_needs_dump w4 = true /\ s_needs_dump (snd (dump tb w4)) = false /\ s_needs_dump (after tb OpPush (snd (dump tb w4))) = false /\
  s_needs_dump (after tb (set_name "z") (snd (dump tb w4))) = true.
Proof. repeat (split; [vm_compute; reflexivity|]). vm_compute. reflexivity. Qed.

(** ** C36 *)
(** A writer and another client hold the same message; the writer makes any edits and pushes; the other one merges the
    pushed message under the server's hash [h].  It ends clean, with exactly the writer's data (which is the edited data
    without its empty containers), seqno and hash, and reports [h] as accepted.  After the writer's push is confirmed the
    two again hold the same message, so this can be repeated for ever. *)
Theorem C36_replicates A R st l st1 n c o st2 r h : aead_ok (b_aead A) -> benv_ok A -> benv_ok R -> peer A R -> life A tame st -> life R tame r ->
  in_sync A st R r -> steps A (tame A) st l st1 -> forallb is_edit l = true -> s_state st1 = Dirty ->
  push A st1 = (Ok (n, c, o), st2) -> (forall k rest, s_keys st1 = k :: rest -> opens A R r k c) ->
  (n + e_lag (b_env A) < 2 ^ 63)%Z -> apart_hashes A st1 R r ->
  exists r' st3, merge R [(h, c)] r = (Ok [h], r') /\ s_data r' = s_data st2 /\ s_data st2 = fst (prune (s_data st1)) /\ s_seqno r' = n /\ s_curr r' = h /\ s_state r' = Clean /\
    confirm_pushed A n h st2 = (Ok tt, st3) /\ in_sync A st3 R r'.
Proof. exact (replicates A R st l st1 n c o st2 r h). Qed.
(** The same for a client that is new, or has missed so many versions that its own is out of the window, or cannot sign (then it
    does not matter what it has missed). *)
Theorem C36_joins A R st n c o st2 r h : aead_ok (b_aead A) -> benv_ok A -> benv_ok R -> peer A R -> life A tame st -> life R tame r -> readonly A = false ->
  s_state r <> Dirty -> s_state st = Dirty -> push A st = (Ok (n, c, o), st2) -> (forall k rest, s_keys st = k :: rest -> opens A R r k c) ->
  (s_seqno r < n)%Z -> (s_seqno r = 0%Z \/ (s_seqno r + e_lag (b_env A) <= n)%Z \/ readonly R = true) -> (n + e_lag (b_env A) < 2 ^ 63)%Z -> apart_hashes A st R r ->
  exists r' st3, merge R [(h, c)] r = (Ok [h], r') /\ s_data r' = s_data st2 /\ s_data st2 = fst (prune (s_data st)) /\ s_seqno r' = n /\ s_curr r' = h /\ s_state r' = Clean /\
    confirm_pushed A n h st2 = (Ok tt, st3) /\ in_sync A st3 R r'.
Proof. exact (joins A R st n c o st2 r h). Qed.
Print Assumptions C36_replicates.
Print Assumptions C36_joins.
Lemma tb_peer : peer tb tb.
Proof. split; try reflexivity; [intros _; split; reflexivity|discriminate]. Qed.
Example ex_C36 : peer tb tb /\ in_sync tb (start tb) tb (start tb) /\ steps tb (tame tb) (start tb) [set_name "x"] w1 /\ s_state w1 = Dirty /\
  (exists o st2, push tb w1 = (Ok (1%Z, sent1, o), st2)) /\ opens tb tb (start tb) toy_key sent1 /\ apart_hashes tb w1 tb (start tb) /\
  s_data (snd (merge tb [(b "h", sent1)] (start tb))) = [(b "n", VScal (SStr (b "x")))] /\ s_seqno (snd (merge tb [(b "h", sent1)] (start tb))) = 1%Z.
Proof.
  split; [exact tb_peer|]. split.
  { split; [discriminate|]. split; [discriminate|]. do 3 eexists. split; [vm_compute; reflexivity|]. split; vm_compute; reflexivity. }
  split. { econstructor; [|constructor]. apply tame_edit; [reflexivity|reflexivity|vm_compute; reflexivity|vm_compute; reflexivity]. }
  split; [reflexivity|]. split; [do 2 eexists; vm_compute; reflexivity|]. split.
  { exists [], []. split; [reflexivity|]. split; [reflexivity|intros k' []]. }
  split. { intros s c s0 c0 h1 h2. apply no_collisionb_ok. vm_compute in h1, h2. injection h1 as <- _. injection h2 as <- _. vm_compute. reflexivity. }
  split; vm_compute; reflexivity.
Qed.

(** ** C37 *)
(** Two clients, with nothing unsaved, would publish the same bytes.  Each merges a list of messages; the two lists hold
    the same messages, in any order, with any repetitions, under any hashes, encrypted in any way.  Then both have the
    same data and seqno, and would again publish the same bytes. *)
Theorem C37_converge B st B' st' l l' inc inc' s c c' hs st2 : benv_ok B -> benv_ok B' -> b_env B' = b_env B ->
  life B tame st -> life B' tame st' -> s_state st <> Dirty -> s_state st' <> Dirty -> s_keys st' <> [] ->
  serialize (b_env B) (s_conf st) true = Ok (s, c) -> serialize (b_env B') (s_conf st') true = Ok (s, c') ->
  incoming B (s_keys st) (map (unwrap1 B st) l) = Ok inc -> incoming B' (s_keys st') (map (unwrap1 B' st') l') = Ok inc' ->
  (forall x, In x (map snd inc) <-> In x (map snd inc')) -> no_collision (b_env B) (s :: map snd inc) ->
  merge B l st = (Ok hs, st2) ->
  exists hs' st2', merge B' l' st' = (Ok hs', st2') /\ s_data st2' = s_data st2 /\ s_seqno st2' = s_seqno st2 /\
    forall z c1, serialize (b_env B) (s_conf st2) true = Ok (z, c1) -> exists c2, serialize (b_env B') (s_conf st2') true = Ok (z, c2).
Proof.
  intros hB hB' he hl hl'. exact (converge B st B' st' l l' inc inc' s c c' hs st2 hB he (life_inv1 _ _ hB hl) (life_inv1 _ _ hB' hl') (life_inv2 _ _ hB hl) (life_inv2 _ _ hB' hl')).
Qed.
(** When the messages arrive in several calls instead of one, the order does matter: of two conflicting messages with
    the same seqno a read-only client keeps the one it saw first. *)
Definition msg_x : bytes := Eval vm_compute in sealed signed_msg.
Definition msg_y : bytes := Eval vm_compute in sealed (get_ok [] (edit_of toy_admin (empty_msg toy_admin) [(b "n", VScal (SStr (b "y")))])).
Theorem C37_batches_refuted : ~ (forall B st l1 l2 x1 s1 x2 s2 y1 t1 y2 t2, benv_ok B -> life B tame st ->
  merge B l1 st = (Ok x1, s1) -> merge B l2 s1 = (Ok x2, s2) -> merge B l2 st = (Ok y1, t1) -> merge B l1 t1 = (Ok y2, t2) -> s_data s2 = s_data t2).
Proof.
  intros h. set (mg := fun x st => merge tb_reader [(b "h", x)] st). set (s0 := start tb_reader).
  assert (e : s_data (snd (mg msg_y (snd (mg msg_x s0)))) = s_data (snd (mg msg_x (snd (mg msg_y s0))))).
  { apply (h tb_reader s0 [(b "h", msg_x)] [(b "h", msg_y)] [b "h"] (snd (mg msg_x s0)) [b "h"] _ [b "h"] (snd (mg msg_y s0)) [b "h"] _); [exact tb_reader_ok|apply life_fresh|vm_compute; reflexivity..]. }
  vm_compute in e. discriminate.
Qed.
Print Assumptions C37_converge.
Print Assumptions C37_batches_refuted.
Example ex_C37 : exists inc inc' hs st2, incoming tb_reader (s_keys (start tb_reader)) (map (unwrap1 tb_reader (start tb_reader)) [(b "h1", msg_x); (b "h2", msg_y)]) = Ok inc /\
  incoming tb_reader (s_keys (start tb_reader)) (map (unwrap1 tb_reader (start tb_reader)) [(b "h2", msg_y); (b "h1", msg_x); (b "h3", msg_y)]) = Ok inc' /\
  (forall x, In x (map snd inc) <-> In x (map snd inc')) /\ length inc' = 3 /\ merge tb_reader [(b "h1", msg_x); (b "h2", msg_y)] (start tb_reader) = (Ok hs, st2) /\ length hs = 2.
Proof.
  do 4 eexists. split; [vm_compute; reflexivity|]. split; [vm_compute; reflexivity|]. split; [cbn; tauto|]. split; [reflexivity|]. split; [vm_compute; reflexivity|reflexivity].
Qed.

(** ** C68 *)
(** The hashes a successful merge reports are exactly those of the messages that one of our keys opens and that hold a
    valid, properly signed config, in the order given. *)
Theorem C68_accepted B l st acc st' : merge B l st = (Ok acc, st') -> acc = map fst (filter (acceptable B st) l).
Proof. exact (merge_accepts B l st acc st'). Qed.
(** Messages that no key opens, or that cannot be decompressed, make no difference at all. *)
Theorem C68_unopened_ignored B l st acc st' : merge B l st = (Ok acc, st') -> merge B (filter (openable B st) l) st = (Ok acc, st').
Proof. exact (merge_openable B l st acc st'). Qed.
Print Assumptions C68_accepted.
Print Assumptions C68_unopened_ignored.
(** a good message among rubbish: only its hash is reported *)
Example ex_C68 : fst (merge tb [(b "g", b "rubbish"); (b "h", sent1)] (start tb)) = Ok [b "h"] /\
  map (acceptable tb (start tb)) [(b "g", b "rubbish"); (b "h", sent1)] = [false; true].
Proof. split; vm_compute; reflexivity. Qed.
