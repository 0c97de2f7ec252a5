(** C23-C26, C28, C31-C33: the config object.  Statements only; proofs are in Conf_facts.v and Conf2_facts.v, the
    vocabulary (calls, histories) is in BaseSpec.v. *)
From Verif Require Import BaseSpec Life_facts Life2_facts Life4_facts Conf_facts Conf2_facts Toy ToyCrypt ToyBase.

(** ** C23 *)
(** In every state a read-only config can get to it is clean and needs no push. *)
Theorem C23_never_dirty B st : life B every st -> readonly B = true -> s_state st = Clean /\ needs_push st = false.
Proof. intros hl hr. destruct (i0_ro _ _ (life_inv0 _ _ _ hl) hr) as [h _]. unfold needs_push, is_clean. rewrite h. auto. Qed.
(** Every edit leaves the object as it is, and throws unless it would not have changed the data anyway. *)
Theorem C23_edits_refused B st o x st' : benv_ok B -> life B tame st -> readonly B = true -> is_edit o = true -> run B o st = (x, st') ->
  st' = st /\ (x = Throw \/ (x = Ok tt /\ edited o (s_data st) = s_data st)).
Proof. exact (edits_refused B st o x st'). Qed.
(** The only call that can change what it holds is a merge, and then what it holds is one of the verified messages. *)
Theorem C23_only_verified_messages B st o x st' : life B every st -> readonly B = true -> run B o st = (x, st') ->
  s_conf st' = s_conf st \/
  exists l mine inc s m i, o = OpMerge l /\ merge_sees B l st mine inc /\ In s (map snd (mine ++ inc)) /\ parse_msg (b_env B) false s = Ok m /\
    s_conf st' = Plain (set_unmerged (Some i) m).
Proof. intros hl. exact (ro_step B st o x st' (life_inv0 _ _ _ hl)). Qed.
(** An attempted change is refused even so; but a read-only config created from a dump that a writer made while it had
    unsaved changes (a demoted administrator) is dirty, needs a push, and accepts changes. *)
Theorem C23_dirty_dump_refuted : ~ (forall B B' st d st1 ks st', benv_ok B -> benv_ok B' -> life B tame st -> readonly B' = true ->
  dump B st = (Ok d, st1) -> restore B' ks d = Ok st' -> needs_push st' = false).
Proof.
  intros h. set (st := after tb_admin (set_name "x") (start tb_admin)).
  set (d := get_ok [] (fst (dump tb_admin st))). set (st' := get_ok (start tb_reader) (restore tb_reader [toy_key] d)).
  assert (e : needs_push st' = false); [|vm_compute in e; discriminate].
  apply (h tb_admin tb_reader st d (snd (dump tb_admin st)) [toy_key] st').
  - exact tb_admin_ok.
  - exact tb_reader_ok.
  - apply (life_step _ _ (start tb_admin) (set_name "x")); [apply life_fresh|].
    apply step_run with (x := Ok tt); [vm_compute; reflexivity|split; discriminate|]. split; [reflexivity|vm_compute; reflexivity].
  - reflexivity.
  - vm_compute. reflexivity.
  - vm_compute. reflexivity.
Qed.
Print Assumptions C23_never_dirty.
Print Assumptions C23_edits_refused.
Print Assumptions C23_only_verified_messages.
Print Assumptions C23_dirty_dump_refuted.
(** a reader that merged an administrator's message *)
Definition reader1 : bstate := after tb_reader (OpMerge [(b "h1", sealed signed_msg)]) (start tb_reader).
Lemma merge_op_ok B l st mine inc : own_part B st = Ok (mine, st) -> incoming B (s_keys st) (map (unwrap1 B st) l) = Ok inc ->
  no_collision (b_env B) (map snd (mine ++ inc)) ->
  (forall s, In s (map snd inc) -> match parse_msg (b_env B) false s with Ok m => (0 <=? m_seqno m)%Z = true | _ => False end) ->
  (e_verifier (b_env B) <> None -> forall s, In s (map snd inc) -> exists c, (m <- parse_msg (b_env B) false s ;; serialize (b_env B) (Plain m) true) = Ok (s, c)) ->
  op_ok B (OpMerge l) st.
Proof.
  intros h1 h2 h3 h4 h5 mine' inc' [[st1 e1] e2]. rewrite h1 in e1. injection e1 as <- <-. rewrite h2 in e2. injection e2 as <-.
  split; [exact h3|]. split.
  - intros h s m hin hm. assert (hin2 : In s (map snd inc)) by (apply in_map_iff; exists (h, s); auto). specialize (h4 s hin2). rewrite hm in h4. apply Z.leb_le, h4.
  - intros hv h s hin m hm. assert (hin2 : In s (map snd inc)) by (apply in_map_iff; exists (h, s); auto). destruct (h5 hv s hin2) as [c hc]. rewrite hm in hc. exists c. exact hc.
Qed.
Lemma reader1_life : life tb_reader tame reader1.
Proof.
  apply (life_step _ _ (start tb_reader) (OpMerge [(b "h1", sealed signed_msg)])); [apply life_fresh|].
  apply step_run with (x := Ok tt); [vm_compute; reflexivity|split; discriminate|]. split; [|vm_compute; reflexivity].
  apply (merge_op_ok _ _ _ [] [(b "h1", signed_msg)]); [reflexivity|vm_compute; reflexivity|apply no_collisionb_ok; vm_compute; reflexivity|..].
  - intros s [<-|[]]. vm_compute. reflexivity.
  - intros _ s [<-|[]]. eexists. vm_compute. reflexivity.
Qed.
Example ex_C23 : readonly tb_reader = true /\ s_data reader1 = [(b "n", VScal (SStr (b "x")))] /\ s_seqno reader1 = 1%Z /\
  run tb_reader (set_name "y") reader1 = (Throw, reader1) /\ run tb_reader (set_name "x") reader1 = (Ok tt, reader1).
Proof. split; [reflexivity|]. split; [vm_compute; reflexivity|]. split; [vm_compute; reflexivity|]. split; vm_compute; reflexivity. Qed.

(** ** C24 *)
(** An edit that comes back normally changed nothing at all or left a dirty config, which needs a push. *)
Theorem C24_change_needs_push B st o st' : is_edit o = true -> run B o st = (Ok tt, st') -> st' = st \/ (s_state st' = Dirty /\ needs_push st' = true).
Proof. intros ho h. destruct (change_needs_push _ _ _ _ ho h) as [g|g]; [auto|]. right. unfold needs_push, is_clean. rewrite g. auto. Qed.
(** needs_push stops being true only by a confirmation that carries the current seqno while one is awaited, or by a
    merge that adopts somebody else's higher version. *)
Theorem C24_ends B st o st' : benv_ok B -> life B tame st -> step B (tame B) st o st' -> needs_push st = true -> needs_push st' = false ->
  (exists h, o = OpConfirm (s_seqno st) h /\ s_state st = Waiting /\ current_hashes st' = (if is_nil h then [] else [h])) \/
  (exists l, o = OpMerge l /\ (s_seqno st < s_seqno st')%Z).
Proof. exact (needs_push_ends B st o st'). Qed.
(** A confirmation for another seqno, or when none is awaited, changes nothing; the awaited one makes the config clean
    with that hash. *)
Theorem C24_confirm B n h st x st' : confirm_pushed B n h st = (x, st') ->
  x = Ok tt /\ ((~ (s_state st = Waiting /\ n = s_seqno st) /\ st' = st) \/
    (s_state st = Waiting /\ n = s_seqno st /\ s_state st' = Clean /\ s_curr st' = h /\ s_conf st' = s_conf st /\ s_old st' = s_old st /\ s_keys st' = s_keys st)).
Proof. intros g. apply confirm_spec in g as [-> [g|(g1 & g2 & ->)]]; [auto|]. split; [reflexivity|]. right. cbn. auto 10. Qed.
(** Whatever happens between the push and the confirmation of the seqno it returned: if the confirmation has an effect,
    the config still is what was pushed. *)
Theorem C24_confirmed_is_pushed B st r st1 l st2 h x st3 : benv_ok B -> life B tame st -> push B st = (Ok r, st1) -> steps B (tame B) st1 l st2 ->
  confirm_pushed B (fst (fst r)) h st2 = (x, st3) -> st3 <> st2 -> s_conf st2 = s_conf st1 /\ s_state st3 = Clean /\ s_curr st3 = h /\ s_conf st3 = s_conf st2.
Proof. exact (confirmed_is_pushed B st r st1 l st2 h x st3). Qed.
Print Assumptions C24_change_needs_push.
Print Assumptions C24_ends.
Print Assumptions C24_confirm.
Print Assumptions C24_confirmed_is_pushed.
(** edit, push, edit again: the late confirmation does nothing; push again, confirm *)
Definition w1 : bstate := Eval vm_compute in after tb (set_name "x") (start tb).
Definition w2 : bstate := Eval vm_compute in after tb OpPush w1.
Definition w3 : bstate := Eval vm_compute in after tb (set_name "y") w2.
Lemma tame_edit B o st st' : is_edit o = true -> op_ok B o st -> run B o st = (Ok tt, st') -> sendable (s_data st') -> step B (tame B) st o st'.
Proof. intros _ h1 h2 h3. apply step_run with (x := Ok tt); [exact h2|split; discriminate|]. split; assumption. Qed.
Lemma w1_life : life tb tame w1.
Proof. apply (life_step _ _ (start tb) (set_name "x")); [apply life_fresh|]. apply tame_edit; [reflexivity|reflexivity|vm_compute; reflexivity|vm_compute; reflexivity]. Qed.
Lemma w2_life : life tb tame w2.
Proof.
  apply (life_step _ _ w1 OpPush); [exact w1_life|]. apply step_run with (x := Ok tt); [vm_compute; reflexivity|split; discriminate|]. split; [exact I|vm_compute; reflexivity].
Qed.
Lemma w3_life : life tb tame w3.
Proof. apply (life_step _ _ w2 (set_name "y")); [exact w2_life|]. apply tame_edit; [reflexivity|reflexivity|vm_compute; reflexivity|vm_compute; reflexivity]. Qed.
Example ex_C24 : needs_push (start tb) = false /\ s_state w1 = Dirty /\ s_state w2 = Waiting /\ s_seqno w2 = 1%Z /\ s_state w3 = Dirty /\ s_seqno w3 = 2%Z /\
  confirm_pushed tb 1 (b "h") w3 = (Ok tt, w3) /\ needs_push (after tb (OpConfirm 1 (b "h")) w2) = false.
Proof. repeat (split; [reflexivity|]). reflexivity. Qed.

(** ** C25 *)
(** Whatever calls, dumps and restarts come between, a later seqno is not smaller. *)
Theorem C25_monotone B st st' : benv_ok B -> life B tame st -> later B (tame B) st st' -> (s_seqno st <= s_seqno st')%Z.
Proof. intros hB hl h. apply (later_move B st st' hB (life_inv1 _ _ hB hl) h). Qed.
(** An edit made while not dirty has no effect or increases it by one. *)
Theorem C25_edit_increases B o st st' : benv_ok B -> life B tame st -> is_edit o = true -> step B (tame B) st o st' -> s_state st <> Dirty ->
  st' = st \/ s_seqno st' = (s_seqno st + 1)%Z.
Proof. exact (edit_increases B o st st'). Qed.
(** Without the restriction to seqno >= 0: a new config adopts a message with a negative seqno. *)
Theorem C25_negative_refuted : ~ (forall B st o st', benv_ok B -> life B every st -> step B any st o st' -> (s_seqno st <= s_seqno st')%Z).
Proof.
  intros h. set (m := "d"%char :: enc_entries [(b "#", BInt (-5)); (b "&", BDict []); (b "<", BList []); (b "=", BDict [])] ++ b "e").
  set (o := OpMerge [(b "h", sealed m)]). specialize (h tb (start tb) o (after tb o (start tb)) tb_ok (life_fresh _ _ _)).
  apply Z.leb_le in h; [vm_compute in h; discriminate|]. apply step_run with (x := Ok tt); [vm_compute; reflexivity|split; discriminate|exact I].
Qed.
(** Without the restriction to the library's own encoding: a signed config that adopted a valid signed message which
    leaves out the optional entries cannot verify its own re-encoding of it, and so falls back to an older message. *)
Theorem C25_noncanonical_refuted : ~ (forall B st o st', benv_ok B -> life B every st -> step B any st o st' -> (0 <= s_seqno st)%Z -> (0 <= s_seqno st')%Z ->
  (s_seqno st <= s_seqno st')%Z).
Proof.
  intros h. set (o1 := OpMerge [(b "h5", sealed (terse_msg 5))]). set (o2 := OpMerge [(b "h1", sealed signed_msg)]).
  set (st := after tb_admin o1 (start tb_admin)). specialize (h tb_admin st o2 (after tb_admin o2 st) tb_admin_ok).
  assert (hs : step tb_admin any (start tb_admin) o1 st) by (apply step_run with (x := Ok tt); [vm_compute; reflexivity|split; discriminate|exact I]).
  specialize (h (life_step _ _ _ _ _ (life_fresh _ _ _) hs)).
  assert (hs2 : step tb_admin any st o2 (after tb_admin o2 st)) by (apply step_run with (x := Ok tt); [vm_compute; reflexivity|split; discriminate|exact I]).
  specialize (h hs2). apply Z.leb_le in h; [vm_compute in h; discriminate|apply Z.leb_le; vm_compute; reflexivity..].
Qed.
Print Assumptions C25_monotone.
Print Assumptions C25_edit_increases.
Print Assumptions C25_negative_refuted.
Print Assumptions C25_noncanonical_refuted.
Example ex_C25 : later tb (tame tb) (start tb) w3 /\ s_seqno (start tb) = 0%Z /\ s_seqno w3 = 2%Z /\ s_state w2 <> Dirty /\ step tb (tame tb) w2 (set_name "y") w3.
Proof.
  assert (h3 : step tb (tame tb) w2 (set_name "y") w3) by (apply tame_edit; [reflexivity|reflexivity|vm_compute; reflexivity|vm_compute; reflexivity]).
  split; [|split; [reflexivity|split; [reflexivity|split; [discriminate|exact h3]]]].
  apply later_step with (st1 := w2) (o := set_name "y"); [|exact h3]. apply later_step with (st1 := w1) (o := OpPush).
  - apply later_step with (st1 := start tb) (o := set_name "x"); [apply later_refl|]. apply tame_edit; [reflexivity|reflexivity|vm_compute; reflexivity|vm_compute; reflexivity].
  - apply step_run with (x := Ok tt); [vm_compute; reflexivity|split; discriminate|]. split; [exact I|vm_compute; reflexivity].
Qed.

(** ** C26 *)
Theorem C26_only_while_clean B st : life B every st -> current_hashes st <> [] -> s_state st = Clean.
Proof.
  intros hl h. destruct (s_state st) eqn:e; [reflexivity|exfalso; apply h; unfold current_hashes; rewrite (i0_curr _ _ (life_inv0 _ _ _ hl)) by congruence; reflexivity..].
Qed.
Print Assumptions C26_only_while_clean.
Example ex_C26 : current_hashes reader1 = [b "h1"] /\ current_hashes (after tb (OpConfirm 1 (b "h")) w2) = [b "h"] /\ current_hashes w3 = [].
Proof. split; [vm_compute; reflexivity|]. split; reflexivity. Qed.

(** ** C28 *)
(** Dumping always succeeds (lag is an int in the library); restoring the dump succeeds, as long as the seqno is not
    about to overflow, and gives the same data (without empty containers), state and hashes, and the same seqno, or one
    more if there were unsaved changes. *)
Theorem C28_dump_succeeds B st : benv_ok B -> life B tame st -> (e_lag (b_env B) < 2 ^ 31)%Z ->
  exists d st1, dump B st = (Ok d, st1) /\ s_data st1 = fst (prune (s_data st)).
Proof.
  intros hB hl hlag. apply dump_total; [exact (life_inv1 _ _ hB hl)|]. split; [apply (bo_lag _ hB)|]. apply Z.lt_le_incl. eapply Z.lt_le_trans; [exact hlag|]. vm_compute. discriminate.
Qed.
Theorem C28_restore_succeeds B st d st1 ks : benv_ok B -> life B tame st -> dump B st = (Ok d, st1) -> (N.of_nat (length d) < 2 ^ 64)%N ->
  (s_state st = Dirty -> s_seqno st + e_lag (b_env B) < 2 ^ 63)%Z -> exists st', restore B ks d = Ok st'.
Proof.
  intros hB hl h hlen hq. eapply restore_total; [exact (life_inv1 _ _ hB hl)|apply (bo_lag _ hB)|exact h| |].
  - apply N.lt_succ_r. exact hlen.
  - intros hd. specialize (hq hd). pose proof (i1_nonneg _ _ (life_inv1 _ _ hB hl)) as hn. pose proof (bo_lag _ hB) as hlg.
    unfold int64_ok, int64_min, int64_max. apply andb_true_iff. split; apply Z.leb_le; lia.
Qed.
Theorem C28_same B st d st1 ks st' : benv_ok B -> life B tame st -> dump B st = (Ok d, st1) -> (N.of_nat (length d) < 2 ^ 64)%N -> restore B ks d = Ok st' ->
  s_data st' = fst (prune (s_data st)) /\ s_state st' = s_state st /\ s_curr st' = s_curr st /\ s_keys st' = ks /\ s_needs_dump st' = false /\
  s_old st' = (if readonly B then [] else s_old st) /\ s_seqno st' = (s_seqno st + (if is_dirty st then 1 else 0))%Z.
Proof. exact (restore_same B st d st1 ks st'). Qed.
Print Assumptions C28_dump_succeeds.
Print Assumptions C28_restore_succeeds.
Print Assumptions C28_same.
Example ex_C28 : exists d st1 st', dump tb w3 = (Ok d, st1) /\ restore tb [toy_key] d = Ok st' /\ s_data st' = [(b "n", VScal (SStr (b "y")))] /\
  s_seqno w3 = 2%Z /\ s_seqno st' = 3%Z /\ s_state st' = Dirty.
Proof. eexists. eexists. eexists. split; [vm_compute; reflexivity|]. split; [vm_compute; reflexivity|]. repeat split; reflexivity. Qed.

(** ** C31 *)
(** No call ever leaves a key twice in the list. *)
Theorem C31_no_duplicates B o st x st' : run B o st = (x, st') -> NoDup (s_keys st) -> NoDup (s_keys st').
Proof. exact (keys_NoDup B o st x st'). Qed.
(** The key calls leave exactly the documented list (see [keys_after]: high priority puts the key first and keeps the
    order of the others; low priority appends a new key; remove, clear and replace), the others leave it alone. *)
Theorem C31_key_list B o st x st' : key_op o = true -> keys_arg_ok o -> NoDup (s_keys st) -> run B o st = (x, st') -> s_keys st' = keys_after o (s_keys st).
Proof. exact (key_op_keys B o st x st'). Qed.
Theorem C31_other_calls B o st x st' : key_op o = false -> run B o st = (x, st') -> s_keys st' = s_keys st.
Proof. exact (other_op_keys B o st x st'). Qed.
(** The config becomes dirty exactly when asked to, not read-only, and the encrypting key changed. *)
Theorem C31_dirties B o st st' : key_op o = true -> keys_arg_ok o -> NoDup (s_keys st) -> match o with OpRemoveKey _ from _ => from = 0 | _ => True end ->
  run B o st = (Ok tt, st') ->
  if wants_dirty o && negb (readonly B) && head_changes o (s_keys st) then s_state st' = Dirty else s_conf st' = s_conf st /\ s_state st' = s_state st.
Proof. exact (key_op_dirties B o st st'). Qed.
(** Removing starting from a later position does not have this property: naming the first key leaves it in place but
    dirties the config. *)
Theorem C31_remove_later_refuted : ~ (forall B o st st', key_op o = true -> keys_arg_ok o -> NoDup (s_keys st) -> run B o st = (Ok tt, st') ->
  head_changes o (s_keys st) = false -> s_state st' = s_state st).
Proof.
  intros h. set (o := OpRemoveKey toy_key 1 true). set (st := after tb (OpAddKey (toy_hash []) false false) (start tb)).
  specialize (h tb o st (after tb o st) eq_refl eq_refl).
  assert (hn : NoDup (s_keys st)).
  { apply (C31_no_duplicates tb (OpAddKey (toy_hash []) false false) (start tb) (Ok tt) st); [vm_compute; reflexivity|]. repeat constructor. intros []. }
  specialize (h hn). assert (h2 : s_state (after tb o st) = s_state st) by (apply h; vm_compute; reflexivity). vm_compute in h2. discriminate.
Qed.
Print Assumptions C31_no_duplicates.
Print Assumptions C31_key_list.
Print Assumptions C31_other_calls.
Print Assumptions C31_dirties.
Print Assumptions C31_remove_later_refuted.
Example ex_C31 : let k := toy_hash [] in
  s_keys (after tb (OpAddKey k true true) (start tb)) = [k; toy_key] /\ s_state (after tb (OpAddKey k true true) (start tb)) = Dirty /\
  s_keys (after tb (OpAddKey k false true) (start tb)) = [toy_key; k] /\ s_state (after tb (OpAddKey k false true) (start tb)) = Clean /\
  s_keys (after tb (OpReplaceKeys [k; toy_key; k] true) (start tb)) = [k; toy_key].
Proof. repeat (split; [vm_compute; reflexivity|]). vm_compute. reflexivity. Qed.

(** ** C32 *)
(** Assigning the value the field has, erasing or assigning an empty container to a field that is not there, inserting a
    set element that is there, erasing a set element that is not there: nothing happens at all. *)
Theorem C32_assign_same B i l v st : s_state st <> Dirty -> field i l (s_data st) = Some v -> empty_container v = false -> run B (OpAssign i l v) st = (Ok tt, st).
Proof. exact (assign_same B i l v st). Qed.
Theorem C32_erase_missing B i l st : s_state st <> Dirty -> field i l (s_data st) = None -> run B (OpErase i l) st = (Ok tt, st).
Proof. exact (erase_missing B i l st). Qed.
Theorem C32_assign_empty_missing B i l v st : s_state st <> Dirty -> field i l (s_data st) = None -> v = VSet [] \/ v = VDict [] -> run B (OpAssign i l v) st = (Ok tt, st).
Proof. exact (assign_empty_missing B i l v st). Qed.
Theorem C32_insert_present B i l x xs st : s_state st <> Dirty -> field i l (s_data st) = Some (VSet xs) -> In x xs -> run B (OpSetInsert i l x) st = (Ok tt, st).
Proof. exact (insert_present B i l x xs st). Qed.
Theorem C32_erase_absent_partial B i l x xs st : s_state st <> Dirty -> field i l (s_data st) = Some (VSet xs) -> ~ In x xs -> run B (OpSetErase i l x) st = (Ok tt, st).
Proof. exact (erase_absent B i l x xs st). Qed.
(** When there is no such set, erasing an element of it dirties the config and increases the seqno. *)
Theorem C32_erase_no_set_refuted : ~ (forall B i l x st, benv_ok B -> life B tame st -> s_state st <> Dirty -> field i l (s_data st) = None ->
  run B (OpSetErase i l x) st = (Ok tt, st)).
Proof.
  intros h. specialize (h tb [] (b "s") (SInt 1) (start tb) tb_ok (life_fresh _ _ _) ltac:(discriminate) eq_refl). vm_compute in h. discriminate.
Qed.
Print Assumptions C32_assign_same.
Print Assumptions C32_erase_missing.
Print Assumptions C32_assign_empty_missing.
Print Assumptions C32_insert_present.
Print Assumptions C32_erase_absent_partial.
Print Assumptions C32_erase_no_set_refuted.
Example ex_C32 : s_state w2 <> Dirty /\ field [] (b "n") (s_data w2) = Some (VScal (SStr (b "x"))) /\ run tb (set_name "x") w2 = (Ok tt, w2) /\ snd (run tb (set_name "z") w2) <> w2.
Proof. split; [discriminate|]. split; [reflexivity|]. split; [reflexivity|]. vm_compute. discriminate. Qed.

(** ** C33 *)
(** Any edit that comes back normally has exactly its documented effect on the data: *)
Theorem C33_data B o st st' : benv_ok B -> life B tame st -> is_edit o = true -> op_ok B o st -> run B o st = (Ok tt, st') -> s_data st' = edited o (s_data st).
Proof. exact (edit_data B o st st'). Qed.
(** reading the path afterwards gives the new value, *)
Theorem C33_read B o st st' : benv_ok B -> life B tame st -> is_edit o = true -> op_ok B o st -> run B o st = (Ok tt, st') ->
  get_path (edit_path o) (s_data st') = new_value o (get_path (edit_path o) (s_data st)).
Proof. intros hB hl ho hok h. rewrite (edit_data _ _ _ _ hB hl ho hok h). apply edited_read; [exact ho|exact (life_wf _ _ hB hl)]. Qed.
(** and every path that does not run through it (nor it through that path) reads as before. *)
Theorem C33_others B o st st' p : benv_ok B -> life B tame st -> is_edit o = true -> op_ok B o st -> run B o st = (Ok tt, st') ->
  apart p (edit_path o) = true -> get_path p (s_data st') = get_path p (s_data st).
Proof. intros hB hl ho hok h hp. rewrite (edit_data _ _ _ _ hB hl ho hok h). apply edited_other; [exact ho|exact (life_wf _ _ hB hl)|exact hp]. Qed.
Print Assumptions C33_data.
Print Assumptions C33_read.
Print Assumptions C33_others.
Example ex_C33 : let o := OpAssign [b "a"; b "c"] (b "k") (VScal (SInt 3)) in let st := after tb o w3 in
  get_path [b "a"; b "c"; b "k"] (s_data st) = Some (VScal (SInt 3)) /\ get_path [b "n"] (s_data st) = Some (VScal (SStr (b "y"))) /\
  apart [b "n"] (edit_path o) = true /\ apart [b "a"] (edit_path o) = false /\ s_data (after tb (OpErase [b "a"; b "c"] (b "k")) st) = [(b "a", VDict [(b "c", VDict [])]); (b "n", VScal (SStr (b "y")))].
Proof. repeat (split; [vm_compute; reflexivity|]). vm_compute. reflexivity. Qed.
