(** Every call of a well-behaved life keeps the invariant and never lowers the seqno. *)
From Verif Require Import BaseSpec Data_facts Diff_facts Bt_facts Message_facts Parse_facts Merge_facts Replay_facts Resolve_facts Wire_facts Reach_facts Round_facts Redeliver_facts Adopt_facts Base_facts Dump_facts Life_facts Life2_facts.

Definition same_conf (c c' : config) : Prop := c' = c \/ refresh c = Ok c'.
Definition moved (st st' : bstate) : Prop :=
  (s_seqno st < s_seqno st')%Z \/
  (s_seqno st' = s_seqno st /\
   (s_state st = Dirty \/ (same_conf (s_conf st) (s_conf st') /\ (s_state st' = s_state st \/ (s_state st = Waiting /\ s_state st' = Clean))))).
Lemma moved_refl st : moved st st.
Proof. right. split; [reflexivity|]. right. split; [left; reflexivity|auto]. Qed.
Lemma sh_seqno c c' : m_sh (c_msg c') = m_sh (c_msg c) -> m_seqno (c_msg c') = m_seqno (c_msg c).
Proof. unfold m_seqno. congruence. Qed.
Lemma merge_move B l st x st' : benv_ok B -> inv1 B st -> op_ok B (OpMerge l) st -> merge B l st = (x, st') -> inv1 B st' /\ moved st st'.
Proof.
  intros hB hi hok h. pose proof (inv0_merge _ _ _ _ _ (i1_0 _ _ hi) h) as h0'. unfold merge in h. set (l1 := map (unwrap1 B st) l) in *.
  apply merge_plain_spec in h as [(_ & ->)|(mine & st1 & ho & h)]; [split; [exact hi|apply moved_refl]|].
  assert (h1 : inv1 B st1 /\ s_state st1 = s_state st /\ same_conf (s_conf st) (s_conf st1) /\ s_seqno st1 = s_seqno st /\ s_keys st1 = s_keys st).
  { apply own_part_spec in ho as [(_ & ho)|(_ & s & c & hs & ho)]; injection ho as _ ->; [split; [exact hi|]; unfold same_conf; auto|].
    destruct (inv1_serialize _ _ _ _ _ hi hs) as [a1 a2]. split; [exact a1|]. split; [reflexivity|]. split; [right; eapply serialize_refresh; exact hs|].
    split; [apply sh_seqno; exact a2|reflexivity]. }
  destruct h1 as (h1 & hst1 & hsc & hseq1 & _).
  destruct h as [(_ & ->)|(inc & new & bad & _ & hinc & hm & y & ha & _)]; [split; [exact h1|]; right; split; [exact hseq1|]; right; auto|]. cbv zeta in ha.
  set (st2 := set_old _ st1) in ha.
  assert (h02 : inv0 B st2) by (apply inv0_old; [apply h1|]; apply fold_sadd_ssorted, h1).
  assert (h2 : inv1 B st2) by (eapply inv1_same; [exact h1|exact h02|reflexivity|auto]).
  assert (hm2 : moved st st2) by (right; split; [exact hseq1|]; right; split; [exact hsc|left; exact hst1]).
  assert (hd : is_dirty st2 = is_dirty st) by (unfold st2, is_dirty; cbn; rewrite hst1; reflexivity).
  destruct (hok mine inc) as (hnc & hnn & hcan). { split; [eauto|exact hinc]. }
  set (L := map snd (mine ++ inc)) in *.
  assert (hmine : forall s m, In s (map snd mine) -> parse_msg (b_env B) false s = Ok m -> m_seqno m = s_seqno st).
  { intros s m hs hp. apply own_part_spec in ho as [(_ & ho)|(hz & s' & c & hs' & ho)]; injection ho as -> _; [destruct hs|].
    destruct hs as [<-|[]]. cbn [snd] in hp. destruct (own_parses _ _ _ _ hB hi hs' hz) as (m0 & p1 & p2). congruence. }
  assert (hge : forall m bd, merge_msgs (b_env B) L = Ok (m, bd) -> (s_seqno st <= m_seqno m)%Z).
  { intros m bd hmm. apply own_part_spec in ho as [(hz & ho)|(hz & s & c & hs & ho)]; injection ho as -> _.
    - apply andb_true_iff in hz as [hz _]. apply Z.eqb_eq in hz. rewrite hz.
      assert (hin : forall s x, In s L -> parse_msg (b_env B) false s = Ok x -> (0 <= m_seqno x)%Z).
      { intros s x0 hs hp. apply in_map_iff in hs as ([hh s'] & <- & hs). eapply hnn; [exact hs|exact hp]. }
      destruct (merge_msgs_origin _ _ _ _ hnc hmm) as [(s & x0 & i & a1 & a2 & ->)|(_ & _ & _ & s & x0 & a1 & a2 & a3)]; specialize (hin _ _ a1 a2); unfold m_seqno in *; cbn; lia.
    - destruct (own_parses _ _ _ _ hB hi hs hz) as (m0 & p1 & p2). rewrite <- p2. eapply merge_msgs_ge; [exact hnc|apply hB|exact hmm| |exact p1]. left. reflexivity. }
  assert (hnew : cfg_ok (b_env B) new /\ (s_seqno st <= m_seqno (c_msg new))%Z /\
     (is_dirty st = true -> (exists m o, new = Mut m o) /\ (m_unmerged (c_msg new) <> None -> s_seqno st < m_seqno (c_msg new))%Z) /\
     (m_seqno (c_msg new) <> s_seqno st -> own_ok (b_env B) new)).
  { unfold merge_confs in hm. destruct (is_dirty st).
    - split; [eapply reach_ok; [apply hB|apply hB|]; eapply reach_merge_mutable; eassumption|]. unfold merge_mutable in hm. ok_inv hm. destruct a as [m bd].
      specialize (hge _ _ eq_refl). destruct (m_unmerged m) eqn:eu.
      + ok_inv hm. injection hm as <- <-. destruct (increment_impl_seqno _ _ _ ha1) as (q & _).
        assert (hmu : exists m1, a = Mut m1 (m_data m)) by (unfold increment_impl in ha1; destruct (_ || _) in ha1; [discriminate|]; injection ha1 as <-; eauto).
        destruct hmu as [m1 ->]. cbn [c_msg] in *. split; [lia|]. split; [|intros _; exact I]. intros _. split; [eauto|]. intros _. lia.
      + injection hm as <- <-. cbn [c_msg]. split; [exact hge|]. split; [|intros _; exact I]. intros _. split; [eauto|]. congruence.
    - ok_inv hm. destruct a as [m bd]. injection hm as <- <-. cbn [fst c_msg]. split; [eapply reach_ok; [apply hB|apply hB|]; eapply reach_merge; eassumption|].
      split; [eapply hge; reflexivity|]. split; [discriminate|]. intros hne.
      destruct (merge_msgs_origin _ _ _ _ hnc ha0) as [(s & x0 & i & a1 & a2 & ->)|(_ & a2 & a3 & _)].
      2: { unfold own_ok. rewrite a2. congruence. }
      unfold L in a1. rewrite map_app in a1. apply in_app_or in a1 as [a1|a1].
      { exfalso. apply hne. apply (hmine _ _ a1 a2). }
      apply in_map_iff in a1 as ([hh s'] & <- & a1). cbn [snd] in *. unfold own_ok. change (m_vsig (set_unmerged (Some i) x0)) with (m_vsig x0).
      destruct (e_verifier (b_env B)) as [v|] eqn:ev.
      + destruct (m_vsig x0) eqn:es; [|exfalso; eapply parse_verified; [exact a2|congruence|exact es]].
        destruct (hcan ltac:(discriminate) _ _ a1 _ a2) as (c & hc). unfold serialize in hc. cbn [refresh bind c_msg] in hc. ok_inv hc. injection hc as -> _.
        exists s', x0. split; [exact ha1|]. split; [exact a2|reflexivity].
      + rewrite (parse_unverified _ _ _ a2 ev). unfold read_only. rewrite ev. discriminate. }
  destruct hnew as (n1 & n2 & n3 & n4).
  assert (hret : forall c', c' = new \/ c' = retain new -> cfg_ok (b_env B) c' /\ m_seqno (c_msg c') = m_seqno (c_msg new)).
  { intros c' [-> | ->]; [auto|]. destruct new as [m|m o]; [|auto]. split; [|reflexivity]. destruct n1 as [f1 f2]. repeat split; try reflexivity; apply f1. }
  pose proof (i1_nonneg _ _ hi) as hnonneg.
  apply adopt_spec in ha as [(_ & _ & ->)|[(hne & hu & ha)|(hne & i & hu & [(_ & _ & _ & _ & ->)|(_ & st3 & ha & _ & ->)])]]; [auto| |auto|].
  - rewrite hd in ha. set (c' := if is_dirty st then new else retain new) in ha.
    assert (hc' : c' = new \/ c' = retain new) by (unfold c'; destruct (is_dirty st); auto). destruct (hret c' hc') as [q1 q2].
    assert (hmut : exists m o, c' = Mut m o) by (unfold c'; destruct (is_dirty st); [apply n3; reflexivity|destruct new; cbn; eauto]).
    apply set_state_spec in ha as [(_ & -> & _ & hro)|(_ & e1 & e2 & _)].
    { exfalso. destruct hmut as (m & o & e). destruct (i0_ro _ _ h0' hro) as (_ & m0 & e0). cbn [set_conf s_conf] in e0. congruence. }
    cbn [set_conf s_conf] in e1. assert (hlt : (s_seqno st < s_seqno st')%Z) by (unfold s_seqno at 2, s_msg; rewrite e1, q2; lia).
    split; [|left; exact hlt]. split; auto; try (rewrite e1; auto); try lia. destruct hmut as (m & o & ->). exact I.
  - apply set_state_spec in ha as [(_ & _ & ha & _)|(_ & e1 & e2 & _)]; [discriminate|]. cbn [set_conf s_conf] in e1.
    set (st4 := mkBase _ _ _ _ _ _) in *. assert (e4 : s_conf st4 = new) by exact e1.
    assert (hlt : (s_seqno st < s_seqno st4)%Z) by (unfold s_seqno at 2, s_msg; rewrite e4; lia).
    split; [|left; exact hlt]. split; auto; try (rewrite e4; auto); try lia. cbn [st4 s_state]. rewrite e2. discriminate.
Qed.
Lemma push_move B st x st' : inv1 B st -> push B st = (x, st') -> inv1 B st' /\ moved st st'.
Proof.
  intros hi h. pose proof (inv0_push _ _ _ _ (i1_0 _ _ hi) h) as h0.
  apply push_spec in h as [(_ & [->|(s & c & hs & ->)])|(k & s & conf & c & st2 & _ & hs & _ & _ & h2 & _ & ->)].
  - split; [exact hi|apply moved_refl].
  - destruct (inv1_serialize _ _ _ _ _ hi hs) as [a1 a2]. split; [exact a1|]. right. split; [apply sh_seqno; exact a2|]. right. split; [right; eapply serialize_refresh; exact hs|auto].
  - destruct (inv1_serialize _ _ _ _ _ hi hs) as [a1 a2]. destruct h2 as [(hd & h2)|(_ & ->)].
    + apply set_state_spec in h2 as [(_ & _ & h2 & _)|(_ & e1 & e2 & _)]; [discriminate|].
      split; [eapply inv1_same; [exact a1|exact h0|exact e1|cbn [set_old s_state]; rewrite e2; discriminate]|].
      right. split; [unfold s_seqno, s_msg; cbn [set_old s_conf]; rewrite e1; apply sh_seqno; exact a2|]. left. unfold is_dirty in hd. destruct (s_state st); congruence.
    + split; [eapply inv1_same; [exact a1|exact h0|reflexivity|auto]|]. right. split; [apply sh_seqno; exact a2|]. right.
      split; [right; eapply serialize_refresh; exact hs|auto].
Qed.
Lemma dump_move B st x st' : inv1 B st -> dump B st = (x, st') -> inv1 B st' /\ moved st st'.
Proof.
  intros hi h. pose proof (inv0_dump _ _ _ _ (i1_0 _ _ hi) h) as h0. apply dump_spec in h. cbv zeta in h.
  destruct h as [(s & c & hs & _ & ->)|(_ & ->)].
  - destruct (inv1_serialize _ _ _ _ _ hi hs) as [a1 a2]. split; [eapply inv1_same; [exact a1|exact h0|reflexivity|auto]|].
    right. split; [apply sh_seqno; exact a2|]. right. split; [right; eapply serialize_refresh; exact hs|auto].
  - split; [eapply inv1_same; [exact hi|exact h0|destruct (readonly B); reflexivity|destruct (readonly B); auto]|].
    destruct (readonly B); [|apply moved_refl]. right. split; [reflexivity|]. right. split; [left; reflexivity|auto].
Qed.
Lemma confirm_move B n h st x st' : inv1 B st -> confirm_pushed B n h st = (x, st') -> inv1 B st' /\ moved st st'.
Proof.
  intros hi e. pose proof (inv0_confirm _ _ _ _ _ _ (i1_0 _ _ hi) e) as h0. apply confirm_spec in e as (_ & [(_ & ->)|(hs & _ & ->)]); [split; [exact hi|apply moved_refl]|].
  split; [eapply inv1_same; [exact hi|exact h0|reflexivity|discriminate]|]. right. split; [reflexivity|]. right. split; [left; reflexivity|auto].
Qed.
Lemma edit_fun_wf B o st x st' : is_edit o = true -> op_ok B o st -> run B o st = (x, st') ->
  (x = Ok tt /\ st' = st) \/ exists f, edit B f st = (x, st') /\ forall d, wf d = true -> wf (f d) = true.
Proof.
  destruct o; try discriminate; intros _ hok h; cbn [run op_ok] in *.
  - unfold assign_at in h. destruct (empty_container v).
    + unfold erase_at in h. destruct (_ && _) in h; [injection h as <- <-; auto|]. right. eexists. split; [exact h|]. apply erase_field_wf.
    + destruct (_ && _) in h; [injection h as <- <-; auto|]. right. eexists. split; [exact h|]. intros d. apply set_field_wf, hok.
  - unfold erase_at in h. destruct (_ && _) in h; [injection h as <- <-; auto|]. right. eexists. split; [exact h|]. apply erase_field_wf.
  - unfold set_insert_at in h. destruct (_ && _) in h; [injection h as <- <-; auto|]. right. eexists. split; [exact h|]. intros d. apply insert_elem_wf, hok.
  - unfold set_erase_at in h. destruct (_ && _) in h; [injection h as <- <-; auto|]. right. eexists. split; [exact h|]. intros d. apply erase_elem_wf.
Qed.
Lemma key_op_returned B o st x st' : is_key_op o = true -> run B o st = (x, st') -> returned x ->
  st' = st \/ exists ks, st' = set_keys ks st \/ exists y, dirty B (set_keys ks st) = (y, st') /\ returned y.
Proof.
  destruct o; try discriminate; intros _ h hret; cbn [run] in h.
  - apply add_key_call in h as [h|(ks & [h|h])]; eauto 7.
  - unfold remove_key in h. destruct (Nat.leb _ from); [injection h as _ <-; auto|]. destruct (Nat.ltb (length k) 32); [injection h as _ <-; auto|].
    cbv zeta in h. destruct (_ && _ && _) in h; [|injection h as _ <-; eauto]. right. eexists. right.
    destruct (dirty B (set_keys _ st)) as [[]] eqn:e; injection h as <- <-; rewrite e; (eexists; split; [reflexivity|]); try exact hret; split; discriminate.
  - unfold clear_keys in h. cbv zeta in h. destruct (_ && _ && _) in h; [|injection h as _ <-; eauto]. right. exists []. right.
    destruct (dirty B (set_keys _ st)) as [[]] eqn:e; injection h as <- <-; (eexists; split; [reflexivity|]); try exact hret; split; discriminate.
  - unfold replace_keys in h. destruct ks as [|f r].
    + destruct (s_keys st) eqn:ek; [injection h as _ <-; auto|]. unfold clear_keys in h. cbv zeta in h.
      destruct (_ && _ && _) in h; [|injection h as _ <-; eauto]. right. exists []. right.
      destruct (dirty B (set_keys _ st)) as [[]] eqn:e; injection h as <- <-; (eexists; split; [reflexivity|]); try exact hret; split; discriminate.
    + destruct (negb _) in h; [injection h as _ <-; auto|]. cbv zeta in h. destruct (fold_add_keys B (f :: r) (set_keys [] st)) as [ks e]. rewrite e in h.
      change (set_keys ks (set_keys [] st)) with (set_keys ks st) in h.
      destruct (_ && _ && _) in h; [eauto 6|injection h as _ <-; eauto].
Qed.
Lemma ignore_returned {A} (c : call A) x st' : ignore c = (x, st') -> st' = snd c.
Proof. unfold ignore. congruence. Qed.
Lemma step_move B st o st' : benv_ok B -> inv1 B st -> step B (tame B) st o st' -> inv1 B st' /\ moved st st'.
Proof.
  intros hB hi h. destruct h as [o x st' h hret [hok hsend]]. destruct (is_edit o) eqn:ee.
  - destruct (edit_fun_wf _ _ _ _ _ ee hok h) as [(_ & ->)|(f & he & hf)]; [split; [exact hi|apply moved_refl]|].
    destruct (inv1_edit _ _ _ _ _ hB hi he hret hf hsend) as [a1 [->|(b1 & _ & _ & [(b2 & b3 & _)|(b2 & b3 & _)])]].
    + split; [exact hi|apply moved_refl].
    + split; [exact a1|]. right. auto.
    + split; [exact a1|]. left. lia.
  - destruct (is_key_op o) eqn:ek.
    + destruct (key_op_returned _ _ _ _ _ ek h hret) as [->|(ks & [->|(y & hd & hy)])].
      * split; [exact hi|apply moved_refl].
      * split; [apply inv1_keys; exact hi|]. right. split; [reflexivity|]. right. split; [left; reflexivity|auto].
      * destruct (inv1_dirty _ _ _ _ hB (inv1_keys _ _ ks hi) hd hy) as [a1 [->|(_ & _ & _ & b4 & _)]].
        -- split; [apply inv1_keys; exact hi|]. right. split; [reflexivity|]. right. split; [left; reflexivity|auto].
        -- split; [exact a1|]. left. change (s_seqno (set_keys ks st)) with (s_seqno st) in b4. lia.
    + destruct o; try discriminate; cbn [run] in h.
      * apply ignore_returned in h. destruct (push B st) eqn:e. cbn [snd] in h. subst. eapply push_move; eassumption.
      * eapply confirm_move; eassumption.
      * apply ignore_returned in h. destruct (merge B l st) eqn:e. cbn [snd] in h. subst. eapply merge_move; eassumption.
      * apply ignore_returned in h. destruct (dump B st) eqn:e. cbn [snd] in h. subst. eapply dump_move; eassumption.
Qed.
