(** Proofs of the ConfigBase properties C23-C26, C28, C31-C33. *)
From Verif Require Import BaseSpec Data_facts Diff_facts Parse_facts Message_facts Reach_facts Merge_facts Adopt_facts Base_facts Dump_facts Life_facts Life2_facts Life3_facts Life4_facts Fields_facts.

Lemma inv1_wf B st : inv1 B st -> wf (s_data st) = true.
Proof. intros h. pose proof (i1_cfg _ _ h) as g. unfold s_data, s_msg. destruct (s_conf st); cbn [cfg_ok c_msg] in *; apply g. Qed.
Lemma life_wf B st : benv_ok B -> life B tame st -> wf (s_data st) = true.
Proof. intros hB h. eapply inv1_wf, life_inv1; eassumption. Qed.

(** ** C23 *)
Lemma dirty_ro B st x st' : readonly B = true -> s_state st = Clean -> dirty B st = (x, st') -> x = Throw /\ st' = st.
Proof.
  intros hr hc h. apply dirty_spec in h as [(h & _)|[(_ & _ & -> & ->)|(_ & h & _)]]; [congruence|auto|congruence].
Qed.
Lemma edit_ro B f st x st' : readonly B = true -> s_state st = Clean -> edit B f st = (x, st') -> x = Throw /\ st' = st.
Proof.
  intros hr hc h. apply edit_spec in h as [(_ & h)|(st1 & m & o & h & _)].
  - eapply dirty_ro; eassumption.
  - apply dirty_ro in h as [h _]; [discriminate|assumption|assumption].
Qed.
Lemma edits_refused B st o x st' : benv_ok B -> life B tame st -> readonly B = true -> is_edit o = true -> run B o st = (x, st') ->
  st' = st /\ (x = Throw \/ (x = Ok tt /\ edited o (s_data st) = s_data st)).
Proof.
  intros hB hl hr ho h. pose proof (i0_ro _ _ (life_inv0 _ _ _ hl) hr) as [hc _].
  destruct (edit_cases B o st ho (life_wf _ _ hB hl)) as [(h1 & _ & h2)|(f & h1 & _)].
  - rewrite h1 in h. injection h as <- <-. auto.
  - rewrite h1 in h. apply edit_ro in h as [-> ->]; auto.
Qed.
(** what a read-only object contains comes from one message that was verified *)
Lemma ro_merge B l st x st' : inv0 B st -> readonly B = true -> merge B l st = (x, st') ->
  s_conf st' = s_conf st \/
  exists mine inc s m i, merge_sees B l st mine inc /\ In s (map snd (mine ++ inc)) /\ parse_msg (b_env B) false s = Ok m /\ s_conf st' = Plain (set_unmerged (Some i) m).
Proof.
  intros hi hr h. destruct (i0_ro _ _ hi hr) as [hc [m0 hm0]].
  unfold merge in h. apply merge_plain_spec in h as [(_ & ->)|(mine & st1 & ho & h)]; [auto|].
  assert (hc1 : s_conf st1 = s_conf st /\ s_state st1 = Clean).
  { apply own_part_spec in ho as [(_ & e)|(_ & s & c' & hs & e)]; injection e as _ ->; [auto|]. apply serialize_kind in hs as [hs _].
    rewrite (hs _ hm0) in *. cbn. auto. }
  destruct hc1 as [hc1 hs1]. destruct h as [(_ & ->)|(inc & new & bad & hk & hinc & hm & h)]; [auto|]. cbv zeta in h.
  assert (hd : is_dirty st = false) by (unfold is_dirty; rewrite hc; reflexivity). rewrite hd in hm.
  destruct (merge_confs_ro _ _ _ _ _ hr eq_refl hm) as (m & i & -> & hu).
  destruct h as (y & h & _).
  apply adopt_spec in h as [(_ & _ & ->)|[(_ & h & _)|(_ & j & hj & [(h & _)|(_ & st2 & h2 & _ & ->)])]].
  - left. exact hc1.
  - cbn [c_msg] in h. congruence.
  - cbn in h. unfold is_dirty in h. cbn in h. rewrite hs1 in h. discriminate.
  - right. apply set_state_spec in h2 as [(h2 & _)|(_ & e1 & _)]; [discriminate|]. cbn [s_conf set_conf] in e1.
    unfold merge_confs in hm. ok_inv hm. injection hm as hm _. destruct a as [m' bad']. cbn [fst] in hm. subst m'.
    assert (exists s x, In s (map snd (mine ++ inc)) /\ parse_msg (b_env B) false s = Ok x /\ m = set_unmerged (Some i) x) as (s & x' & g1 & g2 & g3).
    { apply merge_msgs_inv in ha as (ms & h1 & h3). destruct (merge_parsed_index _ _ _ _ h3 hu) as (x' & h4 & h5).
      apply nth_error_In in h4. apply (parse_all_spec _ _ _ _ _ h1) in h4 as (s & h6 & h7). eauto. }
    exists mine, inc, s, x', i. repeat split; eauto. cbn. rewrite e1, g3. reflexivity.
Qed.
Lemma ro_step B st o x st' : inv0 B st -> readonly B = true -> run B o st = (x, st') ->
  s_conf st' = s_conf st \/
  exists l mine inc s m i, o = OpMerge l /\ merge_sees B l st mine inc /\ In s (map snd (mine ++ inc)) /\ parse_msg (b_env B) false s = Ok m /\ s_conf st' = Plain (set_unmerged (Some i) m).
Proof.
  intros hi hr h. destruct (i0_ro _ _ hi hr) as [hc [m0 hm0]].
  assert (hed : forall f y st2, edit B f st = (y, st2) -> s_conf st2 = s_conf st) by (intros f y st2 g; apply edit_ro in g as [_ ->]; auto).
  assert (hke : is_key_op o = true -> s_conf st' = s_conf st).
  { intros ho. destruct (key_op_spec _ _ _ _ _ ho h) as [->|(ks & [->|(y & g)])]; [reflexivity|reflexivity|]. apply dirty_ro in g as [_ ->]; auto. }
  destruct o; cbn [is_key_op] in hke; auto;
    try (left; apply edit_op_spec in h; [|reflexivity]; destruct h as [(_ & ->)|(f & g)]; [reflexivity|exact (hed _ _ _ g)]).
  - left. apply ignore_returned in h. destruct (push B st) as [y st2] eqn:e. cbn [snd] in h. subst st2.
    apply push_spec in e as [(_ & [->|(s & c & g & ->)])|(k & s & conf & c & st2 & _ & g & _ & _ & g2 & _ & ->)]; [reflexivity|..].
    + apply serialize_kind in g as [g _]. cbn. rewrite hm0. apply g, hm0.
    + apply serialize_kind in g as [g _]. destruct g2 as [(g2 & _)|(_ & ->)]; [unfold is_dirty in g2; rewrite hc in g2; discriminate|]. cbn. rewrite hm0. apply g, hm0.
  - left. apply confirm_spec in h as [_ [(_ & ->)|(h & _)]]; [reflexivity|congruence].
  - apply ignore_returned in h. destruct (merge B l st) as [y st2] eqn:e. cbn [snd] in h. subst st2.
    destruct (ro_merge _ _ _ _ _ hi hr e) as [g|(mine & inc & s & m & i & g)]; [auto|]. right. exists l, mine, inc, s, m, i. tauto.
  - left. apply ignore_returned in h. destruct (dump B st) as [y st2] eqn:e. cbn [snd] in h. subst st2.
    apply dump_spec in e. cbv zeta in e. destruct e as [(s & c & g & _ & ->)|(_ & ->)].
    + apply serialize_kind in g as [g _]. cbn. rewrite hm0. apply g, hm0.
    + rewrite hr. reflexivity.
Qed.

(** ** C24 *)
Lemma change_needs_push B o st st' : is_edit o = true -> run B o st = (Ok tt, st') -> st' = st \/ s_state st' = Dirty.
Proof.
  intros ho h. destruct (edit_op_spec _ _ _ _ _ ho h) as [(_ & ->)|(f & g)]; [auto|]. right.
  apply edit_spec in g as [(g & _)|(st1 & m & o1 & g & _ & _ & ->)]; [congruence|]. apply dirty_ok in g as (? & ? & _ & g & _). exact g.
Qed.
Lemma needs_push_ends B st o st' : benv_ok B -> life B tame st -> step B (tame B) st o st' -> needs_push st = true -> needs_push st' = false ->
  (exists h, o = OpConfirm (s_seqno st) h /\ s_state st = Waiting /\ current_hashes st' = (if is_nil h then [] else [h])) \/
  (exists l, o = OpMerge l /\ (s_seqno st < s_seqno st')%Z).
Proof.
  intros hB hl hs h1 h2. pose proof (life_inv1 _ _ hB hl) as hi. destruct (step_move _ _ _ _ hB hi hs) as [hi' hm].
  assert (hc : s_state st <> Clean) by (unfold needs_push, is_clean in h1; destruct (s_state st); [discriminate|discriminate..]).
  assert (hc' : s_state st' = Clean) by (unfold needs_push, is_clean in h2; destruct (s_state st'); [reflexivity|discriminate..]).
  destruct hs as [o x st' h hret [hok _]].
  assert (hdi : forall st0 y st1, s_state st0 = s_state st -> dirty B st0 = (y, st1) -> s_state st1 <> Clean).
  { intros st0 y st1 he g. apply dirty_spec in g as [(g & -> & _)|[(_ & _ & _ & ->)|(_ & _ & st2 & g & g2)]]; [congruence|congruence|].
    apply set_state_spec in g as [(g & _)|(_ & _ & g & _)]; [discriminate|]. destruct g2 as [(c & _ & _ & ->)|(_ & _ & ->)]; cbn; rewrite g; discriminate. }
  assert (hed : forall f y st1, edit B f st = (y, st1) -> s_state st1 <> Clean).
  { intros f y st1 g. apply edit_spec in g as [(_ & g)|(st2 & m & o1 & g & _ & _ & ->)]; [eapply hdi; eauto|]. cbn. eapply hdi; eauto. }
  assert (hke : is_key_op o = true -> False).
  { intros ho. destruct (key_op_spec _ _ _ _ _ ho h) as [->|(ks & [->|(y & g)])]; [congruence|cbn in hc'; congruence|]. eapply hdi; [|exact g|exact hc']. reflexivity. }
  destruct o; cbn [is_key_op] in hke; try (exfalso; auto; fail);
    try (exfalso; apply edit_op_spec in h; [|reflexivity]; destruct h as [(_ & ->)|(f & g)]; [congruence|exact (hed _ _ _ g hc')]).
  - exfalso. apply ignore_returned in h. destruct (push B st) as [y st2] eqn:e. cbn [snd] in h. subst st2.
    apply push_spec in e as [(_ & [->|(s & c & g & ->)])|(k & s & conf & c & st2 & _ & g & _ & _ & g2 & _ & ->)]; [congruence|cbn in hc'; congruence|].
    destruct g2 as [(g2 & g3)|(_ & ->)]; [|cbn in hc'; congruence]. apply set_state_spec in g3 as [(g3 & _)|(_ & _ & g3 & _)]; [discriminate|]. cbn in hc'. congruence.
  - left. apply confirm_spec in h as [_ [(_ & ->)|(a1 & a2 & a3)]]; [congruence|]. subst. exists hash. split; [reflexivity|]. split; [exact a1|]. reflexivity.
  - right. exists l. split; [reflexivity|]. destruct hm as [hm|(hq & [hm|(_ & [hm|(hw & _)])])]; [exact hm| |congruence|].
    + apply ignore_returned in h. destruct (merge B l st) as [y st2] eqn:e. cbn [snd] in h. subst st2. exfalso.
      unfold merge in e. apply merge_plain_spec in e as [(_ & ->)|(mine & st1 & ho & e)]; [congruence|].
      assert (hs1 : s_state st1 = s_state st /\ s_seqno st1 = s_seqno st).
      { apply own_part_spec in ho as [(_ & e1)|(_ & s & c' & hs & e1)]; injection e1 as _ ->; [auto|]. destruct (inv1_serialize _ _ _ _ _ hi hs) as [_ g]. cbn.
        split; [reflexivity|]. unfold s_seqno, s_msg, m_seqno. cbn. unfold s_msg in g. congruence. }
      destruct hs1 as [hs1 hq1]. destruct e as [(_ & ->)|(inc & new & bad & hk & hinc & hmc & y' & e & _)]; [congruence|].
      apply adopt_spec in e as [(_ & _ & ->)|[(_ & _ & e)|(hne & j & hj & [(_ & _ & _ & _ & ->)|(_ & st2 & e2 & _ & ->)])]].
      * cbn in hc'. congruence.
      * apply set_state_spec in e as [(_ & -> & _)|(_ & _ & e & _)]; [|congruence]. cbn in hc'. congruence.
      * cbn in hc'. congruence.
      * apply set_state_spec in e2 as [(e2 & _)|(_ & e1 & _)]; [discriminate|]. apply hne. unfold s_seqno, s_msg in hq. cbn in hq, e1. rewrite e1 in hq. exact hq.
    + apply ignore_returned in h. destruct (merge B l st) as [y st2] eqn:e. cbn [snd] in h. subst st2. exfalso.
      unfold merge in e. apply merge_plain_spec in e as [(_ & ->)|(mine & st1 & ho & e)]; [congruence|].
      assert (hs1 : s_state st1 = s_state st /\ s_seqno st1 = s_seqno st).
      { apply own_part_spec in ho as [(_ & e1)|(_ & s & c' & hs & e1)]; injection e1 as _ ->; [auto|]. destruct (inv1_serialize _ _ _ _ _ hi hs) as [_ g]. cbn.
        split; [reflexivity|]. unfold s_seqno, s_msg, m_seqno. cbn. unfold s_msg in g. congruence. }
      destruct hs1 as [hs1 hq1]. destruct e as [(_ & ->)|(inc & new & bad & hk & hinc & hmc & y' & e & _)]; [congruence|].
      apply adopt_spec in e as [(_ & _ & ->)|[(_ & _ & e)|(hne & j & hj & [(_ & _ & _ & _ & ->)|(_ & st2 & e2 & _ & ->)])]].
      * cbn in hc'. congruence.
      * apply set_state_spec in e as [(_ & -> & _)|(_ & _ & e & _)]; [|congruence]. cbn in hc'. congruence.
      * cbn in hc'. congruence.
      * apply set_state_spec in e2 as [(e2 & _)|(_ & e1 & _)]; [discriminate|]. apply hne. unfold s_seqno, s_msg in hq. cbn in hq, e1. rewrite e1 in hq. exact hq.
  - exfalso. apply ignore_returned in h. destruct (dump B st) as [y st2] eqn:e. cbn [snd] in h. subst st2.
    apply dump_spec in e. cbv zeta in e. destruct e as [(s & c & g & _ & ->)|(_ & ->)]; [cbn in hc'; congruence|]. destruct (readonly B); cbn in hc'; congruence.
Qed.

(** ** C25 *)
Lemma later_move B st st' : benv_ok B -> inv1 B st -> later B (tame B) st st' -> inv1 B st' /\ (s_seqno st <= s_seqno st')%Z.
Proof.
  intros hB hi h. induction h as [|st1 o st2 _ [IH1 IH2] h|st1 d st2 ks st3 _ [IH1 IH2] h1 h2 h3].
  - split; [exact hi|lia].
  - destruct (step_move _ _ _ _ hB IH1 h) as [g1 g2]. apply moved_le in g2. split; [exact g1|lia].
  - destruct (restore_move _ _ _ _ _ _ hB IH1 h1 h2 h3) as (g1 & _ & _ & _ & _ & _ & _ & g2). split; [exact g1|]. destruct (is_dirty st1); lia.
Qed.
Lemma edit_increases B o st st' : benv_ok B -> life B tame st -> is_edit o = true -> step B (tame B) st o st' -> s_state st <> Dirty ->
  st' = st \/ s_seqno st' = (s_seqno st + 1)%Z.
Proof.
  intros hB hl ho hs hd. destruct hs as [o x st' h hret [hok hsend]].
  destruct (edit_fun_wf _ _ _ _ _ ho hok h) as [(_ & ->)|(f & g & hf)]; [auto|].
  destruct (inv1_edit _ _ _ _ _ hB (life_inv1 _ _ hB hl) g hret hf hsend) as [_ [->|(_ & _ & _ & [(g1 & _)|(_ & g1 & _)])]]; [auto|congruence|auto].
Qed.

(** ** C28 *)
Lemma dump_total B st : inv1 B st -> (1 <= e_lag (b_env B) <= int64_max)%Z -> exists d st1, dump B st = (Ok d, st1) /\ s_data st1 = fst (prune (s_data st)).
Proof.
  intros hi hl. unfold dump. set (st0 := if readonly B then set_old [] st else st). assert (e0 : s_conf st0 = s_conf st) by (unfold st0; destruct (readonly B); reflexivity).
  unfold make_dump. rewrite e0. unfold serialize. destruct (refresh_no_ub _ _ (i1_cfg _ _ hi)) as [c' hc]. rewrite hc. cbn [bind].
  destruct (refresh_ok _ _ _ (i1_cfg _ _ hi) hc) as (_ & hf & _ & hsh & _ & _ & hda).
  assert (hq : m_seqno (c_msg c') = s_seqno st) by (unfold s_seqno, s_msg, m_seqno; congruence).
  unfold serialize_impl. pose proof (i1_nonneg _ _ hi) as hn. rewrite hq.
  assert (hr : int64_ok (s_seqno st - e_lag (b_env B)) = true).
  { pose proof (fr_seqno _ _ hf) as hr. rewrite hq in hr. unfold int64_ok, int64_max, int64_min in *. apply andb_true_iff in hr as [_ hr]. apply Z.leb_le in hr. apply andb_true_iff. split; apply Z.leb_le; lia. }
  rewrite hr, andb_false_r. destruct (m_vsig (c_msg c')); cbn [bind fst snd]; (eexists; eexists; split; [reflexivity|exact hda]).
Qed.
Lemma restore_total B st d st1 ks : inv1 B st -> (1 <= e_lag (b_env B))%Z -> dump B st = (Ok d, st1) -> (N.of_nat (length d) <= uint64_max)%N ->
  (s_state st = Dirty -> int64_ok (s_seqno st + e_lag (b_env B)) = true) -> exists st', restore B ks d = Ok st'.
Proof.
  intros hi hlag h hl hq. apply dump_spec in h. cbv zeta in h. destruct h as [(s & c' & hs & hd & ->)|(h & _)]; [|exfalso; apply (h d); reflexivity].
  injection hd as ->. rewrite restore_bytes by exact hl.
  destruct (store_parse _ _ _ _ _ false (i1_cfg _ _ hi) hs) as (m1 & p1 & (p2 & _ & _ & _ & p3) & _).
  destruct (store_parse _ _ _ _ _ true (i1_cfg _ _ hi) hs) as (m2 & p4 & _).
  destruct (serialize_ok _ _ _ _ _ (i1_cfg _ _ hi) hs) as (_ & hok & hrf & hser).
  destruct (refresh_ok _ _ _ (i1_cfg _ _ hi) hrf) as (_ & hf & _ & hsh & _).
  assert (e1 : m_seqno m1 = s_seqno st) by (rewrite p2; unfold s_seqno, s_msg, m_seqno; congruence).
  destruct (s_state st); [rewrite p4; cbn [bind]; eauto| |rewrite p4; cbn [bind]; eauto].
  specialize (hq eq_refl). unfold mutable_of. rewrite p1. cbn [bind].
  assert (hk : merge_parsed (store_env (b_env B)) [m1] = Ok (set_unmerged (Some 0) m1)).
  { destruct (merge_parsed (store_env (b_env B)) [m1]) eqn:em; [apply merge_parsed_single in em; congruence|exfalso; revert em..].
    all: unfold merge_parsed; cbn [existsb e_lag store_env]; rewrite e1, hq; cbn [negb orb]; unfold marked; cbn [mark superseded existsb app mark_old map fst snd orb];
      assert (hx : (m_seqno m1 + e_lag (store_env (b_env B)) <=? max_seqno [m1])%Z = false);
      [apply Z.leb_gt; unfold max_seqno; cbn [fold_left e_lag store_env]; destruct (m_seqno m1 >? int64_min)%Z eqn:eg; [lia|]; rewrite Z.gtb_ltb in eg; apply Z.ltb_ge in eg; pose proof (i1_nonneg _ _ hi); unfold int64_min in *; lia
      |rewrite hx; cbn; discriminate]. }
  rewrite hk.
  pose proof (i1_nonneg _ _ hi) as hn.
  assert (hs1 : int64_ok (s_seqno st + 1) = true).
  { unfold int64_ok, int64_max, int64_min in *. apply andb_true_iff in hq as [_ hq]. apply Z.leb_le in hq. apply andb_true_iff. split; apply Z.leb_le; lia. }
  assert (hs2 : negb (is_nil (m_lagged m1)) && negb (int64_ok (s_seqno st - e_lag (b_env B))) = false).
  { destruct (m_lagged m1) as [|p l] eqn:ell; [reflexivity|]. cbn [is_nil negb andb]. apply negb_false_iff.
    assert (hne : m_lagged (c_msg c') <> []) by (intros e; unfold windowed in p3; rewrite e in p3; cbn [filter] in p3; congruence).
    pose proof (ok_range _ _ hok hne) as hr. replace (s_seqno st) with (m_seqno (c_msg c')) by (unfold s_seqno, s_msg, m_seqno; congruence). exact hr. }
  assert (hinc : exists c, increment_impl (store_env (b_env B)) (set_unmerged (Some 0) m1) = Ok c).
  { unfold increment_impl. cbv zeta. change (m_seqno (set_unmerged (Some 0) m1)) with (m_seqno m1). rewrite e1, hs1.
    change (m_lagged (set_unmerged (Some 0) m1)) with (m_lagged m1). change (e_lag (store_env (b_env B))) with (e_lag (b_env B)). rewrite hs2. cbn [negb orb]. eauto. }
  destruct hinc as [c hinc]. cbn [bind]. rewrite hinc. cbn [bind]. eauto.
Qed.
