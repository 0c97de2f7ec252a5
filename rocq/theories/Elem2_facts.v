(** Proofs of C96, part 2: the messages of a device that never loses the set are regular. *)
From Verif Require Import ElemSpec Maps Data_facts Diff_facts Bt_facts Parse_facts Message_facts Wire_facts Round_facts Reach_facts Redeliver_facts Merge_facts Resolve_facts Conflict_facts Overflow_facts Replay_facts Merge2_facts Adopt_facts Crypt_facts Base_facts Dump_facts Life_facts Life2_facts Life3_facts Life4_facts Fields_facts Conf_facts Conf2_facts Conf3_facts Conf4_facts Conf5_facts Conf6_facts Converge_facts Plain_facts Field_facts Field2_facts Elem_facts.
From Coq Require Import Lia Permutation.

Section Elem.
Variable p : list bytes.
Variable x : scalar.
Hypothesis hp : p <> [].

Lemma regular_unmerged i m : regular p x m -> regular p x (set_unmerged i m).
Proof. intros [h0 h1 h2 h3 h4]. split; assumption. Qed.
Lemma merge_parsed_regular E ms m : good E ms -> merge_parsed E ms = Ok m -> (forall y, In y ms -> regular p x y) -> (forall y, In y ms -> remains p (m_data y) (m_data m) = true) -> regular p x m.
Proof.
  intros hg h ho hk. destruct (m_unmerged m) as [i|] eqn:hu.
  - destruct (merge_parsed_index _ _ _ _ h hu) as (y & hy & ->). apply nth_error_In in hy. apply regular_unmerged, (ho y hy).
  - destruct (merge_parsed_conflict _ _ _ hg h hu) as (_ & _ & _ & _ & hres).
    eapply resolve_regular; [exact hp|apply kept_curs, hg|exact hres| |]; intros c hc; apply (kept_In E ms c hg) in hc; [|apply hk, hc]. split; [apply ho, hc|apply max_seqno_ge, hc].
Qed.
Lemma merge_msgs_regular E l m bad : no_collision E l -> merge_msgs E l = Ok (m, bad) -> (forall s y, In s l -> parse_msg E false s = Ok y -> regular p x y) ->
  (forall s y, In s l -> parse_msg E false s = Ok y -> remains p (m_data y) (m_data m) = true) -> regular p x m.
Proof.
  intros hnc h ho hk. apply merge_msgs_inv in h as (ms & h1 & h2). eapply merge_parsed_regular; [eapply parsed_good; eassumption|exact h2| |];
    intros y hy; apply (parse_all_spec _ _ _ _ _ h1) in hy as (s & hs & hy); eauto.
Qed.
Definition regular_conf (c : config) : Prop :=
  match c with
  | Plain m => regular p x m
  | Mut m o => set_shaped p (m_data m) = true /\ set_shaped p o = true /\ remains p o (fst (prune (m_data m))) = true /\
      (forall k df, In (k, df) (m_lagged m) -> (fst k < m_seqno m)%Z /\ set_shaped_df p df = true /\ backed p df (fst (prune (m_data m))) = true) /\
      (last_says p x (m_lagged m) = Some false -> has p x o = false) /\
      (last_says p x (m_lagged m) = Some true -> has p x o = true \/ (o = [] /\ has p x (m_data m) = true))
  end.
Lemma refresh_regular E c c' : cfg_ok E c -> regular_conf c -> refresh c = Ok c' -> regular p x (c_msg c') /\ regular_conf c'.
Proof.
  destruct c as [m|m o]; cbn [refresh regular_conf cfg_ok]; [intros _ h e; injection e as <-; auto|]. intros (hf & ho & _) (h1 & h2 & h3 & h4 & h5 & h6).
  destruct (diff o (fst (prune (m_data m)))) as [df|] eqn:ed; [|discriminate]. intros e. injection e as <-. cbn [c_msg regular_conf].
  assert (hw : wf (m_data m) = true) by apply hf. pose proof (set_shaped_prune p _ hw h1) as hs. pose proof (has_prune p x _ hp hw h1) as hh.
  destruct (diff_elem p x o _ df hp ho (prune_wf _ hw) h2 hs ed) as (d1 & d2 & d3).
  split; [|cbn [m_data m_lagged]; rewrite prune_idem, hh; split; [exact hs|split; [exact h2|split; [exact h3|split; [exact h4|split; [exact h5|exact h6]]]]]].
  split; cbn [m_data m_diff m_lagged]; auto.
  - apply prune_idem.
  - rewrite d2. intros v hl. destruct (moved _ _) as [w|] eqn:et; [injection hl as ->; apply moved_Some in et; tauto|]. apply moved_None in et.
    destruct v; [|rewrite <- et; auto]. destruct (h6 hl) as [h|[_ h]]; congruence.
Qed.
Lemma same_regular E m m' : msorted (m_lagged m) -> same_content E m m' -> regular p x m -> regular p x m'.
Proof.
  intros hs (e0 & e1 & e2 & _ & e3) [hz h1 h2 h3 h4]. split.
  - rewrite e1. exact hz.
  - rewrite e1. exact h1.
  - rewrite e1, e2. exact h2.
  - rewrite e3, e0, e1. intros k df hin. apply filter_In in hin as [hin _]. exact (h3 k df hin).
  - rewrite e1, e2, e3. intros v hx. apply h4. destruct (says p x (m_diff m)); [exact hx|]. eapply last_says_tail; [exact hs| |exact hx].
    intros [[a1 a2] adf] [[c1 c2] cdf] ha hc hlt. apply lt_fst_le in hlt. pose proof (proj1 (h3 _ _ hc)) as hcl. cbn [fst] in *. unfold in_window. rewrite !negb_true_iff, !orb_false_iff, !Z.leb_gt, !Z.geb_leb, !Z.leb_gt. lia.
Qed.
Lemma drop_old_says z l v : last_says p x (drop_old z l) = Some v -> last_says p x l = Some v.
Proof. induction l as [|[k df] l IH]; cbn [drop_old]; [auto|]. destruct (_ <=? _)%Z; [|auto]. intros h. cbn [last_says]. rewrite (IH h). reflexivity. Qed.
Lemma increment_impl_regular E m c : increment_impl E m = Ok c -> regular p x m ->
  regular_conf c /\ exists m', c = Mut m' (m_data m) /\ m_data m' = m_data m /\ m_seqno m' = (m_seqno m + 1)%Z /\ m_lagged m' = drop_old (m_seqno m - e_lag E) (m_lagged m) ++ [(m_sh m, m_diff m)].
Proof.
  unfold increment_impl. cbv zeta. destruct (negb _ || _); [discriminate|]. intros h [hz h1 h2 h3 h4]. injection h as <-.
  assert (e : emplace (m_sh m) (m_diff m) (drop_new (m_seqno m) (drop_old (m_seqno m - e_lag E) (m_lagged m))) = drop_old (m_seqno m - e_lag E) (m_lagged m) ++ [(m_sh m, m_diff m)]).
  { rewrite drop_new_id by (intros k df hin; apply drop_old_sub in hin; apply (h3 _ _ hin)). apply insert_last. intros k df hin. apply drop_old_sub in hin. apply (h3 _ _ hin). }
  rewrite e. split; [|eexists; split; [reflexivity|]; auto]. cbn [regular_conf m_data m_lagged]. rewrite hz.
  assert (hl : forall v, last_says p x (drop_old (m_seqno m - e_lag E) (m_lagged m) ++ [(m_sh m, m_diff m)]) = Some v -> has p x (m_data m) = v).
  { intros v. rewrite last_says_app. cbn [last_says]. intros hv. apply h4. destruct (says p x (m_diff m)) as [w|]; [exact hv|]. eapply drop_old_says. exact hv. }
  split; [exact h1|]. split; [exact h1|]. split; [apply remains_refl|]. split; [|split; [apply hl|left; apply hl; assumption]].
  intros k df hin. unfold m_seqno at 1. cbn [m_sh fst]. apply in_app_iff in hin as [hin|[hin|[]]].
  - apply drop_old_sub in hin. destruct (h3 _ _ hin). split; [lia|assumption].
  - injection hin as <- <-. split; [unfold m_seqno; lia|exact h2].
Qed.
Lemma regular_sh sh m : fst sh = m_seqno m -> regular p x m -> regular p x (mkMsg sh (m_data m) (m_diff m) (m_lagged m) (m_unknown m) (m_vsig m) (m_unmerged m)).
Proof. intros e [h0 h1 h2 h3 h4]. split; cbn [m_data m_diff m_lagged]; auto. unfold m_seqno in *. cbn [m_sh]. rewrite e. exact h3. Qed.
Lemma increment_regular E c c' : cfg_ok E c -> increment E c = Ok c' -> regular_conf c -> regular_conf c' /\ exists m, c' = Mut m (m_data m) /\ m_data m = fst (prune (m_data (c_msg c))).
Proof.
  intros hc h ho. destruct c as [m|m o]; cbn [increment] in h.
  - destruct (increment_impl_regular _ _ _ h ho) as (h1 & m' & -> & h2 & _). split; [exact h1|]. exists m'. rewrite h2. cbn [c_msg]. rewrite (rg_pruned _ _ _ ho). auto.
  - ok_inv h. destruct a as [s c1]. pose proof (serialize_refresh _ _ _ _ _ ha) as hr. destruct (refresh_regular _ _ _ hc ho hr) as [hm _]. destruct (refresh_ok _ _ _ hc hr) as (_ & _ & _ & _ & _ & _ & ed).
    destruct (increment_impl_regular _ _ _ h) as (h1 & m' & -> & h2 & _); [apply regular_sh; [reflexivity|exact hm]|]. split; [exact h1|]. exists m'. rewrite h2. cbn [m_data]. rewrite ed. auto.
Qed.
Lemma retain_regular m : m_diff m = [] -> regular p x m -> regular_conf (retain (Plain m)).
Proof.
  intros e [hz h1 h2 h3 h4]. rewrite e, says_nil in h4. cbn. rewrite set_shaped_nil, remains_nil, hz, has_nil by exact hp.
  split; [exact h1|]. split; [reflexivity|]. split; [reflexivity|]. split; [exact h3|]. split; [reflexivity|]. intros h. right. split; [reflexivity|]. exact (h4 _ h).
Qed.
Lemma merge_confs_regular B d l new bad : no_collision (b_env B) l -> merge_confs B d l = Ok (new, bad) -> (forall s y, In s l -> parse_msg (b_env B) false s = Ok y -> regular p x y) ->
  (forall s y, In s l -> parse_msg (b_env B) false s = Ok y -> remains p (m_data y) (m_data (c_msg new)) = true) ->
  regular_conf new /\ (m_unmerged (c_msg new) = None -> d = false -> m_diff (c_msg new) = []).
Proof.
  intros hnc h ho hk. unfold merge_confs in h. destruct d.
  - split; [|discriminate]. unfold merge_mutable in h. ok_inv h. destruct a as [m bd]. cbn [fst snd] in *.
    destruct (m_unmerged m) eqn:hu.
    + ok_inv h. injection h as <- <-. assert (hme : m_data (c_msg a) = m_data m).
      { unfold increment_impl in ha0. cbv zeta in ha0. destruct (negb _ || _); [discriminate|]. injection ha0 as <-. reflexivity. }
      rewrite hme in hk. pose proof (merge_msgs_regular _ _ _ _ hnc ha ho hk) as hm. eapply increment_impl_regular; eassumption.
    + injection h as <- <-. cbn [c_msg] in hk. destruct (merge_msgs_regular _ _ _ _ hnc ha ho hk) as [hz h1 h2 h3 h4]. cbn. rewrite hz.
      destruct (conflict_empty _ _ _ _ ha hu) as (_ & hdf & _). rewrite hdf, says_nil in h4. split; [exact h1|]. split; [exact h1|]. split; [apply remains_refl|]. split; [exact h3|]. split; [apply h4|left; apply h4; assumption].
  - ok_inv h. destruct a as [m bd]. injection h as <- <-. cbn [c_msg] in *. split; [exact (merge_msgs_regular _ _ _ _ hnc ha ho hk)|]. intros hu _. destruct (conflict_empty _ _ _ _ ha hu) as (_ & hdf & _). exact hdf.
Qed.
Definition inv10 (st : bstate) : Prop := regular_conf (s_conf st).
Lemma inv10_conf B st sg s c : inv1 B st -> inv10 st -> serialize (b_env B) (s_conf st) sg = Ok (s, c) -> regular p x (c_msg c) /\ inv10 (set_conf c st).
Proof. intros hi h hs. exact (refresh_regular _ _ _ (i1_cfg _ _ hi) h (serialize_refresh _ _ _ _ _ hs)). Qed.
Lemma sent_regular B st sg s c t m : inv1 B st -> inv10 st -> serialize (b_env B) (s_conf st) sg = Ok (s, c) -> parse_msg (b_env B) t s = Ok m -> regular p x m.
Proof.
  intros hi h9 hs hpm. destruct (inv10_conf _ _ _ _ _ hi h9 hs) as [h1 _]. eapply same_regular; [|eapply parse_own; [apply (i1_cfg _ _ hi)|exact hs|exact hpm]|exact h1].
  destruct (serialize_ok _ _ _ _ _ (i1_cfg _ _ hi) hs) as (_ & hok & _). apply hok.
Qed.
Lemma own_regular B st mine a : inv1 B st -> inv10 st -> own_part B st = Ok (mine, a) -> inv10 a /\ forall s y, In s (map snd mine) -> parse_msg (b_env B) false s = Ok y -> regular p x y.
Proof.
  intros hi h9 ho. apply own_part_spec in ho as [(_ & e1)|(_ & s & c' & hs & e1)]; injection e1 as -> ->; [split; [exact h9|intros s y []]|].
  destruct (inv10_conf _ _ _ _ _ hi h9 hs) as [h1 h2]. split; [exact h2|]. cbn. intros s' y [<-|[]] hpy. eapply sent_regular; eassumption.
Qed.
Lemma inv10_run B o st r st' : inv1 B st -> inv10 st -> carefully p x B o st st' -> run B o st = (r, st') -> inv10 st'.
Proof.
  intros hi h9 [[[hok _] _] [hsh hpl]] h. pose proof (i1_cfg _ _ hi) as hcfg.
  assert (hss : forall s st0 y st2, set_state B s st0 = (y, st2) -> inv10 st0 -> inv10 st2).
  { intros s st0 y st2 g g3. apply set_state_spec in g as [(_ & -> & _)|(_ & g & _)]; [exact g3|]. unfold inv10. rewrite g. exact g3. }
  assert (hdi : forall st0 y st2, s_conf st0 = s_conf st -> dirty B st0 = (y, st2) -> inv10 st2).
  { intros st0 y st2 ec g. assert (g3 : inv10 st0) by (unfold inv10; rewrite ec; exact h9). apply dirty_spec in g as [(_ & -> & _)|[(_ & _ & _ & ->)|(_ & _ & st3 & g & g2)]]; [exact g3|exact g3|].
    destruct g2 as [(c & gc & _ & ->)|(_ & _ & ->)]; [|eapply hss; eassumption]. unfold inv10. cbn. eapply increment_regular; [|exact gc|exact g3]. rewrite ec. exact hcfg. }
  assert (hke : is_key_op o = true -> inv10 st').
  { intros ho. destruct (key_op_spec _ _ _ _ _ ho h) as [->|(ks & [->|(y & g)])]; [exact h9|exact h9|]. eapply hdi; [|exact g]. reflexivity. }
  assert (hed : is_edit o = true -> inv10 st').
  { intros hie. destruct (hsh hie) as (hs1 & hs2 & hs3). apply edit_op_spec in h; [|exact hie]. destruct h as [(_ & ->)|(f & g)]; [exact h9|].
    apply edit_spec in g as [(_ & g)|(st1 & m & o1 & g & gc & _ & ->)]; [eapply hdi; [|exact g]; reflexivity|]. pose proof (hdi _ _ _ eq_refl g) as h10. unfold inv10 in *. rewrite gc in h10.
    assert (hmd : fst (prune (m_data m)) = tidied st /\ (has p x o1 = true \/ (s_state st = Dirty /\ s_conf st = Mut m o1) \/ o1 = m_data m)).
    { destruct (dirty_ok _ _ _ g) as (m1 & o2 & e1 & e2 & _ & e3). rewrite gc in e1. injection e1 as <- <-. destruct e3 as [(e3 & ->)|(e3 & e4 & e5 & _)].
      - split; [unfold tidied, s_data, s_msg; rewrite gc; reflexivity|auto].
      - destruct (increment_regular _ _ _ hcfg e5 h9) as (_ & m' & e & e6). injection e as e7 e8. rewrite <- e7 in e6, e8. split; [rewrite e6, prune_idem; reflexivity|auto]. }
    destruct hmd as [hmd hor]. destruct h10 as (g1 & g2 & g3 & g4 & g5 & g6). set (D := f (m_data m)) in *.
    change (tidied (set_conf (Mut (set_data m D) o1) st1)) with (fst (prune D)) in hs2. change (s_data (set_conf (Mut (set_data m D) o1) st1)) with D in hs1, hs3.
    change (set_shaped p D = true /\ set_shaped p o1 = true /\ remains p o1 (fst (prune D)) = true /\
      (forall k df, In (k, df) (m_lagged m) -> (fst k < m_seqno m)%Z /\ set_shaped_df p df = true /\ backed p df (fst (prune D)) = true) /\
      (last_says p x (m_lagged m) = Some false -> has p x o1 = false) /\
      (last_says p x (m_lagged m) = Some true -> has p x o1 = true \/ (o1 = [] /\ has p x D = true))).
    rewrite hmd in *. split; [exact hs1|]. split; [exact g2|]. split; [eapply remains_trans; eassumption|]. split; [|split; [exact g5|]].
    - intros k df hin. destruct (g4 k df hin) as (a1 & a2 & a3). split; [exact a1|]. split; [exact a2|]. eapply backed_remains; eassumption.
    - intros hl. destruct (g6 hl) as [hg|[-> hg]]; [auto|]. right. split; [reflexivity|]. destruct hor as [hor|[[hd hc]|hor]]; [rewrite has_nil in hor by exact hp; discriminate| |rewrite <- hor, has_nil in hg by exact hp; discriminate].
      apply hs3; [unfold awaiting; rewrite hd, hc; cbn [is_nil andb]; eapply last_says_some; exact hl|]. unfold s_data, s_msg. rewrite hc. exact hg. }
  destruct o; cbn [is_key_op is_edit] in hke, hed; auto.
  - apply ignore_returned in h. destruct (push B st) as [y st2] eqn:e. cbn [snd] in h. subst st2.
    apply push_spec in e as [(_ & [->|(s & c & g & ->)])|(k & s & conf & c & st2 & _ & g & _ & _ & g2 & _ & ->)]; [exact h9|exact (proj2 (inv10_conf _ _ _ _ _ hi h9 g))|].
    pose proof (proj2 (inv10_conf _ _ _ _ _ hi h9 g)) as g7. destruct g2 as [(_ & g2)|(_ & ->)]; [|exact g7]. apply hss in g2; [|exact g7]. exact g2.
  - apply confirm_spec in h as [_ [(_ & ->)|(a1 & a2 & ->)]]; exact h9.
  - apply ignore_returned in h. destruct (merge B l st) as [y st2] eqn:e. cbn [snd] in h. subst st2.
    unfold merge in e. apply merge_plain_spec in e as [(_ & ->)|(mine & st1 & ho' & e)]; [exact h9|].
    destruct (own_regular _ _ _ _ hi h9 ho') as [hs1 hown].
    destruct e as [(_ & ->)|(inc & new & bad & hk & hinc & hmc & y' & e & _)]; [exact hs1|].
    assert (hsee : merge_sees B l st mine inc) by (split; eauto). destruct (hok mine inc hsee) as (hnc & _). destruct (hpl mine inc hsee) as [hpl1 hpl2].
    assert (hd1 : is_dirty st1 = is_dirty st) by (apply own_part_spec in ho' as [(_ & e1)|(_ & s & c' & _ & e1)]; injection e1 as _ ->; reflexivity).
    assert (hn : s_data st' = m_data (c_msg new) -> regular_conf new /\ (m_unmerged (c_msg new) = None -> is_dirty st = false -> m_diff (c_msg new) = [])).
    { intros esd. eapply merge_confs_regular; [exact hnc|exact hmc| |].
      - intros s x0 hx hpx. rewrite map_app in hx. apply in_app_iff in hx as [hx|hx]; [eauto|]. apply in_map_iff in hx as ([h0 s0] & e0 & hx). cbn in e0. subst s0. eapply hpl1; eauto.
      - intros s x0 hx hpx. rewrite <- esd. eauto. }
    apply adopt_spec in e as [(_ & _ & ->)|[(_ & hu & e)|(hne & j & hj & [(_ & _ & _ & _ & ->)|(_ & st2 & e2 & _ & ->)])]]; try exact hs1.
    + change (is_dirty (set_old (fold_left (fun l h => sadd h l) (obsolete 0 (m_unmerged (c_msg new)) bad (map fst (mine ++ inc))) (s_old st1)) st1)) with (is_dirty st1) in e. rewrite hd1 in e.
      assert (hco : s_conf st' = if is_dirty st then new else retain new) by (apply set_state_spec in e as [(_ & -> & _)|(_ & -> & _)]; reflexivity).
      assert (hda : s_data st' = m_data (c_msg new)) by (unfold s_data, s_msg; rewrite hco; destruct (is_dirty st); [reflexivity|destruct new; reflexivity]).
      destruct (hn hda) as [hn1 hn2]. unfold inv10. rewrite hco. destruct (is_dirty st); [exact hn1|]. destruct new as [m|m o]; [|exact hn1]. apply retain_regular; [exact (hn2 hu eq_refl)|exact hn1].
    + apply set_state_spec in e2 as [(hx & _)|(_ & ec & _)]; [discriminate|]. unfold inv10. cbn [s_conf]. rewrite ec. apply hn. unfold s_data, s_msg. cbn [s_conf]. rewrite ec. reflexivity.
  - apply ignore_returned in h. destruct (dump B st) as [y st2] eqn:e. cbn [snd] in h. subst st2.
    apply dump_spec in e. cbv zeta in e. destruct e as [(s & c & g & _ & ->)|(_ & ->)]; [exact (proj2 (inv10_conf _ _ _ _ _ hi h9 g))|].
    destruct (readonly B); exact h9.
Qed.
Lemma carefully_life B st : life B (carefully p x) st -> life B plainly st.
Proof. apply life_mono. intros B0 o a a' [h _]. exact h. Qed.
Lemma carefully_tame B st : life B (carefully p x) st -> life B tame st.
Proof. intros h. apply plainly_life, carefully_life, h. Qed.
Lemma life_inv10 B st : benv_ok B -> life B (carefully p x) st -> inv10 st.
Proof.
  intros hB h. induction h as [B ks|B st o st' hl IH h|B st d st1 ks st' hl IH h1 h2 h3|B A g st _ IH hro e];
    [|specialize (IH hB)..|exact (IH (benv_ok_promote _ _ _ e hro hB))].
  - split; [reflexivity|apply set_shaped_nil|split; [apply set_shaped_df_nil|apply backed_nil]|intros k df []|]. cbn. rewrite says_nil. discriminate.
  - destruct h as [o y st' h _ hok]. eapply inv10_run; [exact (life_inv1 _ _ hB (carefully_tame _ _ hl))|exact IH|exact hok|exact h].
  - pose proof (life_inv1 _ _ hB (carefully_tame _ _ hl)) as hi. destruct (restore_spec _ _ _ _ _ _ (i1_0 _ _ hi) h1 h2 h3) as (s & c' & conf & hs & hc & ->).
    destruct (inv10_conf _ _ _ _ _ hi IH hs) as [hpc _]. unfold inv10. cbn [s_conf].
    destruct (serialize_ok _ _ _ _ _ (i1_cfg _ _ hi) hs) as (_ & hok & _).
    assert (hm : forall t m, parse_msg (store_env (b_env B)) t s = Ok m -> regular p x m).
    { intros t m hm. destruct (store_parse _ _ _ _ _ t (i1_cfg _ _ hi) hs) as (m' & p1 & p2 & _). rewrite hm in p1. injection p1 as <-. eapply same_regular; [apply hok|exact p2|exact hpc]. }
    assert (hpl : (exists m, parse_msg (store_env (b_env B)) true s = Ok m /\ conf = Plain m) -> regular_conf conf) by (intros (m & q & ->); exact (hm _ _ q)).
    destruct (s_state st); [exact (hpl hc)| |exact (hpl hc)].
    unfold mutable_of in hc. ok_inv hc. ok_inv hc. apply merge_parsed_single in ha0. subst a0. eapply increment_impl_regular; [exact hc|]. apply regular_unmerged. exact (hm _ _ ha).
Qed.
(** what such a device publishes *)
Lemma published_regular B st s m : benv_ok B -> life B (carefully p x) st -> publishes B st s -> parse_msg (b_env B) false s = Ok m -> regular p x m.
Proof. intros hB hl (c & hs) hpm. eapply sent_regular; [exact (life_inv1 _ _ hB (carefully_tame _ _ hl))|exact (life_inv10 _ _ hB hl)|exact hs|exact hpm]. Qed.
End Elem.
