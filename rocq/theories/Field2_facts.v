(** Proofs of C95, part 2: the messages of a device whose field keeps its shape are orderly. *)
From Verif Require Import FieldSpec Maps Data_facts Diff_facts Bt_facts Parse_facts Message_facts Wire_facts Round_facts Reach_facts Redeliver_facts Merge_facts Resolve_facts Conflict_facts Overflow_facts Replay_facts Merge2_facts Adopt_facts Crypt_facts Base_facts Dump_facts Life_facts Life2_facts Life3_facts Life4_facts Fields_facts Conf_facts Conf2_facts Conf3_facts Conf4_facts Conf5_facts Conf6_facts Converge_facts Plain_facts Field_facts.
From Coq Require Import Lia Permutation.

Section Field.
Variable p : list bytes.
Hypothesis hp : p <> [].

Lemma orderly_unmerged i m : orderly p m -> orderly p (set_unmerged i m).
Proof. intros [h1 h2 h3 h4]. split; assumption. Qed.
Lemma merge_parsed_orderly E ms m : good E ms -> merge_parsed E ms = Ok m -> (forall x, In x ms -> orderly p x) -> orderly p m.
Proof.
  intros hg h ho. destruct (m_unmerged m) as [i|] eqn:hu.
  - destruct (merge_parsed_index _ _ _ _ h hu) as (x & hx & ->). apply nth_error_In in hx. apply orderly_unmerged, (ho x hx).
  - destruct (merge_parsed_conflict _ _ _ hg h hu) as (_ & _ & _ & _ & hres).
    eapply resolve_orderly; [exact hp|apply kept_curs, hg|exact hres|]. intros c hc. apply (kept_In E ms c hg) in hc. split; [apply ho, hc|apply max_seqno_ge, hc].
Qed.
Lemma merge_msgs_orderly E l m bad : no_collision E l -> merge_msgs E l = Ok (m, bad) -> (forall s x, In s l -> parse_msg E false s = Ok x -> orderly p x) -> orderly p m.
Proof.
  intros hnc h ho. apply merge_msgs_inv in h as (ms & h1 & h2). eapply merge_parsed_orderly; [eapply parsed_good; eassumption|exact h2|].
  intros x hx. apply (parse_all_spec _ _ _ _ _ h1) in hx as (s & hs & hx). eauto.
Qed.
Definition orderly_conf (c : config) : Prop :=
  match c with
  | Plain m => orderly p m
  | Mut m o => shaped p (m_data m) = true /\ shaped p o = true /\ (forall k df, In (k, df) (m_lagged m) -> (fst k < m_seqno m)%Z /\ shaped_df p df = true) /\
      (last_mention p (m_lagged m) = Some false -> get_path p o = None)
  end.
Lemma refresh_orderly E c c' : cfg_ok E c -> orderly_conf c -> refresh c = Ok c' -> orderly p (c_msg c') /\ orderly_conf c'.
Proof.
  destruct c as [m|m o]; cbn [refresh orderly_conf cfg_ok]; [intros _ h e; injection e as <-; auto|]. intros (hf & ho & _) (h1 & h2 & h3 & h4).
  destruct (diff o (fst (prune (m_data m)))) as [df|] eqn:ed; [|discriminate]. intros e. injection e as <-. cbn [c_msg orderly_conf].
  assert (hw : wf (m_data m) = true) by apply hf. pose proof (shaped_prune p _ hw h1) as hs.
  destruct (diff_field p o _ df hp ho (prune_wf _ hw) h2 hs ed) as (d1 & d2 & _).
  split; [|split; [exact hs|split; [exact h2|split; [exact h3|exact h4]]]]. split; cbn [m_data m_diff m_lagged]; auto. rewrite d2. intros hl. destruct (turned _ _) as [x|] eqn:et; [injection hl as ->; eapply turned_false; exact et|].
  apply turned_None in et; auto. rewrite <- et. auto.
Qed.
Lemma same_orderly E m m' : msorted (m_lagged m) -> same_content E m m' -> orderly p m -> orderly p m'.
Proof.
  intros hs (e0 & e1 & e2 & _ & e3) [h1 h2 h3 h4]. split.
  - rewrite e1. exact h1.
  - rewrite e2. exact h2.
  - rewrite e3, e0. intros k df hin. apply filter_In in hin as [hin _]. exact (h3 k df hin).
  - rewrite e1, e2, e3. intros hx. apply h4. destruct (mentions p (m_diff m)); [exact hx|]. eapply last_mention_tail; [exact hs| |exact hx].
    intros [[a1 a2] adf] [[c1 c2] cdf] ha hc hlt. apply lt_fst_le in hlt. pose proof (proj1 (h3 _ _ hc)) as hcl. cbn [fst] in *. unfold in_window. rewrite !negb_true_iff, !orb_false_iff, !Z.leb_gt, !Z.geb_leb, !Z.leb_gt. lia.
Qed.
Lemma drop_new_id z l : (forall k df, In (k, df) l -> (fst k < z)%Z) -> drop_new z l = l.
Proof.
  induction l as [|[k df] l IH]; intros h; [reflexivity|]. cbn [drop_new]. rewrite IH by (intros k' df' hin; apply (h k' df'); right; exact hin).
  pose proof (h k df (or_introl eq_refl)). destruct l as [|x l]; [|reflexivity]. destruct (Z.geb_spec (fst k) z); [lia|reflexivity].
Qed.
Lemma drop_old_last z l x : last_mention p (drop_old z l) = Some x -> last_mention p l = Some x.
Proof. induction l as [|[k df] l IH]; cbn [drop_old]; [auto|]. destruct (_ <=? _)%Z; [|auto]. intros h. cbn [last_mention]. rewrite (IH h). reflexivity. Qed.
Lemma insert_last (k : shash) (df : btdict) (l : lagged_t) : (forall k' df', In (k', df') l -> (fst k' < fst k)%Z) -> emplace k df l = l ++ [(k, df)].
Proof.
  intros h. unfold emplace. assert (e : lookup k l = None).
  { destruct (lookup k l) as [v|] eqn:e; [|reflexivity]. apply lookup_In in e. apply h in e. lia. }
  rewrite e. clear e. induction l as [|[k' df'] l IH]; [reflexivity|]. cbn [insert app]. pose proof (lt_seqno k' k (h k' df' (or_introl eq_refl))) as hlt.
  assert (hc : cmp k k' = Gt) by (apply cmp_gt_lt; exact hlt). rewrite hc, IH; [reflexivity|]. intros k2 df2 hin. apply (h k2 df2). right. exact hin.
Qed.
Lemma increment_impl_orderly E m c : increment_impl E m = Ok c -> orderly p m ->
  orderly_conf c /\ exists m', c = Mut m' (m_data m) /\ m_data m' = m_data m /\ m_seqno m' = (m_seqno m + 1)%Z /\ m_lagged m' = drop_old (m_seqno m - e_lag E) (m_lagged m) ++ [(m_sh m, m_diff m)].
Proof.
  unfold increment_impl. cbv zeta. destruct (negb _ || _); [discriminate|]. intros h [h1 h2 h3 h4]. injection h as <-.
  assert (e : emplace (m_sh m) (m_diff m) (drop_new (m_seqno m) (drop_old (m_seqno m - e_lag E) (m_lagged m))) = drop_old (m_seqno m - e_lag E) (m_lagged m) ++ [(m_sh m, m_diff m)]).
  { rewrite drop_new_id by (intros k df hin; apply drop_old_sub in hin; apply (h3 _ _ hin)). apply insert_last. intros k df hin. apply drop_old_sub in hin. apply (h3 _ _ hin). }
  rewrite e. split; [|eexists; split; [reflexivity|]; auto]. cbn [orderly_conf m_data m_lagged]. split; [exact h1|]. split; [exact h1|]. split.
  - intros k df hin. unfold m_seqno at 1. cbn [m_sh fst]. apply in_app_iff in hin as [hin|[hin|[]]].
    + apply drop_old_sub in hin. destruct (h3 _ _ hin). split; [lia|assumption].
    + injection hin as <- <-. split; [unfold m_seqno; lia|exact h2].
  - intros hl. apply h4. destruct (mentions p (m_diff m)) as [x|] eqn:ex.
    + rewrite (last_mention_at p _ [] _ _ x ex) in hl by (intros k' df' []). exact hl.
    + assert (hl2 : forall l : lagged_t, last_mention p (l ++ [(m_sh m, m_diff m)]) = last_mention p l).
      { induction l as [|[a c] l IH]; cbn [app last_mention]; [exact ex|]. rewrite IH. reflexivity. }
      rewrite hl2 in hl. eapply drop_old_last. exact hl.
Qed.
Lemma orderly_sh sh m : fst sh = m_seqno m -> orderly p m -> orderly p (mkMsg sh (m_data m) (m_diff m) (m_lagged m) (m_unknown m) (m_vsig m) (m_unmerged m)).
Proof. intros e [h1 h2 h3 h4]. split; cbn [m_data m_diff m_lagged]; auto. unfold m_seqno in *. cbn [m_sh]. rewrite e. exact h3. Qed.
Lemma increment_orderly E c c' : cfg_ok E c -> increment E c = Ok c' -> orderly_conf c -> orderly_conf c'.
Proof.
  intros hc h ho. destruct c as [m|m o]; cbn [increment] in h.
  - eapply increment_impl_orderly; eassumption.
  - ok_inv h. destruct a as [s c1]. destruct (refresh_orderly _ _ _ hc ho (serialize_refresh _ _ _ _ _ ha)) as [hm _]. eapply increment_impl_orderly; [exact h|]. apply orderly_sh; [reflexivity|exact hm].
Qed.
Lemma retain_orderly m : orderly p m -> orderly_conf (retain (Plain m)).
Proof. intros [h1 h2 h3 h4]. cbn. rewrite shaped_nil, get_path_nil by exact hp. auto. Qed.
Lemma merge_confs_orderly B d l new bad : no_collision (b_env B) l -> merge_confs B d l = Ok (new, bad) -> (forall s x, In s l -> parse_msg (b_env B) false s = Ok x -> orderly p x) -> orderly_conf new.
Proof.
  intros hnc h ho. unfold merge_confs in h. destruct d.
  - unfold merge_mutable in h. ok_inv h. destruct a as [m bd]. pose proof (merge_msgs_orderly _ _ _ _ hnc ha ho) as hm. cbn [fst snd] in *.
    destruct (m_unmerged m) eqn:hu; [ok_inv h; injection h as <- <-; eapply increment_impl_orderly; eassumption|injection h as <- <-].
    destruct hm as [h1 h2 h3 h4]. cbn. split; [exact h1|]. split; [exact h1|]. split; [exact h3|]. intros hl. apply h4.
    destruct (conflict_empty _ _ _ _ ha hu) as (_ & hdf & _). rewrite hdf, mentions_nil. exact hl.
  - ok_inv h. destruct a as [m bd]. injection h as <- <-. exact (merge_msgs_orderly _ _ _ _ hnc ha ho).
Qed.
Definition inv9 (st : bstate) : Prop := orderly_conf (s_conf st).
Lemma conf_lag_sorted E c : cfg_ok E c -> msorted (m_lagged (c_msg c)).
Proof. destruct c as [m|m o]; cbn; [intros h|intros (h & _)]; apply h. Qed.
Lemma inv9_conf B st sg s c : inv1 B st -> inv9 st -> serialize (b_env B) (s_conf st) sg = Ok (s, c) -> orderly p (c_msg c) /\ inv9 (set_conf c st).
Proof. intros hi h hs. exact (refresh_orderly _ _ _ (i1_cfg _ _ hi) h (serialize_refresh _ _ _ _ _ hs)). Qed.
Lemma sent_orderly B st sg s c t m : inv1 B st -> inv9 st -> serialize (b_env B) (s_conf st) sg = Ok (s, c) -> parse_msg (b_env B) t s = Ok m -> orderly p m.
Proof.
  intros hi h9 hs hpm. destruct (inv9_conf _ _ _ _ _ hi h9 hs) as [h1 _]. eapply same_orderly; [|eapply parse_own; [apply (i1_cfg _ _ hi)|exact hs|exact hpm]|exact h1].
  destruct (serialize_ok _ _ _ _ _ (i1_cfg _ _ hi) hs) as (_ & hok & _). apply hok.
Qed.
Lemma own_orderly B st mine a : inv1 B st -> inv9 st -> own_part B st = Ok (mine, a) -> inv9 a /\ forall s x, In s (map snd mine) -> parse_msg (b_env B) false s = Ok x -> orderly p x.
Proof.
  intros hi h9 ho. apply own_part_spec in ho as [(_ & e1)|(_ & s & c' & hs & e1)]; injection e1 as -> ->; [split; [exact h9|intros s x []]|].
  destruct (inv9_conf _ _ _ _ _ hi h9 hs) as [h1 h2]. split; [exact h2|]. cbn. intros s' x [<-|[]] hpx. eapply sent_orderly; eassumption.
Qed.
Lemma inv9_run B o st x st' : inv1 B st -> inv9 st -> steadily p B o st st' -> run B o st = (x, st') -> inv9 st'.
Proof.
  intros hi h9 [[[hok _] _] [hsh hpl]] h. pose proof (i1_cfg _ _ hi) as hcfg.
  assert (hss : forall s st0 y st2, set_state B s st0 = (y, st2) -> inv9 st0 -> inv9 st2).
  { intros s st0 y st2 g g3. apply set_state_spec in g as [(_ & -> & _)|(_ & g & _)]; [exact g3|]. unfold inv9. rewrite g. exact g3. }
  assert (hdi : forall st0 y st2, s_conf st0 = s_conf st -> dirty B st0 = (y, st2) -> inv9 st2).
  { intros st0 y st2 ec g. assert (g3 : inv9 st0) by (unfold inv9; rewrite ec; exact h9). apply dirty_spec in g as [(_ & -> & _)|[(_ & _ & _ & ->)|(_ & _ & st3 & g & g2)]]; [exact g3|exact g3|].
    destruct g2 as [(c & gc & _ & ->)|(_ & _ & ->)]; [|eapply hss; eassumption]. unfold inv9. cbn. eapply increment_orderly; [|exact gc|exact g3]. rewrite ec. exact hcfg. }
  assert (hke : is_key_op o = true -> inv9 st').
  { intros ho. destruct (key_op_spec _ _ _ _ _ ho h) as [->|(ks & [->|(y & g)])]; [exact h9|exact h9|]. eapply hdi; [|exact g]. reflexivity. }
  destruct o; cbn [is_key_op] in hke; auto;
    try (apply edit_op_spec in h; [|reflexivity]; destruct h as [(_ & ->)|(f & g)]; [exact h9|];
         apply edit_spec in g as [(_ & g)|(st1 & m & o1 & g & gc & _ & ->)]; [eapply hdi; [|exact g]; reflexivity|]; apply hdi in g; [|reflexivity]; unfold inv9 in *; rewrite gc in g;
         destruct g as (g1 & g2 & g3 & g4); split; [exact (hsh eq_refl)|auto]).
  - apply ignore_returned in h. destruct (push B st) as [y st2] eqn:e. cbn [snd] in h. subst st2.
    apply push_spec in e as [(_ & [->|(s & c & g & ->)])|(k & s & conf & c & st2 & _ & g & _ & _ & g2 & _ & ->)]; [exact h9|exact (proj2 (inv9_conf _ _ _ _ _ hi h9 g))|].
    pose proof (proj2 (inv9_conf _ _ _ _ _ hi h9 g)) as g7. destruct g2 as [(_ & g2)|(_ & ->)]; [|exact g7]. apply hss in g2; [|exact g7]. exact g2.
  - apply confirm_spec in h as [_ [(_ & ->)|(a1 & a2 & ->)]]; exact h9.
  - apply ignore_returned in h. destruct (merge B l st) as [y st2] eqn:e. cbn [snd] in h. subst st2.
    unfold merge in e. apply merge_plain_spec in e as [(_ & ->)|(mine & st1 & ho' & e)]; [exact h9|].
    destruct (own_orderly _ _ _ _ hi h9 ho') as [hs1 hown].
    destruct e as [(_ & ->)|(inc & new & bad & hk & hinc & hmc & y' & e & _)]; [exact hs1|].
    assert (hsee : merge_sees B l st mine inc) by (split; eauto). destruct (hok mine inc hsee) as (hnc & _).
    assert (hn : orderly_conf new).
    { eapply merge_confs_orderly; [exact hnc|exact hmc|]. intros s x0 hx hpx. rewrite map_app in hx. apply in_app_iff in hx as [hx|hx]; [eauto|]. apply in_map_iff in hx as ([h0 s0] & e0 & hx). cbn in e0. subst s0. eapply hpl; eauto. }
    apply adopt_spec in e as [(_ & _ & ->)|[(_ & hu & e)|(hne & j & hj & [(_ & _ & _ & _ & ->)|(_ & st2 & e2 & _ & ->)])]]; try exact hs1.
    + apply hss in e; [exact e|]. unfold inv9. cbn [set_conf s_conf]. match goal with |- orderly_conf (if ?u then _ else _) => destruct u end; [exact hn|]. destruct new as [m|m o]; [exact (retain_orderly m hn)|exact hn].
    + apply hss in e2; [exact e2|]. exact hn.
  - apply ignore_returned in h. destruct (dump B st) as [y st2] eqn:e. cbn [snd] in h. subst st2.
    apply dump_spec in e. cbv zeta in e. destruct e as [(s & c & g & _ & ->)|(_ & ->)]; [exact (proj2 (inv9_conf _ _ _ _ _ hi h9 g))|].
    destruct (readonly B); exact h9.
Qed.
Lemma steadily_life B st : life B (steadily p) st -> life B plainly st.
Proof. apply life_mono. intros B0 o a a' [h _]. exact h. Qed.
Lemma steadily_tame B st : life B (steadily p) st -> life B tame st.
Proof. intros h. apply plainly_life, steadily_life, h. Qed.
Lemma life_inv9 B st : benv_ok B -> life B (steadily p) st -> inv9 st.
Proof.
  intros hB h. induction h as [B ks|B st o st' hl IH h|B st d st1 ks st' hl IH h1 h2 h3|B A g st _ IH hro e];
    [|specialize (IH hB)..|exact (IH (benv_ok_promote _ _ _ e hro hB))].
  - split; [apply shaped_nil|cbn; destruct p; reflexivity|intros k df []|]. intros _. apply get_path_nil, hp.
  - destruct h as [o x st' h _ hok]. eapply inv9_run; [exact (life_inv1 _ _ hB (steadily_tame _ _ hl))|exact IH|exact hok|exact h].
  - pose proof (life_inv1 _ _ hB (steadily_tame _ _ hl)) as hi. destruct (restore_spec _ _ _ _ _ _ (i1_0 _ _ hi) h1 h2 h3) as (s & c' & conf & hs & hc & ->).
    destruct (inv9_conf _ _ _ _ _ hi IH hs) as [hpc _]. unfold inv9. cbn [s_conf].
    destruct (serialize_ok _ _ _ _ _ (i1_cfg _ _ hi) hs) as (_ & hok & _).
    assert (hm : forall t m, parse_msg (store_env (b_env B)) t s = Ok m -> orderly p m).
    { intros t m hm. destruct (store_parse _ _ _ _ _ t (i1_cfg _ _ hi) hs) as (m' & p1 & p2 & _). rewrite hm in p1. injection p1 as <-. eapply same_orderly; [apply hok|exact p2|exact hpc]. }
    assert (hpl : (exists m, parse_msg (store_env (b_env B)) true s = Ok m /\ conf = Plain m) -> orderly_conf conf) by (intros (m & q & ->); exact (hm _ _ q)).
    destruct (s_state st); [exact (hpl hc)| |exact (hpl hc)].
    unfold mutable_of in hc. ok_inv hc. ok_inv hc. apply merge_parsed_single in ha0. subst a0. eapply increment_impl_orderly; [exact hc|]. apply orderly_unmerged. exact (hm _ _ ha).
Qed.
(** what such a device publishes *)
Lemma published_orderly B st s m : benv_ok B -> life B (steadily p) st -> publishes B st s -> parse_msg (b_env B) false s = Ok m -> orderly p m.
Proof. intros hB hl (c & hs) hpm. eapply sent_orderly; [exact (life_inv1 _ _ hB (steadily_tame _ _ hl))|exact (life_inv9 _ _ hB hl)|exact hs|exact hpm]. Qed.
End Field.
