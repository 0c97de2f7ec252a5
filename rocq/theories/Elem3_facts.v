(** Proofs of C96, part 3: a round of edits and an exchange. *)
From Verif Require Import ElemSpec Maps Data_facts Diff_facts Bt_facts Parse_facts Message_facts Wire_facts Round_facts Reach_facts Redeliver_facts Merge_facts Resolve_facts Conflict_facts Overflow_facts Replay_facts Merge2_facts Adopt_facts Crypt_facts Base_facts Dump_facts Life_facts Life2_facts Life3_facts Life4_facts Fields_facts Conf_facts Conf2_facts Conf3_facts Conf4_facts Conf5_facts Conf6_facts Converge_facts Plain_facts Field_facts Field2_facts Field3_facts Elem_facts Elem2_facts.
From Coq Require Import Lia Permutation.

Section Elem.
Variable p : list bytes.
Variable x0 : scalar.
Hypothesis hp : p <> [].

Lemma incr_set E c s c' m o : cfg_ok E c -> regular_conf p x0 c -> serialize E c true = Ok (s, c') ->
  match c with Plain m => m_sh m = (m_seqno m, e_hash E s) | Mut _ _ => True end -> increment E c = Ok (Mut m o) ->
  o = m_data (c_msg c') /\ m_seqno m = (m_seqno (c_msg c') + 1)%Z /\
  m_lagged m = drop_old (m_seqno (c_msg c') - e_lag E) (m_lagged (c_msg c')) ++ [((m_seqno (c_msg c'), e_hash E s), m_diff (c_msg c'))].
Proof.
  intros hc ho hs hm hi. destruct (refresh_regular p x0 hp _ _ _ hc ho (serialize_refresh _ _ _ _ _ hs)) as [hom _]. destruct c as [m0|m0 o0]; cbn [increment] in hi.
  - pose proof (serialize_refresh _ _ _ _ _ hs) as hr. cbn [refresh] in hr. injection hr as <-. cbn [c_msg] in *.
    destruct (increment_impl_regular p x0 _ _ _ hi hom) as (_ & m' & e & _ & e2 & e3). injection e as -> ->. rewrite hm in e3. auto.
  - rewrite hs in hi. cbn [bind] in hi. destruct (increment_impl_regular p x0 _ _ _ hi) as (_ & m' & e & _ & e2 & e3); [apply regular_sh; [reflexivity|exact hom]|]. injection e as -> ->.
    split; [reflexivity|]. split; [exact e2|exact e3].
Qed.
Lemma edits_set B st s c l st1 : benv_ok B -> life B (carefully p x0) st -> s_state st <> Dirty -> serialize (b_env B) (s_conf st) true = Ok (s, c) ->
  match s_conf st with Plain m => m_sh m = (m_seqno m, e_hash (b_env B) s) | Mut _ _ => True end ->
  steps B (carefully p x0 B) st l st1 -> forallb is_edit l = true ->
  life B (carefully p x0) st1 /\ (st1 = st \/ edited_from (b_env B) c s st1).
Proof.
  intros hB hl hnd hs hm h.
  enough (main : forall st0, life B (carefully p x0) st0 -> (st0 = st \/ edited_from (b_env B) c s st0) ->
    forall l st1, steps B (carefully p x0 B) st0 l st1 -> forallb is_edit l = true -> life B (carefully p x0) st1 /\ (st1 = st \/ edited_from (b_env B) c s st1)).
  { eapply main; eauto. }
  clear l st1 h. intros st0 hl0 hq l st1 h. revert hl0 hq. induction h as [st0|st0 o st2 l st1 h1 h2 IH]; intros hl0 hq ha; [auto|].
  cbn [forallb] in ha. apply andb_true_iff in ha as [ha1 ha2]. assert (hl2 : life B (carefully p x0) st2) by (eapply life_step; eassumption).
  apply IH; [exact hl2| |exact ha2]. clear IH h2 ha2 l. destruct h1 as [o x st2 hr hret _].
  apply edit_op_spec in hr; [|exact ha1]. destruct hr as [(_ & ->)|(f & g)]; [exact hq|]. pose proof (life_inv1 _ _ hB (carefully_tame p x0 _ _ hl0)) as hi0.
  apply edit_spec in g as [(hx & g)|(st3 & m & o1 & g & hc & _ & ->)].
  - destruct (inv1_dirty _ _ _ _ hB hi0 g hret) as [_ [->|(_ & _ & h & _)]]; [exact hq|congruence].
  - destruct (dirty_ok _ _ _ g) as (m1 & o2 & e1 & e2 & _ & e3). rewrite hc in e1. injection e1 as <- <-. right.
    destruct e3 as [(e3 & ->)|(e3 & e4 & e5 & _)].
    + destruct hq as [->|(p1 & m2 & p2 & p3 & p4)]; [congruence|]. rewrite hc in p2. injection p2 as -> ->. split; [exact e2|]. eexists. cbn. split; [reflexivity|]. auto.
    + destruct hq as [->|(p1 & _)]; [|congruence]. destruct (incr_set _ _ _ _ _ _ (i1_cfg _ _ hi0) (life_inv10 p x0 hp _ _ hB hl0) hs hm e5) as (q1 & q2 & q3). subst o1.
      split; [exact e2|]. eexists. cbn. split; [reflexivity|]. auto.
Qed.
Lemma edited_sends B st s c mb st1 s1 c1 m1 : benv_ok B -> life B (carefully p x0) st -> life B (carefully p x0) st1 -> serialize (b_env B) (s_conf st) true = Ok (s, c) -> parse_msg (b_env B) false s = Ok mb ->
  edited_from (b_env B) c s st1 -> serialize (b_env B) (s_conf st1) true = Ok (s1, c1) -> parse_msg (b_env B) false s1 = Ok m1 ->
  from_set p (m_data mb) (next_lag (b_env B) s mb) (m_seqno mb + 1) m1 /\ m_data m1 = fst (prune (s_data st1)).
Proof.
  intros hB hl hl1 hs hpb (_ & m & ec & eq & el) hs1 hp1. pose proof (life_inv1 _ _ hB (carefully_tame p x0 _ _ hl)) as hi. pose proof (life_inv1 _ _ hB (carefully_tame p x0 _ _ hl1)) as hi1.
  pose proof (parse_own _ _ _ _ _ _ _ (i1_cfg _ _ hi) hs hpb) as (b0 & b1 & b2 & _ & b3). pose proof (parse_own _ _ _ _ _ _ _ (i1_cfg _ _ hi1) hs1 hp1) as (d0 & d1 & d2 & _ & d3).
  pose proof (published_regular p x0 hp _ _ _ _ hB hl1 (ex_intro _ c1 hs1) hp1) as ho1.
  destruct (inv10_conf p x0 hp _ _ _ _ _ hi (life_inv10 p x0 hp _ _ hB hl) hs) as [hoc _].
  pose proof (serialize_refresh _ _ _ _ _ hs1) as hr1. destruct (refresh_ok _ _ _ (i1_cfg _ _ hi1) hr1) as (_ & _ & _ & f1 & f2 & _ & f3).
  rewrite ec in hr1, f1, f2, f3. cbn [refresh c_msg] in *. destruct (diff (m_data (c_msg c)) (fst (prune (m_data m)))) as [df|] eqn:ed; [|discriminate]. injection hr1 as <-. cbn [c_msg m_diff m_data] in *.
  split.
  - split; [apply ho1| | | |rewrite b1, d1, d2; exact ed].
    + rewrite b1, d1. pose proof (life_inv10 p x0 hp _ _ hB hl1) as h10. unfold inv10 in h10. rewrite ec in h10. apply h10.
    + rewrite d3. unfold windowed. cbn [m_lagged]. unfold m_seqno at 1. cbn [m_sh]. fold (m_seqno m). rewrite eq, el. unfold next_lag. rewrite b0, b2, b3.
      rewrite !filter_app. rewrite window_drop by lia. unfold windowed. rewrite window_window by (intros k df' hin; apply (rg_lag _ _ _ hoc _ _ hin)). reflexivity.
    + rewrite d0. unfold m_seqno. cbn [m_sh]. fold (m_seqno m). rewrite eq, <- b0. reflexivity.
  - rewrite d1. unfold s_data, s_msg. rewrite ec. reflexivity.
Qed.

Lemma round_elem {I : Type} (B : I -> benv) st0 st c st1 l st2 : set_round p x0 B st0 st c st1 l st2 -> forall i,
  ((forall j, holds p x0 (st j) = holds p x0 (st0 j)) -> holds p x0 (st2 i) = holds p x0 (st0 i)) /\
  ((exists j, holds p x0 (st j) <> holds p x0 (st0 j)) -> holds p x0 (st2 i) = negb (holds p x0 (st0 i))).
Proof.
  intros [hlf hst hed hpg hpos hpu hf hm] i. pose proof (pg_group _ _ hpg) as hg. pose proof (gp_env _ _ hg) as hB.
  destruct (hst i i) as (_ & _ & z & ci & _ & hz & _).
  destruct (writer_parses _ _ _ _ (hB i) (life_inv1 _ _ (hB i) (carefully_tame p x0 _ _ (hlf i))) (gp_write _ _ hg i) hz) as (mb & hpb & hqb).
  (* every device of the base publishes z *)
  assert (hbase : forall j, s_state (st0 j) <> Dirty /\ exists cj, serialize (b_env (B j)) (s_conf (st0 j)) true = Ok (z, cj) /\
    match s_conf (st0 j) with Plain m => m_sh m = (m_seqno m, e_hash (b_env (B j)) z) | Mut _ _ => True end /\ s_data (st0 j) = m_data mb).
  { intros j. destruct (hst j i) as (h1 & _ & z' & c1 & c2 & h2 & h3 & h4). rewrite hz in h3. injection h3 as <- <-. split; [exact h1|]. exists c1. split; [exact h2|]. split; [exact h4|].
    pose proof (life_inv1 _ _ (hB j) (carefully_tame p x0 _ _ (hlf j))) as hi. rewrite (gp_same _ _ hg i j) in hpb.
    pose proof (parse_own _ _ _ _ _ _ _ (i1_cfg _ _ hi) h2 hpb) as (_ & e & _). destruct (refresh_ok _ _ _ (i1_cfg _ _ hi) (serialize_refresh _ _ _ _ _ h2)) as (_ & _ & _ & _ & _ & _ & e2).
    rewrite e, e2. symmetry. apply prune_id. exact (life_inv2 _ _ (hB j) (carefully_tame p x0 _ _ (hlf j)) h1). }
  assert (hob : regular p x0 mb) by (eapply (published_regular p x0 hp); [apply (hB i)|apply (hlf i)|exists ci; exact hz|exact hpb]).
  assert (hokb : msg_ok (b_env (B i)) mb) by (apply parse_msg_spec in hpb; tauto).
  set (E := b_env (B i)) in *. set (N := (m_seqno mb + 1)%Z). set (L := next_lag E z mb).
  (* what a device publishes after the edits *)
  assert (hpub : forall j, life (B j) (carefully p x0) (st j) /\ exists s x, publishes (B j) (st j) s /\ parse_msg E false s = Ok x /\ m_data x = s_data (st1 j) /\ has p x0 (m_data x) = holds p x0 (st j) /\
     ((x = mb /\ st j = st0 j) \/ from_set p (m_data mb) L N x)).
  { intros j. destruct (hbase j) as (b1 & cj & b2 & b3 & b4). destruct (hed j) as (lj & e1 & e2). destruct (edits_set _ _ _ _ _ _ (hB j) (hlf j) b1 b2 b3 e1 e2) as [hl hcase]. split; [exact hl|].
    destruct (sent_state _ _ _ _ hg hpu j) as (_ & _ & _ & s & conf & hs & hc1 & _). destruct (group_publish _ _ hpg i j s) as (x & q1 & _); [exists conf; exact hs|]. exists s, x. split; [exists conf; exact hs|]. split; [exact q1|].
    pose proof (life_inv1 _ _ (hB j) (carefully_tame p x0 _ _ hl)) as hi. fold E in q1. assert (q1' := q1). unfold E in q1'. rewrite (gp_same _ _ hg i j) in q1'.
    pose proof (parse_own _ _ _ _ _ _ _ (i1_cfg _ _ hi) hs q1') as (_ & e & _). destruct (refresh_ok _ _ _ (i1_cfg _ _ hi) (serialize_refresh _ _ _ _ _ hs)) as (_ & _ & _ & _ & _ & _ & e3).
    split; [rewrite e; unfold s_data, s_msg; rewrite hc1; reflexivity|].
    assert (hsd : set_shaped p (s_data (st j)) = true /\ wf (s_data (st j)) = true).
    { pose proof (life_inv10 p x0 hp _ _ (hB j) hl) as h9. pose proof (i1_cfg _ _ hi) as hcf. unfold inv10 in h9. unfold s_data, s_msg. destruct (s_conf (st j)) as [m|m o]; (split; [apply h9|apply hcf]). }
    split. { rewrite e, e3. change (m_data (c_msg (s_conf (st j)))) with (s_data (st j)). unfold holds. apply has_prune; tauto. }
    destruct hcase as [hcase|hcase]; [left|right].
    - split; [|exact hcase]. rewrite hcase in hs. rewrite b2 in hs. injection hs as <- <-. congruence.
    - destruct (edited_sends (B j) (st0 j) z cj mb (st j) s conf x (hB j) (hlf j) hl b2) as [h1 _]; [unfold E in hpb; rewrite (gp_same _ _ hg i j) in hpb; exact hpb|exact hcase|exact hs|exact q1'|].
      unfold L, E. rewrite (gp_same _ _ hg i j). exact h1. }
  assert (huniq : forall j x y, publishes (B j) (st j) x -> publishes (B j) (st j) y -> x = y) by (intros j y1 y2 (c1 & e1) (c2 & e2); congruence).
  destruct (group_merged _ _ _ _ _ _ hpg hpos hpu hf hm i) as (ms & m & hgd & hms & hmp & hdat & _). fold E in hgd, hms, hmp.
  assert (hin1 : forall j, exists x, In x ms /\ m_data x = s_data (st1 j) /\ has p x0 (m_data x) = holds p x0 (st j) /\ ((x = mb /\ st j = st0 j) \/ from_set p (m_data mb) L N x)).
  { intros j. destruct (hpub j) as (_ & s & x & q1 & q2 & q3). exists x. split; [apply hms; eauto|exact q3]. }
  assert (hin2 : forall x, In x ms -> exists j, m_data x = s_data (st1 j) /\ has p x0 (m_data x) = holds p x0 (st j) /\ ((x = mb /\ st j = st0 j) \/ from_set p (m_data mb) L N x)).
  { intros x hx. apply hms in hx as (j & s & h1 & h2). exists j. destruct (hpub j) as (_ & s' & x' & q1 & q2 & q3). rewrite (huniq _ _ _ q1 h1) in q2. rewrite h2 in q2. injection q2 as <-. exact q3. }
  assert (hv0 : forall j, holds p x0 (st0 j) = has p x0 (m_data mb)) by (intros j; destruct (hbase j) as (_ & cj & _ & _ & e); unfold holds; rewrite e; reflexivity).
  assert (hmx : (max_seqno ms <= N)%Z).
  { assert (hne : ms <> []) by (destruct (hin1 i) as (x & hx & _); intros ->; destruct hx). destruct (max_seqno_in ms hne) as (x & hx & ->); [intros y hy; apply (g_ok _ _ hgd y hy)|].
    destruct (hin2 x hx) as (j & _ & _ & [[-> _]|h]); [unfold N; lia|rewrite (fs_seqno _ _ _ _ _ h); lia]. }
  pose proof (bo_lag _ (hB i)) as hlag. fold E in hlag.
  assert (hk1 : forall x, In x ms -> from_set p (m_data mb) L N x -> In x (kept E ms)).
  { intros x hx hfx. apply (kept_In E ms x hgd). split; [exact hx|]. split.
    - destruct (included ms x) eqn:ei; [|reflexivity]. apply included_In in ei as (m2 & h2 & hk). apply (g_old _ _ hgd m2 _ h2) in hk. change (fst (m_sh x)) with (m_seqno x) in hk. rewrite (fs_seqno _ _ _ _ _ hfx) in hk.
      pose proof (max_seqno_ge _ _ h2). lia.
    - unfold too_old. rewrite (fs_seqno _ _ _ _ _ hfx). apply Z.leb_gt. lia. }
  assert (hk2 : (exists y, In y ms /\ from_set p (m_data mb) L N y) -> forall x, In x (kept E ms) -> from_set p (m_data mb) L N x).
  { intros (y & hy & hfy) x hx. apply (kept_In E ms x hgd) in hx as (hx & hni & hno). destruct (hin2 x hx) as (j & _ & _ & [[-> _]|h]); [exfalso|exact h].
    unfold too_old in hno. apply Z.leb_gt in hno. pose proof (max_seqno_ge _ _ hy) as hge. rewrite (fs_seqno _ _ _ _ _ hfy) in hge. unfold N in hge.
    assert (hinc : included ms mb = true); [|congruence]. apply included_In. exists y. split; [exact hy|]. rewrite (fs_lag _ _ _ _ _ hfy). unfold L, next_lag.
    apply in_map_iff. exists ((m_seqno mb, e_hash E z), m_diff mb). split.
    - apply parse_msg_spec in hpb as (_ & _ & e & _). cbn [fst]. rewrite <- e. symmetry. apply surjective_pairing.
    - apply filter_In. split; [apply in_app_iff; right; left; reflexivity|]. cbn [fst]. unfold in_window. apply negb_true_iff, orb_false_iff. split; [apply Z.leb_gt; lia|]. rewrite Z.geb_leb. apply Z.leb_gt. lia. }
  assert (hne : ms <> []) by (destruct (hin1 i) as (x & hx & _); intros ->; destruct hx).
  pose proof (no_overflow_ok _ _ _ hne hmp) as hnov.
  assert (hro : read_only E = false) by (apply (gp_write _ _ hg i)).
  assert (hch : forall j, holds p x0 (st j) <> holds p x0 (st0 j) -> exists x, In x (kept E ms) /\ from_set p (m_data mb) L N x /\ has p x0 (m_data x) = holds p x0 (st j)).
  { intros j hj. destruct (hin1 j) as (x & hx & _ & hv & [[-> e]|h]); [rewrite e in hj; congruence|]. exists x. auto. }
  assert (hv2 : holds p x0 (st2 i) = has p x0 (m_data m)) by (unfold holds; rewrite hdat; reflexivity). rewrite hv2. destruct (kept E ms) as [|a [|a2 r]] eqn:ek.
  - exfalso. exact (kept_nonempty E ms hgd hlag hne ek).
  - destruct (merge_parsed_one E ms a ek hnov hne) as (idx & e). rewrite hmp in e. injection e as ->. cbn [m_data set_unmerged].
    assert (ha : In a ms) by (apply (kept_In E ms a hgd); rewrite ek; left; reflexivity).
    split; [intros hno; destruct (hin2 a ha) as (j & _ & h & _); rewrite h, hno, !hv0; reflexivity|]. intros (j & hj). destruct (hch j hj) as (x & [->|[]] & _ & hv). rewrite hv, (hv0 i), <- (hv0 j).
    destruct (holds p x0 (st j)), (holds p x0 (st0 j)); cbn; congruence.
  - rewrite (merge_parsed_many E ms a a2 r ek hnov hro), ek in hmp.
    assert (hsome : exists y, In y ms /\ from_set p (m_data mb) L N y).
    { pose proof (kept_NoDup E ms hgd) as hnd. rewrite ek in hnd. cbn [map] in hnd. inversion hnd as [|? ? hx _]; subst.
      assert (h1 : In a ms) by (apply (kept_In E ms a hgd); rewrite ek; left; reflexivity). assert (h2 : In a2 ms) by (apply (kept_In E ms a2 hgd); rewrite ek; right; left; reflexivity).
      destruct (hin2 a h1) as (j & _ & _ & [[e1 _]|h]); [|eauto]. destruct (hin2 a2 h2) as (j2 & _ & _ & [[e2 _]|h]); [|eauto]. exfalso. apply hx. left. congruence. }
    specialize (hk2 hsome). pose proof (kept_curs E ms hgd) as hcu. rewrite ek in hcu.
    assert (hL : forall k df, In (k, df) L -> (fst k < N)%Z /\ set_shaped_df p df = true /\ backed p df (m_data mb) = true).
    { intros k df hin. unfold L, next_lag in hin. apply filter_In in hin as [hin _]. apply in_app_iff in hin as [hin|[hin|[]]].
      - destruct (rg_lag _ _ _ hob _ _ hin) as [o1 o2]. unfold N. split; [lia|exact o2].
      - injection hin as <- <-. split; [unfold N; cbn [fst]; lia|apply hob]. }
    assert (hLs : msorted (m_lagged mb)) by apply hokb.
    assert (hlast : forall v, last_says p x0 L = Some v -> has p x0 (m_data mb) = v).
    { intros v hl. apply (rg_last _ _ _ hob). unfold L, next_lag in hl. rewrite filter_app in hl. cbn [filter fst] in hl.
      assert (htail : forall x, last_says p x0 (filter (fun q => in_window E (m_seqno mb + 1) (fst (fst q))) (m_lagged mb)) = Some x -> last_says p x0 (m_lagged mb) = Some x).
      { intros x. apply last_says_tail; [exact hLs|]. intros [[a1 a3] adf] [[c1 c2] cdf] ha hc hlt. apply lt_fst_le in hlt. pose proof (proj1 (rg_lag _ _ _ hob _ _ hc)) as hcl. cbn [fst] in *.
        unfold in_window. rewrite !negb_true_iff, !orb_false_iff, !Z.leb_gt, !Z.geb_leb, !Z.leb_gt. lia. }
      destruct (in_window E (m_seqno mb + 1) (m_seqno mb)) eqn:ew.
      - rewrite last_says_app in hl. cbn [last_says] in hl. destruct (says p x0 (m_diff mb)) as [y|] eqn:ey; [exact hl|]. apply htail. exact hl.
      - exfalso. assert (hlg : (e_lag E <= 1)%Z). { unfold in_window in ew. apply negb_false_iff, orb_true_iff in ew as [ew|ew]; [apply Z.leb_le in ew; lia|]. rewrite Z.geb_leb in ew. apply Z.leb_le in ew. lia. }
        rewrite app_nil_r in hl. assert (enil : filter (fun q : shash * btdict => in_window E (m_seqno mb + 1) (fst (fst q))) (m_lagged mb) = []).
        { assert (hx : forall q, In q (filter (fun q : shash * btdict => in_window E (m_seqno mb + 1) (fst (fst q))) (m_lagged mb)) -> False).
          { intros [k df] hq. apply filter_In in hq as [hq1 hq2]. pose proof (proj1 (rg_lag _ _ _ hob _ _ hq1)). apply in_window_spec in hq2. cbn [fst] in *. lia. }
          destruct (filter _ _) as [|q qs]; [reflexivity|]. exfalso. apply (hx q). left. reflexivity. }
        assert (e0 : last_says p x0 [] = Some v) by (rewrite <- enil; exact hl). discriminate e0. }
    assert (hwb : wf (m_data mb) = true) by apply hokb.
    destruct (set_resolve p x0 E (max_seqno ms) (a :: a2 :: r) m (m_data mb) L N hp hcu hmp hwb (rg_data _ _ _ hob) hk2 hL hlast) as (r1 & r2).
    assert (hkin : forall x, In x (a :: a2 :: r) -> In x ms) by (intros x hx; apply (kept_In E ms x hgd); rewrite ek; exact hx).
    rewrite hv0. split.
    + intros hno. apply r1. intros x hx. destruct (hin2 x (hkin x hx)) as (j & _ & h & _). rewrite h, hno. apply hv0.
    + intros (j & hj). apply r2. destruct (hch j hj) as (x & hx & _ & hv). exists x. split; [exact hx|]. rewrite hv, <- (hv0 j). exact hj.
Qed.
End Elem.
