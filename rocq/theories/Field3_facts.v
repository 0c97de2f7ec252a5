(** Proofs of C95, part 3: a round of edits and an exchange. *)
From Verif Require Import FieldSpec Maps Data_facts Diff_facts Bt_facts Parse_facts Message_facts Wire_facts Round_facts Reach_facts Redeliver_facts Merge_facts Resolve_facts Conflict_facts Overflow_facts Replay_facts Merge2_facts Adopt_facts Crypt_facts Base_facts Dump_facts Life_facts Life2_facts Life3_facts Life4_facts Fields_facts Conf_facts Conf2_facts Conf3_facts Conf4_facts Conf5_facts Conf6_facts Converge_facts Plain_facts Field_facts Field2_facts.
From Coq Require Import Lia Permutation.

Lemma window_drop E n z (l : lagged_t) : (z <= n - e_lag E)%Z -> filter (fun q => in_window E n (fst (fst q))) (drop_old z l) = filter (fun q => in_window E n (fst (fst q))) l.
Proof.
  intros hz. induction l as [|[k df] l IH]; [reflexivity|]. cbn [drop_old]. destruct (Z.leb_spec (fst k) z); [|reflexivity]. rewrite IH. cbn [filter fst].
  replace (in_window E n (fst k)) with false; [reflexivity|]. unfold in_window. symmetry. apply negb_false_iff, orb_true_iff. left. apply Z.leb_le. lia.
Qed.
Lemma window_window E n (l : lagged_t) : (forall k df, In (k, df) l -> (fst k < n)%Z) ->
  filter (fun q => in_window E (n + 1) (fst (fst q))) (filter (fun q => in_window E n (fst (fst q))) l) = filter (fun q => in_window E (n + 1) (fst (fst q))) l.
Proof.
  induction l as [|[k df] l IH]; intros h; [reflexivity|]. cbn [filter fst]. specialize (IH (fun k' df' hin => h k' df' (or_intror hin))). pose proof (h k df (or_introl eq_refl)) as hk.
  destruct (in_window E n (fst k)) eqn:e1; cbn [filter fst]; rewrite IH; [reflexivity|]. replace (in_window E (n + 1) (fst k)) with false; [reflexivity|].
  unfold in_window in *. apply negb_false_iff, orb_true_iff in e1. symmetry. apply negb_false_iff, orb_true_iff. destruct e1 as [e1|e1]; [left; apply Z.leb_le in e1; apply Z.leb_le; lia|]. rewrite Z.geb_leb in e1. apply Z.leb_le in e1. lia.
Qed.

Section Field.
Variable p : list bytes.
Hypothesis hp : p <> [].

Lemma incr_base E c s c' m o : cfg_ok E c -> orderly_conf p c -> serialize E c true = Ok (s, c') ->
  match c with Plain m => m_sh m = (m_seqno m, e_hash E s) | Mut _ _ => True end -> increment E c = Ok (Mut m o) ->
  o = m_data (c_msg c') /\ m_seqno m = (m_seqno (c_msg c') + 1)%Z /\
  m_lagged m = drop_old (m_seqno (c_msg c') - e_lag E) (m_lagged (c_msg c')) ++ [((m_seqno (c_msg c'), e_hash E s), m_diff (c_msg c'))].
Proof.
  intros hc ho hs hm hi. destruct (refresh_orderly p hp _ _ _ hc ho (serialize_refresh _ _ _ _ _ hs)) as [hom _]. destruct c as [m0|m0 o0]; cbn [increment] in hi.
  - pose proof (serialize_refresh _ _ _ _ _ hs) as hr. cbn [refresh] in hr. injection hr as <-. cbn [c_msg] in *.
    destruct (increment_impl_orderly p _ _ _ hi hom) as (_ & m' & e & _ & e2 & e3). injection e as -> ->. rewrite hm in e3. auto.
  - rewrite hs in hi. cbn [bind] in hi. destruct (increment_impl_orderly p _ _ _ hi) as (_ & m' & e & _ & e2 & e3); [apply orderly_sh; [reflexivity|exact hom]|]. injection e as -> ->.
    split; [reflexivity|]. split; [exact e2|exact e3].
Qed.
(** a device in step after any edits *)
Definition edited_from (E : env) (c' : config) (s : bytes) (st : bstate) : Prop :=
  s_state st = Dirty /\ exists m, s_conf st = Mut m (m_data (c_msg c')) /\ m_seqno m = (m_seqno (c_msg c') + 1)%Z /\
  m_lagged m = drop_old (m_seqno (c_msg c') - e_lag E) (m_lagged (c_msg c')) ++ [((m_seqno (c_msg c'), e_hash E s), m_diff (c_msg c'))].
Lemma edits_base B st s c l st1 : benv_ok B -> life B (steadily p) st -> s_state st <> Dirty -> serialize (b_env B) (s_conf st) true = Ok (s, c) ->
  match s_conf st with Plain m => m_sh m = (m_seqno m, e_hash (b_env B) s) | Mut _ _ => True end ->
  steps B (steadily p B) st l st1 -> forallb is_edit l = true ->
  life B (steadily p) st1 /\ (st1 = st \/ edited_from (b_env B) c s st1).
Proof.
  intros hB hl hnd hs hm h.
  enough (main : forall st0, life B (steadily p) st0 -> (st0 = st \/ edited_from (b_env B) c s st0) ->
    forall l st1, steps B (steadily p B) st0 l st1 -> forallb is_edit l = true -> life B (steadily p) st1 /\ (st1 = st \/ edited_from (b_env B) c s st1)).
  { eapply main; eauto. }
  clear l st1 h. intros st0 hl0 hq l st1 h. revert hl0 hq. induction h as [st0|st0 o st2 l st1 h1 h2 IH]; intros hl0 hq ha; [auto|].
  cbn [forallb] in ha. apply andb_true_iff in ha as [ha1 ha2]. assert (hl2 : life B (steadily p) st2) by (eapply life_step; eassumption).
  apply IH; [exact hl2| |exact ha2]. clear IH h2 ha2 l. destruct h1 as [o x st2 hr hret _].
  apply edit_op_spec in hr; [|exact ha1]. destruct hr as [(_ & ->)|(f & g)]; [exact hq|]. pose proof (life_inv1 _ _ hB (steadily_tame _ _ _ hl0)) as hi0.
  apply edit_spec in g as [(hx & g)|(st3 & m & o1 & g & hc & _ & ->)].
  - destruct (inv1_dirty _ _ _ _ hB hi0 g hret) as [_ [->|(_ & _ & h & _)]]; [exact hq|congruence].
  - destruct (dirty_ok _ _ _ g) as (m1 & o2 & e1 & e2 & _ & e3). rewrite hc in e1. injection e1 as <- <-. right.
    destruct e3 as [(e3 & ->)|(e3 & e4 & e5 & _)].
    + destruct hq as [->|(p1 & m2 & p2 & p3 & p4)]; [congruence|]. rewrite hc in p2. injection p2 as -> ->. split; [exact e2|]. eexists. cbn. split; [reflexivity|]. auto.
    + destruct hq as [->|(p1 & _)]; [|congruence]. destruct (incr_base _ _ _ _ _ _ (i1_cfg _ _ hi0) (life_inv9 p hp _ _ hB hl0) hs hm e5) as (q1 & q2 & q3). subst o1.
      split; [exact e2|]. eexists. cbn. split; [reflexivity|]. auto.
Qed.
(** the lagged list all of them publish *)
Definition next_lag (E : env) (s : bytes) (mb : msg) : lagged_t :=
  filter (fun q => in_window E (m_seqno mb + 1) (fst (fst q))) (m_lagged mb ++ [((m_seqno mb, e_hash E s), m_diff mb)]).
Lemma edited_publishes B st s c mb st1 s1 c1 m1 : benv_ok B -> life B (steadily p) st -> life B (steadily p) st1 -> serialize (b_env B) (s_conf st) true = Ok (s, c) -> parse_msg (b_env B) false s = Ok mb ->
  edited_from (b_env B) c s st1 -> serialize (b_env B) (s_conf st1) true = Ok (s1, c1) -> parse_msg (b_env B) false s1 = Ok m1 ->
  from_base p (m_data mb) (next_lag (b_env B) s mb) (m_seqno mb + 1) m1 /\ m_data m1 = fst (prune (s_data st1)).
Proof.
  intros hB hl hl1 hs hpb (_ & m & ec & eq & el) hs1 hp1. pose proof (life_inv1 _ _ hB (steadily_tame _ _ _ hl)) as hi. pose proof (life_inv1 _ _ hB (steadily_tame _ _ _ hl1)) as hi1.
  pose proof (parse_own _ _ _ _ _ _ _ (i1_cfg _ _ hi) hs hpb) as (b0 & b1 & b2 & _ & b3). pose proof (parse_own _ _ _ _ _ _ _ (i1_cfg _ _ hi1) hs1 hp1) as (d0 & d1 & d2 & _ & d3).
  pose proof (published_orderly p hp _ _ _ _ hB hl1 (ex_intro _ c1 hs1) hp1) as ho1.
  destruct (inv9_conf p hp _ _ _ _ _ hi (life_inv9 p hp _ _ hB hl) hs) as [hoc _].
  pose proof (serialize_refresh _ _ _ _ _ hs1) as hr1. destruct (refresh_ok _ _ _ (i1_cfg _ _ hi1) hr1) as (_ & _ & _ & f1 & f2 & _ & f3).
  rewrite ec in hr1, f1, f2, f3. cbn [refresh c_msg] in *. destruct (diff (m_data (c_msg c)) (fst (prune (m_data m)))) as [df|] eqn:ed; [|discriminate]. injection hr1 as <-. cbn [c_msg m_diff m_data] in *.
  split.
  - split; [apply ho1| | |rewrite b1, d1, d2; exact ed].
    + rewrite d3. unfold windowed. cbn [m_lagged]. unfold m_seqno at 1. cbn [m_sh]. fold (m_seqno m). rewrite eq, el. unfold next_lag. rewrite b0, b2, b3.
      rewrite !filter_app. rewrite window_drop by lia. unfold windowed. rewrite window_window by (intros k df' hin; apply (or_lag _ _ hoc _ _ hin)). reflexivity.
    + rewrite d0. unfold m_seqno. cbn [m_sh]. fold (m_seqno m). rewrite eq, <- b0. reflexivity.
  - rewrite d1. unfold s_data, s_msg. rewrite ec. reflexivity.
Qed.

(** what a device sees in an exchange, and what it makes of it *)
Lemma group_merged {I : Type} (B : I -> benv) st c st1 l st2 : plain_group B st -> (exists i, 0 < s_seqno (st i))%Z -> all_push B st c st1 -> all_fetch B st c st1 l -> all_merge B l st1 st2 ->
  forall i, exists ms m, good (b_env (B i)) ms /\ (forall x, In x ms <-> exists j s, publishes (B j) (st j) s /\ parse_msg (b_env (B i)) false s = Ok x) /\
     merge_parsed (b_env (B i)) ms = Ok m /\ s_data (st2 i) = m_data m /\ s_seqno (st2 i) = m_seqno m.
Proof.
  intros hpg hpos hpu hf hm i. pose proof (pg_group _ _ hpg) as hg. destruct (group_sees _ _ _ _ _ hg hpu hf i) as (mine & inc & hsee & hset). destruct (sent_state _ _ _ _ hg hpu i) as (hsw & _).
  pose proof hsee as [(a & ho) hinc]. pose proof (group_apart B st i (map snd (mine ++ inc)) hg (fun x hx => proj1 (hset x) hx)) as hnc.
  destruct (merge_msgs_total (b_env (B i)) (map snd (mine ++ inc)) hnc (bo_lag _ (gp_env _ _ hg i)) (bo_sig64 _ (gp_env _ _ hg i))) as (m & bad & hmm).
  { intros x hx. apply hset in hx as (j & hj). destruct (group_publish _ _ hpg i j x hj) as (m & q1 & q2 & _ & _ & q3 & _). right. eauto. }
  { destruct (sent_state _ _ _ _ hg hpu i) as (_ & _ & _ & s & conf & hs & _). destruct (group_publish _ _ hpg i i s) as (m & q1 & _); [exists conf; exact hs|]. exists s, m. split; [apply hset; exists i, conf; exact hs|exact q1]. }
  assert (hgt : (0 < m_seqno m)%Z).
  { destruct hpos as (ip & hip). destruct (sent_state _ _ _ _ hg hpu ip) as (_ & _ & _ & s & conf & hs & _). destruct (group_publish _ _ hpg i ip s) as (mx & q1 & _ & q2 & _); [exists conf; exact hs|].
    assert (hin : In s (map snd (mine ++ inc))) by (apply hset; exists ip, conf; exact hs). pose proof (merge_msgs_ge _ _ _ _ _ _ hnc (bo_lag _ (gp_env _ _ hg i)) hmm hin q1). lia. }
  assert (hnz : m_seqno m <> 0%Z) by lia. destruct hsw as [w1 w2 w3 w4 w5].
  destruct (merge_outcome (B i) (st1 i) (l i) mine a inc m bad w1 (life_inv1 _ _ w1 w2) (life_inv2 _ _ w1 w2) (life_inv7 _ _ w1 w2) w3 w4 w5 ho hinc hnc hmm hnz) as (st3 & k1 & k2 & k3 & _).
  destruct (hm i) as (hs & hmi). rewrite hmi in k1. injection k1 as _ <-. apply merge_msgs_inv in hmm as (ms & h1 & h2). exists ms, m.
  split; [eapply parsed_good; eassumption|]. split; [|auto]. intros x. rewrite (parse_all_spec _ _ _ _ _ h1 x). split.
  - intros (s & hin & hx). apply hset in hin as (j & hj). eauto.
  - intros (j & s & hj & hx). exists s. split; [apply hset; eauto|exact hx].
Qed.
Lemma round_field {I : Type} (B : I -> benv) st0 st c st1 l st2 : round p B st0 st c st1 l st2 -> forall i,
  (exists j, value_at p (st2 i) = value_at p (st j)) /\
  ((exists j, value_at p (st j) <> value_at p (st0 j)) ->
   (forall j, value_at p (st j) = value_at p (st0 j) -> keeps p (s_data (st0 j)) (s_data (st1 j)) = true) ->
   exists j, value_at p (st j) <> value_at p (st0 j) /\ value_at p (st2 i) = value_at p (st j)).
Proof.
  intros [hlf hst hed hpg hpos hpu hf hm] i. pose proof (pg_group _ _ hpg) as hg. pose proof (gp_env _ _ hg) as hB.
  destruct (hst i i) as (_ & _ & z & ci & _ & hz & _).
  destruct (writer_parses _ _ _ _ (hB i) (life_inv1 _ _ (hB i) (steadily_tame _ _ _ (hlf i))) (gp_write _ _ hg i) hz) as (mb & hpb & hqb).
  (* every device of the base publishes z *)
  assert (hbase : forall j, s_state (st0 j) <> Dirty /\ exists cj, serialize (b_env (B j)) (s_conf (st0 j)) true = Ok (z, cj) /\
    match s_conf (st0 j) with Plain m => m_sh m = (m_seqno m, e_hash (b_env (B j)) z) | Mut _ _ => True end /\ s_data (st0 j) = m_data mb).
  { intros j. destruct (hst j i) as (h1 & _ & z' & c1 & c2 & h2 & h3 & h4). rewrite hz in h3. injection h3 as <- <-. split; [exact h1|]. exists c1. split; [exact h2|]. split; [exact h4|].
    pose proof (life_inv1 _ _ (hB j) (steadily_tame _ _ _ (hlf j))) as hi. rewrite (gp_same _ _ hg i j) in hpb.
    pose proof (parse_own _ _ _ _ _ _ _ (i1_cfg _ _ hi) h2 hpb) as (_ & e & _). destruct (refresh_ok _ _ _ (i1_cfg _ _ hi) (serialize_refresh _ _ _ _ _ h2)) as (_ & _ & _ & _ & _ & _ & e2).
    rewrite e, e2. symmetry. apply prune_id. exact (life_inv2 _ _ (hB j) (steadily_tame _ _ _ (hlf j)) h1). }
  assert (hob : orderly p mb) by (eapply (published_orderly p hp); [apply (hB i)|apply (hlf i)|exists ci; exact hz|exact hpb]).
  assert (hokb : msg_ok (b_env (B i)) mb) by (apply parse_msg_spec in hpb; tauto).
  set (E := b_env (B i)) in *. set (N := (m_seqno mb + 1)%Z). set (L := next_lag E z mb).
  (* what a device publishes after the edits *)
  assert (hpub : forall j, life (B j) (steadily p) (st j) /\ exists s x, publishes (B j) (st j) s /\ parse_msg E false s = Ok x /\ m_data x = s_data (st1 j) /\ get_path p (m_data x) = value_at p (st j) /\
     ((x = mb /\ st j = st0 j) \/ from_base p (m_data mb) L N x)).
  { intros j. destruct (hbase j) as (b1 & cj & b2 & b3 & b4). destruct (hed j) as (lj & e1 & e2). destruct (edits_base _ _ _ _ _ _ (hB j) (hlf j) b1 b2 b3 e1 e2) as [hl hcase]. split; [exact hl|].
    destruct (sent_state _ _ _ _ hg hpu j) as (_ & _ & _ & s & conf & hs & hc1 & _). destruct (group_publish _ _ hpg i j s) as (x & q1 & _); [exists conf; exact hs|]. exists s, x. split; [exists conf; exact hs|]. split; [exact q1|].
    pose proof (life_inv1 _ _ (hB j) (steadily_tame _ _ _ hl)) as hi. fold E in q1. assert (q1' := q1). unfold E in q1'. rewrite (gp_same _ _ hg i j) in q1'.
    pose proof (parse_own _ _ _ _ _ _ _ (i1_cfg _ _ hi) hs q1') as (_ & e & _). destruct (refresh_ok _ _ _ (i1_cfg _ _ hi) (serialize_refresh _ _ _ _ _ hs)) as (_ & _ & _ & _ & _ & _ & e3).
    split; [rewrite e; unfold s_data, s_msg; rewrite hc1; reflexivity|].
    assert (hsd : shaped p (s_data (st j)) = true /\ wf (s_data (st j)) = true).
    { pose proof (life_inv9 p hp _ _ (hB j) hl) as h9. pose proof (i1_cfg _ _ hi) as hcf. unfold inv9 in h9. unfold s_data, s_msg. destruct (s_conf (st j)) as [m|m o]; (split; [apply h9|apply hcf]). }
    split. { rewrite e, e3. change (m_data (c_msg (s_conf (st j)))) with (s_data (st j)). unfold value_at. apply get_prune; tauto. }
    destruct hcase as [hcase|hcase]; [left|right].
    - split; [|exact hcase]. rewrite hcase in hs. rewrite b2 in hs. injection hs as <- <-. congruence.
    - destruct (edited_publishes (B j) (st0 j) z cj mb (st j) s conf x (hB j) (hlf j) hl b2) as [h1 _]; [unfold E in hpb; rewrite (gp_same _ _ hg i j) in hpb; exact hpb|exact hcase|exact hs|exact q1'|].
      unfold L, E. rewrite (gp_same _ _ hg i j). exact h1. }
  assert (huniq : forall j x y, publishes (B j) (st j) x -> publishes (B j) (st j) y -> x = y) by (intros j x0 y (c1 & e1) (c2 & e2); congruence).
  destruct (group_merged _ _ _ _ _ _ hpg hpos hpu hf hm i) as (ms & m & hgd & hms & hmp & hdat & _). fold E in hgd, hms, hmp.
  assert (hin1 : forall j, exists x, In x ms /\ m_data x = s_data (st1 j) /\ get_path p (m_data x) = value_at p (st j) /\ ((x = mb /\ st j = st0 j) \/ from_base p (m_data mb) L N x)).
  { intros j. destruct (hpub j) as (_ & s & x & q1 & q2 & q3). exists x. split; [apply hms; eauto|exact q3]. }
  assert (hin2 : forall x, In x ms -> exists j, m_data x = s_data (st1 j) /\ get_path p (m_data x) = value_at p (st j) /\ ((x = mb /\ st j = st0 j) \/ from_base p (m_data mb) L N x)).
  { intros x hx. apply hms in hx as (j & s & h1 & h2). exists j. destruct (hpub j) as (_ & s' & x' & q1 & q2 & q3). rewrite (huniq _ _ _ q1 h1) in q2. rewrite h2 in q2. injection q2 as <-. exact q3. }
  assert (hv0 : forall j, value_at p (st0 j) = get_path p (m_data mb)) by (intros j; destruct (hbase j) as (_ & cj & _ & _ & e); unfold value_at; rewrite e; reflexivity).
  assert (hmx : (max_seqno ms <= N)%Z).
  { assert (hne : ms <> []) by (destruct (hin1 i) as (x & hx & _); intros ->; destruct hx). destruct (max_seqno_in ms hne) as (x & hx & ->); [intros y hy; apply (g_ok _ _ hgd y hy)|].
    destruct (hin2 x hx) as (j & _ & _ & [[-> _]|h]); [unfold N; lia|rewrite (fb_seqno _ _ _ _ _ h); lia]. }
  pose proof (bo_lag _ (hB i)) as hlag. fold E in hlag.
  assert (hk1 : forall x, In x ms -> from_base p (m_data mb) L N x -> In x (kept E ms)).
  { intros x hx hfx. apply (kept_In E ms x hgd). split; [exact hx|]. split.
    - destruct (included ms x) eqn:ei; [|reflexivity]. apply included_In in ei as (m2 & h2 & hk). apply (g_old _ _ hgd m2 _ h2) in hk. change (fst (m_sh x)) with (m_seqno x) in hk. rewrite (fb_seqno _ _ _ _ _ hfx) in hk.
      pose proof (max_seqno_ge _ _ h2). lia.
    - unfold too_old. rewrite (fb_seqno _ _ _ _ _ hfx). apply Z.leb_gt. lia. }
  assert (hk2 : (exists y, In y ms /\ from_base p (m_data mb) L N y) -> forall x, In x (kept E ms) -> from_base p (m_data mb) L N x).
  { intros (y & hy & hfy) x hx. apply (kept_In E ms x hgd) in hx as (hx & hni & hno). destruct (hin2 x hx) as (j & _ & _ & [[-> _]|h]); [exfalso|exact h].
    unfold too_old in hno. apply Z.leb_gt in hno. pose proof (max_seqno_ge _ _ hy) as hge. rewrite (fb_seqno _ _ _ _ _ hfy) in hge. unfold N in hge.
    assert (hinc : included ms mb = true); [|congruence]. apply included_In. exists y. split; [exact hy|]. rewrite (fb_lag _ _ _ _ _ hfy). unfold L, next_lag.
    apply in_map_iff. exists ((m_seqno mb, e_hash E z), m_diff mb). split.
    - apply parse_msg_spec in hpb as (_ & _ & e & _). cbn [fst]. rewrite <- e. symmetry. apply surjective_pairing.
    - apply filter_In. split; [apply in_app_iff; right; left; reflexivity|]. cbn [fst]. unfold in_window. apply negb_true_iff, orb_false_iff. split; [apply Z.leb_gt; lia|]. rewrite Z.geb_leb. apply Z.leb_gt. lia. }
  assert (hne : ms <> []) by (destruct (hin1 i) as (x & hx & _); intros ->; destruct hx).
  pose proof (no_overflow_ok _ _ _ hne hmp) as hnov.
  assert (hro : read_only E = false) by (apply (gp_write _ _ hg i)).
  assert (hch : forall j, value_at p (st j) <> value_at p (st0 j) -> exists x, In x (kept E ms) /\ from_base p (m_data mb) L N x /\ get_path p (m_data x) = value_at p (st j)).
  { intros j hj. destruct (hin1 j) as (x & hx & _ & hv & [[-> e]|h]); [rewrite e in hj; congruence|]. exists x. auto. }
  assert (hv2 : value_at p (st2 i) = get_path p (m_data m)) by (unfold value_at; rewrite hdat; reflexivity). rewrite hv2. destruct (kept E ms) as [|a [|a2 r]] eqn:ek.
  - exfalso. exact (kept_nonempty E ms hgd hlag hne ek).
  - destruct (merge_parsed_one E ms a ek hnov hne) as (idx & e). rewrite hmp in e. injection e as ->. cbn [m_data set_unmerged].
    assert (ha : In a ms) by (apply (kept_In E ms a hgd); rewrite ek; left; reflexivity).
    split; [destruct (hin2 a ha) as (j & _ & h & _); eauto|]. intros (j & hj) _. destruct (hch j hj) as (x & [->|[]] & _ & hv). exists j. auto.
  - rewrite (merge_parsed_many E ms a a2 r ek hnov hro), ek in hmp.
    assert (hsome : exists y, In y ms /\ from_base p (m_data mb) L N y).
    { pose proof (kept_NoDup E ms hgd) as hnd. rewrite ek in hnd. cbn [map] in hnd. inversion hnd as [|? ? hx _]; subst.
      assert (h1 : In a ms) by (apply (kept_In E ms a hgd); rewrite ek; left; reflexivity). assert (h2 : In a2 ms) by (apply (kept_In E ms a2 hgd); rewrite ek; right; left; reflexivity).
      destruct (hin2 a h1) as (j & _ & _ & [[e1 _]|h]); [|eauto]. destruct (hin2 a2 h2) as (j2 & _ & _ & [[e2 _]|h]); [|eauto]. exfalso. apply hx. left. congruence. }
    specialize (hk2 hsome). pose proof (kept_curs E ms hgd) as hcu. rewrite ek in hcu.
    assert (hL : forall k df, In (k, df) L -> (fst k < N)%Z /\ shaped_df p df = true).
    { intros k df hin. unfold L, next_lag in hin. apply filter_In in hin as [hin _]. apply in_app_iff in hin as [hin|[hin|[]]].
      - destruct (or_lag _ _ hob _ _ hin) as [o1 o2]. unfold N. split; [lia|exact o2].
      - injection hin as <- <-. split; [unfold N; cbn [fst]; lia|apply hob]. }
    assert (hLs : msorted (m_lagged mb)) by apply hokb.
    assert (hlast : last_mention p L = Some false -> get_path p (m_data mb) = None).
    { intros hl. apply (or_last _ _ hob). unfold L, next_lag in hl. rewrite filter_app in hl. cbn [filter fst] in hl.
      assert (htail : forall x, last_mention p (filter (fun q => in_window E (m_seqno mb + 1) (fst (fst q))) (m_lagged mb)) = Some x -> last_mention p (m_lagged mb) = Some x).
      { intros x. apply last_mention_tail; [exact hLs|]. intros [[a1 a3] adf] [[c1 c2] cdf] ha hc hlt. apply lt_fst_le in hlt. pose proof (proj1 (or_lag _ _ hob _ _ hc)) as hcl. cbn [fst] in *.
        unfold in_window. rewrite !negb_true_iff, !orb_false_iff, !Z.leb_gt, !Z.geb_leb, !Z.leb_gt. lia. }
      destruct (in_window E (m_seqno mb + 1) (m_seqno mb)) eqn:ew.
      - destruct (mentions p (m_diff mb)) as [y|] eqn:ey; [rewrite (last_mention_at p _ [] _ _ y ey) in hl by (intros k' df' []); exact hl|].
        assert (hl2 : forall (q : lagged_t) k, last_mention p (q ++ [(k, m_diff mb)]) = last_mention p q) by (induction q as [|[b1 b2] q IH]; intros k; cbn [app last_mention]; [exact ey|rewrite IH; reflexivity]).
        rewrite hl2 in hl. auto.
      - exfalso. assert (hlg : (e_lag E <= 1)%Z). { unfold in_window in ew. apply negb_false_iff, orb_true_iff in ew as [ew|ew]; [apply Z.leb_le in ew; lia|]. rewrite Z.geb_leb in ew. apply Z.leb_le in ew. lia. }
        rewrite app_nil_r in hl. assert (enil : filter (fun q : shash * btdict => in_window E (m_seqno mb + 1) (fst (fst q))) (m_lagged mb) = []).
        { assert (hx : forall q, In q (filter (fun q : shash * btdict => in_window E (m_seqno mb + 1) (fst (fst q))) (m_lagged mb)) -> False).
          { intros [k df] hq. apply filter_In in hq as [hq1 hq2]. pose proof (proj1 (or_lag _ _ hob _ _ hq1)). apply in_window_spec in hq2. cbn [fst] in *. lia. }
          destruct (filter _ _) as [|q qs]; [reflexivity|]. exfalso. apply (hx q). left. reflexivity. }
        assert (e0 : last_mention p [] = Some false) by (rewrite <- enil; exact hl). discriminate e0. }
    assert (hwb : wf (m_data mb) = true) by apply hokb.
    destruct (round_resolve p E (max_seqno ms) (a :: a2 :: r) m (m_data mb) L N hp hcu hmp hwb (or_data _ _ hob) hk2 hL hlast) as (r1 & r2).
    assert (hkin : forall x, In x (a :: a2 :: r) -> In x ms) by (intros x hx; apply (kept_In E ms x hgd); rewrite ek; exact hx).
    split.
    + destruct r1 as (x & hx & e). destruct (hin2 x (hkin x hx)) as (j & _ & h & _). exists j. congruence.
    + intros (j & hj) hkeep. destruct r2 as (x & hx & hxc & e).
      * destruct (hch j hj) as (x & hx & _ & hv). exists x. split; [exact hx|]. rewrite hv, <- (hv0 j). exact hj.
      * intros x hx hux. destruct (hin2 x (hkin x hx)) as (j' & hd & h & _). rewrite hd. destruct (hbase j') as (_ & cj & _ & _ & e). rewrite <- e. apply hkeep. rewrite <- h, hux. symmetry. apply hv0.
      * destruct (hin2 x (hkin x hx)) as (j' & _ & h & _). exists j'. split; [rewrite <- h, hv0; exact hxc|congruence].
Qed.
End Field.
