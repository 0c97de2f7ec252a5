(** C95: the devices are again in step after the exchange that settles a round. *)
From Verif Require Import FieldSpec Maps Data_facts Diff_facts Bt_facts Parse_facts Message_facts Wire_facts Round_facts Reach_facts Redeliver_facts Merge_facts Resolve_facts Conflict_facts Overflow_facts Replay_facts Merge2_facts Adopt_facts Crypt_facts Base_facts Dump_facts Life_facts Life2_facts Life3_facts Life4_facts Fields_facts Conf_facts Conf2_facts Conf3_facts Conf4_facts Conf5_facts Conf6_facts Converge_facts Plain_facts Field_facts Field2_facts Field3_facts Records.
From Coq Require Import Lia Permutation.

(** the hash under which the config would list its own message is the hash of that message *)
Definition hashed (B : benv) (st : bstate) : Prop :=
  match s_conf st with Plain m => forall s c, serialize (b_env B) (Plain m) true = Ok (s, c) -> m_sh m = (m_seqno m, e_hash (b_env B) s) | Mut _ _ => True end.
Lemma hashed_serialize B st sg s c : hashed B st -> serialize (b_env B) (s_conf st) sg = Ok (s, c) -> hashed B (set_conf c st).
Proof.
  intros h hs. apply serialize_refresh in hs. unfold hashed in *. cbn [set_conf s_conf]. destruct (s_conf st) as [m|m o]; cbn [refresh] in hs.
  - injection hs as <-. exact h.
  - destruct (diff _ _) as [df|]; [|discriminate]. injection hs as <-. exact I.
Qed.
Lemma hashed_ext B st st' : s_conf st' = s_conf st -> hashed B st -> hashed B st'.
Proof. unfold hashed. intros ->. auto. Qed.
Lemma hashed_sent {I : Type} (B : I -> benv) st c st1 : group B st -> all_push B st c st1 -> forall i, hashed (B i) (st i) -> hashed (B i) (st1 i).
Proof.
  intros hg hp i h. destruct (sent_state _ _ _ _ hg hp i) as (_ & _ & _ & s & conf & hs & e & _). eapply hashed_ext; [|exact (hashed_serialize _ _ _ _ _ h hs)]. exact e.
Qed.
Lemma hashed_merge {I : Type} (B : I -> benv) st c st1 l st2 : plain_group B st -> all_push B st c st1 -> all_fetch B st c st1 l -> all_merge B l st1 st2 ->
  forall i, hashed (B i) (st1 i) -> hashed (B i) (st2 i).
Proof.
  intros hpg hp hf hm i h1. pose proof (pg_group _ _ hpg) as hg. destruct (hm i) as (hs & hmi). unfold merge in hmi.
  destruct (group_sees _ _ _ _ _ hg hp hf i) as (mine & inc & [(a & ho) hinc] & hset).
  apply merge_plain_spec in hmi as [(hx & _)|(mine' & a' & ho' & [(hx & _)|(inc' & new & bad & _ & hinc' & hmc & hy)])]; [exfalso; eapply hx; reflexivity|exfalso; eapply hx; reflexivity|].
  rewrite ho in ho'. injection ho' as <- <-. rewrite hinc in hinc'. injection hinc' as <-. cbv zeta in hy. destruct hy as (y & had & _).
  destruct (sent_state _ _ _ _ hg hp i) as ([_ _ _ hnd _] & _). unfold merge_confs in hmc. rewrite (not_dirty _ hnd) in hmc. ok_inv hmc. destruct a0 as [m bd]. injection hmc as <- <-.
  set (w := set_old _ a) in had. assert (hw : hashed (B i) w).
  { apply own_part_spec in ho as [(_ & e)|(_ & s & c0 & hs0 & e)]; injection e as _ ->; [exact h1|]. exact (hashed_serialize _ _ _ _ _ h1 hs0). }
  apply adopt_spec in had as [(_ & _ & ->)|[(_ & _ & had)|(_ & k & hu & [(_ & _ & _ & _ & ->)|(_ & st3 & had & _ & ->)])]]; [exact hw| |exact hw|].
  - apply set_state_spec in had as [(_ & _ & _ & hro)|(_ & f1 & _)]; unfold hashed.
    + pose proof (gp_write _ _ hg i). congruence.
    + rewrite f1. cbn [set_conf s_conf]. destruct (is_dirty w) eqn:ew; [|exact Logic.I]. exfalso. apply own_part_spec in ho. unfold w, is_dirty in ew. cbn in ew. destruct ho as [(_ & e)|(_ & s & c0 & _ & e)]; injection e as _ ->; cbn in ew; pose proof (not_dirty _ hnd) as hq; unfold is_dirty in hq; congruence.
  - apply set_state_spec in had as [(had & _)|(_ & f1 & _)]; [discriminate|]. unfold hashed. cbn [s_conf]. rewrite f1. cbn [set_conf s_conf c_msg] in *.
    apply merge_msgs_inv in ha as (ms & g1 & g2). destruct (merge_parsed_index _ _ _ _ g2 hu) as (x & hx & ->).
    assert (hin : In x ms) by (eapply nth_error_In; exact hx). apply (parse_all_spec _ _ _ _ _ g1) in hin as (s & hin & hpx). apply hset in hin as (j & hj).
    destruct (group_publish _ _ hpg i j s hj) as (m' & q1 & _ & _ & _ & _ & q4). rewrite hpx in q1. injection q1 as <-.
    intros s' c' hs'. rewrite (serialize_set_unmerged _ (Some k) _ _ q4) in hs'. injection hs' as <- _. apply parse_msg_spec in hpx as (_ & _ & e & _).
    unfold m_seqno. cbn [set_unmerged m_sh]. rewrite <- e. apply surjective_pairing.
Qed.
(** lives of this kind go on through an exchange *)
Section Steady.
Variables (p : list bytes) (hp : p <> []).
Lemma steady_sent {I : Type} (B : I -> benv) st c st1 : plain_group B st -> all_push B st c st1 -> forall i, life (B i) (steadily p) (st i) -> life (B i) (steadily p) (st1 i).
Proof.
  intros [hg hl _] hpu i hli. destruct (hpu i) as (n & o & s1 & hpi & hst). pose proof (pushed_state _ _ _ _ _ _ (gp_env _ _ hg i) (gp_life _ _ hg i) (gp_write _ _ hg i) hpi) as (q1 & _).
  assert (hs : forall a, life (B i) tame a -> sendable (s_data a)).
  { intros a ha. pose proof (i1_cfg _ _ (life_inv1 _ _ (gp_env _ _ hg i) ha)) as hcf. unfold s_data, s_msg. destruct (s_conf a) as [m|m o0]; apply hcf. }
  assert (hl1 : life (B i) (steadily p) s1).
  { apply (life_step _ _ (st i) OpPush); [exact hli|]. apply step_run with (x := Ok tt); [cbn [run]; rewrite hpi; reflexivity|split; discriminate|]. split; [split; [split; [exact Logic.I|apply hs, q1]|exact Logic.I]|]. split; [discriminate|exact Logic.I]. }
  destruct hst as [->|(h & hc)]; [exact hl1|]. destruct (confirmed_state _ _ _ _ _ (gp_env _ _ hg i) q1 hc) as (r1 & _).
  apply (life_step _ _ s1 (OpConfirm n h)); [exact hl1|]. apply step_run with (x := Ok tt); [exact hc|split; discriminate|]. split; [split; [split; [exact Logic.I|apply hs, r1]|exact Logic.I]|]. split; [discriminate|exact Logic.I].
Qed.
Lemma steady_merge {I : Type} (B : I -> benv) st c st1 l st2 : plain_group B st -> (forall i, life (B i) (steadily p) (st i)) -> (forall i, s_seqno (st i) + 1 + e_lag (b_env (B i)) < 2 ^ 63)%Z -> (exists i, 0 < s_seqno (st i))%Z ->
  all_push B st c st1 -> all_fetch B st c st1 l -> all_merge B l st1 st2 -> forall i, life (B i) (steadily p) (st2 i).
Proof.
  intros hpg hl hroom hpos hpu hf hm i. pose proof (pg_group _ _ hpg) as hg. pose proof (gp_env _ _ hg) as hB.
  destruct (group_sees _ _ _ _ _ hg hpu hf i) as (mine & inc & hsee & hset). destruct (hm i) as (hs & hmi).
  pose proof (group_apart B st i (map snd (mine ++ inc)) hg (fun x hx => proj1 (hset x) hx)) as hnc.
  assert (hfun : forall mine' inc', merge_sees (B i) (l i) (st1 i) mine' inc' -> mine' = mine /\ inc' = inc).
  { intros mine' inc' [(a' & o') i']. destruct hsee as [(a & o) ii]. split; congruence. }
  assert (hpub : forall h s, In (h, s) inc -> exists j, publishes (B j) (st j) s).
  { intros h s hin. apply hset. rewrite map_app. apply in_app_iff. right. apply in_map_iff. exists (h, s). auto. }
  pose proof (plainly_life _ _ (pg_life _ _ (proj1 (group_after _ _ _ _ _ _ hpg hroom hpos hpu hf hm)) i)) as htame.
  apply (life_step _ _ (st1 i) (OpMerge (l i))); [apply steady_sent with (st := st) (c := c); auto|]. apply step_run with (x := Ok tt); [cbn [run]; rewrite hmi; reflexivity|split; discriminate|].
  split; [split; [split|]|split; [discriminate|]].
  - intros mine' inc' hsee'. apply hfun in hsee' as [-> ->]. split; [exact hnc|]. split.
    + intros h s x hin hx. destruct (hpub h s hin) as (j & hj). destruct (group_publish _ _ hpg i j s hj) as (m' & q1 & _ & _ & q2 & _). congruence.
    + intros _ h s hin x hx. destruct (hpub h s hin) as (j & hj). destruct (group_publish _ _ hpg i j s hj) as (m' & q1 & _ & _ & _ & _ & q3). rewrite hx in q1. injection q1 as <-. eauto.
  - pose proof (i1_cfg _ _ (life_inv1 _ _ (hB i) htame)) as hcf. unfold s_data, s_msg. destruct (s_conf (st2 i)) as [m|m o0]; apply hcf.
  - intros mine' inc' hsee' h s x hin hx. apply hfun in hsee' as [-> ->]. destruct (hpub h s hin) as (j & hj). destruct (group_publish _ _ hpg i j s hj) as (m' & q1 & q2 & _). congruence.
  - intros mine' inc' hsee' h s x hin hx. apply hfun in hsee' as [-> ->]. destruct (hpub h s hin) as (j & hj). rewrite (gp_same _ _ hg i j) in hx. exact (published_orderly p hp _ _ _ _ (hB j) (hl j) hj hx).
Qed.
(** the exchange that settles a round *)
Lemma round_settled {I : Type} (B : I -> benv) st0 st c st1 l st2 c' st3 l' st4 : round p B st0 st c st1 l st2 -> (forall i, s_seqno (st i) + 2 + e_lag (b_env (B i)) < 2 ^ 63)%Z ->
  all_push B st2 c' st3 -> all_fetch B st2 c' st3 l' -> all_merge B l' st3 st4 ->
  (forall i, life (B i) (steadily p) (st4 i)) /\ in_step B st4 /\ (forall i, value_at p (st4 i) = value_at p (st2 i)) /\ plain_group B st4 /\ forall i, (0 < s_seqno (st4 i))%Z.
Proof.
  intros [hlf hst hed hpg hpos hpu hf hm] hroom hpu' hf' hm'. pose proof (pg_group _ _ hpg) as hg. pose proof (gp_env _ _ hg) as hB.
  assert (hroom1 : forall i, (s_seqno (st i) + 1 + e_lag (b_env (B i)) < 2 ^ 63)%Z) by (intros i; specialize (hroom i); lia).
  assert (h0 : forall i, life (B i) (steadily p) (st i) /\ hashed (B i) (st i)).
  { intros i. destruct (hst i i) as (b1 & _ & z & cj & _ & b2 & _ & b3). destruct (hed i) as (li & e1 & e2). destruct (edits_base p hp _ _ _ _ _ _ (hB i) (hlf i) b1 b2 b3 e1 e2) as [hl [e0|(_ & m & e & _)]]; (split; [exact hl|]); unfold hashed.
    - rewrite e0. destruct (s_conf (st0 i)) as [m|m o]; [|exact Logic.I]. intros s c0 hs. congruence.
    - rewrite e. exact Logic.I. }
  destruct (group_after _ _ _ _ _ _ hpg hroom1 hpos hpu hf hm) as (hpg2 & hag & hq & hpr). pose proof (pg_group _ _ hpg2) as hg2.
  assert (hl2 : forall i, life (B i) (steadily p) (st2 i)) by (apply (steady_merge B st c st1 l st2); auto; intros i; apply h0).
  assert (hh2 : forall i, hashed (B i) (st2 i)) by (intros i; apply (hashed_merge B st c st1 l st2); auto; apply (hashed_sent B st c st1); auto; apply h0).
  assert (hh4 : forall i, hashed (B i) (st4 i)) by (intros i; apply (hashed_merge B st2 c' st3 l' st4); auto; apply (hashed_sent B st2 c' st3); auto).
  assert (hpos2 : exists i, (0 < s_seqno (st2 i))%Z) by (destruct hpos as (i & _); exists i; apply hq).
  assert (hroom2 : forall i, (s_seqno (st2 i) + 1 + e_lag (b_env (B i)) < 2 ^ 63)%Z).
  { intros i. destruct (group_merged _ _ _ _ _ _ hpg hpos hpu hf hm i) as (ms & m & hgd & hms & hmp & _ & ->).
    assert (hx : exists x, In x ms /\ (m_seqno m <= m_seqno x + 1)%Z).
    { destruct (m_unmerged m) as [k|] eqn:hu.
      - destruct (merge_parsed_index _ _ _ _ hmp hu) as (x & hx & ->). exists x. split; [eapply nth_error_In; exact hx|]. unfold m_seqno. cbn [set_unmerged m_sh]. lia.
      - destruct (merge_parsed_conflict _ _ _ hgd hmp hu) as (_ & _ & _ & _ & hres). destruct (resolve_serialized _ _ _ _ hres) as (s2 & _ & hsh & _).
        assert (hne : ms <> []) by (intros ->; discriminate hmp). destruct (max_seqno_in ms hne) as (x & hx & e); [intros y hy; apply (g_ok _ _ hgd y hy)|]. exists x. split; [exact hx|]. unfold m_seqno at 1. rewrite hsh. cbn [fst]. lia. }
    destruct hx as (x & hx & hle). apply hms in hx as (j & s & hj & hpx). destruct (group_publish _ _ hpg i j s hj) as (m' & q1 & _ & q2 & _). rewrite hpx in q1. injection q1 as <-.
    pose proof (hroom j) as hj'. rewrite (gp_same _ _ hg j i) in hj'. lia. }
  destruct (group_after _ _ _ _ _ _ hpg2 hroom2 hpos2 hpu' hf' hm') as (hpg4 & _ & hq4 & _).
  pose proof (two_rounds _ _ _ _ _ _ _ _ _ _ hpg hroom1 hpos hpu hf hm hpu' hf' hm') as h2.
  split; [apply (steady_merge B st2 c' st3 l' st4); auto|]. split; [|split; [intros i; unfold value_at; rewrite (proj1 (h2 i i)); reflexivity|auto]].
  intros i j. destruct (h2 i i) as (_ & _ & n1 & p1). destruct (h2 j i) as (_ & _ & n2 & p2). split; [exact n1|]. split; [exact n2|].
  destruct (sent_state _ _ _ _ hg2 hpu' i) as (_ & _ & _ & s & conf & hs & _). assert (h3 : publishes (B i) (st2 i) s) by (exists conf; exact hs).
  pose proof (proj2 (p1 s) h3) as (c1 & e1). pose proof (proj2 (p2 s) h3) as (c2 & e2). exists s, c1, c2. split; [exact e1|]. split; [exact e2|].
  specialize (hh4 i). unfold hashed in hh4. destruct (s_conf (st4 i)) as [m|m o]; [exact (hh4 _ _ e1)|exact Logic.I].
Qed.
(** a round without a conflict settles by itself *)
Lemma round_clean {I : Type} (B : I -> benv) st0 st c st1 l st2 : round p B st0 st c st1 l st2 -> (forall i, s_seqno (st i) + 1 + e_lag (b_env (B i)) < 2 ^ 63)%Z -> (forall i, s_state (st2 i) <> Dirty) ->
  (forall i, life (B i) (steadily p) (st2 i)) /\ in_step B st2.
Proof.
  intros [hlf hst hed hpg hpos hpu hf hm] hroom hnd. pose proof (pg_group _ _ hpg) as hg. pose proof (gp_env _ _ hg) as hB.
  assert (h0 : forall i, life (B i) (steadily p) (st i) /\ hashed (B i) (st i)).
  { intros i. destruct (hst i i) as (b1 & _ & z & cj & _ & b2 & _ & b3). destruct (hed i) as (li & e1 & e2). destruct (edits_base p hp _ _ _ _ _ _ (hB i) (hlf i) b1 b2 b3 e1 e2) as [hl [e0|(_ & m & e & _)]]; (split; [exact hl|]); unfold hashed.
    - rewrite e0. destruct (s_conf (st0 i)) as [m|m o]; [|exact Logic.I]. intros s c0 hs. congruence.
    - rewrite e. exact Logic.I. }
  destruct (group_after _ _ _ _ _ _ hpg hroom hpos hpu hf hm) as (hpg2 & hag & hq & hpr). pose proof (pg_group _ _ hpg2) as hg2.
  assert (hl2 : forall i, life (B i) (steadily p) (st2 i)) by (apply (steady_merge B st c st1 l st2); auto; intros i; apply h0).
  assert (hh2 : forall i, hashed (B i) (st2 i)) by (intros i; apply (hashed_merge B st c st1 l st2); auto; apply (hashed_sent B st c st1); auto; apply h0).
  split; [exact hl2|]. intros i j. split; [apply hnd|]. split; [apply hnd|].
  destruct (serialize_total (B i) (st2 i) true (hB i) (life_inv1 _ _ (hB i) (steadily_tame _ _ _ (hl2 i)))) as (s & conf & hs); [pose proof (pg_room _ _ hpg2 i); specialize (hq i); unfold int64_max; lia|].
  destruct (hag i j) as (_ & _ & _ & hz). assert (h3 : publishes (B j) (st2 j) s) by (apply hz; exists conf; exact hs). destruct h3 as (c2 & e2). exists s, conf, c2. split; [exact hs|]. split; [exact e2|].
  specialize (hh2 i). unfold hashed in hh2. destruct (s_conf (st2 i)) as [m|m o]; [exact (hh2 _ _ hs)|exact Logic.I].
Qed.
End Steady.
(** ** whole records: all fields [[k; id; f]] *)
Lemma record_cases k id d : wf d = true -> pruned d = true -> (forall f, shaped [k; id; f] d = true) ->
  get_path [k; id] d = None /\ (forall f, get_path [k; id; f] d = None) \/
  exists r, get_path [k; id] d = Some (VDict r) /\ wf r = true /\ (exists f v, lookup f r = Some v) /\ forall f, get_path [k; id; f] d = lookup f r.
Proof.
  intros hw hpr hs. pose proof (hs []) as h0. cbn [shaped is_nil negb andb] in h0. cbn [get_path].
  destruct (lookup k d) as [[s|s|sub]|] eqn:e1; try discriminate; [|left; split; reflexivity]. pose proof (wf_lookup _ _ _ hw e1) as hw1. pose proof (pruned_lookup _ _ _ hpr e1) as hp1.
  destruct (lookup id sub) as [[s|s|r]|] eqn:e2; try discriminate; [|left; split; reflexivity]. right. exists r. split; [reflexivity|].
  assert (hp2 : full_v (VDict r) = true). { cbn [full_v] in hp1. apply andb_true_iff in hp1 as [_ hp1]. exact (pruned_lookup sub _ _ hp1 e2). }
  split; [exact (wf_lookup _ _ _ hw1 e2)|]. split; [|reflexivity]. destruct r as [|[f v] r]; [discriminate hp2|]. exists f, v. apply In_lookup; [exact (wf_sorted _ (wf_lookup _ _ _ hw1 e2))|left; reflexivity].
Qed.
Lemma record_ext k id d d' : wf d = true -> wf d' = true -> pruned d = true -> pruned d' = true -> (forall f, shaped [k; id; f] d = true) -> (forall f, shaped [k; id; f] d' = true) ->
  (forall f, get_path [k; id; f] d = get_path [k; id; f] d') -> get_path [k; id] d = get_path [k; id] d'.
Proof.
  intros hw hw' hpr hpr' hs hs' h. destruct (record_cases k id d hw hpr hs) as [(-> & n1)|(r & -> & w1 & (f1 & v1 & x1) & l1)], (record_cases k id d' hw' hpr' hs') as [(-> & n2)|(r' & -> & w2 & (f2 & v2 & x2) & l2)].
  - reflexivity.
  - specialize (h f2). rewrite n1, l2, x2 in h. discriminate.
  - specialize (h f1). rewrite n2, l1, x1 in h. discriminate.
  - do 2 f_equal. apply wf_ext; [exact w1|exact w2|]. intros f. rewrite <- l1, <- l2. apply h.
Qed.
Lemma sent_value {I : Type} p (B : I -> benv) st c st1 : p <> [] -> group B st -> all_push B st c st1 -> forall i, life (B i) (steadily p) (st i) -> value_at p (st1 i) = value_at p (st i) /\ pruned (s_data (st1 i)) = true /\ wf (s_data (st1 i)) = true.
Proof.
  intros hp hg hpu i hl. destruct (sent_state _ _ _ _ hg hpu i) as (_ & _ & _ & s & conf & hs & e & _). pose proof (gp_env _ _ hg i) as hB. pose proof (life_inv1 _ _ hB (steadily_tame _ _ _ hl)) as hi.
  destruct (refresh_ok _ _ _ (i1_cfg _ _ hi) (serialize_refresh _ _ _ _ _ hs)) as (_ & _ & _ & _ & _ & _ & e3).
  assert (ed : s_data (st1 i) = fst (prune (s_data (st i)))) by (unfold s_data, s_msg; rewrite e; exact e3).
  pose proof (life_inv9 p hp _ _ hB hl) as h9. pose proof (i1_cfg _ _ hi) as hcf.
  assert (hsw : shaped p (s_data (st i)) = true /\ wf (s_data (st i)) = true) by (unfold inv9 in h9; unfold s_data, s_msg; destruct (s_conf (st i)) as [m|m o]; (split; [apply h9|apply hcf])).
  unfold value_at. rewrite ed. split; [apply get_prune; tauto|]. split; [apply prune_pruned|apply prune_wf]; tauto.
Qed.
Lemma step_value {I : Type} p (B : I -> benv) st0 st c st1 l st2 : p <> [] -> round p B st0 st c st1 l st2 -> forall i j, value_at p (st0 j) = value_at p (st0 i).
Proof.
  intros hp [hlf hst hed hpg hpos hpu hf hm] i j. pose proof (pg_group _ _ hpg) as hg. pose proof (gp_env _ _ hg) as hB. destruct (hst i j) as (n1 & n2 & z & c1 & c2 & h1 & h2 & _).
  destruct (writer_parses _ _ _ _ (hB i) (life_inv1 _ _ (hB i) (steadily_tame _ _ _ (hlf i))) (gp_write _ _ hg i) h1) as (mb & hpb & _).
  assert (hd : forall a k cc, life (B k) (steadily p) a -> s_state a <> Dirty -> serialize (b_env (B k)) (s_conf a) true = Ok (z, cc) -> s_data a = m_data mb).
  { intros a k cc ha hn hs. pose proof (life_inv1 _ _ (hB k) (steadily_tame _ _ _ ha)) as hi. assert (hpk := hpb). rewrite (gp_same _ _ hg i k) in hpk.
    pose proof (parse_own _ _ _ _ _ _ _ (i1_cfg _ _ hi) hs hpk) as (_ & e & _). destruct (refresh_ok _ _ _ (i1_cfg _ _ hi) (serialize_refresh _ _ _ _ _ hs)) as (_ & _ & _ & _ & _ & _ & e2).
    rewrite e, e2. symmetry. apply prune_id. exact (life_inv2 _ _ (hB k) (steadily_tame _ _ _ ha) hn). }
  unfold value_at. rewrite (hd _ i _ (hlf i) n1 h1), (hd _ j _ (hlf j) n2 h2). reflexivity.
Qed.
Lemma scal_dec (x y : option value) : (x = None \/ exists s, x = Some (VScal s)) -> (y = None \/ exists s, y = Some (VScal s)) -> x = y \/ x <> y.
Proof.
  intros [->|(s & ->)] [->|(s' & ->)]; [left; reflexivity|right; discriminate|right; discriminate|]. destruct s as [n|t], s' as [n'|t']; try (right; congruence).
  - destruct (Z.eq_dec n n') as [->|h]; [left; reflexivity|right; congruence].
  - destruct (list_eq_dec Ascii.ascii_dec t t') as [->|h]; [left; reflexivity|right; congruence].
Qed.
(** Only device [x] touches record [id] of kind [k]; every other device that had such records still has some. *)
Lemma round_record {I : Type} (B : I -> benv) k id st0 st c st1 l st2 x : (forall f, round [k; id; f] B st0 st c st1 l st2) -> (forall i, s_seqno (st i) + 1 + e_lag (b_env (B i)) < 2 ^ 63)%Z ->
  (forall i, i = x \/ i <> x) ->
  (forall j, j <> x -> forall f, value_at [k; id; f] (st j) = value_at [k; id; f] (st0 j)) ->
  (forall j, j <> x -> lookup k (s_data (st0 j)) <> None -> lookup k (s_data (st1 j)) <> None) ->
  forall i, get_path [k; id] (s_data (st2 i)) = get_path [k; id] (s_data (st1 x)).
Proof.
  intros hr hroom hdec hun hkeep i. assert (hp : forall f, [k; id; f] <> []) by discriminate.
  destruct (hr []) as [_ hst _ hpg hpos hpu hf hm]. pose proof (pg_group _ _ hpg) as hg. pose proof (gp_env _ _ hg) as hB.
  destruct (group_after _ _ _ _ _ _ hpg hroom hpos hpu hf hm) as (hpg2 & _ & _ & hpr2).
  assert (hl : forall f j, life (B j) (steadily [k; id; f]) (st j)).
  { intros f j. destruct (hr f) as [hlf _ hed _ _ _ _ _]. destruct (hst j j) as (b1 & _ & z & cj & _ & b2 & _ & b3). destruct (hed j) as (li & e1 & e2). apply (edits_base _ (hp f) _ _ _ _ _ _ (hB j) (hlf j) b1 b2 b3 e1 e2). }
  assert (hl1 : forall f j, life (B j) (steadily [k; id; f]) (st1 j)) by (intros f j; apply (steady_sent _ B st c st1); auto).
  assert (hl2 : forall f j, life (B j) (steadily [k; id; f]) (st2 j)) by (intros f j; apply (steady_merge _ (hp f) B st c st1 l st2); auto).
  assert (hsh : forall f j a, life (B j) (steadily [k; id; f]) a -> shaped [k; id; f] (s_data a) = true /\ wf (s_data a) = true).
  { intros f j a ha. pose proof (life_inv9 _ (hp f) _ _ (hB j) ha) as h9. pose proof (i1_cfg _ _ (life_inv1 _ _ (hB j) (steadily_tame _ _ _ ha))) as hcf. unfold inv9 in h9. unfold s_data, s_msg. destruct (s_conf a) as [m|m o]; (split; [apply h9|apply hcf]). }
  assert (hv1 : forall f j, value_at [k; id; f] (st1 j) = value_at [k; id; f] (st j) /\ pruned (s_data (st1 j)) = true /\ wf (s_data (st1 j)) = true) by (intros f j; apply (sent_value _ B st c st1); auto).
  assert (hkp : forall f j, j <> x -> keeps [k; id; f] (s_data (st0 j)) (s_data (st1 j)) = true).
  { intros f j hj. destruct (hr f) as [hlf _ _ _ _ _ _ _]. destruct (hsh f j _ (hlf j)) as [_ hw0]. destruct (hst j j) as (hnd & _). pose proof (life_inv2 _ _ (hB j) (steadily_tame _ _ _ (hlf j)) hnd) as hp0.
    assert (hs0 : forall f', shaped [k; id; f'] (s_data (st0 j)) = true) by (intros f'; apply (hsh f' j), (ro_life _ _ _ _ _ _ _ _ (hr f'))).
    cbn [keeps]. destruct (lookup k (s_data (st0 j))) as [[s|s|od]|] eqn:e1; try reflexivity. specialize (hkeep j hj). rewrite e1 in hkeep.
    pose proof (proj1 (hsh [] j _ (hl1 [] j))) as hs1. cbn [shaped is_nil negb andb] in hs1. destruct (lookup k (s_data (st1 j))) as [[s|s|nd]|] eqn:e2; try discriminate; [|exfalso; apply hkeep; [discriminate|reflexivity]].
    destruct (lookup id od) as [[s|s|oid]|] eqn:e3; try reflexivity.
    destruct (record_cases k id _ hw0 hp0 hs0) as [(n1 & _)|(r & n1 & _ & (f1 & v1 & x1) & l1)]; [cbn [get_path] in n1; rewrite e1, e3 in n1; discriminate|].
    pose proof (hun j hj f1) as h1. rewrite <- (proj1 (hv1 f1 j)) in h1. unfold value_at in h1. rewrite l1, x1 in h1. cbn [get_path] in h1. rewrite e2 in h1. destruct (lookup id nd) as [[s|s|nid]|]; try discriminate. reflexivity. }
  apply record_ext.
  - apply (hsh [] i), hl2.
  - apply (hsh [] x), hl1.
  - apply hpr2.
  - apply (hv1 [] x).
  - intros f. apply (hsh f i), hl2.
  - intros f. apply (hsh f x), hl1.
  - intros f. fold (value_at [k; id; f] (st2 i)). fold (value_at [k; id; f] (st1 x)). rewrite (proj1 (hv1 f x)).
    destruct (round_field _ (hp f) _ _ _ _ _ _ _ (hr f) i) as [r1 r2].
    assert (hdv : value_at [k; id; f] (st x) = value_at [k; id; f] (st0 x) \/ value_at [k; id; f] (st x) <> value_at [k; id; f] (st0 x)).
    { apply scal_dec; apply (shaped_get _ _ (hp f)); [apply (hsh f x), hl|apply (hsh f x), (ro_life _ _ _ _ _ _ _ _ (hr f))]. }
    assert (h00 : forall j, value_at [k; id; f] (st0 j) = value_at [k; id; f] (st0 x)).
    { intros j. exact (step_value _ _ _ _ _ _ _ _ (hp f) (hr f) x j). }
    destruct hdv as [hsame|hdiff].
    + destruct r1 as (j & ->). destruct (hdec j) as [->|hj]; [reflexivity|]. rewrite hun by exact hj. rewrite hsame. apply h00.
    + destruct r2 as (j & hj & ->).
      * exists x. exact hdiff.
      * intros j hj. apply hkp. intros ->. exact (hdiff hj).
      * destruct (hdec j) as [->|hne]; [reflexivity|]. exfalso. apply hj. apply hun. exact hne.
Qed.

(** a dict of such records that is there is not empty *)
Lemma size_some {I : Type} (B : I -> benv) k id st0 st c st1 l st2 : (forall f, round [k; id; f] B st0 st c st1 l st2) -> forall j, lookup k (s_data (st0 j)) <> None ->
  match dict_at [] k (s_data (st0 j)) with Some d => length d | None => 0 end <> 0.
Proof.
  intros hr j h. destruct (hr []) as [hlf hst _ hpg _ _ _ _]. pose proof (gp_env _ _ (pg_group _ _ hpg) j) as hB. destruct (hst j j) as (hnd & _).
  pose proof (life_inv2 _ _ hB (steadily_tame _ _ _ (hlf j)) hnd) as hp0. pose proof (life_inv9 _ (fun e => nil_cons (eq_sym e)) _ _ hB (hlf j)) as h9.
  assert (hs : shaped [k; id; []] (s_data (st0 j)) = true) by (unfold inv9 in h9; unfold s_data, s_msg; destruct (s_conf (st0 j)) as [m|m o]; apply h9).
  cbn [shaped is_nil negb andb] in hs. unfold dict_at, field. cbn [app get_path]. destruct (lookup k (s_data (st0 j))) as [[s|s|d]|] eqn:e; try discriminate; [|congruence].
  pose proof (pruned_lookup _ _ _ hp0 e) as hf. destruct d; [discriminate hf|discriminate].
Qed.
