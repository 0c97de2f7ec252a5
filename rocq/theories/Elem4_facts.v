(** Proofs of C96, part 4: the set from round to round. *)
From Verif Require Import ElemSpec Maps Data_facts Diff_facts Bt_facts Parse_facts Message_facts Wire_facts Round_facts Reach_facts Redeliver_facts Merge_facts Resolve_facts Conflict_facts Overflow_facts Replay_facts Merge2_facts Adopt_facts Crypt_facts Base_facts Dump_facts Life_facts Life2_facts Life3_facts Life4_facts Fields_facts Conf_facts Conf2_facts Conf3_facts Conf4_facts Conf5_facts Conf6_facts Converge_facts Plain_facts Field_facts Field2_facts Field3_facts Elem_facts Elem2_facts Elem3_facts Field4_facts.
From Coq Require Import Lia Permutation.

(** an element in the set shows that the set is there *)
Lemma has_remains p x d d' : p <> [] -> set_shaped p d = true -> has p x d' = true -> remains p d d' = true.
Proof.
  revert d d'; induction p as [|k p IH]; [congruence|]. intros d d' _ hs hh. destruct p as [|k2 p2].
  - rewrite has_one in hh. cbn [remains]. destruct (set_shaped_one _ _ hs) as [->|(l & ->)]; [reflexivity|]. destruct (lookup k d') as [[s|l'|sub]|]; try discriminate. reflexivity.
  - assert (hne : k2 :: p2 <> []) by discriminate. rewrite (has_as k (k2 :: p2) x d') in hh by exact hne. remember (k2 :: p2) as q eqn:eq0. cbn [remains].
    destruct (set_shaped_here _ _ _ hne hs) as [->|(sub & -> & hsub)]; [reflexivity|]. destruct (lookup k d') as [[s|l'|sub']|]; cbn [as_dict] in hh; try (rewrite has_nil in hh by exact hne; discriminate). apply IH; assumption.
Qed.
Lemma published_data B st s m : benv_ok B -> life B tame st -> publishes B st s -> parse_msg (b_env B) false s = Ok m -> m_data m = tidied st.
Proof.
  intros hB hl (c & hs) hpm. pose proof (life_inv1 _ _ hB hl) as hi. pose proof (parse_own _ _ _ _ _ _ _ (i1_cfg _ _ hi) hs hpm) as (_ & e & _).
  destruct (refresh_ok _ _ _ (i1_cfg _ _ hi) (serialize_refresh _ _ _ _ _ hs)) as (_ & _ & _ & _ & _ & _ & e3). rewrite e, e3. reflexivity.
Qed.
Section Careful.
Variables (p : list bytes) (x0 : scalar) (hp : p <> []).
Lemma careful_sent {I : Type} (B : I -> benv) st c st1 : plain_group B st -> all_push B st c st1 -> forall i, life (B i) (carefully p x0) (st i) -> life (B i) (carefully p x0) (st1 i).
Proof.
  intros [hg hl _] hpu i hli. destruct (hpu i) as (n & o & s1 & hpi & hst). pose proof (pushed_state _ _ _ _ _ _ (gp_env _ _ hg i) (gp_life _ _ hg i) (gp_write _ _ hg i) hpi) as (q1 & _).
  assert (hs : forall a, life (B i) tame a -> sendable (s_data a)).
  { intros a ha. pose proof (i1_cfg _ _ (life_inv1 _ _ (gp_env _ _ hg i) ha)) as hcf. unfold s_data, s_msg. destruct (s_conf a) as [m|m o0]; apply hcf. }
  assert (hl1 : life (B i) (carefully p x0) s1).
  { apply (life_step _ _ (st i) OpPush); [exact hli|]. apply step_run with (x := Ok tt); [cbn [run]; rewrite hpi; reflexivity|split; discriminate|]. split; [split; [split; [exact Logic.I|apply hs, q1]|exact Logic.I]|]. split; [discriminate|exact Logic.I]. }
  destruct hst as [->|(h & hc)]; [exact hl1|]. destruct (confirmed_state _ _ _ _ _ (gp_env _ _ hg i) q1 hc) as (r1 & _).
  apply (life_step _ _ s1 (OpConfirm n h)); [exact hl1|]. apply step_run with (x := Ok tt); [exact hc|split; discriminate|]. split; [split; [split; [exact Logic.I|apply hs, r1]|exact Logic.I]|]. split; [discriminate|exact Logic.I].
Qed.
Lemma careful_merge {I : Type} (B : I -> benv) st c st1 l st2 : plain_group B st -> (forall i, life (B i) (carefully p x0) (st i)) -> (forall i, s_seqno (st i) + 1 + e_lag (b_env (B i)) < 2 ^ 63)%Z -> (exists i, 0 < s_seqno (st i))%Z ->
  all_push B st c st1 -> all_fetch B st c st1 l -> all_merge B l st1 st2 -> (forall i j, remains p (tidied (st j)) (s_data (st2 i)) = true) -> forall i, life (B i) (carefully p x0) (st2 i).
Proof.
  intros hpg hl hroom hpos hpu hf hm hrem i. pose proof (pg_group _ _ hpg) as hg. pose proof (gp_env _ _ hg) as hB.
  destruct (group_sees _ _ _ _ _ hg hpu hf i) as (mine & inc & hsee & hset). destruct (hm i) as (hs & hmi).
  pose proof (group_apart B st i (map snd (mine ++ inc)) hg (fun x hx => proj1 (hset x) hx)) as hnc.
  assert (hfun : forall mine' inc', merge_sees (B i) (l i) (st1 i) mine' inc' -> mine' = mine /\ inc' = inc).
  { intros mine' inc' [(a' & o') i']. destruct hsee as [(a & o) ii]. split; congruence. }
  assert (hpub : forall h s, In (h, s) inc -> exists j, publishes (B j) (st j) s).
  { intros h s hin. apply hset. rewrite map_app. apply in_app_iff. right. apply in_map_iff. exists (h, s). auto. }
  pose proof (plainly_life _ _ (pg_life _ _ (proj1 (group_after _ _ _ _ _ _ hpg hroom hpos hpu hf hm)) i)) as htame.
  apply (life_step _ _ (st1 i) (OpMerge (l i))); [apply careful_sent with (st := st) (c := c); auto|]. apply step_run with (x := Ok tt); [cbn [run]; rewrite hmi; reflexivity|split; discriminate|].
  split; [split; [split|]|split; [discriminate|]].
  - intros mine' inc' hsee'. apply hfun in hsee' as [-> ->]. split; [exact hnc|]. split.
    + intros h s x hin hx. destruct (hpub h s hin) as (j & hj). destruct (group_publish _ _ hpg i j s hj) as (m' & q1 & _ & _ & q2 & _). congruence.
    + intros _ h s hin x hx. destruct (hpub h s hin) as (j & hj). destruct (group_publish _ _ hpg i j s hj) as (m' & q1 & _ & _ & _ & _ & q3). rewrite hx in q1. injection q1 as <-. eauto.
  - pose proof (i1_cfg _ _ (life_inv1 _ _ (hB i) htame)) as hcf. unfold s_data, s_msg. destruct (s_conf (st2 i)) as [m|m o0]; apply hcf.
  - intros mine' inc' hsee' h s x hin hx. apply hfun in hsee' as [-> ->]. destruct (hpub h s hin) as (j & hj). destruct (group_publish _ _ hpg i j s hj) as (m' & q1 & q2 & _). congruence.
  - intros mine' inc' hsee'. apply hfun in hsee' as [-> ->]. split.
    + intros h s x hin hx. destruct (hpub h s hin) as (j & hj). rewrite (gp_same _ _ hg i j) in hx. exact (published_regular p x0 hp _ _ _ _ (hB j) (hl j) hj hx).
    + intros s x hin hx. apply hset in hin as (j & hj). rewrite (gp_same _ _ hg i j) in hx. rewrite (published_data _ _ _ _ (hB j) (carefully_tame p x0 _ _ (hl j)) hj hx). apply hrem.
Qed.
(** the exchange that settles a round *)
Lemma set_settled {I : Type} (B : I -> benv) st0 st c st1 l st2 c' st3 l' st4 : set_round p x0 B st0 st c st1 l st2 -> (forall i, s_seqno (st i) + 2 + e_lag (b_env (B i)) < 2 ^ 63)%Z ->
  (forall i j, remains p (tidied (st j)) (s_data (st2 i)) = true) ->
  all_push B st2 c' st3 -> all_fetch B st2 c' st3 l' -> all_merge B l' st3 st4 ->
  (forall i, life (B i) (carefully p x0) (st4 i)) /\ in_step B st4 /\ (forall i, holds p x0 (st4 i) = holds p x0 (st2 i)) /\ plain_group B st4 /\ forall i, (0 < s_seqno (st4 i))%Z.
Proof.
  intros [hlf hst hed hpg hpos hpu hf hm] hroom hrem hpu' hf' hm'. pose proof (pg_group _ _ hpg) as hg. pose proof (gp_env _ _ hg) as hB.
  assert (hroom1 : forall i, (s_seqno (st i) + 1 + e_lag (b_env (B i)) < 2 ^ 63)%Z) by (intros i; specialize (hroom i); lia).
  assert (h0 : forall i, life (B i) (carefully p x0) (st i) /\ hashed (B i) (st i)).
  { intros i. destruct (hst i i) as (b1 & _ & z & cj & _ & b2 & _ & b3). destruct (hed i) as (li & e1 & e2). destruct (edits_set p x0 hp _ _ _ _ _ _ (hB i) (hlf i) b1 b2 b3 e1 e2) as [hl [e0|(_ & m & e & _)]]; (split; [exact hl|]); unfold hashed.
    - rewrite e0. destruct (s_conf (st0 i)) as [m|m o]; [|exact Logic.I]. intros s c0 hs. congruence.
    - rewrite e. exact Logic.I. }
  destruct (group_after _ _ _ _ _ _ hpg hroom1 hpos hpu hf hm) as (hpg2 & hag & hq & hpr). pose proof (pg_group _ _ hpg2) as hg2.
  assert (hl2 : forall i, life (B i) (carefully p x0) (st2 i)) by (apply (careful_merge B st c st1 l st2); auto; intros i; apply h0).
  assert (hh2 : forall i, hashed (B i) (st2 i)) by (intros i; apply (hashed_merge B st c st1 l st2); auto; apply (hashed_sent B st c st1); auto; apply h0).
  assert (hh4 : forall i, hashed (B i) (st4 i)) by (intros i; apply (hashed_merge B st2 c' st3 l' st4); auto; apply (hashed_sent B st2 c' st3); auto).
  assert (hpos2 : exists i, (0 < s_seqno (st2 i))%Z) by (destruct hpos as (i & _); exists i; apply hq).
  assert (hroom2 : forall i, (s_seqno (st2 i) + 1 + e_lag (b_env (B i)) < 2 ^ 63)%Z).
  { intros i. destruct (group_merged _ _ _ _ _ _ hpg hpos hpu hf hm i) as (ms & m & hgd & hms & hmp & _ & ->).
    assert (hx : exists x, In x ms /\ (m_seqno m <= m_seqno x + 1)%Z).
    { destruct (m_unmerged m) as [k|] eqn:hu.
      - destruct (merge_parsed_index _ _ _ _ hmp hu) as (x & hx & ->). exists x. split; [eapply nth_error_In; exact hx|]. unfold m_seqno. cbn [set_unmerged m_sh]. lia.
      - destruct (merge_parsed_conflict _ _ _ hgd hmp hu) as (_ & _ & _ & _ & hres). destruct (resolve_serialized _ _ _ _ hres) as (s2 & _ & hsh & _).
        assert (hne : ms <> []) by (intros ->; discriminate hmp). destruct (max_seqno_in ms hne) as (x & hx & e); [intros y hy; apply (g_ok _ _ hgd y hy)|]. exists x. split; [exact hx|]. unfold m_seqno at 1. rewrite hsh. cbn [fst]. lia. }
    destruct hx as (x & hx & hle). apply hms in hx as (j & s & hj & hpx). destruct (group_publish _ _ hpg i j s hj) as (m' & q1 & _ & q2 & _). rewrite hpx in q1. injection q1 as <-.
    pose proof (hroom j) as hj'. rewrite (gp_same _ _ hg j i) in hj'. lia. }
  destruct (group_after _ _ _ _ _ _ hpg2 hroom2 hpos2 hpu' hf' hm') as (hpg4 & _ & hq4 & _).
  pose proof (two_rounds _ _ _ _ _ _ _ _ _ _ hpg hroom1 hpos hpu hf hm hpu' hf' hm') as h2.
  assert (hrem2 : forall i j, remains p (tidied (st2 j)) (s_data (st4 i)) = true).
  { intros i j. replace (tidied (st2 j)) with (s_data (st4 i)); [apply remains_refl|]. rewrite (proj1 (h2 i j)). unfold tidied. symmetry. apply prune_id, hpr. }
  split; [apply (careful_merge B st2 c' st3 l' st4); auto|]. split; [|split; [intros i; unfold holds; rewrite (proj1 (h2 i i)); reflexivity|auto]].
  intros i j. destruct (h2 i i) as (_ & _ & n1 & p1). destruct (h2 j i) as (_ & _ & n2 & p2). split; [exact n1|]. split; [exact n2|].
  destruct (sent_state _ _ _ _ hg2 hpu' i) as (_ & _ & _ & s & conf & hs & _). assert (h3 : publishes (B i) (st2 i) s) by (exists conf; exact hs).
  pose proof (proj2 (p1 s) h3) as (c1 & e1). pose proof (proj2 (p2 s) h3) as (c2 & e2). exists s, c1, c2. split; [exact e1|]. split; [exact e2|].
  specialize (hh4 i). unfold hashed in hh4. destruct (s_conf (st4 i)) as [m|m o]; [exact (hh4 _ _ e1)|exact Logic.I].
Qed.
(** a round without a conflict settles by itself *)
Lemma set_clean {I : Type} (B : I -> benv) st0 st c st1 l st2 : set_round p x0 B st0 st c st1 l st2 -> (forall i, s_seqno (st i) + 1 + e_lag (b_env (B i)) < 2 ^ 63)%Z -> (forall i, s_state (st2 i) <> Dirty) -> (forall i j, remains p (tidied (st j)) (s_data (st2 i)) = true) ->
  (forall i, life (B i) (carefully p x0) (st2 i)) /\ in_step B st2.
Proof.
  intros [hlf hst hed hpg hpos hpu hf hm] hroom hnd hrem. pose proof (pg_group _ _ hpg) as hg. pose proof (gp_env _ _ hg) as hB.
  assert (h0 : forall i, life (B i) (carefully p x0) (st i) /\ hashed (B i) (st i)).
  { intros i. destruct (hst i i) as (b1 & _ & z & cj & _ & b2 & _ & b3). destruct (hed i) as (li & e1 & e2). destruct (edits_set p x0 hp _ _ _ _ _ _ (hB i) (hlf i) b1 b2 b3 e1 e2) as [hl [e0|(_ & m & e & _)]]; (split; [exact hl|]); unfold hashed.
    - rewrite e0. destruct (s_conf (st0 i)) as [m|m o]; [|exact Logic.I]. intros s c0 hs. congruence.
    - rewrite e. exact Logic.I. }
  destruct (group_after _ _ _ _ _ _ hpg hroom hpos hpu hf hm) as (hpg2 & hag & hq & hpr). pose proof (pg_group _ _ hpg2) as hg2.
  assert (hl2 : forall i, life (B i) (carefully p x0) (st2 i)) by (apply (careful_merge B st c st1 l st2); auto; intros i; apply h0).
  assert (hh2 : forall i, hashed (B i) (st2 i)) by (intros i; apply (hashed_merge B st c st1 l st2); auto; apply (hashed_sent B st c st1); auto; apply h0).
  split; [exact hl2|]. intros i j. split; [apply hnd|]. split; [apply hnd|].
  destruct (serialize_total (B i) (st2 i) true (hB i) (life_inv1 _ _ (hB i) (carefully_tame p x0 _ _ (hl2 i)))) as (s & conf & hs); [pose proof (pg_room _ _ hpg2 i); specialize (hq i); unfold int64_max; lia|].
  destruct (hag i j) as (_ & _ & _ & hz). assert (h3 : publishes (B j) (st2 j) s) by (apply hz; exists conf; exact hs). destruct h3 as (c2 & e2). exists s, conf, c2. split; [exact hs|]. split; [exact e2|].
  specialize (hh2 i). unfold hashed in hh2. destruct (s_conf (st2 i)) as [m|m o]; [exact (hh2 _ _ hs)|exact Logic.I].
Qed.
Lemma life_shaped B st : benv_ok B -> life B (carefully p x0) st -> set_shaped p (s_data st) = true.
Proof. intros hB hl. pose proof (life_inv10 p x0 hp _ _ hB hl) as h. unfold inv10 in h. unfold s_data, s_msg. destruct (s_conf st); apply h. Qed.
Lemma round_stays {I : Type} (B : I -> benv) st0 st c st1 l st2 : set_round p x0 B st0 st c st1 l st2 -> forall y i j, holds p y (st2 i) = true -> remains p (tidied (st j)) (s_data (st2 i)) = true.
Proof.
  intros [hlf hst hed hpg hpos hpu hf hm] y i j hy. pose proof (pg_group _ _ hpg) as hg. pose proof (gp_env _ _ hg) as hB.
  apply (has_remains p y); [exact hp| |exact hy]. destruct (hst j j) as (b1 & _ & z & cj & _ & b2 & _ & b3). destruct (hed j) as (lj & e1 & e2). destruct (edits_set p x0 hp _ _ _ _ _ _ (hB j) (hlf j) b1 b2 b3 e1 e2) as [hl _].
  unfold tidied. apply set_shaped_prune; [|exact (life_shaped _ _ (hB j) hl)].
  pose proof (i1_cfg _ _ (life_inv1 _ _ (hB j) (carefully_tame p x0 _ _ hl))) as hcf. unfold s_data, s_msg. destruct (s_conf (st j)) as [m|m o]; apply hcf.
Qed.
(** devices in step hold the same data *)
Lemma round_same {I : Type} (B : I -> benv) st0 st c st1 l st2 : set_round p x0 B st0 st c st1 l st2 -> forall i j, s_data (st0 i) = s_data (st0 j).
Proof.
  intros [hlf hst hed hpg hpos hpu hf hm]. pose proof (pg_group _ _ hpg) as hg. pose proof (gp_env _ _ hg) as hB.
  intros i j. destruct (hst i j) as (d1 & d2 & z & ci & cj & hz & hz2 & _).
  destruct (writer_parses _ _ _ _ (hB i) (life_inv1 _ _ (hB i) (carefully_tame p x0 _ _ (hlf i))) (gp_write _ _ hg i) hz) as (mb & hpb & hqb).
  assert (hb : forall k ck, s_state (st0 k) <> Dirty -> serialize (b_env (B k)) (s_conf (st0 k)) true = Ok (z, ck) -> s_data (st0 k) = m_data mb).
  { intros k ck h1 h2. pose proof (life_inv1 _ _ (hB k) (carefully_tame p x0 _ _ (hlf k))) as hi. assert (hpk := hpb). rewrite (gp_same _ _ hg i k) in hpk.
    pose proof (parse_own _ _ _ _ _ _ _ (i1_cfg _ _ hi) h2 hpk) as (_ & e & _). destruct (refresh_ok _ _ _ (i1_cfg _ _ hi) (serialize_refresh _ _ _ _ _ h2)) as (_ & _ & _ & _ & _ & _ & e2).
    rewrite e, e2. symmetry. apply prune_id. exact (life_inv2 _ _ (hB k) (carefully_tame p x0 _ _ (hlf k)) h1). }
  rewrite (hb i ci d1 hz), (hb j cj d2 hz2). reflexivity.
Qed.
End Careful.
