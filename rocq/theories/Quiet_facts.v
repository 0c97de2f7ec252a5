(** After one full exchange nothing that is on the server changes anything any more.  Proofs for C97. *)
From Coq Require Import Lia.
From Verif Require Import NetSpec Maps Data_facts Diff_facts Parse_facts Message_facts Wire_facts Round_facts Reach_facts Redeliver_facts Merge_facts Resolve_facts Conflict_facts Overflow_facts Replay_facts Merge2_facts Adopt_facts Crypt_facts Base_facts Dump_facts Life_facts Life2_facts Life3_facts Life4_facts Fields_facts Conf_facts Conf2_facts Conf3_facts Conf4_facts Conf5_facts Conf6_facts Converge_facts Plain_facts Net_facts Hist_facts.

(** a message that survived alone survives alone among fewer *)
Lemma kept_fewer E ms ms' x : good E ms -> (1 <= e_lag E)%Z -> consistent E ms -> kept E ms = [x] -> (forall y, In y ms' -> In y ms) -> In x ms' -> kept E ms' = [x].
Proof.
  intros hg hlag hc hk hsub hx. pose proof (good_incl _ _ _ hg hsub) as hg'.
  assert (hne : ms <> []) by (intros ->; exact (hsub x hx)).
  assert (hkx : In x (kept E ms)) by (rewrite hk; left; reflexivity). pose proof (proj1 (kept_In E ms x hg) hkx) as (_ & hix & hox).
  assert (hmx : max_seqno ms = m_seqno x).
  { destruct (max_seqno_in ms hne) as (z & hz & e); [intros y hy; apply (ok_seqno _ _ (g_ok _ _ hg y hy))|].
    assert (hzk : In z (kept E ms)).
    { apply (kept_In _ _ _ hg). split; [exact hz|]. split; [|unfold too_old; apply Z.leb_gt; lia].
      destruct (included ms z) eqn:Ei; [|reflexivity]. apply included_In in Ei as (m2 & h1 & h2). apply (g_old _ _ hg) in h2; [|exact h1]. apply max_seqno_ge in h1. unfold m_seqno in *. lia. }
    rewrite hk in hzk. destruct hzk as [<-|[]]. congruence. }
  assert (hmx' : max_seqno ms' = m_seqno x).
  { assert (hn' : ms' <> []) by (intros ->; exact hx). destruct (max_seqno_in ms' hn') as (z & hz & e); [intros y hy; apply (ok_seqno _ _ (g_ok _ _ hg' y hy))|].
    pose proof (max_seqno_ge _ _ hx). pose proof (max_seqno_ge _ _ (hsub z hz)). lia. }
  assert (hin : forall y, In y (kept E ms') <-> y = x).
  { intros y. rewrite (kept_In _ _ _ hg'). split.
    - intros (hy & hi & ho). destruct (consistent_current E ms y hg hne hc (hsub y hy)) as [h|[(m2 & h1 & h2)|(m2 & h1 & h2)]].
      + apply (reconciled_kept E ms y hg hne) in h. rewrite hk in h. destruct h as [<-|[]]. reflexivity.
      + exfalso. apply max_seqno_ge in h1. unfold too_old in ho. apply Z.leb_gt in ho. lia.
      + exfalso. apply (reconciled_kept E ms m2 hg hne) in h2. rewrite hk in h2. destruct h2 as [<-|[]].
        assert (included ms' y = true) by (apply included_In; exists x; split; [exact hx|exact h1]). congruence.
    - intros ->. split; [exact hx|]. split.
      + destruct (included ms' x) eqn:Ei; [|reflexivity]. apply included_In in Ei as (m2 & h1 & h2). assert (included ms x = true) by (apply included_In; eauto). congruence.
      + unfold too_old in *. rewrite hmx' in *. rewrite hmx in hox. exact hox. }
  pose proof (kept_NoDup _ _ hg') as hnd. destruct (kept E ms') as [|a r] eqn:ek; [exfalso; apply (proj2 (hin x) eq_refl)|].
  assert (a = x) by (apply hin; left; reflexivity). subst a. destruct r as [|b r]; [reflexivity|].
  assert (b = x) by (apply hin; right; left; reflexivity). subst b. cbn in hnd. inversion hnd as [|? ? hn _]. exfalso. apply hn. left. reflexivity.
Qed.
Lemma absorbs_kept E l m bad ms k : (1 <= e_lag E)%Z -> read_only E = false -> no_collision E l -> merge_msgs E l = Ok (m, bad) -> parse_all E 0 l = Ok (ms, bad) -> consistent E ms -> m_unmerged m = Some k ->
  exists x s, m = set_unmerged (Some k) x /\ In s l /\ parse_msg E false s = Ok x /\
    forall l', In s l' -> incl l' l -> exists i bad', merge_msgs E l' = Ok (set_unmerged (Some i) x, bad').
Proof.
  intros hlag hro hnc hm hp hc hu. pose proof hm as hm'. apply merge_msgs_inv in hm' as (ms0 & h1 & h2). rewrite hp in h1. injection h1 as <-.
  pose proof (parsed_good _ _ _ _ _ hnc hp) as hg.
  assert (hne : ms <> []) by (intros ->; discriminate h2).
  pose proof (no_overflow_ok _ _ _ hne h2) as hno. destruct (merge_parsed_index _ _ _ _ h2 hu) as (x & hx & ->). pose proof (nth_error_In _ _ hx) as hin.
  assert (hk : kept E ms = [x]).
  { destruct (kept E ms) as [|a [|b r]] eqn:ek; [exfalso; exact (kept_nonempty _ _ hg hlag hne ek)| |].
    - destruct (merge_parsed_one _ _ _ ek hno hne) as (i & e). rewrite h2 in e. assert (e' : set_unmerged (Some k) x = set_unmerged (Some i) a) by congruence.
      assert (hax : In a (kept E ms)) by (rewrite ek; left; reflexivity). apply (kept_In _ _ _ hg) in hax as (ha & _).
      rewrite (g_fun _ _ hg x a hin ha); [reflexivity|]. change (m_sh x) with (m_sh (set_unmerged (Some k) x)). rewrite e'. reflexivity.
    - exfalso. rewrite (merge_parsed_many _ _ _ _ _ ek hno hro) in h2. rewrite ek in h2. destruct (resolve_serialized _ _ _ _ h2) as (s2 & _ & _ & _ & _ & _ & hun). cbn in hun. congruence. }
  apply (parse_all_spec _ _ _ _ _ hp) in hin as (s & hs & hpx). exists x, s. split; [reflexivity|]. split; [exact hs|]. split; [exact hpx|].
  intros l' hs' hl'. destruct (Redeliver_facts.parse_all_total E l l' 0) as [[ms' bad'] hp']; [intros y hy; left; apply hl', hy|eauto|].
  assert (hsub : forall y, In y ms' -> In y ms) by (intros y hy; apply (parse_all_spec _ _ _ _ _ hp') in hy as (t & ht & hyt); apply (parse_all_spec _ _ _ _ _ hp); eauto).
  assert (hxin : In x ms') by (apply (parse_all_spec _ _ _ _ _ hp'); eauto).
  destruct (merge_parsed_one E ms' x) as (i & e); [eapply kept_fewer; eassumption|intros y hy; apply hno, hsub, hy|intros ->; exact hxin|].
  exists i, bad'. apply merge_msgs_inv. eauto.
Qed.
(** the system after every device has pushed and merged *)
Definition after_merge {I : Type} (N : net I) (c : I -> bytes) (st1 st2 : I -> bstate) : net I :=
  mkNet I st2 (fun x => sent N x \/ exists j, x = c j) (did N) (S (calls N)) (fun j x => past N j x \/ x = st1 j \/ x = st2 j).
(** what one device holds after the exchange: [s] is what it publishes, [M] what everybody reads in it *)
Lemma round_result {I : Type} (B : I -> benv) key (N : net I) c st1 Q l st2 : fleet B -> unsigned_fleet B -> net_run B key N -> no_clash B N -> few_calls B N -> (exists i, 0 < s_seqno (dev N i))%Z -> all_push B (dev N) c st1 ->
  all_fetch_from B (sent N) (dev N) c st1 Q l -> all_merge B l st1 st2 -> (forall i j x, past N j x -> apart_hashes (B j) x (B i) (st2 i)) ->
  forall i, life (B i) plainly (st2 i) /\ s_keys (st2 i) = [key] /\ (0 < s_seqno (st2 i) <= Z.of_nat (calls N) + 1)%Z /\
    exists s M, publishes (B i) (st2 i) s /\ parse_msg (b_env (B i)) false s = Ok M /\ m_data M = s_data (st2 i) /\
      forall l', In s l' -> (forall y, In y l' -> y = s \/ (exists j, publishes (B j) (dev N j) y) \/ (exists x, Q x /\ carries B N x y)) ->
        exists k bad', merge_msgs (b_env (B i)) l' = Ok (set_unmerged (Some k) M, bad').
Proof.
  intros hf hu hrun hnc hc hpos hp hff hm hap i. pose proof (net_run_inv B key N hf hrun hnc) as hi.
  destruct (after_push_inv B key N c st1 hf hi hnc hc hp) as (hi1 & hnc1 & hst & hcj & hco). pose proof (fl_env _ hf i) as hB.
  pose proof (sent_state B _ _ _ (pg_group _ _ (net_group B key N hf hi hnc hc)) hp i) as (hsw & hq & _).
  destruct (net_sees B key N c st1 Q l hf hi hnc hc hp hff i) as (hfs & mine & inc & hsee & hset). pose proof hsee as [(a & ho) hinc].
  assert (hseen : forall s, In s (map snd (mine ++ inc)) -> seen B N s).
  { intros s hs. apply hset in hs as [(j & h)|(x & _ & h)]; [exists j, (dev N j); split; [apply (ni_dev _ _ _ hi)|exact h]|eapply carries_seen; exact h]. }
  pose proof (seen_apart B N i _ hf hnc hseen) as hncl.
  destruct hpos as (ip & hip). assert (hpip : exists s, publishes (B ip) (dev N ip) s) by (destruct (sent_state B _ _ _ (pg_group _ _ (net_group B key N hf hi hnc hc)) hp ip) as (_ & _ & _ & s0 & conf & e1 & _); exists s0, conf; exact e1).
  destruct hpip as (sp & hsp). assert (hspin : In sp (map snd (mine ++ inc))) by (apply hset; eauto).
  destruct (writer_publish B hf i ip (dev N ip) sp (ni_life _ _ _ hi ip _ (ni_dev _ _ _ hi ip)) hsp) as (mp & p1 & _ & p2 & _).
  destruct (merge_msgs_total (b_env (B i)) (map snd (mine ++ inc)) hncl (bo_lag _ hB) (bo_sig64 _ hB)) as (m & bad & hmm).
  { intros s hs. destruct (seen_decent B key N i s hf hi hc (hseen s hs)) as (m & q1 & q2 & q3 & _). right. eauto. }
  { eauto. }
  pose proof (merge_msgs_ge _ _ _ _ _ _ hncl (bo_lag _ hB) hmm hspin p1) as hge. assert (hnz : m_seqno m <> 0%Z) by lia.
  destruct hsw as [w1 w2 w3 w4 w5].
  destruct (merge_outcome (B i) (st1 i) (l i) mine a inc m bad w1 (life_inv1 _ _ w1 w2) (life_inv2 _ _ w1 w2) (life_inv7 _ _ w1 w2) w3 w4 w5 ho hinc hncl hmm hnz) as (st3 & k1 & k2 & k3 & k4).
  destruct (hm i) as (hs & hmi). rewrite hmi in k1. injection k1 as _ <-.
  pose proof (merge_plainly B key (after_push N c st1) i (l i) hf hi1 hnc1 hfs) as hpl.
  pose proof hmm as hmm'. apply merge_msgs_inv in hmm' as (ms & hpa & hmp). pose proof (parsed_good _ _ _ _ _ hncl hpa) as hg.
  assert (hlife : life (B i) plainly (st2 i)).
  { apply (life_step _ _ (st1 i) (OpMerge (l i))); [apply (ni_life _ _ _ hi1); right; reflexivity|]. apply step_run with (x := Ok tt); [cbn [run]; rewrite hmi; reflexivity|split; discriminate|].
    apply hpl. rewrite k2. apply (merge_msgs_frame _ _ _ _ (bo_hash _ hB) (bo_lag _ hB) hncl hmm). }
  split; [exact hlife|]. split; [rewrite <- (ni_keys _ _ _ hi1 i (st1 i)); [|right; reflexivity]; eapply (other_op_keys (B i) (OpMerge (l i))); [reflexivity|cbn [run]; rewrite hmi; reflexivity]|].
  assert (hle : exists s x, seen B N s /\ parse_msg (b_env (B i)) false s = Ok x /\ (m_seqno m <= m_seqno x + 1)%Z).
  { destruct (merge_msgs_origin _ _ _ _ hncl hmm) as [(s & x & k & h1 & h2 & ->)|(_ & _ & _ & s & x & h1 & h2 & h3)]; exists s, x; (split; [apply hseen, h1|]); (split; [exact h2|]); [unfold m_seqno; cbn; lia|lia]. }
  destruct hle as (sx & x & hsx & hpx & hle). assert (hxc : (m_seqno x <= Z.of_nat (calls N))%Z).
  { destruct hsx as (j & y & hy & hpy). destruct (writer_publish B hf i j y sx (ni_life _ _ _ hi j y hy) hpy) as (m' & q1 & _ & q2 & _). rewrite hpx in q1. injection q1 as <-. rewrite q2. apply (ni_seqno _ _ _ hi j y hy). }
  split; [rewrite k3; lia|].
  assert (hcons : consistent (b_env (B i)) ms).
  { eapply net_consistent; [exact hf|exact hu|exact hrun|exact hnc|]. intros y hy. apply (parse_all_spec _ _ _ _ _ hpa) in hy as (s & h1 & h2). eauto. }
  assert (hser : exists s conf, serialize (b_env (B i)) (s_conf (st2 i)) true = Ok (s, conf)).
  { apply serialize_total; [exact hB|apply life_inv1; [exact hB|exact (plainly_life _ _ hlife)]|]. specialize (hc i). unfold int64_max. pose proof (bo_lag _ hB). lia. }
  destruct hser as (s & conf & hser). assert (hpub : publishes (B i) (st2 i) s) by (exists conf; exact hser).
  destruct (writer_publish B hf i i (st2 i) s hlife hpub) as (M & r1 & _ & r2 & _ & r3). exists s, M. split; [exact hpub|]. split; [exact r1|].
  destruct (m_unmerged m) as [ku|] eqn:hun.
  - destruct k4 as [k4 k5]. destruct (absorbs_kept _ _ _ _ _ _ (bo_lag _ hB) (fl_write _ hf i) hncl hmm hpa hcons hun) as (x0 & s0 & e1 & e2 & e3 & e4).
    assert (hp0 : publishes (B i) (st2 i) s0).
    { apply k5. subst m. apply serialize_set_unmerged. destruct (hseen s0 e2) as (j & y & hy & hpy). destruct (writer_publish B hf i j y s0 (ni_life _ _ _ hi j y hy) hpy) as (m' & q1 & _ & _ & _ & q2). congruence. }
    assert (es : s0 = s) by (destruct hp0 as (cc & hp0); congruence). subst s0. assert (eM : x0 = M) by congruence. subst x0.
    split; [rewrite k2, e1; reflexivity|]. intros l' h1 h2. apply e4; [exact h1|]. intros y hy. destruct (h2 y hy) as [->|hh]; [exact e2|apply hset, hh].
  - destruct k4 as [_ k4]. assert (hnc2 : no_collision (b_env (B i)) (s :: map snd (mine ++ inc))).
    { assert (hcross : forall y, In y (map snd (mine ++ inc)) -> e_hash (b_env (B i)) s = e_hash (b_env (B i)) y -> s = y).
      { intros y hy e. destruct (hseen y hy) as (j & z & hz & cy & hyz). apply (hap i j z hz y cy s conf hyz hser); [left; reflexivity|right; left; reflexivity|exact e]. }
      intros y y' [<-|hy] [<-|hy'] e; [reflexivity|apply hcross; assumption|symmetry; apply hcross; [assumption|symmetry; exact e]|apply hncl; assumption]. }
    assert (hov : int64_ok (m_seqno m + e_lag (b_env (B i))) = true) by (apply int64_ok_spec; specialize (hc i); pose proof (bo_lag _ hB); lia).
    assert (hred : forall l', In s l' -> incl l' (s :: map snd (mine ++ inc)) -> exists k bad', same_content (b_env (B i)) (c_msg conf) M /\ merge_msgs (b_env (B i)) l' = Ok (set_unmerged (Some k) M, bad')).
    { intros l' h1 h2. destruct (redelivery (b_env (B i)) (map snd (mine ++ inc)) m bad ms (retain (Plain m)) (s_conf (st2 i)) s conf l') as (M0 & k & bad' & e1 & e2 & e3);
        [apply (bo_hash _ hB)|apply (bo_lag _ hB)|apply (bo_signer _ hB)|exact hnc2|exact hmm|exact hun|exact hpa|exact hcons|exact hov|right; left; reflexivity|rewrite k4; constructor|rewrite k4; reflexivity|exact hser|exact h1|exact h2|].
      exists k, bad'. assert (M0 = M) by congruence. subst M0. auto. }
    split; [|intros l' h1 h2; destruct (hred l' h1) as (k & bad' & _ & e); [intros y hy; destruct (h2 y hy) as [->|hh]; [left; reflexivity|right; apply hset, hh]|eauto]].
    destruct (hred [s] (or_introl eq_refl)) as (k & bad' & (_ & e & _) & _); [intros y [<-|[]]; left; reflexivity|].
    destruct (refresh_ok _ _ _ (i1_cfg _ _ (life_inv1 _ _ hB (plainly_life _ _ hlife))) (serialize_refresh _ _ _ _ _ hser)) as (_ & _ & _ & _ & _ & _ & hdat).
    rewrite e, hdat. unfold s_data, s_msg. apply prune_id. change (m_data (c_msg (s_conf (st2 i)))) with (s_data (st2 i)). rewrite k2. apply (merge_msgs_frame _ _ _ _ (bo_hash _ hB) (bo_lag _ hB) hncl hmm).
Qed.
Lemma after_merge_inv {I : Type} (B : I -> benv) key (N : net I) c st1 Q l st2 : fleet B -> unsigned_fleet B -> net_run B key N -> no_clash B N -> few_calls B N -> (exists i, 0 < s_seqno (dev N i))%Z -> all_push B (dev N) c st1 ->
  all_fetch_from B (sent N) (dev N) c st1 Q l -> all_merge B l st1 st2 -> (forall i j x, past N j x -> apart_hashes (B j) x (B i) (st2 i)) -> (forall i j, agree (B i) (st2 i) (B j) (st2 j)) ->
  net_inv B key (after_merge N c st1 st2) /\ no_clash B (after_merge N c st1 st2).
Proof.
  intros hf hu hrun hnc hc hpos hp hff hm hap hag. pose proof (net_run_inv B key N hf hrun hnc) as hi.
  destruct (after_push_inv B key N c st1 hf hi hnc hc hp) as (hi1 & hnc1 & hst & hcj & hco).
  pose proof (round_result B key N c st1 Q l st2 hf hu hrun hnc hc hpos hp hff hm hap) as hrr.
  assert (h3 : forall j x, past (after_merge N c st1 st2) j x -> past (after_push N c st1) j x \/ x = st2 j) by (cbn; tauto). split.
  - split.
    + intros j x hx. destruct (h3 _ _ hx) as [hx'| ->]; [exact (ni_life _ _ _ hi1 j x hx')|apply hrr].
    + intros j x hx. destruct (h3 _ _ hx) as [hx'| ->]; [exact (ni_keys _ _ _ hi1 j x hx')|apply hrr].
    + intros j x hx. change (calls (after_merge N c st1 st2)) with (S (calls N)). rewrite Nat2Z.inj_succ. destruct (h3 _ _ hx) as [hx'| ->]; [pose proof (ni_seqno _ _ _ hi1 j x hx') as h; change (calls (after_push N c st1)) with (calls N) in h; lia|]. destruct (hrr j) as (_ & _ & h & _). lia.
    + intros j. right. right. reflexivity.
    + intros x hx. destruct (ni_sent _ _ _ hi1 x hx) as (s & j & y & n & o & y' & h1 & h2). exists s, j, y, n, o, y'. split; [cbn in *; tauto|exact h2].
  - assert (hold : forall i x, past (after_push N c st1) i x -> exists y, past N i y /\ forall s c0, serialize (b_env (B i)) (s_conf x) true = Ok (s, c0) -> exists c1, serialize (b_env (B i)) (s_conf y) true = Ok (s, c1)).
    { intros i x [hx| ->]; [exists x; eauto|]. exists (dev N i). split; [apply (ni_dev _ _ _ hi)|]. intros s c0 e. destruct (hst i) as (_ & _ & hz). apply hz. exists c0. exact e. }
    assert (hsym : forall a b E, no_collision E [a; b] -> no_collision E [b; a]) by (intros a b E h x y hx hy; apply h; cbn in *; tauto).
    intros i x j y hx hy s c0 s0 c1 e1 e2. apply h3 in hx. apply h3 in hy. destruct hx as [hx| ->], hy as [hy| ->].
    + eapply (hnc1 i x j y); eassumption.
    + destruct (hold _ _ hx) as (x' & hx' & gx). apply gx in e1; destruct e1 as (cx & e1). eapply (hap j i x'); eassumption.
    + destruct (hold _ _ hy) as (y' & hy' & gy). apply gy in e2; destruct e2 as (cy & e2). rewrite (fl_same _ hf j i). apply hsym. eapply (hap i j y'); [exact hy'|exact e2|exact e1].
    + assert (es : s0 = s) by (destruct (hag i j) as (_ & _ & _ & hz); assert (h : publishes (B i) (st2 i) s0) by (apply hz; exists c1; exact e2); destruct h as (cc & h); congruence).
      subst s0. intros a b ha hb _. cbn in ha, hb. destruct ha as [<-|[<-|[]]], hb as [<-|[<-|[]]]; reflexivity.
Qed.
Lemma net_quiet {I : Type} (B : I -> benv) key (N : net I) c st1 Q l st2 c' st3 : fleet B -> unsigned_fleet B -> net_run B key N -> no_clash B N -> (forall i, Z.of_nat (calls N) + 3 + e_lag (b_env (B i)) < 2 ^ 63)%Z -> (exists i, 0 < s_seqno (dev N i))%Z -> all_push B (dev N) c st1 ->
  all_fetch_from B (sent N) (dev N) c st1 Q l -> all_merge B l st1 st2 -> (forall i j x, past N j x -> apart_hashes (B j) x (B i) (st2 i)) -> all_push B st2 c' st3 ->
  forall i st4, fetches (B i) (old_news c c' Q (B i)) (st3 i) st4 ->
    (s_state st4 <> Dirty /\ forall j, s_data st4 = s_data (st2 j) /\ s_seqno st4 = s_seqno (st2 j) /\ forall z, publishes (B i) st4 z <-> publishes (B j) (st2 j) z) /\
    forall l', old_news c c' Q (B i) st4 l' -> exists hs st5, merge (B i) l' st4 = (Ok hs, st5).
Proof.
  intros hf hu hrun hnc hc3 hpos hp hff hm hap hp2 i. assert (hc : few_calls B N) by (intros k; specialize (hc3 k); lia).
  pose proof (net_run_inv B key N hf hrun hnc) as hi.
  assert (hag : forall i j, agree (B i) (st2 i) (B j) (st2 j)).
  { intros i1 j. destruct (net_round B key N c st1 Q l hf hi hnc hc hpos hp hff i1) as (hs & y & e & hj). destruct (hj j) as (hs' & y' & e' & ha). destruct (hm i1) as (? & e1). destruct (hm j) as (? & e2).
    rewrite e in e1. rewrite e' in e2. assert (y = st2 i1) by congruence. assert (y' = st2 j) by congruence. subst. exact ha. }
  destruct (after_merge_inv B key N c st1 Q l st2 hf hu hrun hnc hc hpos hp hff hm hap hag) as (hi2 & hnc2).
  pose proof (round_result B key N c st1 Q l st2 hf hu hrun hnc hc hpos hp hff hm hap) as hrr.
  assert (hc2 : few_calls B (after_merge N c st1 st2)) by (intros k; specialize (hc3 k); change (calls (after_merge N c st1 st2)) with (S (calls N)); rewrite Nat2Z.inj_succ; lia).
  destruct (after_push_inv B key N c st1 hf hi hnc hc hp) as (hi1 & hnc1 & hst & hcj & hco).
  destruct (after_push_inv B key (after_merge N c st1 st2) c' st3 hf hi2 hnc2 hc2 hp2) as (hi3 & hnc3 & hst3 & hcj3 & hco3). cbn [dev after_merge] in hst3, hcj3.
  destruct (hrr i) as (hl2 & hk2 & hq2 & s & M & hps & hpM & hdM & habs). pose proof (fl_env _ hf i) as hB.
  destruct (writer_publish B hf i i (st2 i) s hl2 hps) as (M' & r1 & _ & r2 & _ & r3). assert (M' = M) by congruence. subst M'.
  assert (hdec : decent (b_env (B i)) s).
  { destruct (seen_decent B key _ i s hf hi2 hc2) as (m & g1 & g2 & g3 & _); [exists i, (st2 i); split; [right; right; reflexivity|exact hps]|]. right. eauto. }
  (* one merge from a state like [st3 i] *)
  set (like := fun x : bstate => life (B i) plainly x /\ s_keys x = [key] /\ s_state x <> Dirty /\ s_seqno x = s_seqno (st2 i) /\ s_data x = s_data (st2 i) /\ (forall z, publishes (B i) x z <-> z = s)).
  assert (hone : forall x l', like x -> old_news c c' Q (B i) x l' -> exists hs y, merge (B i) l' x = (Ok hs, y) /\ like y).
  { intros x l' (gl & gk & gd & gq & gdat & gp) hon.
    assert (hfs : from_server (sent (after_push (after_merge N c st1 st2) c' st3)) (B i) x l').
    { intros h y hy. destruct (hon h y hy) as [hj|[hj|[hq|hr]]]; [left; left; right; exact hj|left; right; exact hj|left; left; left; exact (ff_old _ _ _ _ _ _ _ hff y hq)|right; exact hr]. }
    destruct (server_sees B key _ hf hi3 i x l' gk hfs) as (inc & einc & g1 & _).
    assert (hps' : exists cx, serialize (b_env (B i)) (s_conf x) true = Ok (s, cx)) by (apply gp; reflexivity). destruct hps' as (cx & hsx).
    assert (ho : exists h a, own_part (B i) x = Ok ([(h, s)], a)).
    { unfold own_part. rewrite gq. destruct (Z.eqb_spec (s_seqno (st2 i)) 0) as [e|e]; [lia|]. cbn [negb orb]. rewrite hsx. cbn. eauto. }
    destruct ho as (h0 & a & ho).
    assert (hinc : forall y, In y (map snd ([(h0, s)] ++ inc)) -> y = s \/ (exists j, publishes (B j) (dev N j) y) \/ (exists q, Q q /\ carries B N q y)).
    { intros y hy. cbn in hy. destruct hy as [<-|hy]; [auto|]. apply in_map_iff in hy as ([h y0] & e0 & hy). cbn [snd] in e0. subst y0. destruct (g1 _ _ hy) as (q & hq & hcar).
      destruct (hon h q hq) as [(j & ->)|[(j & ->)|[hQ|hr]]].
      - right. left. exists j. apply hcj. assert (hs1 : sent (after_merge N c st1 st2) (c j)) by (right; eauto). apply (hco3 _ _ hs1) in hcar. destruct (ni_sent _ _ _ hi1 (c j)) as (s1 & hs1'); [right; eauto|].
        assert (hs2 : carries B (after_merge N c st1 st2) (c j) s1) by (destruct hs1' as (j0 & x0 & n0 & o0 & x1 & t1 & t2); exists j0, x0, n0, o0, x1; split; [cbn in *; tauto|exact t2]).
        rewrite (carries_unique B key _ _ _ _ hf hi2 hcar hs2). exact hs1'.
      - left. apply hcj3 in hcar. destruct (hag i j) as (_ & _ & _ & hz). apply hz in hcar. destruct hcar as (c1 & e1). destruct hps as (c2 & e2). congruence.
      - right. right. exists q. split; [exact hQ|]. pose proof (ff_old _ _ _ _ _ _ _ hff q hQ) as hsq. assert (hs1 : sent (after_merge N c st1 st2) q) by (left; exact hsq). apply (hco3 _ _ hs1) in hcar.
        destruct (ni_sent _ _ _ hi q hsq) as (s1 & hs1'). assert (hs2 : carries B (after_merge N c st1 st2) q s1) by (destruct hs1' as (j0 & x0 & n0 & o0 & x1 & t1 & t2); exists j0, x0, n0, o0, x1; split; [cbn in *; tauto|exact t2]).
        rewrite (carries_unique B key _ _ _ _ hf hi2 hcar hs2). exact hs1'.
      - exfalso. pose proof (carries_opens B key _ hf hi3 i x h q y gk hcar) as ho'. unfold rubbish in hr. rewrite hr in ho'. discriminate. }
    assert (hseen : forall y, In y (map snd ([(h0, s)] ++ inc)) -> seen B (after_merge N c st1 st2) y).
    { intros y hy. destruct (hinc y hy) as [->|[(j & hj)|(q & _ & hq)]]; [exists i, (st2 i); split; [right; right; reflexivity|exact hps]|exists j, (dev N j); split; [left; apply (ni_dev _ _ _ hi)|exact hj]|].
      apply carries_seen in hq as (j & z & hz & hz'). exists j, z. split; [left; exact hz|exact hz']. }
    pose proof (seen_apart B _ i _ hf hnc2 hseen) as hncx.
    destruct (habs (map snd ([(h0, s)] ++ inc)) (or_introl eq_refl) hinc) as (k & bad' & hmm).
    pose proof (life_inv1 _ _ hB (plainly_life _ _ gl)) as hi1x.
    destruct (merge_outcome (B i) x l' [(h0, s)] a inc _ _ hB hi1x (life_inv2 _ _ hB (plainly_life _ _ gl)) (life_inv7 _ _ hB (plainly_life _ _ gl)) (fl_write _ hf i) gd ltac:(rewrite gk; discriminate) ho einc hncx hmm) as (y & k1 & k2 & k3 & k4 & k5).
    { unfold m_seqno, set_unmerged in *. cbn in *. lia. }
    eexists. exists y. split; [exact k1|]. assert (hdy : s_data y = s_data (st2 i)) by (rewrite k2, <- hdM; reflexivity). split; [|split; [|split; [|split; [|split]]]].
    - apply (life_step _ _ x (OpMerge l')); [exact gl|]. apply step_run with (x := Ok tt); [cbn [run]; rewrite k1; reflexivity|split; discriminate|].
      assert (hfun : forall mine' inc', merge_sees (B i) l' x mine' inc' -> mine' = [(h0, s)] /\ inc' = inc) by (intros mine' inc' [(a' & o') i']; split; congruence).
      assert (hpar : forall h t m, In (h, t) inc -> parse_msg (b_env (B i)) false t = Ok m -> plain_msg m /\ (0 <= m_seqno m)%Z /\ serialize (b_env (B i)) (Plain m) true = Ok (t, Plain m)).
      { intros h t m hin ht. destruct (hseen t) as (j & z & hz & hz'); [apply in_map_iff; exists (h, t); split; [reflexivity|right; exact hin]|].
        destruct (writer_publish B hf i j z t (ni_life _ _ _ hi2 j z hz) hz') as (m' & q1 & q2 & _ & q3 & q4). assert (m' = m) by congruence. subst m'. auto. }
      split; [split|].
      + intros mine' inc' hsee'. apply hfun in hsee' as [-> ->]. split; [exact hncx|]. split.
        * intros h t m hin ht. apply (hpar h t m hin ht).
        * intros _ h t hin m ht. exists (Plain m). apply (hpar h t m hin ht).
      + rewrite hdy. exact (life_sendable _ _ hB (plainly_life _ _ hl2)).
      + intros mine' inc' hsee' h t m hin ht. apply hfun in hsee' as [-> ->]. apply (hpar h t m hin ht).
    - rewrite <- gk. eapply (other_op_keys (B i) (OpMerge l')); [reflexivity|cbn [run]; rewrite k1; reflexivity].
    - exact k4.
    - rewrite k3, <- r2. reflexivity.
    - exact hdy.
    - intros z. unfold publishes. rewrite k5. pose proof (serialize_set_unmerged _ (Some k) _ _ r3) as hsu. rewrite hsu. split; [intros e; congruence|intros ->; reflexivity]. }
  assert (h0 : like (st3 i)).
  { destruct (hst3 i) as (e1 & e2 & e3). assert (hpx : past (after_push (after_merge N c st1 st2) c' st3) i (st3 i)) by (right; reflexivity).
    split; [exact (ni_life _ _ _ hi3 _ _ hpx)|]. split; [exact (ni_keys _ _ _ hi3 _ _ hpx)|]. split; [exact e2|]. split; [exact e1|]. split.
    - destruct (sent_state B _ _ _ (pg_group _ _ (net_group B key _ hf hi2 hnc2 hc2)) hp2 i) as (_ & _ & _ & s0 & conf & f1 & f2 & _). cbn [dev after_merge] in f1.
      destruct (refresh_ok _ _ _ (i1_cfg _ _ (life_inv1 _ _ hB (plainly_life _ _ hl2))) (serialize_refresh _ _ _ _ _ f1)) as (_ & _ & _ & _ & _ & _ & hdat).
      assert (es : s0 = s) by (destruct hps as (cc & hps); congruence). subst s0. pose proof (parse_own _ _ _ _ _ _ _ (i1_cfg _ _ (life_inv1 _ _ hB (plainly_life _ _ hl2))) f1 hpM) as (_ & hsd & _).
      unfold s_data, s_msg in *. rewrite f2. congruence.
    - intros z. rewrite e3. split; [intros (c1 & h1); destruct hps as (c2 & h2); congruence|intros ->; exact hps]. }
  intros st4 hfe. assert (hlike : like st4).
  { induction hfe as [st|st x1 l1 y x2 hfe IH hP hmg]; [exact h0|]. specialize (IH h0). destruct (hone x1 l1 IH hP) as (hs & z & e & hz). rewrite hmg in e. injection e as _ <-. exact hz. }
  split; [|intros l' hl'; destruct (hone st4 l' hlike hl') as (hs & y & e & _); eauto].
  destruct hlike as (_ & _ & g1 & g2 & g3 & g4). split; [exact g1|]. intros j. destruct (hag i j) as (a1 & a2 & _ & a4). split; [congruence|]. split; [congruence|]. intros z. rewrite a4, g4.
  split; [intros ->; exact hps|intros (c1 & h1); destruct hps as (c2 & h2); congruence].
Qed.
