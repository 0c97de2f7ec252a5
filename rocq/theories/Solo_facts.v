(** Proofs for C100: one device edits, the others follow. *)
From Coq Require Import Lia.
From Verif Require Import SoloSpec Maps Data_facts Diff_facts Parse_facts Message_facts Wire_facts Round_facts Reach_facts Redeliver_facts Merge_facts Resolve_facts Conflict_facts Overflow_facts Replay_facts Merge2_facts Adopt_facts Crypt_facts Base_facts Dump_facts Life_facts Life2_facts Life3_facts Life4_facts Fields_facts Conf_facts Conf2_facts Conf3_facts Conf4_facts Conf5_facts Conf6_facts Converge_facts Plain_facts Net_facts Hist_facts Quiet_facts CInfo_facts.

(** [M] supersedes [x] *)
Definition over (E : env) (M x : msg) : Prop := x = M \/ listed x M \/ (m_seqno x + e_lag E <= m_seqno M)%Z.
Lemma over_seqno E M x s : (1 <= e_lag E)%Z -> parse_msg E false s = Ok M -> over E M x -> x = M \/ (m_seqno x < m_seqno M)%Z.
Proof.
  intros hl hp [h|[h|h]]; [left; exact h|right|right; lia]. pose proof (parse_msg_spec _ _ _ _ hp) as (_ & hw & _). unfold listed in h. rewrite <- hw in h. apply windowed_keys in h as [_ h]. change (fst (m_sh x)) with (m_seqno x) in h. lia.
Qed.
Lemma top_wins E l M s : (1 <= e_lag E)%Z -> no_collision E l -> In s l -> parse_msg E false s = Ok M ->
  (forall y, In y l -> exists x, parse_msg E false y = Ok x /\ int64_ok (m_seqno x + e_lag E) = true /\ over E M x) ->
  exists k bad ms, parse_all E 0 l = Ok (ms, bad) /\ nth_error ms k = Some M /\ merge_msgs E l = Ok (set_unmerged (Some k) M, bad).
Proof.
  intros hlag hnc hs hp hall. destruct (Plain_facts.parse_all_total E l) with (i := 0) as (ms & bad & hpa); [intros y hy; right; destruct (hall y hy) as (x & h & _); eauto|].
  pose proof (parsed_good _ _ _ _ _ hnc hpa) as hg. pose proof (parse_all_spec _ _ _ _ _ hpa) as hin.
  assert (hM : In M ms) by (apply hin; eauto). assert (hov : forall x, In x ms -> over E M x /\ int64_ok (m_seqno x + e_lag E) = true) by (intros x hx; apply hin in hx as (y & hy & hyx); destruct (hall y hy) as (x' & e & h1 & h2); assert (x' = x) by congruence; subst; auto).
  assert (hne : ms <> []) by (intros ->; exact hM).
  assert (hmx : max_seqno ms = m_seqno M).
  { destruct (max_seqno_in ms hne) as (z & hz & e); [intros y hy; apply (ok_seqno _ _ (g_ok _ _ hg y hy))|]. pose proof (max_seqno_ge _ _ hM). destruct (over_seqno E M z s hlag hp (proj1 (hov z hz))) as [->|h]; [exact e|lia]. }
  assert (hk : forall x, In x (kept E ms) <-> x = M).
  { intros x. rewrite (kept_In _ _ _ hg). split.
    - intros (hx & hi & ho). destruct (hov x hx) as [[h|[h|h]] _]; [exact h| |].
      + exfalso. assert (included ms x = true) by (apply included_In; exists M; auto). congruence.
      + exfalso. unfold too_old in ho. apply Z.leb_gt in ho. lia.
    - intros ->. split; [exact hM|]. split; [|unfold too_old; apply Z.leb_gt; lia].
      destruct (included ms M) eqn:Ei; [|reflexivity]. apply included_In in Ei as (m2 & h1 & h2). apply (g_old _ _ hg) in h2; [|exact h1]. change (fst (m_sh M)) with (m_seqno M) in h2. apply max_seqno_ge in h1. lia. }
  assert (hk1 : kept E ms = [M]).
  { pose proof (kept_NoDup _ _ hg) as hnd. destruct (kept E ms) as [|a r] eqn:ek; [exfalso; apply (proj2 (hk M) eq_refl)|].
    assert (a = M) by (apply hk; left; reflexivity). subst a. destruct r as [|a r]; [reflexivity|].
    assert (a = M) by (apply hk; right; left; reflexivity). subst a. inversion hnd as [|? ? hn _]. exfalso. apply hn. left. reflexivity. }
  destruct (merge_parsed_one E ms M hk1) as (i & e); [intros x hx; apply hov, hx|exact hne|].
  destruct (merge_parsed_index _ _ _ i e eq_refl) as (x & hx & ex). exists i, bad, ms. split; [exact hpa|]. split; [|apply merge_msgs_inv; eauto].
  rewrite hx. f_equal. apply (g_fun _ _ hg); [eapply nth_error_In; exact hx|exact hM|]. change (m_sh (set_unmerged (Some i) x) = m_sh (set_unmerged (Some i) M)). rewrite ex. reflexivity.
Qed.
(** ** what an object publishes *)
(** what the next message made by this one will list *)
Definition carries_on (E : env) (m : msg) (x : msg) : Prop := In (m_sh x) (keys (m_lagged m)) \/ (m_seqno x + e_lag E <= m_seqno m)%Z.
Lemma published_content B st s M : inv1 B st -> publishes B st s -> parse_msg (b_env B) false s = Ok M ->
  exists c, serialize (b_env B) (s_conf st) true = Ok (s, c) /\ m_seqno M = s_seqno st /\ m_data M = m_data (c_msg c) /\ keys (m_lagged M) = keys (windowed (b_env B) (s_msg st)).
Proof.
  intros hi (c & hs) hp. exists c. split; [exact hs|]. pose proof (parse_own _ _ _ _ _ _ _ (i1_cfg _ _ hi) hs hp) as (h1 & h2 & _ & _ & h5). pose proof (refresh_frame _ _ (serialize_refresh _ _ _ _ _ hs)) as (g1 & g2 & _).
  split; [unfold s_seqno, s_msg, m_seqno in *; congruence|]. split; [exact h2|]. rewrite h5. unfold windowed, m_seqno, s_msg. rewrite g1, g2. reflexivity.
Qed.
Lemma over_of B st s M x : inv1 B st -> publishes B st s -> parse_msg (b_env B) false s = Ok M -> (m_seqno x < s_seqno st)%Z -> carries_on (b_env B) (s_msg st) x -> over (b_env B) M x.
Proof.
  intros hi hs hp hx h. destruct (published_content _ _ _ _ hi hs hp) as (c & _ & e1 & _ & e2). unfold over, listed. rewrite e1, e2. right. destruct h as [h|h]; [|right; exact h].
  destruct (Z.le_gt_cases (m_seqno x + e_lag (b_env B)) (s_seqno st)) as [hle|hgt]; [right; exact hle|left]. apply windowed_keys. split; [exact h|]. change (fst (m_sh x)) with (m_seqno x). change (m_seqno (s_msg st)) with (s_seqno st). lia.
Qed.
Lemma over_to B st s M x : inv1 B st -> publishes B st s -> parse_msg (b_env B) false s = Ok M -> (m_seqno x < s_seqno st)%Z -> over (b_env B) M x -> carries_on (b_env B) (s_msg st) x.
Proof.
  intros hi hs hp hx h. destruct (published_content _ _ _ _ hi hs hp) as (c & _ & e1 & _ & e2). destruct h as [->|[h|h]]; [lia|left|right; change (m_seqno (s_msg st)) with (s_seqno st); lia].
  unfold listed in h. rewrite e2 in h. apply windowed_keys in h. apply h.
Qed.
(** the version after [M] *)
Lemma increment_impl_over E m M x c s : parse_msg E false s = Ok M -> m_sh M = m_sh m -> (forall k, In k (keys (m_lagged M)) -> In k (keys (m_lagged m))) -> increment_impl E m = Ok c -> over E M x ->
  carries_on E (c_msg c) x /\ m_seqno (c_msg c) = (m_seqno M + 1)%Z.
Proof.
  intros hp hsh hlag. unfold increment_impl. cbv zeta. destruct (_ || _); [discriminate|]. intros h. injection h as <-. cbn [c_msg]. assert (eq : m_seqno m = m_seqno M) by (unfold m_seqno; congruence).
  unfold carries_on. change (m_seqno (mkMsg ((m_seqno m + 1)%Z, zero_hash) (m_data m) [] (emplace (m_sh m) (m_diff m) (drop_new (m_seqno m) (drop_old (m_seqno m - e_lag E) (m_lagged m)))) (m_unknown m) (m_vsig m) (m_unmerged m))) with (m_seqno m + 1)%Z. cbn [m_lagged].
  intros ho. split; [|lia]. destruct ho as [->|[h|h]]; [left; apply emplace_keys; left; exact hsh| |right; lia].
  pose proof (parse_msg_spec _ _ _ _ hp) as (_ & hw & _). unfold listed in h. pose proof h as h0. rewrite <- hw in h0. apply windowed_keys in h0 as [_ h0].
  left. apply emplace_keys. right. apply drop_new_keeps; [apply drop_old_keeps; [apply hlag; exact h|rewrite eq; lia]|rewrite eq; lia].
Qed.
Lemma increment_over B st s M x c : inv1 B st -> honest (b_env B) (s_conf st) -> publishes B st s -> parse_msg (b_env B) false s = Ok M -> increment (b_env B) (s_conf st) = Ok c -> over (b_env B) M x ->
  carries_on (b_env B) (c_msg c) x /\ m_seqno (c_msg c) = (m_seqno M + 1)%Z.
Proof.
  intros hi hh hs hp hc ho. destruct hs as (c' & hs). pose proof (parse_own _ _ _ _ _ _ _ (i1_cfg _ _ hi) hs hp) as hsc.
  destruct (s_conf st) as [m|m o]; cbn [increment honest] in *.
  - destruct hh as (s0 & e0 & esh). rewrite hs in e0. injection e0 as <- ->. cbn [c_msg] in hsc. eapply increment_impl_over; [exact hp| | |exact hc|exact ho].
    + rewrite (parse_sh _ _ _ _ hp), esh. destruct hsc as (-> & _). reflexivity.
    + intros k hk. destruct hsc as (_ & _ & _ & _ & e). rewrite e in hk. apply windowed_keys in hk. apply hk.
  - rewrite hs in hc. cbn [bind] in hc. eapply increment_impl_over; [exact hp| | |exact hc|exact ho].
    + rewrite (parse_sh _ _ _ _ hp). cbn. destruct hsc as (-> & _). reflexivity.
    + intros k hk. destruct hsc as (_ & _ & _ & _ & e). rewrite e in hk. apply windowed_keys in hk. apply hk.
Qed.
(** an edit: either nothing happens, or there is a next version *)
Lemma edit_over B o st y st' s M : benv_ok B -> inv1 B st -> honest (b_env B) (s_conf st) -> readonly B = false -> publishes B st s -> parse_msg (b_env B) false s = Ok M -> (e_lag (b_env B) <= int64_max)%Z -> (s_seqno st < int64_max)%Z -> is_edit o = true -> run B o st = (y, st') ->
  st' = st \/ (s_state st' = Dirty /\ (s_state st = Dirty -> s_seqno st' = s_seqno st /\ m_lagged (s_msg st') = m_lagged (s_msg st)) /\
    (s_state st <> Dirty -> s_seqno st' = (m_seqno M + 1)%Z /\ forall x, over (b_env B) M x -> carries_on (b_env B) (s_msg st') x)).
Proof.
  intros hB hi hh hw hs hp hl1 hl2 ho hr. apply edit_op_spec in hr; [|exact ho]. destruct hr as [(_ & ->)|(f & hr)]; [left; reflexivity|].
  assert (hd : forall z st2, dirty B st = (z, st2) -> st2 = st \/ (s_state st2 = Dirty /\ (s_state st = Dirty -> s_seqno st2 = s_seqno st /\ m_lagged (s_msg st2) = m_lagged (s_msg st)) /\
    (s_state st <> Dirty -> s_seqno st2 = (m_seqno M + 1)%Z /\ forall x, over (b_env B) M x -> carries_on (b_env B) (s_msg st2) x))).
  { intros z st2 g. apply dirty_spec in g as [(_ & -> & _)|[(_ & _ & _ & ->)|(hn & _ & st3 & g & g2)]]; [left; reflexivity|left; reflexivity|].
    apply set_state_spec in g as [(g & _)|(_ & gc & gs & _)]; [discriminate|].
    destruct g2 as [(c & hc & -> & ->)|(hx1 & hx2 & ->)].
    - right. split; [exact gs|]. split; [intros e; contradiction|]. intros _. split.
      + destruct (increment_over B st s M M c hi hh hs hp hc (or_introl eq_refl)) as [_ e]. exact e.
      + intros x hx. destruct (increment_over B st s M x c hi hh hs hp hc hx) as [e _]. exact e.
    - exfalso. destruct (increment_total B st hB hl1 hi hl2) as (c & hc). exact (hx1 c hc). }
  apply edit_spec in hr as [(_ & g)|(st1 & m & o1 & g & gc & _ & ->)]; [exact (hd _ _ g)|]. right.
  assert (em : forall st0, s_seqno (set_conf (Mut (set_data m (f (m_data m))) o1) st0) = m_seqno m /\ s_msg (set_conf (Mut (set_data m (f (m_data m))) o1) st0) = set_data m (f (m_data m))) by (intros; split; reflexivity).
  assert (e1 : s_msg st1 = m) by (unfold s_msg; rewrite gc; reflexivity). assert (e2 : s_seqno st1 = m_seqno m) by (unfold s_seqno; rewrite e1; reflexivity).
  assert (hdd : s_state st1 = Dirty). { apply dirty_spec in g as [(g & -> & _)|[(_ & _ & g & _)|(_ & _ & st3 & g & [(c & _ & _ & ->)|(_ & g2 & _)])]]; [exact g|discriminate| |]; [apply set_state_spec in g as [(g & _)|(_ & _ & g & _)]; [discriminate|exact g]|destruct (increment (b_env B) (s_conf st)); discriminate]. }
  destruct (em st1) as [q1 q2]. rewrite q1, q2. split; [exact hdd|]. change (m_lagged (set_data m (f (m_data m)))) with (m_lagged m).
  assert (hcar : forall x, carries_on (b_env B) (set_data m (f (m_data m))) x <-> carries_on (b_env B) (s_msg st1) x) by (intros x; rewrite e1; reflexivity).
  destruct (hd _ _ g) as [->|(_ & h1 & h2)].
  - split; [intros _; split; congruence|]. intros hn. contradiction.
  - rewrite e1 in h1. split; [intros hy; destruct (h1 hy); split; congruence|]. intros hn. destruct (h2 hn) as [a1 a2]. split; [congruence|]. intros x hx. apply hcar, a2, hx.
Qed.
(** ** calls that change nothing *)
Definition same_conf (B : benv) (st st' : bstate) : Prop := s_conf st' = s_conf st \/ exists s c, serialize (b_env B) (s_conf st) true = Ok (s, c) /\ s_conf st' = c.
Lemma same_publishes B st st' z : same_conf B st st' -> publishes B st' z <-> publishes B st z.
Proof.
  unfold publishes. intros [->|(s & c & e & ->)]; [reflexivity|]. pose proof (serialize_idem _ _ _ _ _ e) as e'. split; intros (c1 & h); [exists c; congruence|exists c; congruence].
Qed.
Lemma same_shown B st st' s M : inv1 B st -> same_conf B st st' -> publishes B st s -> parse_msg (b_env B) false s = Ok M -> s_data st' = s_data st \/ s_data st' = m_data M.
Proof.
  intros hi [e|(s0 & c & e & e')] hs hp; [left; unfold s_data, s_msg; congruence|]. destruct (published_content _ _ _ _ hi hs hp) as (c1 & g1 & _ & g2 & _). rewrite e in g1. injection g1 as <- <-. right. unfold s_data, s_msg. congruence.
Qed.
Lemma push_same B st x st' : push B st = (x, st') -> same_conf B st st' /\ (s_state st' = s_state st \/ s_state st' <> Dirty) /\ (forall y, x = Ok y -> s_state st' <> Dirty /\ exists s c, serialize (b_env B) (s_conf st) true = Ok (s, c) /\ s_conf st' = c).
Proof.
  intros h. apply push_spec in h as [(hx & [->|(s & c & g & ->)])|(k & s & conf & c & st2 & _ & g & _ & _ & g2 & _ & ->)].
  - split; [left; reflexivity|]. split; [left; reflexivity|]. intros y e. destruct (hx y e).
  - split; [right; eauto|]. split; [left; reflexivity|]. intros y e. destruct (hx y e).
  - assert (hc : s_conf (set_old [] st2) = conf /\ s_state (set_old [] st2) <> Dirty).
    { destruct g2 as [(hd & g2)|(hd & ->)].
      - apply set_state_spec in g2 as [(g2 & _)|(_ & g2 & g3 & _)]; [discriminate|]. split; [exact g2|]. cbn. congruence.
      - split; [reflexivity|]. intros e. unfold is_dirty in hd. cbn in hd, e. rewrite e in hd. discriminate. }
    destruct hc as [hc hd]. split; [right; exists s, conf; split; [exact g|exact hc]|]. split; [right; exact hd|]. intros _ _. split; [exact hd|]. exists s, conf. split; [exact g|exact hc].
Qed.
Lemma confirm_same B n h0 st x st' : confirm_pushed B n h0 st = (x, st') -> same_conf B st st' /\ (s_state st' = s_state st \/ s_state st' <> Dirty).
Proof. intros h. apply confirm_spec in h as [_ [(_ & ->)|(_ & _ & ->)]]; (split; [left; reflexivity|]); [left; reflexivity|right; discriminate]. Qed.
Lemma dump_same B st x st' : e_signer (b_env B) = None -> dump B st = (x, st') -> same_conf B st st' /\ (s_state st' = s_state st \/ s_state st' <> Dirty).
Proof.
  intros hg h. apply dump_spec in h. cbv zeta in h. destruct h as [(s & c & g & _ & ->)|(_ & ->)].
  - split; [right|left; destruct (readonly B); reflexivity]. exists s, c. rewrite (unsigned_serialize _ _ _ hg) in g. split; [|reflexivity]. destruct (readonly B); exact g.
  - split; [left; destruct (readonly B); reflexivity|left; destruct (readonly B); reflexivity].
Qed.
(** ** restarting *)
Lemma restore_unsigned B st d st1 ks st' s M : benv_ok B -> life B tame st -> e_verifier (b_env B) = None -> e_signer (b_env B) = None ->
  dump B st = (Ok d, st1) -> (N.of_nat (length d) <= uint64_max)%N -> restore B ks d = Ok st' -> publishes B st s -> parse_msg (b_env B) false s = Ok M ->
  s_state st' = s_state st /\ (s_state st <> Dirty -> s_conf st' = Plain M) /\ (s_state st = Dirty -> increment_impl (b_env B) (set_unmerged (Some 0) M) = Ok (s_conf st')).
Proof.
  intros hB hl hv hg hd hn hr hpub hpM. pose proof (life_inv1 _ _ hB hl) as hi. destruct (restore_spec _ _ _ _ _ _ (i1_0 _ _ hi) hd hn hr) as (s1 & c' & conf & hs & hc & ->).
  rewrite (unsigned_store _ hv hg) in hc. pose proof hs as hs0. rewrite (unsigned_serialize _ _ _ hg) in hs. assert (es : s1 = s) by (destruct hpub as (c1 & e1); congruence). subst s1.
  assert (hsc : same_content (b_env B) (c_msg c') M) by (exact (parse_own _ _ _ _ _ _ _ (i1_cfg _ _ hi) hs hpM)).
  assert (hpl : (exists m, parse_msg (b_env B) true s = Ok m /\ conf = Plain m) -> conf = Plain M).
  { intros (m & pm & ->). destruct (store_parse _ _ _ _ _ true (i1_cfg _ _ hi) hs0) as (m' & p1 & p2 & _ & p3). rewrite (unsigned_store _ hv hg), pm in p1. injection p1 as <-.
    destruct (store_parse _ _ _ _ _ false (i1_cfg _ _ hi) hs0) as (y' & r1 & _ & r3 & _). rewrite (unsigned_store _ hv hg), hpM in r1. injection r1 as <-.
    assert (e : m = M).
    { destruct p2 as (e1 & e2 & e3 & e4 & e5), hsc as (f1 & f2 & f3 & f4 & f5). pose proof (parse_sh _ _ _ _ pm) as g1. pose proof (parse_sh _ _ _ _ hpM) as g2.
      assert (g3 : m_vsig m = m_vsig M). { rewrite (p3 eq_refl eq_refl), (r3 eq_refl). eapply refresh_vsig; [eapply serialize_refresh; exact hs|]. exact (life_inv7 _ _ hB hl hv). }
      assert (g4 : m_unmerged m = m_unmerged M) by (apply parse_msg_spec in pm as (_ & _ & _ & -> & _); apply parse_msg_spec in hpM as (_ & _ & _ & -> & _); reflexivity).
      assert (g5 : m_sh m = m_sh M) by (rewrite g1, g2, e1, f1; reflexivity).
      destruct m, M; cbn in *. congruence. }
    subst m. reflexivity. }
  split; [reflexivity|]. destruct (s_state st) eqn:est; cbn [s_conf]; (split; [intros hnd|intros hdd]); try congruence; try (apply hpl; exact hc).
  unfold mutable_of in hc. ok_inv hc. ok_inv hc. apply merge_parsed_single in ha0. subst a0. assert (ea : a = M) by congruence. subst a. exact hc.
Qed.
(** ** merging *)
(** not dirty: the topmost message wins *)
Lemma merge_clean B st l mine a inc x st' s M : benv_ok B -> life B tame st -> readonly B = false -> s_state st <> Dirty -> s_keys st <> [] ->
  own_part B st = Ok (mine, a) -> incoming B (s_keys st) (map (unwrap1 B st) l) = Ok inc -> no_collision (b_env B) (map snd (mine ++ inc)) ->
  In s (map snd (mine ++ inc)) -> parse_msg (b_env B) false s = Ok M -> serialize (b_env B) (Plain M) true = Ok (s, Plain M) -> (0 <= m_seqno M)%Z ->
  (forall y, In y (map snd (mine ++ inc)) -> exists z, parse_msg (b_env B) false y = Ok z /\ int64_ok (m_seqno z + e_lag (b_env B)) = true /\ over (b_env B) M z) ->
  merge B l st = (x, st') ->
  s_state st' <> Dirty /\ ((s_conf st' = s_conf st /\ s_seqno st = 0%Z /\ m_seqno M = 0%Z) \/ (s_data st' = m_data M /\ s_seqno st' = m_seqno M /\ forall z, publishes B st' z <-> z = s)).
Proof.
  intros hB hl hw hnd hk ho hinc hnc hs hp hser h0 hall hm. pose proof (life_inv1 _ _ hB hl) as hi.
  destruct (top_wins _ _ M s (bo_lag _ hB) hnc hs hp hall) as (k & bad & ms & _ & _ & hmm).
  destruct (Z.eq_dec (m_seqno M) 0) as [hz|hz].
  - assert (hmine : s_seqno st = 0%Z /\ mine = [] /\ a = st).
    { pose proof ho as ho0. apply own_part_spec in ho as [(hc & ho)|(hc & s1 & c & e & ho)]; injection ho as -> ->.
      - apply andb_true_iff in hc as [hc _]. apply Z.eqb_eq in hc. auto.
      - exfalso. destruct (hall s1) as (z & pz & _ & hoz); [left; reflexivity|]. destruct (published_content B st s1 z hi ltac:(exists c; exact e) pz) as (_ & _ & eq & _).
        pose proof (i1_nonneg _ _ hi) as hn. assert (hle : (m_seqno z <= 0)%Z) by (destruct (over_seqno _ _ _ _ (bo_lag _ hB) hp hoz) as [->|?]; lia).
        assert (hsz : s_seqno st = 0%Z) by lia. rewrite hsz in hc. unfold is_dirty in hc. destruct (s_state st); [discriminate|congruence|discriminate]. }
    destruct hmine as (hq & -> & ->). cbn [app] in *. unfold merge, merge_plain in hm. destruct (s_keys st) as [|k0 ks]; [congruence|]. rewrite ho, hinc in hm. cbn [app] in hm.
    assert (ed : is_dirty st = false) by (unfold is_dirty; destruct (s_state st); congruence). rewrite ed in hm. unfold merge_confs in hm. rewrite hmm in hm. cbn [bind fst snd] in hm. unfold adopt in hm. cbn [c_msg] in hm.
    change (m_seqno (set_unmerged (Some k) M)) with (m_seqno M) in hm. rewrite hz, hq in hm. cbn [Z.eqb] in hm. injection hm as _ <-. split; [exact hnd|]. left. split; [reflexivity|]. split; [exact hq|exact hz].
  - destruct (merge_outcome B st l mine a inc _ _ hB hi (life_inv2 _ _ hB hl) (life_inv7 _ _ hB hl) hw hnd hk ho hinc hnc hmm hz) as (st2 & k1 & k2 & k3 & k4 & k5). cbn [m_unmerged set_unmerged] in *.
    rewrite hm in k1. injection k1 as _ ->. split; [exact k4|]. right. split; [exact k2|]. split; [exact k3|].
    intros z. unfold publishes. rewrite k5. pose proof (serialize_set_unmerged _ (Some k) _ _ hser) as hsu. rewrite hsu. split; [intros e; congruence|intros ->; reflexivity].
Qed.
(** dirty, with a message above all others: nothing happens *)
Lemma merge_dirty B st l mine a inc x st' s M : benv_ok B -> inv1 B st -> s_state st = Dirty ->
  own_part B st = Ok (mine, a) -> incoming B (s_keys st) (map (unwrap1 B st) l) = Ok inc -> no_collision (b_env B) (map snd (mine ++ inc)) ->
  publishes B st s -> parse_msg (b_env B) false s = Ok M -> int64_ok (m_seqno M + e_lag (b_env B)) = true ->
  (forall y, In y (map snd inc) -> exists z, parse_msg (b_env B) false y = Ok z /\ int64_ok (m_seqno z + e_lag (b_env B)) = true /\ over (b_env B) M z /\ (m_seqno z < m_seqno M)%Z) ->
  merge B l st = (x, st') -> same_conf B st st' /\ s_state st' = Dirty.
Proof.
  intros hB hi hd ho hinc hnc hpub hp h64 hall hm. pose proof hpub as (c & hser). assert (ed : is_dirty st = true) by (unfold is_dirty; rewrite hd; reflexivity).
  assert (hmine : mine = [(s_curr st, s)] /\ a = set_conf c st).
  { apply own_part_spec in ho as [(hc & _)|(hc & s1 & c1 & e & ho)]; [rewrite ed, andb_false_r in hc; discriminate|]. injection ho as -> ->. split; congruence. }
  destruct hmine as [-> ->]. cbn [map app snd] in hnc.
  destruct (published_content B st s M hi hpub hp) as (_ & _ & eq & _).
  destruct (top_wins (b_env B) (s :: map snd inc) M s (bo_lag _ hB) hnc (or_introl eq_refl) hp) as (k & bad & ms & hpa & hnth & hmm).
  { intros y [<-|hy]; [exists M; split; [exact hp|]; split; [exact h64|left; reflexivity]|]. destruct (hall y hy) as (z & z1 & z2 & z3 & _). eauto. }
  assert (hk : k = 0).
  { cbn [parse_all] in hpa. rewrite hp in hpa. ok_inv hpa. destruct a as [ms' bad']. injection hpa as <- <-. destruct k as [|k]; [reflexivity|]. cbn [nth_error] in hnth. apply nth_error_In in hnth.
    apply (parse_all_spec _ _ _ _ _ ha) in hnth as (y & hy & hyM). destruct (hall y hy) as (z & z1 & _ & _ & z4). assert (z = M) by congruence. subst z. lia. }
  subst k. unfold merge, merge_plain in hm. destruct (s_keys st) as [|k0 ks]; [injection hm as _ <-; split; [left; reflexivity|exact hd]|]. rewrite ho, hinc in hm. cbn [app map snd] in hm. rewrite ed in hm.
  assert (hc1 : same_conf B st (set_conf c st)) by (right; exists s, c; split; [exact hser|reflexivity]).
  unfold merge_confs, merge_mutable in hm. rewrite hmm in hm. cbn [bind m_unmerged set_unmerged] in hm.
  destruct (increment_impl (b_env B) (set_unmerged (Some 0) M)) as [c2| | | |] eqn:ei; cbn [bind] in hm; try (injection hm as _ <-; split; [exact hc1|exact hd]).
  assert (e2 : m_seqno (c_msg c2) = (m_seqno M + 1)%Z /\ m_unmerged (c_msg c2) = Some 0) by (unfold increment_impl in ei; cbv zeta in ei; destruct (_ || _); [discriminate|]; injection ei as <-; split; reflexivity). destruct e2 as [e2 e3].
  unfold adopt in hm. rewrite e2, e3, eq in hm. destruct (Z.eqb_spec (s_seqno st + 1) (s_seqno st)) as [e|_]; [lia|]. rewrite Z.eqb_refl in hm.
  match type of hm with context [is_dirty ?y] => change (is_dirty y) with (is_dirty st) in hm end. rewrite ed in hm. cbn [andb Nat.eqb] in hm. injection hm as _ <-. split; [right; exists s, c; split; [exact hser|reflexivity]|exact hd].
Qed.

(** ** the whole system *)
Definition known {I : Type} (B : I -> benv) key (w : I) (N : net I) (s : bytes) : Prop := (exists c, sent N c /\ carries B N c s) \/ publishes (B w) (fresh (B w) [key]) s.
Record solo_inv {I : Type} (B : I -> benv) key (w : I) (N : net I) : Prop := {
  so_writer : forall s M t x, publishes (B w) (dev N w) s -> parse_msg (b_env (B w)) false s = Ok M -> known B key w N t -> parse_msg (b_env (B w)) false t = Ok x ->
    over (b_env (B w)) M x /\ (s_state (dev N w) = Dirty -> (m_seqno x < m_seqno M)%Z);
  so_total : forall s M t x, known B key w N s -> parse_msg (b_env (B w)) false s = Ok M -> known B key w N t -> parse_msg (b_env (B w)) false t = Ok x -> over (b_env (B w)) M x \/ over (b_env (B w)) x M;
  so_reader : forall j x, j <> w -> past N j x -> s_state x <> Dirty /\ exists s M, known B key w N s /\ publishes (B j) x s /\ parse_msg (b_env (B w)) false s = Ok M /\ m_data M = s_data x;
  so_source : forall s M, known B key w N s -> parse_msg (b_env (B w)) false s = Ok M -> exists y, past N w y /\ s_state y <> Dirty /\ publishes (B w) y s /\ s_data y = m_data M
}.
(** every known message is above or below a finite list of known messages: one of them is on top *)
Lemma top_exists E (P : bytes -> Prop) l : (1 <= e_lag E)%Z -> l <> [] -> (forall y, In y l -> P y) -> (forall y, P y -> exists x, parse_msg E false y = Ok x) ->
  (forall s M t x, P s -> parse_msg E false s = Ok M -> P t -> parse_msg E false t = Ok x -> over E M x \/ over E x M) ->
  exists s M, In s l /\ parse_msg E false s = Ok M /\ forall y x, In y l -> parse_msg E false y = Ok x -> over E M x.
Proof.
  intros hlag hne hP hpar htot.
  assert (h : exists s M, In s l /\ parse_msg E false s = Ok M /\ forall y x, In y l -> parse_msg E false y = Ok x -> (m_seqno x <= m_seqno M)%Z).
  { clear htot. induction l as [|s0 l IH]; [congruence|]. destruct (hpar s0 (hP s0 (or_introl eq_refl))) as (M0 & p0). destruct l as [|s1 l].
    - exists s0, M0. split; [left; reflexivity|]. split; [exact p0|]. intros y x [<-|[]] hx. assert (x = M0) by congruence. subst. lia.
    - destruct IH as (s & M & h1 & h2 & h3); [discriminate|intros y hy; apply hP; right; exact hy|]. destruct (Z.le_gt_cases (m_seqno M0) (m_seqno M)) as [hle|hgt].
      + exists s, M. split; [right; exact h1|]. split; [exact h2|]. intros y x [<-|hy] hx; [assert (x = M0) by congruence; subst; exact hle|exact (h3 y x hy hx)].
      + exists s0, M0. split; [left; reflexivity|]. split; [exact p0|]. intros y x [<-|hy] hx; [assert (x = M0) by congruence; subst; lia|]. pose proof (h3 y x hy hx). lia. }
  destruct h as (s & M & h1 & h2 & h3). exists s, M. split; [exact h1|]. split; [exact h2|]. intros y x hy hx. destruct (htot s M y x (hP s h1) h2 (hP y hy) hx) as [h|h]; [exact h|].
  destruct (over_seqno E x M y hlag hx h) as [->|hlt]; [left; reflexivity|]. pose proof (h3 y x hy hx). lia.
Qed.
Section system.
Context {I : Type} (B : I -> benv) (key : bytes) (w : I).
Hypothesis hf : fleet B.
Hypothesis hu : unsigned_fleet B.
Notation E := (b_env (B w)).
Lemma unsigned_g i : e_signer (b_env (B i)) = None.
Proof. apply unsigned_signer; assumption. Qed.
(** what a merge gets *)
Lemma merge_gets (N : net I) i st l : net_inv B key N -> s_keys st = [key] -> from_server (sent N) (B i) st l ->
  exists inc, incoming (B i) (s_keys st) (map (unwrap1 (B i) st) l) = Ok inc /\
    (forall h s, In (h, s) inc -> known B key w N s) /\ (forall h c s, In (h, c) l -> carries B N c s -> In (h, s) inc).
Proof.
  intros hi hk hs. destruct (server_sees B key N hf hi i st l hk hs) as (inc & e & h1 & h2). exists inc. split; [exact e|]. split; [|exact h2].
  intros h s hin. destruct (h1 _ _ hin) as (c & hc & hcar). left. exists c. split; [|exact hcar]. destruct (hs _ _ hc) as [g|g]; [exact g|].
  exfalso. pose proof (carries_opens B key N hf hi i st h c s hk hcar) as ho. unfold rubbish in g. rewrite g in ho. discriminate.
Qed.
Lemma fresh_publishes i j z : publishes (B i) (fresh (B i) [key]) z <-> publishes (B j) (fresh (B j) [key]) z.
Proof. unfold publishes, fresh. cbn [s_conf]. rewrite (fl_same _ hf i j). reflexivity. Qed.
Lemma past_fresh (N : net I) i : net_run B key N -> past N i (fresh (B i) [key]).
Proof. intros h. induction h as [N h|N k es cs N' h IH hs]; [apply (n0_past _ _ _ h); reflexivity|]. apply (ns_past _ _ _ _ _ _ _ hs). left. exact IH. Qed.
Lemma known_read (N : net I) s : net_run B key N -> no_clash B N -> few_calls B N -> known B key w N s ->
  seen B N s /\ exists m, parse_msg E false s = Ok m /\ serialize E (Plain m) true = Ok (s, Plain m) /\ (0 <= m_seqno m)%Z /\ int64_ok (m_seqno m + e_lag E) = true.
Proof.
  intros hr hnc hc hk. pose proof (net_run_inv B key N hf hr hnc) as hi. assert (hs : seen B N s) by (destruct hk as [(c & _ & hk)|hk]; [eapply carries_seen; exact hk|exists w, (fresh (B w) [key]); split; [apply past_fresh; exact hr|exact hk]]).
  split; [exact hs|]. destruct hs as (j & x & hx & hpub). destruct (writer_publish B hf w j x s (ni_life _ _ _ hi j x hx) hpub) as (m & q1 & _ & q3 & q4 & q5).
  exists m. split; [exact q1|]. split; [exact q5|]. split; [exact q4|]. pose proof (few_room B key N hf hi hc w j x hx) as hro. pose proof (bo_lag _ (fl_env _ hf w)) as hl. apply int64_ok_spec. lia.
Qed.
Lemma state_publishes (N : net I) i x : net_run B key N -> no_clash B N -> few_calls B N -> past N i x -> exists s M, publishes (B i) x s /\ parse_msg E false s = Ok M /\ serialize E (Plain M) true = Ok (s, Plain M) /\ m_seqno M = s_seqno x.
Proof.
  intros hr hnc hc hx. pose proof (net_run_inv B key N hf hr hnc) as hi. pose proof (fl_env _ hf i) as hB. pose proof (ni_life _ _ _ hi i x hx) as hl.
  pose proof (life_inv1 _ _ hB (plainly_life _ _ hl)) as hi1. pose proof (few_room B key N hf hi hc i i x hx) as hro. pose proof (i1_nonneg _ _ hi1) as hn. pose proof (bo_lag _ hB) as hlag.
  destruct (serialize_total (B i) x true hB hi1) as (s & c & e); [unfold int64_max; lia|]. assert (hp : publishes (B i) x s) by (exists c; exact e).
  destruct (writer_publish B hf w i x s hl hp) as (m & q1 & _ & q3 & _ & q5). eauto 6.
Qed.
(** what becomes known *)
Lemma known_mono (N N' : net I) i es cs s : net_step B key N N' i es cs -> known B key w N s -> known B key w N' s.
Proof.
  intros hs [(c & h1 & (j & x & n & o & x' & g1 & g2))|h]; [left|right; exact h]. exists c. split; [apply (ns_sent _ _ _ _ _ _ _ hs); auto|]. exists j, x, n, o, x'. split; [apply (ns_past _ _ _ _ _ _ _ hs); auto|exact g2].
Qed.
Lemma known_new (N N' : net I) i es cs s : net_inv B key N -> net_inv B key N' -> net_step B key N N' i es cs -> known B key w N' s -> known B key w N s \/ exists c, In c cs /\ carries B N' c s.
Proof.
  intros hi hi' hs [(c & h1 & h2)|h]; [|left; right; exact h]. apply (ns_sent _ _ _ _ _ _ _ hs) in h1 as [h1|h1]; [right; eauto|]. left. left. exists c. split; [exact h1|].
  destruct (ni_sent _ _ _ hi c h1) as (s1 & hs1). assert (hs1' : carries B N' c s1) by (destruct hs1 as (j & x & n & o & x' & g1 & g2); exists j, x, n, o, x'; split; [apply (ns_past _ _ _ _ _ _ _ hs); auto|exact g2]).
  rewrite (carries_unique B key N' c s s1 hf hi' h2 hs1'). exact hs1.
Qed.
(** a call that pushes *)
Lemma pushed_carries (N N' : net I) i es cs n c o st' s : net_inv B key N -> net_inv B key N' -> net_step B key N N' i es cs -> push (B i) (dev N i) = (Ok (n, c, o), st') -> carries B N' c s -> publishes (B i) (dev N i) s.
Proof.
  intros hi hi' hs hp hc. pose proof hp as hp0. apply push_spec in hp0 as [(hx & _)|(k & s1 & conf & c1 & st2 & _ & hser & _)]; [exfalso; eapply hx; reflexivity|].
  assert (h1 : carries B N' c s1) by (exists i, (dev N i), n, o, st'; split; [apply (ns_past _ _ _ _ _ _ _ hs); left; apply (ni_dev _ _ _ hi)|]; split; [exact hp|exists conf; exact hser]).
  rewrite (carries_unique B key N' c s s1 hf hi' hc h1). exists conf. exact hser.
Qed.
(** the other devices *)
Definition total (N : net I) : Prop := forall s M t x, known B key w N s -> parse_msg E false s = Ok M -> known B key w N t -> parse_msg E false t = Ok x -> over E M x \/ over E x M.
Definition follower (N : net I) i (y : bstate) : Prop := s_state y <> Dirty /\ exists s M, known B key w N s /\ publishes (B i) y s /\ parse_msg E false s = Ok M /\ m_data M = s_data y.
Lemma clean_call (N : net I) i (H : bstate -> Prop) cs st' : net_run B key N -> no_clash B N -> few_calls B N -> total N -> (forall y, H y -> past N i y /\ follower N i y) -> follower N i (dev N i) -> listens (B i) key (sent N) H (dev N i) cs st' ->
  s_state st' <> Dirty /\ exists s M, known B key w N s /\ publishes (B i) st' s /\ parse_msg E false s = Ok M /\ m_data M = s_data st'.
Proof.
  intros hr hnc hc hto hH hdev hli. pose proof (net_run_inv B key N hf hr hnc) as hi. pose proof (ni_dev _ _ _ hi i) as hp. pose proof (fl_env _ hf i) as hB. assert (eE : b_env (B i) = E) by apply (fl_same _ hf).
  destruct hdev as (hnd & s & M & hk & hpub & hpM & hdat). pose proof (ni_life _ _ _ hi i _ hp) as hl. pose proof (life_inv1 _ _ hB (plainly_life _ _ hl)) as hi1.
  assert (hsame : forall st2, same_conf (B i) (dev N i) st2 -> (s_state st2 = s_state (dev N i) \/ s_state st2 <> Dirty) -> s_state st2 <> Dirty /\ exists s M, known B key w N s /\ publishes (B i) st2 s /\ parse_msg E false s = Ok M /\ m_data M = s_data st2).
  { intros st2 h1 h2. split; [destruct h2 as [->|h2]; assumption|]. exists s, M. split; [exact hk|]. split; [apply (same_publishes _ _ _ s h1), hpub|]. split; [exact hpM|].
    destruct (same_shown (B i) _ _ s M hi1 h1 hpub) as [->| ->]; [rewrite eE; exact hpM|exact hdat|reflexivity]. }
  destruct hli as [x st' e _|n h x st' e _|l x st' hs e hret|x st' e _|y d st1 st' hy e1 e2 e3].
  - apply push_same in e as (g1 & g2 & _). apply hsame; assumption.
  - apply confirm_same in e as (g1 & g2). apply hsame; assumption.
  - destruct (merge_gets N i (dev N i) l hi (ni_keys _ _ _ hi i _ hp) hs) as (inc & hinc & hin & _).
    destruct (own_part (B i) (dev N i)) as [[mine a]| | | |] eqn:ho; try (unfold own_part in ho; destruct (_ || _) in ho; [|discriminate]; destruct hpub as (c0 & e0); rewrite e0 in ho; discriminate).
    assert (hall : forall y, In y (map snd (mine ++ inc)) -> known B key w N y).
    { intros y hy. rewrite map_app in hy. apply in_app_iff in hy as [hy|hy].
      - apply own_part_spec in ho as [(_ & ho)|(_ & s1 & c1 & e1 & ho)]; injection ho as -> ->; [destruct hy|]. destruct hy as [<-|[]]. destruct hpub as (c0 & e0). cbn [snd]. assert (s1 = s) by congruence. subst s1. exact hk.
      - apply in_map_iff in hy as ([h y0] & ey & hy). cbn [snd] in ey. subst y0. exact (hin _ _ hy). }
    destruct (map snd (mine ++ inc)) as [|y0 r0] eqn:em.
    + assert (hmi : mine = [] /\ inc = []) by (apply map_eq_nil in em; apply app_eq_nil in em; exact em). destruct hmi as [-> ->].
      assert (ea : a = dev N i) by (apply own_part_spec in ho as [(_ & ho)|(_ & s1 & c1 & e1 & ho)]; [congruence|discriminate ho]). subst a.
      unfold merge, merge_plain in e. destruct (s_keys (dev N i)) as [|k0 ks] eqn:ek; [injection e as _ <-; apply hsame; [left; reflexivity|left; reflexivity]|]. rewrite ho, hinc in e. cbn [app map] in e.
      assert (ed : is_dirty (dev N i) = false) by (unfold is_dirty; destruct (s_state (dev N i)); congruence). rewrite ed in e. cbn in e. injection e as _ <-. apply hsame; [left; reflexivity|left; reflexivity].
    + rewrite <- em in hall. assert (hne : map snd (mine ++ inc) <> []) by (rewrite em; discriminate).
      destruct (top_exists E (known B key w N) (map snd (mine ++ inc)) (bo_lag _ (fl_env _ hf w)) hne hall) as (t & T & ht & hpT & htop).
      { intros y hy. destruct (known_read N y hr hnc hc hy) as (_ & m & q & _). eauto. }
      { intros a1 a2 a3 a4 g1 g2 g3 g4. exact (hto a1 a2 a3 a4 g1 g2 g3 g4). }
      destruct (known_read N t hr hnc hc (hall t ht)) as (_ & T' & q1 & q2 & q3 & _). assert (T' = T) by congruence. subst T'.
      assert (hncl : no_collision (b_env (B i)) (map snd (mine ++ inc))) by (apply (seen_apart B N i _ hf hnc); intros y hy; apply (known_read N y hr hnc hc (hall y hy))).
      destruct (merge_clean (B i) (dev N i) l mine a inc x st' t T hB (plainly_life _ _ hl) (fl_write _ hf i) hnd) as (k1 & k2); try assumption; try (rewrite eE; assumption).
      { rewrite (ni_keys _ _ _ hi i _ hp). discriminate. }
      { rewrite eE. intros y hy. destruct (known_read N y hr hnc hc (hall y hy)) as (_ & m & g1 & _ & _ & g4). exists m. split; [exact g1|]. split; [exact g4|exact (htop y m hy g1)]. }
      destruct k2 as [(k2 & _)|(k2 & _ & k3)]; [apply hsame; [left; exact k2|right; exact k1]|]. split; [exact k1|]. exists t, T. split; [exact (hall t ht)|]. split; [apply k3; reflexivity|]. split; [exact hpT|congruence].
  - apply dump_same in e as (g1 & g2); [|apply unsigned_g]. apply hsame; assumption.
  - destruct (hH _ hy) as (hyp & ynd & sy & My & yk & ypub & ypM & ydat). pose proof (ni_life _ _ _ hi i _ hyp) as yl.
    destruct (restore_unsigned (B i) y d st1 [key] st' sy My hB (plainly_life _ _ yl) (hu i) (unsigned_g i) e1 e2 e3 ypub) as (g1 & g2 & _); [rewrite eE; exact ypM|]. rewrite g1. split; [exact ynd|].
    specialize (g2 ynd). exists sy, My. split; [exact yk|]. destruct (known_read N sy hr hnc hc yk) as (_ & m & q1 & q2 & _). assert (m = My) by congruence. subst m.
    split; [exists (Plain My); rewrite g2, eE; exact q2|]. split; [exact ypM|]. unfold s_data, s_msg. rewrite g2. reflexivity.
Qed.
Lemma other_call (N : net I) i cs st' : net_run B key N -> no_clash B N -> few_calls B N -> solo_inv B key w N -> i <> w -> listens (B i) key (sent N) (past N i) (dev N i) cs st' ->
  s_state st' <> Dirty /\ exists s M, known B key w N s /\ publishes (B i) st' s /\ parse_msg E false s = Ok M /\ m_data M = s_data st'.
Proof.
  intros hr hnc hc hso hiw. assert (hfo : forall y, past N i y -> follower N i y) by (intros y hy; exact (so_reader _ _ _ _ hso i y hiw hy)).
  apply clean_call; try assumption; [exact (so_total _ _ _ _ hso)|intros y hy; auto|apply hfo, (ni_dev _ _ _ (net_run_inv B key N hf hr hnc))].
Qed.
(** the writer *)
Lemma own_call (N : net I) cs st' s M : net_run B key N -> no_clash B N -> few_calls B N -> (forall t x, known B key w N t -> parse_msg E false t = Ok x -> over E M x /\ (s_state (dev N w) = Dirty -> (m_seqno x < m_seqno M)%Z)) -> publishes (B w) (dev N w) s -> parse_msg E false s = Ok M ->
  listens (B w) key (sent N) (fun y => y = dev N w) (dev N w) cs st' ->
  ((forall z, publishes (B w) st' z <-> publishes (B w) (dev N w) z) /\ (s_state st' = Dirty -> s_state (dev N w) = Dirty) /\ (cs <> [] -> s_state st' <> Dirty /\ s_data st' = m_data M) /\ (s_data st' = s_data (dev N w) \/ s_data st' = m_data M) /\ (s_state (dev N w) = Dirty -> cs = [] -> s_state st' = Dirty)) \/
  (s_state st' = Dirty /\ s_state (dev N w) = Dirty /\ cs = [] /\ s_seqno st' = (m_seqno M + 1)%Z /\ (forall x, over E M x -> carries_on E (s_msg st') x) /\ s_data st' = m_data M).
Proof.
  intros hr hnc hc hso hpub hpM hli. pose proof (net_run_inv B key N hf hr hnc) as hi. pose proof (ni_dev _ _ _ hi w) as hp. pose proof (fl_env _ hf w) as hB.
  pose proof (ni_life _ _ _ hi w _ hp) as hl. pose proof (life_inv1 _ _ hB (plainly_life _ _ hl)) as hi1.
  destruct (writer_publish B hf w w (dev N w) s hl hpub) as (M' & r1 & _ & r3 & r4 & r5). assert (M' = M) by congruence. subst M'. clear r1.
  assert (h64 : int64_ok (m_seqno M + e_lag E) = true) by (pose proof (few_room B key N hf hi hc w w _ hp); pose proof (bo_lag _ hB); apply int64_ok_spec; lia).
  assert (hsame : forall st2 cs2, same_conf (B w) (dev N w) st2 -> (s_state st2 = s_state (dev N w) \/ s_state st2 <> Dirty) -> (cs2 <> [] -> s_state st2 <> Dirty /\ s_data st2 = m_data M) -> (s_state (dev N w) = Dirty -> cs2 = [] -> s_state st2 = Dirty) ->
    (forall z, publishes (B w) st2 z <-> publishes (B w) (dev N w) z) /\ (s_state st2 = Dirty -> s_state (dev N w) = Dirty) /\ (cs2 <> @nil bytes -> s_state st2 <> Dirty /\ s_data st2 = m_data M) /\ (s_data st2 = s_data (dev N w) \/ s_data st2 = m_data M) /\ (s_state (dev N w) = Dirty -> cs2 = [] -> s_state st2 = Dirty)).
  { intros st2 cs2 h1 h2 h3 h4. split; [intros z; apply same_publishes, h1|]. split; [intros e; destruct h2 as [h2|h2]; congruence|]. split; [exact h3|]. split; [exact (same_shown (B w) _ _ s M hi1 h1 hpub hpM)|exact h4]. }
  destruct hli as [x st' e _|n h x st' e _|l x st' hs e hret|x st' e _|y d st1 st' hy e1 e2 e3].
  - left. assert (g0 : s_state (dev N w) = Dirty -> match x with Ok (_, c, _) => [c] | _ => [] end = [] -> s_state st' = Dirty).
    { intros hd hc0. apply push_spec in e as [(hx & [->|(s0 & c & _ & ->)])|(k & s0 & conf & c & st2 & _ & _ & _ & _ & _ & hx & _)]; [exact hd|exact hd|]. rewrite hx in hc0. discriminate hc0. }
    apply push_same in e as (g1 & g2 & g3). apply hsame; [exact g1|exact g2| |exact g0]. intros hne. destruct x as [[[n c] o]| | | |]; try congruence. destruct (g3 _ eq_refl) as (g4 & s1 & c1 & g5 & g6). split; [exact g4|].
    destruct (published_content _ _ _ _ hi1 hpub hpM) as (c2 & q1 & _ & q2 & _). unfold s_data, s_msg. rewrite g6. congruence.
  - left. assert (g0 : s_state (dev N w) = Dirty -> s_state st' = Dirty) by (intros hd; apply confirm_spec in e as [_ [(_ & ->)|(h1 & _ & _)]]; congruence).
    apply confirm_same in e as (g1 & g2). apply hsame; [exact g1|exact g2|congruence|auto].
  - left. destruct (merge_gets N w (dev N w) l hi (ni_keys _ _ _ hi w _ hp) hs) as (inc & hinc & hin & _).
    destruct (own_part (B w) (dev N w)) as [[mine a]| | | |] eqn:ho; try (unfold own_part in ho; destruct (_ || _) in ho; [|discriminate]; destruct hpub as (c0 & e0); rewrite e0 in ho; discriminate).
    assert (hin' : forall y, In y (map snd inc) -> known B key w N y) by (intros y hy; apply in_map_iff in hy as ([h y0] & ey & hy); cbn [snd] in ey; subst y0; exact (hin _ _ hy)).
    assert (hmine : forall y, In y (map snd mine) -> y = s).
    { intros y hy. apply own_part_spec in ho as [(_ & ho)|(_ & s1 & c1 & e1 & ho)]; injection ho as -> ->; [destruct hy|]. destruct hy as [<-|[]]. destruct hpub as (c0 & e0). cbn [snd]. congruence. }
    assert (hseen : forall y, In y (map snd (mine ++ inc)) -> seen B N y).
    { intros y hy. rewrite map_app in hy. apply in_app_iff in hy as [hy|hy]; [apply hmine in hy; subst y; exists w, (dev N w); auto|]. apply (known_read N y hr hnc hc (hin' y hy)). }
    assert (hncl : no_collision E (map snd (mine ++ inc))) by (apply (seen_apart B N w _ hf hnc); exact hseen).
    assert (hall : forall y, In y (map snd (mine ++ inc)) -> exists z, parse_msg E false y = Ok z /\ int64_ok (m_seqno z + e_lag E) = true /\ over E M z).
    { intros y hy. rewrite map_app in hy. apply in_app_iff in hy as [hy|hy]; [apply hmine in hy; subst y; exists M; split; [exact hpM|]; split; [exact h64|left; reflexivity]|].
      destruct (known_read N y hr hnc hc (hin' y hy)) as (_ & m & g1 & _ & _ & g4). exists m. split; [exact g1|]. split; [exact g4|]. apply (hso y m (hin' y hy) g1). }
    assert (hcase : s_state (dev N w) = Dirty \/ s_state (dev N w) <> Dirty) by (destruct (s_state (dev N w)); [right; discriminate|left; reflexivity|right; discriminate]). destruct hcase as [est|hnd].
    1: { destruct (merge_dirty (B w) (dev N w) l mine a inc x st' s M hB hi1 est ho hinc hncl hpub hpM h64) as (g1 & g2); [|exact e|].
         - intros y hy. destruct (known_read N y hr hnc hc (hin' y hy)) as (_ & m & q1 & _ & _ & q4). exists m. split; [exact q1|]. split; [exact q4|]. destruct (hso y m (hin' y hy) q1) as [o1 o2]. auto.
         - apply hsame; [exact g1|left; congruence|congruence|auto]. }
    destruct (map snd (mine ++ inc)) as [|y0 r0] eqn:em;
      [assert (hmi : mine = [] /\ inc = []) by (apply map_eq_nil in em; apply app_eq_nil in em; exact em); destruct hmi as [-> ->];
       assert (ea : a = dev N w) by (apply own_part_spec in ho as [(_ & ho)|(_ & s1 & c1 & e1 & ho)]; [congruence|discriminate ho]); subst a;
       unfold merge, merge_plain in e; destruct (s_keys (dev N w)) as [|k0 ks] eqn:ek; [injection e as _ <-; apply hsame; [left; reflexivity|left; reflexivity|congruence|auto]|]; rewrite ho, hinc in e; cbn [app map] in e;
       assert (ed : is_dirty (dev N w) = false) by (unfold is_dirty; destruct (s_state (dev N w)); congruence); rewrite ed in e; cbn in e; injection e as _ <-; apply hsame; [left; reflexivity|left; reflexivity|congruence|auto]|].
    rewrite <- em in hall, hseen, hncl.
    assert (hs0 : In s (map snd (mine ++ inc))).
    1: (pose proof ho as ho0; apply own_part_spec in ho0 as [(hz & ho0)|(_ & s1 & c1 & e1 & ho0)];
       [assert (hy0 : In y0 (map snd (mine ++ inc))) by (rewrite em; left; reflexivity); assert (mine = []) by congruence; subst mine; apply andb_true_iff in hz as [hz _]; apply Z.eqb_eq in hz; cbn [app] in *;
        destruct (known_read N y0 hr hnc hc (hin' y0 hy0)) as (_ & m0 & q1 & q2 & q3 & _); destruct (hso y0 m0 (hin' y0 hy0) q1) as [o1 _];
        destruct (over_seqno _ _ _ _ (bo_lag _ hB) hpM o1) as [em0|hlt]; [subst m0; assert (s = y0) by congruence; subst y0; exact hy0|lia]
       |injection ho0 as -> _; left; cbn [snd]; destruct hpub as (c0 & e0); congruence]).
    destruct (merge_clean (B w) (dev N w) l mine a inc x st' s M hB (plainly_life _ _ hl) (fl_write _ hf w) hnd) as (k1 & k2); try assumption; [rewrite (ni_keys _ _ _ hi w _ hp); discriminate|].
    destruct k2 as [(k2 & _)|(k2 & _ & k3)]; [apply hsame; [left; exact k2|right; exact k1|congruence|intros g; contradiction]|].
    split; [intros z; rewrite k3; split; [intros ->; exact hpub|intros (c1 & g1); destruct hpub as (c2 & g2); congruence]|split; [intros g; contradiction|split; [congruence|split; [right; exact k2|intros g; contradiction]]]].
  - left. assert (g0 : s_state (dev N w) = Dirty -> s_state st' = Dirty) by (intros hd; apply dump_spec in e; cbv zeta in e; destruct e as [(s0 & c & _ & _ & ->)|(_ & ->)]; destruct (readonly (B w)); exact hd).
    apply dump_same in e as (g1 & g2); [|apply unsigned_g]. apply hsame; [exact g1|exact g2|congruence|auto].
  - subst y. destruct (restore_unsigned (B w) (dev N w) d st1 [key] st' s M hB (plainly_life _ _ hl) (hu w) (unsigned_g w) e1 e2 e3 hpub hpM) as (g1 & g2 & g3).
    destruct (s_state (dev N w)) eqn:est.
    2: { right. specialize (g3 eq_refl). split; [exact g1|]. split; [reflexivity|]. split; [reflexivity|].
         assert (hov : forall x, over E M x -> carries_on E (s_msg st') x /\ s_seqno st' = (m_seqno M + 1)%Z) by (intros x hx; exact (increment_impl_over E (set_unmerged (Some 0) M) M x (s_conf st') s hpM eq_refl (fun k h => h) g3 hx)).
         split; [apply (hov M (or_introl eq_refl))|]. split; [intros x hx; apply (hov x hx)|]. unfold increment_impl in g3. cbv zeta in g3. destruct (_ || _); [discriminate|]. injection g3 as g3. unfold s_data, s_msg. rewrite <- g3. reflexivity. }
    all: left; specialize (g2 ltac:(discriminate)); (split; [intros z; unfold publishes; rewrite g2, r5; split; [intros (c1 & g4); assert (z = s) by congruence; subst z; exact hpub|intros (c1 & g4); destruct hpub as (c2 & g5); exists (Plain M); congruence]|]);
      (split; [intros g; congruence|]); (split; [congruence|]); (split; [right; unfold s_data, s_msg; rewrite g2; reflexivity|intros g; congruence]).
Qed.
(** ** along a schedule *)
Lemma listens_does i (S : bytes -> Prop) (H : bstate -> Prop) (H' : bstate -> Prop) st cs st' : (forall y, H y -> H' y) -> listens (B i) key S H st cs st' -> does (B i) key S H' st [] cs st'.
Proof.
  intros hH hl. destruct hl as [x st' e hr|n h x st' e hr|l x st' hs e hr|x st' e hr|y d st1 st' hy e1 e2 e3].
  - eapply does_push; eassumption.
  - eapply does_confirm; eassumption.
  - eapply does_merge; eassumption.
  - eapply does_dump; eassumption.
  - eapply does_restart; [apply hH; exact hy|eassumption..].
Qed.
Lemma listens_sent i (S : bytes -> Prop) (H : bstate -> Prop) st cs st' c : listens (B i) key S H st cs st' -> In c cs -> exists n o, push (B i) st = (Ok (n, c, o), st').
Proof. intros hl. destruct hl as [x st' e hr|n h x st' e hr|l x st' hs e hr|x st' e hr|y d st1 st' hy e1 e2 e3]; try (intros []; fail). destruct x as [[[n c0] o]| | | |]; try (intros []; fail). intros [<-|[]]. eauto. Qed.
Lemma solo_net (N : net I) : solo_run B key w N -> net_run B key N.
Proof. intros h. induction h as [N h|N o x N' h IH _ _ _ _ hs|N cs N' h IH _ hs|N i cs N' h IH _ _ hs]; [apply run_start; exact h|eapply run_more; eassumption..]. Qed.
Lemma publishes_one i st s t : publishes (B i) st s -> publishes (B i) st t -> t = s.
Proof. intros (c & h) (c' & h'). congruence. Qed.
(** the writer keeps its message, or publishes it *)
Lemma solo_same (N N' : net I) es cs s M : net_inv B key N -> net_inv B key N' -> solo_inv B key w N -> net_step B key N N' w es cs -> publishes (B w) (dev N w) s -> parse_msg E false s = Ok M ->
  (forall z, publishes (B w) (dev N' w) z <-> publishes (B w) (dev N w) z) -> (s_state (dev N' w) = Dirty -> s_state (dev N w) = Dirty) -> (cs <> [] -> s_state (dev N' w) <> Dirty /\ s_data (dev N' w) = m_data M) ->
  (forall c, In c cs -> exists n o, push (B w) (dev N w) = (Ok (n, c, o), dev N' w)) -> solo_inv B key w N'.
Proof.
  intros hi hi' hso hs hpub hpM h1 h2 h3 h4.
  assert (hk : forall t, known B key w N' t -> known B key w N t \/ (t = s /\ s_state (dev N' w) <> Dirty /\ s_data (dev N' w) = m_data M)).
  { intros t ht. destruct (known_new N N' w es cs t hi hi' hs ht) as [h|(c & hc & hcar)]; [left; exact h|right]. destruct (h4 c hc) as (n & o & hp). split; [|apply h3; intros ->; destruct hc].
    apply (publishes_one w (dev N w)); [exact hpub|]. exact (pushed_carries N N' w es cs n c o _ t hi hi' hs hp hcar). }
  pose proof (ns_past _ _ _ _ _ _ _ hs) as hpa. split.
  - intros s1 M1 t x hp1 hq1 ht hx. apply h1 in hp1. assert (s1 = s) by exact (publishes_one w _ _ _ hpub hp1). subst s1. assert (M1 = M) by congruence. subst M1. destruct (hk t ht) as [ht'|(-> & hnd & _)].
    + destruct (so_writer _ _ _ _ hso s M t x hpub hpM ht' hx) as [g1 g2]. split; [exact g1|]. intros e. apply g2, h2, e.
    + assert (x = M) by congruence. subst x. split; [left; reflexivity|contradiction].
  - intros s1 M1 t x hk1 hq1 ht hx. destruct (hk s1 hk1) as [hs1|(-> & _)], (hk t ht) as [ht'|(-> & _)].
    + exact (so_total _ _ _ _ hso s1 M1 t x hs1 hq1 ht' hx).
    + assert (x = M) by congruence. subst x. right. exact (proj1 (so_writer _ _ _ _ hso s M s1 M1 hpub hpM hs1 hq1)).
    + assert (M1 = M) by congruence. subst M1. left. exact (proj1 (so_writer _ _ _ _ hso s M t x hpub hpM ht' hx)).
    + left. left. congruence.
  - intros j x hj hx. apply hpa in hx as [hx|(hx & _)]; [|contradiction]. destruct (so_reader _ _ _ _ hso j x hj hx) as (g1 & s1 & M1 & g2 & g3). split; [exact g1|]. exists s1, M1. split; [exact (known_mono N N' w es cs s1 hs g2)|exact g3].
  - intros s1 M1 hk1 hq1. destruct (hk s1 hk1) as [hs1|(-> & g1 & g2)].
    + destruct (so_source _ _ _ _ hso s1 M1 hs1 hq1) as (y & g1 & g2). exists y. split; [apply hpa; left; exact g1|exact g2].
    + exists (dev N' w). split; [apply hpa; right; auto|]. split; [exact g1|]. split; [apply h1; exact hpub|congruence].
Qed.
(** the writer has something new to push *)
Lemma solo_dirty (N N' : net I) es : net_run B key N' -> no_clash B N' -> net_inv B key N -> solo_inv B key w N -> net_step B key N N' w es [] ->
  (forall t x, known B key w N t -> parse_msg E false t = Ok x -> (m_seqno x < s_seqno (dev N' w))%Z /\ carries_on E (s_msg (dev N' w)) x) -> solo_inv B key w N'.
Proof.
  intros hr' hnc' hi hso hs hc. pose proof (net_run_inv B key N' hf hr' hnc') as hi'. pose proof (fl_env _ hf w) as hB.
  pose proof (ni_life _ _ _ hi' w _ (ni_dev _ _ _ hi' w)) as hl. pose proof (life_inv1 _ _ hB (plainly_life _ _ hl)) as hi1.
  assert (hk : forall t, known B key w N' t -> known B key w N t) by (intros t ht; destruct (known_new N N' w es [] t hi hi' hs ht) as [h|(c & [] & _)]; exact h).
  pose proof (ns_past _ _ _ _ _ _ _ hs) as hpa. split.
  - intros s M t x hp hq ht hx. destruct (hc t x (hk t ht) hx) as [g1 g2]. split; [exact (over_of (B w) (dev N' w) s M x hi1 hp hq g1 g2)|]. intros _. destruct (published_content _ _ _ _ hi1 hp hq) as (_ & _ & -> & _). exact g1.
  - intros s M t x h1 h2 h3 h4. exact (so_total _ _ _ _ hso s M t x (hk s h1) h2 (hk t h3) h4).
  - intros j x hj hx. apply hpa in hx as [hx|(hx & _)]; [|contradiction]. destruct (so_reader _ _ _ _ hso j x hj hx) as (g1 & s1 & M1 & g2 & g3). split; [exact g1|]. exists s1, M1. split; [exact (known_mono N N' w es [] s1 hs g2)|exact g3].
  - intros s M h1 h2. destruct (so_source _ _ _ _ hso s M (hk s h1) h2) as (y & g1 & g2). exists y. split; [apply hpa; left; exact g1|exact g2].
Qed.
Lemma few_calls_earlier (N N' : net I) i es cs : net_step B key N N' i es cs -> few_calls B N' -> few_calls B N.
Proof. intros hs hc j. specialize (hc j). rewrite (ns_calls _ _ _ _ _ _ _ hs) in hc. lia. Qed.
Lemma step_clash (N N' : net I) i es cs : net_step B key N N' i es cs -> no_clash B N' -> no_clash B N.
Proof. intros hs. apply no_clash_earlier. intros j x hx. apply (ns_past _ _ _ _ _ _ _ hs). left. exact hx. Qed.
Lemma solo_inv_run (N : net I) : solo_run B key w N -> no_clash B N -> few_calls B N -> solo_inv B key w N.
Proof.
  intros h. induction h as [N h|N o x N' h IH hed hok hru hret hs|N cs N' h IH hli hs|N i cs N' h IH hiw hli hs]; intros hnc' hc'.
  - assert (hr : net_run B key N) by (apply run_start; exact h). pose proof (net_run_inv B key N hf hr hnc') as hi.
    assert (hk : forall t, known B key w N t -> publishes (B w) (fresh (B w) [key]) t) by (intros t [(c & hc & _)|g]; [exfalso; exact (n0_sent _ _ _ h c hc)|exact g]).
    assert (hd : dev N w = fresh (B w) [key]) by apply (n0_dev _ _ _ h).
    assert (hdat : forall s M, publishes (B w) (fresh (B w) [key]) s -> parse_msg E false s = Ok M -> m_data M = []).
    { intros s M g1 g2. assert (hi1 : inv1 (B w) (fresh (B w) [key])) by (apply life_inv1; [apply (fl_env _ hf)|apply life_fresh]). destruct (published_content _ _ _ _ hi1 g1 g2) as (c & e1 & _ & e2 & _). rewrite e2.
      pose proof (serialize_refresh _ _ _ _ _ e1) as hrf. unfold fresh in hrf. cbn [s_conf refresh] in hrf. injection hrf as <-. reflexivity. }
    split.
    + intros s M t y hp hq ht hy. rewrite hd in *. split; [|discriminate]. left. apply hk in ht. assert (t = s) by exact (publishes_one w _ _ _ hp ht). subst t. congruence.
    + intros s M t y hks hq ht hy. left. left. apply hk in hks, ht. assert (t = s) by exact (publishes_one w _ _ _ hks ht). subst t. congruence.
    + intros j y _ hy. apply (n0_past _ _ _ h) in hy. subst y. split; [discriminate|]. destruct (state_publishes N w (dev N w) hr hnc' hc' (ni_dev _ _ _ hi w)) as (s & M & g1 & g2 & _ & _). rewrite hd in g1. exists s, M. split; [right; exact g1|]. split; [apply (fresh_publishes j w), g1|]. split; [exact g2|].
      exact (hdat s M g1 g2).
    + intros s M hks hq. apply hk in hks. exists (dev N w). rewrite hd. split; [apply (n0_past _ _ _ h); reflexivity|]. split; [discriminate|]. split; [exact hks|]. symmetry. exact (hdat s M hks hq).
  - pose proof (step_clash _ _ _ _ _ hs hnc') as hnc. pose proof (few_calls_earlier _ _ _ _ _ hs hc') as hc. specialize (IH hnc hc). pose proof (solo_net N h) as hr. assert (hr' : net_run B key N') by (eapply run_more; eassumption).
    pose proof (net_run_inv B key N hf hr hnc) as hi. pose proof (net_run_inv B key N' hf hr' hnc') as hi'. pose proof (fl_env _ hf w) as hB. pose proof (ni_dev _ _ _ hi w) as hp. pose proof (ni_life _ _ _ hi w _ hp) as hl.
    pose proof (life_inv1 _ _ hB (plainly_life _ _ hl)) as hi1. destruct (state_publishes N w _ hr hnc hc hp) as (s & M & g1 & g2 & _ & g4). pose proof (few_room B key N hf hi hc w w _ hp) as hro. pose proof (i1_nonneg _ _ hi1) as hnn. pose proof (bo_lag _ hB) as hlag.
    destruct (edit_over (B w) o (dev N w) x (dev N' w) s M hB hi1 (proj2 (net_run_inv11 B key N hf hu hr hnc w _ hp)) (fl_write _ hf w) g1 g2) as [e|(e1 & e2 & e3)]; try assumption; try (unfold int64_max; lia).
    + eapply (solo_same N N' _ [] s M hi hi' IH hs g1 g2); [intros z; rewrite e; reflexivity|rewrite e; auto|congruence|intros c []].
    + apply (solo_dirty N N' _ hr' hnc' hi IH hs). intros t y ht hy. destruct (so_writer _ _ _ _ IH s M t y g1 g2 ht hy) as [o1 o2].
      assert (hcase : s_state (dev N w) = Dirty \/ s_state (dev N w) <> Dirty) by (destruct (s_state (dev N w)); [right; discriminate|left; reflexivity|right; discriminate]). destruct hcase as [est|est].
      * destruct (e2 est) as [q1 q2]. specialize (o2 est). split; [lia|]. assert (hlt : (m_seqno y < s_seqno (dev N w))%Z) by lia. pose proof (over_to (B w) _ s M y hi1 g1 g2 hlt o1) as hcar. unfold carries_on in *. rewrite q2. change (m_seqno (s_msg (dev N' w))) with (s_seqno (dev N' w)). rewrite q1. exact hcar.
      * destruct (e3 est) as [q1 q2]. split; [destruct (over_seqno _ _ _ _ hlag g2 o1) as [->|hlt]; lia|apply q2; exact o1].
  - pose proof (step_clash _ _ _ _ _ hs hnc') as hnc. pose proof (few_calls_earlier _ _ _ _ _ hs hc') as hc. specialize (IH hnc hc). pose proof (solo_net N h) as hr. assert (hr' : net_run B key N') by (eapply run_more; eassumption).
    pose proof (net_run_inv B key N hf hr hnc) as hi. pose proof (net_run_inv B key N' hf hr' hnc') as hi'. pose proof (fl_env _ hf w) as hB. pose proof (ni_dev _ _ _ hi w) as hp.
    destruct (state_publishes N w _ hr hnc hc hp) as (s & M & g1 & g2 & _ & _). pose proof (bo_lag _ hB) as hlag.
    destruct (own_call N cs (dev N' w) s M hr hnc hc (fun t x h1 h2 => so_writer _ _ _ _ IH s M t x g1 g2 h1 h2) g1 g2 hli) as [(a1 & a2 & a3 & _ & _)|(b1 & b2 & -> & b3 & b4 & _)].
    + apply (solo_same N N' [] cs s M hi hi' IH hs g1 g2 a1 a2 a3). intros c hin. exact (listens_sent w _ _ _ _ _ c hli hin).
    + apply (solo_dirty N N' _ hr' hnc' hi IH hs). intros t y ht hy. destruct (so_writer _ _ _ _ IH s M t y g1 g2 ht hy) as [o1 _]. split; [destruct (over_seqno _ _ _ _ hlag g2 o1) as [->|hlt]; lia|apply b4; exact o1].
  - pose proof (step_clash _ _ _ _ _ hs hnc') as hnc. pose proof (few_calls_earlier _ _ _ _ _ hs hc') as hc. specialize (IH hnc hc). pose proof (solo_net N h) as hr. assert (hr' : net_run B key N') by (eapply run_more; eassumption).
    pose proof (net_run_inv B key N hf hr hnc) as hi. pose proof (net_run_inv B key N' hf hr' hnc') as hi'. assert (ew : dev N' w = dev N w) by (destruct (ns_other _ _ _ _ _ _ _ hs w) as [e|e]; [congruence|exact e]).
    destruct (other_call N i cs (dev N' i) hr hnc hc IH hiw hli) as (b1 & s & M & b2 & b3 & b4 & b5). pose proof (ns_past _ _ _ _ _ _ _ hs) as hpa.
    assert (hk : forall t, known B key w N' t -> known B key w N t).
    { intros t ht. destruct (known_new N N' i [] cs t hi hi' hs ht) as [g|(c & hin & hcar)]; [exact g|]. destruct (listens_sent i _ _ _ _ _ c hli hin) as (n & o & hpu). pose proof (pushed_carries N N' i [] cs n c o _ t hi hi' hs hpu hcar) as hpt.
      destruct (so_reader _ _ _ _ IH i _ hiw (ni_dev _ _ _ hi i)) as (_ & s1 & M1 & q1 & q2 & _). rewrite (publishes_one i _ _ _ q2 hpt). exact q1. }
    split.
    + rewrite ew. intros s1 M1 t x q1 q2 q3 q4. exact (so_writer _ _ _ _ IH s1 M1 t x q1 q2 (hk t q3) q4).
    + intros s1 M1 t x q1 q2 q3 q4. exact (so_total _ _ _ _ IH s1 M1 t x (hk s1 q1) q2 (hk t q3) q4).
    + intros j x hj hx. apply hpa in hx as [hx|(-> & ->)].
      * destruct (so_reader _ _ _ _ IH j x hj hx) as (q1 & s1 & M1 & q2 & q3). split; [exact q1|]. exists s1, M1. split; [exact (known_mono N N' i [] cs s1 hs q2)|exact q3].
      * split; [exact b1|]. exists s, M. split; [exact (known_mono N N' i [] cs s hs b2)|auto].
    + intros s1 M1 q1 q2. destruct (so_source _ _ _ _ IH s1 M1 (hk s1 q1) q2) as (y & q3 & q4). exists y. split; [apply hpa; left; exact q3|exact q4].
Qed.
End system.
(** ** what is read *)
Lemma shows_prune elem p x d : wf d = true -> shows elem p x (fst (prune d)) <-> shows elem p x d.
Proof.
  revert d; induction p as [|k p IH]; intros d hw; [reflexivity|].
  assert (hst : forall d', shows elem (k :: p) x d' <-> match lookup k d' with None => False | Some v => match p, v with [], VScal y => elem = false /\ y = x | [], VSet l => elem = true /\ In x l | _ :: _, VDict s => shows elem p x s | _, _ => False end end).
  { intros d'. unfold shows at 1. destruct p as [|k2 p2]; cbn [get_path].
    - destruct (lookup k d') as [[y|l|s]|]; reflexivity.
    - destruct (lookup k d') as [[y|l|s]|]; reflexivity. }
  rewrite !hst, lookup_prune by exact hw. destruct (lookup k d) as [[y|l|s]|] eqn:e; [| | |reflexivity].
  - cbn [prune_v]. reflexivity.
  - cbn [prune_v]. destruct l as [|y l]; cbn [is_nil]; [|reflexivity]. destruct p; cbn; tauto.
  - rewrite prune_v_dict'. pose proof (wf_lookup _ _ _ hw e) as hws. destruct (is_nil (fst (prune s))) eqn:en.
    + destruct p as [|k2 p2]; [reflexivity|]. rewrite <- (IH s hws). apply is_nil_true in en. rewrite en. unfold shows. destruct p2; cbn; reflexivity.
    + destruct p as [|k2 p2]; [reflexivity|]. exact (IH s hws).
Qed.
Lemma published_shows B st s M elem p x : benv_ok B -> inv1 B st -> publishes B st s -> parse_msg (b_env B) false s = Ok M -> shows elem p x (m_data M) <-> shows elem p x (s_data st).
Proof.
  intros hB hi hp hq. destruct (published_content _ _ _ _ hi hp hq) as (c & e1 & _ & -> & _). pose proof (serialize_refresh _ _ _ _ _ e1) as hr.
  unfold s_data, s_msg. pose proof (i1_cfg _ _ hi) as hc. destruct (s_conf st) as [m|m o]; cbn [refresh] in hr; [injection hr as <-; reflexivity|].
  destruct (diff o (fst (prune (m_data m)))); [|discriminate]. injection hr as <-. cbn [c_msg m_data]. apply shows_prune. apply hc.
Qed.
(** ** the theorems *)
Lemma solo_reads {I : Type} (B : I -> benv) key w (N : net I) j x : fleet B -> unsigned_fleet B -> solo_run B key w N -> no_clash B N -> few_calls B N -> j <> w -> past N j x ->
  s_state x <> Dirty /\ exists y, past N w y /\ s_state y <> Dirty /\ s_data x = s_data y /\ forall z, publishes (B j) x z <-> publishes (B w) y z.
Proof.
  intros hf hu hr hnc hc hj hx. pose proof (solo_inv_run B key w hf hu N hr hnc hc) as hso. destruct (so_reader _ _ _ _ hso j x hj hx) as (h1 & s & M & h2 & h3 & h4 & h5).
  split; [exact h1|]. destruct (so_source _ _ _ _ hso s M h2 h4) as (y & g1 & g2 & g3 & g4). exists y. split; [exact g1|]. split; [exact g2|]. split; [congruence|].
  intros z. split; intros hz; [rewrite (publishes_one B j _ _ _ h3 hz); exact g3|rewrite (publishes_one B w _ _ _ g3 hz); exact h3].
Qed.
Lemma solo_keeps {I : Type} (B : I -> benv) key w (N N' : net I) cs : fleet B -> unsigned_fleet B -> solo_run B key w N -> no_clash B N -> few_calls B N ->
  listens (B w) key (sent N) (fun y => y = dev N w) (dev N w) cs (dev N' w) ->
  (forall elem p x, shows elem p x (s_data (dev N' w)) <-> shows elem p x (s_data (dev N w))) /\ (s_state (dev N' w) = Dirty -> s_state (dev N w) = Dirty).
Proof.
  intros hf hu hsr hnc hc hli. pose proof (solo_inv_run B key w hf hu N hsr hnc hc) as hso. pose proof (solo_net B key w N hsr) as hr. pose proof (net_run_inv B key N hf hr hnc) as hi. pose proof (ni_dev _ _ _ hi w) as hp.
  pose proof (fl_env _ hf w) as hB. pose proof (life_inv1 _ _ hB (plainly_life _ _ (ni_life _ _ _ hi w _ hp))) as hi1.
  destruct (state_publishes B key w hf N w _ hr hnc hc hp) as (s & M & g1 & g2 & _ & _). pose proof (fun elem p x => published_shows (B w) _ s M elem p x hB hi1 g1 g2) as hsh.
  destruct (own_call B key w hf hu N cs _ s M hr hnc hc (fun t x h1 h2 => so_writer _ _ _ _ hso s M t x g1 g2 h1 h2) g1 g2 hli) as [(_ & a2 & _ & a4 & _)|(_ & b2 & _ & _ & _ & b5)].
  - split; [|exact a2]. intros elem p x. destruct a4 as [->| ->]; [reflexivity|apply hsh].
  - split; [|intros _; exact b2]. intros elem p x. rewrite b5. apply hsh.
Qed.
Lemma solo_follows {I : Type} (B : I -> benv) key w (N : net I) j n c o st1 l : fleet B -> unsigned_fleet B -> solo_run B key w N -> no_clash B N -> few_calls B N -> j <> w ->
  push (B w) (dev N w) = (Ok (n, c, o), st1) -> sent N c -> from_server (sent N) (B j) (dev N j) l -> In c (map snd l) -> s_state (dev N w) <> Dirty ->
  exists hs st2, merge (B j) l (dev N j) = (Ok hs, st2) /\ s_state st2 <> Dirty /\ (forall elem p x, shows elem p x (s_data st2) <-> shows elem p x (s_data (dev N w))) /\ s_seqno st2 = s_seqno (dev N w) /\ forall z, publishes (B j) st2 z <-> publishes (B w) (dev N w) z.
Proof.
  intros hf hu hsr hnc hc hj hpush hsent hsrv hin hndw. pose proof (solo_inv_run B key w hf hu N hsr hnc hc) as hso. pose proof (solo_net B key w N hsr) as hr. pose proof (net_run_inv B key N hf hr hnc) as hi.
  pose proof (ni_dev _ _ _ hi w) as hpw. pose proof (ni_dev _ _ _ hi j) as hp. pose proof (fl_env _ hf j) as hB. assert (eE : b_env (B j) = b_env (B w)) by apply (fl_same _ hf).
  destruct (state_publishes B key w hf N w _ hr hnc hc hpw) as (s & M & g1 & g2 & g3 & g4). assert (hiw : inv1 (B w) (dev N w)) by (apply life_inv1; [apply (fl_env _ hf)|apply plainly_life, (ni_life _ _ _ hi w _ hpw)]).
  pose proof (fun elem p x => published_shows (B w) _ s M elem p x (fl_env _ hf w) hiw g1 g2) as hsh.
  pose proof (ni_life _ _ _ hi j _ hp) as hl. pose proof (life_inv1 _ _ hB (plainly_life _ _ hl)) as hi1. destruct (so_reader _ _ _ _ hso j _ hj hp) as (hnd & s0 & M0 & k1 & k2 & k3 & k4).
  apply in_map_iff in hin as ([h c'] & ec & hin). cbn [snd] in ec. subst c'.
  destruct (net_merge_total B key N j l hf hi hnc hc hsrv) as (hs & st2 & hm); [right; right; eauto|]. exists hs, st2. split; [exact hm|].
  destruct (merge_gets B key w hf N j (dev N j) l hi (ni_keys _ _ _ hi j _ hp) hsrv) as (inc & hinc & hkn & hall).
  assert (hcar : carries B N c s). { apply push_spec in hpush as hp0. destruct hp0 as [(hx & _)|(kk & s1 & conf & c1 & st3 & _ & hser & _)]; [exfalso; eapply hx; reflexivity|]. exists w, (dev N w), n, o, st1. split; [exact hpw|]. split; [exact hpush|exact g1]. }
  assert (hks : known B key w N s) by (left; exists c; auto).
  specialize (hall _ _ _ hin hcar).
  destruct (own_part (B j) (dev N j)) as [[mine a]| | | |] eqn:ho; try (unfold own_part in ho; destruct (_ || _) in ho; [|discriminate]; destruct k2 as (c0 & e0); rewrite e0 in ho; discriminate).
  assert (hkall : forall y, In y (map snd (mine ++ inc)) -> known B key w N y).
  { intros y hy. rewrite map_app in hy. apply in_app_iff in hy as [hy|hy].
    - apply own_part_spec in ho as [(_ & ho)|(_ & s1 & c1 & e1 & ho)]; injection ho as -> ->; [destruct hy|]. destruct hy as [<-|[]]. destruct k2 as (c0 & e0). cbn [snd]. assert (s1 = s0) by congruence. subst s1. exact k1.
    - apply in_map_iff in hy as ([h' y0] & ey & hy). cbn [snd] in ey. subst y0. exact (hkn _ _ hy). }
  assert (hncl : no_collision (b_env (B j)) (map snd (mine ++ inc))) by (apply (seen_apart B N j _ hf hnc); intros y hy; apply (known_read B key w hf N y hr hnc hc (hkall y hy))).
  destruct (known_read B key w hf N s hr hnc hc hks) as (_ & M1 & q1 & q2 & q3 & q4). assert (M1 = M) by congruence. subst M1.
  destruct (merge_clean (B j) (dev N j) l mine a inc (Ok hs) st2 s M hB (plainly_life _ _ hl) (fl_write _ hf j) hnd) as (r1 & r2); try assumption; try (rewrite eE; assumption).
  { rewrite (ni_keys _ _ _ hi j _ hp). discriminate. }
  { rewrite map_app. apply in_app_iff. right. apply in_map_iff. exists (h, s). split; [reflexivity|exact hall]. }
  { rewrite eE. intros y hy. destruct (known_read B key w hf N y hr hnc hc (hkall y hy)) as (_ & m & p1 & _ & _ & p4). exists m. split; [exact p1|]. split; [exact p4|]. exact (proj1 (so_writer _ _ _ _ hso s M y m g1 g2 (hkall y hy) p1)). }
  split; [exact r1|]. destruct r2 as [(r2 & r3 & r4)|(r2 & r3 & r4)].
  - assert (em : M0 = M). { destruct (so_writer _ _ _ _ hso s M s0 M0 g1 g2 k1 k3) as [ov _]. destruct (over_seqno _ _ _ _ (bo_lag _ (fl_env _ hf w)) g2 ov) as [e|hlt]; [exact e|]. destruct (known_read B key w hf N s0 hr hnc hc k1) as (_ & m & p1 & _ & p3 & _). assert (m = M0) by congruence. subst m. lia. }
    subst M0. assert (es : s0 = s) by (destruct (known_read B key w hf N s0 hr hnc hc k1) as (_ & m & p1 & p2 & _); congruence). subst s0.
    assert (ed : s_data st2 = m_data M /\ s_seqno st2 = s_seqno (dev N j)) by (unfold s_data, s_seqno, s_msg in *; rewrite r2; split; [symmetry; exact k4|reflexivity]). destruct ed as [ed1 ed2].
    split; [intros elem p x; rewrite ed1; apply hsh|]. split; [lia|]. intros z. transitivity (publishes (B j) (dev N j) z); [unfold publishes; rewrite r2; reflexivity|].
    split; intros hz; [rewrite (publishes_one B j _ _ _ k2 hz); exact g1|rewrite (publishes_one B w _ _ _ g1 hz); exact k2].
  - split; [intros elem p x; rewrite r2; apply hsh|]. split; [lia|]. intros z. rewrite r4. split; [intros ->; exact g1|intros hz; exact (publishes_one B w _ _ _ g1 hz)].
Qed.
