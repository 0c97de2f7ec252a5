(** Proofs of C27, C29, C30 and C37. *)
From Verif Require Import BaseSpec Data_facts Diff_facts Parse_facts Message_facts Round_facts Reach_facts Redeliver_facts Merge_facts Merge2_facts Adopt_facts Crypt_facts Base_facts Dump_facts Life_facts Life2_facts Life3_facts Life4_facts Fields_facts Conf_facts Conf2_facts Conf3_facts.

(** ** C30 *)
Lemma quiet_dirty B st x st' : dirty B st = (x, st') -> st' = st \/ s_needs_dump st' = true.
Proof.
  intros h. apply dirty_spec in h as [(_ & -> & _)|[(_ & _ & _ & ->)|(_ & _ & st1 & h1 & h2)]]; auto. right.
  apply set_state_spec in h1 as [(h1 & _)|(_ & _ & _ & _ & h1 & _)]; [discriminate|]. destruct h2 as [(c & _ & _ & ->)|(_ & _ & ->)]; exact h1.
Qed.
Lemma quiet_step B o st x st' : inv0 B st -> o <> OpDump -> run B o st = (x, st') ->
  s_needs_dump st' = true \/ (s_needs_dump st' = s_needs_dump st /\ s_state st' = s_state st /\ s_curr st' = s_curr st /\
    (s_conf st' = s_conf st \/ refresh (s_conf st) = Ok (s_conf st') \/ (is_edit o = true /\ s_state st = Dirty))).
Proof.
  intros hi hd h. destruct (is_edit o) eqn:ee.
  - apply edit_op_spec in h; [|exact ee]. destruct h as [(_ & ->)|(f & g)]; [auto 8|].
    apply edit_spec in g as [(_ & g)|(st1 & m & o1 & g & _ & _ & ->)].
    + apply quiet_dirty in g as [->|g]; auto 8.
    + pose proof g as g0. apply quiet_dirty in g as [->|g]; [|auto]. right. cbn. apply dirty_ok in g0 as (m1 & o2 & _ & g0 & _). auto 8.
  - destruct (is_key_op o) eqn:ek.
    + apply key_op_spec in h as [->|(ks & [->|(y & g)])]; [auto 8|right; cbn; auto 8| |exact ek]. apply quiet_dirty in g as [->|g]; [right; cbn; auto 8|auto].
    + destruct o; try discriminate; try congruence; cbn [run] in h.
      * apply ignore_returned in h. destruct (push B st) as [y st2] eqn:e. cbn [snd] in h. subst st2.
        apply push_spec in e as [(_ & [->|(s & c & hs & ->)])|(k & s & conf & c & st2 & _ & hs & _ & _ & h2 & _ & ->)]; [auto 8| |].
        -- right. cbn. apply serialize_refresh in hs. auto 8.
        -- destruct h2 as [(_ & h2)|(_ & ->)]; [left|right; cbn; apply serialize_refresh in hs; auto 8].
           apply set_state_spec in h2 as [(h2 & _)|(_ & _ & _ & _ & h2 & _)]; [discriminate|exact h2].
      * apply confirm_spec in h as (_ & [(_ & ->)|(_ & _ & ->)]); [auto 8|auto].
      * apply ignore_returned in h. destruct (merge B l st) as [y st2] eqn:e. cbn [snd] in h. subst st2.
        unfold merge in e. apply merge_plain_spec in e as [(_ & ->)|(mine & st1 & ho & e)]; [auto 8|].
        assert (h1 : s_needs_dump st1 = s_needs_dump st /\ s_state st1 = s_state st /\ s_curr st1 = s_curr st /\ (s_conf st1 = s_conf st \/ refresh (s_conf st) = Ok (s_conf st1))).
        { apply own_part_spec in ho as [(_ & ho)|(_ & s & c & hs & ho)]; injection ho as _ ->; cbn; [auto|]. apply serialize_refresh in hs. auto. }
        destruct h1 as (a1 & a2 & a3 & a4). destruct e as [(_ & ->)|(inc & new & bad & _ & _ & hmc & y' & e & _)]; [right; tauto|].
        apply adopt_spec in e as [(_ & _ & ->)|[(_ & hu & e)|(_ & i & _ & [(_ & _ & _ & _ & ->)|(_ & st2 & e & _ & ->)])]].
        -- right. cbn. tauto.
        -- apply set_state_spec in e as [(_ & -> & hs & hro)|(_ & _ & _ & _ & e & _)]; [|auto]. exfalso. destruct (i0_ro _ _ hi hro) as (hc & _).
           assert (hnd : is_dirty st = false) by (unfold is_dirty; rewrite hc; reflexivity).
           destruct (merge_confs_ro _ _ _ _ _ hro hnd hmc) as (m & i & -> & g). cbn [c_msg] in hu. congruence.
        -- right. cbn. tauto.
        -- left. apply set_state_spec in e as [(e & _)|(_ & _ & _ & _ & e & _)]; [discriminate|exact e].
Qed.

Lemma quiet_steps B st d st1 l st2 : life B every st -> dump B st = (Ok d, st1) -> steps B any st1 l st2 -> ~ In OpDump l ->
  s_state st <> Dirty \/ forallb (fun o => negb (is_edit o)) l = true ->
  s_needs_dump st2 = false -> s_conf st2 = s_conf st1 /\ s_state st2 = s_state st1 /\ s_curr st2 = s_curr st1.
Proof.
  intros hl hd hs hnd hor hn.
  assert (hr : refresh (s_conf st1) = Ok (s_conf st1) /\ s_state st1 = s_state st).
  { pose proof hd as h. apply dump_spec in h as [(s & c' & h & _ & ->)|(h & _)]; [|exfalso; apply (h d); reflexivity]. cbn. apply serialize_refresh in h. apply refresh_idem in h. split; [exact h|]. destruct (readonly B); reflexivity. }
  destruct hr as [hr hst]. rewrite <- hst in hor. assert (hl1 : life B every st1).
  { eapply (life_step every B st OpDump); [exact hl|]. eapply step_run; [cbn; rewrite hd; reflexivity|split; discriminate|exact I]. }
  clear hst hd hl d. induction hs as [st1|st1 o st3 l st2 h1 h2 IH]; [auto|].
  assert (hl3 : life B every st3) by (eapply life_step; eassumption). destruct h1 as [o x st3 h1 _ _].
  assert (hback : forall a b c, life B every a -> steps B any a b c -> ~ In OpDump b -> s_needs_dump a = true -> s_needs_dump c = true).
  { clear. intros a b c hl h. induction h as [a|a o st3 l st2 h1 h2 IH]; intros hni ha; [exact ha|]. apply IH.
    - eapply life_step; eassumption.
    - intros e. apply hni. right. exact e.
    - destruct h1 as [o x st3 h1 _ _]. apply quiet_step in h1 as [h1|(h1 & _)]; [exact h1|congruence|exact (life_inv0 _ _ _ hl)|]. intros ->. apply hni. left. reflexivity. }
  assert (h4 : ~ In OpDump l) by (intros e; apply hnd; right; exact e).
  apply quiet_step in h1; [|exact (life_inv0 _ _ _ hl1)|intros ->; apply hnd; left; reflexivity].
  destruct h1 as [h1|(h5 & h6 & h7 & h8)]; [rewrite (hback _ _ _ hl3 h2 h4 h1) in hn; discriminate|].
  assert (e1 : s_conf st3 = s_conf st1).
  { destruct h8 as [h8|[h8|(h8 & h9)]]; [exact h8|congruence|]. destruct hor as [hor|hor]; [congruence|]. cbn [forallb] in hor. rewrite h8 in hor. discriminate. }
  destruct IH as (a1 & a2 & a3); auto.
  - destruct hor as [hor|hor]; [left; congruence|right]. cbn [forallb] in hor. apply andb_true_iff in hor. tauto.
  - congruence.
  - split; [congruence|]. split; congruence.
Qed.
(** then a dump differs at most in the list of obsolete hashes *)
Lemma quiet_dump B st d st1 l st2 d2 st3 : life B every st -> dump B st = (Ok d, st1) -> steps B any st1 l st2 -> ~ In OpDump l ->
  s_state st <> Dirty \/ forallb (fun o => negb (is_edit o)) l = true ->
  s_needs_dump st2 = false -> dump B st2 = (Ok d2, st3) ->
  exists state msg curr old old2, d = enc (BDict [(b "!", BInt state); (b "$", BStr msg); (b "(", BStr curr); (b ")", BList (map BStr old))]) /\
    d2 = enc (BDict [(b "!", BInt state); (b "$", BStr msg); (b "(", BStr curr); (b ")", BList (map BStr old2))]) /\ (s_old st2 = s_old st1 -> d2 = d).
Proof.
  intros hl hd hs hnd hor hn hd2. destruct (quiet_steps _ _ _ _ _ _ hl hd hs hnd hor hn) as (e1 & e2 & e3).
  apply dump_spec in hd as [(s & c' & h & ed & est)|(h & _)]; [|exfalso; apply (h d); reflexivity].
  apply dump_spec in hd2 as [(s2 & c2 & h2 & ed2 & _)|(h2 & _)]; [|exfalso; apply (h2 d2); reflexivity].
  assert (g1 : s_state st1 = s_state st /\ s_curr st1 = s_curr st /\ s_conf st1 = c' /\ s_old st1 = if readonly B then [] else s_old st) by (rewrite est; cbn; destruct (readonly B); auto).
  destruct g1 as (g1 & g2 & g3 & g4). rewrite e1, g3 in h2. rewrite (serialize_idem _ _ _ _ _ h) in h2. injection h2 as <- <-.
  injection ed as ed. injection ed2 as ed2. assert (k1 : forall x : bstate, s_state (if readonly B then set_old [] x else x) = s_state x /\ s_curr (if readonly B then set_old [] x else x) = s_curr x) by (intros x; destruct (readonly B); auto).
  exists (state_no (s_state st)), s, (s_curr st), (if readonly B then [] else s_old st), (if readonly B then [] else s_old st2).
  assert (q1 : d = dump_bytes (state_no (s_state st)) s (s_curr st) (if readonly B then [] else s_old st)) by (rewrite ed; destruct (readonly B); reflexivity).
  assert (q2 : d2 = dump_bytes (state_no (s_state st)) s (s_curr st) (if readonly B then [] else s_old st2)) by (rewrite ed2, e2, e3, g1, g2; destruct (readonly B); reflexivity).
  split; [exact q1|]. split; [exact q2|]. intros eo. rewrite q1, q2, eo, g4. destruct (readonly B); reflexivity.
Qed.

(** ** C37 *)
Lemma published_same B st B' st' s c c' : b_env B' = b_env B -> inv1 B st -> inv1 B' st' -> serialize (b_env B) (s_conf st) true = Ok (s, c) -> serialize (b_env B') (s_conf st') true = Ok (s, c') ->
  s_seqno st' = s_seqno st /\ m_data (c_msg c') = m_data (c_msg c) /\ m_seqno (c_msg c) = s_seqno st /\ m_seqno (c_msg c') = s_seqno st'.
Proof.
  intros he hi hi' h1 h2. pose proof (i1_cfg _ _ hi') as hc'. rewrite he in h2, hc'.
  destruct (store_parse _ _ _ _ _ false (i1_cfg _ _ hi) h1) as (m & p1 & (p2 & p3 & _) & _). destruct (store_parse _ _ _ _ _ false hc' h2) as (m' & q1 & (q2 & q3 & _) & _).
  rewrite p1 in q1. injection q1 as ->.
  destruct (refresh_ok _ _ _ (i1_cfg _ _ hi) (serialize_refresh _ _ _ _ _ h1)) as (_ & _ & _ & e1 & _).
  destruct (refresh_ok _ _ _ hc' (serialize_refresh _ _ _ _ _ h2)) as (_ & _ & _ & e2 & _).
  unfold s_seqno, s_msg, m_seqno in *. repeat (split; [congruence|]); congruence.
Qed.
Lemma own_part_same B st B' st' s c c' : b_env B' = b_env B -> inv1 B st -> inv1 B' st' -> s_state st <> Dirty -> s_state st' <> Dirty ->
  serialize (b_env B) (s_conf st) true = Ok (s, c) -> serialize (b_env B') (s_conf st') true = Ok (s, c') ->
  exists mine mine' a a', own_part B st = Ok (mine, a) /\ own_part B' st' = Ok (mine', a') /\ map snd mine = map snd mine' /\ length mine = length mine' /\
    serialize (b_env B) (s_conf a) true = Ok (s, c) /\ serialize (b_env B') (s_conf a') true = Ok (s, c') /\ s_state a = s_state st /\ s_state a' = s_state st' /\ refresh (s_conf st) = Ok c /\ refresh (s_conf st') = Ok c' /\
    (s_conf a = s_conf st \/ s_conf a = c) /\ (s_conf a' = s_conf st' \/ s_conf a' = c').
Proof.
  intros he hi hi' hd hd' h1 h2. destruct (published_same _ _ _ _ _ _ _ he hi hi' h1 h2) as (e1 & _). unfold own_part. rewrite (not_dirty _ hd), (not_dirty _ hd'), !orb_false_r, e1.
  pose proof (serialize_refresh _ _ _ _ _ h1) as r1. pose proof (serialize_refresh _ _ _ _ _ h2) as r2.
  destruct (s_seqno st =? 0)%Z; cbn [negb].
  - exists [], [], st, st'. auto 20.
  - rewrite h1, h2. cbn [bind fst snd]. do 4 eexists. split; [reflexivity|]. split; [reflexivity|]. cbn. split; [reflexivity|]. split; [reflexivity|].
    split; [eapply serialize_idem; exact h1|]. split; [eapply serialize_idem; exact h2|]. auto 10.
Qed.
Lemma serialize_retain E m m' s c : same_result m m' -> serialize E (retain (Plain m)) true = Ok (s, c) -> exists c', serialize E (retain (Plain m')) true = Ok (s, c').
Proof.
  intros [h _]. destruct m as [sh d df lg u vs un], m' as [sh' d' df' lg' u' vs' un']. unfold index_free, set_unmerged in h. cbn in h. injection h as -> -> -> -> -> ->.
  unfold serialize, retain. cbn [refresh m_data]. destruct (diff [] _); cbn [bind]; [|discriminate]. cbn [c_msg m_diff]. intros h. ok_inv h. injection h as <- <-.
  match goal with |- exists c', bind (serialize_impl E ?y ?df ?sg) _ = _ => match type of ha with serialize_impl E ?x _ _ = _ => assert (e : serialize_impl E y df sg = serialize_impl E x df sg) by reflexivity end end.
  rewrite e, ha. cbn [bind]. eauto.
Qed.
Lemma converge B st B' st' l l' inc inc' s c c' hs st2 : benv_ok B -> b_env B' = b_env B -> inv1 B st -> inv1 B' st' -> inv2 st -> inv2 st' -> s_state st <> Dirty -> s_state st' <> Dirty -> s_keys st' <> [] ->
  serialize (b_env B) (s_conf st) true = Ok (s, c) -> serialize (b_env B') (s_conf st') true = Ok (s, c') ->
  incoming B (s_keys st) (map (unwrap1 B st) l) = Ok inc -> incoming B' (s_keys st') (map (unwrap1 B' st') l') = Ok inc' ->
  (forall x, In x (map snd inc) <-> In x (map snd inc')) -> no_collision (b_env B) (s :: map snd inc) ->
  merge B l st = (Ok hs, st2) ->
  exists hs' st2', merge B' l' st' = (Ok hs', st2') /\ s_data st2' = s_data st2 /\ s_seqno st2' = s_seqno st2 /\
    forall z c1, serialize (b_env B) (s_conf st2) true = Ok (z, c1) -> exists c2, serialize (b_env B') (s_conf st2') true = Ok (z, c2).
Proof.
  intros hB he hi hi' h3 h3' hd hd' hk h1 h2 hinc hinc' hset hnc hm.
  destruct (published_same _ _ _ _ _ _ _ he hi hi' h1 h2) as (e1 & e2 & e3 & e4).
  destruct (own_part_same _ _ _ _ _ _ _ he hi hi' hd hd' h1 h2) as (mine & mine' & a & a' & o1 & o2 & o3 & o4 & o5 & o6 & o7 & o8 & r1 & r2 & o9 & o10).
  unfold merge in hm. apply merge_plain_spec in hm as [(hm & _)|(mine0 & st1 & o1' & hm)]; [exfalso; apply (hm hs); reflexivity|]. rewrite o1 in o1'. injection o1' as <- <-.
  destruct hm as [(hm & _)|(inc0 & new & bad & hk0 & hinc0 & hmc & y & hm & hy)]; [exfalso; apply (hm hs); reflexivity|]. rewrite hinc in hinc0. injection hinc0 as <-. cbv zeta in hm.
  unfold merge_confs in hmc. rewrite (not_dirty _ hd) in hmc. ok_inv hmc. destruct a0 as [m bd]. injection hmc as <- <-. cbn [fst snd] in *.
  assert (hs2 : forall x, In x (map snd (mine ++ inc)) <-> In x (map snd (mine' ++ inc'))).
  { intros x. rewrite !map_app, !in_app_iff, o3, hset. tauto. }
  assert (hnc2 : no_collision (b_env B) (map snd (mine ++ inc))).
  { assert (hsub : forall x, In x (map snd (mine ++ inc)) -> In x (s :: map snd inc)).
    { intros x hx. rewrite map_app in hx. apply in_app_iff in hx as [hx|hx]; [left|right; exact hx].
      apply own_part_spec in o1 as [(_ & o1)|(_ & s1 & c1 & g & o1)]; injection o1 as -> ->; cbn in hx; [destruct hx|]. destruct hx as [<-|[]]. rewrite h1 in g. injection g as <- _. reflexivity. }
    intros x x' hx hx'. apply hnc; apply hsub; assumption. }
  destruct (merge_order_free _ _ _ _ _ (bo_lag _ hB) hnc2 hs2 ha) as (m' & bad' & hm' & hsame & hpub).
  assert (hda : m_data m' = m_data m /\ m_seqno m' = m_seqno m /\ m_unknown m' = m_unknown m) by (destruct hsame as [hx _]; destruct m, m'; unfold index_free, set_unmerged in hx; cbn in hx; injection hx as -> -> -> -> -> ->; unfold m_seqno; auto).
  destruct hda as (d1 & d2 & _).
  assert (hun : (m_unmerged m = None <-> m_unmerged m' = None)) by (destruct hsame as [_ hx]; tauto).
  assert (hrun : forall r st3, adopt B' (s_seqno st') (Plain m') (map fst (mine' ++ inc')) (set_old (fold_left (fun l h => sadd h l) (obsolete 0 (m_unmerged m') bad' (map fst (mine' ++ inc'))) (s_old a')) a') = (Ok r, st3) ->
    merge B' l' st' = (Ok (good_hashes (length mine') bad' (map fst inc')), st3)).
  { intros r st3 hr. unfold merge, merge_plain. destruct (s_keys st'); [congruence|]. rewrite o2. rewrite hinc'. unfold merge_confs. rewrite (not_dirty _ hd'), he, hm'. cbn [bind fst snd c_msg]. rewrite hr. reflexivity. }
  assert (hpa : m_data (c_msg (s_conf a')) = m_data (c_msg (s_conf a))).
  { pose proof (i1_cfg _ _ hi') as hcc. destruct (refresh_ok _ _ _ (i1_cfg _ _ hi) r1) as (_ & _ & p1 & _ & _ & _ & q1). destruct (refresh_ok _ _ _ hcc r2) as (_ & _ & p2 & _ & _ & _ & q2).
    specialize (h3 hd). specialize (h3' hd'). unfold s_data, s_msg in h3, h3'.
    assert (g1 : m_data (c_msg (s_conf a)) = m_data (c_msg c)) by (destruct o9 as [->| ->]; [rewrite q1; symmetry; apply prune_id; exact h3|reflexivity]).
    assert (g2 : m_data (c_msg (s_conf a')) = m_data (c_msg c')) by (destruct o10 as [->| ->]; [rewrite q2; symmetry; apply prune_id; exact h3'|reflexivity]). congruence. }
  assert (hsa : m_seqno (c_msg (s_conf a)) = s_seqno st /\ m_seqno (c_msg (s_conf a')) = s_seqno st').
  { split; [destruct o9 as [->| ->]; auto|destruct o10 as [->| ->]; auto]. }
  destruct hsa as [hsa hsa'].
  assert (hx : y = Ok tt) by (destruct y as [[]| | | |]; try discriminate hy; reflexivity). subst y. clear hy.
  apply adopt_spec in hm as [(q & _ & ->)|[(q & hu & hm)|(q & i & hu & [(q2 & _)|(_ & st3 & hm & _ & ->)])]]; cbn [c_msg] in *.
  - exists (good_hashes (length mine') bad' (map fst inc')). eexists. split; [eapply hrun; unfold adopt; cbn [c_msg]; rewrite d2, q, <- e1, Z.eqb_refl; reflexivity|].
    unfold s_data, s_seqno, s_msg. cbn [set_old s_conf]. rewrite hsa, hsa'. split; [exact hpa|]. split; [exact e1|]. intros z c1 hz. rewrite o5 in hz. injection hz as <- <-. eauto.
  - match type of hm with set_state B Dirty ?w = _ => replace (is_dirty (set_old _ a)) with false in hm by (unfold is_dirty; cbn; rewrite o7; symmetry; exact (not_dirty _ hd)) end.
    destruct (adopt B' (s_seqno st') (Plain m') (map fst (mine' ++ inc')) (set_old (fold_left (fun l h => sadd h l) (obsolete 0 (m_unmerged m') bad' (map fst (mine' ++ inc'))) (s_old a')) a')) as [y' st4] eqn:ead.
    pose proof ead as ead'. apply adopt_spec in ead as [(q' & _)|[(q' & hu' & ead)|(_ & i & hu' & _)]]; [cbn [c_msg] in q'; rewrite d2, e1 in q'; congruence| |apply hun in hu; cbn [c_msg] in hu'; congruence].
    apply set_state_spec in hm as [(hm & _)|(_ & f1 & _ & _ & _ & f2 & _)]; [discriminate|].
    apply set_state_spec in ead as [(_ & _ & _ & ead)|(-> & g1 & _)].
    { exfalso. specialize (f2 eq_refl). unfold readonly in *. rewrite he in ead. congruence. }
    exists (good_hashes (length mine') bad' (map fst inc')), st4. split; [eapply hrun; first [exact ead'|reflexivity]|]. unfold s_data, s_seqno, s_msg. rewrite f1, g1.
    replace (is_dirty (set_old _ a')) with false by (unfold is_dirty; cbn; rewrite o8; symmetry; exact (not_dirty _ hd')). cbn [set_conf s_conf c_msg retain]. rewrite d1, d2. split; [reflexivity|]. split; [reflexivity|].
    intros z c1 hz. rewrite he. eapply serialize_retain; [exact hsame|exact hz].
  - exfalso. revert q2. unfold is_dirty. cbn. rewrite o7. pose proof (not_dirty _ hd) as g. unfold is_dirty in g. rewrite g. discriminate.
  - destruct (adopt B' (s_seqno st') (Plain m') (map fst (mine' ++ inc')) (set_old (fold_left (fun l h => sadd h l) (obsolete 0 (m_unmerged m') bad' (map fst (mine' ++ inc'))) (s_old a')) a')) as [y' st4] eqn:ead.
    pose proof ead as ead'. apply adopt_spec in ead as [(q' & _)|[(q' & hu' & ead)|(_ & j & hu' & [(q2 & _)|(_ & st5 & ead & -> & ->)])]].
    + cbn [c_msg] in q'. rewrite d2, e1 in q'. congruence.
    + cbn [c_msg] in hu'. apply hun in hu'. congruence.
    + exfalso. revert q2. unfold is_dirty. cbn. rewrite o8. pose proof (not_dirty _ hd') as g. unfold is_dirty in g. rewrite g. discriminate.
    + apply set_state_spec in hm as [(hm & _)|(_ & f1 & _)]; [discriminate|]. apply set_state_spec in ead as [(ead & _)|(_ & g1 & _)]; [discriminate|].
      exists (good_hashes (length mine') bad' (map fst inc')). eexists. split; [eapply hrun; first [exact ead'|reflexivity]|]. unfold s_data, s_seqno, s_msg. cbn [s_conf]. rewrite f1, g1. cbn [set_conf s_conf c_msg]. rewrite d1, d2. split; [reflexivity|]. split; [reflexivity|].
      intros z c1 hz. rewrite he. assert (c1 = Plain m) by (apply serialize_refresh in hz; cbn in hz; congruence). subst c1. eauto.
Qed.
