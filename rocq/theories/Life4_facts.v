(** Restarts, whole lives, and the history properties. *)
From Verif Require Import BaseSpec Data_facts Diff_facts Bt_facts Message_facts Parse_facts Merge_facts Replay_facts Resolve_facts Wire_facts Reach_facts Round_facts Redeliver_facts Adopt_facts Base_facts Dump_facts Life_facts Life2_facts Life3_facts.

Lemma merge_parsed_single E m m' : merge_parsed E [m] = Ok m' -> m' = set_unmerged (Some 0) m.
Proof.
  unfold merge_parsed. destruct (existsb _ [m]); [discriminate|]. pose proof (marked_fst E [m]) as h.
  destruct (marked E [m]) as [|[m0 red] [|]]; try discriminate. cbn [map fst] in h. injection h as ->. destruct red; cbn; [discriminate|]. congruence.
Qed.
Lemma frame_env E E' m : frame_ok E m -> frame_ok E' m.
Proof. intros []. split; assumption. Qed.
Lemma cfg_env E E' c : cfg_ok E c -> cfg_ok E' c.
Proof. destruct c; cbn [cfg_ok]; intros h; (split; [eapply frame_env; apply h|apply h]). Qed.
Lemma serialize_same_false E m m' s sg : same_content E m m' -> m_vsig m' = m_vsig m -> m_vsig m <> None -> (m_lagged m <> [] -> int64_ok (m_seqno m - e_lag E) = true) ->
  serialize_impl E m (m_diff m) sg = Ok s -> serialize_impl E m' (m_diff m') true = Ok s.
Proof.
  intros hc hv hn hr h. unfold serialize_impl in *. pose proof (body_same _ _ _ hc) as hb. destruct hc as (h1 & h2 & h3 & h4 & h5).
  assert (hnu : negb (is_nil (m_lagged m')) && negb (int64_ok (m_seqno m' - e_lag E)) = false).
  { rewrite h5, h1. unfold windowed. destruct (m_lagged m) as [|p r] eqn:El; [reflexivity|]. rewrite hr by discriminate. rewrite andb_false_r. reflexivity. }
  destruct (negb _ && _) in h; [discriminate|]. rewrite hnu, hb, hv. destruct (m_vsig m); [exact h|congruence].
Qed.
Lemma restore_move B st d st1 ks st' : benv_ok B -> inv1 B st -> dump B st = (Ok d, st1) -> (N.of_nat (length d) <= uint64_max)%N -> restore B ks d = Ok st' ->
  inv1 B st' /\ s_state st' = s_state st /\ s_curr st' = s_curr st /\ s_old st' = s_old st1 /\ s_data st' = s_data st1 /\ s_keys st' = ks /\ s_needs_dump st' = false /\
  s_seqno st' = (s_seqno st + (if is_dirty st then 1 else 0))%Z.
Proof.
  intros hB hi h hl hr. pose proof (inv0_restore _ _ _ _ _ _ (i1_0 _ _ hi) h hl hr) as h0.
  destruct (restore_spec _ _ _ _ _ _ (i1_0 _ _ hi) h hl hr) as (s & c' & conf & hs & hconf & ->). clear hr.
  pose proof h as hdump. apply dump_spec in h as [(s1 & c1 & hs1 & _ & ->)|(h & _)]; [|exfalso; apply (h d); reflexivity].
  rewrite hs in hs1. injection hs1 as <- <-. cbn [s_old s_state s_curr s_keys s_needs_dump].
  destruct (inv1_serialize _ _ _ _ _ hi hs) as [a1 a2]. pose proof (sh_seqno _ _ a2) as hq. cbn [set_conf s_conf] in *.
  assert (hmain : cfg_ok (b_env B) conf /\ (s_state st = Dirty -> exists m o, conf = Mut m o) /\ own_ok (b_env B) conf /\
     m_data (c_msg conf) = m_data (c_msg c') /\ m_seqno (c_msg conf) = (s_seqno st + (if is_dirty st then 1 else 0))%Z).
  { destruct (serialize_ok _ _ _ _ _ (i1_cfg _ _ hi) hs) as (_ & hok & hrf & hser).
    assert (hplain : forall m, parse_msg (store_env (b_env B)) true s = Ok m -> conf = Plain m -> is_dirty st = false ->
      cfg_ok (b_env B) conf /\ (s_state st = Dirty -> exists m o, conf = Mut m o) /\ own_ok (b_env B) conf /\
      m_data (c_msg conf) = m_data (c_msg c') /\ m_seqno (c_msg conf) = (s_seqno st + 0)%Z).
    { intros m hm -> hd. destruct (store_parse _ _ _ _ _ true (i1_cfg _ _ hi) hs) as (m' & p1 & p2 & _ & p4). rewrite hm in p1. injection p1 as <-.
      specialize (p4 eq_refl eq_refl). split.
      - apply (cfg_env (store_env (b_env B))). eapply parse_frame; [|exact hm]. apply hB.
      - split; [unfold is_dirty in hd; intros e; rewrite e in hd; discriminate|]. split.
        + destruct (m_vsig (c_msg c')) as [sig|] eqn:ev.
          * assert (hpl : exists m1, s_conf st = Plain m1).
            { destruct (s_conf st) as [m1|m1 o1] eqn:e; [eauto|]. cbn [refresh] in hrf. destruct (diff _ _); [|discriminate]. injection hrf as <-. discriminate. }
            destruct hpl as [m1 e1]. pose proof (i1_own _ _ hi) as hown. rewrite e1 in hrf, hown. apply refresh_plain in hrf. subst c'. cbn [c_msg own_ok] in *.
            rewrite ev in hown. destruct hown as (s' & m0 & q1 & q2 & q3). unfold own_ok. rewrite p4. exists s', m0. split; [|split; [exact q2|]].
            -- eapply serialize_same_false; [exact p2|congruence|congruence|eapply serialize_range; exact q1|exact q1].
            -- destruct p2 as (p2 & _). congruence.
          * unfold own_ok. rewrite p4. intros hro. destruct (i0_ro _ _ (i1_0 _ _ hi) hro) as (_ & m1 & e1). pose proof (i1_own _ _ hi) as hown. rewrite e1 in hrf, hown.
            apply refresh_plain in hrf. subst c'. cbn [c_msg own_ok] in *. rewrite ev in hown. specialize (hown hro). destruct p2 as (p2 & _). congruence.
        + destruct p2 as (p2 & p3 & _). cbn [c_msg]. split; [exact p3|]. unfold s_seqno, s_msg. rewrite p2, hq. unfold s_msg. lia. }
    destruct (s_state st) eqn:es.
    - destruct hconf as (m & hm & hc). unfold is_dirty in *. rewrite es in *. eapply hplain; eauto.
    - unfold is_dirty. rewrite es. pose proof hconf as hmu. unfold mutable_of in hconf. ok_inv hconf. ok_inv hconf. apply merge_parsed_single in ha0. subst a0.
      destruct (store_parse _ _ _ _ _ false (i1_cfg _ _ hi) hs) as (m' & p1 & p2 & _). rewrite ha in p1. injection p1 as ->.
      assert (hpf : frame_ok (b_env B) m' /\ pruned (m_data m') = true).
      { eapply parse_frame in ha; [|apply hB]. split; [eapply frame_env; apply ha|apply ha]. }
      destruct hpf as [hf hp]. destruct p2 as (q1 & q2 & _).
      assert (hf2 : frame_ok (store_env (b_env B)) (set_unmerged (Some 0) m')) by (apply frame_unmerged; eapply frame_env; exact hf).
      destruct (increment_impl_ok (store_env (b_env B)) (set_unmerged (Some 0) m') conf hf2 hp hconf) as (b1 & b2 & _ & b4 & m'' & ->).
      split; [apply (cfg_env (store_env (b_env B))); exact b1|]. split; [eauto|]. split; [exact I|]. split; [rewrite b4; exact q2|].
      rewrite b2. change (m_seqno (set_unmerged (Some 0) m')) with (m_seqno m'). rewrite q1, hq. reflexivity.
    - destruct hconf as (m & hm & hc). unfold is_dirty in *. rewrite es in *. eapply hplain; eauto. }
  destruct hmain as (b1 & b2 & b3 & b4 & b5). pose proof (i1_nonneg _ _ hi) as hn.
  split; [split; auto; unfold s_seqno, s_msg; cbn [s_conf]; rewrite b5; destruct (is_dirty st); lia|].
  split; [reflexivity|]. split; [reflexivity|]. split; [destruct (readonly B); reflexivity|]. auto.
Qed.
Lemma benv_ok_promote A B g : B = with_signer g A -> readonly A = true -> benv_ok B -> benv_ok A.
Proof.
  intros -> hr [h1 h2 h3 h4]. assert (e : e_signer (b_env A) = None) by (unfold readonly, read_only in hr; destruct (e_verifier (b_env A)), (e_signer (b_env A)); congruence).
  split; [exact h1|exact h2| |].
  - intros v g' x _ e'. congruence.
  - intros g' x e'. congruence.
Qed.
Lemma parse_promote g A trust s : parse_msg (b_env (with_signer g A)) trust s = parse_msg (b_env A) trust s.
Proof. reflexivity. Qed.
Lemma inv1_promote A B g st : B = with_signer g A -> readonly A = true -> inv1 A st -> inv1 B st.
Proof.
  intros -> hr [h0 h1 h2 h3 h4]. split; [exact (inv0_promote A _ g st eq_refl h0)| |exact h2| |exact h4].
  - destruct (i0_ro _ _ h0 hr) as (_ & m & em). rewrite em in *. destruct h1 as [[] h1]. split; [split; assumption|exact h1].
  - destruct (s_conf st) as [m|m o] eqn:e; [|exact I]. unfold own_ok in *. destruct (m_vsig m) as [sig|] eqn:ev.
    + destruct h3 as (s & m0 & p1 & p2 & p3). exists s, m0. split; [|split; [exact p2|exact p3]]. unfold serialize_impl in *. rewrite ev in *. exact p1.
    + intros hr2. exfalso. unfold read_only in hr2. cbn [with_signer b_env e_verifier e_signer] in hr2. destruct (e_verifier (b_env A)); discriminate.
Qed.
Lemma life_inv1 B st : benv_ok B -> life B tame st -> inv1 B st.
Proof.
  intros hB h. induction h as [B ks|B st o st' _ IH h|B st d st1 ks st' _ IH h1 h2 h3|B A g st _ IH hro e]; [|specialize (IH hB)..|].
  - split; try discriminate; try (cbn; discriminate); try reflexivity.
    + apply (life_inv0 B every). constructor.
    + eapply reach_ok; [apply hB|apply hB|]. apply reach_new.
    + cbn. intros _. reflexivity.
  - eapply step_move; eassumption.
  - eapply restore_move; eassumption.
  - eapply inv1_promote; [exact e|exact hro|]. apply IH. eapply benv_ok_promote; eassumption.
Qed.
Lemma moved_le st st' : moved st st' -> (s_seqno st <= s_seqno st')%Z.
Proof. intros [h|[h _]]; lia. Qed.
Lemma steps_inv1 B l : forall st st', benv_ok B -> inv1 B st -> steps B (tame B) st l st' -> inv1 B st' /\ (s_seqno st <= s_seqno st')%Z.
Proof.
  induction l as [|o l IH]; intros st st' hB hi h; inversion h as [|o' st1 l' st2 hs1 hs2]; subst; [split; [exact hi|lia]|].
  destruct (step_move _ _ _ _ hB hi hs1) as [a1 a2]. destruct (IH _ _ hB a1 hs2) as [b1 b2]. split; [exact b1|]. apply moved_le in a2. lia.
Qed.
(** after a push: as long as the seqno stays, so does the message *)
Lemma same_conf_step c c' : refresh c = Ok c -> same_conf c c' -> c' = c.
Proof. intros h [h1|h1]; congruence. Qed.
Lemma frozen B st st' : benv_ok B -> inv1 B st -> refresh (s_conf st) = Ok (s_conf st) -> s_state st <> Dirty -> forall l, steps B (tame B) st l st' ->
  (s_seqno st < s_seqno st')%Z \/ (s_conf st' = s_conf st /\ s_state st' <> Dirty).
Proof.
  intros hB hi hr hnd l. revert st hi hr hnd. induction l as [|o l IH]; intros st hi hr hnd h; inversion h as [|o' st1 l' st2 hs1 hs2]; subst; [right; auto|].
  destruct (step_move _ _ _ _ hB hi hs1) as [a1 a2]. destruct a2 as [a2|(a2 & a3)].
  - left. destruct (steps_inv1 _ _ _ _ hB a1 hs2) as [_ b]. lia.
  - destruct a3 as [a3|(a3 & a4)]; [congruence|]. apply same_conf_step in a3; [|exact hr].
    assert (hnd1 : s_state st1 <> Dirty) by (destruct a4 as [a4|[_ a4]]; rewrite a4; [exact hnd|discriminate]).
    destruct (IH st1 a1 ltac:(congruence) hnd1 hs2) as [b|(b & b')].
    + left. lia.
    + right. split; [congruence|exact b'].
Qed.
Lemma push_refreshed B st r st' : inv1 B st -> push B st = (Ok r, st') -> refresh (s_conf st') = Ok (s_conf st') /\ s_state st' <> Dirty /\ s_seqno st' = s_seqno st /\ fst (fst r) = s_seqno st.
Proof.
  intros hi h. destruct (push_move _ _ _ _ hi h) as [h1 _].
  apply push_spec in h as [(h & _)|(k & s & conf & c & st2 & _ & hs & _ & _ & h2 & hx & ->)]; [exfalso; apply (h r); reflexivity|]. injection hx as ->.
  destruct (inv1_serialize _ _ _ _ _ hi hs) as [_ a2]. apply serialize_refresh in hs. apply refresh_idem in hs. cbn [set_old s_conf s_state fst].
  destruct h2 as [(hd & h2)|(hd & ->)].
  - apply set_state_spec in h2 as [(_ & _ & h2 & _)|(_ & e1 & e2 & _)]; [discriminate|]. cbn [set_conf s_conf] in e1. rewrite e1, e2.
    split; [exact hs|]. split; [discriminate|]. split; [|reflexivity]. unfold s_seqno, s_msg. cbn [set_old s_conf]. rewrite e1. apply sh_seqno, a2.
  - cbn [set_conf s_conf s_state]. split; [exact hs|]. split; [unfold is_dirty in hd; destruct (s_state st); congruence|]. split; [|reflexivity].
    unfold s_seqno, s_msg. cbn [set_old set_conf s_conf]. apply sh_seqno, a2.
Qed.
(** C24: a confirmation that is accepted is for the message that is still current *)
Lemma confirmed_is_pushed B st r st1 l st2 h x st3 : benv_ok B -> life B tame st -> push B st = (Ok r, st1) -> steps B (tame B) st1 l st2 ->
  confirm_pushed B (fst (fst r)) h st2 = (x, st3) -> st3 <> st2 -> s_conf st2 = s_conf st1 /\ s_state st3 = Clean /\ s_curr st3 = h /\ s_conf st3 = s_conf st2.
Proof.
  intros hB hl hp hs hc hne. pose proof (life_inv1 _ _ hB hl) as hi. destruct (push_refreshed _ _ _ _ hi hp) as (a1 & a2 & a3 & a4).
  destruct (push_move _ _ _ _ hi hp) as [hi1 _]. apply confirm_spec in hc as (_ & [(_ & hc)|(c1 & c2 & ->)]); [congruence|].
  destruct (frozen _ _ _ hB hi1 a1 a2 _ hs) as [b|(b & _)]; [lia|]. auto.
Qed.
