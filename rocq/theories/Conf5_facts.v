(** Proofs of C27. *)
From Verif Require Import BaseSpec Data_facts Diff_facts Parse_facts Message_facts Round_facts Reach_facts Redeliver_facts Merge_facts Resolve_facts Merge2_facts Adopt_facts Crypt_facts Base_facts Dump_facts Life_facts Life2_facts Life3_facts Life4_facts Fields_facts Conf_facts Conf2_facts Conf3_facts.

Lemma max_elt_first l : forall i bi p, (forall q, In q l -> rank_lt p q = false) -> max_elt i bi p l = (bi, fst p).
Proof. induction l as [|q l IH]; intros i bi p h; [reflexivity|]. cbn [max_elt]. rewrite (h q (or_introl eq_refl)). apply IH. intros q' hq. apply h. right. exact hq. Qed.
Lemma head_stays E m0 r m i : good E (m0 :: r) -> (1 <= e_lag E)%Z -> (read_only E = true -> forall x, In x r -> m_seqno x = m_seqno m0 -> m_sh x = m_sh m0) -> merge_parsed E (m0 :: r) = Ok m -> m_unmerged m = Some i -> (m_seqno m <= m_seqno m0)%Z -> i = 0.
Proof.
  intros hg hlag hro h hu hle. set (l := m0 :: r) in *.
  assert (hge : forall x, In x l -> (m_seqno x <= m_seqno m)%Z) by (intros x hx; eapply merge_parsed_ge; eauto).
  assert (hred : superseded [] m0 r || (m_seqno m0 + e_lag E <=? max_seqno l)%Z = false).
  { apply orb_false_iff. split.
    - unfold superseded. cbn [existsb app]. rewrite orb_false_r. destruct (existsb _ r) eqn:e; [|reflexivity]. exfalso.
      apply existsb_exists in e as (y & hy & hk). apply has_key_In in hk. assert (hyl : In y l) by (right; exact hy).
      pose proof (g_old _ _ hg y (m_sh m0) hyl hk) as h1. specialize (hge y hyl). unfold m_seqno in *. lia.
    - apply Z.leb_gt. destruct (max_seqno_in l) as (t & ht & ->); [discriminate|intros y hy; apply (ok_seqno _ _ (g_ok _ _ hg y hy))|]. specialize (hge t ht). lia. }
  unfold merge_parsed in h. unfold l in h at 1. destruct (existsb _ l); [discriminate|].
  assert (hm : exists rest, marked E l = (m0, false) :: rest).
  { unfold marked, l. cbn [mark mark_old map fst snd]. fold l. eexists. rewrite hred. reflexivity. }
  destruct hm as [rest hm]. rewrite hm in h. cbn [filter negb snd] in h. destruct (filter _ rest) as [|q w].
  - cbn [first_current] in h. injection h as <-. cbn in hu. congruence.
  - destruct (read_only E).
    { rewrite max_elt_first in h; [injection h as <-; cbn in hu; congruence|]. intros [y red] hy. unfold rank_lt. cbn [snd fst Bool.eqb]. destruct red; [reflexivity|]. cbn [Bool.eqb].
      destruct (ltb (m_sh m0) (m_sh y)) eqn:el; [|reflexivity]. exfalso.
      assert (hyl : In y l). { assert (e : map fst (marked E l) = l) by apply marked_fst. rewrite <- e, hm. right. apply in_map_iff. exists (y, false). auto. }
      destruct hyl as [e|hyr]; [subst y; apply ltb_lt, lt_irrefl in el; exact el|].
      assert (e : m_sh y = m_sh m0). { apply (hro eq_refl y hyr). specialize (hge y (or_intror hyr)). clear -hge hle el. assert (el2 : (m_seqno m0 <= m_seqno y)%Z). { apply ltb_lt in el. unfold lt, cmp, cmp_prod in el. unfold m_seqno. destruct (cmp (fst (m_sh m0)) (fst (m_sh y))) eqn:ec; [apply cmp_eq in ec; rewrite ec; apply Z.le_refl|apply Z.lt_le_incl; exact ec|discriminate]. } unfold m_seqno in *. lia. }
      rewrite e in el. apply ltb_lt, lt_irrefl in el. exact el. }
    exfalso. unfold resolve in h. destruct (negb _); [discriminate|]. destruct (sort_desc _); [discriminate|]. 
    destruct (run_replay _ _); [|discriminate]. ok_inv h. injection h as <-. discriminate hu.
Qed.

Lemma life_mono B (R R' : benv -> op -> bstate -> bstate -> Prop) st : (forall B o a a', R B o a a' -> R' B o a a') -> life B R st -> life B R' st.
Proof.
  intros hr h. induction h as [B ks|B st o st' _ IH h|B st d st1 ks st' _ IH h1 h2 h3|B A g st _ IH hro e]; [constructor| |eapply life_restore; eassumption|eapply life_promote; eassumption].
  eapply life_step; [exact IH|]. destruct h as [o x st' h1 h2 h3]. eapply step_run; eauto.
Qed.
Lemma incoming_fst B keys l : forall inc, incoming B keys l = Ok inc -> exists p, map fst inc = map fst (filter p l).
Proof.
  intros inc h. exists (fun hc => match decrypt_any B keys (snd hc) with Ok (Some p) => match unpack B p with Some _ => true | None => false end | _ => false end). revert inc h.
  induction l as [|[h c] l IH]; intros inc e; cbn [incoming filter snd] in *; [injection e as <-; reflexivity|].
  ok_inv e. ok_inv e. injection e as <-. destruct a as [p|]; [destruct (unpack B p)|]; cbn [map fst]; rewrite (IH _ eq_refl); reflexivity.
Qed.
Lemma NoDup_map_filter {A C} (f : A -> C) p l : NoDup (map f l) -> NoDup (map f (filter p l)).
Proof.
  induction l as [|x l IH]; cbn [map filter]; intros h; [constructor|]. apply NoDup_cons_iff in h as [h1 h2]. destruct (p x); [|auto]. cbn [map]. constructor; [|auto].
  intros hx. apply h1. apply in_map_iff in hx as (y & e & hy). apply filter_In in hy as [hy _]. apply in_map_iff. eauto.
Qed.
Lemma obsolete_In super bad hs : forall i h, In h (obsolete i super bad hs) -> exists j, nth_error hs j = Some h /\ super <> Some (i + j).
Proof.
  induction hs as [|h0 hs IH]; intros i h hin; cbn [obsolete] in hin; [destruct hin|].
  assert (hrest : In h (obsolete (S i) super bad hs) -> exists j, nth_error (h0 :: hs) j = Some h /\ super <> Some (i + j)).
  { intros g. apply IH in g as (j & g1 & g2). exists (S j). split; [exact g1|]. rewrite <- plus_n_Sm. exact g2. }
  destruct (_ && _ && _) eqn:e; [|auto]. destruct hin as [<-|hin]; [|auto]. exists 0. split; [reflexivity|].
  apply andb_true_iff in e as [e _]. apply andb_true_iff in e as [e _]. rewrite Nat.add_0_r. intros ->. rewrite Nat.eqb_refl in e. discriminate.
Qed.
Lemma obsolete_not super bad hs i : NoDup hs -> super = Some i -> ~ (nth i hs [] <> [] /\ In (nth i hs []) (obsolete 0 super bad hs)).
Proof.
  intros hn -> (hne & h). apply obsolete_In in h as (j & h1 & h2). cbn in h2. apply h2. f_equal.
  assert (hlt : i < length hs) by (destruct (Nat.lt_ge_cases i (length hs)); [assumption|]; rewrite nth_overflow in hne by assumption; congruence).
  apply NoDup_nth_error with (l := hs); [exact hn|exact hlt|]. rewrite (nth_error_nth' hs [] hlt). symmetry. exact h1.
Qed.
Definition inv5 (st : bstate) : Prop := s_curr st <> [] -> ~ In (s_curr st) (s_old st).
Lemma inv5_merge B l st x st' : benv_ok B -> inv1 B st -> inv5 st -> op_ok B (OpMerge l) st -> NoDup (map fst l) ->
  (forall h, In h (map fst l) -> h <> s_curr st /\ ~ In h (s_old st)) ->
  (readonly B = true -> forall mine inc, merge_sees B l st mine inc -> forall h s m, In (h, s) inc -> parse_msg (b_env B) false s = Ok m ->
     m_seqno m = s_seqno st -> In s (map snd mine)) -> merge B l st = (x, st') -> inv5 st'.
Proof.
  intros hB hi h5 hok hnd hfresh hriv hm. unfold merge in hm. set (l1 := map (unwrap1 B st) l) in *.
  assert (el1 : map fst l1 = map fst l).
  { unfold l1. rewrite map_map. apply map_ext. intros [h c]. unfold unwrap1. destruct (s_keys st); [reflexivity|]. destruct (b_proto B); [|reflexivity]. cbn [snd fst]. destruct (b_unwrap B _ c); reflexivity. }
  apply merge_plain_spec in hm as [(_ & ->)|(mine & st1 & ho & hm)]; [exact h5|].
  assert (hs1 : s_curr st1 = s_curr st /\ s_old st1 = s_old st /\ s_state st1 = s_state st).
  { apply own_part_spec in ho as [(_ & e)|(_ & s & c & _ & e)]; injection e as _ ->; auto. }
  destruct hs1 as (hs1 & hs2 & hs3). destruct hm as [(_ & ->)|(inc & new & bad & _ & hinc & hmc & y & hm & _)]; [unfold inv5; rewrite hs1, hs2; exact h5|]. cbv zeta in hm.
  destruct (incoming_fst _ _ _ _ hinc) as [p hp].
  assert (hin : forall h, In h (map fst inc) -> h <> s_curr st /\ ~ In h (s_old st)).
  { intros h hh. apply hfresh. rewrite <- el1. rewrite hp in hh. apply in_map_iff in hh as (z & e & hz). apply filter_In in hz as [hz _]. apply in_map_iff. eauto. }
  assert (hndi : NoDup (map fst inc)) by (rewrite hp; apply NoDup_map_filter; rewrite el1; exact hnd).
  assert (hmine : mine = [] \/ exists s, mine = [(s_curr st, s)]).
  { apply own_part_spec in ho as [(_ & e)|(_ & s & c & _ & e)]; injection e as -> _; eauto. }
  assert (hndh : NoDup (map fst (mine ++ inc))).
  { destruct hmine as [->|(s & ->)]; [exact hndi|]. cbn [app map fst]. constructor; [|exact hndi]. intros hc. apply hin in hc. destruct hc. congruence. }
  set (hashes := map fst (mine ++ inc)) in *.
  (** the own message, when it is adopted, keeps its seqno *)
  assert (hown : is_dirty st = false -> forall s, mine = [(s_curr st, s)] -> exists m0 ms' m, new = Plain m /\ parse_msg (b_env B) false s = Ok m0 /\ m_seqno m0 = s_seqno st /\ good (b_env B) (m0 :: ms') /\ merge_parsed (b_env B) (m0 :: ms') = Ok m /\ (m_unmerged m = None -> (s_seqno st < m_seqno m)%Z) /\
    (read_only (b_env B) = true -> forall x, In x ms' -> m_seqno x = m_seqno m0 -> m_sh x = m_sh m0)).
  { intros hd s ->. apply own_part_spec in ho as [(_ & e)|(hz & s1 & c & hs & e)]; [discriminate|]. injection e as <- _.
    destruct (own_parses _ _ _ _ hB hi hs hz) as (m0 & q1 & q2). unfold merge_confs in hmc. rewrite hd in hmc. ok_inv hmc. destruct a as [m bd]. injection hmc as <- <-. cbn [fst snd] in *.
    assert (hsee : merge_sees B l st [(s_curr st, s)] inc).
    { split; [|exact hinc]. exists (set_conf c st). unfold own_part. rewrite hd in *. destruct (s_seqno st =? 0)%Z; [discriminate|]. cbn [negb orb]. rewrite hs. reflexivity. }
    destruct (hok [(s_curr st, s)] inc hsee) as (hnc & _). pose proof ha as ha'. apply merge_msgs_inv in ha as (ms & g1 & g2). pose proof g1 as g1'. cbn [app map snd parse_all] in g1. pose proof (parsed_good _ _ _ _ _ hnc g1) as hg.
    rewrite q1 in g1. destruct (parse_all (b_env B) 1 _) as [[ms' b']| | | |] eqn:epa; try discriminate. cbn [bind] in g1. injection g1 as <- <-. exists m0, ms', m.
    split; [reflexivity|]. split; [exact q1|]. split; [exact q2|]. split; [exact hg|]. split; [exact g2|]. split.
    - intros hu. rewrite <- q2. apply (proj1 (conflict_seqno _ _ _ _ _ hnc ha' hu g1')). left. reflexivity.
    - intros hr x0 hx hq. apply (parse_all_spec _ _ _ _ _ epa) in hx as (s' & hs' & hx). apply in_map_iff in hs' as ([h' s2] & e2 & hin2). cbn [snd] in e2. subst s2.
      destruct (hriv hr _ _ hsee h' s' x0 hin2 hx ltac:(congruence)) as [e3|[]]. cbn [snd] in e3. subst s'. congruence. }
  apply adopt_spec in hm as [(q & _ & ->)|[(q & hu & hm)|(q & i & hu & [(hdd & _ & _ & _ & ->)|(hnot & st2 & hm & _ & ->)])]].
  - unfold inv5. cbn [set_old s_curr s_old]. rewrite hs1, hs2. intros hne. rewrite fold_sadd_In. intros [hc|hc]; [|exact (h5 hne hc)].
    assert (hcl : is_dirty st = false) by (apply not_dirty; intros hd; apply hne, (i0_curr _ _ (i1_0 _ _ hi)); congruence).
    apply obsolete_In in hc as (j & hj & hsup). cbn in hsup. destruct hmine as [->|(s & ->)].
    + cbn [app] in *. apply nth_error_In in hj. apply hin in hj. destruct hj. congruence.
    + destruct j as [|j]; [|cbn [app map nth_error] in hj; apply nth_error_In in hj; apply hin in hj; destruct hj; congruence].
      destruct (hown hcl s eq_refl) as (m0 & ms' & m & -> & q1 & q2 & hg & g2 & g3 & g4). cbn [c_msg] in *.
      destruct (m_unmerged m) as [i|] eqn:hu.
      * apply hsup. rewrite (head_stays _ _ _ _ _ hg (bo_lag _ hB) g4 g2 hu); [reflexivity|lia].
      * specialize (g3 eq_refl). lia.
  - intros hne. exfalso. apply hne. apply set_state_spec in hm as [(_ & _ & _ & hm)|(_ & _ & _ & _ & _ & _ & hm)].
    { exfalso. destruct (i0_ro _ _ (i1_0 _ _ hi) hm) as [hcl _]. destruct (merge_confs_ro B (is_dirty st) _ new bad hm ltac:(unfold is_dirty; rewrite hcl; reflexivity) hmc) as (m1 & i1 & -> & e1). cbn [c_msg] in hu. congruence. }
    destruct hm as [(_ & _ & hm & _)|([hm|hm] & hm2 & _)]; [exact hm| |congruence]. rewrite hm2. cbn. rewrite hs1. apply (i0_curr _ _ (i1_0 _ _ hi)). cbn in hm. congruence.
  - intros hne. exfalso. apply hne. cbn. rewrite hs1. apply (i0_curr _ _ (i1_0 _ _ hi)). unfold is_dirty in hdd. cbn in hdd. rewrite hs3 in hdd. destruct (s_state st); discriminate.
  - unfold inv5. cbn [s_curr s_old]. intros hne hc.
    assert (hlt : i < length hashes) by (destruct (Nat.lt_ge_cases i (length hashes)); [assumption|]; rewrite nth_overflow in hne by assumption; congruence).
    assert (hsrc : In (nth i hashes []) (map fst inc)).
    { destruct hmine as [->|(s & ->)]; [unfold hashes; apply nth_In; exact hlt|]. destruct i as [|i].
      - exfalso. unfold hashes in hne. cbn [app map fst nth] in hne.
        assert (hcl : is_dirty st = false) by (apply not_dirty; intros hd; apply hne, (i0_curr _ _ (i1_0 _ _ hi)); congruence).
        destruct (hown hcl s eq_refl) as (m0 & ms' & m & -> & q1 & q2 & hg & g2 & g3 & g4). cbn [c_msg] in *.
        destruct (merge_parsed_index _ _ _ _ g2 hu) as (z & hz & ->). cbn [nth_error] in hz. injection hz as <-. apply q. exact q2.
      - unfold hashes in *. cbn [app map fst nth length] in *. apply nth_In. lia. }
    destruct (hin _ hsrc) as [f1 f2].
    assert (hbase : In (nth i hashes []) (s_curr st :: fold_left (fun l h => sadd h l) (obsolete 0 (m_unmerged (c_msg new)) bad hashes) (s_old st1))).
    { apply set_state_spec in hm as [(hm & _)|(_ & _ & _ & _ & _ & _ & [(_ & _ & _ & e)|(_ & _ & e)])]; [discriminate| |]; rewrite e in hc; cbn in hc; [|right; exact hc].
      apply In_sadd in hc as [hc|hc]; [left; rewrite <- hs1; symmetry; exact hc|right; exact hc]. }
    destruct hbase as [hb|hb]; [congruence|]. rewrite fold_sadd_In, hs2 in hb. destruct hb as [hb|hb]; [|exact (f2 hb)].
    apply (obsolete_not _ bad _ i hndh hu). split; assumption.
Qed.
Lemma inv5_run B o st x st' : benv_ok B -> inv1 B st -> inv5 st -> once B o st st' -> run B o st = (x, st') -> inv5 st'.
Proof.
  intros hB hi h5 [[hok _] ho] h. pose proof (inv0_run _ _ _ _ _ (i1_0 _ _ hi) h) as h0.
  assert (hnd : s_state st' = Dirty -> inv5 st') by (intros hd hne; exfalso; apply hne, (i0_curr _ _ h0); congruence).
  assert (hdi : forall st0 y, inv5 st0 -> dirty B st0 = (y, st') -> inv5 st').
  { intros st0 y g0 g. apply dirty_spec in g as [(_ & -> & _)|[(_ & _ & _ & ->)|(_ & _ & st3 & g & g2)]]; [exact g0|exact g0|].
    apply set_state_spec in g as [(g & _)|(_ & _ & g & _)]; [discriminate|]. apply hnd. destruct g2 as [(c & _ & _ & ->)|(_ & _ & ->)]; exact g. }
  destruct (is_edit o) eqn:ee.
  - apply edit_op_spec in h; [|exact ee]. destruct h as [(_ & ->)|(f & g)]; [exact h5|].
    apply edit_spec in g as [(_ & g)|(st1 & m & o1 & g & _ & _ & ->)]; [eapply hdi; eauto|]. apply hnd. apply dirty_ok in g as (m1 & o2 & _ & g & _). exact g.
  - destruct (is_key_op o) eqn:ek.
    + apply key_op_spec in h as [->|(ks & [->|(y & g)])]; [exact h5|exact h5| |exact ek]. eapply hdi; [|exact g]. exact h5.
    + destruct o; try discriminate; cbn [run] in h.
      * apply ignore_returned in h. destruct (push B st) as [y st2] eqn:e. cbn [snd] in h. subst st2.
        apply push_spec in e as [(_ & [->|(s & c & hs & ->)])|(k & s & conf & c & st2 & _ & hs & _ & _ & h2 & _ & ->)]; [exact h5|exact h5|]. intros _ hc. destruct hc.
      * apply confirm_spec in h as (_ & [(_ & ->)|(_ & _ & ->)]); [exact h5|]. intros _. exact ho.
      * apply ignore_returned in h. destruct (merge B l st) as [y st2] eqn:e. cbn [snd] in h. subst st2. destruct ho as (ho1 & ho2 & ho3). eapply inv5_merge; eassumption.
      * apply ignore_returned in h. destruct (dump B st) as [y st2] eqn:e. cbn [snd] in h. subst st2.
        apply dump_spec in e. cbv zeta in e. destruct (readonly B); destruct e as [(s & c & _ & _ & ->)|(_ & ->)]; try exact h5; intros _ [].
Qed.
Lemma once_life B st : life B once st -> life B tame st.
Proof. apply life_mono. intros B0 o a a' [h _]. exact h. Qed.
Lemma life_inv5 B st : benv_ok B -> life B once st -> inv5 st.
Proof.
  intros hB h. induction h as [B ks|B st o st' hl IH h|B st d st1 ks st' hl IH h1 h2 h3|B A g st _ IH hro e];
    [intros hc; exfalso; apply hc; reflexivity|specialize (IH hB)..|exact (IH (benv_ok_promote _ _ _ e hro hB))].
  - destruct h as [o x st' h1 h2 h3]. eapply inv5_run; eauto. apply life_inv1; [exact hB|apply once_life; exact hl].
  - destruct (restore_move _ _ _ _ _ _ hB (life_inv1 _ _ hB (once_life _ _ hl)) h1 h2 h3) as (_ & _ & e1 & e2 & _). unfold inv5. rewrite e1, e2.
    apply dump_spec in h1. cbv zeta in h1. destruct (readonly B); destruct h1 as [(s & c & _ & _ & ->)|(_ & ->)]; try exact IH; intros _ [].
Qed.
(** what a push asks to delete never includes the current message *)
Lemma push_obsolete B st n c o st' h : benv_ok B -> life B once st -> push B st = (Ok (n, c, o), st') -> In h o -> ~ In h (current_hashes st').
Proof.
  intros hB hl hp ho hc. unfold current_hashes in hc. destruct (s_curr st') eqn:e; [destruct hc|]. cbn [is_nil] in hc. destruct hc as [<-|[]]. rewrite <- e in ho.
  apply push_spec in hp as [(hx & _)|(k & s & conf & c0 & st2 & _ & hs & _ & _ & hst & hout & ->)]; [exfalso; eapply hx; reflexivity|]. cbv zeta in hout. injection hout as -> -> ->.
  destruct (readonly B) eqn:hro; [destruct ho|]. cbn [set_old s_curr] in *. pose proof (life_inv5 _ _ hB hl) as h5. pose proof (life_inv1 _ _ hB (once_life _ _ hl)) as hi.
  destruct hst as [(hd & g)|(_ & ->)].
  - assert (h0 : s_curr st = []) by (apply (i0_curr _ _ (i1_0 _ _ hi)); unfold is_dirty in hd; destruct (s_state st); congruence).
    apply set_state_spec in g as [(g & _)|(_ & _ & _ & _ & _ & _ & [(_ & _ & g & _)|(_ & g & _)])]; [discriminate| |]; cbn in g; congruence.
  - cbn in *. apply h5; [congruence|exact ho].
Qed.
