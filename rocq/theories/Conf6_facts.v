(** Proofs of C29. *)
From Verif Require Import BaseSpec Data_facts Diff_facts Parse_facts Message_facts Round_facts Reach_facts Redeliver_facts Merge_facts Resolve_facts Merge2_facts Adopt_facts Crypt_facts Base_facts Dump_facts Life_facts Life2_facts Life3_facts Life4_facts Fields_facts Conf_facts Conf2_facts Conf3_facts Conf5_facts.

(** ** the lagged diffs kept by an increment *)
Definition mono (l : lagged_t) : Prop := StronglySorted (fun p q => (fst (fst p) <= fst (fst q))%Z) l.
Lemma lt_fst_le (x y : shash) : lt x y -> (fst x <= fst y)%Z.
Proof.
  destruct x as [a x], y as [c y]. unfold lt, cmp, cmp_prod. cbn [fst snd]. intros h. destruct (cmp a c) eqn:e; try discriminate.
  - apply cmp_eq in e. lia.
  - apply Z.lt_le_incl. exact e.
Qed.
Lemma msorted_mono l : msorted l -> mono l.
Proof.
  unfold msorted, mono. induction l as [|p l IH]; intros h; constructor; cbn [keys map] in h; apply StronglySorted_inv in h as [h1 h2]; [apply IH; exact h1|].
  rewrite Forall_forall in *. intros q hq. apply lt_fst_le. apply h2. apply in_map. exact hq.
Qed.
Lemma drop_old_filter a l : mono l -> drop_old a l = filter (fun p => (a <? fst (fst p))%Z) l.
Proof.
  induction l as [|[s d] l IH]; intros h; [reflexivity|]. apply StronglySorted_inv in h as [h1 h2]. cbn [drop_old filter fst]. destruct (Z.leb_spec (fst s) a) as [e|e].
  - replace (a <? fst s)%Z with false by (symmetry; apply Z.ltb_ge; exact e). auto.
  - replace (a <? fst s)%Z with true by (symmetry; apply Z.ltb_lt; exact e). f_equal. rewrite Forall_forall in h2.
    clear IH h1. induction l as [|q l IH]; [reflexivity|]. cbn [filter]. match goal with |- context [if ?x then _ else _] => destruct x eqn:ex end; [f_equal; apply IH; intros x hx; apply h2; right; exact hx|].
    exfalso. apply Z.ltb_ge in ex. specialize (h2 q ltac:(left; reflexivity)). cbn in h2. lia.
Qed.
Lemma filter_none {A} (p : A -> bool) l : (forall x, In x l -> p x = false) -> filter p l = [].
Proof. induction l as [|x l IH]; intros h; [reflexivity|]. cbn [filter]. rewrite (h x) by (left; reflexivity). apply IH. intros y hy. apply h. right. exact hy. Qed.
Lemma drop_new_filter c l : mono l -> drop_new c l = filter (fun p => (fst (fst p) <? c)%Z) l.
Proof.
  induction l as [|[s d] l IH]; intros h; [reflexivity|]. apply StronglySorted_inv in h as [h1 h2]. cbn [drop_new filter fst]. rewrite (IH h1). rewrite Forall_forall in h2.
  destruct (Z.ltb_spec (fst s) c) as [e|e].
  - rewrite Z.geb_leb. replace (c <=? fst s)%Z with false by (symmetry; apply Z.leb_gt; exact e). match goal with |- context [match ?x with _ => _ end] => destruct x end; reflexivity.
  - match goal with |- context [filter ?p l] => rewrite (filter_none p l) end.
    + rewrite Z.geb_leb. replace (c <=? fst s)%Z with true by (symmetry; apply Z.leb_le; exact e). reflexivity.
    + intros x hx. apply h2 in hx. cbn in hx. apply Z.ltb_ge. lia.
Qed.
Lemma mono_filter p l : mono l -> mono (filter p l).
Proof.
  unfold mono. induction l as [|x l IH]; intros h; [constructor|]. apply StronglySorted_inv in h as [h1 h2]. cbn [filter]. destruct (p x); [|auto]. constructor; [auto|].
  rewrite Forall_forall in *. intros y hy. apply filter_In in hy as [hy _]. auto.
Qed.
Lemma filter_filter {A} (p q : A -> bool) l : filter p (filter q l) = filter (fun x => q x && p x) l.
Proof. induction l as [|x l IH]; [reflexivity|]. cbn [filter]. destruct (q x); cbn [andb filter]; rewrite IH; reflexivity. Qed.
Lemma drop_windowed E m : msorted (m_lagged m) ->
  drop_new (m_seqno m) (drop_old (m_seqno m - e_lag E)%Z (m_lagged m)) = windowed E m.
Proof.
  intros h. apply msorted_mono in h. rewrite (drop_old_filter _ _ h), (drop_new_filter _ _ (mono_filter _ _ h)), filter_filter. unfold windowed. apply filter_ext. intros p. unfold in_window.
  rewrite negb_orb, Z.geb_leb, <- Z.ltb_antisym, <- Z.ltb_antisym. reflexivity.
Qed.

(** ** configs that differ only in things nobody can see *)
Definition mutsim (c c' : config) : Prop :=
  match c, c' with
  | Mut m o, Mut m' o' => m_sh m = m_sh m' /\ m_data m = m_data m' /\ m_lagged m = m_lagged m' /\ m_unknown m = m_unknown m' /\ o = o'
  | _, _ => False
  end.
Definition incsim (x y : outcome config) : Prop :=
  match x, y with Ok c, Ok c' => mutsim c c' | UB, UB => True | _, _ => False end.
Definition csim (E : env) (c c' : config) : Prop :=
  (exists s d d', serialize E c true = Ok (s, d) /\ serialize E c' true = Ok (s, d')) /\ incsim (increment E c) (increment E c').
Lemma mutsim_serialize E c c' sg s d : mutsim c c' -> serialize E c sg = Ok (s, d) -> exists d', serialize E c' sg = Ok (s, d').
Proof.
  destruct c as [m|m o], c' as [m'|m' o']; cbn [mutsim]; try tauto. intros (h1 & h2 & h3 & h4 & ->). unfold serialize. cbn [refresh]. rewrite <- h2.
  destruct (diff o' _) as [df|]; cbn [bind]; [|discriminate]. cbn [c_msg m_diff]. intros h. ok_inv h. injection h as <- <-.
  match goal with |- exists d', bind (serialize_impl E ?y ?df ?sg) _ = _ => match type of ha with serialize_impl E ?x _ _ = _ => assert (e : serialize_impl E y df sg = serialize_impl E x df sg) end end.
  { unfold serialize_impl, body, body_entries, m_seqno. cbn [m_lagged m_sh m_unknown m_data m_vsig]. rewrite h1, h3, h4. reflexivity. }
  rewrite e, ha. cbn [bind]. eauto.
Qed.
Lemma mutsim_sym c c' : mutsim c c' -> mutsim c' c.
Proof. destruct c, c'; cbn; intuition congruence. Qed.
Lemma windowed_windowed E m m' : m_seqno m' = m_seqno m -> m_lagged m' = windowed E m -> windowed E m' = windowed E m.
Proof. intros h1 h2. unfold windowed at 1. rewrite h1, h2. unfold windowed. apply filter_idem. Qed.
Lemma windowed_sorted E m : msorted (m_lagged m) -> msorted (windowed E m).
Proof.
  intros h. unfold windowed, msorted, ssorted in *. induction (m_lagged m) as [|p l IH]; [constructor|]. cbn [keys map] in h. apply StronglySorted_inv in h as [h1 h2]. cbn [filter].
  match goal with |- context [if ?q then _ else _] => destruct q end; [|auto]. cbn [keys map]. constructor; [auto|]. rewrite Forall_forall in *. intros k hk. apply h2.
  unfold keys in hk. apply in_map_iff in hk as (q & <- & hq). apply filter_In in hq as [hq _]. apply in_map. exact hq.
Qed.
Lemma inc_impl_sim E m m' : msorted (m_lagged m) -> (m_lagged m <> [] -> int64_ok (m_seqno m - e_lag E) = true) ->
  m_sh m' = m_sh m -> m_data m' = m_data m -> m_diff m' = m_diff m -> m_lagged m' = windowed E m -> m_unknown m' = m_unknown m ->
  incsim (increment_impl E m) (increment_impl E m').
Proof.
  intros hs hr h1 h2 h3 h4 h5. assert (hq : m_seqno m' = m_seqno m) by (unfold m_seqno; rewrite h1; reflexivity).
  assert (hs' : msorted (m_lagged m')) by (rewrite h4; apply windowed_sorted; exact hs).
  assert (hu : negb (is_nil (m_lagged m)) && negb (int64_ok (m_seqno m - e_lag E)) = false).
  { destruct (m_lagged m); [reflexivity|]. rewrite hr by discriminate. rewrite andb_false_r. reflexivity. }
  assert (hu' : negb (is_nil (m_lagged m')) && negb (int64_ok (m_seqno m' - e_lag E)) = false).
  { rewrite h4, hq. unfold windowed. destruct (m_lagged m); [reflexivity|]. rewrite hr by discriminate. rewrite andb_false_r. reflexivity. }
  unfold increment_impl. rewrite hu, hu', hq, !orb_false_r. destruct (negb (int64_ok (m_seqno m + 1))); [exact I|]. cbn [incsim mutsim m_sh m_data m_lagged m_unknown].
  pose proof (drop_windowed E m hs) as e1. pose proof (drop_windowed E m' hs') as e2. rewrite (windowed_windowed _ _ _ hq h4) in e2. rewrite hq in e2. rewrite h1, h2, h3, h5.
  split; [reflexivity|]. split; [reflexivity|]. split; [|split; reflexivity]. f_equal. etransitivity; [exact e1|symmetry; exact e2].
Qed.

(** ** the message a client holds is known under the hash of what it would publish *)
Definition inv6 (B : benv) (st : bstate) : Prop :=
  match s_conf st with
  | Plain m => exists s, serialize (b_env B) (Plain m) true = Ok (s, Plain m) /\ snd (m_sh m) = e_hash (b_env B) s
  | Mut _ _ => True
  end.
Lemma unsigned_serialize E c sg : e_signer E = None -> serialize E c sg = serialize E c true.
Proof. intros h. unfold serialize, serialize_impl. rewrite h. destruct sg; reflexivity. Qed.
Lemma inv6_conf B st sg s c : inv6 B st -> serialize (b_env B) (s_conf st) sg = Ok (s, c) -> inv6 B (set_conf c st).
Proof.
  intros h hs. destruct (serialize_kind _ _ _ _ _ hs) as [k1 k2]. unfold inv6 in *. cbn [set_conf s_conf]. destruct (s_conf st) as [m|m o]; [rewrite (k1 m eq_refl); exact h|]. destruct (k2 m o eq_refl) as [m' ->]. exact I.
Qed.
Lemma serialize_set_unmerged E i m s : serialize E (Plain m) true = Ok (s, Plain m) -> serialize E (Plain (set_unmerged i m)) true = Ok (s, Plain (set_unmerged i m)).
Proof.
  unfold serialize. cbn [refresh bind c_msg]. intros h. ok_inv h. injection h as ->.
  assert (e : serialize_impl E (set_unmerged i m) (m_diff (set_unmerged i m)) true = Ok s) by exact ha. rewrite e. reflexivity.
Qed.
Lemma inv6_run B o st x st' : benv_ok B -> e_signer (b_env B) = None -> inv1 B st -> inv6 B st -> tidy B o st st' -> run B o st = (x, st') -> inv6 B st'.
Proof.
  intros hB hsg hi h6 [[hok _] ho] h.
  assert (hss : forall s st0 y st2, set_state B s st0 = (y, st2) -> s_conf st2 = s_conf st0) by (intros s st0 y st2 g; apply set_state_spec in g as [(_ & -> & _)|(_ & g & _)]; auto).
  assert (hdi : forall st0 y, inv6 B st0 -> cfg_ok (b_env B) (s_conf st0) -> dirty B st0 = (y, st') -> inv6 B st').
  { intros st0 y g0 gc g. apply dirty_spec in g as [(_ & -> & _)|[(_ & _ & _ & ->)|(_ & _ & st3 & g & g2)]]; [exact g0|exact g0|]. apply hss in g.
    destruct g2 as [(c & g2 & _ & ->)|(_ & _ & ->)]; [|unfold inv6; rewrite g; exact g0]. destruct (increment_ok _ _ _ (bo_hash _ hB) gc g2) as (_ & _ & _ & _ & m' & ->). exact I. }
  destruct (is_edit o) eqn:ee.
  - apply edit_op_spec in h; [|exact ee]. destruct h as [(_ & ->)|(f & g)]; [exact h6|].
    apply edit_spec in g as [(_ & g)|(st1 & m & o1 & g & _ & _ & ->)]; [eapply hdi; [exact h6|apply hi|exact g]|exact I].
  - destruct (is_key_op o) eqn:ek.
    + apply key_op_spec in h as [->|(ks & [->|(y & g)])]; [exact h6|exact h6| |exact ek]. eapply hdi; [|apply (i1_cfg _ _ (inv1_keys _ _ ks hi))|exact g]. exact h6.
    + destruct o; try discriminate; cbn [run] in h.
      * apply ignore_returned in h. destruct (push B st) as [y st2] eqn:e. cbn [snd] in h. subst st2.
        apply push_spec in e as [(_ & [->|(s & c & hs & ->)])|(k & s & conf & c & st2 & _ & hs & _ & _ & h2 & _ & ->)]; [exact h6|eapply inv6_conf; eassumption|].
        pose proof (inv6_conf _ _ _ _ _ h6 hs) as h7. destruct h2 as [(_ & h2)|(_ & ->)]; [|exact h7]. apply hss in h2. unfold inv6. cbn [set_old s_conf]. rewrite h2. exact h7.
      * apply confirm_spec in h as (_ & [(_ & ->)|(_ & _ & ->)]); exact h6.
      * apply ignore_returned in h. destruct (merge B l st) as [y st2] eqn:e. cbn [snd] in h. subst st2.
        unfold merge in e. apply merge_plain_spec in e as [(_ & ->)|(mine & st1 & ho' & e)]; [exact h6|].
        assert (hs1 : inv6 B st1 /\ s_state st1 = s_state st).
        { apply own_part_spec in ho' as [(_ & e1)|(_ & s & c' & hs & e1)]; injection e1 as _ ->; [auto|]. split; [eapply inv6_conf; eassumption|reflexivity]. }
        destruct hs1 as [hs1 hst1]. destruct e as [(_ & ->)|(inc & new & bad & hk & hinc & hmc & y' & e & _)]; [exact hs1|].
        specialize (ho mine inc ltac:(split; [eauto|exact hinc])).
        destruct (hok mine inc ltac:(split; [eauto|exact hinc])) as (hnc & _).
        apply adopt_spec in e as [(_ & _ & ->)|[(_ & hu & e)|(hne & j & hj & [(_ & _ & _ & _ & ->)|(_ & st2 & e2 & _ & ->)])]]; try exact hs1.
        -- apply hss in e. unfold inv6. rewrite e. cbn [set_conf s_conf]. unfold merge_confs in hmc. destruct (is_dirty st) eqn:hd.
           ++ unfold merge_mutable in hmc. ok_inv hmc. destruct a as [m bd]. destruct (m_unmerged m) eqn:em.
              ** ok_inv hmc. injection hmc as <- <-. exfalso. unfold increment_impl in ha0. destruct (_ || _); [discriminate|]. injection ha0 as <-. cbn in hu. congruence.
              ** injection hmc as <- <-. match goal with |- context [if ?q then _ else _] => destruct q end; exact I.
           ++ ok_inv hmc. injection hmc as <- <-. match goal with |- context [if ?q then _ else _] => replace q with false end; [exact I|]. unfold is_dirty in *. cbn. rewrite hst1. symmetry. exact hd.
        -- apply hss in e2. unfold inv6. cbn [s_conf]. rewrite e2. cbn [set_conf s_conf]. unfold merge_confs in hmc. destruct (is_dirty st) eqn:hd.
           ++ unfold merge_mutable in hmc. ok_inv hmc. destruct a as [m bd]. destruct (m_unmerged m) eqn:em; [|injection hmc as <- <-; exact I].
              ok_inv hmc. injection hmc as <- <-. unfold increment_impl in ha0. destruct (_ || _); [discriminate|]. injection ha0 as <-. exact I.
           ++ ok_inv hmc. destruct a as [m bd]. injection hmc as <- <-. cbn [fst c_msg] in *.
              destruct (merge_msgs_origin _ _ _ _ hnc ha) as [(s & z & k & hin & hp & ->)|(hn & _)]; [|congruence].
              rewrite map_app in hin. apply in_app_iff in hin as [hin|hin].
              ** exfalso. apply hne. apply own_part_spec in ho' as [(_ & e1)|(hz & s' & c' & hs & e1)]; injection e1 as -> _; [destruct hin|]. cbn in hin. destruct hin as [<-|[]].
                 destruct (own_parses _ _ _ _ hB hi hs hz) as (m0 & q1 & q2). rewrite hp in q1. injection q1 as ->. exact q2.
              ** apply in_map_iff in hin as ([h s'] & <- & hin). cbn [snd] in *. destruct (ho h s' hin z hp) as [c hc]. exists s'.
                 assert (c = Plain z) by (apply serialize_refresh in hc; cbn in hc; congruence). subst c. split; [apply serialize_set_unmerged; exact hc|]. apply parse_msg_spec in hp. apply hp.
      * apply ignore_returned in h. destruct (dump B st) as [y st2] eqn:e. cbn [snd] in h. subst st2.
        apply dump_spec in e. cbv zeta in e. destruct e as [(s & c & hs & _ & ->)|(_ & ->)]; [exact (inv6_conf _ _ _ _ _ h6 hs)|destruct (readonly B); exact h6].
Qed.
Lemma tidy_life B st : life B tidy st -> life B tame st.
Proof. apply life_mono. intros B0 o a a' [h _]. exact h. Qed.
Lemma life_inv6 B st : benv_ok B -> e_signer (b_env B) = None -> life B tidy st -> inv6 B st.
Proof.
  intros hB hsg h. induction h as [B ks|B st o st' hl IH h|B st d st1 ks st' hl IH h1 h2 h3|B A g st _ IH hro e];
    [|specialize (IH hB hsg)..|subst B; discriminate hsg].
  - unfold inv6, fresh. cbn [s_conf]. exists (body (b_env B) (empty_msg (b_env B)) [] ++ ["e"%char]). split.
    + unfold serialize. cbn [refresh bind c_msg]. unfold serialize_impl. cbn [m_lagged empty_msg is_nil negb andb m_vsig]. rewrite hsg. reflexivity.
    + reflexivity.
  - destruct h as [o x st' h1 h2 h3]. eapply inv6_run; eauto. apply life_inv1; [exact hB|apply tidy_life; exact hl].
  - pose proof (life_inv1 _ _ hB (tidy_life _ _ hl)) as hi. destruct (restore_spec _ _ _ _ _ _ (i1_0 _ _ hi) h1 h2 h3) as (s & c' & conf & hs & hc & ->).
    unfold inv6. cbn [s_conf].
    assert (hplain : (exists m, parse_msg (store_env (b_env B)) true s = Ok m /\ conf = Plain m) -> match conf with Plain m => exists s0, serialize (b_env B) (Plain m) true = Ok (s0, Plain m) /\ snd (m_sh m) = e_hash (b_env B) s0 | Mut _ _ => True end).
    { intros (m & hm & ->). destruct (store_roundtrip_ok _ _ _ _ _ (i1_cfg _ _ hi) hs) as (m' & p1 & _ & p2). rewrite hm in p1. injection p1 as <-. exists s.
      rewrite unsigned_serialize in p2 by exact hsg. split; [exact p2|]. apply parse_msg_spec in hm as (_ & _ & hm & _). exact hm. }
    clear h3 hl. destruct (s_state st); [exact (hplain hc)| |exact (hplain hc)]. unfold mutable_of in hc. ok_inv hc. ok_inv hc. unfold increment_impl in hc. destruct (_ || _) in hc; [discriminate|]. injection hc as <-. exact I.
Qed.
(** ** C29 *)
Lemma restored_csim B st s c m' : benv_ok B -> e_signer (b_env B) = None -> inv1 B st -> inv6 B st -> serialize (b_env B) (s_conf st) false = Ok (s, c) -> parse_msg (store_env (b_env B)) true s = Ok m' ->
  csim (b_env B) (s_conf st) (Plain m') /\ m_data m' = m_data (c_msg c) /\ m_seqno m' = s_seqno st.
Proof.
  intros hB hsg hi h6 hs hm. destruct (store_roundtrip_ok _ _ _ _ _ (i1_cfg _ _ hi) hs) as (m2 & p1 & p2 & p3). rewrite hm in p1. injection p1 as <-.
  destruct p2 as (q1 & q2 & q3 & q4 & q5). rewrite unsigned_serialize in hs, p3 by exact hsg.
  destruct (serialize_ok _ _ _ _ _ (i1_cfg _ _ hi) hs) as (_ & hok & hrf & hser). destruct (refresh_ok _ _ _ (i1_cfg _ _ hi) hrf) as (_ & hf & _ & hsh & _).
  assert (hms : m_sh m' = (m_seqno (c_msg c), e_hash (b_env B) s)).
  { apply parse_msg_spec in hm as (_ & _ & hm & _). cbn [e_hash store_env] in hm. rewrite <- hm, <- q1. apply surjective_pairing. }
  split; [|split; [exact q2|unfold s_seqno, s_msg, m_seqno in *; congruence]]. split; [exists s, c, (Plain m'); auto|]. cbn [increment].
  pose proof (serialize_range _ _ _ _ _ hser) as hrg. unfold inv6 in h6. destruct (s_conf st) as [m|m o]; cbn [increment].
  - apply refresh_plain in hrf. subst c. cbn [c_msg] in *. destruct h6 as (s1 & g1 & g2). rewrite hs in g1. injection g1 as <-.
    apply inc_impl_sim; auto; [apply hf|]. rewrite hms, <- g2. symmetry. apply surjective_pairing.
  - rewrite hs. cbn [bind]. apply inc_impl_sim; auto. apply hf.
Qed.
Record sim (B : benv) (st st' : bstate) : Prop := {
  sm_state : s_state st' = s_state st;
  sm_curr : s_curr st' = s_curr st;
  sm_old : s_old st' = s_old st;
  sm_keys : s_keys st' = s_keys st;
  sm_data : s_data st' = s_data st;
  sm_seqno : s_seqno st' = s_seqno st;
  sm_conf : match s_state st with Dirty => mutsim (s_conf st) (s_conf st') | _ => csim (b_env B) (s_conf st) (s_conf st') end
}.
Lemma sim_set_state B s st st' x a : sim B st st' -> set_state B s st = (x, a) -> exists a', set_state B s st' = (x, a') /\ s_conf a' = s_conf st' /\ s_conf a = s_conf st /\ s_state a' = s_state a /\ s_curr a' = s_curr a /\ s_old a' = s_old a /\ s_keys a' = s_keys a.
Proof.
  intros [h1 h2 h3 h4 h5 h6 h7]. unfold set_state. destruct (match s with Dirty => readonly B | _ => false end); intros e; injection e as <- <-.
  - exists st'. auto 10.
  - unfold is_clean. rewrite h1, h2, h3, h4. eexists. split; [reflexivity|]. cbn. auto 10.
Qed.
Lemma sim_dirty B st st' x a : sim B st st' -> dirty B st = (x, a) -> returned x -> exists a', dirty B st' = (x, a') /\ sim B a a'.
Proof.
  intros hs h hret. pose proof hs as hs0. destruct hs as [h1 h2 h3 h4 h5 h6 h7]. unfold dirty in *. unfold is_dirty in *. rewrite h1. destruct (s_state st) eqn:es.
  2: { destruct (s_conf st) as [m|m o], (s_conf st') as [m'|m' o'] eqn:ec; cbn [mutsim] in h7; try tauto. injection h as <- <-. exists st'. auto. }
  all: destruct (set_state B Dirty st) as [y a1] eqn:e1; destruct (sim_set_state _ _ _ _ _ _ hs0 e1) as (a1' & e2 & f1 & f0 & f2 & f3 & f4 & f5); rewrite e2; rewrite f1; rewrite f0 in h;
    destruct h7 as [_ h7]; apply set_state_spec in e1 as [(-> & -> & _)|(-> & e3 & e4 & _)];
    [injection h as <- <-; exists a1'; split; [reflexivity|]; apply set_state_spec in e2 as [(_ & -> & _)|(e2 & _)]; [exact hs0|discriminate]|];
    destruct (increment (b_env B) (s_conf st)) as [c| | | |]; destruct (increment (b_env B) (s_conf st')) as [c'| | | |]; cbn [incsim] in h7; try tauto;
    try (injection h as <- <-; exfalso; apply (proj1 hret); reflexivity);
    injection h as <- <-; (eexists; split; [reflexivity|]); (split; cbn [set_conf s_state s_curr s_old s_keys s_conf]; auto);
    try (unfold s_data, s_seqno, s_msg, m_seqno; cbn [set_conf s_conf]; destruct c, c'; cbn in h7; try tauto; cbn [c_msg]; destruct h7 as (k1 & k2 & _); congruence);
    rewrite e4; exact h7.
Qed.
Lemma sim_edit B f st st' x a : sim B st st' -> edit B f st = (x, a) -> returned x -> exists a', edit B f st' = (x, a') /\ sim B a a'.
Proof.
  intros hs h hret. pose proof h as h0. apply edit_spec in h as [(hx & h)|(st1 & m & o & h & hc & -> & ->)].
  - destruct (sim_dirty _ _ _ _ _ hs h hret) as (a' & e & hs'). exists a'. split; [|exact hs']. unfold edit. rewrite e. destruct x as [[]| | | |]; congruence.
  - destruct (sim_dirty _ _ _ _ _ hs h hret) as (a' & e & hs'). unfold edit. rewrite e. apply dirty_ok in h as (m1 & o1 & _ & hd & _).
    destruct hs' as [h1 h2 h3 h4 h5 h6 h7]. rewrite hd, hc in h7. destruct (s_conf a') as [m'|m' o'] eqn:ec; [destruct h7|]. destruct h7 as (k1 & k2 & k3 & k4 & ->).
    eexists. split; [reflexivity|]. split; cbn [set_conf s_state s_curr s_old s_keys s_conf]; auto.
    + unfold s_data, s_msg. cbn [set_conf s_conf c_msg set_data m_data]. rewrite k2. reflexivity.
    + unfold s_seqno, s_msg, m_seqno. cbn [set_conf s_conf c_msg set_data m_sh]. rewrite k1. reflexivity.
    + rewrite hd. cbn [mutsim set_data m_sh m_data m_lagged m_unknown]. rewrite k2. auto.
Qed.
Lemma sim_step B o st st' x a : sim B st st' -> is_edit o = true -> run B o st = (x, a) -> returned x -> exists a', run B o st' = (x, a') /\ sim B a a'.
Proof.
  intros hs ho h hret. pose proof (sm_state _ _ _ hs) as h1. pose proof (sm_data _ _ _ hs) as h5.
  destruct o; try discriminate ho; cbn [run] in *; unfold assign_at, erase_at, set_insert_at, set_erase_at in *; unfold is_dirty in *; rewrite h1, h5; try destruct (empty_container v);
    match type of h with (if ?q then _ else _) = _ => destruct q end; try (injection h as <- <-; exists st'; auto; fail); eapply sim_edit; eassumption.
Qed.
Lemma sim_steps B l : forall st st' a, sim B st st' -> forallb is_edit l = true -> steps B any st l a -> exists a', steps B any st' l a' /\ sim B a a'.
Proof.
  induction l as [|o l IH]; intros st st' a hs ho h; inversion h as [|o' st1 l' st2 h1 h2]; subst; [exists st'; split; [constructor|exact hs]|].
  cbn [forallb] in ho. apply andb_true_iff in ho as [ho1 ho2]. inversion h1 as [o' x st1' h3 h4 h5]; subst. destruct (sim_step _ _ _ _ _ _ hs ho1 h3 h4) as (a1 & e1 & s1).
  destruct (IH _ _ _ s1 ho2 h2) as (a' & e2 & s2). exists a'. split; [|exact s2]. econstructor; [econstructor; eauto|exact e2].
Qed.
Lemma sim_push B st st' r a : sim B st st' -> push B st = (Ok r, a) -> exists a', push B st' = (Ok r, a').
Proof.
  intros hs h. pose proof hs as hs0. destruct hs as [h1 h2 h3 h4 h5 h6 h7]. apply push_spec in h as [(hx & _)|(k & s & conf & c0 & st2 & (rest & hk) & hs & he & hlen & hst & hout & ->)]; [exfalso; eapply hx; reflexivity|].
  cbv zeta in hlen, hout. assert (hs' : exists d', serialize (b_env B) (s_conf st') true = Ok (s, d')).
  { destruct (s_state st); [| |]; [|eapply mutsim_serialize; eassumption|]; destruct h7 as [(s1 & d & d' & g1 & g2) _]; rewrite hs in g1; injection g1 as <- <-; eauto. }
  destruct hs' as [d' hs']. unfold push. rewrite h4, hk, hs', he, h6. apply N.ltb_ge in hlen. rewrite hlen. unfold is_dirty in *. cbn [set_conf s_state]. rewrite h1.
  injection hout as ->. destruct (s_state st) eqn:es.
  - destruct hst as [(hst & _)|(_ & ->)]; [discriminate|]. cbn [set_conf s_old]. rewrite h3. eexists. reflexivity.
  - destruct hst as [(_ & hst)|(hst & _)]; [|discriminate]. unfold set_state, is_clean in *. cbn [set_conf s_state s_curr s_old s_keys s_conf] in *. rewrite h1. rewrite es in hst. cbn [andb] in *. injection hst as <-. cbn [s_old]. rewrite h3. eexists. reflexivity.
  - destruct hst as [(hst & _)|(_ & ->)]; [discriminate|]. cbn [set_conf s_old]. rewrite h3. eexists. reflexivity.
Qed.
Lemma restart_same B st d st1 st' l st2 r st3 : benv_ok B -> e_verifier (b_env B) = None -> e_signer (b_env B) = None -> life B tidy st -> s_state st <> Dirty ->
  dump B st = (Ok d, st1) -> (N.of_nat (length d) <= uint64_max)%N -> restore B (s_keys st) d = Ok st' ->
  forallb is_edit l = true -> steps B any st l st2 -> push B st2 = (Ok r, st3) ->
  exists st2' st3', steps B any st' l st2' /\ push B st2' = (Ok r, st3').
Proof.
  intros hB hv hsg hl hnd hd hlen hr hed hst hp. pose proof (tidy_life _ _ hl) as hlt. pose proof (life_inv1 _ _ hB hlt) as hi. pose proof (life_inv6 _ _ hB hsg hl) as h6. pose proof (life_inv2 _ _ hB hlt hnd) as h2.
  destruct (restore_spec _ _ _ _ _ _ (i1_0 _ _ hi) hd hlen hr) as (s & c' & conf & hs & hc & ->).
  assert (hc' : exists m, parse_msg (store_env (b_env B)) true s = Ok m /\ conf = Plain m) by (destruct (s_state st); auto; congruence).
  destruct hc' as (m & hm & ->). destruct (restored_csim _ _ _ _ _ hB hsg hi h6 hs hm) as (g1 & g2 & g3).
  assert (hro : readonly B = false) by (unfold readonly, read_only; rewrite hv; reflexivity). rewrite hro.
  set (st' := mkBase (Plain m) (s_state st) (s_curr st) (s_old st) false (s_keys st)).
  assert (hsim : sim B st st').
  { split; try reflexivity.
    - unfold s_data at 1. unfold s_msg. cbn [st' s_conf c_msg]. rewrite g2. destruct (refresh_ok _ _ _ (i1_cfg _ _ hi) (serialize_refresh _ _ _ _ _ hs)) as (_ & _ & _ & _ & _ & _ & e).
      rewrite e. apply prune_id. exact h2.
    - exact g3.
    - destruct (s_state st); [exact g1|congruence|exact g1]. }
  destruct (sim_steps _ _ _ _ _ hsim hed hst) as (a' & e1 & e2). destruct (sim_push _ _ _ _ _ e2 hp) as (a2 & e3). eauto.
Qed.
