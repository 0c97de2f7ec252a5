(** Proofs of C91. *)
From Verif Require Import ConvergeSpec Data_facts Diff_facts Parse_facts Message_facts Wire_facts Round_facts Reach_facts Redeliver_facts Merge_facts Resolve_facts Conflict_facts Merge2_facts Adopt_facts Crypt_facts Base_facts Dump_facts Life_facts Life2_facts Life3_facts Life4_facts Fields_facts Conf_facts Conf2_facts Conf3_facts Conf4_facts Conf5_facts Conf6_facts.
From Coq Require Import Lia.

(** ** without a verifier nothing carries a verified signature *)
Definition inv7 (B : benv) (st : bstate) : Prop := e_verifier (b_env B) = None -> m_vsig (s_msg st) = None.
Lemma inv7_conf B st sg s c E : inv7 B st -> serialize E (s_conf st) sg = Ok (s, c) -> inv7 B (set_conf c st).
Proof. intros h hs hw. apply serialize_refresh in hs. unfold s_msg. cbn. eapply refresh_vsig; [exact hs|]. apply h. exact hw. Qed.
Lemma increment_impl_vsig E m c : increment_impl E m = Ok c -> m_vsig m = None -> m_vsig (c_msg c) = None.
Proof. unfold increment_impl. cbv zeta. destruct (negb _ || _); [discriminate|]. intros h. injection h as <-. cbn. auto. Qed.
Lemma increment_vsig E c c' : increment E c = Ok c' -> m_vsig (c_msg c) = None -> m_vsig (c_msg c') = None.
Proof.
  intros h hv. destruct c as [m|m o]; cbn [increment] in h.
  - eapply increment_impl_vsig; eassumption.
  - ok_inv h. destruct a as [s c1]. eapply increment_impl_vsig; [exact h|]. apply serialize_refresh in ha. cbn [snd] in *. eapply refresh_vsig; eassumption.
Qed.
Lemma merge_msgs_vsig E l m bad : no_collision E l -> e_verifier E = None -> merge_msgs E l = Ok (m, bad) -> m_vsig m = None.
Proof.
  intros hnc hv h. destruct (merge_msgs_origin _ _ _ _ hnc h) as [(s & x & i & _ & hp & ->)|(_ & h1 & _)]; [|exact h1]. cbn. eapply parse_unverified; eassumption.
Qed.
Lemma merge_confs_vsig B d l new bad : no_collision (b_env B) l -> e_verifier (b_env B) = None -> merge_confs B d l = Ok (new, bad) -> m_vsig (c_msg new) = None.
Proof.
  intros hnc hv h. unfold merge_confs in h. destruct d.
  - unfold merge_mutable in h. ok_inv h. destruct a as [m bd]. pose proof (merge_msgs_vsig _ _ _ _ hnc hv ha) as hm. cbn [fst snd] in *.
    destruct (m_unmerged m); [ok_inv h; injection h as <- <-; eapply increment_impl_vsig; eassumption|injection h as <- <-; exact hm].
  - ok_inv h. destruct a as [m bd]. injection h as <- <-. exact (merge_msgs_vsig _ _ _ _ hnc hv ha).
Qed.
Lemma inv7_run B o st x st' : inv7 B st -> op_ok B o st -> run B o st = (x, st') -> inv7 B st'.
Proof.
  intros h7 hok h hv. specialize (h7 hv).
  assert (hss : forall s st0 y st2, set_state B s st0 = (y, st2) -> m_vsig (s_msg st0) = None -> m_vsig (s_msg st2) = None).
  { intros s st0 y st2 g g3. apply set_state_spec in g as [(_ & -> & _)|(_ & g & _)]; [exact g3|]. unfold s_msg in *. rewrite g. exact g3. }
  assert (hdi : forall st0 y st2, dirty B st0 = (y, st2) -> m_vsig (s_msg st0) = None -> m_vsig (s_msg st2) = None).
  { intros st0 y st2 g g3. apply dirty_spec in g as [(_ & -> & _)|[(_ & _ & _ & ->)|(_ & _ & st3 & g & g2)]]; [exact g3|exact g3|].
    destruct g2 as [(c & gc & _ & ->)|(_ & _ & ->)]; [|eapply hss; eassumption]. unfold s_msg. cbn. eapply increment_vsig; eassumption. }
  assert (hke : is_key_op o = true -> m_vsig (s_msg st') = None).
  { intros ho. destruct (key_op_spec _ _ _ _ _ ho h) as [->|(ks & [->|(y & g)])]; [exact h7|exact h7|]. eapply hdi; [exact g|exact h7]. }
  destruct o; cbn [is_key_op] in hke; auto;
    try (apply edit_op_spec in h; [|reflexivity]; destruct h as [(_ & ->)|(f & g)]; [exact h7|];
         apply edit_spec in g as [(_ & g)|(st1 & m & o1 & g & gc & _ & ->)]; [eapply hdi; eauto|]; apply hdi in g; [|exact h7]; unfold s_msg in *; rewrite gc in g; exact g).
  - apply ignore_returned in h. destruct (push B st) as [y st2] eqn:e. cbn [snd] in h. subst st2.
    apply push_spec in e as [(_ & [->|(s & c & g & ->)])|(k & s & conf & c & st2 & _ & g & _ & _ & g2 & _ & ->)]; [exact h7|exact (inv7_conf B _ _ _ _ _ (fun _ => h7) g hv)|].
    pose proof (inv7_conf B _ _ _ _ _ (fun _ => h7) g hv) as g7. destruct g2 as [(_ & g2)|(_ & ->)]; [|exact g7]. apply hss in g2; [|exact g7]. exact g2.
  - apply confirm_spec in h as [_ [(_ & ->)|(a1 & a2 & ->)]]; exact h7.
  - apply ignore_returned in h. destruct (merge B l st) as [y st2] eqn:e. cbn [snd] in h. subst st2.
    unfold merge in e. apply merge_plain_spec in e as [(_ & ->)|(mine & st1 & ho' & e)]; [exact h7|].
    assert (hs1 : m_vsig (s_msg st1) = None).
    { apply own_part_spec in ho' as [(_ & e1)|(_ & s & c' & hs & e1)]; injection e1 as _ ->; [exact h7|]. exact (inv7_conf B _ _ _ _ _ (fun _ => h7) hs hv). }
    destruct e as [(_ & ->)|(inc & new & bad & hk & hinc & hmc & y' & e & _)]; [exact hs1|].
    destruct (hok mine inc) as (hnc & _); [split; eauto|]. pose proof (merge_confs_vsig _ _ _ _ _ hnc hv hmc) as hn.
    apply adopt_spec in e as [(_ & _ & ->)|[(_ & hu & e)|(hne & j & hj & [(_ & _ & _ & _ & ->)|(_ & st2 & e2 & _ & ->)])]]; try exact hs1.
    + apply hss in e; [exact e|]. unfold s_msg. cbn [set_conf s_conf]. match goal with |- m_vsig (c_msg (if ?u then _ else _)) = _ => destruct u end; [exact hn|]. destruct new; exact hn.
    + apply hss in e2; [exact e2|]. exact hn.
  - apply ignore_returned in h. destruct (dump B st) as [y st2] eqn:e. cbn [snd] in h. subst st2.
    apply dump_spec in e. cbv zeta in e. destruct e as [(s & c & g & _ & ->)|(_ & ->)]; [exact (inv7_conf B _ _ _ _ _ (fun _ => h7) g hv)|].
    destruct (readonly B); exact h7.
Qed.
Lemma life_inv7 B st : benv_ok B -> life B tame st -> inv7 B st.
Proof.
  intros hB h. induction h as [B ks|B st o st' hl IH h|B st d st1 ks st' hl IH h1 h2 h3|B A g st _ IH hro e]; [|specialize (IH hB)..|].
  - intros hv. reflexivity.
  - destruct h as [o x st' h _ hok]. eapply inv7_run; [exact IH|apply hok|exact h].
  - intros hv. pose proof (life_inv1 _ _ hB hl) as hi. destruct (restore_spec _ _ _ _ _ _ (i1_0 _ _ hi) h1 h2 h3) as (s & c' & conf & hs & hc & ->).
    unfold s_msg. cbn [s_conf].
    assert (hpl : (exists m, parse_msg (store_env (b_env B)) true s = Ok m /\ conf = Plain m) -> m_vsig (c_msg conf) = None).
    { intros (m & hm & ->). cbn. destruct (store_parse _ _ _ _ _ true (i1_cfg _ _ hi) hs) as (m' & p1 & _ & _ & p4).
      rewrite hm in p1. injection p1 as <-. rewrite (p4 eq_refl eq_refl). eapply refresh_vsig; [eapply serialize_refresh; exact hs|]. apply IH, hv. }
    destruct (s_state st); [exact (hpl hc)| |exact (hpl hc)].
    unfold mutable_of in hc. ok_inv hc. ok_inv hc. apply merge_parsed_single in ha0. subst a0. eapply increment_impl_vsig; [exact hc|]. cbn.
    destruct (store_parse _ _ _ _ _ false (i1_cfg _ _ hi) hs) as (m' & p1 & _ & p3 & _). rewrite ha in p1. injection p1 as <-. exact (p3 eq_refl).
  - intros hv. exfalso. subst B. unfold readonly, read_only in hro. cbn in hv. rewrite hv in hro. discriminate.
Qed.

(** ** a published message reads back and publishes as itself *)
Lemma republish E c s c' m0 : signer_ok E -> read_only E = false -> cfg_ok E c -> serialize E c true = Ok (s, c') -> parse_msg E false s = Ok m0 ->
  (e_verifier E = None -> m_vsig (c_msg c') = None) -> same_content E (c_msg c') m0 /\ serialize E (Plain m0) true = Ok (s, Plain m0).
Proof.
  intros hsg hro hc hs hp hv. destruct (m_vsig (c_msg c')) as [x|] eqn:ev.
  2: { destruct (publish_roundtrip_ok _ _ _ _ hsg hro hc hs ev) as (m' & p1 & p2 & p3). rewrite hp in p1. injection p1 as <-. auto. }
  destruct (e_verifier E) as [v|] eqn:evf; [|discriminate (hv eq_refl)]. clear hv.
  destruct (serialize_ok _ _ _ _ _ hc hs) as (_ & hok & _ & hser). pose proof (serialize_range _ _ _ _ _ hser) as hrg.
  destruct (serialize_impl_wire_any _ _ _ _ _ hser) as (sig & hw & hsig). rewrite ev in hsig. subst sig.
  pose proof (parse_wire E E false (c_msg c') (Some x) [] hok eq_refl (ok_sig _ _ hok _ ev) (fun _ _ => I)) as hp'. rewrite <- hw, hp in hp'.
  unfold check_sig in hp'. rewrite evf in hp'. 
  match type of hp' with Ok m0 = bind ?u _ => assert (hx : exists vs, u = Ok vs /\ vs = Some x) end.
  { destruct (v _ _) in *; [eauto|discriminate]. }
  destruct hx as (vs & hx & ->). rewrite hx in hp'. cbn [bind] in hp'. injection hp' as ->.
  assert (hsc : forall sh vs un, fst sh = m_seqno (c_msg c') -> same_content E (c_msg c') (mkMsg sh (m_data (c_msg c')) (m_diff (c_msg c')) (windowed E (c_msg c')) (m_unknown (c_msg c')) vs un)).
  { intros sh vs un e. repeat split. exact e. }
  split; [apply hsc; reflexivity|]. unfold serialize. cbn [refresh bind c_msg].
  assert (hsg2 : forall m df y, m_vsig m = Some y -> serialize_impl E m df true = serialize_impl E m df false) by (intros m df y e; unfold serialize_impl; rewrite e; reflexivity).
  rewrite (hsg2 _ _ x) by reflexivity.
  erewrite serialize_impl_some; [reflexivity|apply hsc; reflexivity|exact hser|exact hrg|exact hw|reflexivity].
Qed.

(** ** what one merge of a clean writer does, in terms of the merged message *)
Lemma merge_outcome B st l mine a inc m bad : benv_ok B -> inv1 B st -> inv2 st -> inv7 B st -> readonly B = false -> s_state st <> Dirty -> s_keys st <> [] ->
  own_part B st = Ok (mine, a) -> incoming B (s_keys st) (map (unwrap1 B st) l) = Ok inc -> no_collision (b_env B) (map snd (mine ++ inc)) ->
  merge_msgs (b_env B) (map snd (mine ++ inc)) = Ok (m, bad) -> m_seqno m <> 0%Z ->
  exists st2, merge B l st = (Ok (good_hashes (length mine) bad (map fst inc)), st2) /\ s_data st2 = m_data m /\ s_seqno st2 = m_seqno m /\
    match m_unmerged m with
    | None => s_state st2 = Dirty /\ s_conf st2 = retain (Plain m)
    | Some _ => s_state st2 <> Dirty /\ forall z, (exists c1, serialize (b_env B) (s_conf st2) true = Ok (z, c1)) <-> serialize (b_env B) (Plain m) true = Ok (z, Plain m)
    end.
Proof.
  intros hB hi h2 h7 hro hd hk ho hinc hnc hm hnz. pose proof (not_dirty _ hd) as hnd.
  assert (hst : s_state a = s_state st) by (apply own_part_spec in ho as [(_ & e)|(_ & s & c & _ & e)]; injection e as _ ->; reflexivity).
  assert (hrun : forall st3, adopt B (s_seqno st) (Plain m) (map fst (mine ++ inc)) (set_old (fold_left (fun l h => sadd h l) (obsolete 0 (m_unmerged m) bad (map fst (mine ++ inc))) (s_old a)) a) = (Ok tt, st3) ->
    merge B l st = (Ok (good_hashes (length mine) bad (map fst inc)), st3)).
  { intros st3 hr. unfold merge, merge_plain. destruct (s_keys st); [congruence|]. rewrite ho. rewrite hinc. unfold merge_confs. rewrite hnd, hm. cbn [bind fst snd c_msg]. rewrite hr. reflexivity. }
  set (w := set_old _ a) in hrun. destruct (Z.eq_dec (m_seqno m) (s_seqno st)) as [heq|hne].
  - assert (had : adopt B (s_seqno st) (Plain m) (map fst (mine ++ inc)) w = (Ok tt, w)) by (unfold adopt; cbn [c_msg]; rewrite heq, Z.eqb_refl; reflexivity).
    exists w. split; [exact (hrun _ had)|]. clear had hrun.
    assert (hsq : (s_seqno st =? 0)%Z && negb (is_dirty st) = false) by (destruct (Z.eqb_spec (s_seqno st) 0); [congruence|reflexivity]).
    pose proof ho as ho'. apply own_part_spec in ho' as [(e & _)|(_ & s & c & hs & e)]; [congruence|]. injection e as -> ->.
    destruct (own_parses _ _ _ _ hB hi hs hsq) as (m0 & q1 & q2).
    pose proof hm as hm'. apply merge_msgs_inv in hm as (ms & g1 & g2). pose proof g1 as g1'. cbn [app map snd parse_all] in g1. pose proof (parsed_good _ _ _ _ _ hnc g1) as hg.
    rewrite q1 in g1. destruct (parse_all (b_env B) 1 _) as [[ms' b']| | | |] eqn:epa; try discriminate. cbn [bind] in g1. injection g1 as <- <-.
    destruct (m_unmerged m) as [i|] eqn:hu.
    2: { exfalso. pose proof (proj1 (conflict_seqno _ _ _ _ _ hnc hm' hu g1') m0 (or_introl eq_refl)). lia. }
    assert (i = 0) by (eapply head_stays; [exact hg|apply (bo_lag _ hB)|intros hr; unfold readonly in hro; congruence|exact g2|exact hu|lia]). subst i.
    destruct (merge_parsed_index _ _ _ _ g2 hu) as (x & hx & ->). injection hx as <-.
    destruct (republish _ _ _ _ _ (bo_signer _ hB) hro (i1_cfg _ _ hi) hs q1) as ((r1 & r2 & _) & r3).
    { intros hv. eapply refresh_vsig; [eapply serialize_refresh; exact hs|]. exact (h7 hv). }
    destruct (refresh_ok _ _ _ (i1_cfg _ _ hi) (serialize_refresh _ _ _ _ _ hs)) as (_ & _ & _ & e1 & _).
    split; [unfold s_data, s_msg; cbn; symmetry; exact r2|]. split; [unfold s_seqno, s_msg; cbn; unfold m_seqno in *; cbn; congruence|].
    split; [cbn; exact hd|]. intros z. cbn [w set_old s_conf set_conf]. rewrite (serialize_set_unmerged _ (Some 0) _ _ r3), (serialize_idem _ _ _ _ _ hs). split; [intros (c1 & e); congruence|intros e; exists c; congruence].
  - assert (hwd : is_dirty w = false) by (unfold is_dirty; cbn; rewrite hst; exact hnd).
    destruct (adopt B (s_seqno st) (Plain m) (map fst (mine ++ inc)) w) as [y st2] eqn:had. pose proof had as had'.
    apply adopt_spec in had as [(q & _)|[(q & hu & had)|(q & i & hu & [(q2 & _)|(_ & st3 & had & -> & ->)])]]; [exfalso; exact (hne q)| |exfalso; rewrite q2 in hwd; discriminate hwd|]; cbn [c_msg] in hu.
    + rewrite hwd in had. apply set_state_spec in had as [(_ & _ & _ & had)|(-> & f1 & f2 & _)]; [congruence|]. exists st2. split; [apply hrun; reflexivity|].
      rewrite hu. unfold s_data, s_seqno, s_msg. rewrite f1. cbn. auto.
    + apply set_state_spec in had as [(had & _)|(_ & f1 & f2 & _)]; [discriminate|]. eexists. split; [apply hrun; reflexivity|]. rewrite hu. unfold s_data, s_seqno, s_msg. cbn [s_conf s_state]. rewrite f1, f2. cbn [set_conf s_conf c_msg].
      split; [reflexivity|]. split; [reflexivity|]. split; [discriminate|]. intros z. split; [|eauto]. intros (c1 & hz). assert (c1 = Plain m) by (apply serialize_refresh in hz; cbn in hz; congruence). congruence.
Qed.

(** ** two devices that see the same messages *)
Lemma same_messages B st B' st' l l' mine mine' inc inc' hs st2 :
  settled_writer B st -> settled_writer B' st' -> b_env B' = b_env B ->
  merge_sees B l st mine inc -> merge_sees B' l' st' mine' inc' ->
  (forall x, In x (map snd (mine ++ inc)) <-> In x (map snd (mine' ++ inc'))) -> no_collision (b_env B) (map snd (mine ++ inc)) ->
  (exists s m, In s (map snd (mine ++ inc)) /\ parse_msg (b_env B) false s = Ok m /\ (0 < m_seqno m)%Z) ->
  merge B l st = (Ok hs, st2) -> exists hs' st2', merge B' l' st' = (Ok hs', st2') /\ agree B st2 B' st2'.
Proof.
  intros [hB hl hw hd hk] [hB' hl' hw' hd' hk'] he [(a & ho) hinc] [(a' & ho') hinc'] hset hnc (sx & mx & hsx & hpx & hqx) hm.
  pose proof hm as hm0. unfold merge in hm. apply merge_plain_spec in hm as [(hm & _)|(mine0 & st1 & o1' & hm)]; [exfalso; apply (hm hs); reflexivity|]. rewrite ho in o1'. injection o1' as <- <-.
  destruct hm as [(hm & _)|(inc0 & new & bad & _ & hinc0 & hmc & _)]; [exfalso; apply (hm hs); reflexivity|]. rewrite hinc in hinc0. injection hinc0 as <-.
  unfold merge_confs in hmc. rewrite (not_dirty _ hd) in hmc. ok_inv hmc. destruct a0 as [m bd]. injection hmc as <- <-. cbn [fst snd] in *.
  destruct (merge_order_free _ _ _ _ _ (bo_lag _ hB) hnc hset ha) as (m' & bad' & hm' & hsame & hpub).
  assert (hda : m_data m' = m_data m /\ m_seqno m' = m_seqno m) by (destruct hsame as [hx _]; destruct m, m'; unfold index_free, set_unmerged in hx; cbn in hx; injection hx as -> -> -> -> -> ->; unfold m_seqno; auto).
  destruct hda as (d1 & d2).
  assert (hun : (m_unmerged m = None <-> m_unmerged m' = None)) by (destruct hsame as [_ hx]; tauto).
  assert (hnz : m_seqno m <> 0%Z) by (pose proof (merge_msgs_ge _ _ _ _ _ _ hnc (bo_lag _ hB) ha hsx hpx); lia).
  destruct (merge_outcome B st l mine a inc m bd hB (life_inv1 _ _ hB hl) (life_inv2 _ _ hB hl) (life_inv7 _ _ hB hl) hw hd hk ho hinc hnc ha hnz) as (st3 & k1 & k2 & k3 & k4).
  rewrite hm0 in k1. injection k1 as _ <-.
  assert (hnc' : no_collision (b_env B') (map snd (mine' ++ inc'))) by (rewrite he; intros x x' hx hx'; apply hnc; apply hset; assumption).
  rewrite <- he in hm'. rewrite <- d2 in hnz.
  destruct (merge_outcome B' st' l' mine' a' inc' m' bad' hB' (life_inv1 _ _ hB' hl') (life_inv2 _ _ hB' hl') (life_inv7 _ _ hB' hl') hw' hd' hk' ho' hinc' hnc' hm' hnz) as (st3' & q1 & q2 & q3 & q4).
  eexists. exists st3'. split; [exact q1|]. unfold agree. rewrite k2, k3, q2, q3. split; [exact d1|]. split; [exact d2|]. unfold publishes. rewrite he in *.
  destruct (m_unmerged m) as [i|] eqn:eu, (m_unmerged m') as [i'|] eqn:eu'; try (exfalso; destruct hun as [u1 u2]; specialize (u1 eq_refl) || specialize (u2 eq_refl); discriminate).
  - destruct k4 as [k4 k5], q4 as [q4 q5]. split; [tauto|]. intros z. rewrite k5, q5. split; [|apply hpub]. apply same_result_serialize. destruct hsame as [hx hy]. split; [congruence|]. rewrite eu, eu' in *. tauto.
  - destruct k4 as [-> ->], q4 as [-> ->]. split; [tauto|]. intros z. split; intros (c & hc); eapply serialize_retain; [|exact hc|exact hsame|exact hc].
    destruct hsame as [hx hy]. split; [congruence|]. rewrite eu, eu' in *. tauto.
Qed.

(** ** a group of devices exchanges its messages *)
Lemma incoming_all B keys (P : bytes -> bytes -> Prop) f l :
  (forall h x, In (h, x) l -> exists s, incoming B keys (map f [(h, x)]) = Ok [(h, s)] /\ P x s) ->
  exists inc, incoming B keys (map f l) = Ok inc /\ Forall2 (fun p q => fst q = fst p /\ P (snd p) (snd q)) l inc.
Proof.
  induction l as [|[h x] l IH]; intros hl; [exists []; split; [reflexivity|constructor]|].
  destruct IH as (inc & e & hF); [intros h0 x0 h1; apply hl; right; exact h1|].
  destruct (hl h x (or_introl eq_refl)) as (s & hs & hp). exists ((h, s) :: inc). split; [|constructor; [auto|exact hF]].
  cbn [map incoming] in *. destruct (f (h, x)) as [h1 c1]. destruct (decrypt_any B keys c1) as [d| | | |]; try discriminate. cbn [bind] in *.
  destruct d as [p|]; [|discriminate]. rewrite e. cbn [bind]. destruct (unpack B p); [|discriminate]. injection hs as -> ->. reflexivity.
Qed.
Lemma push_life B st n c o st' : benv_ok B -> life B tame st -> push B st = (Ok (n, c, o), st') -> life B tame st'.
Proof.
  intros hB hl hp. apply (life_step _ _ st OpPush); [exact hl|]. apply step_run with (x := Ok tt); [cbn [run]; rewrite hp; reflexivity|split; discriminate|]. split; [exact I|].
  apply push_spec in hp as [(hx & _)|(k & s & conf & c0 & st2 & _ & hs & _ & _ & hst & _ & ->)]; [exfalso; eapply hx; reflexivity|].
  destruct (refresh_ok _ _ _ (i1_cfg _ _ (life_inv1 _ _ hB hl)) (serialize_refresh _ _ _ _ _ hs)) as (_ & hf & _).
  assert (e : s_conf st2 = conf) by (destruct hst as [(_ & g)|(_ & ->)]; [apply set_state_spec in g as [(g & _)|(_ & g & _)]; [discriminate|exact g]|reflexivity]).
  unfold s_data, s_msg. cbn. rewrite e. apply hf.
Qed.
Lemma pushed_state B st n c o st' : benv_ok B -> life B tame st -> readonly B = false -> push B st = (Ok (n, c, o), st') ->
  settled_writer B st' /\ s_seqno st' = s_seqno st /\ n = s_seqno st /\ s_keys st' = s_keys st /\
  exists s conf, serialize (b_env B) (s_conf st) true = Ok (s, conf) /\ s_conf st' = conf /\ serialize (b_env B) (s_conf st') true = Ok (s, conf).
Proof.
  intros hB hl hw hp. pose proof (push_life _ _ _ _ _ _ hB hl hp) as hl'. pose proof hp as hp0.
  apply push_spec in hp as [(hx & _)|(k & s & conf & c0 & st2 & (rest & hk) & hs & _ & _ & hst & hout & ->)]; [exfalso; eapply hx; reflexivity|]. cbv zeta in hout. injection hout as -> _ _.
  assert (e : s_conf st2 = conf /\ s_keys st2 = s_keys st /\ s_state st2 <> Dirty).
  { destruct hst as [(_ & g)|(hd & ->)]; [apply set_state_spec in g as [(g & _)|(_ & g & g2 & g3 & _)]; [discriminate|]; rewrite g2; split; [exact g|split; [exact g3|discriminate]]|].
    split; [reflexivity|]. split; [reflexivity|]. cbn. unfold is_dirty in hd. destruct (s_state st); discriminate. }
  destruct e as (e1 & e2 & e3).
  destruct (refresh_ok _ _ _ (i1_cfg _ _ (life_inv1 _ _ hB hl)) (serialize_refresh _ _ _ _ _ hs)) as (_ & _ & _ & hsh & _).
  split; [split; try assumption; cbn; rewrite e2, hk; discriminate|].
  split; [unfold s_seqno, s_msg, m_seqno; cbn; rewrite e1, hsh; reflexivity|]. split; [reflexivity|]. split; [exact e2|]. exists s, conf. split; [exact hs|]. cbn. rewrite e1. split; [reflexivity|]. eapply serialize_idem. exact hs.
Qed.
Lemma confirmed_state B s1 n h st' : benv_ok B -> settled_writer B s1 -> confirm_pushed B n h s1 = (Ok tt, st') ->
  settled_writer B st' /\ s_conf st' = s_conf s1 /\ s_keys st' = s_keys s1.
Proof.
  intros hB [h1 h2 h3 h4 h5] hc. pose proof hc as hc0.
  assert (e : s_conf st' = s_conf s1 /\ s_keys st' = s_keys s1 /\ s_state st' <> Dirty).
  { unfold confirm_pushed in hc. destruct (s_state s1) eqn:es; try (injection hc as <-; rewrite es; auto; fail); try congruence.
    destruct (_ =? _)%Z; [|injection hc as <-; rewrite es; split; [reflexivity|split; [reflexivity|discriminate]]].
    destruct (set_state B Clean s1) as [y st2] eqn:e. apply set_state_spec in e as [(-> & _ & e & _)|(-> & e1 & e2 & e3 & _)]; [discriminate|]. injection hc as <-. cbn. rewrite e2. split; [exact e1|]. split; [exact e3|discriminate]. }
  destruct e as (e1 & e2 & e3). split; [|auto]. split; try assumption; [|rewrite e2; exact h5].
  apply (life_step _ _ s1 (OpConfirm n h)); [exact h2|]. apply step_run with (x := Ok tt); [exact hc0|split; discriminate|]. split; [exact I|].
  pose proof (i1_cfg _ _ (life_inv1 _ _ hB h2)) as hcf. unfold s_data, s_msg. rewrite e1. destruct (s_conf s1) as [m|m o]; apply hcf.
Qed.
Lemma sent_state {I : Type} (B : I -> benv) st c st1 : group B st -> all_push B st c st1 -> forall i,
  settled_writer (B i) (st1 i) /\ s_seqno (st1 i) = s_seqno (st i) /\ s_keys (st1 i) = s_keys (st i) /\
  exists s conf, serialize (b_env (B i)) (s_conf (st i)) true = Ok (s, conf) /\ s_conf (st1 i) = conf /\ serialize (b_env (B i)) (s_conf (st1 i)) true = Ok (s, conf).
Proof.
  intros hg hp i. destruct (hp i) as (n & o & s1 & hpi & hst). destruct (pushed_state _ _ _ _ _ _ (gp_env _ _ hg i) (gp_life _ _ hg i) (gp_write _ _ hg i) hpi) as (q1 & q2 & q3 & q4 & s & conf & q5 & q6 & q7).
  destruct hst as [->|(h & hc)]; [split; [exact q1|]; split; [exact q2|]; split; [exact q4|]; eauto|].
  destruct (confirmed_state _ _ _ _ _ (gp_env _ _ hg i) q1 hc) as (r1 & r2 & r3). split; [exact r1|]. split; [unfold s_seqno, s_msg in *; rewrite r2; exact q2|]. split; [congruence|]. exists s, conf. rewrite r2. auto.
Qed.
Lemma group_sees {I : Type} (B : I -> benv) st c st1 l : group B st -> all_push B st c st1 -> all_fetch B st c st1 l ->
  forall i, exists mine inc, merge_sees (B i) (l i) (st1 i) mine inc /\ forall x, In x (map snd (mine ++ inc)) <-> exists j, publishes (B j) (st j) x.
Proof.
  intros hg hp hf i.
  assert (hone : forall h x, In (h, x) (l i) -> exists s, incoming (B i) (s_keys (st1 i)) (map (unwrap1 (B i) (st1 i)) [(h, x)]) = Ok [(h, s)] /\ exists j, x = c j /\ publishes (B j) (st j) s).
  { intros h x hx. destruct (af_only _ _ _ _ _ hf _ _ _ hx) as (j & ->). destruct (hp j) as (n & o & s1 & hpj & _).
    destruct (received (B j) (B i) (st j) (st1 i) n (c j) o s1 h (gp_aead _ _ hg j) (gp_peer _ _ hg j i) hpj (fun k rest e => af_keys _ _ _ _ _ hf j i k rest e)) as (s & conf & hs & _ & _ & _ & hin).
    exists s. split; [exact hin|]. exists j. split; [reflexivity|exists conf; exact hs]. }
  destruct (incoming_all _ _ (fun x s => exists j, x = c j /\ publishes (B j) (st j) s) _ _ hone) as (inc & hinc & hF). clear hone.
  destruct (sent_state _ _ _ _ hg hp i) as (hsw & hq & _ & s & conf & hs & _ & hs1).
  assert (hmine : exists mine a, own_part (B i) (st1 i) = Ok (mine, a) /\ (forall x, In x (map snd mine) -> x = s) /\ ((0 < s_seqno (st i))%Z -> In s (map snd mine))).
  { unfold own_part. rewrite (not_dirty _ (sw_state _ _ hsw)), orb_false_r, hq, hs1. destruct (Z.eqb_spec (s_seqno (st i)) 0) as [e|e]; cbn [negb].
    - exists [], (st1 i). split; [reflexivity|]. split; [intros x []|lia].
    - cbn [bind fst snd]. do 2 eexists. split; [reflexivity|]. cbn. split; [intros x [<-|[]]; reflexivity|auto]. }
  destruct hmine as (mine & a & ho & hm1 & hm2). exists mine, inc. split; [split; eauto|]. intros x. rewrite map_app, in_app_iff.
  assert (huniq : forall j x y, publishes (B j) (st j) x -> publishes (B j) (st j) y -> x = y) by (intros j x0 y (c1 & e1) (c2 & e2); congruence).
  split.
  - intros [hx|hx]; [exists i; rewrite (hm1 _ hx); exists conf; exact hs|].
    apply in_map_iff in hx as ([h y] & e & hy). cbn [snd] in e. subst y. clear - hF hy. induction hF as [|p q l1 l2 h1 hF IH]; [destruct hy|]. destruct hy as [->|hy]; [|auto]. destruct h1 as (_ & j & _ & h1). eauto.
  - intros (j & hx). destruct (af_all _ _ _ _ _ hf i j) as [hc|(-> & hpos)].
    + right. apply in_map_iff in hc as ([h y] & e & hy). cbn [snd] in e. subst y.
      assert (hex : exists s', In s' (map snd inc) /\ exists j', c j = c j' /\ publishes (B j') (st j') s').
      { clear - hF hy. induction hF as [|p q l1 l2 h1 hF IH]; [destruct hy|]. destruct hy as [->|hy]; [|destruct (IH hy) as (s' & e1 & e2); exists s'; split; [right; exact e1|exact e2]].
        destruct h1 as (_ & j' & h1 & h2). cbn [snd] in h1. exists (snd q). split; [left; reflexivity|]. exists j'. auto. }
      destruct hex as (s' & hin & j' & ec & hs').
      (** the same ciphertext opens to the same message *)
      assert (e : s' = x).
      { destruct (hp j) as (nj & oj & sj & hpj & _). destruct (hp j') as (nj' & oj' & sj' & hpj' & _).
        destruct (received (B j) (B i) (st j) (st1 i) nj (c j) oj sj h (gp_aead _ _ hg j) (gp_peer _ _ hg j i) hpj (fun k rest e => af_keys _ _ _ _ _ hf j i k rest e)) as (s1 & conf1 & g1 & _ & _ & _ & g2).
        destruct (received (B j') (B i) (st j') (st1 i) nj' (c j') oj' sj' h (gp_aead _ _ hg j') (gp_peer _ _ hg j' i) hpj' (fun k rest e => af_keys _ _ _ _ _ hf j' i k rest e)) as (s2 & conf2 & g3 & _ & _ & _ & g4).
        rewrite <- ec, g2 in g4. injection g4 as <-. rewrite (huniq j x s1 hx) by (exists conf1; exact g1). apply (huniq j' s' s1 hs'). exists conf2. exact g3. }
      subst s'. exact hin.
    + left. rewrite (huniq i x s hx) by (exists conf; exact hs). auto.
Qed.
Lemma exchange {I : Type} (B : I -> benv) st c st1 l i0 hs0 st2 : group B st -> all_push B st c st1 -> all_fetch B st c st1 l -> (exists i, 0 < s_seqno (st i))%Z ->
  merge (B i0) (l i0) (st1 i0) = (Ok hs0, st2) -> forall i, exists hs st2', merge (B i) (l i) (st1 i) = (Ok hs, st2') /\ agree (B i0) st2 (B i) st2'.
Proof.
  intros hg hp hf (ip & hpos) hm i.
  destruct (group_sees _ _ _ _ _ hg hp hf i0) as (mine & inc & hsee & hset). destruct (group_sees _ _ _ _ _ hg hp hf i) as (mine' & inc' & hsee' & hset').
  assert (hsw : forall j, settled_writer (B j) (st1 j)) by (intros j; apply (sent_state _ _ _ _ hg hp j)).
  eapply same_messages with (mine := mine) (inc := inc) (mine' := mine') (inc' := inc') (hs := hs0); [apply hsw|apply hsw|apply (gp_same _ _ hg)|exact hsee|exact hsee'| | | |exact hm].
  - intros x. rewrite hset, hset'. tauto.
  - intros x x' hx hx' e. apply hset in hx as (j & c1 & hx). apply hset in hx' as (j' & c1' & hx').
    rewrite (gp_same _ _ hg i0 j') in e. eapply (gp_apart _ _ hg j j'); [exact hx|exact hx'|right; left; reflexivity|left; reflexivity|exact e].
  - destruct (sent_state _ _ _ _ hg hp ip) as (_ & _ & _ & s & conf & hs & _).
    destruct (own_parses _ _ _ _ (gp_env _ _ hg ip) (life_inv1 _ _ (gp_env _ _ hg ip) (gp_life _ _ hg ip)) hs) as (m0 & q1 & q2); [destruct (Z.eqb_spec (s_seqno (st ip)) 0); [lia|reflexivity]|].
    exists s, m0. split; [apply hset; exists ip, conf; exact hs|]. rewrite (gp_same _ _ hg i0 ip). split; [exact q1|lia].
Qed.
