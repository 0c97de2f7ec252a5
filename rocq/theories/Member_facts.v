From Coq Require Import Lia.
From Verif Require Import MemberSpec Maps Data_facts Diff_facts Parse_facts Message_facts Wire_facts Round_facts Reach_facts Redeliver_facts Merge_facts Resolve_facts Conflict_facts Overflow_facts Replay_facts Merge2_facts Adopt_facts Crypt_facts Base_facts Dump_facts Life_facts Life2_facts Life3_facts Life4_facts Fields_facts Conf_facts Conf2_facts Conf3_facts Conf4_facts Conf5_facts Conf6_facts Converge_facts Plain_facts Net_facts Solo_facts CInfo_facts.

Lemma signed_serialize E E' m sg : e_lag E' = e_lag E -> m_vsig m <> None -> serialize E' (Plain m) sg = serialize E (Plain m) true.
Proof.
  destruct E as [h v g k], E' as [h' v' g' k']. cbn [e_lag]. intros -> hv. unfold serialize. cbn [refresh bind c_msg]. unfold serialize_impl. cbn [e_lag e_signer].
  destruct (m_vsig m); [reflexivity|congruence].
Qed.
Lemma unmerged_serialize E m u sg : serialize E (Plain (set_unmerged u m)) sg = match serialize E (Plain m) sg with Ok (s, _) => Ok (s, Plain (set_unmerged u m)) | Err => Err | Throw => Throw | Hang => Hang | UB => UB end.
Proof.
  unfold serialize. cbn [refresh bind c_msg]. change (serialize_impl E (set_unmerged u m) (m_diff (set_unmerged u m)) sg) with (serialize_impl E m (m_diff m) sg).
  destruct (serialize_impl E m (m_diff m) sg); reflexivity.
Qed.

Section Members.
  Context {I : Type} (B : I -> benv) (key : bytes) (R : benv).
  Hypotheses (hf : fleet B) (hme : member B R).
  Notation E := (b_env R).
  Lemma mem_verifies : e_verifier E <> None /\ e_signer E = None.
  Proof. pose proof (me_reads _ _ hme) as h. unfold readonly, read_only in h. destruct (e_verifier E), (e_signer E); try discriminate. split; [discriminate|reflexivity]. Qed.
  (** what an administrator posts, as the member sees it *)
  Lemma mem_parse j x s : life (B j) plainly x -> publishes (B j) x s ->
    exists m, parse_msg E false s = Ok m /\ plain_msg m /\ m_seqno m = s_seqno x /\ (0 <= m_seqno m)%Z /\ serialize E (Plain m) true = Ok (s, Plain m).
  Proof.
    intros hl hs. destruct (writer_publish B hf j j x s hl hs) as (m & q1 & q2 & q3 & q4 & q5). pose proof (me_peer _ _ hme j) as hp.
    assert (q1' : parse_msg E false s = Ok m) by (rewrite <- q1; apply env_eta_parse; apply hp).
    exists m. split; [exact q1'|]. split; [exact q2|]. split; [exact q3|]. split; [exact q4|].
    rewrite (signed_serialize (b_env (B j)) E m true (pe_lag _ _ hp)); [exact q5|]. eapply parse_verified; [exact q1'|apply mem_verifies].
  Qed.
  Lemma mem_opens (N : net I) : net_inv B key N -> forall st h c s, s_keys st = [key] -> carries B N c s -> incoming R (s_keys st) (map (unwrap1 R st) [(h, c)]) = Ok [(h, s)].
  Proof.
    intros hi st h c s hk (j & x & n & o & x' & h1 & h2 & h3).
    destruct (received (B j) R x st n c o x' h (fl_aead _ hf j) (me_peer _ _ hme j) h2) as (s' & conf & e1 & _ & _ & _ & e2).
    - intros k rest e. rewrite (ni_keys _ _ _ hi j x h1) in e. injection e as <- <-. exists [], []. split; [exact hk|]. split; [reflexivity|]. intros k' [].
    - destruct h3 as (c' & h3). rewrite e1 in h3. injection h3 as -> ->. exact e2.
  Qed.
  Lemma mem_sees (N : net I) : net_inv B key N -> forall st l, s_keys st = [key] -> from_server (sent N) R st l ->
    exists inc, incoming R (s_keys st) (map (unwrap1 R st) l) = Ok inc /\
      (forall h s, In (h, s) inc -> exists c, In (h, c) l /\ sent N c /\ carries B N c s) /\ (forall h c s, In (h, c) l -> carries B N c s -> In (h, s) inc).
  Proof.
    intros hi st l hk. induction l as [|[h c] l IH]; intros hs; [exists []; split; [reflexivity|]; split; [intros h s []|intros h c s []]|].
    destruct IH as (inc & e & h1 & h2); [intros h0 x0 h0'; apply hs; right; exact h0'|].
    destruct (unwrap1 R st (h, c)) as [h0 c0] eqn:eu.
    destruct (hs h c (or_introl eq_refl)) as [hc|hr].
    - destruct (ni_sent _ _ _ hi c hc) as (s & hcs). pose proof (mem_opens N hi st h c s hk hcs) as ho. cbn [map] in *. rewrite eu in *.
      exists ((h, s) :: inc). split; [rewrite incoming_cons, ho, e; reflexivity|]. split.
      + intros h3 s3 [e3|h3']; [injection e3 as <- <-; exists c; split; [left; reflexivity|auto]|]. destruct (h1 _ _ h3') as (c3 & g1 & g2). exists c3. split; [right; exact g1|exact g2].
      + intros h3 c3 s3 [e3|h3'] hc3; [|right; eauto]. injection e3 as <- <-. left. pose proof (mem_opens N hi st h c s3 hk hc3) as ho3. cbn [map] in ho3. rewrite eu, ho in ho3. congruence.
    - unfold rubbish in hr. cbn [map] in *. rewrite eu in *. exists inc. split; [rewrite incoming_cons, hr, e; reflexivity|]. split.
      + intros h3 s3 h3'. destruct (h1 _ _ h3') as (c3 & g1 & g2). exists c3. split; [right; exact g1|exact g2].
      + intros h3 c3 s3 [e3|h3'] hc3; [|eauto]. injection e3 as <- <-. exfalso. pose proof (mem_opens N hi st h c s3 hk hc3) as ho3. cbn [map] in ho3. rewrite eu, hr in ho3. discriminate.
  Qed.
  Lemma mem_apart (N : net I) l : no_clash B N -> (forall s, In s l -> seen B N s) -> no_collision E l.
  Proof.
    intros hnc hl x x' hx hx' e. apply hl in hx as (j & y & hy & c1 & hx). apply hl in hx' as (j' & y' & hy' & c1' & hx').
    rewrite (pe_hash _ _ (me_peer _ _ hme j')) in e. eapply (hnc j y j' y'); [exact hy|exact hy'|exact hx|exact hx'|right; left; reflexivity|left; reflexivity|exact e].
  Qed.

  (** ** the posted messages *)
  Lemma posted_of (N : net I) c s M : net_inv B key N -> sent N c -> carries B N c s -> parse_msg E false s = Ok M -> posted B N (m_seqno M) c (m_data M).
  Proof.
    intros hi hc (j & x & n & o & x' & h1 & h2 & h3) hp. split; [exact hc|]. pose proof (me_peer _ _ hme j) as hpe.
    assert (hp' : parse_msg (b_env (B j)) false s = Ok M) by (rewrite <- hp; symmetry; apply env_eta_parse; apply hpe).
    pose proof (life_inv1 _ _ (fl_env _ hf j) (plainly_life _ _ (ni_life _ _ _ hi j x h1))) as hi1.
    destruct (published_content _ _ _ _ hi1 h3 hp') as (conf & e1 & e2 & e3 & _).
    destruct (received (B j) R x (fresh R (s_keys x)) n c o x' [] (fl_aead _ hf j) hpe h2) as (s' & conf' & g1 & g2 & g3 & _).
    { intros k rest e. rewrite (ni_keys _ _ _ hi j x h1) in *. injection e as <- <-. exists [], []. split; [reflexivity|]. split; [reflexivity|]. intros k' []. }
    rewrite e1 in g1. injection g1 as <- <-. exists j, x, o, x'. split; [exact h1|]. split; [rewrite e2, <- g2; exact h2|]. unfold s_data, s_msg. rewrite g3. exact e3.
  Qed.
  Lemma posted_inv (N : net I) n c d : net_inv B key N -> posted B N n c d -> exists s M, carries B N c s /\ parse_msg E false s = Ok M /\ m_seqno M = n /\ m_data M = d.
  Proof.
    intros hi (hc & i & x & o & x' & h1 & h2 & ->). pose proof (me_peer _ _ hme i) as hpe.
    destruct (received (B i) R x (fresh R (s_keys x)) n c o x' [] (fl_aead _ hf i) hpe h2) as (s' & conf' & g1 & g2 & g3 & _).
    { intros k rest e. rewrite (ni_keys _ _ _ hi i x h1) in *. injection e as <- <-. exists [], []. split; [reflexivity|]. split; [reflexivity|]. intros k' []. }
    assert (hpub : publishes (B i) x s') by (exists conf'; exact g1). destruct (mem_parse i x s' (ni_life _ _ _ hi i x h1) hpub) as (M & q1 & _ & q3 & _).
    exists s', M. split; [exists i, x, n, o, x'; auto|]. split; [exact q1|]. split; [congruence|].
    assert (hp' : parse_msg (b_env (B i)) false s' = Ok M) by (rewrite <- q1; symmetry; apply env_eta_parse; apply hpe).
    pose proof (life_inv1 _ _ (fl_env _ hf i) (plainly_life _ _ (ni_life _ _ _ hi i x h1))) as hi1.
    destruct (published_content _ _ _ _ hi1 hpub hp') as (conf & e1 & _ & e3 & _). rewrite g1 in e1. injection e1 as <-. unfold s_data, s_msg. rewrite g3. exact e3.
  Qed.

  (** ** the member's states *)
  Record follows (N : net I) (y : bstate) (g : list bytes) : Prop := {
    fo_inv0 : inv0 R y;
    fo_keys : s_keys y = [key];
    fo_got : forall c, In c g -> sent N c \/ exists h, rubbish R (fresh R [key]) (h, c);
    fo_top : forall c s M, In c g -> sent N c -> carries B N c s -> parse_msg E false s = Ok M -> (m_seqno M <= s_seqno y)%Z;
    fo_holds : (s_seqno y = 0%Z /\ s_data y = [] /\ cfg_ok E (s_conf y)) \/
      exists c s M m, In c g /\ sent N c /\ carries B N c s /\ parse_msg E false s = Ok M /\ (0 < m_seqno M)%Z /\
        s_conf y = Plain m /\ cfg_ok E (Plain m) /\ m_vsig m <> None /\ m_seqno m = m_seqno M /\ m_data m = m_data M /\ serialize E (Plain m) true = Ok (s, Plain m)
  }.
  Lemma carries_later (N N' : net I) c s : (forall j x, past N j x -> past N' j x) -> carries B N c s -> carries B N' c s.
  Proof. intros h (j & x & n & o & x' & h1 & h2). exists j, x, n, o, x'. auto. Qed.
  Lemma follows_start (N : net I) : follows N (fresh R [key]) [].
  Proof.
    pose proof (life_fresh tame R [key]) as hl. split.
    - eapply life_inv0. exact hl.
    - reflexivity.
    - intros c [].
    - intros c s M [].
    - left. split; [reflexivity|]. split; [reflexivity|]. exact (i1_cfg _ _ (life_inv1 _ _ (me_env _ _ hme) hl)).
  Qed.
  Lemma follows_later (N N' : net I) y g : net_inv B key N -> net_inv B key N' -> (forall j x, past N j x -> past N' j x) -> (forall c, sent N c -> sent N' c) -> follows N y g -> follows N' y g.
  Proof.
    intros hi hi' hp hs [h1 h2 h3 h4 h5]. split; [exact h1|exact h2| | |].
    - intros c hc. destruct (h3 c hc); auto.
    - intros c s M hc hc' hcs hm. destruct (h3 c hc) as [hn|(h & hr)].
      + destruct (ni_sent _ _ _ hi c hn) as (s0 & hs0). rewrite (carries_unique B key N' c s s0 hf hi' hcs) in hm by (eapply carries_later; eassumption). eapply h4; eassumption.
      + exfalso. unfold rubbish in hr. rewrite (mem_opens N' hi' (fresh R [key]) h c s eq_refl hcs) in hr. discriminate.
    - destruct h5 as [h5|(c & s & M & m & q1 & q2 & q3 & q4)]; [left; exact h5|right]. exists c, s, M, m. split; [exact q1|]. split; [apply hs, q2|]. split; [eapply carries_later; eassumption|exact q4].
  Qed.
  (** a state with the same config *)
  Lemma follows_same (N : net I) y y' g : s_conf y' = s_conf y -> s_keys y' = s_keys y -> inv0 R y' -> follows N y g -> follows N y' g.
  Proof.
    intros e1 e2 hi [h1 h2 h3 h4 h5]. assert (e3 : s_seqno y' = s_seqno y) by (unfold s_seqno, s_msg; rewrite e1; reflexivity). assert (e4 : s_data y' = s_data y) by (unfold s_data, s_msg; rewrite e1; reflexivity).
    split; [exact hi|congruence|exact h3| |].
    - rewrite e3. exact h4.
    - rewrite e1, e3, e4. exact h5.
  Qed.
  Lemma follows_plain (N : net I) y g : follows N y g -> s_state y = Clean /\ exists m, s_conf y = Plain m.
  Proof. intros h. apply (i0_ro _ _ (fo_inv0 _ _ _ h) (me_reads _ _ hme)). Qed.
  Lemma follows_own (N : net I) y g mine st1 : follows N y g -> own_part R y = Ok (mine, st1) -> st1 = y /\
    (mine = [] /\ s_seqno y = 0%Z \/ exists s c M, mine = [(s_curr y, s)] /\ sent N c /\ carries B N c s /\ parse_msg E false s = Ok M /\ m_seqno M = s_seqno y).
  Proof.
    intros h ho. destruct (follows_plain _ _ _ h) as (hc & m & hm). assert (hd : is_dirty y = false) by (unfold is_dirty; rewrite hc; reflexivity).
    apply own_part_spec in ho as [(e & ho)|(e & s & c' & hs & ho)]; injection ho as -> ->; rewrite hd, andb_true_r in e.
    - apply Z.eqb_eq in e. auto.
    - apply Z.eqb_neq in e. destruct (fo_holds _ _ _ h) as [(h0 & _)|(c & s1 & M & m1 & q1 & q2 & q3 & q4 & q5 & q6 & q7 & q8 & q9 & q10 & q11)]; [congruence|].
      rewrite q6 in hs. rewrite q11 in hs. injection hs as <- <-. split; [rewrite <- q6; destruct y; reflexivity|]. right. exists s1, c, M.
      split; [reflexivity|]. split; [exact q2|]. split; [exact q3|]. split; [exact q4|]. rewrite <- q9. unfold s_seqno, s_msg. rewrite q6. reflexivity.
  Qed.
  Lemma follows_merge (N : net I) y g l x y' : net_inv B key N -> no_clash B N -> follows N y g -> from_server (sent N) R y l -> merge R l y = (x, y') -> returned x ->
    follows N y' (match x with Ok _ => map snd l ++ g | _ => g end).
  Proof.
    intros hi hnc h hs hm hret. destruct (follows_plain _ _ _ h) as (hcl & m0 & hm0). assert (hd : is_dirty y = false) by (unfold is_dirty; rewrite hcl; reflexivity).
    assert (hi0 : inv0 R y') by (eapply inv0_merge; [apply h|exact hm]).
    destruct (mem_sees N hi y l (fo_keys _ _ _ h) hs) as (inc & e & s1 & s2). unfold merge in hm.
    apply merge_plain_spec in hm as [(hx & ->)|(mine & st1 & ho & hm)]; [destruct x; [exfalso; eapply hx; reflexivity|exact h..]|].
    destruct (follows_own _ _ _ _ _ h ho) as (-> & hown).
    destruct hm as [(hx & ->)|(inc0 & new & bad & hk & hinc & hmc & yy & ha & hxx)]; [destruct x; [exfalso; eapply hx; reflexivity|exact h..]|].
    rewrite e in hinc. injection hinc as <-. rewrite hd in hmc. unfold merge_confs in hmc. ok_inv hmc. destruct a as [mm bad0]. cbn [fst snd] in hmc. injection hmc as <- <-. rename ha0 into hmm.
    assert (hall : forall s, In s (map snd (mine ++ inc)) -> exists c, sent N c /\ carries B N c s /\ (In c (map snd l) \/ exists M, parse_msg E false s = Ok M /\ m_seqno M = s_seqno y)).
    { intros s hin. rewrite map_app in hin. apply in_app_iff in hin as [hin|hin].
      - destruct hown as [(-> & _)|(s0 & c & M & -> & q1 & q2 & q3 & q4)]; [destruct hin|]. destruct hin as [<-|[]]. exists c. cbn [snd]. split; [exact q1|]. split; [exact q2|]. right. exists M. auto.
      - apply in_map_iff in hin as ([h0 s0] & e0 & hin). cbn [snd] in e0. subst s0. destruct (s1 _ _ hin) as (c & g1 & g2 & g3). exists c. split; [exact g2|]. split; [exact g3|]. left. apply in_map_iff. exists (h0, c). auto. }
    assert (hnc' : no_collision E (map snd (mine ++ inc))).
    { apply (mem_apart N _ hnc). intros s hin. destruct (hall s hin) as (c & _ & q & _). eapply carries_seen; exact q. }
    pose proof hmm as hmm'. apply merge_msgs_inv in hmm' as (ms & hpa & _).
    destruct (merge_msgs_ro E _ mm bad0 ms hnc' (bo_lag _ (me_env _ _ hme)) (me_reads _ _ hme) hpa hmm) as (s0 & M & i & t1 & t2 & -> & t4 & t5 & t6).
    pose proof (parsed_good _ _ _ _ _ hnc' hpa) as hg.
    assert (htop : forall s z, In s (map snd (mine ++ inc)) -> parse_msg E false s = Ok z -> (m_seqno z <= m_seqno M)%Z).
    { intros s z hin hz. assert (hzm : In z ms) by (apply (parse_all_spec _ _ _ _ _ hpa); eauto).
      assert (hne : ms <> []) by (intros ->; exact hzm). destruct (max_seqno_in ms hne) as (w & hw & ew); [intros q hq; apply (g_ok _ _ hg _ hq)|].
      pose proof (max_seqno_ge ms z hzm) as hge.
      assert (hrw : reconciled E ms w).
      { split; [exact hw|]. split; intros q hq.
        - intros hl. pose proof (g_old _ _ hg _ _ hq hl) as hlt. change (fst (m_sh w)) with (m_seqno w) in hlt. pose proof (max_seqno_ge ms q hq). lia.
        - pose proof (max_seqno_ge ms q hq). pose proof (bo_lag _ (me_env _ _ hme)). lia. }
      specialize (t6 w hrw). apply leb_nlt in t6. destruct (Z.le_gt_cases (m_seqno w) (m_seqno M)) as [hle|hgt]; [lia|exfalso; apply t6].
      unfold m_seqno in hgt. destruct (m_sh w) as [a1 b1], (m_sh M) as [a2 b2]. cbn [fst] in hgt. unfold lt, cmp, cmp_prod, cmp, cmp_Z. cbn [fst snd]. destruct (Z.compare_spec a2 a1); try lia. reflexivity. }
    assert (hnew : forall c s z, In c (map snd l) -> sent N c -> carries B N c s -> parse_msg E false s = Ok z -> (m_seqno z <= m_seqno M)%Z).
    { intros c s z hc _ hcs hz. apply in_map_iff in hc as ([h0 c0] & e0 & hc). cbn [snd] in e0. subst c0. apply (htop s z); [|exact hz]. rewrite map_app. apply in_app_iff. right. apply in_map_iff. exists (h0, s). split; [reflexivity|]. eapply s2; eassumption. }
    assert (hgot : forall c, In c (map snd l ++ g) -> sent N c \/ exists h0, rubbish R (fresh R [key]) (h0, c)).
    { intros c hc. apply in_app_iff in hc as [hc|hc]; [|apply (fo_got _ _ _ h c hc)]. apply in_map_iff in hc as ([h0 c0] & e0 & hc). cbn [snd] in e0. subst c0.
      destruct (hs h0 c hc) as [hq|hq]; [left; exact hq|right]. exists h0. unfold rubbish, unwrap1 in *. rewrite (fo_keys _ _ _ h) in hq. exact hq. }
    cbv zeta in ha. cbn [c_msg] in ha. apply adopt_spec in ha. cbn [c_msg] in ha. change (m_seqno (set_unmerged (Some i) M)) with (m_seqno M) in ha.
    destruct ha as [(hq & -> & ->)|[(_ & hu & _)|(hq & j & hj & [(hd' & _)|(_ & st2 & g1 & -> & ->)])]].
    - rewrite hxx. split; [exact hi0|apply h|exact hgot| |].
      + intros c s z hc hc' hcs hz. apply in_app_iff in hc as [hc|hc]; [|change (m_seqno z <= s_seqno y)%Z; eapply (fo_top _ _ _ h); eassumption].
        change (m_seqno z <= s_seqno y)%Z. rewrite <- hq. eapply hnew; eassumption.
      + destruct (fo_holds _ _ _ h) as [hh|(c & s & z & m & q1 & q2)]; [left; exact hh|right]. exists c, s, z, m. split; [apply in_app_iff; right; exact q1|exact q2].
    - discriminate hu.
    - exfalso. unfold is_dirty, set_old in hd'. cbn [s_state] in hd'. rewrite hcl in hd'. discriminate.
    - rewrite hxx. apply set_state_spec in g1 as [(g1 & _)|(_ & g2 & g3 & g4 & _)]; [discriminate|]. cbn [set_conf set_old s_conf s_keys] in g2, g4.
      assert (hge : (s_seqno y < m_seqno M)%Z).
      { destruct hown as [(-> & h0)|(s3 & c & M3 & -> & q1 & q2 & q3 & q4)].
        - destruct (hall s0 t1) as (c & q1 & (j0 & x0 & n0 & o0 & x0' & p1 & p2 & p3) & _). destruct (mem_parse j0 x0 s0 (ni_life _ _ _ hi j0 x0 p1) p3) as (M' & p4 & _ & _ & p5 & _). rewrite t2 in p4. injection p4 as <-. lia.
        - pose proof (htop s3 M3 (or_introl eq_refl) q3). lia. }
      assert (hpos : (0 <= s_seqno y)%Z).
      { destruct hown as [(_ & h0)|(s3 & c & M3 & _ & q1 & (j0 & x0 & n0 & o0 & x0' & p1 & p2 & p3) & q3 & q4)]; [lia|].
        destruct (mem_parse j0 x0 s3 (ni_life _ _ _ hi j0 x0 p1) p3) as (M' & p4 & _ & _ & p5 & _). rewrite q3 in p4. injection p4 as <-. lia. }
      assert (esq' : forall a1 a2 a3 a4 a5, s_seqno (mkBase (s_conf st2) a1 a2 a3 a4 a5) = m_seqno M) by (intros; unfold s_seqno, s_msg; cbn [s_conf]; rewrite g2; reflexivity).
      split; [exact hi0|cbn [s_keys]; rewrite g4; apply h|exact hgot| |].
      + intros c s z hc hc' hcs hz. rewrite esq'. apply in_app_iff in hc as [hc|hc]; [eapply hnew; eassumption|]. pose proof (fo_top _ _ _ h c s z hc hc' hcs hz). lia.
      + right. destruct (hall s0 t1) as (c & q1 & q2 & q3). exists c, s0, M, (set_unmerged (Some i) M). split.
        { apply in_app_iff. left. destruct q3 as [q3|(M' & q3 & q4)]; [exact q3|]. exfalso. rewrite t2 in q3. injection q3 as <-. lia. }
        split; [exact q1|]. split; [exact q2|]. split; [exact t2|]. split; [lia|]. split; [cbn [s_conf]; exact g2|].
        pose proof (parse_frame E false s0 M (bo_hash _ (me_env _ _ hme)) t2) as hfr.
        split; [destruct hfr as [f1 f2]; split; [apply frame_unmerged; exact f1|exact f2]|]. split; [change (m_vsig M <> None); eapply parse_verified; [exact t2|apply mem_verifies]|]. split; [reflexivity|]. split; [reflexivity|].
        rewrite unmerged_serialize. destruct q2 as (j0 & x0 & n0 & o0 & x0' & p1 & p2 & p3). destruct (mem_parse j0 x0 s0 (ni_life _ _ _ hi j0 x0 p1) p3) as (M' & p4 & _ & _ & _ & p6). rewrite t2 in p4. injection p4 as <-. rewrite p6. reflexivity.
  Qed.
  Lemma follows_serialize (N : net I) y g sg s c : follows N y g -> serialize E (s_conf y) sg = Ok (s, c) -> c = s_conf y.
  Proof. intros h hs. destruct (follows_plain _ _ _ h) as (_ & m & e). rewrite e in *. apply serialize_refresh, refresh_plain in hs. exact hs. Qed.
  Lemma follows_call (N : net I) y g o x y' : follows N y g -> is_edit o = true \/ o = OpPush \/ (exists n h, o = OpConfirm n h) \/ o = OpDump -> run R o y = (x, y') -> follows N y' g.
  Proof.
    intros h ho hr. pose proof (inv0_run _ _ _ _ _ (fo_inv0 _ _ _ h) hr) as hi0. destruct (follows_plain _ _ _ h) as (hcl & m & hm).
    destruct ho as [ho|[->|[(n & h0 & ->)| ->]]].
    - apply (edit_op_spec _ _ _ _ _ ho) in hr as [(_ & ->)|(f & he)]; [exact h|]. unfold edit in he. rewrite (dirty_readonly R y (me_reads _ _ hme)) in he by congruence. injection he as _ <-. exact h.
    - cbn [run] in hr. apply ignore_returned in hr. destruct (push R y) as [z st2] eqn:e. cbn [snd] in hr. subst st2.
      apply push_spec in e as [(_ & [->|(s & c & hs & ->)])|(k & s & conf & c & st2 & _ & hs & _ & _ & g2 & _ & ->)]; [exact h| |].
      + apply (follows_same N y); [exact (follows_serialize _ _ _ _ _ _ h hs)|reflexivity|exact hi0|exact h].
      + assert (e : st2 = set_conf conf y) by (destruct g2 as [(g2 & _)|(_ & ->)]; [unfold is_dirty in g2; rewrite hcl in g2; discriminate|reflexivity]). subst st2.
        apply (follows_same N y); [exact (follows_serialize _ _ _ _ _ _ h hs)|reflexivity|exact hi0|exact h].
    - cbn [run] in hr. apply confirm_spec in hr as [_ [(_ & ->)|(hw & _)]]; [exact h|congruence].
    - cbn [run] in hr. apply ignore_returned in hr. destruct (dump R y) as [z st2] eqn:e. cbn [snd] in hr. subst st2. apply dump_spec in e. cbv zeta in e.
      destruct e as [(s & c & hs & _ & ->)|(_ & ->)].
      + apply (follows_same N y); [exact (follows_serialize _ _ _ _ _ _ h hs)|reflexivity|exact hi0|exact h].
      + rewrite (me_reads _ _ hme) in *. apply (follows_same N y); [reflexivity|reflexivity|exact hi0|exact h].
  Qed.
  Lemma follows_restart (N : net I) z g d z1 y' : follows N z g -> dump R z = (Ok d, z1) -> (N.of_nat (length d) <= uint64_max)%N -> restore R [key] d = Ok y' -> follows N y' g.
  Proof.
    intros h hd hl hr. pose proof (inv0_restore _ _ _ _ _ _ (fo_inv0 _ _ _ h) hd hl hr) as hi0. destruct (follows_plain _ _ _ h) as (hcl & m0 & hm0).
    destruct (restore_spec _ _ _ _ _ _ (fo_inv0 _ _ _ h) hd hl hr) as (s & c' & conf & hs & hc & ->). rewrite hcl in hc. destruct hc as (m' & hp & ->).
    assert (hcf : cfg_ok E (s_conf z)) by (destruct (fo_holds _ _ _ h) as [(_ & _ & hq)|(c & s1 & M & m & _ & _ & _ & _ & _ & q6 & q7 & _)]; [exact hq|rewrite q6; exact q7]).
    destruct (store_roundtrip_ok _ _ _ _ _ hcf hs) as (m1 & p1 & p2 & p3). rewrite hp in p1. injection p1 as <-.
    destruct (store_parse _ _ _ _ _ true hcf hs) as (m2 & r1 & _ & _ & r4). rewrite hp in r1. injection r1 as <-. specialize (r4 eq_refl eq_refl).
    pose proof (follows_serialize _ _ _ _ _ _ h hs) as ->.
    assert (e1 : m_seqno m' = s_seqno z) by (destruct p2 as (p2 & _); exact p2). assert (e2 : m_data m' = s_data z) by (destruct p2 as (_ & p2 & _); exact p2).
    assert (hcm : cfg_ok E (Plain m')) by (apply (cfg_env (store_env E)); eapply parse_frame; [|exact hp]; apply (me_env _ _ hme)).
    split; [exact hi0|reflexivity|apply h| |].
    - change (s_seqno (mkBase (Plain m') (s_state z) (s_curr z) (if readonly R then [] else s_old z) false [key])) with (m_seqno m'). rewrite e1. apply h.
    - destruct (fo_holds _ _ _ h) as [(h1 & h2 & h3)|(c & s1 & M & m & q1 & q2 & q3 & q4 & q5 & q6 & q7 & q8 & q9 & q10 & q11)].
      + left. split; [change (m_seqno m' = 0%Z); congruence|]. split; [change (m_data m' = []); congruence|exact hcm].
      + right. exists c, s1, M, m'. split; [exact q1|]. split; [exact q2|]. split; [exact q3|]. split; [exact q4|]. split; [exact q5|]. split; [reflexivity|]. split; [exact hcm|].
        assert (hv : m_vsig m' <> None) by (rewrite r4, q6; exact q8). split; [exact hv|].
        split; [rewrite e1, <- q9; unfold s_seqno, s_msg; rewrite q6; reflexivity|]. split; [rewrite e2, <- q10; unfold s_data, s_msg; rewrite q6; reflexivity|].
        rewrite <- (signed_serialize E E m' false eq_refl hv), p3. f_equal. f_equal.
        rewrite q6 in hs. rewrite (signed_serialize E E m false eq_refl q8), q11 in hs. congruence.
  Qed.
  Lemma reads_run (N : net I) H : reads B key R N H -> net_run B key N.
  Proof. induction 1 as [N hN|N N' i es cs H _ IH hs|N y g H l x y' _ IH _ _ _|N y g H o x y' _ IH _ _ _|N H z g d z1 y' _ IH _ _ _ _]; try exact IH; [apply run_start; exact hN|eapply run_more; eassumption]. Qed.
  Lemma reads_follows (N : net I) H : reads B key R N H -> no_clash B N -> forall y g, In (y, g) H -> follows N y g.
  Proof.
    intros h. induction h as [N hN|N N' i es cs H h IH hs|N y g H l x y' h IH hl hm hret|N y g H o x y' h IH ho hr hret|N H z g d z1 y' h IH hin hd hlen hr]; intros hnc y0 g0 hin0.
    - destruct hin0 as [e|[]]. injection e as <- <-. apply follows_start.
    - assert (hp : forall j x, past N j x -> past N' j x) by (intros j x hx; apply (ns_past _ _ _ _ _ _ _ hs); left; exact hx).
      pose proof (no_clash_earlier B N N' hp hnc) as hnc0. pose proof (reads_run _ _ h) as hrun.
      apply (follows_later N N'); [apply net_run_inv; assumption|apply net_run_inv; [exact hf|eapply run_more; eassumption|exact hnc]|exact hp|intros c hc; apply (ns_sent _ _ _ _ _ _ _ hs); right; exact hc|].
      exact (IH hnc0 y0 g0 hin0).
    - destruct hin0 as [e|hin0]; [|exact (IH hnc y0 g0 hin0)]. injection e as <- <-. eapply follows_merge; [apply net_run_inv; [exact hf|exact (reads_run _ _ h)|exact hnc]|exact hnc|apply (IH hnc); left; reflexivity|exact hl|exact hm|exact hret].
    - destruct hin0 as [e|hin0]; [|exact (IH hnc y0 g0 hin0)]. injection e as <- <-. eapply follows_call; [apply (IH hnc); left; reflexivity|exact ho|exact hr].
    - destruct hin0 as [e|hin0]; [|exact (IH hnc y0 g0 hin0)]. injection e as <- <-. eapply follows_restart; [apply (IH hnc); exact hin|exact hd|exact hlen|exact hr].
  Qed.
  (** ** the results *)
  Lemma member_exact (N : net I) H y g : reads B key R N H -> no_clash B N -> In (y, g) H -> s_state y = Clean /\
    (forall n c d, posted B N n c d -> In c g -> (n <= s_seqno y)%Z) /\
    (s_seqno y = 0%Z /\ s_data y = [] \/ (0 < s_seqno y)%Z /\ exists c, In c g /\ posted B N (s_seqno y) c (s_data y)).
  Proof.
    intros h hnc hin. pose proof (reads_follows _ _ h hnc y g hin) as hfo. pose proof (net_run_inv B key N hf (reads_run _ _ h) hnc) as hi.
    destruct (follows_plain _ _ _ hfo) as (hcl & _). split; [exact hcl|]. split.
    - intros n c d hp hc. destruct (posted_inv N n c d hi hp) as (s & M & q1 & q2 & <- & _). apply (fo_top _ _ _ hfo c s M hc); [apply hp|exact q1|exact q2].
    - destruct (fo_holds _ _ _ hfo) as [(h1 & h2 & _)|(c & s & M & m & q1 & q2 & q3 & q4 & q5 & q6 & _ & _ & q9 & q10 & _)]; [left; auto|right].
      assert (e1 : s_seqno y = m_seqno M) by (rewrite <- q9; unfold s_seqno, s_msg; rewrite q6; reflexivity). assert (e2 : s_data y = m_data M) by (rewrite <- q10; unfold s_data, s_msg; rewrite q6; reflexivity).
      rewrite e1, e2. split; [exact q5|]. exists c. split; [exact q1|]. eapply posted_of; eassumption.
  Qed.
  Lemma posted_unique (N : net I) n c d n' d' : net_run B key N -> no_clash B N -> posted B N n c d -> posted B N n' c d' -> n' = n /\ d' = d.
  Proof.
    intros hr hnc h h'. pose proof (net_run_inv B key N hf hr hnc) as hi. destruct (posted_inv N n c d hi h) as (s & M & q1 & q2 & <- & <-). destruct (posted_inv N n' c d' hi h') as (s' & M' & p1 & p2 & <- & <-).
    rewrite (carries_unique B key N c s' s hf hi p1 q1) in p2. rewrite q2 in p2. injection p2 as <-. auto.
  Qed.
  Lemma member_fetch (N : net I) y g H l : reads B key R N ((y, g) :: H) -> no_clash B N -> few_calls B N -> from_server (sent N) R y l ->
    (s_seqno y <> 0)%Z \/ (exists h c, In (h, c) l /\ sent N c) -> exists hs y', merge R l y = (Ok hs, y').
  Proof.
    intros h hnc hc hl hex. pose proof (reads_follows _ _ h hnc y g (or_introl eq_refl)) as hfo. pose proof (net_run_inv B key N hf (reads_run _ _ h) hnc) as hi.
    destruct (follows_plain _ _ _ hfo) as (hcl & m0 & hm0). assert (hd : is_dirty y = false) by (unfold is_dirty; rewrite hcl; reflexivity).
    destruct (mem_sees N hi y l (fo_keys _ _ _ hfo) hl) as (inc & e & s1 & s2).
    assert (hdec : forall c s, carries B N c s -> decent E s /\ exists m, parse_msg E false s = Ok m).
    { intros c s (j & x & n & o & x' & p1 & p2 & p3). destruct (mem_parse j x s (ni_life _ _ _ hi j x p1) p3) as (m & q1 & q2 & q3 & q4 & _). split; [|eauto]. right. exists m. split; [exact q1|]. split; [exact q2|].
      pose proof (few_room B key N hf hi hc j j x p1). pose proof (pe_lag _ _ (me_peer _ _ hme j)) as el. pose proof (bo_lag _ (me_env _ _ hme)). unfold room. rewrite el in *. lia. }
    assert (ho : exists mine, own_part R y = Ok (mine, y) /\ (forall s, In s (map snd mine) -> exists c, carries B N c s) /\ (s_seqno y <> 0%Z -> mine <> [])).
    { destruct (own_part R y) as [[mine st1]| | | |] eqn:ho.
      1: { exists mine. destruct (follows_own _ _ _ _ _ hfo ho) as (-> & hown). split; [reflexivity|]. destruct hown as [(-> & h0)|(s & c & M & -> & _ & q & _)]; [split; [intros s []|congruence]|]. split; [|discriminate]. intros s' [<-|[]]. exists c. exact q. }
      all: exfalso; unfold own_part in ho; rewrite hd, orb_false_r in ho; destruct (Z.eqb_spec (s_seqno y) 0) as [h0|h0]; cbn [negb] in ho; [discriminate|];
        destruct (fo_holds _ _ _ hfo) as [(h1 & _)|(c & s & M & m & _ & _ & _ & _ & _ & q6 & _ & _ & _ & _ & q11)]; [congruence|]; rewrite q6, q11 in ho; discriminate. }
    destruct ho as (mine & ho & hmine & hne0).
    assert (hall : forall s, In s (map snd (mine ++ inc)) -> exists c, carries B N c s).
    { intros s hin. rewrite map_app in hin. apply in_app_iff in hin as [hin|hin]; [apply hmine, hin|]. apply in_map_iff in hin as ([h0 s0] & e0 & hin). cbn [snd] in e0. subst s0. destruct (s1 _ _ hin) as (c & _ & _ & q). eauto. }
    assert (hnc' : no_collision E (map snd (mine ++ inc))).
    { apply (mem_apart N _ hnc). intros s hin. destruct (hall s hin) as (c & q). eapply carries_seen; exact q. }
    destruct (merge_msgs_total E (map snd (mine ++ inc)) hnc' (bo_lag _ (me_env _ _ hme)) (bo_sig64 _ (me_env _ _ hme))) as (m & bad & hm).
    { intros s hin. destruct (hall s hin) as (c & q). apply (hdec c s q). }
    { assert (hne : exists s, In s (map snd (mine ++ inc))).
      { destruct hex as [hz|(h0 & c & hin & hcs)].
        - specialize (hne0 hz). destruct mine as [|[h0 s0] mine]; [congruence|]. exists s0. left. reflexivity.
        - destruct (ni_sent _ _ _ hi c hcs) as (s & hcar). exists s. rewrite map_app. apply in_app_iff. right. apply in_map_iff. exists (h0, s). split; [reflexivity|]. eapply s2; eassumption. }
      destruct hne as (s & hin). destruct (hall s hin) as (c & q). destruct (hdec c s q) as (_ & m & hm). eauto. }
    assert (hmc : merge_confs R (is_dirty y) (map snd (mine ++ inc)) = Ok (Plain m, bad)) by (unfold merge_confs; rewrite hd, hm; reflexivity).
    pose proof (fo_keys _ _ _ hfo) as hk. unfold merge, merge_plain. destruct (s_keys y) as [|k0 ks] eqn:ek; [discriminate|]. rewrite ho. cbn [fst snd]. rewrite e, hmc. cbn [fst snd].
    match goal with |- context [adopt ?a1 ?a2 ?a3 ?a4 ?a5] => destruct (adopt a1 a2 a3 a4 a5) as [z st'] eqn:had end.
    assert (hz : z = Ok tt).
    { apply adopt_spec in had as [(_ & -> & _)|[(_ & hu & had)|(_ & j & hj & [(_ & _ & _ & -> & _)|(_ & st2 & _ & -> & _)])]]; try reflexivity.
      exfalso. destruct (merge_confs_ro R false _ (Plain m) bad (me_reads _ _ hme) eq_refl ltac:(rewrite <- hd; exact hmc)) as (m1 & i1 & e1 & e2). injection e1 as <-. cbn [c_msg] in hu. congruence. }
    subst z. eauto.
  Qed.
End Members.
