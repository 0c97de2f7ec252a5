(** Where the hashes that a push lists come from (C110). *)
From Verif Require Import BaseSpec DeleteSpec Data_facts Message_facts Reach_facts Redeliver_facts Merge_facts Resolve_facts Merge2_facts Adopt_facts Maps Base_facts Dump_facts Life_facts Life2_facts Life3_facts Life4_facts Conf_facts Conf2_facts Conf5_facts.

Record known_hashes (K : bytes -> Prop) (st : bstate) : Prop := {
  kh_curr : s_curr st <> [] -> K (s_curr st);
  kh_old : forall h, In h (s_old st) -> h <> [] /\ K h;
  kh_sorted : ssorted (s_old st)
}.
Lemma obsolete_full super bad hs : forall i h, In h (obsolete i super bad hs) -> In h hs /\ h <> [].
Proof.
  induction hs as [|h0 hs IH]; intros i h hin; cbn [obsolete] in hin; [destruct hin|].
  destruct (_ && _ && _) eqn:e; [|destruct (IH _ _ hin); split; [right; assumption|assumption]].
  destruct hin as [<-|hin]; [|destruct (IH _ _ hin); split; [right; assumption|assumption]].
  apply andb_true_iff in e as [_ e]. split; [left; reflexivity|]. intros ->. discriminate.
Qed.
Lemma fold_sadd_sorted l : forall s, ssorted s -> ssorted (fold_left (fun (l : list bytes) h => sadd h l) l s).
Proof. induction l as [|h l IH]; intros s hs; cbn [fold_left]; [exact hs|]. apply IH, ssorted_sadd, hs. Qed.
Lemma known_set_state K B s st y st' : known_hashes K st -> set_state B s st = (y, st') -> known_hashes K st'.
Proof.
  intros hk h. apply set_state_spec in h as [(_ & -> & _)|(_ & _ & _ & _ & _ & _ & [(_ & h1 & h2 & h3)|(_ & h2 & h3)])]; [exact hk| |].
  - split; rewrite ?h2, ?h3; [contradiction| |apply ssorted_sadd, (kh_sorted _ _ hk)]. intros h hin. apply In_sadd in hin as [->|hin]; [split; [exact h1|apply (kh_curr _ _ hk), h1]|exact (kh_old _ _ hk h hin)].
  - split; rewrite ?h2, ?h3; apply hk.
Qed.
Lemma known_parts K st st' : s_curr st' = s_curr st -> s_old st' = s_old st -> known_hashes K st -> known_hashes K st'.
Proof. intros h1 h2 [a b0 c]. split; rewrite ?h1, ?h2; assumption. Qed.
Lemma known_dirty K B st y st' : known_hashes K st -> dirty B st = (y, st') -> known_hashes K st'.
Proof.
  intros hk h. apply dirty_spec in h as [(_ & -> & _)|[(_ & _ & _ & ->)|(_ & _ & st3 & g & g2)]]; [exact hk|exact hk|].
  apply known_set_state with (K := K) in g; [|exact hk]. destruct g2 as [(c & _ & _ & ->)|(_ & _ & ->)]; exact g || (eapply known_parts; [..|exact g]; reflexivity).
Qed.
Lemma known_merge K B l st x st' : known_hashes K st -> (forall h, In h (map fst l) -> K h) -> merge B l st = (x, st') -> known_hashes K st'.
Proof.
  intros hk hl hm. unfold merge in hm. set (l1 := map (unwrap1 B st) l) in *.
  assert (el1 : map fst l1 = map fst l).
  { unfold l1. rewrite map_map. apply map_ext. intros [h c]. unfold unwrap1. destruct (s_keys st); [reflexivity|]. destruct (b_proto B); [|reflexivity]. cbn [snd fst]. destruct (b_unwrap B _ c); reflexivity. }
  apply merge_plain_spec in hm as [(_ & ->)|(mine & st1 & ho & hm)]; [exact hk|].
  assert (hk1 : known_hashes K st1 /\ forall h, In h (map fst mine) -> h <> [] -> K h).
  { apply own_part_spec in ho as [(_ & e)|(_ & s & c & _ & e)]; injection e as -> ->; (split; [exact hk || (eapply known_parts; [..|exact hk]; reflexivity)|]); [intros h []|].
    intros h [<-|[]] hne. exact (kh_curr _ _ hk hne). }
  destruct hk1 as [hk1 hmine]. destruct hm as [(_ & ->)|(inc & new & bad & _ & hinc & _ & y & hm & _)]; [exact hk1|]. cbv zeta in hm.
  destruct (incoming_fst _ _ _ _ hinc) as [p hp].
  assert (hall : forall h, In h (map fst (mine ++ inc)) -> h <> [] -> K h).
  { intros h hin hne. rewrite map_app in hin. apply in_app_or in hin as [hin|hin]; [exact (hmine h hin hne)|]. apply hl. rewrite <- el1. rewrite hp in hin.
    apply in_map_iff in hin as (z & e & hz). apply filter_In in hz as [hz _]. apply in_map_iff. eauto. }
  set (hashes := map fst (mine ++ inc)) in *.
  match type of hm with adopt B _ _ _ ?s = _ => set (st2 := s) in * end.
  assert (hk2 : known_hashes K st2).
  { unfold st2. split; cbn [set_old s_curr s_old].
    - apply (kh_curr _ _ hk1).
    - intros h hin. apply fold_sadd_In in hin as [hin|hin]; [|exact (kh_old _ _ hk1 h hin)]. apply obsolete_full in hin as [h1 h2]. split; [exact h2|]. apply hall; assumption.
    - apply fold_sadd_sorted, (kh_sorted _ _ hk1). }
  clearbody st2. apply adopt_spec in hm as [(_ & _ & ->)|[(_ & _ & hm)|(_ & i & _ & [(_ & _ & _ & _ & ->)|(_ & st3 & hm & _ & ->)])]].
  - exact hk2.
  - eapply known_set_state; [|exact hm]. eapply known_parts; [..|exact hk2]; reflexivity.
  - exact hk2.
  - assert (hk3 : known_hashes K st3) by (eapply known_set_state; [|exact hm]; eapply known_parts; [..|exact hk2]; reflexivity).
    split; cbn [s_curr s_old]; [|apply (kh_old _ _ hk3)|apply (kh_sorted _ _ hk3)]. intros hne. apply hall; [|exact hne].
    apply nth_In. destruct (Nat.lt_ge_cases i (length hashes)); [assumption|]. rewrite nth_overflow in hne by assumption. congruence.
Qed.
Lemma known_run K B o st x st' : known_hashes K st -> (forall h, In h (told o) -> K h) -> run B o st = (x, st') -> known_hashes K st'.
Proof.
  intros hk ho h. destruct (is_edit o) eqn:ee.
  - apply edit_op_spec in h; [|exact ee]. destruct h as [(_ & ->)|(f & g)]; [exact hk|].
    apply edit_spec in g as [(_ & g)|(st1 & m & o1 & g & _ & _ & ->)]; [eapply known_dirty; eauto|]. eapply known_parts; [..|eapply known_dirty; [exact hk|exact g]]; reflexivity.
  - destruct (is_key_op o) eqn:ek.
    + apply key_op_spec in h as [->|(ks & [->|(y & g)])]; [exact hk| | |exact ek]; [|eapply known_dirty; [|exact g]]; eapply known_parts; [..|exact hk| | |exact hk]; reflexivity.
    + destruct o; try discriminate; cbn [run] in h.
      * apply ignore_returned in h. destruct (push B st) as [y st2] eqn:e. cbn [snd] in h. subst st2.
        apply push_spec in e as [(_ & [->|(s & c & hs & ->)])|(k & s & conf & c & st2 & _ & hs & _ & _ & h2 & _ & ->)]; [exact hk|eapply known_parts; [..|exact hk]; reflexivity|].
        assert (hk2 : known_hashes K st2).
        { assert (hc : known_hashes K (set_conf conf st)) by (eapply known_parts; [..|exact hk]; reflexivity). destruct h2 as [(_ & h2)|(_ & ->)]; [eapply known_set_state; eauto|exact hc]. }
        split; cbn [set_old s_curr s_old]; [apply (kh_curr _ _ hk2)|intros ? []|constructor].
      * apply confirm_spec in h as (_ & [(_ & ->)|(_ & _ & ->)]); [exact hk|]. split; cbn [s_curr s_old]; [intros _; apply ho; left; reflexivity|apply (kh_old _ _ hk)|apply (kh_sorted _ _ hk)].
      * apply ignore_returned in h. destruct (merge B l st) as [y st2] eqn:e. cbn [snd] in h. subst st2. eapply known_merge; eassumption.
      * apply ignore_returned in h. destruct (dump B st) as [y st2] eqn:e. cbn [snd] in h. subst st2.
        apply dump_spec in e. cbv zeta in e. destruct (readonly B); destruct e as [(s & c & _ & _ & ->)|(_ & ->)]; (split; cbn [set_old s_curr s_old]; [apply (kh_curr _ _ hk)|try apply (kh_old _ _ hk)|try apply (kh_sorted _ _ hk); constructor]); intros ? [].
Qed.
Lemma known_steps K B R st l st' : known_hashes K st -> (forall o, In o l -> forall h, In h (told o) -> K h) -> steps B R st l st' -> known_hashes K st'.
Proof.
  intros hk hl h. induction h as [|st o st1 l st2 h hs IH]; [exact hk|]. apply IH; [|intros o' ho'; apply hl; right; exact ho'].
  destruct h as [o x st1 h1 h2 h3]. eapply known_run; [exact hk|apply hl; left; reflexivity|exact h1].
Qed.
Lemma known_life K B st : benv_ok B -> life B (told_only K) st -> known_hashes K st.
Proof.
  intros hB h. assert (ht : forall B0 st0, life_of (told_only K) B0 st0 -> life B0 tame st0) by (intros B0 st0; apply life_mono; intros B1 o a a' [h1 _]; exact h1).
  induction h as [B ks|B st o st' hl IH h|B st d st1 ks st' hl IH h1 h2 h3|B A g st _ IH hro e]; [|specialize (IH hB)..|exact (IH (benv_ok_promote _ _ _ e hro hB))].
  - split; cbn; [congruence|intros ? []|constructor].
  - destruct h as [o x st' h1 h2 [_ h3]]. eapply known_run; eauto.
  - destruct (restore_move _ _ _ _ _ _ hB (life_inv1 _ _ hB (ht _ _ hl)) h1 h2 h3) as (_ & _ & e1 & e2 & _).
    assert (hk : known_hashes K st1) by (eapply known_run with (o := OpDump); [exact IH|intros ? []|cbn [run]; rewrite h1; reflexivity]).
    assert (hc : s_curr st1 = s_curr st) by (apply dump_spec in h1; cbv zeta in h1; destruct (readonly B); destruct h1 as [(s & c & _ & _ & ->)|(_ & ->)]; reflexivity).
    apply (known_parts K st1 st'); [congruence|exact e2|exact hk].
Qed.

(** ** every message merged is listed, if it is not the current one *)
Lemma good_hashes_length bad hs : forall i, length (good_hashes i bad hs) <= length hs.
Proof. induction hs as [|h hs IH]; intros i; cbn [good_hashes]; [apply le_n|]. specialize (IH (Datatypes.S i)). destruct (memn i bad); cbn [length]; lia. Qed.
Lemma good_hashes_all bad hs : forall i, length (good_hashes i bad hs) = length hs -> forall j, j < length hs -> memn (i + j) bad = false.
Proof.
  induction hs as [|h hs IH]; intros i hl j hj; cbn [good_hashes length] in *; [lia|]. pose proof (good_hashes_length bad hs (Datatypes.S i)). destruct (memn i bad) eqn:e; [lia|].
  cbn [length] in hl. destruct j as [|j]; [rewrite Nat.add_0_r; exact e|]. rewrite <- plus_n_Sm. apply (IH (Datatypes.S i)); lia.
Qed.
Lemma obsolete_complete super bad hs : forall i j h, nth_error hs j = Some h -> super <> Some (i + j) -> memn (i + j) bad = false -> h <> [] -> In h (obsolete i super bad hs).
Proof.
  induction hs as [|h0 hs IH]; intros i j h hj hs0 hb hne; [destruct j; discriminate|]. cbn [obsolete]. destruct j as [|j].
  - cbn [nth_error] in hj. injection hj as ->. rewrite Nat.add_0_r in *. rewrite hb. destruct h as [|c0 h]; [congruence|]. cbn [is_nil negb andb].
    replace (match super with Some j => Nat.eqb i j | None => false end) with false; [left; reflexivity|]. destruct super as [k|]; [|reflexivity]. symmetry. apply Nat.eqb_neq. congruence.
  - cbn [nth_error] in hj. rewrite <- plus_n_Sm in *. assert (hin : In h (obsolete (Datatypes.S i) super bad hs)) by (apply (IH (Datatypes.S i) j); assumption). destruct (_ && _ && _); [right|]; exact hin.
Qed.
Lemma set_state_keeps B s st y st' h : set_state B s st = (y, st') -> In h (s_old st) -> In h (s_old st').
Proof. intros g hin. apply set_state_spec in g as [(_ & -> & _)|(_ & _ & _ & _ & _ & _ & [(_ & _ & _ & e)|(_ & _ & e)])]; [exact hin| |]; rewrite e; [apply In_sadd; right; exact hin|exact hin]. Qed.
Lemma merge_lists B l st st' h : benv_ok B -> inv1 B st -> readonly B = false -> op_ok B (OpMerge l) st -> merge B l st = (Ok (map fst l), st') -> s_seqno st' <> 0%Z ->
  In h (map fst l) -> h <> [] -> s_curr st' = h \/ In h (s_old st').
Proof.
  intros hB hi hro hok hm hq hin hne. unfold merge in hm. set (l1 := map (unwrap1 B st) l) in *.
  assert (el1 : map fst l1 = map fst l).
  { unfold l1. rewrite map_map. apply map_ext. intros [h0 c]. unfold unwrap1. destruct (s_keys st); [reflexivity|]. destruct (b_proto B); [|reflexivity]. cbn [snd fst]. destruct (b_unwrap B _ c); reflexivity. }
  apply merge_plain_spec in hm as [(hx & _)|(mine & st1 & ho & [(hx & _)|(inc & new & bad & _ & hinc & hmc & y & hm & hy)])]; [exfalso; eapply hx; reflexivity..|].
  cbv zeta in hm. destruct y as [[]| | | |]; try discriminate hy. injection hy as hg.
  (** every message was readable, and none is bad *)
  destruct (incoming_fst _ _ _ _ hinc) as [p hp].
  assert (hlen : length (map fst inc) <= length (map fst l1)).
  { rewrite hp, !map_length. clear. induction l1 as [|x l1 IH]; [apply le_n|]. cbn [filter]. destruct (p x); cbn [length]; lia. }
  pose proof (good_hashes_length bad (map fst inc) (length mine)) as hlen2. rewrite <- hg in hlen2. rewrite el1 in hlen.
  assert (hgood : forall j, j < length (map fst inc) -> memn (length mine + j) bad = false) by (apply good_hashes_all; rewrite <- hg; lia).
  assert (hincl : In h (map fst inc)).
  { rewrite hg in hin. clear -hin. revert hin. generalize (length mine). induction (map fst inc) as [|h0 hs IH]; intros i hin; cbn [good_hashes] in hin; [destruct hin|].
    destruct (memn i bad); [right; eauto|]. destruct hin as [->|hin]; [left; reflexivity|right; eauto]. }
  apply In_nth_error in hincl as [j hj]. assert (hjl : j < length (map fst inc)) by (apply nth_error_Some; congruence). specialize (hgood j hjl).
  set (hashes := map fst (mine ++ inc)) in *.
  assert (hjh : nth_error hashes (length mine + j) = Some h).
  { unfold hashes. rewrite map_app, nth_error_app2 by (rewrite map_length; lia). rewrite map_length. replace (length mine + j - length mine) with j by lia. exact hj. }
  match type of hm with adopt B _ _ _ ?s = _ => set (st2 := s) in * end.
  assert (hlisted : m_unmerged (c_msg new) <> Some (length mine + j) -> In h (s_old st2)).
  { intros hs. unfold st2. cbn [set_old s_old]. apply fold_sadd_In. left. eapply obsolete_complete; [exact hjh|exact hs|exact hgood|exact hne]. }
  assert (hdec : m_unmerged (c_msg new) = Some (length mine + j) \/ m_unmerged (c_msg new) <> Some (length mine + j)).
  { destruct (m_unmerged (c_msg new)) as [i|]; [|right; discriminate]. destruct (Nat.eq_dec i (length mine + j)) as [->|hn]; [left; reflexivity|right; congruence]. }
  assert (hs2 : s_seqno st2 = s_seqno st1 /\ is_dirty st2 = is_dirty st1) by (split; reflexivity).
  apply adopt_spec in hm as [(q & _ & ->)|[(q & hu & hm)|(q & i & hu & [(hdd & -> & _ & _ & ->)|(hnot & st3 & hm & _ & ->)])]].
  - (** nothing is adopted *)
    right. apply hlisted. intros hu.
    destruct ((s_seqno st =? 0)%Z && negb (is_dirty st)) eqn:hz.
    { apply own_part_spec in ho as [(_ & e)|(hz2 & _)]; [|congruence]. injection e as _ ->. apply andb_true_iff in hz as [hz _]. apply Z.eqb_eq in hz. apply hq. rewrite (proj1 hs2). exact hz. }
    pose proof ho as ho2. apply own_part_spec in ho as [(hz2 & _)|(_ & s & cc & hs & e)]; [congruence|]. injection e as -> ->.
    destruct (own_parses _ _ _ _ hB hi hs hz) as (m0 & q1 & q2).
    assert (hsee : merge_sees B l st [(s_curr st, s)] inc) by (split; [exists (set_conf cc st); exact ho2|exact hinc]).
    destruct (hok _ _ hsee) as (hnc & _).
    assert (hmm : exists m, merge_msgs (b_env B) (map snd ([(s_curr st, s)] ++ inc)) = Ok (m, bad) /\ m_unmerged m = Some (length [(s_curr st, s)] + j) /\ (m_seqno m <= s_seqno st)%Z).
    { unfold merge_confs in hmc. destruct (is_dirty st).
      - unfold merge_mutable in hmc. ok_inv hmc. destruct a as [m bd]. exists m. destruct (m_unmerged m) as [i|] eqn:eu.
        + ok_inv hmc. injection hmc as <- <-. pose proof (increment_impl_seqno _ _ _ ha0) as [f1 _].
          assert (f2 : m_unmerged (c_msg a) = m_unmerged m) by (unfold increment_impl in ha0; cbv zeta in ha0; destruct (_ || _) in ha0; [discriminate|]; injection ha0 as <-; reflexivity).
          split; [first [exact ha|reflexivity]|]. split; [congruence|]. unfold m_seqno in *. lia.
        + injection hmc as <- <-. cbn [c_msg] in hu. congruence.
      - ok_inv hmc. destruct a as [m bd]. injection hmc as <- <-. cbn [c_msg fst] in *. exists m. split; [first [exact ha|reflexivity]|]. split; [exact hu|]. unfold m_seqno in *. lia. }
    destruct hmm as (m & g0 & g1 & g2). apply merge_msgs_inv in g0 as (ms & p1 & p2). pose proof (parsed_good _ _ _ _ _ hnc p1) as hgd.
    cbn [app map snd parse_all] in p1. rewrite q1 in p1. destruct (parse_all (b_env B) 1 _) as [[ms' b']| | | |]; try discriminate. cbn [bind] in p1. injection p1 as <- <-.
    assert (h0 : 1 + j = 0); [|discriminate]. refine (head_stays _ _ _ m _ hgd (bo_lag _ hB) _ p2 g1 _); [|lia].
    intros hr. unfold readonly in hro. congruence.
  - right. eapply set_state_keeps; [exact hm|]. change (In h (s_old st2)). apply hlisted. congruence.
  - right. apply hlisted. rewrite hu. intros e. injection e as e. apply own_part_spec in ho as [(hz2 & e2)|(_ & s & cc & hs & e2)]; injection e2 as -> ->; [|discriminate e].
    apply andb_true_iff in hz2 as [_ hz2]. change (is_dirty st = true) in hdd. rewrite hdd in hz2. discriminate.
  - cbn [s_curr s_old]. destruct hdec as [hd|hd].
    + left. rewrite hu in hd. injection hd as ->. apply nth_error_nth with (d := []) in hjh. exact hjh.
    + right. eapply set_state_keeps; [exact hm|]. change (In h (s_old st2)). apply hlisted. exact hd.
Qed.
