From Coq Require Import Lia.
From Verif Require Import NetSpec Maps Data_facts Diff_facts Parse_facts Message_facts Wire_facts Round_facts Reach_facts Redeliver_facts Merge_facts Resolve_facts Conflict_facts Overflow_facts Replay_facts Merge2_facts Adopt_facts Crypt_facts Base_facts Dump_facts Life_facts Life2_facts Life3_facts Life4_facts Fields_facts Conf_facts Conf2_facts Conf3_facts Conf4_facts Conf5_facts Conf6_facts Converge_facts Plain_facts Net_facts.

(** [K]: the earlier messages listed by a message with seqno [q]; [V]: the messages there are.  What a listed message lists
    is listed, as far as it is within the window. *)
Record closed (E : env) (V : bytes -> Prop) (q : Z) (K : list shash) : Prop := {
  cl_old : forall k, In k K -> (fst k < q)%Z;
  cl_known : forall k, In k K -> (q < fst k + e_lag E)%Z -> exists s y, V s /\ parse_msg E false s = Ok y /\ m_sh y = k /\
    forall k', In k' (keys (m_lagged y)) -> (q < fst k' + e_lag E)%Z -> In k' K
}.
Definition closed_msg (E : env) (V : bytes -> Prop) (m : msg) : Prop := closed E V (m_seqno m) (keys (m_lagged m)).
Lemma closed_mono E (V V' : bytes -> Prop) q K : (forall s, V s -> V' s) -> closed E V q K -> closed E V' q K.
Proof. intros h [h1 h2]. split; [exact h1|]. intros k hk hq. destruct (h2 k hk hq) as (s & y & g1 & g2). exists s, y. auto. Qed.
Lemma closed_none E V q : closed E V q [].
Proof. split; intros k []. Qed.
Lemma windowed_keys E m k : In k (keys (windowed E m)) <-> In k (keys (m_lagged m)) /\ (m_seqno m - e_lag E < fst k < m_seqno m)%Z.
Proof.
  unfold windowed, keys. rewrite !in_map_iff. split.
  - intros (p & <- & hp). apply filter_In in hp as [hp hw]. apply in_window_spec in hw. split; [exists p; auto|exact hw].
  - intros ((p & <- & hp) & hw). exists p. split; [reflexivity|]. apply filter_In. split; [exact hp|]. apply in_window_spec. exact hw.
Qed.
Lemma closed_same E V m m' : same_content E m m' -> closed_msg E V m -> closed_msg E V m'.
Proof.
  intros (h1 & _ & _ & _ & h2) [g1 g2]. unfold closed_msg. rewrite h1, h2. split.
  - intros k hk. apply windowed_keys in hk as [hk _]. exact (g1 k hk).
  - intros k hk hq. apply windowed_keys in hk as [hk _]. destruct (g2 k hk hq) as (s & y & q1 & q2 & q3 & q4). exists s, y. split; [exact q1|]. split; [exact q2|]. split; [exact q3|].
    intros k' hk' hq'. apply windowed_keys. pose proof (q4 k' hk' hq') as hin. split; [exact hin|]. pose proof (g1 _ hin). lia.
Qed.
Lemma drop_old_keeps z l k : In k (keys l) -> (z < fst k)%Z -> In k (keys (drop_old z l)).
Proof.
  induction l as [|[s d] l IH]; intros hk hz; [exact hk|]. cbn [drop_old]. destruct (Z.leb_spec (fst s) z) as [h|h]; [|exact hk]. destruct hk as [<-|hk]; [cbn in hz; lia|auto].
Qed.
Lemma drop_new_keeps z l k : In k (keys l) -> (fst k < z)%Z -> In k (keys (drop_new z l)).
Proof.
  induction l as [|[s d] l IH]; intros hk hz; [exact hk|]. cbn [drop_new]. destruct (drop_new z l) as [|x r] eqn:e.
  - destruct (fst s >=? z)%Z eqn:ez.
    + destruct hk as [<-|hk]; [cbn in hz; lia|]. exact (IH hk hz).
    + destruct hk as [<-|hk]; [left; reflexivity|]. destruct (IH hk hz).
  - destruct hk as [<-|hk]; [left; reflexivity|]. right. exact (IH hk hz).
Qed.
Lemma emplace_keys {V} (k : shash) (v : V) m x : In x (keys (emplace k v m)) <-> x = k \/ In x (keys m).
Proof.
  split.
  - intros h. unfold keys in *. apply in_map_iff in h as (p & <- & h). apply emplace_In in h as [->|h]; [left; reflexivity|]. right. apply in_map. exact h.
  - unfold emplace. destruct (lookup k m) as [w|] eqn:e.
    + intros [->|h]; [|exact h]. apply lookup_keys. eauto.
    + intros h. rewrite In_keys_insert. destruct h; auto.
Qed.
Lemma increment_impl_closed E V m c s y : closed_msg E V m -> V s -> parse_msg E false s = Ok y -> m_sh y = m_sh m -> (forall k, In k (keys (m_lagged y)) -> In k (keys (m_lagged m))) -> increment_impl E m = Ok c -> closed_msg E V (c_msg c).
Proof.
  intros [g1 g2] hs hp hsh hlag. unfold increment_impl. cbv zeta. destruct (_ || _); [discriminate|]. intros h. injection h as <-. cbn [c_msg]. unfold closed_msg. change (m_seqno (mkMsg ((m_seqno m + 1)%Z, zero_hash) (m_data m) [] (emplace (m_sh m) (m_diff m) (drop_new (m_seqno m) (drop_old (m_seqno m - e_lag E) (m_lagged m)))) (m_unknown m) (m_vsig m) (m_unmerged m))) with (m_seqno m + 1)%Z. cbn [m_lagged].
  assert (hsub : forall k, In k (keys (drop_new (m_seqno m) (drop_old (m_seqno m - e_lag E) (m_lagged m)))) -> In k (keys (m_lagged m))).
  { intros k hk. unfold keys in *. apply in_map_iff in hk as (p & <- & hp0). apply in_map. apply drop_new_sub, drop_old_sub in hp0. exact hp0. }
  assert (hkeep : forall k, In k (keys (m_lagged m)) -> (m_seqno m + 1 < fst k + e_lag E)%Z -> In k (keys (emplace (m_sh m) (m_diff m) (drop_new (m_seqno m) (drop_old (m_seqno m - e_lag E) (m_lagged m)))))).
  { intros k hk hq. apply emplace_keys. right. apply drop_new_keeps; [|exact (g1 k hk)]. apply drop_old_keeps; [exact hk|lia]. }
  split.
  - intros k hk. apply emplace_keys in hk as [->|hk]; [change (fst (m_sh m)) with (m_seqno m); lia|]. pose proof (g1 k (hsub k hk)). lia.
  - intros k hk hq. apply emplace_keys in hk as [->|hk].
    + exists s, y. split; [exact hs|]. split; [exact hp|]. split; [exact hsh|]. intros k' hk' hq'. apply hkeep; [apply hlag; exact hk'|exact hq'].
    + destruct (g2 k (hsub k hk) ltac:(lia)) as (s1 & y1 & q1 & q2 & q3 & q4). exists s1, y1. split; [exact q1|]. split; [exact q2|]. split; [exact q3|]. intros k' hk' hq'. apply hkeep; [apply q4; [exact hk'|lia]|exact hq'].
Qed.
Lemma fold_emplace_keys {W} (f : shash * btdict -> W) (lg : lagged_t) k : forall rp : list (shash * W), In k (keys (fold_left (fun rp p => emplace (fst p) (f p) rp) lg rp)) <-> In k (keys rp) \/ In k (keys lg).
Proof.
  induction lg as [|[h df] lg IH]; intros rp; cbn [fold_left]; [cbn; tauto|]. rewrite IH, emplace_keys. cbn. split; [intros [[->|h0]|h0]; auto|intros [h0|[<-|h0]]; auto].
Qed.
Lemma replay_keys l k : In k (keys (replay_of l)) <-> exists m, In m l /\ (k = m_sh m \/ In k (keys (m_lagged m))).
Proof.
  unfold replay_of. assert (hg : forall rp, In k (keys (fold_left add_conf l rp)) <-> In k (keys rp) \/ exists m, In m l /\ (k = m_sh m \/ In k (keys (m_lagged m)))).
  { induction l as [|m l IH]; intros rp; cbn [fold_left]; [split; [auto|intros [h|(m & [] & _)]; exact h]|]. rewrite IH. unfold add_conf at 1. rewrite (fold_emplace_keys (fun p => (m_data m, snd p))), emplace_keys. split.
    - intros [[[->|h]|h]|(m' & h1 & h2)]; [right; exists m; split; [left; reflexivity|auto]|left; exact h|right; exists m; split; [left; reflexivity|auto]|right; exists m'; split; [right; exact h1|exact h2]].
    - intros [h|(m' & [<-|h1] & h2)]; [left; left; right; exact h|left; destruct h2; auto|right; exists m'; auto]. }
  rewrite hg. cbn. split; [intros [[]|h]; exact h|auto].
Qed.
Lemma resolve_closed E V mx cur m : resolve E mx cur = Ok m -> (forall c, In c cur -> (m_seqno c <= mx)%Z /\ closed_msg E V c /\ exists s, V s /\ parse_msg E false s = Ok c) -> closed_msg E V m.
Proof.
  intros h hc. apply resolve_inv in h as (top & rest & d & s & hs & _ & _ & _ & ->). unfold closed_msg. change (m_seqno (mkMsg ((mx + 1)%Z, e_hash E s) (fst (prune d)) [] (map (fun p => (fst p, snd (snd p))) (replay_of (top :: rest))) [] None None)) with (mx + 1)%Z. cbn [m_lagged].
  assert (hin : forall n, In n (top :: rest) -> In n cur) by (intros n hn; rewrite <- hs in hn; apply sort_In in hn; exact hn).
  assert (hk : forall k, In k (keys (map (fun p : shash * (dict * btdict) => (fst p, snd (snd p))) (replay_of (top :: rest)))) <-> exists n, In n (top :: rest) /\ (k = m_sh n \/ In k (keys (m_lagged n)))).
  { intros k. rewrite <- replay_keys. unfold keys. rewrite map_map. reflexivity. }
  split.
  - intros k hkk. apply hk in hkk as (n & hn & hh). destruct (hc n (hin n hn)) as (q1 & [q2 _] & _). destruct hh as [->|hh]; [change (fst (m_sh n)) with (m_seqno n); lia|]. pose proof (q2 k hh). lia.
  - intros k hkk hq. apply hk in hkk as (n & hn & hh). destruct (hc n (hin n hn)) as (q1 & [_ q2] & sn & q3 & q4). destruct hh as [->|hh].
    + exists sn, n. split; [exact q3|]. split; [exact q4|]. split; [reflexivity|]. intros k' hk' _. apply hk. exists n. auto.
    + destruct (q2 k hh ltac:(lia)) as (s1 & y1 & g1 & g2 & g3 & g4). exists s1, y1. split; [exact g1|]. split; [exact g2|]. split; [exact g3|]. intros k' hk' hq'. apply hk. exists n. split; [exact hn|]. right. apply g4; [exact hk'|lia].
Qed.
Lemma merge_msgs_closed E V l m bad : no_collision E l -> merge_msgs E l = Ok (m, bad) -> (forall s x, In s l -> parse_msg E false s = Ok x -> V s /\ closed_msg E V x) -> closed_msg E V m.
Proof.
  intros hnc h hl. destruct (m_unmerged m) as [i|] eqn:hu.
  - destruct (merge_msgs_origin _ _ _ _ hnc h) as [(s & x & j & h1 & h2 & ->)|(hu' & _)]; [|congruence]. exact (proj2 (hl s x h1 h2)).
  - apply merge_msgs_inv in h as (ms & h1 & h2). pose proof (parsed_good _ _ _ _ _ hnc h1) as hg. destruct (merge_parsed_conflict _ _ _ hg h2 hu) as (_ & _ & _ & _ & hr).
    eapply resolve_closed; [exact hr|]. intros c hc. apply kept_In in hc as (hc & _); [|exact hg]. split; [apply max_seqno_ge; exact hc|]. pose proof (parse_all_spec _ _ _ _ _ h1 c) as hp. apply hp in hc as (s & hs & hps). destruct (hl s c hs hps) as [a1 a2]. split; [exact a2|eauto].
Qed.

(** ** the object *)
(** what the next message made from this one will list it as *)
Definition honest (E : env) (c : config) : Prop :=
  match c with Plain m => exists s, serialize E (Plain m) true = Ok (s, Plain m) /\ m_sh m = (m_seqno m, e_hash E s) | Mut _ _ => True end.
Definition inv11 (V : bytes -> Prop) (B : benv) (st : bstate) : Prop := closed_msg (b_env B) V (s_msg st) /\ honest (b_env B) (s_conf st).
Lemma inv11_mono (V V' : bytes -> Prop) B st : (forall s, V s -> V' s) -> inv11 V B st -> inv11 V' B st.
Proof. intros h [h1 h2]. split; [eapply closed_mono; eassumption|exact h2]. Qed.
Lemma refresh_closed E V c c' : refresh c = Ok c' -> closed_msg E V (c_msg c) -> closed_msg E V (c_msg c').
Proof. intros h. apply refresh_frame in h as (h1 & h2 & _). unfold closed_msg, m_seqno. rewrite h1, h2. auto. Qed.
Lemma refresh_honest E c c' : refresh c = Ok c' -> honest E c -> honest E c'.
Proof. destruct c as [m|m o]; cbn [refresh]; [intros h; injection h as <-; auto|]. destruct (diff o _); [|discriminate]. intros h; injection h as <-. exact (fun x => x). Qed.
Lemma inv11_conf V B st sg s c : inv11 V B st -> serialize (b_env B) (s_conf st) sg = Ok (s, c) -> inv11 V B (set_conf c st).
Proof. intros [h1 h2] hs. apply serialize_refresh in hs. split; [exact (refresh_closed _ _ _ _ hs h1)|exact (refresh_honest _ _ _ hs h2)]. Qed.
(** what it publishes *)
Definition good_V (E : env) (V : bytes -> Prop) : Prop :=
  forall s, V s -> exists m, parse_msg E false s = Ok m /\ serialize E (Plain m) true = Ok (s, Plain m).
Lemma parse_sh E t s m : parse_msg E t s = Ok m -> m_sh m = (m_seqno m, e_hash E s).
Proof. intros h. apply parse_msg_spec in h as (_ & _ & h & _). rewrite <- h. unfold m_seqno. destruct (m_sh m). reflexivity. Qed.
Lemma increment_closed V B st c s : inv1 B st -> inv11 V B st -> good_V (b_env B) V -> V s -> publishes B st s -> increment (b_env B) (s_conf st) = Ok c -> closed_msg (b_env B) V (c_msg c).
Proof.
  intros hi [h1 h2] hV hs (c' & hp) hc. destruct (hV s hs) as (y & py & _).
  pose proof (parse_own _ _ _ _ _ _ _ (i1_cfg _ _ hi) hp py) as hsc.
  unfold s_msg in h1. destruct (s_conf st) as [m|m o]; cbn [increment c_msg] in *.
  - destruct h2 as (s0 & e0 & esh). rewrite hp in e0. injection e0 as <- ->. cbn [c_msg] in hsc. eapply increment_impl_closed; [exact h1|exact hs|exact py| | |exact hc].
    + rewrite (parse_sh _ _ _ _ py), esh. destruct hsc as (-> & _). reflexivity.
    + intros k hk. destruct hsc as (_ & _ & _ & _ & e). rewrite e in hk. apply windowed_keys in hk. apply hk.
  - rewrite hp in hc. cbn [bind] in hc. pose proof (refresh_closed _ _ _ _ (serialize_refresh _ _ _ _ _ hp) h1) as h1'.
    eapply increment_impl_closed; [|exact hs|exact py| | |exact hc].
    + exact h1'.
    + rewrite (parse_sh _ _ _ _ py). cbn. destruct hsc as (-> & _). reflexivity.
    + intros k hk. destruct hsc as (_ & _ & _ & _ & e). rewrite e in hk. apply windowed_keys in hk. apply hk.
Qed.
Lemma increment_mut E c c' : increment E c = Ok c' -> exists m o, c' = Mut m o.
Proof.
  assert (h : forall m c', increment_impl E m = Ok c' -> exists m o, c' = Mut m o) by (intros m c0; unfold increment_impl; destruct (_ || _); [discriminate|]; intros e; injection e as <-; eauto).
  destruct c as [m|m o]; cbn [increment]; [apply h|]. intros e. ok_inv e. destruct a as [s c1]. apply h in e. exact e.
Qed.
Lemma increment_impl_mut E m c' : increment_impl E m = Ok c' -> exists m o, c' = Mut m o.
Proof. unfold increment_impl; destruct (_ || _); [discriminate|]; intros e; injection e as <-; eauto. Qed.
Lemma merge_confs_closed V B d l new bad : no_collision (b_env B) l -> good_V (b_env B) V -> merge_confs B d l = Ok (new, bad) -> (forall s x, In s l -> parse_msg (b_env B) false s = Ok x -> V s /\ closed_msg (b_env B) V x) ->
  closed_msg (b_env B) V (c_msg new) /\ (m_unmerged (c_msg new) <> None -> honest (b_env B) new).
Proof.
  intros hnc hV h hl. unfold merge_confs, merge_mutable in h.
  destruct (merge_msgs (b_env B) l) as [[m bad0]| | | |] eqn:e; cbn [bind fst snd] in h; try (destruct d; discriminate). pose proof (merge_msgs_closed _ V _ _ _ hnc e hl) as hcl. destruct d.
  - destruct (m_unmerged m) as [i|] eqn:hu.
    + destruct (increment_impl (b_env B) m) as [c| | | |] eqn:ei; cbn [bind] in h; try discriminate. injection h as <- <-.
      destruct (merge_msgs_origin _ _ _ _ hnc e) as [(s & x & j & g1 & g2 & ->)|(hu' & _)]; [|congruence]. destruct (hl s x g1 g2) as [a1 a2].
      split; [eapply increment_impl_closed; [exact hcl|exact a1|exact g2|reflexivity|auto|exact ei]|]. intros _. apply increment_impl_mut in ei as (m1 & o1 & ->). exact Logic.I.
    + injection h as <- <-. split; [exact hcl|]. intros _. exact Logic.I.
  - injection h as <- <-. split; [exact hcl|]. cbn [c_msg honest]. intros hu.
    destruct (merge_msgs_origin _ _ _ _ hnc e) as [(s & x & j & g1 & g2 & ->)|(hu' & _)]; [|congruence]. destruct (hl s x g1 g2) as [a1 a2]. destruct (hV s a1) as (y & p1 & p2). rewrite g2 in p1. injection p1 as <-.
    exists s. split; [|apply (parse_sh _ _ _ _ g2)]. unfold serialize in *. cbn [refresh bind c_msg] in *. change (serialize_impl (b_env B) (set_unmerged (Some j) x) (m_diff (set_unmerged (Some j) x)) true) with (serialize_impl (b_env B) x (m_diff x) true).
    destruct (serialize_impl (b_env B) x (m_diff x) true) as [s0| | | |]; cbn [bind] in *; try discriminate. injection p2 as ->. reflexivity.
Qed.
Lemma increment_closed' V B st c : inv1 B st -> inv11 V B st -> good_V (b_env B) V -> (forall s, publishes B st s -> V s) -> increment (b_env B) (s_conf st) = Ok c -> closed_msg (b_env B) V (c_msg c).
Proof.
  intros hi h hV hp hc. assert (hs : exists s, publishes B st s).
  { unfold publishes. destruct h as [_ h2]. destruct (s_conf st) as [m|m o]; cbn [honest increment] in *; [destruct h2 as (s & e & _); eauto|]. destruct (serialize (b_env B) (Mut m o) true) as [[s c1]| | | |] eqn:e; try discriminate. eauto. }
  destruct hs as (s & hs). eapply increment_closed; try eassumption. apply hp. exact hs.
Qed.
Lemma inv11_run V B o st x st' : inv1 B st -> inv11 V B st -> good_V (b_env B) V -> (forall s, publishes B st s -> V s) -> key_op o = false ->
  (forall l mine inc, o = OpMerge l -> merge_sees B l st mine inc -> no_collision (b_env B) (map snd (mine ++ inc)) /\ forall s y, In s (map snd (mine ++ inc)) -> parse_msg (b_env B) false s = Ok y -> V s /\ closed_msg (b_env B) V y) ->
  run B o st = (x, st') -> inv11 V B st'.
Proof.
  intros hi h11 hV hpub hk hmer h.
  assert (hss : forall s st0 y st2, set_state B s st0 = (y, st2) -> inv11 V B st0 -> inv11 V B st2).
  { intros s st0 y st2 g g3. apply set_state_spec in g as [(_ & -> & _)|(_ & g & _)]; [exact g3|]. unfold inv11, s_msg in *. rewrite g. exact g3. }
  assert (hdi : forall y st2, dirty B st = (y, st2) -> inv11 V B st2).
  { intros y st2 g. apply dirty_spec in g as [(_ & -> & _)|[(_ & _ & _ & ->)|(_ & _ & st3 & g & g2)]]; [exact h11|exact h11|].
    destruct g2 as [(c & gc & _ & ->)|(_ & _ & ->)]; [|eapply hss; eassumption]. split; [exact (increment_closed' V B st c hi h11 hV hpub gc)|]. cbn [set_conf s_conf]. apply increment_mut in gc as (m & o1 & ->). exact Logic.I. }
  destruct o; try discriminate hk;
    try (apply edit_op_spec in h; [|reflexivity]; destruct h as [(_ & ->)|(f & g)]; [exact h11|];
         apply edit_spec in g as [(_ & g)|(st1 & m & o1 & g & gc & _ & ->)]; [exact (hdi _ _ g)|]; apply hdi in g; destruct g as [g _]; unfold s_msg in g; rewrite gc in g; split; [exact g|exact Logic.I]).
  - apply ignore_returned in h. destruct (push B st) as [y st2] eqn:e. cbn [snd] in h. subst st2.
    apply push_spec in e as [(_ & [->|(s & c & g & ->)])|(k & s & conf & c & st2 & _ & g & _ & _ & g2 & _ & ->)]; [exact h11|exact (inv11_conf _ _ _ _ _ _ h11 g)|].
    pose proof (inv11_conf _ _ _ _ _ _ h11 g) as g7. destruct g2 as [(_ & g2)|(_ & ->)]; [|exact g7]. apply hss in g2; [|exact g7]. exact g2.
  - apply confirm_spec in h as [_ [(_ & ->)|(a1 & a2 & ->)]]; exact h11.
  - apply ignore_returned in h. destruct (merge B l st) as [y st2] eqn:e. cbn [snd] in h. subst st2.
    unfold merge in e. apply merge_plain_spec in e as [(_ & ->)|(mine & st1 & ho' & e)]; [exact h11|].
    assert (hs1 : inv11 V B st1) by (apply own_part_spec in ho' as [(_ & ho')|(_ & s & c & hs & ho')]; injection ho' as _ ->; [exact h11|exact (inv11_conf _ _ _ _ _ _ h11 hs)]).
    destruct e as [(_ & ->)|(inc & new & bad & hk' & hinc & hmc & y' & e & _)]; [exact hs1|].
    assert (hsee : merge_sees B l st mine inc) by (split; eauto). destruct (hmer l mine inc eq_refl hsee) as (hnc & hl).
    destruct (merge_confs_closed V B _ _ _ _ hnc hV hmc hl) as [hn1 hn2].
    apply adopt_spec in e as [(_ & _ & ->)|[(_ & hu & e)|(hne & j & hj & [(_ & _ & _ & _ & ->)|(_ & st2 & e2 & _ & ->)])]]; try exact hs1.
    + assert (hd : inv11 V B (set_conf (if is_dirty (set_old (fold_left (fun l h => sadd h l) (obsolete 0 (m_unmerged (c_msg new)) bad (map fst (mine ++ inc))) (s_old st1)) st1) then new else retain new) (set_old (fold_left (fun l h => sadd h l) (obsolete 0 (m_unmerged (c_msg new)) bad (map fst (mine ++ inc))) (s_old st1)) st1))).
      { change (is_dirty (set_old (fold_left (fun l h => sadd h l) (obsolete 0 (m_unmerged (c_msg new)) bad (map fst (mine ++ inc))) (s_old st1)) st1)) with (is_dirty st1). assert (ed : is_dirty st1 = is_dirty st) by (apply own_part_spec in ho' as [(_ & ho')|(_ & s & c & hs & ho')]; injection ho' as _ ->; reflexivity).
        rewrite ed. split; [|destruct (is_dirty st) eqn:hd].
        - cbn [set_conf s_conf s_msg]. unfold s_msg. cbn [set_conf s_conf]. destruct (is_dirty st); [exact hn1|]. destruct new; exact hn1.
        - cbn [set_conf s_conf]. unfold merge_confs, merge_mutable in hmc. ok_inv hmc. destruct a as [m bad0]. destruct (m_unmerged m); [ok_inv hmc; injection hmc as <- <-; apply increment_impl_mut in ha0 as (m1 & o1 & ->); exact Logic.I|injection hmc as <- <-; exact Logic.I].
        - cbn [set_conf s_conf]. destruct new; exact Logic.I. }
      apply hss in e; [exact e|exact hd].
    + apply hss in e2; [exact e2|]. split; [exact hn1|]. cbn [set_conf s_conf]. apply hn2. congruence.
  - apply ignore_returned in h. destruct (dump B st) as [y st2] eqn:e. cbn [snd] in h. subst st2.
    apply dump_spec in e. cbv zeta in e. destruct e as [(s & c & g & _ & ->)|(_ & ->)]; [exact (inv11_conf _ _ _ _ _ _ h11 g)|].
    destruct (readonly B); exact h11.
Qed.
Lemma fresh_honest E : e_signer E = None -> honest E (Plain (empty_msg E)).
Proof.
  intros h. exists (body E (mkMsg (0%Z, zero_hash) [] [] [] [] None None) [] ++ ["e"%char]). split; [|reflexivity]. unfold serialize. cbn [refresh bind c_msg]. unfold serialize_impl. cbn [m_lagged empty_msg is_nil negb andb m_vsig]. rewrite h. reflexivity.
Qed.
Lemma unsigned_serialize E c sg : e_signer E = None -> serialize E c sg = serialize E c true.
Proof.
  intros h. destruct sg; [reflexivity|]. unfold serialize. destruct (refresh c) as [c'| | | |]; cbn [bind]; try reflexivity. unfold serialize_impl. rewrite h. reflexivity.
Qed.
Lemma unsigned_store E : e_verifier E = None -> e_signer E = None -> store_env E = E.
Proof. destruct E as [h v g l]. cbn. intros -> ->. reflexivity. Qed.
Lemma inv11_restore V B st d st1 ks st' : benv_ok B -> life B tame st -> inv11 V B st -> good_V (b_env B) V -> (forall s, publishes B st s -> V s) -> e_verifier (b_env B) = None -> e_signer (b_env B) = None ->
  dump B st = (Ok d, st1) -> (N.of_nat (length d) <= uint64_max)%N -> restore B ks d = Ok st' -> inv11 V B st'.
Proof.
  intros hB hl [h1 h2] hV hpub hv hg hd hn hr. pose proof (life_inv1 _ _ hB hl) as hi. destruct (restore_spec _ _ _ _ _ _ (i1_0 _ _ hi) hd hn hr) as (s & c' & conf & hs & hc & ->).
  rewrite (unsigned_store _ hv hg) in hc. pose proof hs as hs0. rewrite (unsigned_serialize _ _ _ hg) in hs. assert (hVs : V s) by (apply hpub; exists c'; exact hs). destruct (hV s hVs) as (y & py & sy).
  assert (hsc : same_content (b_env B) (c_msg c') y) by (exact (parse_own _ _ _ _ _ _ _ (i1_cfg _ _ hi) hs py)).
  assert (hy : closed_msg (b_env B) V y) by (eapply closed_same; [exact hsc|]; exact (refresh_closed _ _ _ _ (serialize_refresh _ _ _ _ _ hs) h1)).
  assert (hpl : (exists m, parse_msg (b_env B) true s = Ok m /\ conf = Plain m) -> inv11 V B (mkBase conf (s_state st) (s_curr st) (if readonly B then [] else s_old st) false ks)).
  { intros (m & pm & ->). destruct (store_parse _ _ _ _ _ true (i1_cfg _ _ hi) hs0) as (m' & p1 & p2 & _ & p3). rewrite (unsigned_store _ hv hg), pm in p1. injection p1 as <-.
    destruct (store_parse _ _ _ _ _ false (i1_cfg _ _ hi) hs0) as (y' & r1 & _ & r3 & _). rewrite (unsigned_store _ hv hg), py in r1. injection r1 as <-.
    assert (e : m = y).
    { destruct p2 as (e1 & e2 & e3 & e4 & e5), hsc as (f1 & f2 & f3 & f4 & f5). pose proof (parse_sh _ _ _ _ pm) as g1. pose proof (parse_sh _ _ _ _ py) as g2.
      assert (g3 : m_vsig m = m_vsig y). { rewrite (p3 eq_refl eq_refl), (r3 eq_refl). eapply refresh_vsig; [eapply serialize_refresh; exact hs|]. exact (life_inv7 _ _ hB hl hv). }
      assert (g4 : m_unmerged m = m_unmerged y) by (apply parse_msg_spec in pm as (_ & _ & _ & -> & _); apply parse_msg_spec in py as (_ & _ & _ & -> & _); reflexivity).
      assert (g5 : m_sh m = m_sh y) by (rewrite g1, g2, e1, f1; reflexivity).
      destruct m, y; cbn in *. congruence. }
    subst m. split; [exact hy|]. cbn [s_conf honest]. exists s. split; [exact sy|apply (parse_sh _ _ _ _ py)]. }
  destruct (s_state st); [exact (hpl hc)| |exact (hpl hc)].
  unfold mutable_of in hc. ok_inv hc. ok_inv hc. apply merge_parsed_single in ha0. subst a0. assert (ea : a = y) by congruence. subst a.
  split; [|cbn [s_conf]; apply increment_impl_mut in hc as (m1 & o1 & ->); exact Logic.I]. unfold s_msg. cbn [s_conf]. eapply increment_impl_closed; [|exact hVs|exact ha| | |exact hc]; [exact hy|reflexivity|auto].
Qed.

(** ** the whole system *)
Lemma unsigned_signer {I : Type} (B : I -> benv) i : fleet B -> unsigned_fleet B -> e_signer (b_env (B i)) = None.
Proof. intros hf hu. apply (pe_signer _ _ (fl_peer _ hf i i)), hu. Qed.
Lemma seen_good {I : Type} (B : I -> benv) key (N : net I) i : fleet B -> net_inv B key N -> good_V (b_env (B i)) (seen B N).
Proof. intros hf hi s (j & x & hx & hpub). destruct (writer_publish B hf i j x s (ni_life _ _ _ hi j x hx) hpub) as (m & q1 & _ & _ & _ & q2). eauto. Qed.
Lemma seen_closed {I : Type} (B : I -> benv) key (N : net I) i s m : fleet B -> net_inv B key N -> (forall j x, past N j x -> inv11 (seen B N) (B j) x) -> seen B N s -> parse_msg (b_env (B i)) false s = Ok m -> closed_msg (b_env (B i)) (seen B N) m.
Proof.
  intros hf hi h11 (j & x & hx & c & hs) hp. rewrite (fl_same _ hf i j) in *. pose proof (life_inv1 _ _ (fl_env _ hf j) (plainly_life _ _ (ni_life _ _ _ hi j x hx))) as hi1.
  eapply closed_same; [exact (parse_own _ _ _ _ _ _ _ (i1_cfg _ _ hi1) hs hp)|]. exact (refresh_closed _ _ _ _ (serialize_refresh _ _ _ _ _ hs) (proj1 (h11 j x hx))).
Qed.
Lemma does_inv11 {I : Type} (B : I -> benv) key (N : net I) i es cs st' : fleet B -> unsigned_fleet B -> net_inv B key N -> no_clash B N -> (forall j x, past N j x -> inv11 (seen B N) (B j) x) ->
  does (B i) key (sent N) (past N i) (dev N i) es cs st' -> inv11 (seen B N) (B i) st'.
Proof.
  intros hf hu hi hnc h11 hd. pose proof (ni_dev _ _ _ hi i) as hp. pose proof (ni_life _ _ _ hi i _ hp) as hl. pose proof (fl_env _ hf i) as hB. pose proof (life_inv1 _ _ hB (plainly_life _ _ hl)) as hi1.
  pose proof (seen_good B key N i hf hi) as hV. assert (hpub : forall s, publishes (B i) (dev N i) s -> seen B N s) by (intros s hs; exists i, (dev N i); auto).
  assert (hone : forall o x, key_op o = false -> run (B i) o (dev N i) = (x, st') -> (forall l, o <> OpMerge l) -> inv11 (seen B N) (B i) st').
  { intros o x ho hr hm. eapply (inv11_run _ _ o (dev N i) x st'); [exact hi1|apply h11, hp|exact hV|exact hpub|exact ho| |exact hr]. intros l mine inc e. exfalso. exact (hm l e). }
  destruct hd as [o x st' he hok hr hret|x st' hr hret|n h x st' hr hret|l x st' hs hr hret|x st' hr hret|y d st1 st' hy h1 h2 h3].
  - apply (hone o x); [destruct o; try discriminate; reflexivity|exact hr|intros l ->; discriminate].
  - apply (hone OpPush (fst (ignore (x, st')))); [reflexivity|cbn [run]; rewrite hr; reflexivity|discriminate].
  - apply (hone (OpConfirm n h) x); [reflexivity|exact hr|discriminate].
  - eapply (inv11_run _ _ (OpMerge l) (dev N i) (fst (ignore (x, st'))) st'); [exact hi1|apply h11, hp|exact hV|exact hpub|reflexivity| |cbn [run]; rewrite hr; reflexivity].
    intros l0 mine inc e hsee. injection e as <-. destruct (server_sees B key N hf hi i (dev N i) l (ni_keys _ _ _ hi i _ hp) hs) as (inc' & e1 & g1 & _). destruct hsee as [(a & ho) e2]. rewrite e1 in e2. injection e2 as ->.
    assert (hall : forall s, In s (map snd (mine ++ inc)) -> seen B N s).
    { intros s hin. rewrite map_app in hin. apply in_app_iff in hin as [hin|hin]; [eapply own_seen; eassumption|].
      apply in_map_iff in hin as ([h s0] & e0 & hin). cbn [snd] in e0. subst s0. destruct (g1 _ _ hin) as (c & _ & hcc). eapply carries_seen; exact hcc. }
    split; [apply (seen_apart B N); assumption|]. intros s y hin hpy. pose proof (hall s hin) as hs'. split; [exact hs'|]. eapply seen_closed; eassumption.
  - apply (hone OpDump (fst (ignore (x, st')))); [reflexivity|cbn [run]; rewrite hr; reflexivity|discriminate].
  - eapply inv11_restore; [exact hB|exact (plainly_life _ _ (ni_life _ _ _ hi i _ hy))|apply h11, hy|exact hV|intros s hs; exists i, y; auto|apply hu|apply unsigned_signer; assumption|exact h1|exact h2|exact h3].
Qed.
Lemma net_run_inv11 {I : Type} (B : I -> benv) key (N : net I) : fleet B -> unsigned_fleet B -> net_run B key N -> no_clash B N -> forall j x, past N j x -> inv11 (seen B N) (B j) x.
Proof.
  intros hf hu h. induction h as [N h|N i es cs N' h IH hs]; intros hnc.
  - intros j x hx. apply (n0_past _ _ _ h) in hx. subst x. split; [apply closed_none|]. apply fresh_honest, unsigned_signer; assumption.
  - pose proof (ns_past _ _ _ _ _ _ _ hs) as hpa. assert (hnc0 : no_clash B N) by (eapply no_clash_earlier; [|exact hnc]; intros j x hx; apply hpa; auto).
    specialize (IH hnc0). pose proof (net_run_inv B key N hf h hnc0) as hi. assert (hmono : forall s, seen B N s -> seen B N' s) by (intros s (j & x & hx & hp); exists j, x; split; [apply hpa; auto|exact hp]).
    intros j x hx. eapply inv11_mono; [exact hmono|]. apply hpa in hx as [hx|(-> & ->)]; [exact (IH j x hx)|]. eapply does_inv11; try eassumption. apply (ns_does _ _ _ _ _ _ _ hs).
Qed.
Lemma net_consistent {I : Type} (B : I -> benv) key (N : net I) i ms : fleet B -> unsigned_fleet B -> net_run B key N -> no_clash B N ->
  (forall m, In m ms -> exists s, seen B N s /\ parse_msg (b_env (B i)) false s = Ok m) -> consistent (b_env (B i)) ms.
Proof.
  intros hf hu h hnc hms x y z hx hy hz hxy hyz. pose proof (net_run_inv B key N hf h hnc) as hi. pose proof (net_run_inv11 B key N hf hu h hnc) as h11.
  destruct (hms y hy) as (sy & hsy & py). destruct (hms z hz) as (sz & hsz & pz). destruct (seen_closed B key N i sz z hf hi h11 hsz pz) as [g1 g2].
  pose proof (parse_msg_spec _ _ _ _ py) as (_ & hwy & _). pose proof hxy as hxy0. unfold listed in hxy, hyz. rewrite <- hwy in hxy. apply windowed_keys in hxy as [hxy hw]. change (fst (m_sh x)) with (m_seqno x) in hw.
  destruct (Z.le_gt_cases (m_seqno x + e_lag (b_env (B i))) (m_seqno z)) as [hle|hgt]; [right; exact hle|left].
  destruct (g2 _ hyz ltac:(change (fst (m_sh y)) with (m_seqno y); lia)) as (s1 & y1 & q1 & q2 & q3 & q4). apply q4; [|change (fst (m_sh x)) with (m_seqno x); lia].
  assert (e : s1 = sy). { pose proof (parse_sh _ _ _ _ q2) as e1. pose proof (parse_sh _ _ _ _ py) as e2. rewrite q3, e2 in e1. assert (e3 : e_hash (b_env (B i)) sy = e_hash (b_env (B i)) s1) by congruence.
    apply (seen_apart B N i [s1; sy] hf hnc); [intros s [<-|[<-|[]]]; assumption|left; reflexivity|right; left; reflexivity|congruence]. }
  subst s1. rewrite py in q2. injection q2 as <-. exact hxy.
Qed.
