From Coq Require Import Lia.
From Verif Require Import NetSpec Maps Data_facts Diff_facts Parse_facts Message_facts Wire_facts Round_facts Reach_facts Redeliver_facts Merge_facts Resolve_facts Conflict_facts Overflow_facts Replay_facts Merge2_facts Adopt_facts Crypt_facts Base_facts Dump_facts Life_facts Life2_facts Life3_facts Life4_facts Fields_facts Conf_facts Conf2_facts Conf3_facts Conf4_facts Conf5_facts Conf6_facts Converge_facts Plain_facts.

(** ** version numbers grow by at most one per call *)
Lemma merge_confs_seqno B d l new bad : no_collision (b_env B) l -> merge_confs B d l = Ok (new, bad) ->
  exists s x, In s l /\ parse_msg (b_env B) false s = Ok x /\ (m_seqno (c_msg new) <= m_seqno x + 1)%Z.
Proof.
  intros hnc h. unfold merge_confs, merge_mutable in h.
  assert (hm : forall m, merge_msgs (b_env B) l = Ok (m, bad) -> exists s x, In s l /\ parse_msg (b_env B) false s = Ok x /\ (m_seqno m <= m_seqno x + 1)%Z /\ (m_unmerged m <> None -> m_seqno m = m_seqno x)).
  { intros m hm. destruct (merge_msgs_origin _ _ _ _ hnc hm) as [(s & x & i & h1 & h2 & ->)|(hu & _ & _ & s & x & h1 & h2 & h3)]; exists s, x.
    - change (m_seqno (set_unmerged (Some i) x)) with (m_seqno x). split; [exact h1|]. split; [exact h2|]. split; [lia|reflexivity].
    - split; [exact h1|]. split; [exact h2|]. split; [lia|]. congruence. }
  destruct (merge_msgs (b_env B) l) as [[m bad0]| | | |] eqn:e; cbn [bind fst snd] in h; try (destruct d; discriminate).
  destruct d.
  - destruct (m_unmerged m) as [i|] eqn:hu.
    + destruct (increment_impl (b_env B) m) as [c| | | |] eqn:ei; cbn [bind] in h; try discriminate. injection h as <- <-. destruct (hm m eq_refl) as (s & x & h1 & h2 & _ & h3). exists s, x. split; [exact h1|]. split; [exact h2|].
      apply increment_impl_seqno in ei as [-> _]. rewrite h3 by congruence. lia.
    + injection h as <- <-. destruct (hm m eq_refl) as (s & x & h1 & h2 & h3 & _). exists s, x. auto.
  - injection h as <- <-. destruct (hm m eq_refl) as (s & x & h1 & h2 & h3 & _). exists s, x. auto.
Qed.
Lemma run_seqno B o st x st' : benv_ok B -> inv1 B st -> key_op o = false -> tame B o st st' -> run B o st = (x, st') -> returned x ->
  (s_seqno st' <= s_seqno st + 1)%Z \/ exists l inc mine h s m, o = OpMerge l /\ merge_sees B l st mine inc /\ In (h, s) inc /\ parse_msg (b_env B) false s = Ok m /\ (s_seqno st' <= m_seqno m + 1)%Z.
Proof.
  intros hB hi hk [hok hsend] h hret. destruct (is_edit o) eqn:ee.
  - left. destruct (edit_fun_wf _ _ _ _ _ ee hok h) as [(_ & ->)|(f & he & hf)]; [lia|].
    destruct (inv1_edit _ _ _ _ _ hB hi he hret hf hsend) as [_ [->|(_ & _ & _ & [(_ & e & _)|(_ & e & _)])]]; lia.
  - destruct o as [i l v|i l|i l v|i l v| |n h0|l| |k h0 d|k f d|d|ks d]; try discriminate; cbn [run] in h.
    + left. apply ignore_returned in h. destruct (push B st) as [y st2] eqn:e. cbn [snd] in h. subst st2. destruct (push_move _ _ _ _ hi e) as [_ hm].
      apply push_spec in e as [(_ & [->|(s & c & g & ->)])|(k & s & conf & c & st2 & _ & g & _ & _ & g2 & _ & ->)]; [lia| |].
      * destruct (inv1_serialize _ _ _ _ _ hi g) as [_ a2]. apply sh_seqno in a2. unfold s_seqno, s_msg in *. cbn [set_conf s_conf]. lia.
      * destruct (inv1_serialize _ _ _ _ _ hi g) as [_ a2]. apply sh_seqno in a2. assert (e : s_conf st2 = conf) by (destruct g2 as [(_ & g2)|(_ & ->)]; [apply set_state_spec in g2 as [(g2 & _)|(_ & g2 & _)]; [discriminate|exact g2]|reflexivity]).
        unfold s_seqno, s_msg in *. cbn [set_old s_conf]. rewrite e. lia.
    + left. apply confirm_spec in h as [_ [(_ & ->)|(a1 & a2 & ->)]]; unfold s_seqno, s_msg; cbn; lia.
    + apply ignore_returned in h. destruct (merge B l st) as [y st2] eqn:e. cbn [snd] in h. subst st2. unfold merge in e.
      apply merge_plain_spec in e as [(_ & ->)|(mine & st1 & ho & e)]; [left; lia|].
      assert (q1 : s_seqno st1 = s_seqno st).
      { apply own_part_spec in ho as [(_ & ho)|(_ & s & c & hs & ho)]; injection ho as _ ->; [reflexivity|]. destruct (inv1_serialize _ _ _ _ _ hi hs) as [_ a2]. apply sh_seqno in a2. exact a2. }
      destruct e as [(_ & ->)|(inc & new & bad & hk' & hinc & hmc & y' & e & _)]; [left; lia|].
      assert (hsee : merge_sees B l st mine inc) by (split; eauto). destruct (hok mine inc hsee) as (hnc & _).
      assert (hn : s_seqno st' = s_seqno st1 \/ s_seqno st' = m_seqno (c_msg new)).
      { apply adopt_spec in e as [(_ & _ & ->)|[(_ & hu & e)|(hne & j & hj & [(_ & _ & _ & _ & ->)|(_ & st2 & e2 & _ & ->)])]]; [left; reflexivity| |left; reflexivity|].
        - apply set_state_spec in e as [(_ & -> & _)|(_ & e & _)]; right; unfold s_seqno, s_msg; cbn [set_conf s_conf]; rewrite ?e; cbn [set_conf s_conf];
            match goal with |- context [if ?u then _ else _] => destruct u end; try reflexivity; destruct new; reflexivity.
        - apply set_state_spec in e2 as [(_ & -> & _)|(_ & e2 & _)]; right; unfold s_seqno, s_msg; cbn [set_conf s_conf]; rewrite ?e2; reflexivity. }
      destruct hn as [hn|hn]; [left; lia|]. destruct (merge_confs_seqno _ _ _ _ _ hnc hmc) as (s & m & hs & hp & hq).
      rewrite map_app in hs. apply in_app_iff in hs as [hs|hs].
      * left. apply own_part_spec in ho as [(_ & ho)|(hz & s0 & c & hser & ho)]; injection ho as -> ->; [destruct hs|]. destruct hs as [<-|[]]. cbn [snd] in hp.
        destruct (own_parses _ _ _ _ hB hi hser hz) as (m0 & p1 & p2). rewrite hp in p1. injection p1 as <-. lia.
      * right. apply in_map_iff in hs as ([h1 s1] & e1 & hs). cbn [snd] in e1. subst s1. exists l, inc, mine, h1, s, m. split; [reflexivity|]. split; [exact hsee|]. split; [exact hs|]. split; [exact hp|]. lia.
    + left. apply ignore_returned in h. destruct (dump B st) as [y st2] eqn:e. cbn [snd] in h. subst st2.
      apply dump_spec in e. cbv zeta in e. destruct e as [(s & c & g & _ & ->)|(_ & ->)]; [|destruct (readonly B); unfold s_seqno, s_msg; cbn; lia].
      destruct (inv1_serialize _ _ _ _ _ hi g) as [_ a2]. apply sh_seqno in a2. unfold s_seqno, s_msg in *. cbn. lia.
Qed.

(** ** what the devices publish *)
Lemma writer_publish {I : Type} (B : I -> benv) : fleet B -> forall i j x s, life (B j) plainly x -> publishes (B j) x s ->
  exists m, parse_msg (b_env (B i)) false s = Ok m /\ plain_msg m /\ m_seqno m = s_seqno x /\ (0 <= m_seqno m)%Z /\ serialize (b_env (B i)) (Plain m) true = Ok (s, Plain m).
Proof.
  intros hf i j x s hl hs. pose proof hs as (c & hs'). pose proof (life_inv1 _ _ (fl_env _ hf j) (plainly_life _ _ hl)) as hi.
  destruct (writer_parses _ _ _ _ (fl_env _ hf j) hi (fl_write _ hf j) hs') as (m & q1 & q2). rewrite (fl_same _ hf i j). exists m. split; [exact q1|].
  split; [eapply published_plain; [apply (fl_env _ hf j)|apply hl|exact hs|exact q1]|]. split; [exact q2|]. pose proof (i1_nonneg _ _ hi). rewrite q2.
  split; [lia|]. eapply (republish _ _ _ _ _ (bo_signer _ (fl_env _ hf j)) (fl_write _ hf j) (i1_cfg _ _ hi) hs' q1).
  intros hv. eapply refresh_vsig; [eapply serialize_refresh; exact hs'|]. exact (life_inv7 _ _ (fl_env _ hf j) (plainly_life _ _ hl) hv).
Qed.
(** the ciphertext [c] was pushed by a device that published [s] *)
Definition carries {I : Type} (B : I -> benv) (N : net I) (c s : bytes) : Prop :=
  exists j x n o x', past N j x /\ push (B j) x = (Ok (n, c, o), x') /\ publishes (B j) x s.
Record net_inv {I : Type} (B : I -> benv) (key : bytes) (N : net I) : Prop := {
  ni_life : forall j x, past N j x -> life (B j) plainly x;
  ni_keys : forall j x, past N j x -> s_keys x = [key];
  ni_seqno : forall j x, past N j x -> (s_seqno x <= Z.of_nat (calls N))%Z;
  ni_dev : forall i, past N i (dev N i);
  ni_sent : forall c, sent N c -> exists s, carries B N c s
}.
Lemma carries_seen {I : Type} (B : I -> benv) (N : net I) c s : carries B N c s -> seen B N s.
Proof. intros (j & x & n & o & x' & h1 & _ & h2). exists j, x. auto. Qed.
Lemma carries_opens {I : Type} (B : I -> benv) key (N : net I) : fleet B -> net_inv B key N -> forall i st h c s, s_keys st = [key] -> carries B N c s -> incoming (B i) (s_keys st) (map (unwrap1 (B i) st) [(h, c)]) = Ok [(h, s)].
Proof.
  intros hf hi i st h c s hk (j & x & n & o & x' & h1 & h2 & h3).
  destruct (received (B j) (B i) x st n c o x' h (fl_aead _ hf j) (fl_peer _ hf j i) h2) as (s' & conf & e1 & _ & _ & _ & e2).
  - intros k rest e. rewrite (ni_keys _ _ _ hi j x h1) in e. injection e as <- <-. exists [], []. split; [exact hk|]. split; [reflexivity|]. intros k' [].
  - destruct h3 as (c' & h3). rewrite e1 in h3. injection h3 as -> ->. exact e2.
Qed.
Lemma incoming_cons B keys h c l : incoming B keys ((h, c) :: l) =
  match incoming B keys [(h, c)] with Ok a => t <- incoming B keys l ;; Ok (a ++ t) | Err => Err | Throw => Throw | Hang => Hang | UB => UB end.
Proof.
  cbn [incoming]. destruct (decrypt_any B keys c) as [d| | | |]; cbn [bind]; try reflexivity. destruct d as [p|]; cbn.
  - destruct (unpack B p); destruct (incoming B keys l); reflexivity.
  - destruct (incoming B keys l); reflexivity.
Qed.
Lemma server_sees {I : Type} (B : I -> benv) key (N : net I) : fleet B -> net_inv B key N -> forall i st l, s_keys st = [key] -> from_server (sent N) (B i) st l ->
  exists inc, incoming (B i) (s_keys st) (map (unwrap1 (B i) st) l) = Ok inc /\
    (forall h s, In (h, s) inc -> exists c, In (h, c) l /\ carries B N c s) /\ (forall h c s, In (h, c) l -> carries B N c s -> In (h, s) inc).
Proof.
  intros hf hi i st l hk. induction l as [|[h c] l IH]; intros hs; [exists []; split; [reflexivity|]; split; [intros h s []|intros h c s []]|].
  destruct IH as (inc & e & h1 & h2); [intros h0 x0 h0'; apply hs; right; exact h0'|].
  destruct (unwrap1 (B i) st (h, c)) as [h0 c0] eqn:eu.
  destruct (hs h c (or_introl eq_refl)) as [hc|hr].
  - destruct (ni_sent _ _ _ hi c hc) as (s & hcs). pose proof (carries_opens B key N hf hi i st h c s hk hcs) as ho. cbn [map] in *. rewrite eu in *.
    exists ((h, s) :: inc). split; [rewrite incoming_cons, ho, e; reflexivity|]. split.
    + intros h3 s3 [e3|h3']; [injection e3 as <- <-; exists c; split; [left; reflexivity|exact hcs]|]. destruct (h1 _ _ h3') as (c3 & g1 & g2). exists c3. split; [right; exact g1|exact g2].
    + intros h3 c3 s3 [e3|h3'] hc3; [|right; eauto]. injection e3 as <- <-. left. pose proof (carries_opens B key N hf hi i st h c s3 hk hc3) as ho3. cbn [map] in ho3. rewrite eu, ho in ho3. congruence.
  - unfold rubbish in hr. cbn [map] in *. rewrite eu in *. exists inc. split; [rewrite incoming_cons, hr, e; reflexivity|]. split.
    + intros h3 s3 h3'. destruct (h1 _ _ h3') as (c3 & g1 & g2). exists c3. split; [right; exact g1|exact g2].
    + intros h3 c3 s3 [e3|h3'] hc3; [|eauto]. injection e3 as <- <-. exfalso. pose proof (carries_opens B key N hf hi i st h c s3 hk hc3) as ho3. cbn [map] in ho3. rewrite eu, hr in ho3. discriminate.
Qed.
Lemma seen_apart {I : Type} (B : I -> benv) (N : net I) i l : fleet B -> no_clash B N -> (forall s, In s l -> seen B N s) -> no_collision (b_env (B i)) l.
Proof.
  intros hf hnc hl x x' hx hx' e. apply hl in hx as (j & y & hy & c1 & hx). apply hl in hx' as (j' & y' & hy' & c1' & hx').
  rewrite (fl_same _ hf i j') in e. eapply (hnc j y j' y'); [exact hy|exact hy'|exact hx|exact hx'|right; left; reflexivity|left; reflexivity|exact e].
Qed.
Lemma own_seen {I : Type} (B : I -> benv) (N : net I) i mine a : past N i (dev N i) -> own_part (B i) (dev N i) = Ok (mine, a) -> forall s, In s (map snd mine) -> seen B N s.
Proof.
  intros hp ho s hs. apply own_part_spec in ho as [(_ & ho)|(hz & s0 & c & hser & ho)]; injection ho as -> ->; [destruct hs|]. destruct hs as [<-|[]]. exists i, (dev N i). split; [exact hp|]. exists c. exact hser.
Qed.
(** a merge of what the server hands out is one of those considered in C92 *)
Lemma merge_plainly {I : Type} (B : I -> benv) key (N : net I) i l : fleet B -> net_inv B key N -> no_clash B N -> from_server (sent N) (B i) (dev N i) l ->
  forall st', sendable (s_data st') -> plainly (B i) (OpMerge l) (dev N i) st'.
Proof.
  intros hf hi hnc hs st' hsend. pose proof (ni_dev _ _ _ hi i) as hd. destruct (server_sees B key N hf hi i (dev N i) l (ni_keys _ _ _ hi i _ hd) hs) as (inc & e & h1 & _).
  assert (hall : forall mine inc0, merge_sees (B i) l (dev N i) mine inc0 -> inc0 = inc /\ forall s, In s (map snd (mine ++ inc0)) -> seen B N s).
  { intros mine inc0 [(a & ho) hin]. rewrite e in hin. injection hin as <-. split; [reflexivity|]. intros s hin. rewrite map_app in hin. apply in_app_iff in hin as [hin|hin]; [eapply own_seen; eassumption|].
    apply in_map_iff in hin as ([h s0] & e0 & hin). cbn [snd] in e0. subst s0. destruct (h1 _ _ hin) as (c & _ & hc). eapply carries_seen; exact hc. }
  assert (hmsg : forall h s, In (h, s) inc -> exists m, parse_msg (b_env (B i)) false s = Ok m /\ plain_msg m /\ (0 <= m_seqno m)%Z /\ serialize (b_env (B i)) (Plain m) true = Ok (s, Plain m)).
  { intros h s hin. destruct (h1 _ _ hin) as (c & _ & hc). apply carries_seen in hc as (j & x & hx & hpub). destruct (writer_publish B hf i j x s (ni_life _ _ _ hi j x hx) hpub) as (m & q1 & q2 & _ & q3 & q4). eauto. }
  split; [split; [|exact hsend]|].
  - intros mine inc0 hsee. destruct (hall _ _ hsee) as [-> hin]. split; [apply (seen_apart B N); assumption|]. split.
    + intros h s m hm hp. destruct (hmsg _ _ hm) as (m' & q1 & _ & q3 & _). rewrite hp in q1. injection q1 as <-. exact q3.
    + intros _ h s hm m hp. destruct (hmsg _ _ hm) as (m' & q1 & _ & _ & q4). rewrite hp in q1. injection q1 as <-. eauto.
  - intros mine inc0 hsee h s m hm hp. destruct (hall _ _ hsee) as [-> _]. destruct (hmsg _ _ hm) as (m' & q1 & q2 & _). rewrite hp in q1. injection q1 as <-. exact q2.
Qed.
Lemma life_sendable B st : benv_ok B -> life B tame st -> sendable (s_data st).
Proof. intros hB hl. pose proof (i1_cfg _ _ (life_inv1 _ _ hB hl)) as hc. unfold s_data, s_msg. destruct (s_conf st) as [m|m o]; apply hc. Qed.
Lemma no_clash_earlier {I : Type} (B : I -> benv) (N N' : net I) : (forall j x, past N j x -> past N' j x) -> no_clash B N' -> no_clash B N.
Proof. intros h hn i x j y hx hy. apply hn; auto. Qed.
(** what a call leaves *)
Lemma does_life {I : Type} (B : I -> benv) key (N : net I) i es cs st' : fleet B -> net_inv B key N -> no_clash B N -> does (B i) key (sent N) (past N i) (dev N i) es cs st' -> sendable (s_data st') ->
  life (B i) plainly st' /\ s_keys st' = [key] /\ (s_seqno st' <= Z.of_nat (calls N) + 1)%Z.
Proof.
  intros hf hi hnc hd hsend. pose proof (ni_dev _ _ _ hi i) as hp. pose proof (ni_life _ _ _ hi i _ hp) as hl. pose proof (ni_keys _ _ _ hi i _ hp) as hk. pose proof (ni_seqno _ _ _ hi i _ hp) as hq.
  pose proof (fl_env _ hf i) as hB. pose proof (life_inv1 _ _ hB (plainly_life _ _ hl)) as hi1.
  assert (hone : forall o x, key_op o = false -> run (B i) o (dev N i) = (x, st') -> returned x -> plainly (B i) o (dev N i) st' ->
    (forall l inc mine h s m, o = OpMerge l -> merge_sees (B i) l (dev N i) mine inc -> In (h, s) inc -> parse_msg (b_env (B i)) false s = Ok m -> (m_seqno m <= Z.of_nat (calls N))%Z) ->
    life (B i) plainly st' /\ s_keys st' = [key] /\ (s_seqno st' <= Z.of_nat (calls N) + 1)%Z).
  { intros o x ho hr hret hpl hm. split; [eapply life_step; [exact hl|]; econstructor; eassumption|]. split; [rewrite <- hk; eapply other_op_keys; eassumption|].
    destruct (run_seqno _ _ _ _ _ hB hi1 ho (proj1 hpl) hr hret) as [h|(l & inc & mine & h & s & m & e & h1 & h2 & h3 & h4)]; [lia|]. specialize (hm _ _ _ _ _ _ e h1 h2 h3). lia. }
  destruct hd as [o x st' he hok hr hret|x st' hr hret|n h x st' hr hret|l x st' hs hr hret|x st' hr hret|y d st1 st' hy h1 h2 h3].
  - apply (hone o x); [destruct o; try discriminate; reflexivity|exact hr|exact hret|split; [split; assumption|destruct o; try discriminate; exact Logic.I]|].
    intros l inc mine h s m ->. discriminate.
  - apply (hone OpPush (fst (ignore (x, st')))); [reflexivity|cbn [run]; rewrite hr; reflexivity|destruct x; split; try discriminate; destruct hret; congruence|split; [split; [exact Logic.I|exact hsend]|exact Logic.I]|discriminate].
  - apply (hone (OpConfirm n h) x); [reflexivity|exact hr|exact hret|split; [split; [exact Logic.I|exact hsend]|exact Logic.I]|discriminate].
  - apply (hone (OpMerge l) (fst (ignore (x, st')))); [reflexivity|cbn [run]; rewrite hr; reflexivity|destruct x; split; try discriminate; destruct hret; congruence|eapply merge_plainly; eassumption|].
    intros l0 inc mine h s m e hsee hin hpm. injection e as <-. destruct (server_sees B key N hf hi i (dev N i) l hk hs) as (inc' & e1 & g1 & _). destruct hsee as [_ e2]. rewrite e1 in e2. injection e2 as ->.
    destruct (g1 _ _ hin) as (c & _ & hc). apply carries_seen in hc as (j & y & hy & hpub). destruct (writer_publish B hf i j y s (ni_life _ _ _ hi j y hy) hpub) as (m' & q1 & _ & q2 & _). rewrite hpm in q1. injection q1 as <-. rewrite q2. apply (ni_seqno _ _ _ hi j y hy).
  - apply (hone OpDump (fst (ignore (x, st')))); [reflexivity|cbn [run]; rewrite hr; reflexivity|destruct x; split; try discriminate; destruct hret; congruence|split; [split; [exact Logic.I|exact hsend]|exact Logic.I]|discriminate].
  - pose proof (ni_life _ _ _ hi i _ hy) as hly. pose proof (ni_seqno _ _ _ hi i _ hy) as hqy.
    split; [eapply life_restore; eassumption|]. destruct (restore_same _ _ _ _ _ _ hB (plainly_life _ _ hly) h1 ltac:(unfold uint64_max in h2; lia) h3) as (_ & _ & _ & e1 & _ & _ & e2).
    split; [exact e1|]. destruct (is_dirty y); lia.
Qed.
Lemma net_run_inv {I : Type} (B : I -> benv) key (N : net I) : fleet B -> net_run B key N -> no_clash B N -> net_inv B key N.
Proof.
  intros hf h. induction h as [N h|N i es cs N' h IH hs]; intros hnc.
  - destruct h as [h1 h2 h3 h4 h5]. split.
    + intros j x hx. apply h5 in hx. subst x. apply life_fresh.
    + intros j x hx. apply h5 in hx. subst x. reflexivity.
    + intros j x hx. apply h5 in hx. subst x. rewrite h4. cbn. lia.
    + intros i. apply h5, h1.
    + intros c hc. destruct (h2 c hc).
  - destruct hs as [hd hsz ho hse hdi hca hpa].
    assert (hnc0 : no_clash B N) by (eapply no_clash_earlier; [|exact hnc]; intros j x hx; apply hpa; auto).
    specialize (IH hnc0). destruct (does_life B key N i es cs _ hf IH hnc0 hd hsz) as (q1 & q2 & q3). split.
    + intros j x hx. apply hpa in hx as [hx|(-> & ->)]; [exact (ni_life _ _ _ IH j x hx)|exact q1].
    + intros j x hx. apply hpa in hx as [hx|(-> & ->)]; [exact (ni_keys _ _ _ IH j x hx)|exact q2].
    + intros j x hx. rewrite hca, Nat2Z.inj_succ. apply hpa in hx as [hx|(-> & ->)]; [pose proof (ni_seqno _ _ _ IH j x hx)|]; lia.
    + intros j. apply hpa. destruct (ho j) as [->|e]; [auto|]. rewrite e. left. apply (ni_dev _ _ _ IH).
    + intros c hc. apply hse in hc as [hc|hc].
      * assert (hx : past N' i (dev N i)) by (apply hpa; left; apply (ni_dev _ _ _ IH)).
        destruct hd as [o x st' _ _ _ _|x st' hr hret|n h0 x st' _ _|l x st' _ _ _|x st' _ _|y d st1 st' _ _ _ _]; try (destruct hc; fail).
        destruct x as [[[n c0] o]| | | |]; try (destruct hc; fail). destruct hc as [<-|[]]. pose proof hr as hr0.
        apply push_spec in hr0 as [(hr0 & _)|(k & s & conf & c1 & st2 & _ & hser & _)]; [exfalso; eapply hr0; reflexivity|].
        exists s, i, (dev N i), n, o, st'. split; [exact hx|]. split; [exact hr|]. exists conf. exact hser.
      * destruct (ni_sent _ _ _ IH c hc) as (s & j & x & n & o & x' & g1 & g2 & g3). exists s, j, x, n, o, x'. split; [apply hpa; auto|auto].
Qed.

(** ** nothing goes wrong *)
Lemma few_room {I : Type} (B : I -> benv) key (N : net I) : fleet B -> net_inv B key N -> few_calls B N -> forall i j x, past N j x -> (s_seqno x + 2 + e_lag (b_env (B i)) < 2 ^ 63)%Z.
Proof. intros hf hi hc i j x hx. pose proof (ni_seqno _ _ _ hi j x hx). pose proof (hc i). lia. Qed.
Lemma seen_decent {I : Type} (B : I -> benv) key (N : net I) i s : fleet B -> net_inv B key N -> few_calls B N -> seen B N s ->
  exists m, parse_msg (b_env (B i)) false s = Ok m /\ plain_msg m /\ room (b_env (B i)) (m_seqno m) /\ (m_seqno m <= Z.of_nat (calls N))%Z /\ serialize (b_env (B i)) (Plain m) true = Ok (s, Plain m).
Proof.
  intros hf hi hc (j & x & hx & hpub). destruct (writer_publish B hf i j x s (ni_life _ _ _ hi j x hx) hpub) as (m & q1 & q2 & q3 & q4 & q5). exists m. split; [exact q1|]. split; [exact q2|].
  pose proof (few_room B key N hf hi hc i j x hx). pose proof (bo_lag _ (fl_env _ hf i)). pose proof (ni_seqno _ _ _ hi j x hx). split; [split; lia|]. split; [lia|exact q5].
Qed.
Lemma net_merge_total {I : Type} (B : I -> benv) key (N : net I) i l : fleet B -> net_inv B key N -> no_clash B N -> few_calls B N -> from_server (sent N) (B i) (dev N i) l ->
  (s_seqno (dev N i) <> 0)%Z \/ s_state (dev N i) = Dirty \/ (exists h c, In (h, c) l /\ sent N c) -> exists hs st', merge (B i) l (dev N i) = (Ok hs, st').
Proof.
  intros hf hi hnc hc hs hex. pose proof (ni_dev _ _ _ hi i) as hp. pose proof (ni_life _ _ _ hi i _ hp) as hl. pose proof (ni_keys _ _ _ hi i _ hp) as hk. pose proof (fl_env _ hf i) as hB.
  pose proof (life_inv1 _ _ hB (plainly_life _ _ hl)) as hi1. pose proof (few_room B key N hf hi hc i i _ hp) as hr.
  destruct (server_sees B key N hf hi i (dev N i) l hk hs) as (inc & e & h1 & h2).
  assert (ho : exists mine a, own_part (B i) (dev N i) = Ok (mine, a)).
  { unfold own_part. destruct (_ || _); [|eauto]. destruct (serialize_total (B i) (dev N i) true hB) as (s & c & es); [exact hi1|pose proof (i1_nonneg _ _ hi1); unfold int64_max; lia|]. rewrite es. cbn. eauto. }
  destruct ho as (mine & a & ho). destruct (own_decent _ _ _ _ hB hi1 (life_inv8 _ _ hB hl) ltac:(lia) ho) as (g1 & _ & g3).
  assert (hall : forall s, In s (map snd (mine ++ inc)) -> seen B N s).
  { intros s hin. rewrite map_app in hin. apply in_app_iff in hin as [hin|hin]; [eapply own_seen; eassumption|].
    apply in_map_iff in hin as ([h s0] & e0 & hin). cbn [snd] in e0. subst s0. destruct (h1 _ _ hin) as (c & _ & hcc). eapply carries_seen; exact hcc. }
  eapply (merge_total (B i) l (dev N i) mine inc); [exact hB|exact hl|rewrite hk; discriminate|split; eauto|apply (seen_apart B N); assumption|lia| |].
  - intros h s hin. destruct (seen_decent B key N i s hf hi hc) as (m & q1 & q2 & q3 & _); [apply hall; rewrite map_app; apply in_app_iff; right; apply in_map_iff; exists (h, s); auto|]. right. eauto.
  - assert (hne : exists s, In s (map snd (mine ++ inc))).
    { destruct hex as [hz|[hz|(h & c & hin & hcs)]].
      - destruct mine as [|[h0 s0] mine]; [exfalso; apply g3; auto|]. exists s0. left. reflexivity.
      - destruct mine as [|[h0 s0] mine]; [exfalso; apply g3; auto|]. exists s0. left. reflexivity.
      - destruct (ni_sent _ _ _ hi c hcs) as (s & hcar). exists s. rewrite map_app. apply in_app_iff. right. apply in_map_iff. exists (h, s). split; [reflexivity|]. eapply h2; eassumption. }
    destruct hne as (s & hin). destruct (seen_decent B key N i s hf hi hc (hall s hin)) as (m & q1 & _). eauto.
Qed.

(** ** all devices sync *)
Lemma carries_unique {I : Type} (B : I -> benv) key (N : net I) c s s' : fleet B -> net_inv B key N -> carries B N c s -> carries B N c s' -> s = s'.
Proof.
  intros hf hi h h'. pose proof h as (j & x & _ & _ & _ & hx & _). pose proof (carries_opens B key N hf hi j x [] c s (ni_keys _ _ _ hi j x hx) h) as e. rewrite (carries_opens B key N hf hi j x [] c s' (ni_keys _ _ _ hi j x hx) h') in e. congruence.
Qed.
Lemma net_group {I : Type} (B : I -> benv) key (N : net I) : fleet B -> net_inv B key N -> no_clash B N -> few_calls B N -> plain_group B (dev N).
Proof.
  intros hf hi hnc hc. split; [split| |].
  - apply (fl_aead _ hf).
  - apply (fl_env _ hf).
  - apply (fl_same _ hf).
  - apply (fl_peer _ hf).
  - apply (fl_write _ hf).
  - intros i. apply plainly_life, (ni_life _ _ _ hi), (ni_dev _ _ _ hi).
  - intros i j. apply hnc; apply (ni_dev _ _ _ hi).
  - intros i. apply (ni_life _ _ _ hi), (ni_dev _ _ _ hi).
  - intros i. pose proof (few_room B key N hf hi hc i i _ (ni_dev _ _ _ hi i)). lia.
Qed.
(** the system after every device has pushed *)
Definition after_push {I : Type} (N : net I) (c : I -> bytes) (st1 : I -> bstate) : net I :=
  mkNet I st1 (fun x => sent N x \/ exists j, x = c j) (did N) (calls N) (fun j x => past N j x \/ x = st1 j).
Lemma after_push_inv {I : Type} (B : I -> benv) key (N : net I) c st1 : fleet B -> net_inv B key N -> no_clash B N -> few_calls B N -> all_push B (dev N) c st1 ->
  net_inv B key (after_push N c st1) /\ no_clash B (after_push N c st1) /\
  (forall j, s_seqno (st1 j) = s_seqno (dev N j) /\ s_state (st1 j) <> Dirty /\ forall s, publishes (B j) (st1 j) s <-> publishes (B j) (dev N j) s) /\
  (forall j s, carries B (after_push N c st1) (c j) s <-> publishes (B j) (dev N j) s) /\
  (forall x s, sent N x -> (carries B (after_push N c st1) x s <-> carries B N x s)).
Proof.
  intros hf hi hnc hc hp. pose proof (net_group B key N hf hi hnc hc) as hg. pose proof (sent_state B _ _ _ (pg_group _ _ hg) hp) as hss.
  assert (hpub : forall j s, publishes (B j) (st1 j) s <-> publishes (B j) (dev N j) s).
  { intros j s. destruct (hss j) as (_ & _ & _ & s0 & conf & e1 & _ & e2). split; intros (c0 & e); [rewrite e2 in e|rewrite e1 in e]; injection e as <- <-; eexists; eassumption. }
  assert (hcj : forall j s, publishes (B j) (dev N j) s -> carries B (after_push N c st1) (c j) s).
  { intros j s hs. destruct (hp j) as (n & o & s1 & hpj & _). exists j, (dev N j), n, o, s1. split; [left; apply (ni_dev _ _ _ hi)|auto]. }
  assert (hmono : forall x s, carries B N x s -> carries B (after_push N c st1) x s).
  { intros x s (j & y & n & o & y' & h1 & h2 & h3). exists j, y, n, o, y'. split; [left; exact h1|auto]. }
  assert (hinv : net_inv B key (after_push N c st1)).
  { split.
    - intros j x [hx| ->]; [exact (ni_life _ _ _ hi j x hx)|]. exact (sent_plain B _ _ _ hg hp j).
    - intros j x [hx| ->]; [exact (ni_keys _ _ _ hi j x hx)|]. destruct (hss j) as (_ & _ & e & _). rewrite e. apply (ni_keys _ _ _ hi j), (ni_dev _ _ _ hi).
    - intros j x [hx| ->]; [exact (ni_seqno _ _ _ hi j x hx)|]. destruct (hss j) as (_ & e & _). rewrite e. apply (ni_seqno _ _ _ hi j), (ni_dev _ _ _ hi).
    - intros j. right. reflexivity.
    - intros x [hx|(j & ->)]; [destruct (ni_sent _ _ _ hi x hx) as (s & hs); exists s; auto|]. destruct (hss j) as (_ & _ & _ & s0 & conf & e1 & _). exists s0. apply hcj. exists conf. exact e1. }
  split; [exact hinv|]. split.
  { assert (hold : forall i x, past (after_push N c st1) i x -> exists y, past N i y /\ forall s c0, serialize (b_env (B i)) (s_conf x) true = Ok (s, c0) -> exists c1, serialize (b_env (B i)) (s_conf y) true = Ok (s, c1)).
    { intros i x [hx| ->]; [exists x; eauto|]. exists (dev N i). split; [apply (ni_dev _ _ _ hi)|]. intros s c0 e. apply (hpub i s). exists c0. exact e. }
    intros i x j y hx hy s c0 s0 c1 e1 e2. destruct (hold _ _ hx) as (x' & hx' & gx). destruct (hold _ _ hy) as (y' & hy' & gy). apply gx in e1 as (? & e1). apply gy in e2 as (? & e2). eapply (hnc i x' j y'); eassumption. }
  split; [intros j; destruct (hss j) as (hsw & e & _); split; [exact e|]; split; [apply hsw|apply hpub]|].
  split.
  - intros j s. split; [|apply hcj]. intros hcs. destruct (hss j) as (_ & _ & _ & s0 & conf & e1 & _). assert (h0 : publishes (B j) (dev N j) s0) by (exists conf; exact e1).
    rewrite (carries_unique B key _ _ _ _ hf hinv hcs (hcj j s0 h0)). exact h0.
  - intros x s hx. split; [|apply hmono]. intros hcs. destruct (ni_sent _ _ _ hi x hx) as (s0 & h0). rewrite (carries_unique B key _ _ _ _ hf hinv hcs (hmono _ _ h0)). exact h0.
Qed.
Lemma net_sees {I : Type} (B : I -> benv) key (N : net I) c st1 Q l : fleet B -> net_inv B key N -> no_clash B N -> few_calls B N -> all_push B (dev N) c st1 ->
  all_fetch_from B (sent N) (dev N) c st1 Q l -> forall i, from_server (sent (after_push N c st1)) (B i) (st1 i) (l i) /\
    exists mine inc, merge_sees (B i) (l i) (st1 i) mine inc /\ forall s, In s (map snd (mine ++ inc)) <-> (exists j, publishes (B j) (dev N j) s) \/ (exists x, Q x /\ carries B N x s).
Proof.
  intros hf hi hnc hc hp hff i. destruct (after_push_inv B key N c st1 hf hi hnc hc hp) as (hi1 & hnc1 & hst & hcj & hco).
  assert (hfs : from_server (sent (after_push N c st1)) (B i) (st1 i) (l i)).
  { intros h x hx. destruct (ff_only _ _ _ _ _ _ _ hff i h x hx) as [hx'|[hx'|hx']]; [left; right; exact hx'|left; left; exact (ff_old _ _ _ _ _ _ _ hff x hx')|right; exact hx']. }
  split; [exact hfs|]. pose proof (ni_dev _ _ _ hi1 i) as hd. cbn [dev after_push] in hd. pose proof (ni_keys _ _ _ hi1 i _ hd) as hk.
  destruct (server_sees B key _ hf hi1 i (st1 i) (l i) hk hfs) as (inc & e & g1 & g2).
  pose proof (sent_state B _ _ _ (pg_group _ _ (net_group B key N hf hi hnc hc)) hp i) as (hsw & hq & _ & s0 & conf & e1 & _ & e2).
  assert (hmine : exists mine a, own_part (B i) (st1 i) = Ok (mine, a) /\ (forall x, In x (map snd mine) -> x = s0) /\ ((0 < s_seqno (dev N i))%Z -> In s0 (map snd mine))).
  { unfold own_part. rewrite (not_dirty _ (sw_state _ _ hsw)), orb_false_r, hq, e2. destruct (Z.eqb_spec (s_seqno (dev N i)) 0) as [ez|ez]; cbn [negb].
    - exists [], (st1 i). split; [reflexivity|]. split; [intros x []|lia].
    - cbn [bind fst snd]. do 2 eexists. split; [reflexivity|]. cbn. split; [intros x [<-|[]]; reflexivity|auto]. }
  destruct hmine as (mine & a & ho & hm1 & hm2). exists mine, inc. split; [split; eauto|]. intros s. rewrite map_app, in_app_iff. split.
  - intros [hx|hx]; [left; exists i, conf; rewrite (hm1 _ hx); exact e1|]. apply in_map_iff in hx as ([h y] & ey & hy). cbn [snd] in ey. subst y. destruct (g1 _ _ hy) as (x & hx & hcx).
    destruct (ff_only _ _ _ _ _ _ _ hff i h x hx) as [(j & ->)|[hQ|hr]].
    + left. exists j. apply hcj. exact hcx.
    + right. exists x. split; [exact hQ|]. apply hco; [exact (ff_old _ _ _ _ _ _ _ hff x hQ)|exact hcx].
    + exfalso. pose proof (carries_opens B key _ hf hi1 i (st1 i) h x s hk hcx) as ho'. unfold rubbish in hr. rewrite hr in ho'. discriminate.
  - intros [(j & hs)|(x & hQ & hcx)].
    + destruct (ff_new _ _ _ _ _ _ _ hff i j) as [hin|(-> & hpos)].
      * right. apply in_map_iff in hin as ([h y] & ey & hy). cbn [snd] in ey. subst y. apply in_map_iff. exists (h, s). split; [reflexivity|]. eapply g2; [exact hy|]. apply hcj. exact hs.
      * left. destruct hs as (c1 & hs). rewrite e1 in hs. injection hs as <- <-. auto.
    + right. pose proof (ff_all _ _ _ _ _ _ _ hff i x hQ) as hin. apply in_map_iff in hin as ([h y] & ey & hy). cbn [snd] in ey. subst y. apply in_map_iff. exists (h, s). split; [reflexivity|]. eapply g2; [exact hy|]. apply hco; [exact (ff_old _ _ _ _ _ _ _ hff x hQ)|exact hcx].
Qed.
Lemma net_round {I : Type} (B : I -> benv) key (N : net I) c st1 Q l : fleet B -> net_inv B key N -> no_clash B N -> few_calls B N -> (exists i, 0 < s_seqno (dev N i))%Z -> all_push B (dev N) c st1 ->
  all_fetch_from B (sent N) (dev N) c st1 Q l -> forall i, exists hs st2, merge (B i) (l i) (st1 i) = (Ok hs, st2) /\ forall j, exists hs' st2', merge (B j) (l j) (st1 j) = (Ok hs', st2') /\ agree (B i) st2 (B j) st2'.
Proof.
  intros hf hi hnc hc (ip & hpos) hp hff. destruct (after_push_inv B key N c st1 hf hi hnc hc hp) as (hi1 & hnc1 & hst & hcj & hco).
  pose proof (net_group B key N hf hi hnc hc) as hg. pose proof (sent_state B _ _ _ (pg_group _ _ hg) hp) as hss.
  assert (hpip : exists s, publishes (B ip) (dev N ip) s) by (destruct (hss ip) as (_ & _ & _ & s0 & conf & e1 & _); exists s0, conf; exact e1). destruct hpip as (sp & hsp).
  assert (htot : forall i, exists hs st2, merge (B i) (l i) (st1 i) = (Ok hs, st2)).
  { intros i. apply (net_merge_total B key (after_push N c st1) i (l i) hf hi1 hnc1 hc); [apply (net_sees B key N c st1 Q l hf hi hnc hc hp hff i)|]. cbn [dev sent after_push].
    destruct (ff_new _ _ _ _ _ _ _ hff i ip) as [hin|(-> & hpi)]; [|left; destruct (hst i) as (e & _); lia]. right. right. apply in_map_iff in hin as ([h y] & ey & hy). cbn [snd] in ey. subst y. exists h, (c ip). split; [exact hy|right; eauto]. }
  intros i. destruct (htot i) as (hs & st2 & hm). exists hs, st2. split; [exact hm|]. intros j.
  destruct (net_sees B key N c st1 Q l hf hi hnc hc hp hff i) as (hfi & mine & inc & hsee & hset). destruct (net_sees B key N c st1 Q l hf hi hnc hc hp hff j) as (hfj & mine' & inc' & hsee' & hset').
  eapply (same_messages (B i) (st1 i) (B j) (st1 j) (l i) (l j) mine mine' inc inc' hs st2); [apply (hss i)|apply (hss j)|apply (fl_same _ hf)|exact hsee|exact hsee'| | | |exact hm].
  - intros x. rewrite hset, hset'. tauto.
  - apply (seen_apart B N i); [exact hf|exact hnc|]. intros s hin. apply hset in hin as [(k & hk)|(x & _ & hk)]; [exists k, (dev N k); split; [apply (ni_dev _ _ _ hi)|exact hk]|eapply carries_seen; exact hk].
  - destruct (writer_publish B hf i ip (dev N ip) sp (ni_life _ _ _ hi ip _ (ni_dev _ _ _ hi ip)) hsp) as (m & q1 & _ & q2 & _). exists sp, m. split; [apply hset; eauto|]. split; [exact q1|]. lia.
Qed.
