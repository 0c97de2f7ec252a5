(** Proofs of C36: a pushed message reaches the other clients. *)
From Verif Require Import BaseSpec Data_facts Diff_facts Parse_facts Message_facts Round_facts Reach_facts Redeliver_facts Merge_facts Adopt_facts Crypt_facts Base_facts Dump_facts Life_facts Life2_facts Life3_facts Life4_facts Fields_facts Conf_facts Conf2_facts.

Lemma env_eta_parse E E' t s : e_hash E' = e_hash E -> e_verifier E' = e_verifier E -> e_lag E' = e_lag E -> parse_msg E' t s = parse_msg E t s.
Proof. destruct E, E'. cbn. intros -> -> ->. reflexivity. Qed.
Lemma decrypt_any_found B k c p : forall l1 l2, decrypt (b_aead B) c k (b_domain B) = Ok p ->
  (forall k', In k' l1 -> decrypt (b_aead B) c k' (b_domain B) = Err) -> decrypt_any B (l1 ++ k :: l2) c = Ok (Some p).
Proof.
  induction l1 as [|k0 l1 IH]; intros l2 hd ho; cbn [app decrypt_any]; [rewrite hd; reflexivity|].
  rewrite (ho k0) by (left; reflexivity). apply IH; [exact hd|]. intros k' hk'. apply ho. right. exact hk'.
Qed.
Lemma serialize_starts E c sg s c' : serialize E c sg = Ok (s, c') -> exists r, s = "d"%char :: r.
Proof.
  unfold serialize. intros h. ok_inv h. ok_inv h. injection h as -> <-. unfold serialize_impl in ha0.
  destruct (negb _ && _); [discriminate|]. destruct (m_vsig (c_msg a)); [injection ha0 as <-; unfold with_sig, body; eexists; reflexivity|].
  destruct (if sg then e_signer E else None).
  - match type of ha0 with (if ?q then _ else _) = _ => destruct q end; [|discriminate]. injection ha0 as <-. unfold with_sig, body. eexists; reflexivity.
  - injection ha0 as <-. unfold body. eexists; reflexivity.
Qed.
Lemma unpack_packed A R s r : peer A R -> s = "d"%char :: r -> unpack R (pad_message (compress_message (b_zstd A) (b_level A) s) OVERHEAD) = Some s.
Proof.
  intros hp ->. set (s := "d"%char :: r). unfold compress_message.
  assert (hplain : unpack R (pad_message s OVERHEAD) = Some s) by (unfold unpack; rewrite (strip_pad s OVERHEAD "d"%char r eq_refl ltac:(discriminate)); reflexivity).
  destruct (b_level A) as [l|]; [|exact hplain]. destruct (l =? 0)%Z; [exact hplain|]. cbv zeta. destruct (Nat.ltb _ _); [|exact hplain].
  unfold unpack. rewrite (strip_pad (b "z" ++ b_zstd A s) OVERHEAD "z"%char (b_zstd A s) eq_refl ltac:(discriminate)). cbn [b app String.list_ascii_of_string].
  change (Ascii.eqb "z" "m") with false. cbn [Ascii.eqb]. rewrite (pe_zstd _ _ hp). reflexivity.
Qed.
(** what the receiver gets out of a pushed message *)
Lemma received A R st r n c o st' h : aead_ok (b_aead A) -> peer A R -> push A st = (Ok (n, c, o), st') ->
  (forall k rest, s_keys st = k :: rest -> opens A R r k c) ->
  exists s conf, serialize (b_env A) (s_conf st) true = Ok (s, conf) /\ n = s_seqno st /\ s_conf st' = conf /\
    (s_state st' = if is_dirty st then Waiting else s_state st) /\ incoming R (s_keys r) (map (unwrap1 R r) [(h, c)]) = Ok [(h, s)].
Proof.
  intros ha hp hpush hk. apply push_spec in hpush as [(hx & _)|(k & s & conf & c0 & st2 & (rest & hkeys) & hs & he & hlen & hst & hout & ->)]; [exfalso; eapply hx; reflexivity|].
  cbv zeta in hlen, hout. exists s, conf. injection hout as hn hc ho. specialize (hk _ _ hkeys). destruct hk as (l1 & l2 & hk1 & hk2 & hk3).
  split; [exact hs|]. split; [exact hn|]. split; [destruct hst as [(_ & g)|(_ & ->)]; [apply set_state_spec in g as [(g & _)|(_ & g & _)]; [discriminate|exact g]|reflexivity]|]. split.
  { destruct hst as [(hd & g)|(hd & ->)]; rewrite hd; [|reflexivity]. apply set_state_spec in g as [(g & _)|(_ & _ & g & _)]; [discriminate|exact g]. }
  assert (hk32 : length k = 32) by (clear -he; unfold encrypt, make_encrypt_key in he; destruct (Nat.eqb_spec (length k) 32) as [e|e]; [exact e|discriminate he]).
  assert (hun : snd (unwrap1 R r ([], c)) = c0 /\ unwrap1 R r (h, c) = (h, c0)).
  { unfold unwrap1. rewrite (pe_proto _ _ hp). destruct (b_proto A) eqn:ep.
    - rewrite hk1, (hk2 eq_refl). cbn [app fst snd]. subst c. rewrite (pe_wrap _ _ hp k _ c0 ep hk32 hlen). auto.
    - subst c. destruct (s_keys r); auto. }
  destruct hun as [hu1 hu2]. cbn [map]. rewrite hu2. cbn [incoming]. rewrite hu1 in hk3.
  assert (hdec : decrypt (b_aead R) c0 k (b_domain R) = Ok (pad_message (compress_message (b_zstd A) (b_level A) s) OVERHEAD)).
  { rewrite (pe_aead _ _ hp), (pe_domain _ _ hp). eapply decrypt_encrypt; eassumption. }
  rewrite hk1, (decrypt_any_found _ _ _ _ l1 l2 hdec hk3). cbn [bind]. destruct (serialize_starts _ _ _ _ _ hs) as [x ex].
  rewrite (unpack_packed _ _ _ _ hp ex). reflexivity.
Qed.
Lemma parse_two E i s0 s m0 m : parse_msg E false s0 = Ok m0 -> parse_msg E false s = Ok m -> parse_all E i [s0; s] = Ok ([m0; m], []).
Proof. intros h1 h2. cbn [parse_all]. rewrite h1, h2. reflexivity. Qed.
(** a client that cannot sign takes the newer of two messages *)
Lemma merge_ro_newer E s0 s m0 m : no_collision E [s0; s] -> (1 <= e_lag E)%Z -> read_only E = true -> parse_all E 0 [s0; s] = Ok ([m0; m], []) ->
  (forall x, In x [m0; m] -> int64_ok (m_seqno x + e_lag E) = true) -> (m_seqno m0 < m_seqno m)%Z ->
  exists i, merge_msgs E [s0; s] = Ok (set_unmerged (Some i) m, []) /\ nth_error [m0; m] i = Some m.
Proof.
  intros hnc hlag hro hp hov hlt. pose proof (parsed_good _ _ _ _ _ hnc hp) as hg.
  assert (hr : exists n, merge_msgs E [s0; s] = Ok (n, [])).
  { unfold merge_msgs. rewrite hp. cbn [bind]. destruct (kept E [m0; m]) as [|x1 [|x2 xs]] eqn:ek.
    - exfalso. exact (kept_nonempty E [m0; m] hg hlag ltac:(discriminate) ek).
    - destruct (merge_parsed_one _ _ _ ek hov ltac:(discriminate)) as [i ->]. eexists; reflexivity.
    - destruct (merge_parsed_ro _ _ _ _ _ ek hov hg hro) as (i & n & -> & _). eexists; reflexivity. }
  destruct hr as [n hr]. destruct (merge_msgs_ro _ _ _ _ _ hnc hlag hro hp hr) as (t & x & i & _ & _ & -> & hi & hx & hmax).
  assert (hrm : reconciled E [m0; m] m).
  { split; [right; left; reflexivity|]. split; intros y hy.
    - intros hk. apply (g_old _ _ hg _ _ hy) in hk. destruct hy as [<-|[<-|[]]]; unfold m_seqno in *; lia.
    - destruct hy as [<-|[<-|[]]]; lia. }
  specialize (hmax m hrm). assert (e : x = m); [|subst x; exists i; auto].
  destruct hx as (hx & _). destruct hx as [<-|[<-|[]]]; [exfalso|reflexivity].
  apply leb_nlt in hmax. apply hmax. unfold m_seqno in hlt. destruct (m_sh m0) as [a1 b1], (m_sh m) as [a2 b2]. cbn [fst] in hlt. unfold lt, cmp, cmp_prod, cmp, cmp_Z. cbn [fst snd]. destruct (Z.compare_spec a1 a2); try lia. reflexivity.
Qed.
(** merging one message that includes, or is far newer than, what the client has, or merging a newer one as a reader *)
Lemma merge_newer R r l h s m r0 : (1 <= e_lag (b_env R))%Z -> s_state r <> Dirty -> s_keys r <> [] ->
  incoming R (s_keys r) (map (unwrap1 R r) l) = Ok [(h, s)] -> parse_msg (b_env R) false s = Ok m ->
  (s_seqno r < m_seqno m)%Z -> int64_ok (m_seqno m + e_lag (b_env R)) = true -> (0 <= s_seqno r)%Z ->
  (s_seqno r = 0%Z /\ r0 = ([], r) \/ exists s0 c0 m0, r0 = ([(s_curr r, s0)], set_conf c0 r) /\ s_seqno r <> 0%Z /\ serialize (b_env R) (s_conf r) true = Ok (s0, c0) /\ parse_msg (b_env R) false s0 = Ok m0 /\
     m_seqno m0 = s_seqno r /\ no_collision (b_env R) [s0; s] /\ (listed m0 m \/ (m_seqno m0 + e_lag (b_env R) <= m_seqno m)%Z \/ readonly R = true)) ->
  exists r' i, merge R l r = (Ok [h], r') /\ s_state r' = Clean /\ s_conf r' = Plain (set_unmerged (Some i) m) /\ s_curr r' = h /\ s_keys r' = s_keys r.
Proof.
  intros hlag hnd hk hinc hm hlt hov hnn hown. pose proof (not_dirty _ hnd) as hd.
  assert (hop : own_part R r = Ok r0).
  { unfold own_part. rewrite hd, orb_false_r. destruct hown as [(h0 & ->)|(s0 & c0 & m0 & -> & h0 & hs & _)].
    - rewrite h0. reflexivity.
    - apply Z.eqb_neq in h0. rewrite h0. cbn [negb]. rewrite hs. reflexivity. }
  assert (hmerge : exists i, merge_msgs (b_env R) (map snd (fst r0 ++ [(h, s)])) = Ok (set_unmerged (Some i) m, []) /\ nth i (map fst (fst r0 ++ [(h, s)])) [] = h).
  { destruct hown as [(h0 & ->)|(s0 & c0 & m0 & -> & h0 & hs & hm0 & hq & hnc & hl)]; cbn [fst app map snd].
    - assert (hp : parse_all (b_env R) 0 [s] = Ok ([m], [])) by (cbn [parse_all]; rewrite hm; reflexivity).
      destruct (merge_msgs_single (b_env R) [s] [m] [] s m) as (i & h1 & h2); auto.
      + intros x y [<-|[]] [<-|[]] _. reflexivity.
      + intros x [<-|[]]. exact hov.
      + left. reflexivity.
      + intros y (hy & _). destruct hy as [<-|[]]. reflexivity.
      + exists i. split; [exact h1|]. destruct i as [|[|i]]; [reflexivity|discriminate h2|discriminate h2].
    - pose proof (parse_two _ 0 _ _ _ _ hm0 hm) as hp.
      assert (hovs : forall x, In x [m0; m] -> int64_ok (m_seqno x + e_lag (b_env R)) = true).
      { intros x [<-|[<-|[]]]; [|exact hov]. unfold int64_ok, int64_min, int64_max in *. apply andb_true_iff in hov as [_ hov]. apply Z.leb_le in hov. apply andb_true_iff. split; apply Z.leb_le; lia. }
      assert (hfin : exists i, merge_msgs (b_env R) [s0; s] = Ok (set_unmerged (Some i) m, []) /\ nth_error [m0; m] i = Some m).
      { destruct hl as [hl|[hl|hl]].
        1, 2: apply (merge_msgs_single (b_env R) [s0; s] [m0; m] [] s m); auto; [right; left; reflexivity|]; intros y (hy & hy2 & hy3); destruct hy as [<-|[<-|[]]]; [exfalso|reflexivity].
        - apply (hy2 m); [right; left; reflexivity|exact hl].
        - specialize (hy3 m ltac:(right; left; reflexivity)). lia.
        - apply merge_ro_newer with (m0 := m0); auto. lia. }
      destruct hfin as (i & h1 & h2). exists i. split; [exact h1|]. destruct i as [|[|i]]; [|reflexivity|destruct i; discriminate h2].
      cbn in h2. injection h2 as h2. subst m0. lia. }
  destruct hmerge as (i & hmm & hnth). destruct r0 as [mine r1]. cbn [fst] in *.
  assert (hr1 : s_state r1 = s_state r /\ s_seqno r1 = s_seqno r1 /\ s_keys r1 = s_keys r).
  { destruct hown as [(_ & e)|(s0 & c0 & m0 & e & _)]; injection e as _ ->; auto. }
  destruct hr1 as (hr1 & _ & hr1k). unfold merge, merge_plain. destruct (s_keys r) as [|k0 ks] eqn:ek; [congruence|]. rewrite hop, hinc. unfold merge_confs. rewrite hd, hmm. cbn [bind fst snd c_msg].
  unfold adopt. cbn [c_msg m_unmerged set_unmerged]. change (m_seqno (set_unmerged (Some i) m)) with (m_seqno m).
  assert (e1 : (m_seqno m =? s_seqno r)%Z = false) by (apply Z.eqb_neq; lia). unfold set_unmerged at 1. cbn [m_unmerged].
  match goal with |- context [if ?q then _ else _] => replace q with false by (symmetry; exact e1) end.
  match goal with |- context [is_dirty ?x] => assert (e2 : is_dirty x = false) by (apply not_dirty; cbn; congruence); rewrite e2 end. cbn [andb].
  match goal with |- context [set_state R Clean ?x] => destruct (set_state R Clean x) as [y st2] eqn:es end.
  apply set_state_spec in es as [(_ & _ & es & _)|(-> & e3 & e4 & e5 & _)]; [discriminate|].
  assert (hgood : good_hashes (length mine) [] (map fst [(h, s)]) = [h]) by reflexivity.
  eexists. exists i. split; [rewrite <- hgood; reflexivity|]. cbn. rewrite e4, e3, e5. cbn. split; [reflexivity|]. split; [reflexivity|]. split; [exact hnth|]. congruence.
Qed.

(** ** a message waiting for confirmation carries no foreign signature *)
Definition inv3 (st : bstate) : Prop := s_state st = Waiting -> m_vsig (s_msg st) = None.
Lemma refresh_vsig c c' : refresh c = Ok c' -> m_vsig (c_msg c) = None -> m_vsig (c_msg c') = None.
Proof. destruct c as [m|m o]; cbn [refresh]; intros h hv; [injection h as <-; exact hv|]. destruct (diff _ _); [|discriminate]. injection h as <-. reflexivity. Qed.
Lemma refresh_mut m o c' : refresh (Mut m o) = Ok c' -> m_vsig (c_msg c') = None.
Proof. cbn [refresh]. destruct (diff _ _); [|discriminate]. intros h. injection h as <-. reflexivity. Qed.
Lemma inv3_conf st sg s c E : inv3 st -> serialize E (s_conf st) sg = Ok (s, c) -> inv3 (set_conf c st).
Proof. intros h hs hw. apply serialize_refresh in hs. unfold s_msg. cbn. eapply refresh_vsig; [exact hs|]. apply h. exact hw. Qed.
Lemma inv3_run B o st x st' : inv1 B st -> inv3 st -> run B o st = (x, st') -> inv3 st'.
Proof.
  intros hi h3 h.
  assert (hss : forall s st0 y st2, set_state B s st0 = (y, st2) -> s <> Waiting -> inv3 st0 -> inv3 st2).
  { intros s st0 y st2 g hs g3. apply set_state_spec in g as [(_ & -> & _)|(_ & _ & g & _)]; [exact g3|]. intros hw. congruence. }
  assert (hdi : forall st0 y st2, dirty B st0 = (y, st2) -> inv3 st0 -> inv3 st2).
  { intros st0 y st2 g g3. apply dirty_spec in g as [(_ & -> & _)|[(_ & _ & _ & ->)|(_ & _ & st3 & g & g2)]]; [exact g3|exact g3|].
    apply set_state_spec in g as [(g & _)|(_ & _ & g & _)]; [discriminate|]. destruct g2 as [(c & _ & _ & ->)|(_ & _ & ->)]; intros hw; cbn in hw; congruence. }
  assert (hke : is_key_op o = true -> inv3 st').
  { intros ho. destruct (key_op_spec _ _ _ _ _ ho h) as [->|(ks & [->|(y & g)])]; [exact h3|exact h3|]. eapply hdi; [exact g|exact h3]. }
  destruct o; cbn [is_key_op] in hke; auto;
    try (apply edit_op_spec in h; [|reflexivity]; destruct h as [(_ & ->)|(f & g)]; [exact h3|];
         apply edit_spec in g as [(_ & g)|(st1 & m & o1 & g & _ & _ & ->)]; [eapply hdi; eauto|]; apply dirty_ok_state in g; intros hw; cbn in hw; congruence).
  - apply ignore_returned in h. destruct (push B st) as [y st2] eqn:e. cbn [snd] in h. subst st2.
    apply push_spec in e as [(_ & [->|(s & c & g & ->)])|(k & s & conf & c & st2 & _ & g & _ & _ & g2 & _ & ->)]; [exact h3|eapply inv3_conf; eauto|].
    destruct g2 as [(hd & g2)|(_ & ->)]; [|apply (inv3_conf _ _ _ _ _ h3 g)].
    intros _. apply set_state_spec in g2 as [(g2 & _)|(_ & e1 & _)]; [discriminate|]. unfold s_msg. cbn in *. rewrite e1.
    destruct (i1_dirty _ _ hi) as (m & o & em); [unfold is_dirty in hd; destruct (s_state st); congruence|]. rewrite em in g. apply serialize_refresh in g. eapply refresh_mut; exact g.
  - apply confirm_spec in h as [_ [(_ & ->)|(a1 & a2 & ->)]]; [exact h3|]. intros hw. discriminate.
  - apply ignore_returned in h. destruct (merge B l st) as [y st2] eqn:e. cbn [snd] in h. subst st2.
    unfold merge in e. apply merge_plain_spec in e as [(_ & ->)|(mine & st1 & ho' & e)]; [exact h3|].
    assert (hs1 : inv3 st1).
    { apply own_part_spec in ho' as [(_ & e1)|(_ & s & c' & hs & e1)]; injection e1 as _ ->; [exact h3|]. eapply inv3_conf; eauto. }
    destruct e as [(_ & ->)|(inc & new & bad & hk & hinc & hmc & y' & e & _)]; [exact hs1|].
    apply adopt_spec in e as [(_ & _ & ->)|[(_ & hu & e)|(hne & j & hj & [(_ & _ & _ & _ & ->)|(_ & st2 & e2 & _ & ->)])]]; try exact hs1.
    + apply set_state_spec in e as [(_ & -> & _ & hro)|(_ & _ & e & _)]; [|intros hw; congruence]. intros hw. exfalso. cbn in hw.
      destruct (i0_ro _ _ (i1_0 _ _ hi) hro) as [hc _]. apply own_part_spec in ho' as [(_ & e1)|(_ & s & c' & hs & e1)]; injection e1 as _ ->; cbn in hw; congruence.
    + apply set_state_spec in e2 as [(e2 & _)|(_ & _ & e & _)]; [discriminate|]. intros hw. cbn in hw. congruence.
  - apply ignore_returned in h. destruct (dump B st) as [y st2] eqn:e. cbn [snd] in h. subst st2.
    apply dump_spec in e. cbv zeta in e. destruct e as [(s & c & g & _ & ->)|(_ & ->)]; [apply (inv3_conf _ _ _ _ _ h3 g)|].
    destruct (readonly B); exact h3.
Qed.
Lemma life_inv3 B st : benv_ok B -> life B tame st -> inv3 st.
Proof.
  intros hB h. induction h as [B ks|B st o st' hl IH h|B st d st1 ks st' hl IH h1 h2 h3|B A g st _ IH hro e];
    [|specialize (IH hB)..|exact (IH (benv_ok_promote _ _ _ e hro hB))].
  - intros hw. discriminate.
  - destruct h as [o x st' h _ _]. eapply inv3_run; [exact (life_inv1 _ _ hB hl)|exact IH|exact h].
  - pose proof (life_inv1 _ _ hB hl) as hi. destruct (restore_spec _ _ _ _ _ _ (i1_0 _ _ hi) h1 h2 h3) as (s & c' & conf & hs & hc & ->). intros hw. cbn in hw. rewrite hw in hc.
    destruct hc as (m & hm & ->). unfold s_msg. cbn. destruct (store_parse _ _ _ _ _ true (i1_cfg _ _ hi) hs) as (m' & p1 & _ & _ & p4).
    rewrite hm in p1. injection p1 as <-. rewrite (p4 eq_refl eq_refl). eapply refresh_vsig; [eapply serialize_refresh; exact hs|]. apply IH. exact hw.
Qed.
Lemma pushed_unsigned B st s conf : benv_ok B -> life B tame st -> needs_push st = true -> serialize (b_env B) (s_conf st) true = Ok (s, conf) -> m_vsig (c_msg conf) = None.
Proof.
  intros hB hl hn hs. apply serialize_refresh in hs. destruct (s_state st) eqn:es.
  - unfold needs_push, is_clean in hn. rewrite es in hn. discriminate.
  - destruct (i1_dirty _ _ (life_inv1 _ _ hB hl) es) as (m & o & em). rewrite em in hs. eapply refresh_mut; exact hs.
  - eapply refresh_vsig; [exact hs|]. exact (life_inv3 _ _ hB hl es).
Qed.
Lemma serialize_peer A R m s t : peer A R -> parse_msg (b_env A) false t = Ok m -> serialize (b_env A) (Plain m) true = Ok (s, Plain m) ->
  forall i, serialize (b_env R) (Plain (set_unmerged i m)) true = Ok (s, Plain (set_unmerged i m)).
Proof.
  intros hp hm hs i. unfold serialize in *. cbn [refresh bind c_msg] in *. ok_inv hs. injection hs as ->.
  assert (e : serialize_impl (b_env R) (set_unmerged i m) (m_diff (set_unmerged i m)) true = Ok s).
  { unfold serialize_impl in *. change (m_lagged (set_unmerged i m)) with (m_lagged m). change (m_vsig (set_unmerged i m)) with (m_vsig m).
    change (m_seqno (set_unmerged i m)) with (m_seqno m). rewrite (pe_lag _ _ hp).
    assert (hb : body (b_env R) (set_unmerged i m) (m_diff (set_unmerged i m)) = body (b_env A) m (m_diff m)).
    { unfold body, body_entries, in_window. cbn [m_unknown m_data m_lagged m_diff set_unmerged]. change (m_seqno (set_unmerged i m)) with (m_seqno m). rewrite (pe_lag _ _ hp). reflexivity. }
    rewrite hb. destruct (negb _ && _); [discriminate|]. destruct (m_vsig m) eqn:ev; [exact ha|].
    destruct (e_verifier (b_env A)) eqn:ever; [exfalso; apply (parse_verified _ _ _ _ hm); [congruence|exact ev]|].
    destruct (pe_signer _ _ hp ever) as [e1 e2]. rewrite e1 in ha. rewrite e2. exact ha. }
  rewrite e. reflexivity.
Qed.
Lemma serialize_total B st sg : benv_ok B -> inv1 B st -> (e_lag (b_env B) <= int64_max)%Z -> exists s c, serialize (b_env B) (s_conf st) sg = Ok (s, c).
Proof.
  intros hB hi hl. unfold serialize. destruct (refresh_no_ub _ _ (i1_cfg _ _ hi)) as [c' hc]. rewrite hc. cbn [bind].
  destruct (refresh_ok _ _ _ (i1_cfg _ _ hi) hc) as (_ & hf & _ & hsh & _).
  assert (hq : m_seqno (c_msg c') = s_seqno st) by (unfold s_seqno, s_msg, m_seqno; congruence).
  unfold serialize_impl. pose proof (i1_nonneg _ _ hi) as hn. rewrite hq. pose proof (bo_lag _ hB) as hlag.
  assert (hr : int64_ok (s_seqno st - e_lag (b_env B)) = true).
  { pose proof (fr_seqno _ _ hf) as hr. rewrite hq in hr. unfold int64_ok, int64_max, int64_min in *. apply andb_true_iff in hr as [_ hr]. apply Z.leb_le in hr. apply andb_true_iff. split; apply Z.leb_le; lia. }
  rewrite hr, andb_false_r. destruct (m_vsig (c_msg c')); cbn [bind fst snd]; [eauto|].
  destruct sg; [|cbn [bind]; eauto]. destruct (e_signer (b_env B)) as [g|] eqn:eg; cbn [bind]; [|eauto]. rewrite (bo_sig64 _ hB g _ eg), Nat.eqb_refl. cbn [bind]. eauto.
Qed.
(** ** C36 *)
Lemma transfer A R st r n c o st' h : aead_ok (b_aead A) -> benv_ok A -> benv_ok R -> peer A R -> life A tame st -> life R tame r ->
  readonly A = false -> needs_push st = true -> push A st = (Ok (n, c, o), st') -> (forall k rest, s_keys st = k :: rest -> opens A R r k c) ->
  s_state r <> Dirty -> (s_seqno r < n)%Z -> (n + e_lag (b_env A) < 2 ^ 63)%Z -> apart_hashes A st R r ->
  (s_seqno r = 0%Z \/ (s_seqno r + e_lag (b_env A) <= n)%Z \/
   readonly R = true \/
   exists s c1 m s0 c0, serialize (b_env A) (s_conf st) true = Ok (s, c1) /\ parse_msg (b_env A) false s = Ok m /\ serialize (b_env R) (s_conf r) true = Ok (s0, c0) /\
     In (s_seqno r, e_hash (b_env R) s0) (keys (m_lagged m))) ->
  exists r', merge R [(h, c)] r = (Ok [h], r') /\ s_state r' = Clean /\ s_data r' = s_data st' /\ s_seqno r' = n /\ s_curr r' = h /\
    (exists s c1, serialize (b_env A) (s_conf st) true = Ok (s, c1) /\ s_conf st' = c1 /\ serialize (b_env R) (s_conf r') true = Ok (s, s_conf r')).
Proof.
  intros ha hA hR hp hl hlr hro hn hpush hk hnd hlt hov hap hinc.
  destruct (received A R st r n c o st' h ha hp hpush hk) as (s & conf & hs & en & econf & _ & hin).
  pose proof (life_inv1 _ _ hA hl) as hi. pose proof (life_inv1 _ _ hR hlr) as hir.
  destruct (publish_roundtrip_ok _ _ _ _ (bo_signer _ hA) hro (i1_cfg _ _ hi) hs (pushed_unsigned _ _ _ _ hA hl hn hs)) as (m & hm & hsame & hagain).
  assert (hpr : forall t x, parse_msg (b_env R) t x = parse_msg (b_env A) t x) by (intros; apply env_eta_parse; apply hp).
  assert (hq : m_seqno m = n).
  { destruct hsame as (g & _). destruct (serialize_ok _ _ _ _ _ (i1_cfg _ _ hi) hs) as (_ & _ & hrf & _). destruct (refresh_ok _ _ _ (i1_cfg _ _ hi) hrf) as (_ & _ & _ & hsh & _).
    rewrite g, en. unfold s_seqno, s_msg, m_seqno. congruence. }
  assert (hkne : s_keys r <> []).
  { unfold push in hpush. destruct (s_keys st) as [|k rest]; [discriminate|]. destruct (hk k rest eq_refl) as (hk2 & hk1). intros e. destruct hk1 as (l2 & hk1 & _). rewrite e in hk1. destruct hk2; discriminate hk1. }
  pose proof (i1_nonneg _ _ hir) as hnn. pose proof (bo_lag _ hA) as hlag.
  assert (hov2 : int64_ok (m_seqno m + e_lag (b_env R)) = true).
  { rewrite hq, (pe_lag _ _ hp). unfold int64_ok, int64_min, int64_max. apply andb_true_iff. split; apply Z.leb_le; lia. }
  assert (hfin : exists r' i, merge R [(h, c)] r = (Ok [h], r') /\ s_state r' = Clean /\ s_conf r' = Plain (set_unmerged (Some i) m) /\ s_curr r' = h /\ s_keys r' = s_keys r).
  { destruct (Z.eq_dec (s_seqno r) 0) as [e0|e0].
    - apply (merge_newer R r [(h, c)] h s m ([], r)); auto; try (rewrite (pe_lag _ _ hp); lia).
      + rewrite hpr. exact hm.
      + lia.
    - assert (hlm : (e_lag (b_env R) <= int64_max)%Z) by (rewrite (pe_lag _ _ hp); pose proof (i1_nonneg _ _ hi); unfold int64_max; lia).
      destruct (serialize_total R r true hR hir hlm) as (s0 & c0 & es0).
      destruct (own_parses _ _ _ _ hR hir es0) as (m0 & p1 & p2). { apply Z.eqb_neq in e0. rewrite e0. reflexivity. }
        apply (merge_newer R r [(h, c)] h s m ([(s_curr r, s0)], set_conf c0 r)); auto; try (rewrite (pe_lag _ _ hp); lia); try lia.
        { rewrite hpr. exact hm. }
        right. exists s0, c0, m0. split; [reflexivity|]. split; [exact e0|]. split; [exact es0|]. split; [exact p1|]. split; [exact p2|]. split; [eapply hap; eassumption|].
        destruct hinc as [g|[g|[g|(s' & c1 & m' & s0' & c0' & g1 & g2 & g3 & g4)]]]; [congruence|right; left; rewrite (pe_lag _ _ hp), p2, hq; exact g|right; right; exact g|].
        left. rewrite hs in g1. injection g1 as <- <-. rewrite hm in g2. injection g2 as <-. rewrite es0 in g3. injection g3 as <- <-.
        unfold listed. replace (m_sh m0) with (s_seqno r, e_hash (b_env R) s0); [exact g4|]. apply parse_msg_spec in p1 as (_ & _ & p1 & _). rewrite <- p1, <- p2. symmetry. apply surjective_pairing. }
  destruct hfin as (r' & i & g1 & g2 & g3 & g4 & g5). exists r'. split; [exact g1|]. split; [exact g2|].
  destruct hsame as (_ & hda & _). unfold s_data, s_seqno, s_msg. rewrite g3, econf. cbn [c_msg]. split; [exact hda|]. split; [exact hq|]. split; [exact g4|].
  exists s, conf. split; [exact hs|]. split; [reflexivity|]. eapply serialize_peer; eassumption.
Qed.
Lemma emplace_key {K V} `{CmpLaws K} (k : K) (v : V) m : msorted m -> In k (keys (emplace k v m)).
Proof.
  intros hm. pose proof (lookup_emplace k v m k hm) as h. destruct (lookup k (emplace k v m)) eqn:e.
  - apply lookup_In in e. apply in_map_iff. exists (k, v0). auto.
  - rewrite eqb_refl in h. destruct (lookup k m); discriminate.
Qed.
Lemma serialize_idem E c sg s c' : serialize E c sg = Ok (s, c') -> serialize E c' sg = Ok (s, c').
Proof.
  intros h. pose proof (serialize_refresh _ _ _ _ _ h) as hr. unfold serialize in *. rewrite hr in h. rewrite (refresh_idem _ _ hr). exact h.
Qed.
Lemma increment_lists E c s c' c2 : hash32 E -> cfg_ok E c -> serialize E c true = Ok (s, c') ->
  match c with Plain m => m_sh m = (m_seqno m, e_hash E s) | Mut _ _ => True end -> increment E c = Ok c2 ->
  In (m_seqno (c_msg c), e_hash E s) (keys (m_lagged (c_msg c2))).
Proof.
  intros h32 hc hs hm hi.
  assert (main : forall m c3, frame_ok E m -> increment_impl E m = Ok c3 -> In (m_sh m) (keys (m_lagged (c_msg c3)))).
  { intros m c3 hf. unfold increment_impl. destruct (_ || _); [discriminate|]. intros h. injection h as <-. cbn [c_msg m_lagged].
    destruct (dropped_ok (m_lagged m) (m_seqno m - e_lag E) (m_seqno m) (fr_lag_sorted _ _ hf) (fr_lag _ _ hf)) as (d1 & _). apply emplace_key, d1. }
  destruct c as [m|m o]; cbn [increment c_msg] in *.
  - rewrite <- hm. apply main; [apply hc|exact hi].
  - rewrite hs in hi. cbn [bind] in hi. pose proof (serialize_refresh _ _ _ _ _ hs) as hr. destruct (refresh_ok _ _ _ hc hr) as (_ & hf & _ & hsh & _).
    assert (hq : m_seqno m = m_seqno (c_msg c')) by (unfold m_seqno; rewrite hsh; reflexivity). rewrite hq.
    apply main in hi; [exact hi|]. destruct hf. split; cbn [m_seqno m_sh fst snd m_data m_diff m_lagged m_unknown m_vsig]; auto.
Qed.
Lemma edits_list B st s c l st1 : benv_ok B -> life B tame st -> s_state st <> Dirty -> serialize (b_env B) (s_conf st) true = Ok (s, c) ->
  match s_conf st with Plain m => m_sh m = (m_seqno m, e_hash (b_env B) s) | Mut _ _ => True end ->
  steps B (tame B) st l st1 -> forallb is_edit l = true ->
  life B tame st1 /\ (st1 = st \/ (s_state st1 = Dirty /\ readonly B = false /\ s_seqno st1 = (s_seqno st + 1)%Z /\ In (s_seqno st, e_hash (b_env B) s) (keys (m_lagged (s_msg st1))))).
Proof.
  intros hB hl hnd hs hm h.
  enough (main : forall st0, life B tame st0 ->
    (st0 = st \/ (s_state st0 = Dirty /\ readonly B = false /\ s_seqno st0 = (s_seqno st + 1)%Z /\ In (s_seqno st, e_hash (b_env B) s) (keys (m_lagged (s_msg st0))))) ->
    forall l st1, steps B (tame B) st0 l st1 -> forallb is_edit l = true ->
    life B tame st1 /\ (st1 = st \/ (s_state st1 = Dirty /\ readonly B = false /\ s_seqno st1 = (s_seqno st + 1)%Z /\ In (s_seqno st, e_hash (b_env B) s) (keys (m_lagged (s_msg st1)))))).
  { eapply main; eauto. }
  clear l st1 h. intros st0 hl0 hp l st1 h. revert hl0 hp. induction h as [st0|st0 o st2 l st1 h1 h2 IH]; intros hl0 hp ha; [auto|].
  cbn [forallb] in ha. apply andb_true_iff in ha as [ha1 ha2]. assert (hl2 : life B tame st2) by (eapply life_step; eassumption).
  apply IH; [exact hl2| |exact ha2]. clear IH h2 ha2 l. destruct h1 as [o x st2 hr hret _].
  apply edit_op_spec in hr; [|exact ha1]. destruct hr as [(_ & ->)|(f & g)]; [exact hp|]. pose proof (life_inv1 _ _ hB hl0) as hi0.
  apply edit_spec in g as [(hx & g)|(st3 & m & o1 & g & hc & _ & ->)].
  - destruct (inv1_dirty _ _ _ _ hB hi0 g hret) as [_ [->|(_ & _ & h & _)]]; [exact hp|congruence].
  - destruct (inv1_dirty _ _ _ _ hB hi0 g ltac:(split; discriminate)) as [_ h5].
    destruct (dirty_ok _ _ _ g) as (m1 & o2 & e1 & e2 & _ & e3). rewrite hc in e1. injection e1 as <- <-. right.
    destruct e3 as [(e3 & ->)|(e3 & e4 & e5 & _)].
    + destruct hp as [->|(p1 & p2 & p3 & p4)]; [congruence|]. unfold s_seqno, s_msg in *. cbn. rewrite hc in p3, p4. auto.
    + destruct hp as [->|(p1 & _)]; [|congruence]. cbn. split; [exact e2|]. split; [exact e4|].
      pose proof (increment_lists _ _ _ _ _ (bo_hash _ hB) (i1_cfg _ _ hi0) hs hm e5) as h6.
      destruct h5 as [h5|(_ & _ & _ & h5 & _)]; [rewrite h5 in e2; congruence|]. unfold s_seqno, s_msg in h5. rewrite hc in h5. unfold s_seqno, s_msg. cbn. auto.
Qed.
Lemma sync_seqno A st R r s c c' : peer A R -> inv1 A st -> inv1 R r -> serialize (b_env A) (s_conf st) true = Ok (s, c) -> serialize (b_env R) (s_conf r) true = Ok (s, c') -> s_seqno r = s_seqno st.
Proof.
  intros hp hi hir h1 h2.
  destruct (store_parse _ _ _ _ _ false (i1_cfg _ _ hi) h1) as (m & p1 & (p2 & _) & _). destruct (store_parse _ _ _ _ _ false (i1_cfg _ _ hir) h2) as (m' & q1 & (q2 & _) & _).
  assert (e : parse_msg (store_env (b_env R)) false s = parse_msg (store_env (b_env A)) false s) by (apply env_eta_parse; cbn; [apply hp|reflexivity|apply hp]).
  rewrite e, p1 in q1. injection q1 as ->.
  destruct (refresh_ok _ _ _ (i1_cfg _ _ hi) (serialize_refresh _ _ _ _ _ h1)) as (_ & _ & _ & e1 & _).
  destruct (refresh_ok _ _ _ (i1_cfg _ _ hir) (serialize_refresh _ _ _ _ _ h2)) as (_ & _ & _ & e2 & _).
  unfold s_seqno, s_msg, m_seqno in *. congruence.
Qed.
Lemma push_data A st x st' : life A tame st -> benv_ok A -> push A st = (Ok x, st') -> s_data st' = fst (prune (s_data st)).
Proof.
  intros hl hA h. apply push_spec in h as [(hx & _)|(k & s & conf & c0 & st2 & _ & hs & _ & _ & hst & _ & ->)]; [exfalso; eapply hx; reflexivity|].
  destruct (refresh_ok _ _ _ (i1_cfg _ _ (life_inv1 _ _ hA hl)) (serialize_refresh _ _ _ _ _ hs)) as (_ & _ & _ & _ & _ & _ & e).
  unfold s_data, s_msg. cbn. rewrite <- e. f_equal. destruct hst as [(_ & g)|(_ & ->)]; [|reflexivity]. apply set_state_spec in g as [(g & _)|(_ & g & _)]; [discriminate|]. rewrite g. reflexivity.
Qed.
Lemma replicates A R st l st1 n c o st2 r h : aead_ok (b_aead A) -> benv_ok A -> benv_ok R -> peer A R -> life A tame st -> life R tame r ->
  in_sync A st R r -> steps A (tame A) st l st1 -> forallb is_edit l = true -> s_state st1 = Dirty ->
  push A st1 = (Ok (n, c, o), st2) -> (forall k rest, s_keys st1 = k :: rest -> opens A R r k c) ->
  (n + e_lag (b_env A) < 2 ^ 63)%Z -> apart_hashes A st1 R r ->
  exists r' st3, merge R [(h, c)] r = (Ok [h], r') /\ s_data r' = s_data st2 /\ s_data st2 = fst (prune (s_data st1)) /\ s_seqno r' = n /\ s_curr r' = h /\ s_state r' = Clean /\
    confirm_pushed A n h st2 = (Ok tt, st3) /\ in_sync A st3 R r'.
Proof.
  intros ha hA hR hp hl hlr (hnd & hndr & s & c1 & c2 & hs & hs2 & hm) hsteps hed hd hpush hk hov hap.
  destruct (edits_list _ _ _ _ _ _ hA hl hnd hs hm hsteps hed) as [hl1 [->|(_ & hro & hq & hin)]]; [congruence|].
  pose proof (life_inv1 _ _ hA hl) as hi. pose proof (life_inv1 _ _ hR hlr) as hir. pose proof (sync_seqno _ _ _ _ _ _ _ hp hi hir hs hs2) as hsq.
  destruct (received A R st1 r n c o st2 h ha hp hpush hk) as (s1 & conf & hs1 & en & econf & est & _).
  assert (hn1 : needs_push st1 = true) by (unfold needs_push, is_clean; rewrite hd; reflexivity).
  pose proof (life_inv1 _ _ hA hl1) as hi1.
  destruct (transfer A R st1 r n c o st2 h ha hA hR hp hl1 hlr hro hn1 hpush hk hndr ltac:(lia) hov hap) as (r' & t1 & t2 & t3 & t4 & t5 & s' & c' & t6 & t7 & t8).
  { right. destruct (Z.eq_dec (e_lag (b_env A)) 1) as [e|e]; [left; lia|]. right. right.
    destruct (publish_roundtrip_ok _ _ _ _ (bo_signer _ hA) hro (i1_cfg _ _ hi1) hs1 (pushed_unsigned _ _ _ _ hA hl1 hn1 hs1)) as (m & hpm & hsame & _).
    exists s1, conf, m, s, c2. split; [exact hs1|]. split; [exact hpm|]. split; [exact hs2|]. rewrite (pe_hash _ _ hp), hsq.
    destruct hsame as (_ & _ & _ & _ & hlag). rewrite hlag. destruct (refresh_ok _ _ _ (i1_cfg _ _ hi1) (serialize_refresh _ _ _ _ _ hs1)) as (_ & _ & _ & e1 & e2 & _).
    apply in_map_iff in hin as ([k d] & ek & hin). cbn [fst] in ek. apply in_map_iff. exists (k, d). split; [exact ek|]. unfold windowed. rewrite e2.
    apply filter_In. split; [exact hin|]. rewrite ek. cbn [fst]. unfold in_window. pose proof (bo_lag _ hA) as hl0.
    assert (eq : m_seqno (c_msg conf) = (s_seqno st + 1)%Z) by (rewrite <- hq; unfold s_seqno, s_msg, m_seqno; congruence). rewrite eq.
    apply negb_true_iff, orb_false_iff. split; [apply Z.leb_gt; lia|]. rewrite Z.geb_leb. apply Z.leb_gt. lia. }
  unfold is_dirty in est. rewrite hd in est.
  assert (eq2 : s_seqno st2 = n).
  { rewrite en. unfold s_seqno, s_msg, m_seqno. rewrite econf. destruct (refresh_ok _ _ _ (i1_cfg _ _ hi1) (serialize_refresh _ _ _ _ _ hs1)) as (_ & _ & _ & e1 & _). congruence. }
  exists r'. unfold confirm_pushed. rewrite est, eq2, Z.eqb_refl. destruct (set_state A Clean st2) as [x st3] eqn:es. pose proof es as es'.
  apply set_state_spec in es as [(_ & _ & es & _)|(-> & f1 & f2 & _)]; [discriminate|]. eexists. split; [exact t1|]. split; [exact t3|].
  split; [eapply push_data; eassumption|]. split; [exact t4|]. split; [exact t5|]. split; [exact t2|]. split; [reflexivity|].
  split; [cbn; congruence|]. split; [congruence|]. exists s', c', (s_conf r'). cbn [s_conf]. rewrite f1, t7.
  split; [eapply serialize_idem; exact t6|]. split; [exact t8|].
  destruct (i1_dirty _ _ hi1 hd) as (m & o1 & em). rewrite em in t6. apply serialize_refresh in t6. cbn [refresh] in t6. destruct (diff _ _); [|discriminate]. injection t6 as <-. exact I.
Qed.
Lemma joins A R st n c o st2 r h : aead_ok (b_aead A) -> benv_ok A -> benv_ok R -> peer A R -> life A tame st -> life R tame r -> readonly A = false ->
  s_state r <> Dirty -> s_state st = Dirty -> push A st = (Ok (n, c, o), st2) -> (forall k rest, s_keys st = k :: rest -> opens A R r k c) ->
  (s_seqno r < n)%Z -> (s_seqno r = 0%Z \/ (s_seqno r + e_lag (b_env A) <= n)%Z \/ readonly R = true) -> (n + e_lag (b_env A) < 2 ^ 63)%Z -> apart_hashes A st R r ->
  exists r' st3, merge R [(h, c)] r = (Ok [h], r') /\ s_data r' = s_data st2 /\ s_data st2 = fst (prune (s_data st)) /\ s_seqno r' = n /\ s_curr r' = h /\ s_state r' = Clean /\
    confirm_pushed A n h st2 = (Ok tt, st3) /\ in_sync A st3 R r'.
Proof.
  intros ha hA hR hp hl1 hlr hro hndr hd hpush hk hlt hor hov hap.
  destruct (received A R st r n c o st2 h ha hp hpush hk) as (s1 & conf & hs1 & en & econf & est & _).
  assert (hn1 : needs_push st = true) by (unfold needs_push, is_clean; rewrite hd; reflexivity).
  pose proof (life_inv1 _ _ hA hl1) as hi1.
  destruct (transfer A R st r n c o st2 h ha hA hR hp hl1 hlr hro hn1 hpush hk hndr hlt hov hap) as (r' & t1 & t2 & t3 & t4 & t5 & s' & c' & t6 & t7 & t8); [tauto|].
  unfold is_dirty in est. rewrite hd in est.
  assert (eq2 : s_seqno st2 = n).
  { rewrite en. unfold s_seqno, s_msg, m_seqno. rewrite econf. destruct (refresh_ok _ _ _ (i1_cfg _ _ hi1) (serialize_refresh _ _ _ _ _ hs1)) as (_ & _ & _ & e1 & _). congruence. }
  exists r'. unfold confirm_pushed. rewrite est, eq2, Z.eqb_refl. destruct (set_state A Clean st2) as [x st3] eqn:es. pose proof es as es'.
  apply set_state_spec in es as [(_ & _ & es & _)|(-> & f1 & f2 & _)]; [discriminate|]. eexists. split; [exact t1|]. split; [exact t3|].
  split; [eapply push_data; eassumption|]. split; [exact t4|]. split; [exact t5|]. split; [exact t2|]. split; [reflexivity|].
  split; [cbn; congruence|]. split; [congruence|]. exists s', c', (s_conf r'). cbn [s_conf]. rewrite f1, t7.
  split; [eapply serialize_idem; exact t6|]. split; [exact t8|].
  destruct (i1_dirty _ _ hi1 hd) as (m & o1 & em). rewrite em in t6. apply serialize_refresh in t6. cbn [refresh] in t6. destruct (diff _ _); [|discriminate]. injection t6 as <-. exact I.
Qed.
