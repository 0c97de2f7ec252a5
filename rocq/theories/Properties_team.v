(** Property C94: a group's keys, configs and signing keys work together. *)
From Verif Require Import Message_facts Round_facts Redeliver_facts Contacts Members GroupObjSpec GroupObj_facts Data_facts Crypt_facts Reach_facts Life_facts Life2_facts Life4_facts Base_facts Conf2_facts Conf3_facts Records Records_facts Members_facts KeyList_facts Keys_facts Keys2_facts Keys3_facts Group_facts Hex_facts Community_facts.
From Verif Require Import ToyKeys ToyBase Toy ToyCrypt Open_facts Properties_open.
From Verif Require Properties_keys Properties_records.

(** ** signing keys *)
(** At any time the three objects have the same signing key: the configs check signatures against the group's public key, and
    can sign exactly if the Keys object can, with its key. *)
Theorem C94_signing_keys G B q p : lib_ok G -> seeds_sign G -> (forall p, class_ok (B p)) -> device3 G B q ->
  readonly (part_env G B q p) = negb (admin (q_keys q)) /\
  (exists v, e_verifier (b_env (part_env G B q p)) = Some v /\ forall data sg, v data sg = g_verify G sg data (ko_pk (q_keys q))) /\
  match ko_sk (q_keys q) with
  | Some sk => (exists s, e_signer (b_env (part_env G B q p)) = Some s /\ forall data, s data = g_sign G sk data) /\ forall data, g_verify G (g_sign G sk data) data (ko_pk (q_keys q)) = true
  | None => e_signer (b_env (part_env G B q p)) = None
  end.
Proof.
  intros hG hs hB hd. pose proof (device3_inv G B q hG hs hB hd) as hi. pose proof (io_pair _ _ _ hi) as hp. unfold part_env, admin. rewrite (io_sigs _ _ _ hi).
  destruct (ko_sk (q_keys q)) as [sk|]; cbn; (split; [reflexivity|]); (split; [eexists; split; reflexivity|]); [|reflexivity].
  split; [eexists; split; reflexivity|]. apply hp.
Qed.
Print Assumptions C94_signing_keys.
(** and the configs have the keys of the Keys object, its encryption key first *)
Theorem C94_encryption_keys G B q p : lib_ok G -> seeds_sign G -> (forall p, class_ok (B p)) -> device3 G B q ->
  s_keys (q_conf q p) = nub (group_keys (q_keys q)) /\
  match group_enc_key (q_keys q) with Ok k => hd_error (s_keys (q_conf q p)) = Some k | _ => s_keys (q_conf q p) = [] end.
Proof.
  intros hG hs hB hd. pose proof (io_keys _ _ _ (device3_inv G B q hG hs hB hd) p) as hk. split; [exact hk|]. rewrite hk, enc_key_head. destruct (group_keys (q_keys q)) as [|k l]; reflexivity.
Qed.
Print Assumptions C94_encryption_keys.

(** ** rekeying *)
Lemma dirty_seqno B st st' : benv_ok B -> inv1 B st -> dirty B st = (Ok tt, st') -> s_state st' = Dirty /\ (s_state st = Dirty /\ s_seqno st' = s_seqno st \/ s_state st <> Dirty /\ s_seqno st' = (s_seqno st + 1)%Z).
Proof.
  intros hB hi h. apply dirty_ok in h as (m & o & h1 & h2 & _ & [(h3 & ->)|(h3 & _ & h4 & _)]); (split; [exact h2|]); [left; auto|right]. split; [exact h3|].
  unfold s_seqno, s_msg in *. rewrite h1. cbn [c_msg]. destruct (s_conf st) as [m0|m0 o0] eqn:ec; cbn [increment] in h4.
  - unfold increment_impl in h4. cbv zeta in h4. destruct (_ || _) in h4; [discriminate|]. injection h4 as <- _. reflexivity.
  - destruct (serialize (b_env B) (Mut m0 o0) true) as [[s c1]| | | |] eqn:es; try discriminate. cbn [bind snd] in h4. unfold increment_impl in h4. cbv zeta in h4. destruct (_ || _) in h4; [discriminate|].
    injection h4 as <- _. pose proof (i1_cfg _ _ hi) as hc. rewrite ec in hc. destruct (refresh_ok _ _ _ hc (serialize_refresh _ _ _ _ _ es)) as (_ & _ & _ & e & _). unfold m_seqno in *. cbn. rewrite e. reflexivity.
Qed.
(** After a rekey both configs encrypt with the new key and hold the same data as before; unless they used that key already, they
    are waiting to be pushed again, with a seqno above that of anything they have pushed. *)
Theorem C94_rekey_republishes G B q m q' p : lib_ok G -> seeds_sign G -> (forall p, class_ok (B p)) -> device3 G B q -> group_rekey G B q = (Ok m, q') ->
  hd_error (s_keys (q_conf q' p)) = Some (ko_pkey (q_keys q')) /\ s_data (q_conf q' p) = s_data (q_conf q p) /\
  (hd_error (s_keys (q_conf q p)) <> Some (ko_pkey (q_keys q')) ->
     needs_push (q_conf q' p) = true /\ s_state (q_conf q' p) = Dirty /\ (s_state (q_conf q p) <> Dirty -> s_seqno (q_conf q' p) = (s_seqno (q_conf q p) + 1)%Z)).
Proof.
  intros hG hs hB hd h. pose proof (device3_inv G B q hG hs hB hd) as hi. pose proof (device3_inv G B q' hG hs hB (d3_rekey _ _ _ _ _ hd h)) as hi'.
  pose proof h as h0. apply group_rekey_inv in h as (l & o & hl & hr & e1 & e2 & hh & _). pose proof (hand_out_ok _ _ _ _ _ hh p) as hp.
  pose proof (inv3o_env G B q p hG (hB p) hi) as hE. pose proof (io_life _ _ _ hi p) as hlife.
  assert (hk : exists rest, group_keys o = ko_pkey o :: rest).
  { apply rekey_inv in hr as (sk & gen & key & _ & hm & _ & _ & _ & ->). unfold group_keys. cbn [ko_pconf ko_pkey]. destruct m; [congruence|]. cbn [is_nil app]. eauto. }
  destruct hk as [rest hk]. rewrite e1.
  assert (h1 : hd_error (s_keys (q_conf q' p)) = Some (ko_pkey o)) by (rewrite (io_keys _ _ _ hi' p), e1, hk; reflexivity).
  split; [exact h1|]. split; [exact (proj2 (replace_life _ _ _ _ _ hE hlife hp))|]. intros hne.
  assert (hro : readonly (part_env G B q p) = false).
  { destruct (C94_signing_keys G B q p hG hs hB hd) as (-> & _). unfold group_rekey in h0. destruct (admin (q_keys q)); [reflexivity|discriminate]. }
  destruct (replace_ok _ _ _ _ _ hp) as [ks' hp']. rewrite hro in hp'. cbn [negb andb] in hp'.
  assert (hf : first_changes (group_keys o) (q_conf q p) = true).
  { unfold first_changes. rewrite hk. destruct (s_keys (q_conf q p)) as [|g r]; [reflexivity|]. apply negb_true_iff, eqb_neq. intros ->. apply hne. reflexivity. }
  rewrite hf in hp'. destruct (dirty_seqno (part_env G B q p) (set_keys ks' (q_conf q p)) (q_conf q' p) hE) as [h2 h3]; [|exact hp'|].
  { pose proof (life_inv1 _ _ hE hlife) as hi1. destruct hi1 as [j0 j1 j2 j3 j4]. split; try assumption. apply inv0_keys. exact j0. }
  split; [unfold needs_push, is_clean; rewrite h2; reflexivity|]. split; [exact h2|]. intros hnd. destruct h3 as [[h3 _]|[_ h3]]; [exfalso; apply hnd; exact h3|exact h3].
Qed.
Print Assumptions C94_rekey_republishes.

(** ** reading *)
Lemma setting_peer G A R a r p : setting G A R -> device3 G A a -> device3 G R r -> ko_pk (q_keys r) = ko_pk (q_keys a) -> admin (q_keys a) = true -> peer (part_env G A a p) (part_env G R r p).
Proof.
  intros [h1 h2 h3 h4 h5 h6] ha hr hpk hadm. pose proof (device3_inv G A a h1 h2 h4 ha) as ia. pose proof (device3_inv G R r h1 h2 h5 hr) as ir. destruct (h6 p) as (s1 & s2 & s3 & s4 & s5 & s6 & s7).
  unfold part_env. rewrite (io_sigs _ _ _ ia), (io_sigs _ _ _ ir), hpk.
  split; cbn; auto; try congruence.
  - destruct (ko_sk (q_keys a)), (ko_sk (q_keys r)); reflexivity.
  - unfold admin in hadm. destruct (ko_sk (q_keys a)); discriminate.
Qed.
(** Two devices in one group, an administrator's (which may have become one) and a member's, that have the same encryption key.  What the administrator's
    pushes of either config, the member's accepts and then has, if it is newer than what the member's has; whatever the two have missed. *)
Theorem C94_reads G A R a r p n c old st' h : setting G A R -> device3 G A a -> device3 G R r -> ko_pk (q_keys r) = ko_pk (q_keys a) -> admin (q_keys a) = true -> admin (q_keys r) = false ->
  group_enc_key (q_keys r) = group_enc_key (q_keys a) ->
  needs_push (q_conf a p) = true -> push (part_env G A a p) (q_conf a p) = (Ok (n, c, old), st') ->
  (s_seqno (q_conf r p) < n)%Z -> (n + e_lag (b_env (A p)) < 2 ^ 63)%Z -> apart_hashes (part_env G A a p) (q_conf a p) (part_env G R r p) (q_conf r p) ->
  exists r', merge (part_env G R r p) [(h, c)] (q_conf r p) = (Ok [h], r') /\ s_data r' = fst (prune (s_data (q_conf a p))) /\ s_seqno r' = n /\ s_curr r' = h /\ s_state r' = Clean.
Proof.
  intros hset ha hr hpk hadm hmem hkey hn hpush hlt hov hap. pose proof (setting_peer G A R a r p hset ha hr hpk hadm) as hpeer. destruct hset as [h1 h2 h3 h4 h5 h6].
  pose proof (device3_inv G A a h1 h2 h4 ha) as ia. pose proof (device3_inv G R r h1 h2 h5 hr) as ir.
  pose proof (inv3o_env G A a p h1 (h4 p) ia) as hEa. pose proof (inv3o_env G R r p h1 (h5 p) ir) as hEr.
  pose proof (io_life _ _ _ ia p) as la. pose proof (io_life _ _ _ ir p) as lr.
  assert (hro : readonly (part_env G R r p) = true) by (destruct (C94_signing_keys G R r p h1 h2 h5 hr) as (-> & _); rewrite hmem; reflexivity).
  assert (hwr : readonly (part_env G A a p) = false) by (destruct (C94_signing_keys G A a p h1 h2 h4 ha) as (-> & _); rewrite hadm; reflexivity).
  destruct (transfer (part_env G A a p) (part_env G R r p) (q_conf a p) (q_conf r p) n c old st' h (h3 p) hEa hEr hpeer la lr hwr hn hpush) as (r' & t1 & t2 & t3 & t4 & t5 & _).
  - intros k rest hk. exists [], (tl (s_keys (q_conf r p))). destruct (C94_encryption_keys G A a p h1 h2 h4 ha) as [_ ka]. destruct (C94_encryption_keys G R r p h1 h2 h5 hr) as [_ kr].
    rewrite hkey in kr. destruct (group_enc_key (q_keys a)) as [k0| | | |]; try (rewrite ka in hk; discriminate). rewrite hk in ka. cbn [hd_error] in ka. injection ka as <-.
    split; [destruct (s_keys (q_conf r p)) as [|k1 l1]; [discriminate|]; cbn [hd_error tl app] in *; congruence|]. split; [reflexivity|intros k' []].
  - pose proof (i0_ro _ _ (life_inv0 _ _ _ lr) hro) as [hc _]. rewrite hc. discriminate.
  - exact hlt.
  - exact hov.
  - exact hap.
  - right. right. left. exact hro.
  - exists r'. split; [exact t1|]. rewrite t3, (push_data _ _ _ _ la hEa hpush). auto.
Qed.
Print Assumptions C94_reads.
(** The calls in between do not matter. *)
Lemma used_device G B q q' : device3 G B q -> used G B q q' -> device3 G B q' /\ q_keys q' = q_keys q /\ q_sigs q' = q_sigs q.
Proof.
  intros hd h. induction h as [|p o x q1 q2 _ (IH & e1 & e2) ho hc hx ht]; [auto|]. split; [eapply d3_conf; eassumption|].
  unfold group_conf in hc. destruct (run _ _ _) as [y st]. injection hc as _ <-. auto.
Qed.
Lemma hand_out_total E ks c : (forall k, In k ks -> length k = 32) -> exists c', hand_out E ks false c = (Ok tt, c').
Proof.
  intros hk. assert (h : forall B st, exists st', replace_keys B ks false st = (Ok tt, st')).
  { intros B st. unfold replace_keys. destruct ks as [|f r]; [destruct (s_keys st); eexists; reflexivity|].
    assert (e : forallb (fun k => Nat.eqb (length k) 32) (f :: r) = true) by (apply forallb_forall; intros k h; apply Nat.eqb_eq, hk; exact h). rewrite e. eexists. reflexivity. }
  unfold hand_out. destruct (h (E Members) (c Members)) as [m ->]. destruct (h (E Info) (c Info)) as [i ->]. eexists. reflexivity.
Qed.
Lemma load_total G B h data ts q o : lib_ok G -> kreach G (q_keys q) -> load_key_message G h data ts (q_keys q) = Ok (true, o) ->
  exists q', group_load G B h data ts q = (Ok true, q') /\ q_keys q' = o.
Proof.
  intros hG hr hl. unfold group_load. rewrite hl. pose proof (kinv_reach _ _ hG (kreach_step _ _ _ hr (ks_load _ _ _ _ _ _ _ hl))) as hi.
  destruct (hand_out_total (part_env G B q) (group_keys o) (q_conf q) (group_keys_len o hi)) as [c ->]. eexists. split; reflexivity.
Qed.
Lemma load_seqno G B h data ts q q' p : lib_ok G -> seeds_sign G -> (forall p, class_ok (B p)) -> device3 G B q -> group_load G B h data ts q = (Ok true, q') ->
  s_conf (q_conf q' p) = s_conf (q_conf q p) /\ part_env G B q' p = part_env G B q p.
Proof.
  intros hG hs hB hd hl. apply group_load_inv in hl as (o & _ & _ & e & hh & _). split; [|unfold part_env; rewrite e; reflexivity].
  destruct (replace_ok _ _ _ _ _ (hand_out_ok _ _ _ _ _ hh p)) as [ks' h']. cbn [andb] in h'. rewrite h'. reflexivity.
Qed.

Lemma sid_of_lc upk : make_lc (sid_of upk) = sid_of upk.
Proof. unfold sid_of. rewrite lc_app. f_equal. symmetry. apply to_from_hex. apply from_to_hex. Qed.

(** An administrator rekeys, uses the configs in any way, and pushes one of them.  The device of a member that the member config lists, and
    that has no newer keys, loads the key message and merges what was pushed: both succeed, and it has the administrator's data. *)
Theorem C94_rekey_reaches_members G A R a m a1 a2 r upk mb hash ts p n c old st' h : setting G A R -> binding (g_x G) -> device3 G A a -> device3 G R r ->
  group_rekey G A a = (Ok m, a1) -> used G A a1 a2 ->
  members_get (q_conf a Members) (sid_of upk) = Ok (Some mb) ->
  (forall sk xpk, ko_sk (q_keys a) = Some sk -> g_xpk G (ko_pk (q_keys a)) = Some xpk -> member_in G (q_keys a) (q_keys r) sk xpk upk) ->
  (0 <= ko_pgen (q_keys a1))%Z -> (forall y, In y (ko_keys (q_keys r)) -> (k_gen y < ko_pgen (q_keys a1))%Z) -> ts_ok ts = true ->
  needs_push (q_conf a2 p) = true -> push (part_env G A a2 p) (q_conf a2 p) = (Ok (n, c, old), st') ->
  (s_seqno (q_conf r p) < n)%Z -> (n + e_lag (b_env (A p)) < 2 ^ 63)%Z -> apart_hashes (part_env G A a2 p) (q_conf a2 p) (part_env G R r p) (q_conf r p) ->
  exists r1 r', group_load G R hash m ts r = (Ok true, r1) /\ merge (part_env G R r1 p) [(h, c)] (q_conf r1 p) = (Ok [h], r') /\
    s_data r' = fst (prune (s_data (q_conf a2 p))) /\ s_seqno r' = n /\ s_state r' = Clean.
Proof.
  intros hset hbind ha hr hrk hused hget hmem hgen hnew hts hn hpush hlt hov hap.
  pose proof hset as [h1 h2 h3 h4 h5 h6]. pose proof (device3_inv G A a h1 h2 h4 ha) as ia. pose proof (device3_inv G R r h1 h2 h5 hr) as ir.
  pose proof (d3_rekey _ _ _ _ _ ha hrk) as ha1. destruct (used_device _ _ _ _ ha1 hused) as (ha2 & ek & es).
  pose proof hrk as hrk0. apply group_rekey_inv in hrk as (l & o & hl & hrek & e1 & e2 & _ & _). subst o.
  assert (hsid : In (sid_of upk) (map fst l)).
  { destruct (Properties_records.C59_members _ _ _ (inv3o_env G A a Members h1 (h4 Members) ia) (io_life _ _ _ ia Members) hl) as [_ hin].
    apply in_map_iff. exists (sid_of upk, mb). split; [reflexivity|]. apply hin. split; [|exact hget]. apply sid_of_lc. }
  destruct (rekey_ids _ _ _ _ _ hrek) as (_ & f1 & f2).
  assert (hadm : exists sk, ko_sk (q_keys a) = Some sk) by (apply rekey_inv in hrek as (sk & _ & _ & hh & _); eauto). destruct hadm as [sk hsk].
  assert (hxpk : exists xpk, g_xpk G (ko_pk (q_keys a)) = Some xpk).
  { unfold rekey in hrek. rewrite hsk in hrek. destruct (g_xpk G (ko_pk (q_keys a))); [eauto|discriminate]. }
  destruct hxpk as [xpk hxpk]. pose proof (hmem sk xpk hsk hxpk) as hm1.
  destruct (Properties_keys.C44_members_get_the_key G (map fst l) (q_keys a) m (q_keys a1) (q_keys r) upk hash ts h1 hbind hrek) as (hek & p' & hload & hpk); try assumption.
  { intros sk' xpk' g1 g2. split; [apply hmem; assumption|]. pose proof (io_pair _ _ _ ia) as hp. rewrite g1 in hp. apply hp. }
  destruct (load_total G R hash m ts r p' h1 (io_reach _ _ _ ir) hload) as (r1 & hr1 & er1). pose proof (d3_load _ _ _ _ _ _ _ _ hr hr1) as hdr1.
  destruct (load_seqno G R hash m ts r r1 p h1 h2 h5 hr hr1) as [ec ee].
  destruct (load_ids _ _ _ _ _ _ _ hload) as (_ & g1 & g2).
  destruct (C94_reads G A R a2 r1 p n c old st' h hset ha2 hdr1) as (r' & t1 & t2 & t3 & t4 & t5).
  - rewrite er1, g1, ek, f1. exact (mi_pk _ _ _ _ _ _ hm1).
  - unfold admin. rewrite ek, f2, hsk. reflexivity.
  - unfold admin. rewrite er1, g2, (mi_not_admin _ _ _ _ _ _ hm1). reflexivity.
  - rewrite er1, ek, hek. apply hpk; [exact (io_reach _ _ _ ir)|exact hnew].
  - exact hn.
  - exact hpush.
  - unfold s_seqno, s_msg in *. rewrite ec. exact hlt.
  - exact hov.
  - unfold apart_hashes in *. rewrite ee, ec. exact hap.
  - exists r1, r'. auto 10.
Qed.
Print Assumptions C94_rekey_reaches_members.

(** An administrator pushes a config, goes on using the configs, and invites a member with a supplement.  The member's device, new to the
    group, loads the supplement and merges what was pushed before: both succeed, and it has the administrator's data. *)
Theorem C94_invited G A R a a2 sids m r upk hash ts p n c old st' h : setting G A R -> binding (g_x G) -> device3 G A a -> used G A a a2 -> device3 G R r ->
  needs_push (q_conf a p) = true -> push (part_env G A a p) (q_conf a p) = (Ok (n, c, old), st') ->
  ko_pconf (q_keys a) = [] -> in_step (fun k => In k (ko_keys (q_keys a))) -> group_supplement G sids a2 = Ok m -> In (sid_of upk) sids -> (N.of_nat (length m) <= uint64_max)%N ->
  (forall sk xpk, ko_sk (q_keys a) = Some sk -> g_xpk G (ko_pk (q_keys a)) = Some xpk -> member_in G (q_keys a) (q_keys r) sk xpk upk) ->
  ko_keys (q_keys r) = [] -> ko_active (q_keys r) = [] ->
  (s_seqno (q_conf r p) < n)%Z -> (n + e_lag (b_env (A p)) < 2 ^ 63)%Z -> apart_hashes (part_env G A a p) (q_conf a p) (part_env G R r p) (q_conf r p) ->
  exists r1 r', group_load G R hash m ts r = (Ok true, r1) /\ merge (part_env G R r1 p) [(h, c)] (q_conf r1 p) = (Ok [h], r') /\
    s_data r' = fst (prune (s_data (q_conf a p))) /\ s_seqno r' = n /\ s_state r' = Clean.
Proof.
  intros hset hbind ha hused hr hn hpush hpend hstep hsup hin hlen hmem hk0 hact0 hlt hov hap.
  pose proof hset as [h1 h2 h3 h4 h5 h6]. pose proof (device3_inv G A a h1 h2 h4 ha) as ia. pose proof (device3_inv G R r h1 h2 h5 hr) as ir.
  destruct (used_device _ _ _ _ ha hused) as (ha2 & ek & es). unfold group_supplement in hsup. rewrite ek in hsup.
  assert (hadm : exists sk, ko_sk (q_keys a) = Some sk).
  { unfold key_supplement in hsup. destruct (ko_sk (q_keys a)); [eauto|discriminate]. }
  destruct hadm as [sk hsk].
  assert (hxpk : exists xpk, g_xpk G (ko_pk (q_keys a)) = Some xpk).
  { unfold key_supplement in hsup. rewrite hsk in hsup. destruct (rev (ko_keys (q_keys a))); [discriminate|]. destruct (g_xpk G (ko_pk (q_keys a))); [eauto|discriminate]. }
  destruct hxpk as [xpk hxpk]. pose proof (hmem sk xpk hsk hxpk) as hm1.
  destruct (Properties_keys.C65_same_encryption_key G sids (q_keys a) m (q_keys r) upk hash ts h1 hbind (io_reach _ _ _ ia) (io_reach _ _ _ ir) hpend hsup hlen) as (p' & hload & hpk); try assumption.
  { intros sk' xpk' g1 g2. split; [apply hmem; assumption|]. pose proof (io_pair _ _ _ ia) as hp. rewrite g1 in hp. apply hp. }
  destruct (load_total G R hash m ts r p' h1 (io_reach _ _ _ ir) hload) as (r1 & hr1 & er1). pose proof (d3_load _ _ _ _ _ _ _ _ hr hr1) as hdr1.
  destruct (load_seqno G R hash m ts r r1 p h1 h2 h5 hr hr1) as [ec ee].
  destruct (load_ids _ _ _ _ _ _ _ hload) as (_ & g1 & g2).
  destruct (C94_reads G A R a r1 p n c old st' h hset ha hdr1) as (r' & t1 & t2 & t3 & t4 & t5).
  - rewrite er1, g1. exact (mi_pk _ _ _ _ _ _ hm1).
  - unfold admin. rewrite hsk. reflexivity.
  - unfold admin. rewrite er1, g2, (mi_not_admin _ _ _ _ _ _ hm1). reflexivity.
  - rewrite er1. exact hpk.
  - exact hn.
  - exact hpush.
  - unfold s_seqno, s_msg in *. rewrite ec. exact hlt.
  - exact hov.
  - unfold apart_hashes in *. rewrite ee, ec. exact hap.
  - exists r1, r'. auto 10.
Qed.
Print Assumptions C94_invited.

(** ** promotion *)
(** A member given the group's secret key (or its seed) becomes an administrator: all three objects can sign from then on and nothing else
    changes.  Any other key is refused and changes nothing. *)
Theorem C94_promotion G B q secret : lib_ok G -> seeds_sign G -> (forall p, class_ok (B p)) -> device3 G B q -> admin (q_keys q) = false ->
  let good := (length secret = 64 \/ length secret = 32) /\ g_edpk G (firstn 32 secret) = ko_pk (q_keys q) in
  (good -> exists q', group_admin G secret q = (Ok tt, q') /\ admin (q_keys q') = true /\ (forall p, readonly (part_env G B q' p) = false) /\
     q_conf q' = q_conf q /\ ko_keys (q_keys q') = ko_keys (q_keys q) /\ ko_pk (q_keys q') = ko_pk (q_keys q)) /\
  (~ good -> group_admin G secret q = (Throw, q)).
Proof.
  intros hG hs hB hd hna. cbv zeta. pose proof hG as [_ hz].
  assert (hd0 : load_admin_key G secret (q_keys q) = Throw \/ exists o, load_admin_key G secret (q_keys q) = Ok o).
  { unfold load_admin_key. rewrite hna. destruct (negb (_ || _)); [auto|]. cbv zeta. destruct (negb _); eauto. }
  split.
  - intros [h1 h2]. assert (hl : exists o, load_admin_key G secret (q_keys q) = Ok o).
    { destruct hd0 as [hd0|hd0]; [exfalso|exact hd0]. revert hd0. unfold load_admin_key. rewrite hna. rewrite <- h2, eqb_refl.
      destruct h1 as [h1|h1]; unfold bytes in *; rewrite h1; cbn; discriminate. }
    destruct hl as [o hl]. destruct (admin_key_spec _ _ _ _ hl hna) as (seed & s1 & s2 & e).
    assert (hg : exists q', group_admin G secret q = (Ok tt, q')).
    { unfold group_admin. rewrite hna, hl. assert (hsk : ko_sk o = Some (seed ++ g_edpk G seed)) by (rewrite e; reflexivity). rewrite hsk. unfold set_sig_keys.
      rewrite app_length, s1, (z_edpk _ hz). cbn [Nat.add Nat.eqb negb]. eauto. }
    destruct hg as [q' hg]. exists q'. split; [exact hg|]. pose proof (d3_admin _ _ _ _ _ hd hg) as hd'.
    apply (group_admin_inv _ _ _ _ hz) in hg as [[g1 _]|(_ & g1 & g2 & seed' & _ & g3 & g4 & g5 & _)]; [congruence|].
    assert (ha : admin (q_keys q') = true) by (unfold admin; rewrite g5; reflexivity). split; [exact ha|].
    split; [intros p; destruct (C94_signing_keys G B q' p hG hs hB hd') as (-> & _); rewrite ha; reflexivity|]. split; [exact g2|].
    rewrite hl in g1. injection g1 as <-. rewrite e. split; [reflexivity|]. cbn [ko_pk]. congruence.
  - intros hng. destruct hd0 as [hd0|[o hl]]; [unfold group_admin; rewrite hna, hd0; reflexivity|]. exfalso. apply hng. revert hl. unfold load_admin_key. rewrite hna.
    destruct (Nat.eqb_spec (length secret) 64) as [e1|e1]; [|destruct (Nat.eqb_spec (length secret) 32) as [e2|e2]]; cbn [orb negb]; try discriminate; cbv zeta;
      destruct (eqb (ko_pk (q_keys q)) _) eqn:e; cbn [negb]; try discriminate; apply eqb_eq in e; intros _; (split; [auto|congruence]).
Qed.
Print Assumptions C94_promotion.

(** ** opening *)
Lemma read_keys_len l : forall prev ks, read_keys prev l = Ok ks -> forall k, In k ks -> length (k_key k) = 32.
Proof.
  induction l as [|v l IH]; intros prev ks h k hk; cbn [read_keys] in h; [injection h as <-; destruct hk|].
  destruct (read_key v) as [x| | | |] eqn:ev; try discriminate. cbn [bind] in h. destruct (match prev with Some _ => _ | None => _ end) in h; [discriminate|].
  destruct (read_keys (Some x) l) as [ys| | | |] eqn:el; try discriminate. cbn [bind] in h. injection h as <-. destruct hk as [<-|hk]; [|exact (IH _ _ el k hk)].
  unfold read_key in ev. destruct v as [|z|li|d]; try discriminate. destruct (seek_int _ d) as [g| | | |]; try discriminate. cbn [bind] in ev.
  destruct (seek_str _ _) as [kk| | | |]; try discriminate. cbn [bind] in ev. destruct (Nat.eqb_spec (length (fst kk)) 32) as [e|]; [|discriminate]. cbn [negb] in ev.
  destruct (seek_int _ _) as [t| | | |]; try discriminate. cbn [bind] in ev. destruct (ts_ok _); [|discriminate]. cbn [negb] in ev. injection ev as <-. exact e.
Qed.
Lemma load_dump_len d o o' : load_dump d o = Ok o' -> forall k, In k (group_keys o') -> length k = 32.
Proof.
  unfold load_dump. destruct d as [|x s0]; [discriminate|]. destruct x as [[|] [|] [|] [|] [|] [|] [|] [|]]; try discriminate. cbn match.
  destruct (require _ s0 take_list) as [al| | | |]; try discriminate. cbn [bind]. destruct (read_active _ _) as [act| | | |]; try discriminate. cbn [bind].
  destruct (require _ _ _) as [kl| | | |]; try discriminate. cbn [bind]. destruct (read_keys _ _) as [ks| | | |] eqn:ek; try discriminate. cbn [bind].
  assert (hk : forall k, In k (map k_key (rev ks)) -> length k = 32).
  { intros k hk. apply in_map_iff in hk as (x & <- & hx). apply in_rev in hx. exact (read_keys_len _ _ _ ek x hx). }
  destruct (find_key _ _) as [p| | | |]; try discriminate. cbn [bind]. destruct (fst p).
  - destruct (consume (snd p)) as [[[vs v] w]| | | |]; try discriminate. destruct v as [|z|li|pd]; try discriminate. destruct (seek_str _ pd) as [c| | | |]; try discriminate. cbn [bind].
    destruct (seek_int _ _) as [g| | | |]; try discriminate. cbn [bind]. destruct (seek_str _ _) as [kk| | | |]; try discriminate. cbn [bind].
    destruct (Nat.eqb_spec (length (fst kk)) 32) as [e|]; [|discriminate]. cbn [negb]. intros [= <-] k h. unfold group_keys in h. cbn [ko_pconf ko_pkey ko_keys] in h. apply in_app_iff in h as [h|h]; [|auto].
    destruct (is_nil (fst c)); [destruct h|]. destruct h as [<-|[]]. exact e.
  - intros [= <-] k h. unfold group_keys in h. cbn [ko_pconf ko_keys is_nil app] in h. auto.
Qed.
(** Opening a Keys object, with anything as its dump, gives an object or leaves the configs as they were; with one, the configs have its keys
    and are otherwise as they were. *)
Theorem C94_open G E user pk sk d c : (forall p, NoDup (s_keys (c p))) -> match keys_open G E user pk sk d c with
  | (Ok o, c') => forall p, s_data (c' p) = s_data (c p) /\ s_seqno (c' p) = s_seqno (c p) /\ s_state (c' p) = s_state (c p) /\ (d <> None -> s_keys (c' p) = nub (group_keys o))
  | (_, c') => c' = c
  end.
Proof.
  intros hnd. unfold keys_open. destruct (negb _); [reflexivity|]. destruct (negb _); [reflexivity|]. destruct (match sk with Some _ => _ | None => _ end); [reflexivity|].
  destruct (init_sig_keys _ _ _) as [s| | | |]; try reflexivity. destruct d as [d|]; [|intros p; repeat (split; [reflexivity|]); congruence].
  destruct (load_dump d _) as [o| | | |] eqn:el; try reflexivity. destruct (hand_out_total E (group_keys o) c (load_dump_len _ _ _ el)) as [c' hh]. rewrite hh. intros p.
  pose proof (hand_out_ok _ _ _ _ _ hh p) as hp. destruct (replace_ok _ _ _ _ _ hp) as [ks' h']. cbn [andb] in h'. pose proof (key_op_keys (E p) (OpReplaceKeys (group_keys o) false) (c p) (Ok tt) (c' p) eq_refl (load_dump_len _ _ _ el) (hnd p) hp) as hks. cbn [keys_after] in hks. rewrite h' in *. unfold s_data, s_seqno, s_msg. cbn [s_conf s_state set_keys]. auto.
Qed.
Print Assumptions C94_open.

(** ** an example *)
Definition cls (p : part) : benv := tb.
Definition team_0 : gobjs := Eval vm_compute in get_ok (mkObjs Properties_keys.adm (fun _ => no_sigs) (fun _ => start tb)) (group_open toy_g cls Properties_keys.user_a Properties_keys.gpk (Some Properties_keys.gsk) None None None).
Definition new_0 : gobjs := Eval vm_compute in get_ok (mkObjs Properties_keys.adm (fun _ => no_sigs) (fun _ => start tb)) (group_open toy_g cls Properties_keys.user_m Properties_keys.gpk None None None None).
Definition add_joe : op := OpAssign [b "m"; get_ok [] (session_id_to_bytes (sid_of Properties_keys.pk_m) (b "05"))] (b "n") (VScal (SStr (b "Joe"))).
Definition team_1 : gobjs := Eval vm_compute in snd (group_conf toy_g cls Members add_joe team_0).
Definition rekeyed : bytes * gobjs := Eval vm_compute in match group_rekey toy_g cls team_1 with (Ok m, q) => (m, q) | _ => ([], team_1) end.
Definition team_push : bytes := Eval vm_compute in match push (part_env toy_g cls (snd rekeyed) Members) (q_conf (snd rekeyed) Members) with (Ok (_, c, _), _) => c | _ => [] end.
Lemma team_setting : setting toy_g cls cls.
Proof.
  split; [exact toy_g_ok| |intros p; exact toy_aead_ok|intros p; split; [apply toy_hash32|cbn; lia]|intros p; split; [apply toy_hash32|cbn; lia]|].
  - intros seed h. apply (toy_pair seed h).
  - intros p. repeat split.
Qed.
Lemma team_0_ok : device3 toy_g cls team_0.
Proof. apply (d3_open _ _ Properties_keys.user_a Properties_keys.gpk (Some Properties_keys.gsk)); [apply (toy_pair Properties_keys.seed_g); reflexivity|vm_compute; reflexivity]. Qed.
Lemma new_0_ok : device3 toy_g cls new_0.
Proof. apply (d3_open _ _ Properties_keys.user_m Properties_keys.gpk None); [exact Logic.I|vm_compute; reflexivity]. Qed.
Lemma team_1_ok : device3 toy_g cls team_1.
Proof. apply (d3_conf _ _ Members add_joe (Ok tt) team_0); [exact team_0_ok|reflexivity|vm_compute; reflexivity|split; discriminate|]. split; [reflexivity|vm_compute; reflexivity]. Qed.
Example ex_C94 : device3 toy_g cls team_1 /\ device3 toy_g cls new_0 /\ group_rekey toy_g cls team_1 = (Ok (fst rekeyed), snd rekeyed) /\
  exists r1 r', group_load toy_g cls (b "h") (fst rekeyed) 5 new_0 = (Ok true, r1) /\ merge (part_env toy_g cls r1 Members) [(b "g", team_push)] (q_conf r1 Members) = (Ok [b "g"], r') /\
    members_get r' (sid_of Properties_keys.pk_m) = members_get (q_conf team_1 Members) (sid_of Properties_keys.pk_m) /\ members_get r' (sid_of Properties_keys.pk_m) <> Ok None.
Proof.
  split; [exact team_1_ok|]. split; [exact new_0_ok|]. split; [vm_compute; reflexivity|].
  assert (hrk : group_rekey toy_g cls team_1 = (Ok (fst rekeyed), snd rekeyed)) by (vm_compute; reflexivity).
  assert (hm : exists mb, members_get (q_conf team_1 Members) (sid_of Properties_keys.pk_m) = Ok (Some mb)) by (eexists; vm_compute; reflexivity). destruct hm as [mb hm].
  assert (hp : exists n old st', push (part_env toy_g cls (snd rekeyed) Members) (q_conf (snd rekeyed) Members) = (Ok (n, team_push, old), st') /\ n = 1%Z) by (do 3 eexists; split; [vm_compute; reflexivity|reflexivity]).
  destruct hp as (n & old & st' & hp & hn). subst n.
  destruct (C94_rekey_reaches_members toy_g cls cls team_1 (fst rekeyed) (snd rekeyed) (snd rekeyed) new_0 Properties_keys.pk_m mb (b "h") 5 Members 1 team_push old st' (b "g") team_setting toy_binding team_1_ok new_0_ok hrk (us_none _ _ _) hm)
    as (r1 & r' & h1 & h2 & h3 & _).
  - intros sk xpk g1 g2. apply Properties_keys.member_of_adm; assumption.
  - apply Z.leb_le. vm_compute. reflexivity.
  - intros y [].
  - reflexivity.
  - vm_compute. reflexivity.
  - exact hp.
  - apply Z.ltb_lt. vm_compute. reflexivity.
  - apply Z.ltb_lt. vm_compute. reflexivity.
  - intros s c s0 c0 e1 e2. vm_compute in e1, e2. injection e1 as <- _. injection e2 as <- _. intros x y hx hy. destruct hx as [<-|[<-|[]]], hy as [<-|[<-|[]]]; try (intros; reflexivity); intros h; vm_compute in h; discriminate h.
  - exists r1, r'. split; [exact h1|]. split; [exact h2|]. assert (e : members_get r' (sid_of Properties_keys.pk_m) = members_get (q_conf team_1 Members) (sid_of Properties_keys.pk_m)).
    { unfold members_get. rewrite h3. vm_compute. reflexivity. }
    split; [exact e|]. rewrite e, hm. discriminate.
Qed.
Definition team_2 : gobjs := Eval vm_compute in snd (group_load toy_g cls (b "h") (fst rekeyed) 5 (snd rekeyed)).
Definition invite : bytes := Eval vm_compute in get_ok [] (group_supplement toy_g [sid_of Properties_keys.pk_m] team_2).
Lemma team_2_ok : device3 toy_g cls team_2.
Proof.
  apply (d3_load _ _ (b "h") (fst rekeyed) 5 true (snd rekeyed)); [|vm_compute; reflexivity]. apply (d3_rekey _ _ (fst rekeyed) team_1); [exact team_1_ok|vm_compute; reflexivity].
Qed.
Example ex_C94_invited : device3 toy_g cls team_2 /\ ko_pconf (q_keys team_2) = [] /\ in_step (fun k => In k (ko_keys (q_keys team_2))) /\ needs_push (q_conf team_2 Members) = true /\
  exists r1 r', group_load toy_g cls (b "i") invite 9 new_0 = (Ok true, r1) /\ merge (part_env toy_g cls r1 Members) [(b "g", team_push)] (q_conf r1 Members) = (Ok [b "g"], r') /\ members_get r' (sid_of Properties_keys.pk_m) <> Ok None.
Proof.
  split; [exact team_2_ok|]. split; [reflexivity|]. split; [|split; [reflexivity|]].
  - intros x y hx hy hlt. cbn in hx, hy. destruct hx as [<-|[]], hy as [<-|[]]. cbn in hlt. lia.
  - assert (hsup : group_supplement toy_g [sid_of Properties_keys.pk_m] team_2 = Ok invite) by (vm_compute; reflexivity).
    assert (hp : exists n old st', push (part_env toy_g cls team_2 Members) (q_conf team_2 Members) = (Ok (n, team_push, old), st') /\ n = 1%Z) by (do 3 eexists; split; [vm_compute; reflexivity|reflexivity]).
    destruct hp as (n & old & st' & hp & hn). subst n.
    destruct (C94_invited toy_g cls cls team_2 team_2 [sid_of Properties_keys.pk_m] invite new_0 Properties_keys.pk_m (b "i") 9 Members 1 team_push old st' (b "g") team_setting toy_binding team_2_ok (us_none _ _ _) new_0_ok)
      as (r1 & r' & h1 & h2 & h3 & _).
    + reflexivity.
    + exact hp.
    + reflexivity.
    + intros x y hx hy hlt. cbn in hx, hy. destruct hx as [<-|[]], hy as [<-|[]]. cbn in hlt. lia.
    + exact hsup.
    + left. reflexivity.
    + vm_compute. discriminate.
    + intros sk xpk g1 g2. destruct (Properties_keys.member_of_adm sk xpk) as [[m1 m2 m3 m4] _]; [exact g1|exact g2|]. split; assumption.
    + reflexivity.
    + reflexivity.
    + apply Z.ltb_lt. vm_compute. reflexivity.
    + apply Z.ltb_lt. vm_compute. reflexivity.
    + intros s c s0 c0 e1 e2. vm_compute in e1, e2. injection e1 as <- _. injection e2 as <- _. intros x y hx hy. destruct hx as [<-|[<-|[]]], hy as [<-|[<-|[]]]; try (intros; reflexivity); intros h; vm_compute in h; discriminate h.
    + exists r1, r'. split; [exact h1|]. split; [exact h2|]. unfold members_get. rewrite h3. vm_compute. discriminate.
Qed.
Example ex_C94_promoted : admin (q_keys new_0) = false /\ g_edpk toy_g (firstn 32 Properties_keys.gsk) = ko_pk (q_keys new_0) /\ fst (group_admin toy_g Properties_keys.gsk new_0) = Ok tt /\ group_admin toy_g Properties_keys.user_a new_0 = (Throw, new_0).
Proof. repeat split; vm_compute; reflexivity. Qed.

(** ** the C constructor *)
(** groups_keys_init returns 0 and the object, or 1, the message of the exception (at most 255 characters) in the caller's buffer, and configs that
    are as they were. *)
Theorem C94_c_init G E user pk sk p len what err c : 64 <= length user -> 32 <= length pk -> match sk with None => True | Some m => 64 <= length m end -> c_dump_ok p len -> err_ok err ->
  let r := keys_open G E (firstn 64 user) (firstn 32 pk) (option_map (firstn 64) sk) (c_dump p len) c in
  c_result (fst r) what err (fst (c_keys_init G E user pk sk p len what err c)) /\ snd (c_keys_init G E user pk sk p len what err c) = snd r.
Proof.
  intros h1 h2 h3 h4 h5. cbv zeta. unfold c_keys_init. rewrite (view_ok 64 user h1). cbn [bind]. rewrite (view_ok 32 pk h2). cbn [bind].
  destruct sk as [m|]; [rewrite (view_ok 64 m h3)|]; cbn [bind option_map]; rewrite (c_bytes_ok p len h4); cbn [bind]; destruct (keys_open _ _ _ _ _ _ _) as [y c']; cbn [fst snd]; (split; [exact (c_make_result _ what err h5)|reflexivity]).
Qed.
Print Assumptions C94_c_init.
