(** Proofs of C106: what a device which is left out makes of configs. *)
From Verif Require Import Left2Spec Bt_facts Dump_facts Crypt_facts KeyList_facts Base_facts Life_facts Life2_facts Conf2_facts Keys_facts Keys2_facts Keys3_facts Keys4_facts Keys5_facts GroupObj_facts Left_facts.

(** pushed with another key: not decrypted *)
Lemma pushed_closed B k c keys : aead_ok (b_aead B) -> (forall k', In k' keys -> length k' = 32) -> sealed_off (b_aead B) (b_domain B) keys k ->
  pushed_with B k c -> decrypt_any B keys c = Ok None.
Proof.
  intros hA hl hs (A & st & n & old & st' & ea & ed & ep & hk & hp).
  apply push_spec in hp as [[hp _]|(k0 & s & conf & c0 & st2 & (r & hk0) & _ & he & h)]; [destruct (hp _ eq_refl)|]. cbv zeta in h. destruct h as (_ & _ & hx & _).
  rewrite hk0 in hk. cbn [hd_error] in hk. injection hk as ->. rewrite ep in hx. assert (hc : c = c0) by congruence. clear hx. subst c0. rewrite ea, ed in he.
  set (t := pad_message _ _) in he. unfold encrypt in he. destruct (make_encrypt_key _ _ _ _) as [key| | | |] eqn:ek; try discriminate he. cbn [bind] in he. injection he as <-.
  unfold make_encrypt_key in ek. destruct (negb (Nat.eqb (length k) 32)); [discriminate|]. destruct (Nat.ltb (length (b_domain B)) 1 || Nat.ltb 24 (length (b_domain B))) eqn:hd; [discriminate|]. injection ek as <-.
  set (nn := a_nonce _ _ _). assert (hn : length nn = 24) by apply (ao_nonce _ hA). change (a_hash32 (b_aead B) (kdf_input k (N.of_nat (length t)) (b_domain B))) with (config_key (b_aead B) k (length t) (b_domain B)).
  set (sealed := a_seal _ _ _ _). assert (hsl : length sealed = length t + 16) by apply (ao_len _ hA).
  induction keys as [|k' ks IH]; [reflexivity|]. cbn [decrypt_any].
  assert (e : decrypt (b_aead B) (sealed ++ nn) k' (b_domain B) = Err).
  { unfold decrypt. rewrite app_length, hsl, hn. change (ABYTES + NPUBBYTES) with 40. change NPUBBYTES with 24. change ABYTES with 16.
    replace (Nat.ltb (length t + 16 + 24) 40) with false by lia. cbv zeta. replace (length t + 16 + 24 - 16 - 24) with (length t) by lia. replace (length t + 16 + 24 - 24) with (length sealed) by lia.
    unfold make_encrypt_key. rewrite (hl k' (or_introl eq_refl)). cbn [negb Nat.eqb]. rewrite hd. cbn [bind].
    rewrite skipn_app, skipn_all, Nat.sub_diag, firstn_app, firstn_all, Nat.sub_diag. cbn [app skipn firstn]. rewrite app_nil_r.
    change (a_hash32 (b_aead B) (kdf_input k' (N.of_nat (length t)) (b_domain B))) with (config_key (b_aead B) k' (length t) (b_domain B)).
    unfold sealed. rewrite (hs k' nn t (or_introl eq_refl)). reflexivity. }
  rewrite e. apply IH; [intros x hx; apply hl; right; exact hx|intros x n0 t0 hx; apply hs; right; exact hx].
Qed.
Lemma incoming_drop B keys h c l1 l2 : decrypt_any B keys c = Ok None -> incoming B keys (l1 ++ (h, c) :: l2) = incoming B keys (l1 ++ l2).
Proof.
  intros hd. induction l1 as [|[h1 c1] l1 IH]; cbn [app incoming].
  - rewrite hd. cbn [bind]. destruct (incoming B keys l2); reflexivity.
  - rewrite IH. reflexivity.
Qed.
Lemma merge_drop B st h c l1 l2 : b_proto B = false -> decrypt_any B (s_keys st) c = Ok None -> merge B (l1 ++ (h, c) :: l2) st = merge B (l1 ++ l2) st.
Proof.
  intros hp hd. assert (e : forall l, map (unwrap1 B st) l = l).
  { intros l. rewrite <- (map_id l) at 2. apply map_ext. intros p. unfold unwrap1. rewrite hp. destruct (s_keys st); reflexivity. }
  unfold merge. rewrite !e. unfold merge_plain. rewrite (incoming_drop _ _ _ _ _ _ hd). reflexivity.
Qed.
(** key messages for others *)
Lemma receive3_nothing G B q upk kp m : lib_ok G -> shared_key G upk (q_keys q) kp -> ko_sk (q_keys q) = None -> sent_without G (q_keys q) upk kp m ->
  q_conf (receive3 G B q m) = q_conf q /\ q_sigs (receive3 G B q m) = q_sigs q /\ q_keys (receive3 G B q m) = receive G (q_keys q) m.
Proof.
  intros hG hk hs hm. destruct m as [[h m] ts]. unfold receive3, receive, group_load. cbn [fst snd]. destruct (load_key_message G h m ts (q_keys q)) as [[[] o']| | | |] eqn:E; try (auto; fail).
  apply load_inv in E as (ks & gen & s & sig & h1 & h2 & h3 & h4). apply (sent_nothing G _ upk kp m ts h ks gen s hG hk hs hm) in h1. subst ks. discriminate h4.
Qed.
Lemma receive3_all_nothing G B upk kp ms : lib_ok G -> forall q, shared_key G upk (q_keys q) kp -> ko_sk (q_keys q) = None -> Forall (sent_without G (q_keys q) upk kp) ms ->
  q_conf (receive3_all G B ms q) = q_conf q /\ q_sigs (receive3_all G B ms q) = q_sigs q /\ q_keys (receive3_all G B ms q) = receive_all G ms (q_keys q).
Proof.
  intros hG. induction ms as [|m ms IH]; intros q hk hs hf; [auto|]. inversion hf as [|? ? h1 h2]; subst.
  change (receive3_all G B (m :: ms) q) with (receive3_all G B ms (receive3 G B q m)). change (receive_all G (m :: ms) (q_keys q)) with (receive_all G ms (receive G (q_keys q) m)).
  pose proof (receive_nothing G _ upk kp m hG hk hs h1) as hn. destruct (receive3_nothing G B q upk kp m hG hk hs h1) as (a1 & a2 & a3).
  destruct (IH (receive3 G B q m)) as (b1 & b2 & b3).
  - rewrite a3. destruct hk as (x & secret & k1 & k2 & k3 & k4). exists x, secret. unfold user_pk in *. rewrite (nm_user _ _ hn), (nm_pk _ _ hn). auto.
  - rewrite a3, (nm_sk _ _ hn). exact hs.
  - rewrite a3. eapply Forall_impl; [|exact h2]. intros x hx. exact (sent_keep _ _ _ _ _ _ hn hx).
  - rewrite b1, b2, b3, a1, a2, a3. auto.
Qed.
