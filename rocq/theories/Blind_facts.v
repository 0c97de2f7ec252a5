From Verif Require Import SessSpec Blind Ed_facts SessEnc_facts Hex_facts PrimeL.
From Coq Require Import ZArith Znumtheory Lia ZifyBool ZifyN ZifyNat.
Open Scope nat_scope.

Lemma mul_same0 m n : same (m * n) 0 -> same m 0 \/ same n 0.
Proof.
  unfold same. rewrite !Z.mod_0_l by (pose proof L_pos; lia). intros h. apply Z.mod_divide in h; [|pose proof L_pos; lia].
  apply (prime_mult L prime_L) in h as [h|h]; [left|right]; (apply Z.mod_divide in h; [exact h|pose proof L_pos; lia]).
Qed.
Lemma mul_nz m n : ~ same m 0 -> ~ same n 0 -> ~ same (m * n) 0.
Proof. intros hm hn h. apply mul_same0 in h as [h|h]; contradiction. Qed.
Lemma mul_cancel k m n : ~ same k 0 -> same (k * m) (k * n) -> same m n.
Proof.
  intros hk h. assert (h0 : same (k * (m - n)) 0).
  { rewrite Z.mul_sub_distr_l. apply same_trans with (k * n - k * n)%Z; [apply same_sub; [exact h|apply same_refl]|]. rewrite Z.sub_diag. apply same_refl. }
  apply mul_same0 in h0 as [h0|h0]; [contradiction|]. apply same_trans with (m - n + n)%Z; [replace (m - n + n)%Z with m by lia; apply same_refl|].
  apply same_trans with (0 + n)%Z; [apply same_add; [exact h0|apply same_refl]|apply same_refl].
Qed.
Lemma opp_nz m : ~ same m 0 -> ~ same (- m) 0. Proof. intros h h'. apply h, opp_same0. exact h'. Qed.

(** sign bits *)
Lemma testbit_div n : (n < 256)%N -> N.testbit n 7 = (128 <=? n)%N.
Proof.
  intros h. assert (all : forall k, k < 256 -> N.testbit (N.of_nat k) 7 = (128 <=? N.of_nat k)%N).
  { intros k hk. assert (hf : forallb (fun k => Bool.eqb (N.testbit (N.of_nat k) 7) (128 <=? N.of_nat k)%N) (seq 0 256) = true) by (vm_compute; reflexivity).
    rewrite forallb_forall in hf. apply Bool.eqb_prop. apply hf. apply in_seq. lia. }
  specialize (all (N.to_nat n)). rewrite N2Nat.id in all. apply all. lia.
Qed.
Lemma nth_snoc (p : bytes) c d : nth (length p) (p ++ [c]) d = c.
Proof. rewrite app_nth2 by lia. rewrite Nat.sub_diag. reflexivity. Qed.
Lemma clear_is (s : bytes) : length s = 32 -> clear_sign s = if neg_bit s then flip_sign s else s.
Proof.
  intros h. destruct (skipn31 s h) as (p & c & -> & hp). unfold neg_bit. rewrite <- hp at 1. rewrite nth_snoc. rewrite clear_snoc, flip_snoc by exact hp.
  pose proof (N_ascii_bounded c) as hc. rewrite testbit_div by exact hc. destruct (128 <=? N_of_ascii c)%N eqn:e.
  - do 2 f_equal. f_equal. assert (N_of_ascii c mod 128 = N_of_ascii c - 128)%N by (symmetry; apply N.mod_unique with 1%N; lia). assert ((N_of_ascii c + 128) mod 256 = N_of_ascii c - 128)%N by (symmetry; apply N.mod_unique with 1%N; lia). congruence.
  - do 2 f_equal. rewrite N.mod_small by lia. apply ascii_N_embedding.
Qed.
Lemma flip_last_cons c (s : bytes) : length s = 32 -> flip_last (c :: s) = c :: flip_sign s.
Proof. intros h. unfold flip_last. cbn [length]. rewrite h. reflexivity. Qed.

Section facts.
  Context (E : ecrypt) (H : ec_ok E).

  (** the logarithm of the account's positive public key *)
  Definition alog (seed : bytes) : Z := le (ed_scalar E seed).
  Definition plog (seed : bytes) : Z := if neg_bit (ed_pub E seed) then (- alog seed)%Z else alog seed.
  Lemma alog_nz seed : ~ same (alog seed) 0. Proof. apply scalar_nz. Qed.
  Lemma plog_nz seed : ~ same (plog seed) 0. Proof. unfold plog. destruct (neg_bit _); [apply opp_nz|]; apply alog_nz. Qed.
  Lemma clear_log m : ~ same m 0 -> clear_sign (ec_pt E m) = ec_pt E (if neg_bit (ec_pt E m) then - m else m)%Z.
  Proof. intros h. rewrite (clear_is _ (eo_pt_len E H m)). destruct (neg_bit _); [|reflexivity]. symmetry. apply (eo_flip E H). exact h. Qed.
  Lemma clear_pub seed : clear_sign (ed_pub E seed) = ec_pt E (plog seed).
  Proof. apply (clear_log (alog seed)). apply alog_nz. Qed.
  Lemma x_of_is seed : x_of E seed = ec_x E (alog seed).
  Proof. unfold x_of, x_base. rewrite clamp_scalar. reflexivity. Qed.
  Lemma xed_x seed : ec_xed E (x_of E seed) = ec_pt E (plog seed).
  Proof. rewrite x_of_is. rewrite (eo_xed E H) by apply alog_nz. apply clear_pub. Qed.
  Lemma x_of_length seed : length (x_of E seed) = 32. Proof. apply (x_base_length E H). Qed.
  Lemma plog_cases seed : plog seed = alog seed \/ plog seed = (- alog seed)%Z.
  Proof. unfold plog. destruct (neg_bit _); auto. Qed.

  Lemma dh_base s t : exists k, ec_dh E s (x_base E t) = Some k.
  Proof.
    unfold x_base. rewrite (eo_dh E H). assert (h : ~ same (clamp (le s) * clamp (le t)) 0) by (apply mul_nz; apply clamp_nz). rewrite (proj1 (same0_false _) h). eauto.
  Qed.
  Lemma seal_some esk t m : exists c, seal_box E esk (x_base E t) m = Some c.
  Proof. unfold seal_box. destruct (dh_base esk t) as (k & ->). eauto. Qed.
  Lemma encrypt_some from sk to pk m esk : account E from sk -> addresses E to pk ->
    exists c, (s <- sign_for_recipient E sk pk m ;; y <- strip05 pk ;; of_opt (seal_box E (esk y) y s) Throw) = Ok c.
  Proof.
    intros h ha. unfold sign_for_recipient. rewrite (full_sk_account E H from sk h), (strip05_addr E H to pk ha). cbn [bind]. cbv zeta. 
    match goal with |- context [seal_box E ?e (x_of E to) ?m] => destruct (seal_some e (ed_scalar E to) m) as (c & hc) end. fold (x_of E to) in hc. rewrite hc. exists c. reflexivity.
  Qed.

  (** reduced scalars *)
  Lemma reduce_255 h : (le (sc_reduce h) mod 2 ^ 255 = le (sc_reduce h))%Z.
  Proof. rewrite le_reduce. apply Z.mod_small. pose proof (mod_L_range (le h)). pose proof L_small. lia. Qed.
  Lemma mul_reduced h m : ~ same (le (sc_reduce h)) 0 -> ~ same m 0 -> mul_noclamp E (sc_reduce h) (ec_pt E m) = Some (ec_pt E (le (sc_reduce h) * m)).
  Proof.
    intros hk hm. rewrite (mul_pt E H), reduce_255. rewrite (proj1 (same0_false m) hm). assert (h0 := mul_nz _ _ hk hm). rewrite (proj1 (same0_false _) h0). reflexivity.
  Qed.
  Lemma base_mul x y : base_noclamp E (sc_mul x y) = ec_pt E (le x * le y).
  Proof. unfold base_noclamp, sc_mul. rewrite le_modL255. apply (pt_same E H), same_mod. Qed.
  Lemma le_sc_mul x y : same (le (sc_mul x y)) (le x * le y). Proof. rewrite le_mul. apply same_mod. Qed.
  Lemma le_sc_neg x : same (le (sc_neg x)) (- le x). Proof. rewrite le_neg. apply same_mod. Qed.

  (** Schnorr signatures made by schnorr_sign *)
  Lemma schnorr_sign_ok A a r m : A = ec_pt E (le a) -> ~ same (le a) 0 -> (le r < L)%Z -> ~ same (le r) 0 -> ed_verify E (schnorr_sign E A a r m) m A = true.
  Proof.
    intros -> ha hrL hr. unfold schnorr_sign. cbv zeta. assert (hb : base_noclamp E r = ec_pt E (le r)).
    { unfold base_noclamp. rewrite Z.mod_small; [reflexivity|]. pose proof (le_range r). pose proof L_small. lia. }
    rewrite hb. apply (schnorr E H); [exact ha|exact hr|]. unfold sc_add. f_equal. rewrite le_mul. pose proof (mod_L_range (le (hram E (ec_pt E (le r)) (ec_pt E (le a)) m) * le a)) as h1.
    pose proof (le_range r). pose proof L_range. pose proof (eq_refl : (2 ^ 256 = 8 * 2 ^ 253)%Z). rewrite (Z.mod_small _ (2 ^ 256)) by lia.
    apply (same_add _ (le (hram E (ec_pt E (le r)) (ec_pt E (le a)) m) * le a) (le r) (le r)); [apply same_mod|apply same_refl].
  Qed.
  Lemma reduce_lt h : (le (sc_reduce h) < L)%Z. Proof. rewrite le_reduce. apply mod_L_range. Qed.
  Lemma schnorr_length A a r m : length (schnorr_sign E A a r m) = 64.
  Proof. unfold schnorr_sign. cbv zeta. rewrite app_length. unfold base_noclamp, sc_add. rewrite (eo_pt_len E H), to_le_length. reflexivity. Qed.

  (** ** blinded ids of an account *)
  Definition k15 (server : bytes) : Z := le (blind15_factor E server).
  Definition k25 (seed server : bytes) : Z := le (blind25_factor E (x_of E seed) server).
  Definition id15 (seed server : bytes) : bytes := byte 21 :: ec_pt E (k15 server * alog seed).
  Definition id25 (seed server : bytes) : bytes := byte 37 :: ec_pt E (k25 seed server * plog seed).
  Lemma factor25_33 seed server : blind25_factor E (byte 5 :: x_of E seed) server = blind25_factor E (x_of E seed) server.
  Proof. unfold blind25_factor. cbn [length]. rewrite x_of_length. reflexivity. Qed.
  Lemma pub_length seed : length (ed_pub E seed) = 32. Proof. apply (ed_pub_length E H). Qed.

  Lemma key_pair15 seed sk server : account E seed sk -> length server = 32 ->
    blind15_key_pair E sk server = Ok (ec_pt E (k15 server * alog seed), sc_mul (blind15_factor E server) (ed_scalar E seed), blind15_factor E server).
  Proof.
    intros h hs. unfold blind15_key_pair. rewrite (full_sk_account E H seed sk h). cbn [bind]. rewrite hs. cbn [Nat.eqb negb]. cbv zeta. rewrite (scalar_account E seed _ (account_full E seed sk h)), base_mul. reflexivity.
  Qed.
  Definition f25 (seed server : bytes) : bytes := let k := blind25_factor E (x_of E seed) server in if neg_bit (ed_pub E seed) then sc_neg k else k.
  Lemma f25_log seed server : same (le (f25 seed server) * alog seed) (k25 seed server * plog seed).
  Proof.
    unfold f25, plog, k25. cbv zeta. destruct (neg_bit _); [|apply same_refl].
    apply same_trans with (- le (blind25_factor E (x_of E seed) server) * alog seed)%Z; [apply same_mul; [apply le_sc_neg|apply same_refl]|]. replace (- le (blind25_factor E (x_of E seed) server) * alog seed)%Z with (le (blind25_factor E (x_of E seed) server) * - alog seed)%Z by lia. apply same_refl.
  Qed.
  Lemma key_pair25 seed sk server : account E seed sk -> length server = 32 ->
    blind25_key_pair E sk server = Ok (ec_pt E (k25 seed server * plog seed), sc_mul (f25 seed server) (ed_scalar E seed), f25 seed server).
  Proof.
    intros h hs. unfold blind25_key_pair. rewrite (full_sk_account E H seed sk h). cbn [bind]. rewrite hs. cbn [Nat.eqb negb]. rewrite (pk_account E seed (proj1 h)), (ed_pub_x E H). cbn [of_opt bind]. cbv zeta.
    rewrite (scalar_account E seed _ (account_full E seed sk h)). fold (x_of E seed). fold (f25 seed server). rewrite base_mul. change (le (ed_scalar E seed)) with (alog seed). rewrite (pt_same E H _ _ (f25_log seed server)). reflexivity.
  Qed.
  Lemma k15_nz_mul server m : ~ same (k15 server) 0 -> ~ same m 0 -> mul_noclamp E (blind15_factor E server) (ec_pt E m) = Some (ec_pt E (k15 server * m)).
  Proof. apply mul_reduced. Qed.
  Lemma k25_nz_mul seed server m : ~ same (k25 seed server) 0 -> ~ same m 0 -> mul_noclamp E (blind25_factor E (x_of E seed) server) (ec_pt E m) = Some (ec_pt E (k25 seed server * m)).
  Proof. apply mul_reduced. Qed.
  Lemma from_ed15 seed server want : length server = 32 -> ~ same (k15 server) 0 ->
    blinded15_from_ed E (ed_pub E seed) server want = Ok (id15 seed server, if want then byte 5 :: x_of E seed else []).
  Proof.
    intros hs hk. unfold blinded15_from_ed. rewrite pub_length, hs. cbn [Nat.eqb negb orb]. 
    assert (e : (if want then x <- of_opt (pk_to_x E (ed_pub E seed)) Throw ;; Ok (byte 5 :: x) else Ok []) = Ok (if want then byte 5 :: x_of E seed else [])).
    { destruct want; [rewrite (ed_pub_x E H)|]; reflexivity. }
    rewrite e. cbn [bind]. unfold ed_pub. fold (alog seed). rewrite k15_nz_mul by (try exact hk; apply alog_nz). reflexivity.
  Qed.
  Lemma from_ed25 seed server given : length server = 32 -> ~ same (k25 seed server) 0 -> given = [] \/ given = byte 5 :: x_of E seed ->
    blinded25_from_ed E (ed_pub E seed) server given = Ok (id25 seed server, byte 5 :: x_of E seed).
  Proof.
    intros hs hk hg. unfold blinded25_from_ed. rewrite pub_length, hs. cbn [Nat.eqb negb orb].
    destruct hg as [-> | ->].
    - cbn [length Nat.eqb negb andb]. rewrite (ed_pub_x E H). cbn [of_opt bind]. fold (x_of E seed). rewrite factor25_33, clear_pub, k25_nz_mul by (try exact hk; apply plog_nz). reflexivity.
    - cbn [length]. rewrite x_of_length. cbn [Nat.eqb negb andb bind]. rewrite factor25_33, clear_pub, k25_nz_mul by (try exact hk; apply plog_nz). reflexivity.
  Qed.
  Lemma impl15 seed server sid : ~ same (k15 server) 0 -> sid = x_of E seed \/ sid = byte 5 :: x_of E seed -> blind15_impl E sid server = Ok (byte 21 :: ec_pt E (k15 server * plog seed)).
  Proof.
    intros hk hs. assert (hd : drop_prefix sid = x_of E seed).
    { destruct hs as [-> | ->]; unfold drop_prefix; [rewrite x_of_length; reflexivity|]. cbn [length]. rewrite x_of_length. reflexivity. }
    unfold blind15_impl. rewrite hd, xed_x, k15_nz_mul by (try exact hk; apply plog_nz). reflexivity.
  Qed.
  Lemma impl25 seed server sid : ~ same (k25 seed server) 0 -> sid = x_of E seed \/ sid = byte 5 :: x_of E seed -> blind25_impl E sid server = Ok (id25 seed server).
  Proof.
    intros hk hs. assert (hd : drop_prefix sid = x_of E seed).
    { destruct hs as [-> | ->]; unfold drop_prefix; [rewrite x_of_length; reflexivity|]. cbn [length]. rewrite x_of_length. reflexivity. }
    assert (hf : blind25_factor E sid server = blind25_factor E (x_of E seed) server) by (destruct hs as [-> | ->]; [reflexivity|apply factor25_33]).
    unfold blind25_impl. rewrite hd, hf, xed_x, k25_nz_mul by (try exact hk; apply plog_nz). reflexivity.
  Qed.
  Lemma raw_ok seed server sid : length server = 32 -> sid = x_of E seed \/ sid = byte 5 :: x_of E seed -> raw_sid_ok sid server = true.
  Proof.
    intros hs [-> | ->]; unfold raw_sid_ok.
    - rewrite x_of_length, hs. reflexivity.
    - cbn [length]. rewrite x_of_length, hs. reflexivity.
  Qed.
  Lemma hex_args_account seed server : length server = 32 -> hex_args (session_id_of E seed) (to_hex server) = Some (byte 5 :: x_of E seed, server).
  Proof.
    intros hs. unfold hex_args. change (session_id_of E seed) with (sid_of (x_of E seed)). rewrite sid_of_ok by apply x_of_length. rewrite to_hex_length, hs. cbn [andb].
    change (Nat.eqb (2 * 32) 64) with true. cbn iota.
    assert (e : sid_of (x_of E seed) = to_hex (byte 5 :: x_of E seed)) by reflexivity. rewrite e, !from_to_hex. reflexivity.
  Qed.
  Lemma neg15 seed server : ~ same (k15 server) 0 -> ec_pt E (k15 server * - alog seed) = flip_sign (ec_pt E (k15 server * alog seed)).
  Proof. intros hk. replace (k15 server * - alog seed)%Z with (- (k15 server * alog seed))%Z by lia. apply (eo_flip E H). apply mul_nz; [exact hk|apply alog_nz]. Qed.
  (** the id computed from the session id is that of the key pair or its negation *)
  Lemma plog15 seed server : ~ same (k15 server) 0 ->
    (byte 21 :: ec_pt E (k15 server * plog seed) = id15 seed server /\ flip_last (byte 21 :: ec_pt E (k15 server * plog seed)) = flip_last (id15 seed server)) \/
    (byte 21 :: ec_pt E (k15 server * plog seed) = flip_last (id15 seed server) /\ flip_last (byte 21 :: ec_pt E (k15 server * plog seed)) = id15 seed server).
  Proof.
    intros hk. unfold id15. rewrite !flip_last_cons by apply (eo_pt_len E H). destruct (plog_cases seed) as [-> | ->]; [left; split; reflexivity|right].
    rewrite neg15 by exact hk. rewrite flip_flip by apply (eo_pt_len E H). split; reflexivity.
  Qed.
End facts.
