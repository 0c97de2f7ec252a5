(** Facts about scalars, encodings and Schnorr signatures. *)
From Verif Require Import EdSpec.
From Coq Require Import ZifyBool ZifyN ZifyNat Znumtheory.
Open Scope nat_scope.

Lemma ascii_range c : (0 <= Z.of_N (N_of_ascii c) < 256)%Z.
Proof. pose proof (N_ascii_bounded c). lia. Qed.
Lemma le_range s : (0 <= le s < 256 ^ Z.of_nat (length s))%Z.
Proof.
  induction s as [|c s IH]; [cbn; lia|]. cbn [le length]. rewrite Nat2Z.inj_succ, Z.pow_succ_r by lia. pose proof (ascii_range c). lia.
Qed.
Lemma to_le_length n z : length (to_le n z) = n.
Proof. revert z. induction n as [|n IH]; intros z; cbn [to_le length]; [reflexivity|]. rewrite IH. reflexivity. Qed.
Lemma byte_val z : Z.of_N (N_of_ascii (ascii_of_N (Z.to_N (z mod 256)))) = (z mod 256)%Z.
Proof. pose proof (Z.mod_pos_bound z 256 eq_refl). rewrite N_ascii_embedding by lia. lia. Qed.
Lemma le_to_le n z : le (to_le n z) = (z mod 256 ^ Z.of_nat n)%Z.
Proof.
  revert z. induction n as [|n IH]; intros z; [cbn [to_le le]; change (256 ^ Z.of_nat 0)%Z with 1%Z; rewrite Z.mod_1_r; reflexivity|].
  cbn [to_le le]. rewrite byte_val, IH, Nat2Z.inj_succ, Z.pow_succ_r by lia. rewrite (Z.rem_mul_r z 256 (256 ^ Z.of_nat n)) by lia. reflexivity.
Qed.
Lemma to_le_le s : to_le (length s) (le s) = s.
Proof.
  induction s as [|c s IH]; [reflexivity|]. cbn [length to_le le]. pose proof (ascii_range c) as hc.
  assert (e1 : ((Z.of_N (N_of_ascii c) + 256 * le s) mod 256 = Z.of_N (N_of_ascii c))%Z).
  { rewrite Z.mul_comm, Z.mod_add by lia. apply Z.mod_small. exact hc. }
  assert (e2 : ((Z.of_N (N_of_ascii c) + 256 * le s) / 256 = le s)%Z).
  { rewrite Z.mul_comm, Z.div_add by lia. rewrite Z.div_small by exact hc. lia. }
  rewrite e1, e2, IH, N2Z.id, ascii_N_embedding. reflexivity.
Qed.
Lemma le_inj s t : length s = length t -> le s = le t -> s = t.
Proof. intros hl he. rewrite <- (to_le_le s), <- (to_le_le t), hl, he. reflexivity. Qed.
Lemma pow256_32 : (256 ^ Z.of_nat 32 = 2 ^ 256)%Z. Proof. reflexivity. Qed.
Lemma L_range : (2 ^ 252 < L < 2 ^ 253)%Z. Proof. split; apply Z.ltb_lt; vm_compute; reflexivity. Qed.
Lemma L_pos : (0 < L)%Z. Proof. apply Z.ltb_lt; vm_compute; reflexivity. Qed.
Lemma L_small : (L < 2 ^ 255)%Z. Proof. apply Z.ltb_lt; vm_compute; reflexivity. Qed.
Lemma L_odd : (L mod 2 = 1)%Z. Proof. vm_compute. reflexivity. Qed.
Lemma p255_256 : (2 ^ 255 < 2 ^ 256)%Z. Proof. apply Z.ltb_lt; vm_compute; reflexivity. Qed.
#[global] Opaque L.
Lemma mod_L_range z : (0 <= z mod L < L)%Z. Proof. apply Z.mod_pos_bound, L_pos. Qed.
Lemma le_modL z : le (to_le 32 (z mod L)) = (z mod L)%Z.
Proof. rewrite le_to_le, pow256_32. apply Z.mod_small. pose proof (mod_L_range z). pose proof L_small. pose proof p255_256. lia. Qed.
Lemma le_modL255 z : (le (to_le 32 (z mod L)) mod 2 ^ 255 = z mod L)%Z.
Proof. rewrite le_modL. apply Z.mod_small. pose proof (mod_L_range z). pose proof L_small. lia. Qed.
Lemma le_reduce h : le (sc_reduce h) = (le h mod L)%Z. Proof. apply le_modL. Qed.
Lemma le_mul x y : le (sc_mul x y) = (le x * le y mod L)%Z. Proof. apply le_modL. Qed.
Lemma le_neg x : le (sc_neg x) = (- le x mod L)%Z. Proof. apply le_modL. Qed.
Lemma le_add x y : (le x < L)%Z -> (le y < L)%Z -> le (sc_add x y) = ((le x + le y) mod L)%Z.
Proof.
  intros hx hy. unfold sc_add. rewrite le_modL. f_equal. apply Z.mod_small. pose proof (le_range x). pose proof (le_range y).
  pose proof L_range. pose proof (eq_refl : (2 ^ 256 = 8 * 2 ^ 253)%Z). lia.
Qed.

(** equality modulo the order *)
Lemma same_refl m : same m m. Proof. reflexivity. Qed.
Lemma same_sym m n : same m n -> same n m. Proof. unfold same; congruence. Qed.
Lemma same_trans m n p : same m n -> same n p -> same m p. Proof. unfold same; congruence. Qed.
Lemma same_mod m : same (m mod L) m. Proof. unfold same. apply Z.mod_mod. pose proof L_pos; lia. Qed.
Lemma same_add m m' n n' : same m m' -> same n n' -> same (m + n) (m' + n').
Proof. unfold same. intros h1 h2. rewrite Zplus_mod, h1, h2, <- Zplus_mod. reflexivity. Qed.
Lemma same_mul m m' n n' : same m m' -> same n n' -> same (m * n) (m' * n').
Proof. unfold same. intros h1 h2. rewrite Zmult_mod, h1, h2, <- Zmult_mod. reflexivity. Qed.
Lemma same_opp m m' : same m m' -> same (- m) (- m').
Proof. intros h. replace (- m)%Z with (-1 * m)%Z by lia. replace (- m')%Z with (-1 * m')%Z by lia. apply same_mul; [apply same_refl|exact h]. Qed.
Lemma same_sub m m' n n' : same m m' -> same n n' -> same (m - n) (m' - n').
Proof. intros h1 h2. unfold Z.sub. apply same_add; [exact h1|apply same_opp; exact h2]. Qed.
Lemma same0 m : same m 0 <-> (m mod L =? 0)%Z = true.
Proof. unfold same. rewrite Zmod_0_l, Z.eqb_eq. reflexivity. Qed.
Lemma same0_false m : ~ same m 0 <-> (m mod L =? 0)%Z = false.
Proof. rewrite same0. destruct (m mod L =? 0)%Z; split; congruence. Qed.
Lemma opp_same0 m : same (- m) 0 <-> same m 0.
Proof. split; intros h; apply same_opp in h; [replace (- - m)%Z with m in h by lia|]; exact h. Qed.
Lemma same_dec m n : {same m n} + {~ same m n}. Proof. unfold same. apply Z.eq_dec. Qed.

(** clamped scalars *)
Lemma clamp_range z : (2 ^ 254 <= clamp z < 2 ^ 255)%Z.
Proof.
  unfold clamp. pose proof (Z.mod_pos_bound z (2 ^ 254) eq_refl). pose proof (Z.mod_pos_bound z 8 eq_refl).
  assert (e : ((z mod 2 ^ 254) mod 8 = z mod 8)%Z).
  { symmetry. apply Zmod_div_mod; [lia|lia|]. exists (2 ^ 251)%Z. reflexivity. }
  pose proof (Z.mod_le (z mod 2 ^ 254) 8). pose proof (eq_refl : (2 ^ 255 = 2 * 2 ^ 254)%Z). lia.
Qed.
Lemma clamp_div8 z : (8 | clamp z)%Z.
Proof.
  unfold clamp. apply Z.divide_add_r; [|exists (2 ^ 251)%Z; reflexivity]. apply Z.mod_divide; [lia|].
  rewrite Zminus_mod. replace ((z mod 2 ^ 254) mod 8)%Z with (z mod 8)%Z; [rewrite Z.mod_mod by lia; rewrite Z.sub_diag; reflexivity|].
  apply Zmod_div_mod; [lia|lia|]. exists (2 ^ 251)%Z. reflexivity.
Qed.
Lemma clamp_idem z : clamp (clamp z) = clamp z.
Proof.
  destruct (clamp_div8 z) as (k & hk). pose proof (clamp_range z) as hr. unfold clamp at 1.
  replace (clamp z mod 8)%Z with 0%Z by (rewrite hk, Z.mod_mul by lia; reflexivity).
  replace (clamp z mod 2 ^ 254)%Z with (clamp z - 2 ^ 254)%Z; [lia|]. apply Zmod_unique with 1%Z; [|lia]. pose proof (eq_refl : (2 ^ 255 = 2 * 2 ^ 254)%Z). lia.
Qed.
Lemma rel_prime_8L : rel_prime 8 L.
Proof.
  assert (h2 : rel_prime L 2).
  { apply rel_prime_sym, prime_rel_prime; [exact prime_2|]. intros (k & hk). pose proof L_odd. rewrite hk, Z.mod_mul in H by lia. lia. }
  apply rel_prime_sym. replace 8%Z with (2 * (2 * 2))%Z by reflexivity. apply rel_prime_mult; [exact h2|]. apply rel_prime_mult; exact h2.
Qed.
Lemma clamp_nz z : ~ same (clamp z) 0.
Proof.
  intros h. apply same0, Z.eqb_eq in h. apply Z.mod_divide in h; [|pose proof L_pos; lia]. destruct (clamp_div8 z) as (k & hk).
  rewrite hk, Z.mul_comm in h. apply Gauss in h; [|apply rel_prime_sym, rel_prime_8L]. pose proof (clamp_range z) as hr.
  destruct h as (j & hj). pose proof L_range. pose proof (eq_refl : (2 ^ 255 = 8 * 2 ^ 252)%Z). pose proof (eq_refl : (2 ^ 254 = 8 * 2 ^ 251)%Z).
  assert (0 < k < 2 ^ 252)%Z by lia. assert (0 < j)%Z by nia. nia.
Qed.
Lemma le_ed_scalar E sk : le (ed_scalar E sk) = clamp (le (firstn 32 (ec_sha512 E (seed_of sk)))).
Proof. unfold ed_scalar. rewrite le_to_le, pow256_32. apply Z.mod_small. pose proof (clamp_range (le (firstn 32 (ec_sha512 E (seed_of sk))))). pose proof p255_256. lia. Qed.
Lemma scalar_nz E sk : ~ same (le (ed_scalar E sk)) 0. Proof. rewrite le_ed_scalar. apply clamp_nz. Qed.
Lemma scalar_255 E sk : (le (ed_scalar E sk) mod 2 ^ 255 = le (ed_scalar E sk))%Z.
Proof. rewrite le_ed_scalar. apply Z.mod_small. pose proof (clamp_range (le (firstn 32 (ec_sha512 E (seed_of sk))))). lia. Qed.
Lemma clamp_scalar E sk : clamp (le (ed_scalar E sk)) = le (ed_scalar E sk). Proof. rewrite le_ed_scalar. apply clamp_idem. Qed.

(** sign bits *)
Lemma byte_cases c : byte (N_of_ascii c mod 128) = c \/ byte (N_of_ascii c mod 128) = byte ((N_of_ascii c + 128) mod 256).
Proof.
  pose proof (N_ascii_bounded c) as h. unfold byte. destruct (N.ltb_spec (N_of_ascii c) 128) as [h1|h1].
  - left. rewrite N.mod_small by exact h1. apply ascii_N_embedding.
  - right. f_equal. symmetry. apply N.mod_unique with 1%N; [lia|]. pose proof (N.div_mod (N_of_ascii c) 128). assert (N_of_ascii c / 128 = 1)%N by (symmetry; apply N.div_unique with (N_of_ascii c - 128)%N; lia). lia.
Qed.
Lemma clear_cases (s : bytes) : length s = 32 -> clear_sign s = s \/ clear_sign s = flip_sign s.
Proof.
  intros h. unfold clear_sign, flip_sign. assert (hl : length (skipn 31 s) = 1) by (rewrite skipn_length; lia).
  destruct (skipn 31 s) as [|c [|? ?]] eqn:E; try discriminate. cbn [map]. destruct (byte_cases c) as [-> | ->]; [|right; reflexivity].
  left. rewrite <- E. apply firstn_skipn.
Qed.
Lemma flip_flip_byte c : byte ((N_of_ascii (byte ((N_of_ascii c + 128) mod 256)) + 128) mod 256) = c.
Proof.
  pose proof (N_ascii_bounded c) as h. unfold byte. rewrite N_ascii_embedding by (apply N.mod_lt; lia).
  rewrite N.add_mod_idemp_l by lia. replace (N_of_ascii c + 128 + 128)%N with (N_of_ascii c + 1 * 256)%N by lia. rewrite N.mod_add by lia. rewrite N.mod_small by exact h. apply ascii_N_embedding.
Qed.
Lemma skipn31 (s : bytes) : length s = 32 -> exists p c, s = p ++ [c] /\ length p = 31.
Proof.
  intros h. exists (firstn 31 s). assert (hl : length (skipn 31 s) = 1) by (rewrite skipn_length; lia).
  destruct (skipn 31 s) as [|c [|? ?]] eqn:E; try discriminate. exists c. split; [rewrite <- E; symmetry; apply firstn_skipn|]. rewrite firstn_length. lia.
Qed.
Lemma firstn_exact {A} (p q : list A) n : length p = n -> firstn n (p ++ q) = p.
Proof. intros <-. rewrite firstn_app, Nat.sub_diag, firstn_all, app_nil_r. reflexivity. Qed.
Lemma skipn_exact {A} (p q : list A) n : length p = n -> skipn n (p ++ q) = q.
Proof. intros <-. rewrite skipn_app, Nat.sub_diag, skipn_all. reflexivity. Qed.
Lemma clear_snoc p c : length p = 31 -> clear_sign (p ++ [c]) = p ++ [byte (N_of_ascii c mod 128)].
Proof. intros h. unfold clear_sign. rewrite firstn_exact, skipn_exact by exact h. reflexivity. Qed.
Lemma flip_snoc p c : length p = 31 -> flip_sign (p ++ [c]) = p ++ [byte ((N_of_ascii c + 128) mod 256)].
Proof. intros h. unfold flip_sign. rewrite firstn_exact, skipn_exact by exact h. reflexivity. Qed.
Lemma flip_flip (s : bytes) : length s = 32 -> flip_sign (flip_sign s) = s.
Proof. intros h. destruct (skipn31 s h) as (p & c & -> & hp). rewrite !flip_snoc by exact hp. rewrite flip_flip_byte. reflexivity. Qed.
Lemma clear_length s : length (clear_sign s) = length s.
Proof. unfold clear_sign. rewrite app_length, map_length, <- app_length, firstn_skipn. reflexivity. Qed.
Lemma flip_length s : length (flip_sign s) = length s.
Proof. unfold flip_sign. rewrite app_length, map_length, <- app_length, firstn_skipn. reflexivity. Qed.
Lemma clear_flip s : length s = 32 -> clear_sign (flip_sign s) = clear_sign s.
Proof.
  intros h. destruct (skipn31 s h) as (p & c & -> & hp). rewrite flip_snoc, !clear_snoc by exact hp. do 3 f_equal.
  unfold byte. pose proof (N_ascii_bounded c). rewrite N_ascii_embedding by (apply N.mod_lt; lia).
  assert (e : (256 = 128 * 2)%N) by reflexivity. rewrite e, N.mod_mul_r by lia.
  rewrite N.mul_comm, N.mod_add by lia. rewrite N.mod_mod by lia. replace (N_of_ascii c + 128)%N with (N_of_ascii c + 1 * 128)%N by lia. apply N.mod_add. lia.
Qed.

Section laws.
  Context (E : ecrypt) (H : ec_ok E).

  Lemma pt_same m n : same m n -> ec_pt E m = ec_pt E n. Proof. apply (eo_pt_eq E H). Qed.
  Lemma x_same m n : same m n -> ec_x E m = ec_x E n. Proof. intros h. apply (eo_x_eq E H). left. exact h. Qed.
  Lemma x_opp m : ec_x E (- m) = ec_x E m. Proof. apply (eo_x_eq E H). right. apply same_refl. Qed.
  (** the point with the sign bit cleared is the point or its negation *)
  Lemma clear_pt m : ~ same m 0 -> exists n, clear_sign (ec_pt E m) = ec_pt E n /\ (n = m \/ n = (- m)%Z).
  Proof.
    intros h. destruct (clear_cases _ (eo_pt_len E H m)) as [e|e]; [exists m|exists (- m)%Z]; (split; [|tauto]); rewrite e; [reflexivity|].
    symmetry. apply (eo_flip E H). exact h.
  Qed.
  Lemma clear_pt_opp m : ~ same m 0 -> clear_sign (ec_pt E (- m)) = clear_sign (ec_pt E m).
  Proof. intros h. rewrite (eo_flip E H) by exact h. apply clear_flip, (eo_pt_len E H). Qed.
  Lemma log_pt m : ec_log E (ec_pt E m) = Some (m mod L)%Z. Proof. apply (eo_log E H). Qed.
  Lemma mul_pt s m : mul_noclamp E s (ec_pt E m) =
    if (m mod L =? 0)%Z || (le s mod 2 ^ 255 * m mod L =? 0)%Z then None else Some (ec_pt E (le s mod 2 ^ 255 * m)).
  Proof.
    unfold mul_noclamp. rewrite log_pt. cbv zeta. rewrite Z.mod_mod by (pose proof L_pos; lia).
    assert (e : ((le s mod 2 ^ 255 * (m mod L)) mod L = (le s mod 2 ^ 255 * m) mod L)%Z) by (apply same_mul; [apply same_refl|apply same_mod]).
    rewrite e. destruct (_ || _); [reflexivity|]. f_equal. apply pt_same. exact e.
  Qed.
  Lemma mul_inv s p q : mul_noclamp E s p = Some q -> exists m, p = ec_pt E m /\ ~ same m 0 /\ q = ec_pt E (le s mod 2 ^ 255 * m) /\ ~ same (le s mod 2 ^ 255 * m) 0.
  Proof.
    unfold mul_noclamp. destruct (ec_log E p) as [a|] eqn:el; [|discriminate]. cbv zeta. destruct (a mod L =? 0)%Z eqn:e1; [discriminate|]. cbn [orb].
    destruct ((le s mod 2 ^ 255 * a) mod L =? 0)%Z eqn:e2; [discriminate|]. intros [= <-]. exists a. split; [apply (eo_log_inv E H); exact el|].
    split; [apply same0_false; exact e1|]. split; [reflexivity|]. apply same0_false. exact e2.
  Qed.
  Lemma pk_x m : ~ same m 0 -> pk_to_x E (ec_pt E m) = Some (ec_x E m).
  Proof.
    intros h. unfold pk_to_x. rewrite log_pt. rewrite Z.mod_mod by (pose proof L_pos; lia). rewrite (proj1 (same0_false m) h). f_equal. apply x_same, same_mod.
  Qed.
  Lemma pk_x_inv pk x : pk_to_x E pk = Some x -> exists m, pk = ec_pt E m /\ ~ same m 0 /\ x = ec_x E m.
  Proof.
    unfold pk_to_x. destruct (ec_log E pk) as [a|] eqn:el; [|discriminate]. destruct (a mod L =? 0)%Z eqn:e1; [discriminate|]. intros [= <-].
    exists a. split; [apply (eo_log_inv E H); exact el|]. split; [apply same0_false; exact e1|reflexivity].
  Qed.
  Lemma ed_pub_length seed : length (ed_pub E seed) = 32. Proof. apply (eo_pt_len E H). Qed.
  Lemma ed_pub_x seed : pk_to_x E (ed_pub E seed) = Some (x_base E (ed_scalar E seed)).
  Proof. unfold ed_pub, x_base. rewrite clamp_scalar. apply pk_x, scalar_nz. Qed.
  Lemma x_base_length s : length (x_base E s) = 32. Proof. apply (eo_x_len E H). Qed.
  Lemma ed_scalar_length sk : length (ed_scalar E sk) = 32. Proof. apply to_le_length. Qed.
  (** Diffie-Hellman *)
  Lemma dh_sym s t : ec_dh E s (x_base E t) = ec_dh E t (x_base E s).
  Proof. unfold x_base. rewrite !(eo_dh E H). rewrite (Z.mul_comm (clamp (le t))). reflexivity. Qed.
  (** a Schnorr signature verifies, if neither the key nor the nonce is zero *)
  Lemma schnorr a r m s : ~ same a 0 -> ~ same r 0 ->
    s = to_le 32 ((le (hram E (ec_pt E r) (ec_pt E a) m) * a + r) mod L) ->
    ed_verify E (ec_pt E r ++ s) m (ec_pt E a) = true.
  Proof.
    intros ha hr ->. unfold ed_verify. rewrite log_pt. cbv zeta.
    assert (e1 : firstn 32 (ec_pt E r ++ to_le 32 ((le (hram E (ec_pt E r) (ec_pt E a) m) * a + r) mod L)) = ec_pt E r).
    { apply firstn_exact, (eo_pt_len E H). }
    assert (e2 : skipn 32 (ec_pt E r ++ to_le 32 ((le (hram E (ec_pt E r) (ec_pt E a) m) * a + r) mod L)) = to_le 32 ((le (hram E (ec_pt E r) (ec_pt E a) m) * a + r) mod L)).
    { apply skipn_exact, (eo_pt_len E H). }
    rewrite e1, e2, le_modL. rewrite Z.mod_mod by (pose proof L_pos; lia). rewrite (proj1 (same0_false a) ha).
    assert (e3 : eqb (ec_pt E r) (ec_pt E 0) = false). { apply eqb_neq. intros h. apply hr. apply (eo_pt_eq E H). exact h. }
    rewrite e3. cbn [negb andb].
    assert (e4 : ((le (hram E (ec_pt E r) (ec_pt E a) m) * a + r) mod L <? L)%Z = true) by (apply Z.ltb_lt; apply mod_L_range).
    rewrite e4. cbn [andb]. apply eqb_eq. apply pt_same. set (h := le (hram E (ec_pt E r) (ec_pt E a) m)).
    apply same_trans with (h * a + r - h * a)%Z; [replace (h * a + r - h * a)%Z with r by lia; apply same_refl|].
    apply same_sub; [apply same_sym, same_mod|]. apply same_mul; [apply same_refl|apply same_sym, same_mod].
  Qed.
  (** what verification establishes *)
  Lemma verify_inv sig m a : length sig = 64 -> ed_verify E sig m (ec_pt E a) = true ->
    firstn 32 sig = ec_pt E (le (skipn 32 sig) - le (hram E (firstn 32 sig) (ec_pt E a) m) * a).
  Proof.
    intros hl. unfold ed_verify. rewrite log_pt. cbv zeta. intros h. apply andb_prop in h as [_ h]. apply eqb_eq in h. rewrite h at 1.
    apply pt_same, same_sub; [apply same_refl|]. apply same_mul; [apply same_refl|apply same_mod].
  Qed.
  Lemma ed_sign_length sk m : length (ed_sign E sk m) = 64.
  Proof. unfold ed_sign. cbv zeta. rewrite app_length, to_le_length. unfold base_noclamp. rewrite (eo_pt_len E H). reflexivity. Qed.
  Lemma base_reduce h : base_noclamp E (sc_reduce h) = ec_pt E (le h).
  Proof. unfold base_noclamp, sc_reduce. rewrite le_modL255. apply pt_same, same_mod. Qed.
  (** libsodium's own signatures verify *)
  Lemma ed_sign_verify sk m : length sk = 64 -> skipn 32 sk = ed_pub E (seed_of sk) -> ~ same (le (ed_nonce E sk m)) 0 -> ed_verify E (ed_sign E sk m) m (skipn 32 sk) = true.
  Proof.
    intros hl hp hn. unfold ed_sign. cbv zeta. assert (e : base_noclamp E (ed_nonce E sk m) = ec_pt E (le (ed_nonce E sk m))).
    { unfold ed_nonce. rewrite base_reduce, le_reduce. symmetry. apply pt_same, same_mod. }
    rewrite e, hp. unfold ed_pub. assert (es : ed_scalar E (seed_of sk) = ed_scalar E sk). { unfold ed_scalar, seed_of. rewrite firstn_firstn. reflexivity. }
    rewrite es. apply schnorr; [apply scalar_nz|exact hn|reflexivity].
  Qed.
End laws.
