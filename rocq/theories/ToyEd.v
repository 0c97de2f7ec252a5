(** A small executable instance of the laws of EdSpec, used only in examples: the point m times B is encoded as |m|, the
    lesser of m and -m modulo L, with the sign in the top bit. *)
From Verif Require Import EdSpec Ed_facts ToyKeys ToyCrypt.
From Coq Require Import ZifyBool ZifyN ZifyNat.

Definition toy_abs (m : Z) : Z := let k := (m mod L)%Z in Z.min k (L - k).
Definition toy_pt (m : Z) : bytes := let k := (m mod L)%Z in to_le 32 (if (2 * k <=? L)%Z then k else L - k + 2 ^ 255).
Definition toy_log (s : bytes) : option Z :=
  if Nat.eqb (length s) 32 then
    let z := le s in
    if (2 * z <=? L)%Z then Some z
    else let y := (z - 2 ^ 255)%Z in if (0 <? y)%Z && (2 * y <=? L)%Z then Some (L - y)%Z else None
  else None.
Definition toy_ux (m : Z) : bytes := to_le 32 (toy_abs m).
Definition toy_edh (s p : bytes) : option bytes := let m := (clamp (le s) * le p)%Z in if (m mod L =? 0)%Z then None else Some (toy_ux m).
Definition toy_e : ecrypt := mkEcrypt toy_pt toy_log toy_ux (fun s => s) toy_edh (fill 64) (fun n k p x => fill n (k ++ p ++ x ++ to_le 32 (le x / 251))) (fun _ _ _ => false)
  toy_seal toy_open toy_seal toy_open.

Lemma toy_abs_range m : (0 <= toy_abs m /\ 2 * toy_abs m <= L)%Z.
Proof. unfold toy_abs. pose proof (mod_L_range m). lia. Qed.
Lemma le_ux m : le (toy_ux m) = toy_abs m.
Proof. unfold toy_ux. rewrite le_to_le, pow256_32. apply Z.mod_small. pose proof (toy_abs_range m). pose proof L_small. pose proof p255_256. lia. Qed.
Lemma toy_abs_same m : same (toy_abs m) m \/ same (toy_abs m) (- m).
Proof.
  unfold toy_abs. pose proof (mod_L_range m) as h. destruct (Z.min_spec (m mod L) (L - m mod L)) as [[_ e]|[_ e]]; rewrite e; [left; apply same_mod|right].
  apply same_trans with (- (m mod L))%Z; [|apply same_opp, same_mod]. unfold same. replace (L - m mod L)%Z with (- (m mod L) + 1 * L)%Z by lia. apply Z_mod_plus_full.
Qed.
Lemma mod_opp m : (m mod L <> 0 -> - m mod L = L - m mod L)%Z.
Proof. intros h. apply Z_mod_nz_opp_full. exact h. Qed.
Lemma toy_abs_opp m : toy_abs (- m) = toy_abs m.
Proof.
  unfold toy_abs. destruct (Z.eq_dec (m mod L) 0) as [e|e].
  - rewrite (Z_mod_zero_opp_full _ _ e), e. reflexivity.
  - rewrite (mod_opp m e). lia.
Qed.
Lemma toy_abs_eq m n : toy_abs m = toy_abs n <-> same m n \/ same m (- n).
Proof.
  split.
  - intros h. destruct (toy_abs_same m) as [e1|e1], (toy_abs_same n) as [e2|e2]; rewrite h in e1.
    + left. eapply same_trans; [apply same_sym; exact e1|exact e2].
    + right. eapply same_trans; [apply same_sym; exact e1|exact e2].
    + right. apply same_trans with (- - m)%Z; [rewrite Z.opp_involutive; apply same_refl|]. apply same_opp. eapply same_trans; [apply same_sym; exact e1|exact e2].
    + left. apply same_trans with (- - m)%Z; [rewrite Z.opp_involutive; apply same_refl|]. apply same_trans with (- - n)%Z; [|rewrite Z.opp_involutive; apply same_refl].
      apply same_opp. eapply same_trans; [apply same_sym; exact e1|exact e2].
  - assert (g : forall a c, same a c -> toy_abs a = toy_abs c) by (intros a c e; unfold toy_abs; rewrite e; reflexivity).
    intros [h|h]; [apply g; exact h|]. rewrite (g _ _ h). apply toy_abs_opp.
Qed.
Definition toy_num (m : Z) : Z := let k := (m mod L)%Z in if (2 * k <=? L)%Z then k else (L - k + 2 ^ 255)%Z.
Lemma toy_num_range m : (0 <= toy_num m < 2 ^ 256)%Z.
Proof. unfold toy_num. cbv zeta. pose proof (mod_L_range m). pose proof L_small. pose proof (eq_refl : (2 ^ 256 = 2 * 2 ^ 255)%Z). destruct (2 * (m mod L) <=? L)%Z eqn:e; lia. Qed.
Lemma le_pt m : le (toy_pt m) = toy_num m.
Proof. unfold toy_pt. fold (toy_num m). rewrite le_to_le, pow256_32. apply Z.mod_small. apply toy_num_range. Qed.
Lemma toy_pt_len m : length (toy_pt m) = 32. Proof. apply to_le_length. Qed.
Lemma toy_num_inj m n : toy_num m = toy_num n -> same m n.
Proof.
  unfold toy_num, same. cbv zeta. pose proof (mod_L_range m). pose proof (mod_L_range n). pose proof L_range. pose proof (eq_refl : (2 ^ 255 = 4 * 2 ^ 253)%Z).
  destruct (2 * (m mod L) <=? L)%Z eqn:e1, (2 * (n mod L) <=? L)%Z eqn:e2; lia.
Qed.
Lemma le_snoc p c : le (p ++ [c]) = (le p + 256 ^ Z.of_nat (length p) * Z.of_N (N_of_ascii c))%Z.
Proof.
  induction p as [|x p IH]; [cbn [app le length]; change (256 ^ Z.of_nat 0)%Z with 1%Z; lia|].
  cbn [app le length]. rewrite IH, Nat2Z.inj_succ, Z.pow_succ_r by lia. lia.
Qed.
Lemma flip_le s : length s = 32 -> le (flip_sign s) = ((le s + 2 ^ 255) mod 2 ^ 256)%Z.
Proof.
  intros h. destruct (skipn31 s h) as (p & c & -> & hp). rewrite flip_snoc by exact hp. rewrite !le_snoc, hp. pose proof (le_range p) as hr. rewrite hp in hr.
  change (256 ^ Z.of_nat 31)%Z with (2 ^ 248)%Z in *. unfold byte. pose proof (N_ascii_bounded c) as hc. rewrite N_ascii_embedding by (apply N.mod_lt; lia).
  pose proof (eq_refl : (2 ^ 255 = 128 * 2 ^ 248)%Z). pose proof (eq_refl : (2 ^ 256 = 256 * 2 ^ 248)%Z).
  destruct (N.ltb_spec (N_of_ascii c) 128) as [h1|h1].
  - rewrite N.mod_small by lia. symmetry. rewrite Z.mod_small by nia. lia.
  - replace ((N_of_ascii c + 128) mod 256)%N with (N_of_ascii c - 128)%N by (apply N.mod_unique with 1%N; lia).
    apply Zmod_unique with 1%Z; nia.
Qed.
Lemma toy_flip m : ~ same m 0 -> toy_pt (- m) = flip_sign (toy_pt m).
Proof.
  intros h. apply le_inj; [rewrite flip_length, !toy_pt_len; reflexivity|]. rewrite flip_le by apply toy_pt_len. rewrite !le_pt.
  assert (e : (m mod L <> 0)%Z) by (intros e; apply h; apply same0, Z.eqb_eq; exact e).
  unfold toy_num. cbv zeta. rewrite (mod_opp m e). pose proof (mod_L_range m). pose proof L_small. pose proof (eq_refl : (2 ^ 256 = 2 * 2 ^ 255)%Z).
  pose proof L_odd as ho. assert (hne : (2 * (m mod L) <> L)%Z) by (intros e2; rewrite <- e2, Z.mul_comm, Z.mod_mul in ho by lia; lia).
  destruct (2 * (L - m mod L) <=? L)%Z eqn:e1, (2 * (m mod L) <=? L)%Z eqn:e2; try lia.
Qed.
Lemma clear_small p : (0 <= p < 2 ^ 255)%Z -> clear_sign (to_le 32 p) = to_le 32 p.
Proof.
  intros h. destruct (skipn31 (to_le 32 p) (to_le_length 32 p)) as (q & c & e & hq). rewrite e, clear_snoc by exact hq.
  assert (hp : le (to_le 32 p) = p) by (rewrite le_to_le, pow256_32; apply Z.mod_small; pose proof p255_256; lia).
  rewrite e, le_snoc, hq in hp. pose proof (le_range q) as hr. change (256 ^ Z.of_nat 31)%Z with (2 ^ 248)%Z in hp. pose proof (eq_refl : (2 ^ 255 = 128 * 2 ^ 248)%Z).
  assert ((N_of_ascii c < 128)%N) by nia. rewrite N.mod_small by assumption. unfold byte. rewrite ascii_N_embedding. reflexivity.
Qed.
Lemma toy_clear m : ~ same m 0 -> clear_sign (toy_pt m) = toy_ux m.
Proof.
  intros h. pose proof (mod_L_range m) as hm. pose proof L_small. unfold toy_ux, toy_abs. cbv zeta. destruct (2 * (m mod L) <=? L)%Z eqn:e.
  - unfold toy_pt. cbv zeta. rewrite e. rewrite Z.min_l by lia. apply clear_small. lia.
  - assert (e0 : (m mod L <> 0)%Z) by (intros e0; apply h; apply same0, Z.eqb_eq; exact e0).
    assert (e1 : toy_pt m = flip_sign (toy_pt (- m))). { rewrite toy_flip by exact h. rewrite flip_flip by apply toy_pt_len. reflexivity. }
    rewrite e1, clear_flip by apply toy_pt_len. unfold toy_pt. cbv zeta. rewrite (mod_opp m e0). replace (2 * (L - m mod L) <=? L)%Z with true by lia.
    rewrite Z.min_r by lia. apply clear_small. lia.
Qed.
Lemma toy_e_ok : ec_ok toy_e.
Proof.
  assert (hw := toy_x_ok). destruct hw as [hs1 hs2 hs3].
  split; cbn [toy_e ec_pt ec_log ec_x ec_xed ec_dh ec_sha512 ec_blake ec_seal ec_open ec_bseal ec_bopen].
  - exact toy_pt_len.
  - intros m n. split; [intros h; apply toy_num_inj; rewrite <- !le_pt, h; reflexivity|]. intros h. unfold toy_pt. rewrite h. reflexivity.
  - intros m. unfold toy_log. rewrite toy_pt_len. cbn [Nat.eqb]. cbv zeta. rewrite le_pt. unfold toy_num. cbv zeta. pose proof (mod_L_range m).
    pose proof L_range. pose proof (eq_refl : (2 ^ 255 = 4 * 2 ^ 253)%Z). destruct (2 * (m mod L) <=? L)%Z eqn:e; [rewrite e; reflexivity|].
    replace (2 * (L - m mod L + 2 ^ 255) <=? L)%Z with false by lia. replace (L - m mod L + 2 ^ 255 - 2 ^ 255)%Z with (L - m mod L)%Z by lia.
    replace (0 <? L - m mod L)%Z with true by lia. replace (2 * (L - m mod L) <=? L)%Z with true by lia. cbn [andb]. f_equal. lia.
  - intros s m. unfold toy_log. destruct (Nat.eqb_spec (length s) 32) as [hl|]; [|discriminate]. cbv zeta. intros h. apply le_inj; [rewrite toy_pt_len; exact hl|]. rewrite le_pt.
    pose proof (le_range s). pose proof L_pos. unfold toy_num. cbv zeta. destruct (2 * le s <=? L)%Z eqn:e1.
    + injection h as <-. rewrite Z.mod_small by lia. rewrite e1. reflexivity.
    + destruct ((0 <? le s - 2 ^ 255) && (2 * (le s - 2 ^ 255) <=? L))%Z eqn:e2; [|discriminate]. apply andb_prop in e2 as [e2 e3]. assert (hm : m = (L - (le s - 2 ^ 255))%Z) by congruence. subst m.
      rewrite Z.mod_small by lia. pose proof L_odd as ho. assert (hne : (2 * (le s - 2 ^ 255) <> L)%Z) by (intros e; rewrite <- e, Z.mul_comm, Z.mod_mul in ho by lia; lia).
      replace (2 * (L - (le s - 2 ^ 255)) <=? L)%Z with false by lia. lia.
  - exact toy_flip.
  - intros m. apply to_le_length.
  - intros m n. rewrite <- toy_abs_eq. split; [intros h; rewrite <- !le_ux, h; reflexivity|]. intros h. unfold toy_ux. rewrite h. reflexivity.
  - intros m h. symmetry. apply toy_clear. exact h.
  - intros s m. unfold toy_edh. cbv zeta. rewrite le_ux. destruct (toy_abs_same m) as [e|e].
    + assert (e1 : same (clamp (le s) * toy_abs m) (clamp (le s) * m)) by (apply same_mul; [apply same_refl|exact e]). rewrite e1. destruct (_ =? 0)%Z; [reflexivity|].
      f_equal. unfold toy_ux. f_equal. apply toy_abs_eq. left. exact e1.
    + assert (e1 : same (clamp (le s) * toy_abs m) (- (clamp (le s) * m))). { replace (- (clamp (le s) * m))%Z with (clamp (le s) * - m)%Z by lia. apply same_mul; [apply same_refl|exact e]. }
      assert (e2 : ((clamp (le s) * toy_abs m) mod L =? 0)%Z = ((clamp (le s) * m) mod L =? 0)%Z).
      { apply Bool.eq_true_iff_eq. rewrite <- !same0. rewrite <- (opp_same0 (clamp (le s) * m)). split; intros h; [eapply same_trans; [apply same_sym; exact e1|exact h]|eapply same_trans; [exact e1|exact h]]. }
      rewrite e2. destruct ((clamp (le s) * m) mod L =? 0)%Z; [reflexivity|]. f_equal. unfold toy_ux. f_equal. apply toy_abs_eq. right. exact e1.
  - intros x. apply fill_length.
  - intros n k p x. apply fill_length.
  - exact hs1.
  - exact hs2.
  - exact hs3.
  - exact hs1.
  - exact hs2.
  - exact hs3.
Qed.
