(** Pocklington's criterion, for the primality of the order of the curve's base point. *)
From Coq Require Import ZArith Znumtheory Zpow_facts List Lia Permutation.
Import ListNotations.
Open Scope Z_scope.

(** ** Fermat's little theorem *)
Definition prod (l : list Z) : Z := fold_right Z.mul 1 l.
Lemma prod_perm l l' : Permutation l l' -> prod l = prod l'.
Proof. induction 1 as [|x l l' _ IH|x y l|l l' l'' _ IH1 _ IH2]; cbn [prod fold_right]; unfold prod in *; lia. Qed.
Definition residues (p : Z) : list Z := map Z.of_nat (seq 1 (Z.to_nat p - 1)).
Lemma in_residues p x : In x (residues p) <-> 1 <= x < p.
Proof.
  unfold residues. rewrite in_map_iff. split.
  - intros (n & <- & h). apply in_seq in h. lia.
  - intros h. exists (Z.to_nat x). split; [lia|]. apply in_seq. lia.
Qed.
Lemma residues_nodup p : NoDup (residues p).
Proof. unfold residues. apply FinFun.Injective_map_NoDup; [intros a c h; lia|apply seq_NoDup]. Qed.
Section fermat.
  Context (p : Z) (hp : prime p).
  Lemma p_ge : 2 <= p. Proof. apply prime_ge_2, hp. Qed.
  Lemma nz_mul x y : x mod p <> 0 -> y mod p <> 0 -> (x * y) mod p <> 0.
  Proof.
    pose proof p_ge. intros hx hy h. apply Z.mod_divide in h; [|lia]. apply (prime_mult p hp) in h as [h|h]; apply Z.mod_divide in h; lia.
  Qed.
  Lemma cancel x y z : x mod p <> 0 -> (x * y) mod p = (x * z) mod p -> y mod p = z mod p.
  Proof.
    pose proof p_ge as hg. intros hx h. assert (h0 : (x * (y - z)) mod p = 0).
    { rewrite Z.mul_sub_distr_l, Zminus_mod, h, Z.sub_diag. apply Z.mod_0_l. lia. }
    destruct (Z.eq_dec ((y - z) mod p) 0) as [e|e]; [|exfalso; exact (nz_mul x (y - z) hx e h0)].
    apply Z.mod_divide in e as (k & hk); [|lia]. replace y with (z + k * p) by lia. apply Z_mod_plus_full.
  Qed.
  Definition times (a : Z) : list Z := map (fun x => (a * x) mod p) (residues p).
  Lemma times_perm a : a mod p <> 0 -> Permutation (times a) (residues p).
  Proof.
    pose proof p_ge as hg. intros ha. assert (hn : NoDup (times a)).
    { unfold times. assert (hi : forall l, NoDup l -> (forall x, In x l -> 1 <= x < p) -> NoDup (map (fun x => (a * x) mod p) l)).
      { induction l as [|x l IH]; intros hl hx; [apply NoDup_nil|]. inversion hl as [|? ? h1 h2]; subst. cbn [map]. apply NoDup_cons; [|apply IH; [exact h2|intros y hy; apply hx; right; exact hy]].
        intros hin. apply in_map_iff in hin as (y & e & hy). apply cancel in e; [|exact ha]. pose proof (hx x (or_introl eq_refl)). pose proof (hx y (or_intror hy)).
        rewrite !Z.mod_small in e by lia. subst y. contradiction. }
      apply hi; [apply residues_nodup|]. intros x hx. apply in_residues. exact hx. }
    apply NoDup_Permutation_bis; [exact hn| |].
    - unfold times. rewrite map_length. lia.
    - intros y hy. unfold times in hy. apply in_map_iff in hy as (x & <- & hx). apply in_residues in hx. apply in_residues.
      assert (h0 : (a * x) mod p <> 0) by (apply nz_mul; [exact ha|rewrite Z.mod_small; lia]). pose proof (Z.mod_pos_bound (a * x) p). lia.
  Qed.
  Lemma prod_times a l : prod (map (fun x => (a * x) mod p) l) mod p = (a ^ Z.of_nat (length l) * prod l) mod p.
  Proof.
    pose proof p_ge. induction l as [|x l IH]; [reflexivity|]. cbn [map prod fold_right length]. fold (prod (map (fun x => (a * x) mod p) l)). fold (prod l).
    rewrite Nat2Z.inj_succ, Z.pow_succ_r by lia. rewrite Z.mul_mod, IH, Z.mod_mod, <- Z.mul_mod by lia. f_equal. ring.
  Qed.
  Lemma prod_nz l : (forall x, In x l -> 1 <= x < p) -> prod l mod p <> 0.
  Proof.
    pose proof p_ge. induction l as [|x l IH]; intros h; [cbn [prod fold_right]; rewrite Z.mod_small; lia|]. cbn [prod fold_right]. apply nz_mul; [rewrite Z.mod_small; specialize (h x (or_introl eq_refl)); lia|].
    apply IH. intros y hy. apply h. right. exact hy.
  Qed.
  Lemma fermat a : a mod p <> 0 -> a ^ (p - 1) mod p = 1.
  Proof.
    pose proof p_ge as hg. intros ha. pose proof (prod_times a (residues p)) as h. fold (times a) in h. rewrite (prod_perm _ _ (times_perm a ha)) in h.
    assert (hl : Z.of_nat (length (residues p)) = p - 1) by (unfold residues; rewrite map_length, seq_length; lia). rewrite hl in h.
    assert (h1 : (prod (residues p) * 1) mod p = (prod (residues p) * a ^ (p - 1)) mod p) by (rewrite Z.mul_1_r, Z.mul_comm; exact h).
    apply cancel in h1; [rewrite <- h1; apply Z.mod_small; lia|]. apply prod_nz. intros x hx. apply in_residues. exact hx.
  Qed.
End fermat.

(** ** Pocklington *)
Lemma pow_mod1 b n k : 1 < n -> 0 <= k -> b mod n = 1 -> b ^ k mod n = 1.
Proof. intros hn hk h. rewrite Zpower_mod, h, Z.pow_1_l by lia. apply Z.mod_small. lia. Qed.
Lemma divisor_residue N p a r : prime p -> (p | N - 1) -> 1 < N -> a ^ (N - 1) mod N = 1 -> rel_prime (a ^ ((N - 1) / p) - 1) N -> prime r -> (r | N) -> (p | r - 1).
Proof.
  intros hp hd hN h1 hg hr hrN. pose proof (prime_ge_2 p hp). pose proof (prime_ge_2 r hr). destruct (Zdivide_dec p (r - 1)) as [y|hno]; [exact y|exfalso].
  assert (h1r : a ^ (N - 1) mod r = 1). { destruct hrN as (k & hk). rewrite (Zmod_div_mod r N (a ^ (N - 1))), h1 by (try lia; exists k; exact hk). apply Z.mod_small. lia. }
  destruct hd as (m & hm). assert (hm0 : 0 <= m) by nia. assert (em : (N - 1) / p = m) by (rewrite hm; apply Z.div_mul; lia). rewrite em in hg.
  set (b := a ^ m) in *. assert (hbp : b ^ p mod r = 1). { unfold b. rewrite <- Z.pow_mul_r by lia. rewrite <- hm. exact h1r. }
  assert (hb0 : b mod r <> 0). { intros h. rewrite Zpower_mod, h, Z.pow_0_l, Z.mod_0_l in hbp by lia. lia. }
  assert (hbr := fermat r hr b hb0).
  assert (hb1 : b mod r <> 1).
  { intros h. assert (hx : (r | b - 1)). { apply Z.mod_divide; [lia|]. rewrite Zminus_mod, h, (Z.mod_small 1) by lia. reflexivity. }
    destruct hg as [_ _ hg]. specialize (hg r hx hrN). apply Z.divide_1_r in hg. lia. }
  assert (hrp : rel_prime p (r - 1)) by (apply prime_rel_prime; assumption).
  apply rel_prime_bezout in hrp. destruct hrp as [u v huv].
  (* u p + v (r-1) = 1: shift to non-negative exponents *)
  set (t := Z.abs u + Z.abs v). assert (e : (u + t * (r - 1)) * p = 1 + (t * p - v) * (r - 1)) by nia.
  assert (hu : 0 <= u + t * (r - 1)) by (unfold t; nia). assert (hv : 0 <= t * p - v) by (unfold t; nia).
  apply hb1. transitivity ((b ^ p) ^ (u + t * (r - 1)) mod r); [|apply pow_mod1; [lia|exact hu|exact hbp]].
  rewrite <- Z.pow_mul_r, (Z.mul_comm p), e, Z.pow_add_r, Z.pow_1_r, (Z.mul_comm _ (r - 1)), Z.pow_mul_r by nia.
  rewrite Z.mul_mod, (pow_mod1 (b ^ (r - 1))), Z.mul_1_r, Z.mod_mod by (try lia; exact hbr). reflexivity.
Qed.
Lemma small_divisor N : 1 < N -> ~ prime N -> exists r, prime r /\ (r | N) /\ r * r <= N.
Proof.
  revert N. assert (g : forall n N, (Z.to_nat N <= n)%nat -> 1 < N -> exists r, prime r /\ (r | N)).
  { induction n as [|n IH]; intros N hn hN; [lia|]. destruct (prime_dec N) as [h|h]; [exists N; split; [exact h|apply Z.divide_refl]|].
    destruct (not_prime_divide N hN h) as (d & hd & hdN). destruct (IH d) as (r & h1 & h2); [lia|lia|]. exists r. split; [exact h1|]. eapply Z.divide_trans; [exact h2|exact hdN]. }
  intros N hN h. destruct (not_prime_divide N hN h) as (d & hd & (k & hk)).
  assert (hk1 : 1 < k) by nia. destruct (Z_le_gt_dec d k) as [hl|hl].
  - destruct (g _ d (Nat.le_refl _)) as (r & h1 & h2); [lia|]. exists r. split; [exact h1|]. split; [eapply Z.divide_trans; [exact h2|exists k; exact hk]|].
    apply Z.divide_pos_le in h2; [|lia]. pose proof (prime_ge_2 r h1). nia.
  - destruct (g _ k (Nat.le_refl _)) as (r & h1 & h2); [lia|]. exists r. split; [exact h1|]. split; [eapply Z.divide_trans; [exact h2|exists d; lia]|].
    apply Z.divide_pos_le in h2; [|lia]. pose proof (prime_ge_2 r h1). nia.
Qed.
(** every prime divisor is 1 modulo F, and F is greater than the square root *)
Lemma large_residue N F : 1 < N -> 1 < F -> N < (F + 1) * (F + 1) -> (forall r, prime r -> (r | N) -> (F | r - 1)) -> prime N.
Proof.
  intros hN hF hs h. destruct (prime_dec N) as [y|n]; [exact y|exfalso]. destruct (small_divisor N hN n) as (r & h1 & h2 & h3).
  specialize (h r h1 h2). pose proof (prime_ge_2 r h1). apply Z.divide_pos_le in h; [|lia]. nia.
Qed.

(** ** checking, with the quotients of the modular reductions given *)
Fixpoint run (n a x : Z) (l : list (bool * Z)) : Z :=
  match l with [] => x | (c, q) :: r => run n a ((if c : bool then a * (x * x) else x * x) - q * n) r end.
Fixpoint expo (e : Z) (l : list (bool * Z)) : Z := match l with [] => e | (c, _) :: r => expo (2 * e + if c : bool then 1 else 0) r end.
Lemma run_ok n a l : 1 < n -> forall x e, 0 <= e -> x mod n = a ^ e mod n -> run n a x l mod n = a ^ expo e l mod n.
Proof.
  intros hn. induction l as [|[c q] l IH]; intros x e he h; [exact h|]. cbn [run expo]. apply IH; [destruct c; lia|].
  assert (hy : (x * x) mod n = a ^ (2 * e) mod n) by (rewrite Z.mul_mod, h, <- Z.mul_mod by lia; rewrite <- Z.pow_add_r by lia; do 2 f_equal; lia).
  assert (hq : forall y, (y - q * n) mod n = y mod n) by (intros y; replace (y - q * n) with (y + (- q) * n) by lia; apply Z_mod_plus_full).
  rewrite hq. destruct c; [|rewrite Z.add_0_r; exact hy]. rewrite Z.mul_mod, hy, <- Z.mul_mod by lia. rewrite Z.add_1_r, Z.pow_succ_r by lia. reflexivity.
Qed.
Lemma run_pow n a l v e : 1 < n -> run n a 1 l = v -> expo 0 l = e -> a ^ e mod n = v mod n.
Proof. intros hn <- <-. symmetry. apply run_ok; [exact hn|lia|reflexivity]. Qed.
(** one prime factor p of N - 1: witnesses for a^(N-1) = 1, for w = a^((N-1)/p) and for w - 1 being invertible *)
Definition check1 (N p a : Z) (l1 l2 : list (bool * Z)) (u v : Z) : bool :=
  (1 <? N) && ((N - 1) mod p =? 0) && (run N a 1 l1 =? 1) && (expo 0 l1 =? N - 1) && (expo 0 l2 =? (N - 1) / p) && (u * (run N a 1 l2 - 1) + v * N =? 1).
Lemma check1_ok N p a l1 l2 u v : prime p -> check1 N p a l1 l2 u v = true -> 1 < N /\ forall r, prime r -> (r | N) -> (p | r - 1).
Proof.
  intros hp h. unfold check1 in h. repeat (apply andb_prop in h as [h ?]). pose proof (prime_ge_2 p hp). apply Z.ltb_lt in h. rewrite !Z.eqb_eq in *. split; [exact h|]. intros r hr hrN.
  apply (divisor_residue N p a r hp); [apply Z.mod_divide; [lia|assumption]|exact h| | |exact hr|exact hrN].
  - rewrite (run_pow N a l1 1 (N - 1)) by assumption. apply Z.mod_small. lia.
  - set (w := run N a 1 l2) in *. assert (hw : a ^ ((N - 1) / p) mod N = w mod N) by (apply (run_pow N a l2); [exact h|reflexivity|assumption]).
    assert (hd : (N | a ^ ((N - 1) / p) - w)). { apply Z.mod_divide; [lia|]. rewrite Zminus_mod, hw, Z.sub_diag. reflexivity. }
    destruct hd as (k & hk). apply bezout_rel_prime. apply (Bezout_intro _ _ _ u (v - u * k)). nia.
Qed.
Lemma check1_prime N p a l1 l2 u v : prime p -> check1 N p a l1 l2 u v = true -> (N <? (p + 1) * (p + 1)) = true -> prime N.
Proof.
  intros hp h hs. destruct (check1_ok N p a l1 l2 u v hp h) as [hN hr]. apply Z.ltb_lt in hs. pose proof (prime_ge_2 p hp). apply (large_residue N p); [exact hN|lia|exact hs|exact hr].
Qed.
Lemma check2_prime N p p' a a' l1 l2 u v l1' l2' u' v' : prime p -> prime p' -> p <> p' -> check1 N p a l1 l2 u v = true -> check1 N p' a' l1' l2' u' v' = true ->
  (N <? (p * p' + 1) * (p * p' + 1)) = true -> prime N.
Proof.
  intros hp hp' hne h h' hs. destruct (check1_ok N p a l1 l2 u v hp h) as [hN hr]. destruct (check1_ok N p' a' l1' l2' u' v' hp' h') as [_ hr']. apply Z.ltb_lt in hs.
  pose proof (prime_ge_2 p hp). pose proof (prime_ge_2 p' hp'). apply (large_residue N (p * p')); [exact hN|nia|exact hs|]. intros r h1 h2.
  destruct (hr r h1 h2) as (k & hk). assert (hx := hr' r h1 h2). rewrite hk, Z.mul_comm in hx. apply Gauss in hx; [destruct hx as (j & hj); exists j; rewrite hk, hj; ring|].
  apply prime_rel_prime; [exact hp'|]. intros hd. apply hne. apply (prime_div_prime p' p hp' hp) in hd. congruence.
Qed.
(** trial division *)
Fixpoint trial (fuel : nat) (d n : Z) : bool := match fuel with O => n <? d * d | S f => negb (n mod d =? 0) && trial f (d + 1) n end.
Lemma trial_ok fuel d n : 2 <= d -> trial fuel d n = true -> forall r, d <= r -> (r | n) -> 0 < n -> n < r * r.
Proof.
  revert d. induction fuel as [|f IH]; intros d hd h r hr hrn hn; cbn [trial] in h.
  - apply Z.ltb_lt in h. nia.
  - apply andb_prop in h as [h1 h2]. destruct (Z.eq_dec r d) as [->|hne]; [|apply (IH (d + 1)); try assumption; lia].
    exfalso. apply Z.mod_divide in hrn; [|lia]. rewrite hrn in h1. discriminate.
Qed.
Lemma trial_prime fuel n : 1 < n -> trial fuel 2 n = true -> prime n.
Proof.
  intros hn h. destruct (prime_dec n) as [y|hno]; [exact y|exfalso]. destruct (small_divisor n hn hno) as (r & h1 & h2 & h3). pose proof (prime_ge_2 r h1).
  assert (n < r * r) by (apply (trial_ok fuel 2 n); try assumption; lia). lia.
Qed.
