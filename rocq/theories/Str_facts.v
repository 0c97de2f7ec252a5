(** What the string parser accepts. *)
From Verif Require Import Bt_facts.
From Coq Require Import ZifyBool ZifyN ZifyNat.
From Coq Require DecimalN DecimalFacts.

Lemma take_digits_bytes s : forall u t, take_digits s = (u, t) -> s = uint_bytes u ++ t.
Proof.
  induction s as [|c s IH]; intros u t h; cbn [take_digits] in h; [injection h as <- <-; reflexivity|].
  destruct (take_digits s) as [u0 t0]. specialize (IH u0 t0 eq_refl).
  repeat match type of h with (if Ascii.eqb c ?x then _ else _) = _ => destruct (Ascii.eqb_spec c x) as [->|_]; [injection h as <- <-; cbn [uint_bytes app]; congruence|] end.
  injection h as <- <-. reflexivity.
Qed.
Lemma uint_zeros u : exists z, uint_bytes u = repeat "0"%char z ++ uint_bytes (Decimal.nzhead u).
Proof.
  induction u as [|u (z & IH)|u _|u _|u _|u _|u _|u _|u _|u _|u _]; try (exists 0; reflexivity). exists (S z). cbn [uint_bytes Decimal.nzhead repeat app]. congruence.
Qed.
Lemma uint_zeros_norm u : u <> Decimal.Nil -> exists z, uint_bytes u = repeat "0"%char z ++ uint_bytes (Decimal.unorm u).
Proof.
  intros hu. destruct (uint_zeros u) as (z & hz). unfold Decimal.unorm. destruct (Decimal.nzhead u) eqn:E; try (exists z; exact hz).
  cbn [uint_bytes] in *. rewrite app_nil_r in hz. destruct z as [|z].
  - exfalso. apply hu. destruct u; cbn [uint_bytes repeat] in hz; try discriminate. reflexivity.
  - exists z. rewrite hz. change ["0"%char] with (repeat "0"%char 1). rewrite <- repeat_app. f_equal. lia.
Qed.
(** what is read as a string is its canonical encoding, up to leading zeros of the length *)
Lemma parse_str_bytes s x t : parse_str s = Some (x, t) -> exists z, s = repeat "0"%char z ++ enc_str x ++ t.
Proof.
  unfold parse_str, parse_uint. destruct (take_digits s) as [u r] eqn:E. apply take_digits_bytes in E. intros h.
  assert (hu : u <> Decimal.Nil) by (intros ->; discriminate).
  assert (h' : match (if (N.of_uint u <=? uint64_max)%N then Some (N.of_uint u, r) else None) with
    | Some (n, c :: t) => if Ascii.eqb c ":" && (n <=? N.of_nat (length t))%N then Some (firstn (N.to_nat n) t, skipn (N.to_nat n) t) else None
    | _ => None end = Some (x, t)) by (destruct u; try exact h; destruct hu; reflexivity).
  clear h. destruct (_ <=? _)%N; [|discriminate]. destruct r as [|c r]; [discriminate|]. destruct (Ascii.eqb_spec c ":") as [->|]; [|discriminate]. cbn [andb] in h'.
  destruct (N.of_uint u <=? N.of_nat (length r))%N eqn:El; [|discriminate]. apply N.leb_le in El. injection h' as hx ht.
  assert (hl : N.of_nat (length x) = N.of_uint u) by (rewrite <- hx, firstn_length; lia).
  destruct (uint_zeros_norm u hu) as (z & hz). exists z. rewrite E, hz. rewrite <- DecimalN.Unsigned.to_of, <- hl. unfold enc_str, dec. rewrite <- !app_assoc. cbn [app]. do 3 f_equal.
  rewrite <- hx, <- ht. symmetry. apply firstn_skipn.
Qed.
