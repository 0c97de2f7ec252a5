(** Hex strings and session ids. *)
From Verif Require Import Hex.

Lemma hex_digit_char n : (n < 16)%N -> hex_digit (hex_char n) = Some n.
Proof.
  intros h. assert (hall : forallb (fun n => match hex_digit (hex_char n) with Some m => N.eqb m n | None => false end) (map N.of_nat (seq 0 16)) = true) by reflexivity.
  rewrite forallb_forall in hall. specialize (hall n). destruct (hex_digit (hex_char n)) as [m|].
  - f_equal. apply N.eqb_eq. apply hall. apply in_map_iff. exists (N.to_nat n). split; [lia|]. apply in_seq. lia.
  - exfalso. assert (false = true); [apply hall; apply in_map_iff; exists (N.to_nat n); split; [lia|apply in_seq; lia]|discriminate].
Qed.
Lemma hex_digit_lt c n : hex_digit c = Some n -> (n < 16)%N.
Proof.
  unfold hex_digit. cbv zeta.
  destruct ((48 <=? N_of_ascii c)%N && (N_of_ascii c <=? 57)%N) eqn:E1; [intros h; injection h as h; apply andb_true_iff in E1 as [h1 h2]; apply N.leb_le in h1, h2; lia|].
  destruct ((97 <=? N_of_ascii c)%N && (N_of_ascii c <=? 102)%N) eqn:E2; [intros h; injection h as h; apply andb_true_iff in E2 as [h1 h2]; apply N.leb_le in h1, h2; lia|].
  destruct ((65 <=? N_of_ascii c)%N && (N_of_ascii c <=? 70)%N) eqn:E3; [intros h; injection h as h; apply andb_true_iff in E3 as [h1 h2]; apply N.leb_le in h1, h2; lia|discriminate].
Qed.
Lemma N_of_ascii_lt c : (N_of_ascii c < 256)%N.
Proof. destruct c as [[|] [|] [|] [|] [|] [|] [|] [|]]; reflexivity. Qed.
Lemma from_to_hex s : from_hex (to_hex s) = Some s.
Proof.
  induction s as [|c s IH]; [reflexivity|]. unfold to_hex in *. cbn [flat_map app from_hex]. pose proof (N_of_ascii_lt c) as hc.
  pose proof (N.div_lt_upper_bound (N_of_ascii c) 16 16 ltac:(lia) hc) as h1. pose proof (N.mod_lt (N_of_ascii c) 16 ltac:(lia)) as h2.
  rewrite !hex_digit_char by assumption. rewrite IH. f_equal. f_equal. rewrite <- N.div_mod by lia. apply ascii_N_embedding.
Qed.
Lemma to_hex_length s : length (to_hex s) = 2 * length s.
Proof. induction s as [|c s IH]; [reflexivity|]. unfold to_hex in *. cbn [flat_map app length]. lia. Qed.
Lemma from_hex_length s : forall t, from_hex s = Some t -> length s = 2 * length t.
Proof.
  assert (h : forall n s t, length s <= n -> from_hex s = Some t -> length s = 2 * length t); [|intros t; apply (h (length s)); lia].
  induction n as [|n IH]; intros [|x [|y r]] t hl hf; cbn [from_hex] in hf; try discriminate; try (injection hf as <-; reflexivity); [cbn in hl; lia|].
  destruct (hex_digit x), (hex_digit y), (from_hex r) as [u|] eqn:E; try discriminate. injection hf as <-. cbn [length] in *. apply IH in E; lia.
Qed.
Lemma sid_of_ok pk : length pk = 32 -> session_id_ok (sid_of pk) (b "05") = true.
Proof.
  intros h. unfold session_id_ok, sid_of. rewrite app_length, to_hex_length, h. change (Nat.eqb _ _) with true. cbn [andb].
  unfold is_hex. change (b "05" ++ to_hex pk) with ("0"%char :: "5"%char :: to_hex pk). cbn [from_hex]. rewrite from_to_hex.
  change (hex_digit "0") with (Some 0%N). change (hex_digit "5") with (Some 5%N). cbn [andb]. change (length (b "05")) with 2. cbn [firstn]. apply eqb_refl.
Qed.
Lemma sid_of_pk pk : length pk = 32 -> session_id_pk (sid_of pk) (b "05") = Ok pk.
Proof. intros h. unfold session_id_pk. rewrite sid_of_ok by exact h. unfold sid_of. change (skipn 2 (b "05" ++ to_hex pk)) with (to_hex pk). rewrite from_to_hex. reflexivity. Qed.
Lemma session_id_pk_length sid prefix pk : length prefix = 2 -> session_id_pk sid prefix = Ok pk -> length pk = 32.
Proof.
  intros hp. unfold session_id_pk, session_id_ok. destruct (_ && _) eqn:E; [|discriminate]. destruct (from_hex (skipn 2 sid)) as [t|] eqn:Et; [|discriminate]. intros [= <-].
  apply andb_true_iff in E as [E _]. apply andb_true_iff in E as [E _]. apply Nat.eqb_eq in E. apply from_hex_length in Et. rewrite skipn_length in Et. lia.
Qed.
