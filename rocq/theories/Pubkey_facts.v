(** Proofs about encoded public keys and session ids. *)
From Verif Require Import CommunitySpec Pubkey Hex_facts Maps Records_facts Community_facts.

Lemma byte_back c : ascii_of_N (value_of_bits (byte_bits c)) = c.
Proof. apply Ascii.eqb_eq. apply (all_ascii (fun c => Ascii.eqb (ascii_of_N (value_of_bits (byte_bits c))) c)). vm_compute. reflexivity. Qed.
Lemma bytes_back s r : length r < 8 -> bytes_of_bits (flat_map byte_bits s ++ r) = s.
Proof.
  intros hr. induction s as [|c s IH].
  - cbn [flat_map app]. do 8 (destruct r as [|? r]; [reflexivity|]). cbn in hr. lia.
  - cbn [flat_map]. rewrite <- app_assoc. pose proof (byte_back c) as hc. unfold byte_bits in *. cbn [bits_of app bytes_of_bits] in *. rewrite IH, hc. reflexivity.
Qed.
Lemma bits_length s : length (flat_map byte_bits s) = 8 * length s.
Proof. induction s as [|c s IH]; [reflexivity|]. cbn [flat_map]. rewrite app_length, IH. cbn [byte_bits bits_of length]. lia. Qed.
Lemma bytes_of_bits_length l : forall n, length l <= n -> length (bytes_of_bits l) = length l / 8.
Proof.
  intros n. revert l. induction n as [|n IH]; intros l h.
  - destruct l; [reflexivity|cbn in h; lia].
  - do 8 (destruct l as [|? l]; [reflexivity|]). cbn [bytes_of_bits length]. rewrite IH by (cbn in h; lia).
    replace (S (S (S (S (S (S (S (S (length l))))))))) with (1 * 8 + length l) by lia. rewrite Nat.div_add_l by lia. reflexivity.
Qed.
Lemma groups_spec k : 0 < k -> forall f l, length l <= f -> exists p, p < k /\ concat (groups f k l) = l ++ repeat false p /\ Forall (fun g => length g = k) (groups f k l).
Proof.
  intros hk. induction f as [|f IH]; intros l hl.
  - destruct l; [|cbn in hl; lia]. exists 0. repeat split; [exact hk|constructor].
  - destruct l as [|x l]; [exists 0; repeat split; [exact hk|constructor]|]. cbn [groups concat]. destruct (IH (skipn k (x :: l))) as (p & h1 & h2 & h3).
    { rewrite skipn_length. cbn [length] in *. lia. }
    assert (hg : length (firstn k ((x :: l) ++ repeat false k)) = k) by (rewrite firstn_length, app_length, repeat_length; lia).
    destruct (Nat.le_gt_cases k (length (x :: l))) as [hc|hc].
    + exists p. split; [exact h1|]. split; [|constructor; assumption]. rewrite h2, firstn_app, app_assoc. replace (k - length (x :: l)) with 0 by lia. cbn [firstn]. rewrite app_nil_r, firstn_skipn. reflexivity.
    + exists (k - length (x :: l)). split; [cbn [length]; lia|]. split; [|constructor; assumption]. rewrite skipn_all2 by lia. replace (groups f k []) with (@nil (list bool)) by (destruct f; reflexivity). cbn [concat]. rewrite app_nil_r.
      rewrite firstn_app, firstn_all2 by lia. f_equal. assert (hrep : forall a c, a <= c -> firstn a (repeat false c) = repeat false a).
      { intros a. induction a as [|a IHa]; intros [|c] h; try reflexivity; try lia. cbn [firstn repeat]. rewrite IHa by lia. reflexivity. }
      apply hrep. lia.
Qed.
Lemma concat_length {A} k (gs : list (list A)) : Forall (fun g => length g = k) gs -> length (concat gs) = k * length gs.
Proof. induction 1 as [|g gs h _ IH]; [cbn; lia|]. cbn [concat length]. rewrite app_length, h, IH. lia. Qed.

Definition alphabet_ok (a : bytes) (k : nat) : Prop :=
  (forall l, length l = k -> bits_of k (value_of_bits l) = l) /\ (forall l, length l = k -> index_in (char_at a (value_of_bits l)) a = Some (value_of_bits l)).
Lemma b64_ok : alphabet_ok b64_alphabet 6.
Proof.
  split; intros l h; do 6 (destruct l as [|[|] l]; try discriminate h); destruct l; try discriminate h; reflexivity.
Qed.
Lemma b32z_ok : alphabet_ok b32z_alphabet 5.
Proof.
  split; intros l h; do 5 (destruct l as [|[|] l]; try discriminate h); destruct l; try discriminate h; reflexivity.
Qed.
Lemma symbols_back a k gs : alphabet_ok a k -> Forall (fun g => length g = k) gs -> symbols a (map (fun g => char_at a (value_of_bits g)) gs) = Some (map value_of_bits gs) /\
  flat_map (bits_of k) (map value_of_bits gs) = concat gs.
Proof.
  intros [h1 h2]. induction 1 as [|g gs h _ [i1 i2]]; [split; reflexivity|]. cbn [map symbols flat_map concat]. rewrite h2, i1, h1, i2 by exact h. split; reflexivity.
Qed.
Lemma encode_back a k s : alphabet_ok a k -> 0 < k -> k <= 8 -> decode_with a k (encode_with a k s) = Some s /\ exists p, p < k /\ k * length (encode_with a k s) = 8 * length s + p.
Proof.
  intros ha hk hk8. unfold decode_with, encode_with. cbv zeta. destruct (groups_spec k hk (length (flat_map byte_bits s)) (flat_map byte_bits s) (le_n _)) as (p & h1 & h2 & h3).
  destruct (symbols_back a k _ ha h3) as [e1 e2]. rewrite e1, e2, h2. split.
  - rewrite bytes_back; [reflexivity|]. rewrite repeat_length. lia.
  - exists p. split; [exact h1|]. rewrite map_length, <- (concat_length k) by exact h3. rewrite h2, app_length, repeat_length, bits_length. reflexivity.
Qed.
(** characters *)
Lemma index_in_In a c : index_in c a <> None <-> In c a.
Proof.
  induction a as [|x a IH]; [split; [intros h; exfalso; apply h; reflexivity|intros []]|]. cbn [index_in In]. destruct (Ascii.eqb c x) eqn:e.
  - apply Ascii.eqb_eq in e. subst. split; [auto|intros _; discriminate].
  - apply Ascii.eqb_neq in e. split.
    + intros h. right. apply IH. destruct (index_in c a); [discriminate|exact h].
    + intros [h|h]; [congruence|]. apply IH in h. destruct (index_in c a); [discriminate|congruence].
Qed.
Lemma symbols_some a s : (exists l, symbols a s = Some l) <-> Forall (fun c => In c a) s.
Proof.
  induction s as [|c s IH]; [split; [constructor|eexists; reflexivity]|]. cbn [symbols]. split.
  - intros [l h]. destruct (index_in c a) eqn:e; [|discriminate]. destruct (symbols a s); [|discriminate]. constructor; [apply index_in_In; congruence|apply IH; eauto].
  - intros h. inversion h as [|x y h1 h2]; subst. apply index_in_In in h1. apply IH in h2 as [l ->]. destruct (index_in c a); [eexists; reflexivity|congruence].
Qed.
Lemma symbols_length a s l : symbols a s = Some l -> length l = length s.
Proof.
  revert l. induction s as [|c s IH]; intros l h; cbn [symbols] in h; [injection h as <-; reflexivity|]. destruct (index_in c a); [|discriminate]. destruct (symbols a s); [|discriminate].
  injection h as <-. cbn [length]. f_equal. apply IH. reflexivity.
Qed.
Lemma flat_bits_length k l : length (flat_map (bits_of k) l) = k * length l.
Proof.
  induction l as [|n l IH]; [cbn; lia|]. cbn [flat_map length]. rewrite app_length, IH. assert (h : length (bits_of k n) = k) by (clear; induction k as [|k IHk]; [reflexivity|cbn [bits_of length]; rewrite IHk; reflexivity]). rewrite h. lia.
Qed.
Lemma decode_length a k s t : decode_with a k s = Some t -> length t = k * length s / 8.
Proof.
  unfold decode_with. destruct (symbols a s) as [l|] eqn:e; [|discriminate]. intros h. injection h as <-. rewrite (bytes_of_bits_length _ _ (le_n _)), flat_bits_length, (symbols_length _ _ _ e). reflexivity.
Qed.
Lemma decode_some a k s : (exists t, decode_with a k s = Some t) <-> Forall (fun c => In c a) s.
Proof.
  rewrite <- symbols_some. unfold decode_with. split; intros [l h].
  - destruct (symbols a s) as [l'|]; [eauto|discriminate].
  - rewrite h. eauto.
Qed.

(** ** decode_pubkey *)
Lemma last_rev {A} (s : list A) d : last s d = hd d (rev s).
Proof. induction s as [|c s _] using rev_ind; [reflexivity|]. rewrite last_last, rev_app_distr. reflexivity. Qed.
Lemma b64_body_43 s : length s = 43 -> b64_body s = s.
Proof. intros h. unfold b64_body. rewrite h. reflexivity. Qed.
Lemma b64_body_44 s d : length s = 42 -> b64_body ((s ++ [d]) ++ b "=") = if Ascii.eqb d "=" then s else s ++ [d].
Proof.
  intros h. unfold b64_body. rewrite !app_length, h. change ((42 + length [d] + length (b "=")) mod 4) with 0. cbn [Nat.eqb].
  rewrite !rev_app_distr. change (rev (b "=") ++ rev [d] ++ rev s) with ("="%char :: d :: rev s). cbn [Ascii.eqb Bool.eqb]. destruct (Ascii.eqb d "="); [apply rev_involutive|]. cbn [rev]. rewrite rev_involutive. reflexivity.
Qed.
Definition in_alphabet (a s : bytes) : Prop := Forall (fun c => In c a) s.
Definition hex_alphabet : bytes := b "0123456789abcdefABCDEF".
Lemma hex_digit_in c : (exists n, hex_digit c = Some n) <-> In c hex_alphabet.
Proof.
  pose proof (all_ascii (fun c => Bool.eqb (match hex_digit c with Some _ => true | None => false end) (existsb (Ascii.eqb c) hex_alphabet)) ltac:(vm_compute; reflexivity) c) as h. cbv beta in h. apply eqb_prop in h.
  split.
  - intros [n e]. rewrite e in h. symmetry in h. apply existsb_exists in h as (x & hx & e2). apply Ascii.eqb_eq in e2. subst. exact hx.
  - intros hin. assert (existsb (Ascii.eqb c) hex_alphabet = true) as e by (apply existsb_exists; exists c; split; [exact hin|apply Ascii.eqb_refl]). rewrite e in h. destruct (hex_digit c); [eauto|discriminate].
Qed.
Lemma from_hex_some : forall n s, length s = 2 * n -> (exists t, from_hex s = Some t) <-> in_alphabet hex_alphabet s.
Proof.
  induction n as [|n IH]; intros s hl.
  - destruct s; [|discriminate]. split; [constructor|eexists; reflexivity].
  - destruct s as [|x [|y s]]; try (cbn in hl; lia). specialize (IH s ltac:(cbn in hl; lia)). cbn [from_hex]. split.
    + intros [t h]. destruct (hex_digit x) eqn:e1; [|discriminate]. destruct (hex_digit y) eqn:e2; [|discriminate]. destruct (from_hex s) eqn:e3; [|discriminate].
      constructor; [apply hex_digit_in; eauto|]. constructor; [apply hex_digit_in; eauto|]. apply IH. eauto.
    + intros h. inversion h as [|a c h1 h2]; subst. inversion h2 as [|a c h3 h4]; subst. apply hex_digit_in in h1 as [p1 ->]. apply hex_digit_in in h3 as [p2 ->]. apply IH in h4 as [t ->]. eauto.
Qed.
Lemma of_opt_ok {A} (o : option A) x : of_opt o Throw = Ok x <-> o = Some x.
Proof. destruct o; cbn; split; congruence. Qed.
Inductive encoded : bytes -> bytes -> Prop :=
| enc_hex s pk : length s = 64 -> from_hex s = Some pk -> encoded s pk
| enc_b64 s pk : length s = 43 -> decode_with b64_alphabet 6 s = Some pk -> encoded s pk
| enc_b64_1 s pk : length s = 43 -> decode_with b64_alphabet 6 s = Some pk -> encoded (s ++ b "=") pk
| enc_b64_2 s pk : length s = 42 -> decode_with b64_alphabet 6 s = Some pk -> encoded (s ++ b "==") pk
| enc_b32z s pk : length s = 52 -> decode_with b32z_alphabet 5 (make_lc s) = Some pk -> encoded s pk.
Lemma eq_not_in : ~ In "="%char b64_alphabet.
Proof. cbn. intuition discriminate. Qed.
Lemma body_44 s d pk : length s = 42 -> (from_b64 ((s ++ [d]) ++ b "=") = Some pk <-> if Ascii.eqb d "=" then decode_with b64_alphabet 6 s = Some pk else decode_with b64_alphabet 6 (s ++ [d]) = Some pk).
Proof. intros h. unfold from_b64. rewrite b64_body_44 by exact h. destruct (Ascii.eqb d "="); reflexivity. Qed.
Lemma len_44 (s : bytes) : length s = 44 -> exists (x : bytes) d c, s = (x ++ [d]) ++ [c] /\ length x = 42.
Proof.
  intros h. destruct s as [|c s _] using rev_ind; [discriminate|]. rewrite app_length in h. cbn in h. destruct s as [|d s _] using rev_ind; [cbn in h; lia|]. rewrite app_length in h. cbn in h.
  exists s, d, c. split; [reflexivity|lia].
Qed.
Lemma decode_iff s pk : decode_pubkey s = Ok pk <-> encoded s pk.
Proof.
  unfold decode_pubkey. split.
  - destruct (Nat.eqb (length s) 64) eqn:e64.
    { apply Nat.eqb_eq in e64. rewrite e64. cbn [Nat.eqb andb orb]. unfold is_hex. destruct (from_hex s) as [t|] eqn:eh; [|discriminate]. cbn [of_opt]. intros h. apply enc_hex; [exact e64|congruence]. }
    cbn [andb]. destruct (Nat.eqb (length s) 43) eqn:e43.
    { apply Nat.eqb_eq in e43. rewrite e43. cbn [orb andb Nat.eqb]. unfold from_b64. rewrite b64_body_43 by exact e43. destruct (decode_with b64_alphabet 6 s) as [t|] eqn:ed; [|discriminate]. cbn [of_opt]. intros h. apply enc_b64; [exact e43|congruence]. }
    cbn [orb]. destruct (Nat.eqb (length s) 44) eqn:e44.
    { apply Nat.eqb_eq in e44. rewrite e44. destruct (len_44 s e44) as (x & d & c & -> & hx). rewrite last_last. destruct (Ascii.eqb c "=") eqn:ec; [|intros h; cbn [andb] in h; discriminate h]. apply Ascii.eqb_eq in ec. subst c.
      cbn [andb Nat.eqb]. destruct (from_b64 ((x ++ [d]) ++ ["="%char])) as [t|] eqn:ef; [|discriminate]. cbn [of_opt]. intros h. assert (t = pk) by congruence. subst t.
      apply (proj1 (body_44 x d pk hx)) in ef. destruct (Ascii.eqb d "=") eqn:ed.
      - apply Ascii.eqb_eq in ed. subst d. rewrite <- app_assoc. apply enc_b64_2; assumption.
      - apply enc_b64_1; [|exact ef]. rewrite app_length, hx. reflexivity. }
    cbn [andb]. destruct (Nat.eqb (length s) 52) eqn:e52; [|discriminate]. apply Nat.eqb_eq in e52. cbn [andb]. unfold from_b32z. destruct (decode_with b32z_alphabet 5 (make_lc s)) as [t|] eqn:ed; [|discriminate]. cbn [of_opt]. intros h. apply enc_b32z; [exact e52|congruence].
  - intros h. destruct h as [s pk h1 h2|s pk h1 h2|s pk h1 h2|s pk h1 h2|s pk h1 h2].
    + rewrite h1. unfold is_hex. rewrite h2. reflexivity.
    + rewrite h1. unfold from_b64. rewrite b64_body_43, h2 by exact h1. reflexivity.
    + rewrite app_length, h1. cbn [Nat.eqb Nat.add length b list_ascii_of_string andb orb]. rewrite last_last. change (Ascii.eqb "=" "=") with true. cbn [andb orb].
      destruct s as [|d s _] using rev_ind; [discriminate|]. rewrite app_length in h1. cbn in h1. assert (hs : length s = 42) by lia.
      assert (hd : Ascii.eqb d "=" = false).
      { apply Ascii.eqb_neq. intros ->. assert (ha : exists t, decode_with b64_alphabet 6 (s ++ ["="%char]) = Some t) by eauto. apply decode_some in ha. apply Forall_app in ha as [_ ha]. inversion ha as [|a c ha1 _]; subst. exact (eq_not_in ha1). }
      pose proof (proj2 (body_44 s d pk hs)) as hb. rewrite hd in hb. change ["="%char] with (b "="). rewrite (hb h2). reflexivity.
    + rewrite app_length, h1. cbn [Nat.eqb Nat.add length b list_ascii_of_string andb orb]. replace (s ++ ["="%char; "="%char]) with ((s ++ ["="%char]) ++ ["="%char]) by (rewrite <- app_assoc; reflexivity). rewrite last_last. change (Ascii.eqb "=" "=") with true. cbn [andb orb].
      pose proof (proj2 (body_44 s "="%char pk h1)) as hb. change (Ascii.eqb "=" "=") with true in hb. change ["="%char] with (b "=") in *. rewrite (hb h2). reflexivity.
    + rewrite h1. cbn [Nat.eqb andb orb]. unfold from_b32z. rewrite h2. reflexivity.
Qed.
Lemma encoded_length s pk : encoded s pk -> length pk = 32 \/ (exists t, s = t ++ b "==") /\ length pk = 31.
Proof.
  intros [s0 p h1 h2|s0 p h1 h2|s0 p h1 h2|s0 p h1 h2|s0 p h1 h2].
  - left. apply from_hex_length in h2. lia.
  - left. rewrite (decode_length _ _ _ _ h2), h1. reflexivity.
  - left. rewrite (decode_length _ _ _ _ h2), h1. reflexivity.
  - right. split; [eauto|]. rewrite (decode_length _ _ _ _ h2), h1. reflexivity.
  - left. rewrite (decode_length _ _ _ _ h2), lc_length, h1. reflexivity.
Qed.
(** what the library prints is read back *)
Lemma printed pk : length pk = 32 -> encoded (to_hex pk) pk /\ encoded (to_b64_pk pk) pk /\ encoded (encode_with b64_alphabet 6 pk) pk /\ encoded (to_b32z pk) pk.
Proof.
  intros h. destruct (encode_back b64_alphabet 6 pk b64_ok) as [h1 (p & hp & h2)]; try lia. destruct (encode_back b32z_alphabet 5 pk b32z_ok) as [h3 (q & hq & h4)]; try lia.
  rewrite h in h2, h4. split; [apply enc_hex; [rewrite to_hex_length; lia|apply from_to_hex]|]. split; [apply enc_b64_1; [lia|exact h1]|]. split; [apply enc_b64; [lia|exact h1]|].
  apply enc_b32z; [unfold to_b32z; lia|]. unfold to_b32z. replace (make_lc (encode_with b32z_alphabet 5 pk)) with (encode_with b32z_alphabet 5 pk); [exact h3|].
  symmetry. apply lc_nothing. assert (ha : exists t, decode_with b32z_alphabet 5 (encode_with b32z_alphabet 5 pk) = Some t) by eauto. apply decode_some in ha.
  apply forallb_forall. intros c hc. rewrite Forall_forall in ha. specialize (ha c hc). assert (hall : forallb (fun c => negb (host_upper c)) b32z_alphabet = true) by reflexivity. rewrite forallb_forall in hall. apply hall, ha.
Qed.
(** the accepted strings, by their characters *)
Lemma accepted_iff s : (exists pk, encoded s pk) <->
  length s = 64 /\ in_alphabet hex_alphabet s \/
  (exists t e, s = t ++ e /\ in_alphabet b64_alphabet t /\ (length t = 43 /\ (e = [] \/ e = b "=") \/ length t = 42 /\ e = b "==")) \/
  length s = 52 /\ in_alphabet b32z_alphabet (make_lc s).
Proof.
  split.
  - intros [pk h]. destruct h as [s0 p h1 h2|s0 p h1 h2|s0 p h1 h2|s0 p h1 h2|s0 p h1 h2].
    + left. split; [exact h1|]. apply (from_hex_some 32); [exact h1|eauto].
    + right. left. exists s0, []. rewrite app_nil_r. split; [reflexivity|]. split; [apply (decode_some _ 6); eauto|auto].
    + right. left. exists s0, (b "="). split; [reflexivity|]. split; [apply (decode_some _ 6); eauto|auto].
    + right. left. exists s0, (b "=="). split; [reflexivity|]. split; [apply (decode_some _ 6); eauto|auto].
    + right. right. split; [exact h1|]. apply (decode_some _ 5). eauto.
  - intros [[h1 h2]|[(t & e & -> & ha & h)|[h1 h2]]].
    + apply (from_hex_some 32) in h2 as [pk h2]; [|exact h1]. exists pk. apply enc_hex; assumption.
    + apply (decode_some _ 6) in ha as [pk ha]. exists pk. destruct h as [[h [-> | ->]]|[h ->]]; [rewrite app_nil_r; apply enc_b64|apply enc_b64_1|apply enc_b64_2]; assumption.
    + apply (decode_some _ 5) in h2 as [pk h2]. exists pk. apply enc_b32z; assumption.
Qed.
(** ** session ids *)
Lemma sid_iff sid k : session_id_to_bytes sid (b "05") = Ok k <->
  length sid = 66 /\ in_alphabet hex_alphabet sid /\ firstn 2 sid = b "05" /\ length k = 33 /\ to_hex k = make_lc sid.
Proof.
  unfold session_id_to_bytes, session_id_ok. change (64 + length (b "05")) with 66. change (length (b "05")) with 2. split.
  - destruct (Nat.eqb (length sid) 66) eqn:e; [|discriminate]. apply Nat.eqb_eq in e. cbn [andb]. unfold is_hex. destruct (from_hex sid) as [t|] eqn:eh; [|discriminate]. cbn [andb].
    destruct (eqb (firstn 2 sid) (b "05")) eqn:e5; [|discriminate]. cbn [of_opt]. intros h. assert (t = k) by congruence. subst t. apply eqb_eq in e5. split; [exact e|]. split; [apply (from_hex_some 33); [exact e|eauto]|].
    split; [exact e5|]. split; [apply from_hex_length in eh; lia|]. apply to_from_hex. exact eh.
  - intros (h1 & h2 & h3 & h4 & h5). rewrite h1, h3. apply (from_hex_some 33) in h2 as [t h2]; [|exact h1]. unfold is_hex. rewrite h2. cbn [Nat.eqb andb]. rewrite (eqb_refl (b "05")). cbn [of_opt]. f_equal.
    apply to_hex_inj. rewrite h5. apply to_from_hex. exact h2.
Qed.
