From Verif Require Import SessSpec Proto Ed_facts SessEnc_facts.
From Coq Require Import ZifyBool ZifyN ZifyNat.

Lemma byte_N n : (n < 256)%N -> N_of_ascii (byte n) = n.
Proof. apply N_ascii_embedding. Qed.
Lemma read_varint_enc n v r k : (v < 128 ^ N.of_nat n)%N -> n <= k -> read_varint k (varint n v ++ r) = if Nat.eqb n 0 then read_varint k r else Some (v, r).
Proof.
  revert v k. induction n as [|n IH]; intros v k hv hk; [reflexivity|]. destruct k as [|k]; [lia|]. cbn [varint Nat.eqb].
  rewrite Nat2N.inj_succ, N.pow_succ_r' in hv. destruct (v <? 128)%N eqn:e.
  - cbn [app read_varint]. rewrite byte_N by lia. rewrite e. reflexivity.
  - assert (hm : (v mod 128 < 128)%N) by (apply N.mod_lt; lia). cbn [app read_varint]. rewrite byte_N by lia. cbv zeta. replace (128 + v mod 128 <? 128)%N with false by lia.
    assert (hd : (v / 128 < 128 ^ N.of_nat n)%N) by (apply N.div_lt_upper_bound; lia).
    rewrite IH by (try exact hd; lia). destruct n as [|n]; [cbn [Nat.eqb]; change (128 ^ N.of_nat 0)%N with 1%N in hd|]. 
    + exfalso. assert (v / 128 = 0)%N by lia. pose proof (N.div_mod v 128). lia.
    + cbn [Nat.eqb]. do 2 f_equal. pose proof (N.div_mod v 128). lia.
Qed.
(** fewer groups suffice for a smaller number *)
Lemma varint_short n v : (v < 128 ^ N.of_nat (S n))%N -> forall k, varint (S n + k) v = varint (S n) v.
Proof.
  revert v. induction n as [|n IH]; intros v hv k.
  - cbn [Nat.add varint]. change (128 ^ N.of_nat 1)%N with 128%N in hv. replace (v <? 128)%N with true by lia. reflexivity.
  - cbn [Nat.add]. cbn [varint]. destruct (v <? 128)%N; [reflexivity|]. f_equal. apply (IH (v / 128)%N). rewrite Nat2N.inj_succ, N.pow_succ_r' in hv. apply N.div_lt_upper_bound; lia.
Qed.
Lemma read64 v r : (v < 2 ^ 64)%N -> read_varint 10 (varint64 v ++ r) = Some (v, r).
Proof. intros h. unfold varint64. rewrite (read_varint_enc 10 v r 10); [reflexivity| |lia]. eapply N.lt_trans; [exact h|]. vm_compute. reflexivity. Qed.
Lemma read32 v r : (v < 2 ^ 32)%N -> read_varint 5 (varint64 v ++ r) = Some (v, r).
Proof.
  intros h. unfold varint64. assert (h5 : (v < 128 ^ N.of_nat 5)%N) by (eapply N.lt_trans; [exact h|vm_compute; reflexivity]).
  rewrite (varint_short 4 v h5 5 : varint 10 v = varint 5 v). rewrite (read_varint_enc 5 v r 5); [reflexivity|exact h5|lia].
Qed.
Lemma varint64_cons v : exists c r, varint64 v = c :: r.
Proof. unfold varint64. cbn [varint]. destruct (v <? 128)%N; eauto. Qed.

Definition field_ok (f : N * wire) : Prop :=
  (1 <= fst f < 2 ^ 29)%N /\ match snd f with WVar v => (v < 2 ^ 64)%N | WBytes s => (N.of_nat (length s) <= MAX_SIZE)%N | WFixed => False end.
Lemma take_app (s r : bytes) n : n = length s -> take n (s ++ r) = Some (s, r).
Proof. intros ->. unfold take. rewrite app_length. replace (Nat.leb (length s) (length s + length r)) with true by lia. rewrite firstn_exact, skipn_exact by reflexivity. reflexivity. Qed.
Lemma parse_field fuel d f s : field_ok f -> parse_fields (S fuel) d [] (enc_field f ++ s) = match parse_fields fuel d [] s with Some l => Some (f :: l) | None => None end.
Proof.
  destruct f as [n w]. intros [hn hw]. cbn [fst snd] in hn, hw.
  assert (hs : forall x t, enc_field (n, w) ++ s = x :: t -> parse_fields (S fuel) d [] (x :: t) = match read_varint 5 (x :: t) with
          | None => None
          | Some (tag, r) =>
              let num := (tag mod 2 ^ 32 / 8)%N in
              let keep w t := match parse_fields fuel d [] t with Some l => Some ((num, w) :: l) | None => None end in
              if (num =? 0)%N then None
              else match (tag mod 8)%N with
                   | 0%N => match read_varint 10 r with Some (v, t) => keep (WVar (v mod 2 ^ 64)%N) t | None => None end
                   | 1%N => match take 8 r with Some (_, t) => keep WFixed t | None => None end
                   | 2%N =>
                       match read_varint 5 r with
                       | Some (n, t) => if (n <=? MAX_SIZE)%N then match take (N.to_nat n) t with Some (x, t) => keep (WBytes x) t | None => None end else None
                       | None => None
                       end
                   | 3%N => if Nat.ltb (length (@nil N)) d then parse_fields fuel d [num] r else None
                   | 4%N => None
                   | 5%N => match take 4 r with Some (_, t) => keep WFixed t | None => None end
                   | _ => None
                   end
          end) by (intros; reflexivity).
  pose proof (eq_refl : (2 ^ 32 = 8 * 2 ^ 29)%N) as h32.
  unfold enc_field in *. cbn [fst snd] in *. destruct w as [v|x|]; [| |contradiction].
  - destruct (varint64_cons (8 * n)) as (c & t & ec). rewrite ec in *. cbn [app] in *. rewrite (hs _ _ eq_refl).
    change (c :: (t ++ varint64 v) ++ s) with (((c :: t) ++ varint64 v) ++ s). rewrite <- ec, <- app_assoc, read32 by lia. cbv zeta.
    rewrite (N.mod_small (8 * n)) by lia. rewrite (N.mul_comm 8 n), N.div_mul, N.mod_mul by lia. replace (n =? 0)%N with false by lia.
    rewrite read64 by exact hw. rewrite N.mod_small by exact hw. reflexivity.
  - destruct (varint64_cons (8 * n + 2)) as (c & t & ec). rewrite ec in *. cbn [app] in *. rewrite (hs _ _ eq_refl).
    change (c :: (t ++ varint64 (N.of_nat (length x)) ++ x) ++ s) with (((c :: t) ++ varint64 (N.of_nat (length x)) ++ x) ++ s). rewrite <- ec, <- !app_assoc, read32 by lia. cbv zeta.
    rewrite (N.mod_small (8 * n + 2)) by lia. replace ((8 * n + 2) / 8)%N with n by (apply N.div_unique with 2%N; lia). replace ((8 * n + 2) mod 8)%N with 2%N by (apply N.mod_unique with n; lia).
    replace (n =? 0)%N with false by lia. rewrite read32 by (unfold MAX_SIZE in hw; lia). replace (N.of_nat (length x) <=? MAX_SIZE)%N with true by lia.
    rewrite take_app by lia. reflexivity.
Qed.
Lemma parse_enc fuel d l : Forall field_ok l -> length l <= fuel -> parse_fields fuel d [] (enc_fields l) = Some l.
Proof.
  revert fuel. induction l as [|f l IH]; intros fuel hf hl; [destruct fuel; reflexivity|]. inversion hf as [|? ? h1 h2]; subst. destruct fuel as [|fuel]; [cbn [length] in hl; lia|].
  unfold enc_fields. cbn [flat_map]. rewrite parse_field by exact h1. fold (enc_fields l). rewrite IH; [reflexivity|exact h2|cbn [length] in hl; lia].
Qed.
Lemma enc_len l : Forall field_ok l -> length l <= length (enc_fields l).
Proof.
  induction 1 as [|f l hf _ IH]; [cbn; lia|]. unfold enc_fields. cbn [flat_map length]. rewrite app_length. fold (enc_fields l). destruct f as [n [v|x|]]; cbn [enc_field snd fst].
  - destruct (varint64_cons (8 * n)) as (c & t & ->). cbn [app length]. lia.
  - destruct (varint64_cons (8 * n + 2)) as (c & t & ->). cbn [app length]. lia.
  - destruct hf as [_ []].
Qed.
Lemma parse_message_enc d l : Forall field_ok l -> parse_message d (enc_fields l) = Some l.
Proof. intros h. apply parse_enc; [exact h|apply enc_len; exact h]. Qed.

(** sizes *)
Lemma varint_len n v : length (varint n v) <= n.
Proof. revert v. induction n as [|n IH]; intros v; cbn [varint]; [cbn; lia|]. destruct (v <? 128)%N; cbn [length]; [lia|]. specialize (IH (v / 128)%N). lia. Qed.
Lemma field_len f : length (enc_field f) <= 20 + match snd f with WBytes s => length s | _ => 0 end.
Proof.
  destruct f as [n [v|x|]]; unfold enc_field, varint64; cbn [fst snd]; rewrite ?app_length.
  - pose proof (varint_len 10 (8 * n)). pose proof (varint_len 10 v). lia.
  - pose proof (varint_len 10 (8 * n + 2)). pose proof (varint_len 10 (N.of_nat (length x))). lia.
  - cbn. lia.
Qed.
Lemma fields_len3 f g h : length (enc_fields [f; g; h]) <= length (enc_field f) + length (enc_field g) + length (enc_field h).
Proof. unfold enc_fields. cbn [flat_map]. rewrite !app_length. cbn [length]. lia. Qed.

Lemma parse_all1 d s l : parse_message d s = Some l -> parse_all d [s] = Some l.
Proof. intros h. cbn [parse_all]. rewrite h, app_nil_r. reflexivity. Qed.
Lemma content_parse kind seqno data : valid_kind kind = true -> (N.of_nat (length data) <= MAX_SIZE - 100)%N -> parse_content (content_of kind seqno data) = Some (Some (kind, data)).
Proof.
  intros hk hd. unfold valid_kind in hk. set (inner := [(1%N, WVar kind); (2%N, WVar (as_uint64 seqno)); (3%N, WBytes data)]).
  assert (hu : (as_uint64 seqno < 2 ^ 64)%N). { unfold as_uint64. pose proof (Z.mod_pos_bound seqno (2 ^ 64) eq_refl). change (2 ^ 64)%N with (Z.to_N (2 ^ 64)). apply Z2N.inj_lt; lia. }
  assert (hi : Forall field_ok inner).
  { unfold inner, field_ok. unfold MAX_SIZE in *. repeat apply Forall_cons; [cbn [fst snd]; lia|cbn [fst snd]; lia|cbn [fst snd]; lia|apply Forall_nil]. }
  assert (hl : length (enc_fields inner) <= 60 + length data).
  { pose proof (fields_len3 (1%N, WVar kind) (2%N, WVar (as_uint64 seqno)) (3%N, WBytes data)) as hx. pose proof (field_len (1%N, WVar kind)). pose proof (field_len (2%N, WVar (as_uint64 seqno))). pose proof (field_len (3%N, WBytes data)).
    cbn [snd] in *. unfold inner. lia. }
  unfold parse_content, content_of. fold inner. rewrite parse_message_enc.
  2: { apply Forall_cons; [|apply Forall_nil]. unfold field_ok. cbn [fst snd]. unfold MAX_SIZE in *. lia. }
  change (strs 11 [(11%N, WBytes (enc_fields inner))]) with [enc_fields inner]. cbn iota. rewrite (parse_all1 _ _ inner) by (apply parse_message_enc; exact hi).
  unfold inner at 1 2 3. unfold enums. cbn [vars strs flat_map snd fst N.eqb Pos.eqb app map]. rewrite N.mod_small by (change (2 ^ 32)%N with 4294967296%N; lia). cbn [filter]. unfold valid_kind. rewrite hk. reflexivity.
Qed.
Lemma envelope_parse c : (N.of_nat (length c) <= MAX_SIZE - 100)%N -> parse_envelope (envelope_of c) = Some c.
Proof.
  intros h. unfold parse_envelope, envelope_of. rewrite parse_message_enc; [reflexivity|].
  repeat apply Forall_cons; [| | |apply Forall_nil]; unfold field_ok; cbn [fst snd]; unfold MAX_SIZE in *; lia.
Qed.
Lemma websocket_parse c : (N.of_nat (length c) <= MAX_SIZE - 100)%N -> parse_websocket (websocket_of c) = Some (1%N, c).
Proof.
  intros h. set (inner := [(1%N, WBytes []); (2%N, WBytes []); (3%N, WBytes c); (4%N, WVar 0)]).
  assert (hi : Forall field_ok inner).
  { unfold inner. repeat apply Forall_cons; [| | | |apply Forall_nil]; unfold field_ok; cbn [fst snd length]; unfold MAX_SIZE in *; lia. }
  assert (hl : length (enc_fields inner) <= 80 + length c).
  { unfold inner, enc_fields. cbn [flat_map]. rewrite !app_length. cbn [length]. pose proof (field_len (1%N, WBytes [])). pose proof (field_len (2%N, WBytes [])). pose proof (field_len (3%N, WBytes c)). pose proof (field_len (4%N, WVar 0)).
    cbn [snd length] in *. lia. }
  unfold parse_websocket, websocket_of. fold inner. rewrite parse_message_enc.
  2: { repeat apply Forall_cons; [| |apply Forall_nil]; unfold field_ok; cbn [fst snd]; unfold MAX_SIZE in *; lia. }
  change (strs 2 [(1%N, WVar 1); (2%N, WBytes (enc_fields inner))]) with [enc_fields inner]. change (strs 3 [(1%N, WVar 1); (2%N, WBytes (enc_fields inner))]) with (@nil bytes).
  rewrite (parse_all1 _ _ inner) by (apply parse_message_enc; exact hi). reflexivity.
Qed.
Lemma envelope_len c : length (envelope_of c) <= 60 + length c.
Proof.
  unfold envelope_of. pose proof (fields_len3 (1%N, WVar 6) (5%N, WVar 1) (8%N, WBytes c)). pose proof (field_len (1%N, WVar 6)). pose proof (field_len (5%N, WVar 1)). pose proof (field_len (8%N, WBytes c)). cbn [snd] in *. lia.
Qed.
Lemma content_len k n d : length (content_of k n d) <= 80 + length d.
Proof.
  unfold content_of. pose proof (fields_len3 (1%N, WVar k) (2%N, WVar (as_uint64 n)) (3%N, WBytes d)). pose proof (field_len (1%N, WVar k)). pose proof (field_len (2%N, WVar (as_uint64 n))). pose proof (field_len (3%N, WBytes d)).
  unfold enc_fields at 1. cbn [flat_map]. rewrite app_nil_r. pose proof (field_len (11%N, WBytes (enc_fields [(1%N, WVar k); (2%N, WVar (as_uint64 n)); (3%N, WBytes d)]))). cbn [snd] in *. lia.
Qed.

(** padding *)
Lemma drop_nul_nz n c r : c <> NUL -> drop_nul (repeat NUL n ++ c :: r) = c :: r.
Proof. intros h. rewrite drop_nul_app. cbn [drop_nul]. destruct (Ascii.eqb_spec c NUL); [contradiction|reflexivity]. Qed.
Lemma rev_zeros n : rev (repeat NUL n) = repeat NUL n.
Proof. induction n as [|n IH]; [reflexivity|]. cbn [repeat rev]. rewrite IH. symmetry. apply repeat_cons. Qed.
Lemma PAD_nz : PAD <> NUL. Proof. discriminate. Qed.
Lemma unpad_pad p n : unpad (p ++ PAD :: repeat NUL n) = Some p.
Proof.
  unfold unpad. rewrite rev_app_distr. cbn [rev]. rewrite rev_zeros, <- app_assoc. cbn [app]. rewrite drop_nul_nz by exact PAD_nz. rewrite Ascii.eqb_refl, rev_involutive. reflexivity.
Qed.
Lemma drop_nul_split s : exists n, s = repeat NUL n ++ drop_nul s.
Proof.
  induction s as [|c s (n & IH)]; [exists 0; reflexivity|]. cbn [drop_nul]. destruct (Ascii.eqb_spec c NUL) as [->|]; [|exists 0; reflexivity]. exists (S n). cbn [repeat app]. congruence.
Qed.
Lemma unpad_inv s p : unpad s = Some p -> exists n, s = p ++ PAD :: repeat NUL n.
Proof.
  unfold unpad. destruct (drop_nul_split (rev s)) as (n & hn). destruct (drop_nul (rev s)) as [|c r]; [discriminate|]. destruct (Ascii.eqb_spec c PAD) as [->|]; [|discriminate].
  intros h. assert (hp : p = rev r) by congruence. subst p. exists n. rewrite <- (rev_involutive s), hn, rev_app_distr. cbn [rev]. rewrite rev_zeros, <- app_assoc. reflexivity.
Qed.
