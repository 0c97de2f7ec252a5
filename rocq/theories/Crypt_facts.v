(** Facts about the config encryption framing and the padding. *)
From Coq Require Import ZifyBool ZifyNat ZifyN.
From Verif Require Import Crypt.

(** What is assumed of XChaCha20-Poly1305 and BLAKE2b: output lengths, decryption inverts encryption, and nothing
    else decrypts (deterministic encryption with a tag: opening recomputes the tag). *)
Record aead_ok (A : aead) : Prop := {
  ao_nonce : forall k x, length (a_nonce A k x) = 24;
  ao_len : forall k n m, length (a_seal A k n m) = length m + 16;
  ao_open : forall k n m, a_open A k n (a_seal A k n m) = Some m;
  ao_only : forall k n c m, a_open A k n c = Some m -> c = a_seal A k n m
}.
Definition domain_ok (d : bytes) : Prop := 1 <= length d <= 24.
Lemma make_key_ok A k z d : length k = 32 -> domain_ok d -> make_encrypt_key A k z d = Ok (a_hash32 A (kdf_input k z d)).
Proof.
  intros hk hd. unfold make_encrypt_key. rewrite hk. cbn [negb Nat.eqb]. unfold domain_ok in hd.
  destruct (_ || _) eqn:e; [lia|reflexivity].
Qed.
Lemma encrypt_ok A m k d : length k = 32 -> domain_ok d ->
  exists key nonce, make_encrypt_key A k (N.of_nat (length m)) d = Ok key /\ nonce = a_nonce A (NONCE_KEY_PREFIX ++ d) m /\
    encrypt A m k d = Ok (a_seal A key nonce m ++ nonce).
Proof. intros hk hd. eexists. eexists. split; [apply make_key_ok; assumption|]. split; [reflexivity|]. unfold encrypt. rewrite make_key_ok by assumption. reflexivity. Qed.
Lemma encrypt_inv A m k d c : encrypt A m k d = Ok c -> length k = 32 /\ domain_ok d.
Proof.
  unfold encrypt, make_encrypt_key. destruct (Nat.eqb (length k) 32) eqn:e; cbn [negb]; [|discriminate].
  destruct (_ || _) eqn:e2; [discriminate|]. intros _. unfold domain_ok. lia.
Qed.
Lemma encrypt_length A m k d c : aead_ok A -> encrypt A m k d = Ok c -> length c = length m + 40.
Proof.
  intros ha h. pose proof (encrypt_inv _ _ _ _ _ h) as [hk hd]. destruct (encrypt_ok A m k d hk hd) as (key & nonce & _ & hn & he).
  rewrite he in h. injection h as <-. rewrite app_length, (ao_len _ ha), hn, (ao_nonce _ ha). lia.
Qed.
Lemma decrypt_encrypt A m k d c : aead_ok A -> encrypt A m k d = Ok c -> decrypt A c k d = Ok m.
Proof.
  intros ha h. pose proof (encrypt_length _ _ _ _ _ ha h) as hl. pose proof (encrypt_inv _ _ _ _ _ h) as [hk hd].
  destruct (encrypt_ok A m k d hk hd) as (key & nonce & hkey & hn & he). rewrite he in h. injection h as h.
  unfold decrypt, ABYTES, NPUBBYTES. destruct (Nat.ltb (length c) (16 + 24)) eqn:e; [lia|]. cbv zeta.
  replace (length c - 16 - 24) with (length m) by lia. rewrite hkey. cbn [bind].
  assert (hs : length c - 24 = length (a_seal A key nonce m)) by (rewrite (ao_len _ ha); lia).
  rewrite hs, <- h, skipn_app, firstn_app, Nat.sub_diag, skipn_all, firstn_all. cbn [app skipn firstn]. rewrite app_nil_r, (ao_open _ ha). reflexivity.
Qed.
Lemma decrypt_inv A c k d m : aead_ok A -> decrypt A c k d = Ok m ->
  exists key nonce, make_encrypt_key A k (N.of_nat (length m)) d = Ok key /\ c = a_seal A key nonce m ++ nonce /\ length nonce = 24 /\ length c = length m + 40.
Proof.
  intros ha h. unfold decrypt, ABYTES, NPUBBYTES in h. destruct (Nat.ltb (length c) (16 + 24)) eqn:e; [discriminate|]. cbv zeta in h.
  destruct (make_encrypt_key A k _ d) as [key| | | |] eqn:ek; try discriminate h. cbn [bind] in h.
  destruct (a_open A key _ _) as [m'|] eqn:eo; [|discriminate]. injection h as ->. apply (ao_only _ ha) in eo.
  assert (hl : length (firstn (length c - 24) c) = length m + 16) by (rewrite eo, (ao_len _ ha); reflexivity).
  rewrite firstn_length in hl. exists key, (skipn (length c - 24) c). split; [|split; [|split]].
  - replace (length m) with (length c - 16 - 24) by lia. exact ek.
  - rewrite <- eo. symmetry. apply firstn_skipn.
  - rewrite skipn_length. lia.
  - lia.
Qed.
Lemma decrypt_short A c k d : length c < 40 -> decrypt A c k d = Err.
Proof. intros h. unfold decrypt, ABYTES, NPUBBYTES. destruct (Nat.ltb (length c) (16 + 24)) eqn:e; [reflexivity|lia]. Qed.
Lemma encrypt_refuses A m k d : length k <> 32 \/ length d = 0 \/ 24 < length d -> encrypt A m k d = Throw.
Proof.
  intros h. unfold encrypt, make_encrypt_key. destruct (Nat.eqb (length k) 32) eqn:e; cbn [negb]; [|reflexivity].
  destruct (_ || _) eqn:e2; [reflexivity|lia].
Qed.

(** ** the key derivation input separates keys, sizes and domains *)
Lemma be_bytes_length n z : length (be_bytes n z) = n.
Proof. revert z; induction n; intros z; cbn [be_bytes]; [reflexivity|]. rewrite app_length, IHn. cbn. lia. Qed.
Lemma ascii_of_N_inj x y : (x < 256)%N -> (y < 256)%N -> ascii_of_N x = ascii_of_N y -> x = y.
Proof. intros hx hy h. rewrite <- (N_ascii_embedding x hx), <- (N_ascii_embedding y hy), h. reflexivity. Qed.
Lemma be_bytes_inj n : forall x y, be_bytes n x = be_bytes n y -> (x < 256 ^ N.of_nat n)%N -> (y < 256 ^ N.of_nat n)%N -> x = y.
Proof.
  induction n as [|n IH]; intros x y h hx hy; [cbn in hx, hy; lia|]. cbn [be_bytes] in h.
  rewrite Nat2N.inj_succ, N.pow_succ_r' in hx, hy. apply app_inj_tail in h as [h1 h2].
  assert (hd : (x / 256 = y / 256)%N) by (apply IH; [exact h1| |]; apply N.div_lt_upper_bound; lia).
  apply ascii_of_N_inj in h2; [|apply N.mod_lt; lia|apply N.mod_lt; lia].
  rewrite (N.div_mod x 256), (N.div_mod y 256) by lia. rewrite hd, h2. reflexivity.
Qed.
Lemma app_inj_len {A} (x y u v : list A) : length x = length y -> x ++ u = y ++ v -> x = y /\ u = v.
Proof.
  revert y; induction x as [|a x IH]; intros [|c y] hl h; cbn in *; try discriminate; [auto|].
  injection h as -> h. injection hl as hl. destruct (IH _ hl h) as [-> ->]. auto.
Qed.
Lemma kdf_input_inj k k' z z' d d' : length k = 32 -> length k' = 32 -> (z < 2 ^ 64)%N -> (z' < 2 ^ 64)%N ->
  kdf_input k z d = kdf_input k' z' d' -> k = k' /\ z = z' /\ d = d'.
Proof.
  intros hk hk' hz hz' h. unfold kdf_input in h. apply app_inj_len in h as [-> h]; [|congruence].
  apply app_inj_len in h as [h ->]; [|unfold be64; rewrite !be_bytes_length; reflexivity].
  split; [reflexivity|]. split; [|reflexivity]. unfold be64 in h. rewrite !N.mod_small in h by assumption.
  apply be_bytes_inj in h; [exact h|exact hz|exact hz'].
Qed.

(** ** padding *)
Lemma chunk_range s : (256 <= chunk_of s <= 5120)%N.
Proof. unfold chunk_of. repeat destruct (_ <? _)%N; lia. Qed.
Lemma padded_eq s o : (s + o + 5120 < 2 ^ 64)%N -> padded_size s o = ((s + o + chunk_of (s + o) - 1) / chunk_of (s + o) * chunk_of (s + o) - o)%N.
Proof.
  intros h. unfold padded_size, size_t. rewrite (N.mod_small (s + o)) by lia. pose proof (chunk_range (s + o)) as hc. cbv zeta.
  set (c := chunk_of (s + o)) in *. rewrite (N.mod_small (s + o + c - 1)) by lia.
  pose proof (N.div_mod (s + o + c - 1) c ltac:(lia)) as hd. pose proof (N.mod_lt (s + o + c - 1) c ltac:(lia)) as hm.
  rewrite (N.mul_comm _ c). set (q := (c * ((s + o + c - 1) / c))%N) in *. assert (hq : (s + o <= q <= s + o + c - 1)%N) by lia.
  rewrite (N.mod_small q) by lia. replace (q + 2 ^ 64 - o)%N with (q - o + 1 * 2 ^ 64)%N by lia. rewrite N.mod_add by lia. apply N.mod_small. lia.
Qed.
(** the whole arithmetic in one place: total size [t] is the least multiple of the bucket that is at least s+o *)
Lemma padded_bounds s o : (s + o + 5120 < 2 ^ 64)%N ->
  let p := padded_size s o in let c := chunk_of (s + o) in (s <= p < s + c /\ (p + o) mod c = 0)%N.
Proof.
  intros h. cbv zeta. rewrite padded_eq by exact h. pose proof (chunk_range (s + o)) as hc. set (c := chunk_of (s + o)) in *.
  pose proof (N.div_mod (s + o + c - 1) c ltac:(lia)) as hd. pose proof (N.mod_lt (s + o + c - 1) c ltac:(lia)) as hm.
  set (q := ((s + o + c - 1) / c)%N) in *. assert (hq : (s + o <= q * c <= s + o + c - 1)%N) by lia. split; [lia|].
  replace (q * c - o + o)%N with (q * c)%N by lia. apply N.mod_mul. lia.
Qed.
Lemma mult_of x c : (c <> 0)%N -> (x mod c = 0)%N <-> exists q, x = (q * c)%N.
Proof. intros hc. rewrite N.mod_divide by exact hc. split; intros [q h]; exists q; lia. Qed.
(** bucket boundaries are themselves multiples of the neighbouring buckets, so a padded size stays padded and padding
    is monotone *)
Lemma padded_least s o t : (s + o + 5120 < 2 ^ 64)%N -> (s <= t)%N -> (t + o + 5120 < 2 ^ 64)%N -> (exists q, t + o = q * chunk_of (t + o))%N -> (padded_size s o <= t)%N.
Proof.
  intros h1 hle h2 [q hq]. destruct (padded_bounds s o h1) as [[h3 h4] h5]. apply mult_of in h5; [|pose proof (chunk_range (s+o)); lia].
  destruct h5 as [r hr]. set (p := padded_size s o) in *. unfold chunk_of in *.
  repeat match goal with h : context [(?x <? ?y)%N] |- _ => destruct (N.ltb_spec x y) end; lia.
Qed.
Lemma padded_is_mult s o : (s + o + 5120 < 2 ^ 64)%N -> (exists q, padded_size s o + o = q * chunk_of (padded_size s o + o))%N.
Proof.
  intros h. destruct (padded_bounds s o h) as [[h3 h4] h5]. apply mult_of in h5; [|pose proof (chunk_range (s+o)); lia].
  destruct h5 as [r hr]. set (p := padded_size s o) in *.
  assert (hc : (chunk_of (p + o) = chunk_of (s + o) \/ p + o = 5120 \/ p + o = 20480 \/ p + o = 40960)%N).
  { unfold chunk_of in *. repeat match goal with |- context [(?x <? ?y)%N] => destruct (N.ltb_spec x y) end; lia. }
  destruct hc as [hc|[hc|[hc|hc]]]; [exists r; rewrite hc; exact hr|..]; rewrite hc; [exists 5%N|exists 10%N|exists 8%N]; reflexivity.
Qed.
Lemma padded_idem s o : (s + o + 10240 < 2 ^ 64)%N -> padded_size (padded_size s o) o = padded_size s o.
Proof.
  intros h. destruct (padded_bounds s o ltac:(lia)) as [[h3 h4] _]. pose proof (chunk_range (s+o)) as hc.
  assert (h2 : (padded_size s o + o + 5120 < 2 ^ 64)%N) by lia.
  destruct (padded_bounds _ o h2) as [[h5 _] _].
  pose proof (padded_least (padded_size s o) o (padded_size s o) h2 ltac:(lia) h2 (padded_is_mult s o ltac:(lia))). lia.
Qed.
Lemma padded_mono s t o : (t + o + 10240 < 2 ^ 64)%N -> (s <= t)%N -> (padded_size s o <= padded_size t o)%N.
Proof.
  intros h hle. destruct (padded_bounds t o ltac:(lia)) as [[h3 h4] _]. pose proof (chunk_range (t+o)) as hc.
  apply padded_least; [lia|lia|lia|]. apply padded_is_mult. lia.
Qed.
Lemma pad_spec m o : (N.of_nat (length m) + o + 5120 < 2 ^ 64)%N ->
  pad_message m o = repeat NUL (N.to_nat (padded_size (N.of_nat (length m)) o) - length m) ++ m /\
  N.of_nat (length (pad_message m o)) = padded_size (N.of_nat (length m)) o.
Proof.
  intros h. destruct (padded_bounds _ _ h) as [[h3 h4] _]. unfold pad_message. cbv zeta. destruct (N.ltb_spec (N.of_nat (length m)) (padded_size (N.of_nat (length m)) o)).
  - split; [reflexivity|]. rewrite app_length, repeat_length. lia.
  - assert (e : padded_size (N.of_nat (length m)) o = N.of_nat (length m)) by lia. rewrite e, Nat2N.id, Nat.sub_diag. split; reflexivity.
Qed.
Lemma drop_nul_repeat n m : drop_nul (repeat NUL n ++ m) = drop_nul m.
Proof. induction n; cbn [repeat app drop_nul]; [reflexivity|]. replace (Ascii.eqb NUL NUL) with true by reflexivity. exact IHn. Qed.
Lemma pad_is_nuls m o : exists n, pad_message m o = repeat NUL n ++ m.
Proof. unfold pad_message. cbv zeta. destruct (_ <? _)%N; [eexists; reflexivity|exists 0; reflexivity]. Qed.
Lemma strip_pad m o c r : m = c :: r -> c <> NUL -> strip_nul (pad_message m o) = m.
Proof.
  intros -> hc. destruct (pad_is_nuls (c :: r) o) as [n ->]. unfold strip_nul. rewrite drop_nul_repeat. cbn [drop_nul].
  destruct (Ascii.eqb c NUL) eqn:e; [apply Ascii.eqb_eq in e; contradiction|reflexivity].
Qed.
