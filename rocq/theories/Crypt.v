(** Config encryption framing and padding: src/config/encrypt.cpp, include/session/config/encrypt.hpp, and the
    compression marker of src/config/base.cpp 268-275.  Definitions only. *)
From Verif Require Export Message.

(** The libsodium primitives, as parameters.  [a_hash32 x]: unkeyed 32-byte BLAKE2b; [a_nonce k x]: 24-byte BLAKE2b of
    [x] keyed with [k]; [a_seal key nonce m] / [a_open key nonce c]: XChaCha20-Poly1305 without additional data. *)
Record aead := mkAead {
  a_hash32 : bytes -> bytes;
  a_nonce : bytes -> bytes -> bytes;
  a_seal : bytes -> bytes -> bytes -> bytes;
  a_open : bytes -> bytes -> bytes -> option bytes
}.
(** 16-byte tag, 24-byte nonce, ENCRYPT_DATA_OVERHEAD = 40 (encrypt.hpp 41) *)
Definition ABYTES : nat := 16.
Definition NPUBBYTES : nat := 24.
Definition OVERHEAD : N := 40.

(** oxenc::host_to_big_inplace on a uint64_t *)
Fixpoint be_bytes (n : nat) (z : N) : bytes :=
  match n with O => [] | S n => be_bytes n (z / 256)%N ++ [ascii_of_N (z mod 256)%N] end.
Definition be64 (z : N) : bytes := be_bytes 8 (z mod 2 ^ 64)%N.
Definition NONCE_KEY_PREFIX : bytes := b "libsessionutil-config-encrypted-".       (* encrypt.cpp 30 *)
(** encrypt.cpp 33-55 make_encrypt_key: the three updates are the hash of the concatenation; [Throw]:
    std::invalid_argument *)
Definition kdf_input (key_base : bytes) (size : N) (domain : bytes) : bytes := key_base ++ be64 size ++ domain.
Definition make_encrypt_key (A : aead) (key_base : bytes) (size : N) (domain : bytes) : outcome bytes :=
  if negb (Nat.eqb (length key_base) 32) then Throw
  else if Nat.ltb (length domain) 1 || Nat.ltb 24 (length domain) then Throw
  else Ok (a_hash32 A (kdf_input key_base size domain)).
(** encrypt.cpp 66-100 encrypt_inplace *)
Definition encrypt (A : aead) (m key_base domain : bytes) : outcome bytes :=
  key <- make_encrypt_key A key_base (N.of_nat (length m)) domain ;;
  let nonce := a_nonce A (NONCE_KEY_PREFIX ++ domain) m in
  Ok (a_seal A key nonce m ++ nonce).
(** encrypt.cpp 111-136 decrypt_inplace.  [Err]: decrypt_error. *)
Definition decrypt (A : aead) (c key_base domain : bytes) : outcome bytes :=
  if Nat.ltb (length c) (ABYTES + NPUBBYTES) then Err                 (* 112-115: unsigned wrap-around *)
  else
    let split := length c - NPUBBYTES in
    key <- make_encrypt_key A key_base (N.of_nat (length c - ABYTES - NPUBBYTES)) domain ;;
    match a_open A key (skipn split c) (firstn split c) with Some m => Ok m | None => Err end.

(** encrypt.hpp 88-92 padded_size, in size_t arithmetic *)
Definition size_t (x : N) : N := (x mod 2 ^ 64)%N.
Definition chunk_of (s2 : N) : N :=
  if (s2 <? 5120)%N then 256 else if (s2 <? 20480)%N then 1024 else if (s2 <? 40960)%N then 2048 else 5120.
Definition padded_size (s overhead : N) : N :=
  let s2 := size_t (s + overhead) in
  let chunk := chunk_of s2 in
  size_t (size_t (size_t (s2 + chunk - 1) / chunk * chunk) + 2 ^ 64 - overhead).
(** encrypt.cpp 138-142 pad_message *)
Definition NUL : ascii := Ascii.zero.
Definition pad_message (m : bytes) (overhead : N) : bytes :=
  let target := padded_size (N.of_nat (length m)) overhead in
  if (N.of_nat (length m) <? target)%N then repeat NUL (N.to_nat target - length m) ++ m else m.
(** base.cpp 153-156: remove the NUL prefix, unless there is nothing else *)
Fixpoint drop_nul (s : bytes) : bytes :=
  match s with c :: r => if Ascii.eqb c NUL then drop_nul r else s | [] => [] end.
Definition strip_nul (s : bytes) : bytes := match drop_nul s with [] => s | t => t end.

(** base.cpp 268-275 compress_message; [z m] is zstd_compress without the prefix byte *)
Definition compress_message (z : bytes -> bytes) (level : option Z) (m : bytes) : bytes :=
  match level with
  | None => m
  | Some l => if (l =? 0)%Z then m
              else let c := b "z" ++ z m in if Nat.ltb (length c) (length m) then c else m
  end.
