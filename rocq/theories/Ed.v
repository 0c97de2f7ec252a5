(** The part of libsodium that src/session_encrypt.cpp, src/blinding.cpp, src/xed25519.cpp, src/ed25519.cpp,
    src/curve25519.cpp and keys.cpp 662-773 are built on.  The arithmetic of scalars is concrete; the prime-order subgroup of
    the curve is the integers modulo its order [L] with an abstract encoding; hashes and ciphers are parameters.
    Definitions only. *)
From Verif Require Export Sub.

(** the order of the base point *)
Definition L : Z := (2 ^ 252 + 27742317777372353535851937790883648493)%Z.
(** little-endian byte strings *)
Fixpoint le (s : bytes) : Z := match s with [] => 0%Z | c :: r => (Z.of_N (N_of_ascii c) + 256 * le r)%Z end.
Fixpoint to_le (n : nat) (z : Z) : bytes := match n with O => [] | S n => ascii_of_N (Z.to_N (z mod 256)) :: to_le n (z / 256) end.

Record ecrypt := mkEcrypt {
  ec_pt : Z -> bytes;                              (* the canonical encoding of m times the base point *)
  ec_log : bytes -> option Z;                      (* for which m, if any, is this that encoding? *)
  ec_x : Z -> bytes;                               (* the X25519 encoding of m times the base point *)
  ec_xed : bytes -> bytes;                         (* xed25519.cpp 24-33, 136-146: u to y = (u-1)/(u+1), sign bit zero *)
  ec_dh : bytes -> bytes -> option bytes;          (* crypto_scalarmult_curve25519: secret, public; None: the result is zero *)
  ec_sha512 : bytes -> bytes;
  ec_blake : nat -> bytes -> bytes -> bytes -> bytes;   (* BLAKE2b: size, key, personalisation, input *)
  ec_other : bytes -> bytes -> bytes -> bool;      (* verification under a key that is not a point of the subgroup *)
  ec_seal : bytes -> bytes -> bytes -> bytes;      (* XChaCha20-Poly1305: key, nonce, message *)
  ec_open : bytes -> bytes -> bytes -> option bytes;
  ec_bseal : bytes -> bytes -> bytes -> bytes;     (* crypto_box_easy, given the X25519 shared secret *)
  ec_bopen : bytes -> bytes -> bytes -> option bytes
}.

(** crypto_core_ed25519_scalar_reduce, _mul, _add (32-byte addition, the carry is lost), _negate *)
Definition sc_reduce (h : bytes) : bytes := to_le 32 (le h mod L).
Definition sc_mul (x y : bytes) : bytes := to_le 32 (le x * le y mod L).
Definition sc_add (x y : bytes) : bytes := to_le 32 ((le x + le y) mod 2 ^ 256 mod L).
Definition sc_neg (x : bytes) : bytes := to_le 32 (- le x mod L).
(** t[0] &= 248, t[31] &= 127, t[31] |= 64: bits 0 to 2 and 255 are cleared, bit 254 is set *)
Definition clamp (z : Z) : Z := (z mod 2 ^ 254 - z mod 8 + 2 ^ 254)%Z.
(** crypto_scalarmult_ed25519_base_noclamp (bit 255 is ignored) and crypto_scalarmult_ed25519_base; the callers ignore the
    status, the output is written all the same *)
Definition base_noclamp (E : ecrypt) (s : bytes) : bytes := ec_pt E (le s mod 2 ^ 255).
Definition base_clamp (E : ecrypt) (s : bytes) : bytes := ec_pt E (clamp (le s)).
(** crypto_scalarmult_ed25519_noclamp; [None]: the point is not in the subgroup or is the identity, or the result is *)
Definition mul_noclamp (E : ecrypt) (s p : bytes) : option bytes :=
  match ec_log E p with
  | Some a => let m := (le s mod 2 ^ 255 * a)%Z in if (a mod L =? 0)%Z || (m mod L =? 0)%Z then None else Some (ec_pt E m)
  | None => None
  end.
(** crypto_sign_ed25519_sk_to_curve25519: only the seed is used *)
Definition seed_of (sk : bytes) : bytes := firstn 32 sk.
Definition ed_scalar (E : ecrypt) (sk : bytes) : bytes := to_le 32 (clamp (le (firstn 32 (ec_sha512 E (seed_of sk))))).
(** crypto_sign_ed25519_seed_keypair: the public key; the secret key is seed || public key *)
Definition ed_pub (E : ecrypt) (seed : bytes) : bytes := ec_pt E (le (ed_scalar E seed)).
(** crypto_sign_ed25519_pk_to_curve25519 (libsodium also takes non-canonical encodings) *)
Definition pk_to_x (E : ecrypt) (pk : bytes) : option bytes :=
  match ec_log E pk with Some a => if (a mod L =? 0)%Z then None else Some (ec_x E a) | None => None end.
(** crypto_scalarmult_base *)
Definition x_base (E : ecrypt) (sk : bytes) : bytes := ec_x E (clamp (le sk)).
(** crypto_sign_ed25519_detached: R = rB, S = r + H(R || A || M) a *)
Definition hram (E : ecrypt) (R A m : bytes) : bytes := sc_reduce (ec_sha512 E (R ++ A ++ m)).
Definition ed_nonce (E : ecrypt) (sk m : bytes) : bytes := sc_reduce (ec_sha512 E (skipn 32 (ec_sha512 E (seed_of sk)) ++ m)).
Definition ed_sign (E : ecrypt) (sk m : bytes) : bytes :=
  let A := skipn 32 sk in
  let r := ed_nonce E sk m in
  let R := base_noclamp E r in
  R ++ to_le 32 ((le (hram E R A m) * le (ed_scalar E sk) + le r) mod L).
(** crypto_sign_ed25519_verify_detached: S is reduced, neither R nor A is the identity, R = SB - H(R || A || M) A *)
Definition ed_verify (E : ecrypt) (sig m pk : bytes) : bool :=
  match ec_log E pk with
  | Some a =>
      let R : bytes := firstn 32 sig in
      let S := le (skipn 32 sig) in
      (S <? L)%Z && negb (a mod L =? 0)%Z && negb (eqb R (ec_pt E 0)) && eqb R (ec_pt E (S - le (hram E R pk m) * a))
  | None => ec_other E sig m pk
  end.
