(** Encoded public keys: src/config/internal.cpp 36-54, and what it uses of oxenc/base64.h and oxenc/base32z.h (the oxenc
    sources are not part of /repo; the encodings are the standard ones).  Definitions only. *)
From Verif Require Export Hex.

(** ** bits *)
Fixpoint bits_of (k : nat) (n : N) : list bool :=              (* the [k] low bits, most significant first *)
  match k with 0 => [] | S k' => N.testbit_nat n k' :: bits_of k' n end.
Definition value_of_bits (l : list bool) : N := fold_left (fun a x => 2 * a + (if x : bool then 1 else 0))%N l 0%N.
Definition byte_bits (c : ascii) : list bool := bits_of 8 (N_of_ascii c).
(** the whole bytes; what is left of less than 8 bits is dropped *)
Fixpoint bytes_of_bits (l : list bool) : bytes :=
  match l with
  | x0 :: x1 :: x2 :: x3 :: x4 :: x5 :: x6 :: x7 :: r => ascii_of_N (value_of_bits [x0; x1; x2; x3; x4; x5; x6; x7]) :: bytes_of_bits r
  | _ => []
  end.
(** groups of [k] bits, the last one filled up with zeros *)
Fixpoint groups (fuel k : nat) (l : list bool) : list (list bool) :=
  match fuel, l with
  | S f, _ :: _ => firstn k (l ++ repeat false k) :: groups f k (skipn k l)
  | _, _ => []
  end.

(** ** alphabets *)
Definition b64_alphabet : bytes := b "ABCDEFGHIJKLMNOPQRSTUVWXYZabcdefghijklmnopqrstuvwxyz0123456789+/".
Definition b32z_alphabet : bytes := b "ybndrfg8ejkmcpqxot1uwisza345h769".
Fixpoint index_in (c : ascii) (l : bytes) : option N :=
  match l with [] => None | x :: r => if Ascii.eqb c x then Some 0%N else match index_in c r with Some n => Some (n + 1)%N | None => None end end.
Definition char_at (l : bytes) (n : N) : ascii := nth (N.to_nat n) l Ascii.zero.
(** encoding without padding, decoding; [None]: a character that is not in the alphabet.  base32z ignores case. *)
Definition encode_with (alphabet : bytes) (k : nat) (s : bytes) : bytes :=
  let l := flat_map byte_bits s in map (fun g => char_at alphabet (value_of_bits g)) (groups (length l) k l).
Fixpoint symbols (alphabet : bytes) (s : bytes) : option (list N) :=
  match s with
  | [] => Some []
  | c :: r => match index_in c alphabet, symbols alphabet r with Some n, Some t => Some (n :: t) | _, _ => None end
  end.
Definition decode_with (alphabet : bytes) (k : nat) (s : bytes) : option bytes :=
  match symbols alphabet s with Some l => Some (bytes_of_bits (flat_map (bits_of k) l)) | None => None end.

(** oxenc::to_base64 of 32 bytes (43 characters and a '='), oxenc::to_base32z: community.cpp 56-69 pubkey_hex/b32z/b64 *)
Definition to_b64_pk (pk : bytes) : bytes := encode_with b64_alphabet 6 pk ++ b "=".
Definition to_b32z (s : bytes) : bytes := encode_with b32z_alphabet 5 s.
(** oxenc::is_base64 / from_base64 for a string of 43 or 44 characters: one or two '=' are allowed at the end if the length
    is a multiple of 4 (and only then) *)
Definition b64_body (s : bytes) : bytes :=
  if Nat.eqb (length s mod 4) 0 then
    match rev s with
    | c :: d :: r => if Ascii.eqb c "=" then (if Ascii.eqb d "=" then rev r else rev (d :: r)) else s
    | _ => s
    end
  else s.
Definition from_b64 (s : bytes) : option bytes := decode_with b64_alphabet 6 (b64_body s).
Definition from_b32z (s : bytes) : option bytes := decode_with b32z_alphabet 5 (make_lc s).

(** internal.cpp 43-54 decode_pubkey; check_encoded_pubkey (36-41) accepts the same strings *)
Definition decode_pubkey (pk : bytes) : outcome bytes :=
  if Nat.eqb (length pk) 64 && is_hex pk then of_opt (from_hex pk) Throw
  else if (Nat.eqb (length pk) 43 || (Nat.eqb (length pk) 44 && Ascii.eqb (last pk Ascii.zero) "=")) && match from_b64 pk with Some _ => true | None => false end
  then of_opt (from_b64 pk) Throw
  else if Nat.eqb (length pk) 52 && match from_b32z pk with Some _ => true | None => false end then of_opt (from_b32z pk) Throw
  else Throw.
