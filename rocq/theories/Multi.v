(** Multi-recipient encryption: include/session/multi_encrypt.hpp 37-160 and src/multi_encrypt.cpp 1-210.
    Definitions only. *)
From Verif Require Export Base.

(** libsodium, as parameters: X25519 ([None]: crypto_scalarmult_curve25519 reports failure), keyed 32-byte BLAKE2b,
    XChaCha20-Poly1305 without additional data. *)
Record xcrypt := mkXcrypt {
  x_dh : bytes -> bytes -> option bytes;
  x_kdf : bytes -> bytes -> bytes;
  x_seal : bytes -> bytes -> bytes -> bytes;
  x_open : bytes -> bytes -> bytes -> option bytes
}.
(** multi_encrypt.cpp 20-51 encrypt_multi_key: [a], [A] are ours, [B] the other side's public key; the domain is cut at 64 bytes *)
Definition multi_key (X : xcrypt) (a A B : bytes) (encrypting : bool) (domain : bytes) : outcome bytes :=
  shared <- of_opt (x_dh X a B) Throw ;;
  let '(snd_, rcv) := if encrypting then (A, B) else (B, A) in
  Ok (x_kdf X (firstn 64 domain) (shared ++ snd_ ++ rcv)).
(** multi_encrypt.hpp 56-64 validate_multi_fields *)
Definition multi_fields_ok (nonce priv pub : bytes) : bool :=
  Nat.leb 24 (length nonce) && Nat.eqb (length priv) 32 && Nat.eqb (length pub) 32.
(** multi_encrypt.hpp 113-132: one ciphertext per recipient, with the n-th message or the only one.  An invalid recipient
    is skipped or makes the whole call throw. *)
Fixpoint encrypt_each (X : xcrypt) (single : bool) (messages recipients : list bytes) (nonce priv pub domain : bytes) (ignore : bool) : outcome (list bytes) :=
  match recipients with
  | [] => Ok []
  | r :: rs =>
      match messages with
      | [] => UB
      | m :: ms =>
          let rest := encrypt_each X single (if single then messages else ms) rs nonce priv pub domain ignore in
          match multi_key X priv pub r true domain with
          | Ok key => cs <- rest ;; Ok (x_seal X key (firstn 24 nonce) m :: cs)
          | Throw => if ignore then rest else Throw
          | x => failed x
          end
      end
  end.
Definition encrypt_for_multiple (X : xcrypt) (messages recipients : list bytes) (nonce priv pub domain : bytes) (ignore : bool) : outcome (list bytes) :=
  if negb (multi_fields_ok nonce priv pub) then Throw
  else if negb (forallb (fun r => Nat.eqb (length r) 32) recipients) then Throw
  else if negb (Nat.eqb (length messages) 1) && negb (Nat.eqb (length messages) (length recipients)) then Throw
  else encrypt_each X (Nat.eqb (length messages) 1) messages recipients nonce priv pub domain ignore.
(** multi_encrypt.cpp 66-84 decrypt_multi_impl *)
Definition decrypt_multi (X : xcrypt) (key nonce c : bytes) : option bytes :=
  if Nat.ltb (length c) ABYTES then None else x_open X key (firstn 24 nonce) c.
Fixpoint first_open (X : xcrypt) (key nonce : bytes) (cs : list bytes) : option bytes :=
  match cs with
  | [] => None
  | c :: r => match decrypt_multi X key nonce c with Some m => Some m | None => first_open X key nonce r end
  end.
(** multi_encrypt.hpp 185-221 decrypt_for_multiple, given all the ciphertexts *)
Definition decrypt_for_multiple (X : xcrypt) (cs : list bytes) (nonce priv pub sender domain : bytes) : outcome (option bytes) :=
  if negb (multi_fields_ok nonce priv pub) || negb (Nat.eqb (length sender) 32) then Throw
  else key <- multi_key X priv pub sender false domain ;; Ok (first_open X key nonce cs).

(** multi_encrypt.cpp 122-165 encrypt_for_multiple_simple.  [junk i n]: the i-th block of n random bytes.  The size of the
    junk is the size of the first plaintext.  (`int pad_size` is exact for messages below 2 GiB.) *)
Definition junk_count (n : nat) (pad : Z) : nat :=
  if (pad <=? 1)%Z then 0 else let r := n mod Z.to_nat pad in if Nat.eqb r 0 then 0 else Z.to_nat pad - r.
Definition encrypt_simple (X : xcrypt) (junk : nat -> nat -> bytes) (messages recipients : list bytes) (priv pub domain nonce : bytes) (pad : Z) : outcome bytes :=
  if negb (Nat.eqb (length nonce) 24) then Throw
  else
    cs <- encrypt_for_multiple X messages recipients nonce priv pub domain false ;;
    let size := match messages with m :: _ => length m | [] => 0 end in
    let extra := if Nat.eqb size 0 then [] else map (fun i => junk i size) (seq 0 (junk_count (length cs) pad)) in
    Ok (enc (BDict [(b "#", BStr nonce); (b "e", BList (map BStr (cs ++ extra)))])).
(** 179-207 decrypt_for_multiple_simple: every exception becomes std::nullopt.  d.require(k) is skip_until(k), and an
    exception if there is no such key.  The list elements are consumed as strings. *)
Definition find_key (k s : bytes) : outcome (bool * bytes) := of_opt (skip_until (S (length s)) k s) Throw.
Definition take_str (s : bytes) : outcome (bytes * bytes) := match consume s with Ok (_, BStr x, t) => Ok (x, t) | _ => Throw end.
Definition take_int (s : bytes) : outcome (Z * bytes) :=
  match consume s with Ok (_, BInt z, t) => if int64_ok z then Ok (z, t) else Throw | _ => Throw end.
Definition take_list (s : bytes) : outcome (list bt * bytes) := match consume s with Ok (_, BList l, t) => Ok (l, t) | _ => Throw end.
Definition require {A} (k s : bytes) (take : bytes -> outcome (A * bytes)) : outcome (A * bytes) :=
  f <- find_key k s ;; if fst f then take (snd f) else Throw.
(** strings up to the first element that is not one *)
Fixpoint str_prefix (l : list bt) : list bytes * bool :=
  match l with
  | [] => ([], true)
  | BStr s :: r => let '(x, ok) := str_prefix r in (s :: x, ok)
  | _ => ([], false)
  end.
Definition decrypt_simple (X : xcrypt) (encoded priv pub sender domain : bytes) : option bytes :=
  match encoded with
  | "d"%char :: s0 =>
      match require (b "#") s0 take_str with
      | Ok (nonce, s1) =>
          if negb (Nat.eqb (length nonce) 24) then None
          else match require (b "e") s1 take_list with
               | Ok (l, _) => match decrypt_for_multiple X (fst (str_prefix l)) nonce priv pub sender domain with Ok r => r | _ => None end
               | _ => None
               end
      | _ => None
      end
  | _ => None
  end.
