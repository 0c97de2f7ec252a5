(** The Session message protocol: src/session_encrypt.cpp (the parts about blinded ids are in Blind.v), and the thin wrappers
    src/ed25519.cpp, src/curve25519.cpp and src/hash.cpp.  Definitions only. *)
From Verif Require Export Ed.

(** session_encrypt.cpp 32-40 and the same lines elsewhere: a 32-byte seed or the 64-byte libsodium secret key; anything else: std::invalid_argument *)
Definition full_sk (E : ecrypt) (sk : bytes) : outcome bytes :=
  if Nat.eqb (length sk) 32 then Ok (sk ++ ed_pub E sk) else if Nat.eqb (length sk) 64 then Ok sk else Throw.
(** 41-48: the recipient's X25519 key, with or without the 05 prefix *)
Definition strip05 (pk : bytes) : outcome bytes :=
  match pk with
  | c :: r => if Nat.eqb (length pk) 33 && Ascii.eqb c (byte 5) then Ok r else if Nat.eqb (length pk) 32 then Ok pk else Throw
  | [] => Throw
  end.
(** 30-65 sign_for_recipient: M || A || SIG, where SIG signs M || A || Y *)
Definition sign_for_recipient (E : ecrypt) (sk pk m : bytes) : outcome bytes :=
  sk <- full_sk E sk ;;
  y <- strip05 pk ;;
  let A := skipn 32 sk in
  Ok (m ++ A ++ ed_sign E sk (m ++ A ++ y)).
(** crypto_box_seal with the ephemeral secret key [esk], and 113-134, which does the same by hand.  [None]: X25519 failed *)
Definition box_nonce (E : ecrypt) (eph pk : bytes) : bytes := ec_blake E 24 [] [] (eph ++ pk).
Definition seal_box (E : ecrypt) (esk pk m : bytes) : option bytes :=
  match ec_dh E esk pk with
  | Some k => let eph := x_base E esk in Some (eph ++ ec_bseal E k (box_nonce E eph pk) m)
  | None => None
  end.
(** crypto_box_seal_open *)
Definition open_box (E : ecrypt) (pk sk c : bytes) : option bytes :=
  let eph := firstn 32 c in
  match ec_dh E sk eph with Some k => ec_bopen E k (box_nonce E eph pk) (skipn 32 c) | None => None end.
(** 69-85 encrypt_for_recipient; [esk]: the random ephemeral key *)
Definition encrypt_for_recipient (E : ecrypt) (esk sk pk m : bytes) : outcome bytes :=
  s <- sign_for_recipient E sk pk m ;;
  y <- strip05 pk ;;
  of_opt (seal_box E esk y s) Throw.
(** 87-136 encrypt_for_recipient_deterministic; crypto_box_seed_keypair takes the first half of the SHA-512 of the seed *)
Definition BOX_HASHKEY : bytes := b "SessionBoxEphemeralHashKey".                   (* 67 *)
Definition det_esk (E : ecrypt) (sk y m : bytes) : bytes := firstn 32 (ec_sha512 E (ec_blake E 32 BOX_HASHKEY [] (seed_of sk ++ y ++ m))).
Definition encrypt_deterministic (E : ecrypt) (sk pk m : bytes) : outcome bytes :=
  s <- sign_for_recipient E sk pk m ;;
  y <- strip05 pk ;;
  of_opt (seal_box E (det_esk E sk y m) y s) Throw.

(** 368-402 decrypt_incoming, given our X25519 keys: the message and the sender's Ed25519 key *)
Definition decrypt_incoming_x (E : ecrypt) (xpk xsk c : bytes) : outcome (bytes * bytes) :=
  if Nat.ltb (length c) (48 + 32 + 64) then Throw
  else
    outer <- of_opt (open_box E xpk xsk c) Throw ;;
    let n := length c - 48 - 32 - 64 in
    let A := firstn 32 (skipn n outer) in
    let sig := skipn (n + 32) outer in
    if ed_verify E sig (firstn (n + 32) outer ++ xpk) A then Ok (firstn n outer, A) else Throw.
(** 348-366 decrypt_incoming, given our Ed25519 key *)
Definition decrypt_incoming (E : ecrypt) (sk c : bytes) : outcome (bytes * bytes) :=
  sk <- full_sk E sk ;;
  let xsk := ed_scalar E sk in
  decrypt_incoming_x E (x_base E xsk) xsk c.
(** 308-346 decrypt_incoming_session_id, both overloads: the sender as a session id *)
Definition with_session_id (E : ecrypt) (r : outcome (bytes * bytes)) : outcome (bytes * bytes) :=
  x <- r ;;
  xpk <- of_opt (pk_to_x E (snd x)) Throw ;;
  Ok (fst x, b "05" ++ to_hex xpk).
Definition decrypt_incoming_session_id (E : ecrypt) (sk c : bytes) : outcome (bytes * bytes) := with_session_id E (decrypt_incoming E sk c).
Definition decrypt_incoming_session_id_x (E : ecrypt) (xpk xsk c : bytes) : outcome (bytes * bytes) := with_session_id E (decrypt_incoming_x E xpk xsk c).

(** 510-555 decrypt_ons_response *)
Definition ons_key (E : ecrypt) (name : bytes) : bytes := ec_blake E 32 (ec_blake E 32 [] [] name) [] name.
Definition decrypt_ons_response (E : ecrypt) (name c nonce : bytes) : outcome bytes :=
  if Nat.ltb (length c) ABYTES then Throw
  else if negb (Nat.eqb (length nonce) 24) then Throw
  else
    m <- of_opt (ec_open E (ons_key E name) nonce c) Throw ;;
    if negb (Nat.eqb (length m) 33) then Throw else Ok (to_hex m).
(** 557-594 decrypt_push_notification: the padding is removed unless there is nothing else *)
Definition strip_nul_end (s : bytes) : bytes := rev (strip_nul (rev s)).
Definition decrypt_push_notification (E : ecrypt) (payload key : bytes) : outcome bytes :=
  if Nat.ltb (length payload) (NPUBBYTES + ABYTES) then Throw
  else if negb (Nat.eqb (length key) 32) then Throw
  else
    m <- of_opt (ec_open E key (firstn 24 payload) (skipn 24 payload)) Throw ;;
    Ok (strip_nul_end m).

(** ed25519.cpp 30-48: the key pair of a seed *)
Definition ed25519_key_pair (E : ecrypt) (seed : bytes) : outcome (bytes * bytes) :=
  if Nat.eqb (length seed) 32 then Ok (ed_pub E seed, seed ++ ed_pub E seed) else Throw.
(** ed25519.cpp 50-62 *)
Definition seed_for_ed_privkey (sk : bytes) : outcome bytes :=
  if Nat.eqb (length sk) 32 || Nat.eqb (length sk) 64 then Ok (firstn 32 sk) else Throw.
(** ed25519.cpp 64-82 sign, 84-92 verify *)
Definition ed25519_sign (E : ecrypt) (sk m : bytes) : outcome bytes := sk <- full_sk E sk ;; Ok (ed_sign E sk m).
Definition ed25519_verify (E : ecrypt) (sig pk m : bytes) : outcome bool :=
  if negb (Nat.eqb (length sig) 64) then Throw else if negb (Nat.eqb (length pk) 32) then Throw else Ok (ed_verify E sig m pk).
(** curve25519.cpp 21-50 *)
Definition to_curve25519_pubkey (E : ecrypt) (pk : bytes) : outcome bytes :=
  if Nat.eqb (length pk) 32 then of_opt (pk_to_x E pk) Throw else Throw.
Definition to_curve25519_seckey (E : ecrypt) (sk : bytes) : outcome bytes :=
  if Nat.eqb (length sk) 64 then Ok (ed_scalar E sk) else Throw.
(** hash.cpp 10-38 *)
Definition hash (E : ecrypt) (size : nat) (m : bytes) (key : option bytes) : outcome bytes :=
  if Nat.ltb size 16 || Nat.ltb 64 size then Throw
  else match key with
       | Some k => if Nat.ltb 64 (length k) then Throw else Ok (ec_blake E size k [] m)
       | None => Ok (ec_blake E size [] [] m)
       end.
