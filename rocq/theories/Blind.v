(** Blinded ids: src/blinding.cpp; the blinded parts of src/session_encrypt.cpp (160-306, 404-508); src/xed25519.cpp; and the
    signing of swarm requests by subaccounts, src/config/groups/keys.cpp 656-773.  Definitions only. *)
From Verif Require Export SessEnc.

(** blinding.cpp 22-35, 37-55: the blinding factors *)
Definition blind15_factor (E : ecrypt) (server_pk : bytes) : bytes := sc_reduce (ec_blake E 64 [] [] server_pk).
Definition blind25_factor (E : ecrypt) (sid server_pk : bytes) : bytes :=
  sc_reduce (ec_blake E 64 [] [] ((if Nat.eqb (length sid) 32 then [byte 5] else []) ++ sid ++ server_pk)).
(** 59-77: the blinded id of a session id, given as 32 bytes or 33 with the prefix *)
Definition drop_prefix (sid : bytes) : bytes := if Nat.eqb (length sid) 33 then skipn 1 sid else sid.
Definition blind15_impl (E : ecrypt) (sid server_pk : bytes) : outcome bytes :=
  kA <- of_opt (mul_noclamp E (blind15_factor E server_pk) (ec_xed E (drop_prefix sid))) Throw ;;
  Ok (byte 21 :: kA).
Definition blind25_impl (E : ecrypt) (sid server_pk : bytes) : outcome bytes :=
  kA <- of_opt (mul_noclamp E (blind25_factor E sid server_pk) (ec_xed E (drop_prefix sid))) Throw ;;
  Ok (byte 37 :: kA).
(** 82-88, 123-128: the checks of the byte-string versions *)
Definition raw_sid_ok (sid server_pk : bytes) : bool :=
  (if Nat.eqb (length sid) 33 then match sid with c :: _ => Ascii.eqb c (byte 5) | [] => false end else Nat.eqb (length sid) 32) && Nat.eqb (length server_pk) 32.
(** 81-97 blind15_id *)
Definition blind15_id (E : ecrypt) (sid server_pk : bytes) : outcome bytes :=
  if raw_sid_ok sid server_pk then blind15_impl E (drop_prefix sid) server_pk else Throw.
(** 122-137 blind25_id *)
Definition blind25_id (E : ecrypt) (sid server_pk : bytes) : outcome bytes :=
  if raw_sid_ok sid server_pk then blind25_impl E sid server_pk else Throw.
(** 100-110, 140-150: the hex versions.  [Some]: the session id (33 bytes) and the server key (32 bytes) *)
Definition hex_args (sid server_pk : bytes) : option (bytes * bytes) :=
  if session_id_ok sid (b "05") && Nat.eqb (length server_pk) 64
  then match from_hex sid, from_hex server_pk with Some s, Some p => Some (s, p) | _, _ => None end
  else None.
(** the last byte ^= 0x80 *)
Definition flip_last (s : bytes) : bytes := firstn (length s - 1) s ++ map (fun c => byte ((N_of_ascii c + 128) mod 256)) (skipn (length s - 1) s).
(** 99-120 blind15_id: both the positive and the negative alternative *)
Definition blind15_id_hex (E : ecrypt) (sid server_pk : bytes) : outcome (bytes * bytes) :=
  a <- of_opt (hex_args sid server_pk) Throw ;;
  id <- blind15_impl E (fst a) (snd a) ;;
  Ok (to_hex id, to_hex (flip_last id)).
(** 139-155 blind25_id *)
Definition blind25_id_hex (E : ecrypt) (sid server_pk : bytes) : outcome bytes :=
  a <- of_opt (hex_args sid server_pk) Throw ;;
  id <- blind25_impl E (fst a) (snd a) ;;
  Ok (to_hex id).
(** 157-182 blinded15_id_from_ed.  [want]: a session id pointer was passed; then the session id is also returned. *)
Definition blinded15_from_ed (E : ecrypt) (pk server_pk : bytes) (want : bool) : outcome (bytes * bytes) :=
  if negb (Nat.eqb (length pk) 32) || negb (Nat.eqb (length server_pk) 32) then Throw
  else
    sid <- (if want then x <- of_opt (pk_to_x E pk) Throw ;; Ok (byte 5 :: x) else Ok []) ;;
    kA <- of_opt (mul_noclamp E (blind15_factor E server_pk) pk) Throw ;;
    Ok (byte 21 :: kA, sid).
(** 184-220 blinded25_id_from_ed.  [given]: the session id passed in, [] for none *)
Definition blinded25_from_ed (E : ecrypt) (pk server_pk given : bytes) : outcome (bytes * bytes) :=
  if negb (Nat.eqb (length pk) 32) || negb (Nat.eqb (length server_pk) 32) then Throw
  else if negb (Nat.eqb (length given) 0) && negb (Nat.eqb (length given) 33) then Throw
  else
    sid <- (if Nat.eqb (length given) 0 then x <- of_opt (pk_to_x E pk) Throw ;; Ok (byte 5 :: x) else Ok given) ;;
    kA <- of_opt (mul_noclamp E (blind25_factor E sid server_pk) (clear_sign pk)) Throw ;;
    Ok (byte 37 :: kA, sid).
(** 222-254 blind15_key_pair: public key, secret scalar, and the factor k *)
Definition blind15_key_pair (E : ecrypt) (sk server_pk : bytes) : outcome (bytes * bytes * bytes) :=
  sk <- full_sk E sk ;;
  if negb (Nat.eqb (length server_pk) 32) then Throw
  else
    let k := blind15_factor E server_pk in
    let a := sc_mul k (ed_scalar E sk) in
    Ok (base_noclamp E a, a, k).
(** 256-299 blind25_key_pair; the factor is negated if the public key is negative *)
Definition neg_bit (pk : bytes) : bool := N.testbit (N_of_ascii (nth 31 pk NUL)) 7.
Definition blind25_key_pair (E : ecrypt) (sk server_pk : bytes) : outcome (bytes * bytes * bytes) :=
  sk <- full_sk E sk ;;
  if negb (Nat.eqb (length server_pk) 32) then Throw
  else
    x <- of_opt (pk_to_x E (skipn 32 sk)) Throw ;;
    let k := blind25_factor E x server_pk in
    let k' := if neg_bit (skipn 32 sk) then sc_neg k else k in
    let a := sc_mul k' (ed_scalar E sk) in
    Ok (base_noclamp E a, a, k').
(** 314-320, 378-384: the server key as 32 bytes or 64 hex digits *)
Definition server_key (s : bytes) : outcome bytes :=
  if Nat.eqb (length s) 32 then Ok s else if Nat.eqb (length s) 64 then of_opt (from_hex s) Throw else Throw.
(** 344-361 and 402-425 and keys.cpp 741-756: R = rB, S = r + H(R || A || M) a *)
Definition schnorr_sign (E : ecrypt) (A a r m : bytes) : bytes :=
  let R := base_noclamp E r in
  R ++ sc_add (sc_mul (hram E R A m) a) r.
(** 301-364 blind25_sign *)
Definition blind25_nonce (E : ecrypt) (seed A m : bytes) : bytes :=
  sc_reduce (ec_blake E 64 (b "SessCommBlind25_sig") [] (ec_blake E 32 (b "SessCommBlind25_seed") [] seed ++ A ++ m)).
Definition blind25_sign (E : ecrypt) (sk server m : bytes) : outcome bytes :=
  sk <- full_sk E sk ;;
  server_pk <- server_key server ;;
  kp <- blind25_key_pair E sk server_pk ;;
  let A := fst (fst kp) in
  Ok (schnorr_sign E A (snd (fst kp)) (blind25_nonce E (seed_of sk) A m) m).
(** 366-426 blind15_sign *)
Definition blind15_nonce (E : ecrypt) (sk64 A m : bytes) : bytes := sc_reduce (ec_sha512 E (skipn 32 (ec_sha512 E sk64) ++ A ++ m)).
Definition blind15_sign (E : ecrypt) (sk server m : bytes) : outcome bytes :=
  sk <- full_sk E sk ;;
  server_pk <- server_key server ;;
  kp <- blind15_key_pair E sk server_pk ;;
  let A := fst (fst kp) in
  Ok (schnorr_sign E A (snd (fst kp)) (blind15_nonce E sk A m) m).
(** 428-459 session_id_matches_blinded_id.  The prefix check refuses only ids whose second digit is not 5 and that do not
    start with both 1 and 2, i.e. those whose second digit is not 5.  [UB]: blinded_id[1] of an id of less than two bytes (C strings and the
    tests' std::strings are NUL-terminated, a string_view need not be). *)
Definition matches_blinded_id (E : ecrypt) (sid blinded server_pk : bytes) : outcome bool :=
  if negb (session_id_ok sid (b "05")) then Throw
  else match blinded with
       | c0 :: c1 :: _ =>
           if negb (Ascii.eqb c1 "5") then Throw
           else if negb (Nat.eqb (length server_pk) 64 && is_hex server_pk) then Throw
           else if Ascii.eqb c0 "1" then ids <- blind15_id_hex E sid server_pk ;; Ok (eqb blinded (fst ids) || eqb blinded (snd ids))
           else if Ascii.eqb c0 "2" then id <- blind25_id_hex E sid server_pk ;; Ok (eqb blinded id)
           else Throw
       | _ => UB
       end.

(** session_encrypt.cpp 160-222 blinded_shared_secret *)
Definition head_is (n : N) (s : bytes) : bool := match s with c :: _ => Ascii.eqb c (byte n) | [] => false end.
Definition blinded_shared_secret (E : ecrypt) (sk kA jB server_pk : bytes) (sending : bool) : outcome bytes :=
  if negb (Nat.eqb (length sk) 64) && negb (Nat.eqb (length sk) 32) then Throw
  else if negb (Nat.eqb (length server_pk) 32) then Throw
  else if negb (Nat.eqb (length kA) 33) || negb (Nat.eqb (length jB) 33) then Throw
  else
    let a := ed_scalar E sk in
    ka <- (if head_is 21 kA && head_is 21 jB then kp <- blind15_key_pair E sk server_pk ;; Ok a
           else if head_is 37 kA && head_is 37 jB then kp <- blind25_key_pair E sk server_pk ;; Ok (sc_mul a (snd kp))
           else Throw) ;;
    let kA := skipn 1 kA in
    let jB := skipn 1 jB in
    s <- of_opt (mul_noclamp E ka jB) Throw ;;
    Ok (ec_blake E 32 [] [] (s ++ (if sending then kA else jB) ++ (if sending then jB else kA))).
(** 226-306 encrypt_for_blinded_recipient; [nonce]: 24 random bytes *)
Definition encrypt_blinded (E : ecrypt) (nonce sk server_pk recipient m : bytes) : outcome bytes :=
  if negb (Nat.eqb (length sk) 64) && negb (Nat.eqb (length sk) 32) then Throw
  else if negb (Nat.eqb (length server_pk) 32) then Throw
  else if negb (Nat.eqb (length recipient) 33) then Throw
  else
    kp <- (if head_is 21 recipient then blind15_key_pair E sk server_pk else if head_is 37 recipient then blind25_key_pair E sk server_pk else Throw) ;;
    key <- blinded_shared_secret E sk (firstn 1 recipient ++ fst (fst kp)) recipient server_pk true ;;
    let A := if Nat.eqb (length sk) 64 then skipn 32 sk else ed_pub E sk in
    Ok (byte 0 :: ec_seal E key nonce (m ++ A) ++ nonce).
(** 404-508 decrypt_from_blinded_recipient: the message and the sender's session id.  [UB]: recipient_id[0] of an empty id *)
Definition flip_at (i : nat) (s : bytes) : bytes := firstn i s ++ map (fun c => byte ((N_of_ascii c + 128) mod 256)) (firstn 1 (skipn i s)) ++ skipn (S i) s.
Definition id_from_ed (E : ecrypt) (b25 : bool) (pk server_pk : bytes) (want : bool) : outcome (bytes * bytes) :=
  if b25 then blinded25_from_ed E pk server_pk [] else blinded15_from_ed E pk server_pk want.
Definition decrypt_blinded (E : ecrypt) (sk server_pk sender recipient c : bytes) : outcome (bytes * bytes) :=
  sk <- full_sk E sk ;;
  if Nat.ltb (length c) (NPUBBYTES + 1 + ABYTES) then Throw
  else if Nat.eqb (length recipient) 0 then UB
  else
    let b25 := head_is 37 recipient in
    own <- id_from_ed E b25 (skipn 32 sk) server_pk false ;;
    key <- (if eqb sender (fst own) then blinded_shared_secret E sk sender recipient server_pk true else blinded_shared_secret E sk recipient sender server_pk false) ;;
    if negb (head_is 0 c) then Throw
    else
      let size := length c - ABYTES - 1 - NPUBBYTES in
      if Nat.ltb size 32 then Throw
      else
        buf <- of_opt (ec_open E key (skipn (size + 1 + ABYTES) c) (firstn (size + ABYTES) (skipn 1 c))) Throw ;;
        let A := skipn (size - 32) buf in
        x <- of_opt (pk_to_x E A) Throw ;;
        ext <- id_from_ed E b25 A server_pk true ;;
        let matched := eqb sender (fst ext) || (head_is 21 (fst ext) && eqb sender (flip_at 31 (fst ext))) in
        if matched then Ok (firstn (size - 32) buf, b "05" ++ to_hex x) else Throw.

(** xed25519.cpp 42-63 xed25519_compute_r; [rnd]: 64 random bytes *)
Definition xed_nonce (E : ecrypt) (a m rnd : bytes) : bytes := sc_reduce (ec_blake E 64 [] (b "xed25519signatur") (a ++ m ++ rnd)).
(** 84-116 sign *)
Definition xed_sign (E : ecrypt) (rnd sk m : bytes) : bytes :=
  let A0 := base_clamp E sk in
  let A := clear_sign A0 in
  let a := if neg_bit A0 then sc_neg sk else sk in
  schnorr_sign E A a (xed_nonce E a m rnd) m.
(** 123-130 verify; 137-147 pubkey is [ec_xed] *)
Definition xed_verify (E : ecrypt) (sig xpk m : bytes) : bool := ed_verify E sig m (ec_xed E xpk).

(** keys.cpp 656-773 swarm_subaccount_sign, binary: token, admin's signature, signature.  Otherwise all three in base64.
    [user_sk]: the 64-byte secret key of the Keys object. *)
Definition sub_nonce (E : ecrypt) (seed kT m : bytes) : bytes :=
  sc_reduce (ec_blake E 64 (b "SubaccountSig") [] (ec_blake E 32 (b "SubaccountSeed") [] seed ++ kT ++ m)).
Definition subaccount_sign (E : ecrypt) (user_sk m sign_val : bytes) : outcome (bytes * bytes * bytes) :=
  if negb (Nat.eqb (length sign_val) 100) then Throw
  else
    let k := firstn 32 (skipn 4 sign_val) in
    let S := skipn 32 user_sk in
    kT <- of_opt (mul_noclamp E k (clear_sign S)) Throw ;;
    let s := ed_scalar E user_sk in
    let t := if neg_bit S then sc_neg s else s in
    let kt := sc_mul k t in
    Ok (firstn 4 sign_val ++ kT, skipn 36 sign_val, schnorr_sign E kT kt (sub_nonce E (seed_of user_sk) kT m) m).
