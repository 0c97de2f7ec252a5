(** Swarm subaccounts: src/config/groups/keys.cpp 539-660 and 775-832 (not the signing of requests, 662-773: see
    EdSign.v).  Definitions only. *)
From Verif Require Export GroupKeys.

(** libsodium's Ed25519 scalar and point functions and xed25519::pubkey, as parameters *)
Record scrypt := mkScrypt {
  s_g : gcrypt;
  s_reduce : bytes -> bytes;                       (* crypto_core_ed25519_scalar_reduce *)
  s_xed : bytes -> bytes;                          (* src/xed25519.cpp 136-146 pubkey: the positive Ed25519 key of an X25519 key *)
  s_mul : bytes -> bytes -> option bytes           (* crypto_scalarmult_ed25519_noclamp: scalar, point *)
}.
Definition byte (n : N) : ascii := ascii_of_N n.
(** 542-559 *)
Definition MASK_KEY : bytes := b "SessionGroupSubaccountMask".
Definition blind_factor (C : scrypt) (sk pk session_xpk : bytes) : bytes :=
  s_reduce C (g_hash (s_g C) 64 (seed_hash (s_g C) sk MASK_KEY) (byte 5 :: session_xpk ++ byte 3 :: pk)).
(** 564-571: READ, WRITE, DEL, ANY_PREFIX are bits 0 to 3 *)
Definition subacc_flags (write del : bool) : N := (1 + (if write then 2 else 0) + (if del then 4 else 0))%N.
Definition flag (i : N) (c : ascii) : bool := N.testbit (N_of_ascii c) i.
Definition sub_head (write del : bool) : bytes := [byte 3; byte (subacc_flags write del); byte 0; byte 0].
(** 575-629 swarm_make_subaccount *)
Definition make_subaccount (C : scrypt) (session_id : bytes) (write del : bool) (o : kobj) : outcome bytes :=
  match ko_sk o with
  | None => Throw
  | Some sk =>
      x <- session_id_pk session_id (b "05") ;;
      let k := blind_factor C sk (ko_pk o) x in
      kT <- of_opt (s_mul C k (s_xed C x)) Throw ;;
      let head := sub_head write del in
      Ok (head ++ k ++ g_sign (s_g C) sk (head ++ kT))
  end.
(** 631-660 swarm_subaccount_token *)
Definition subaccount_token (C : scrypt) (session_id : bytes) (write del : bool) (o : kobj) : outcome bytes :=
  match ko_sk o with
  | None => Throw
  | Some sk =>
      x <- session_id_pk session_id (b "05") ;;
      kT <- of_opt (s_mul C (blind_factor C sk (ko_pk o) x) (s_xed C x)) Throw ;;
      Ok (sub_head write del ++ kT)
  end.
(** T[31] &= 0x7f *)
Definition clear_sign (s : bytes) : bytes := firstn 31 s ++ map (fun c => byte (N_of_ascii c mod 128)) (skipn 31 s).
(** 787-832, the static swarm_verify_subaccount.  [user_sk]: 64 bytes (the code does not check). *)
Definition verify_subaccount (C : scrypt) (group_id user_sk sign_val : bytes) (write del : bool) : outcome bool :=
  group_pk <- session_id_pk group_id (b "03") ;;
  if negb (Nat.eqb (length sign_val) 100) then Ok false
  else
    let p0 := nth 0 sign_val NUL in
    let p1 := nth 1 sign_val NUL in
    if negb (Ascii.eqb p0 (byte 3)) && negb (flag 3 p1) then Ok false
    else if negb (flag 0 p1) then Ok false
    else if write && negb (flag 1 p1) then Ok false
    else if del && negb (flag 2 p1) then Ok false
    else
      let k := firstn 32 (skipn 4 sign_val) in
      let sig := skipn 36 sign_val in
      kT <- of_opt (s_mul C k (clear_sign (skipn 32 user_sk))) Throw ;;
      Ok (g_verify (s_g C) sig (firstn 4 sign_val ++ kT) group_pk).
(** 775-785, the member function *)
Definition verify_own_subaccount (C : scrypt) (sign_val : bytes) (write del : bool) (o : kobj) : outcome bool :=
  verify_subaccount C (b "03" ++ to_hex (ko_pk o)) (ko_user o) sign_val write del.
