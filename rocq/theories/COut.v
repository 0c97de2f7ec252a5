(** C functions that write into buffers of the caller: community URLs, encryption, blinding, signatures, group keys, onion
    requests.  src/config/community.cpp 228-282, src/session_encrypt.cpp 597-756, src/blinding.cpp 462-537,
    src/ed25519.cpp 86-148, src/curve25519.cpp 54-87, src/hash.cpp 41-65, src/xed25519.cpp 153-194,
    src/multi_encrypt.cpp 244-388, src/config/groups/keys.cpp 1546-1737, src/onionreq/builder.cpp 245-274 and
    src/onionreq/response_parser.cpp 49-112.  Definitions only.
    A buffer is the bytes the caller provided; [UB]: a write beyond them.  malloc is assumed to succeed, as the code does. *)
From Verif Require Import Community GroupKeys Sub SessEnc Blind.
From Verif Require Onion.

(** std::memcpy(buf, v.data(), v.size()) *)
Definition put (buf v : bytes) : outcome bytes := if Nat.leb (length v) (length buf) then Ok (v ++ skipn (length v) buf) else UB.
Fixpoint put_all (vals bufs : list bytes) : outcome (list bytes) :=
  match vals, bufs with
  | [], _ => Ok []
  | v :: vs, m :: ms => x <- put m v ;; r <- put_all vs ms ;; Ok (x :: r)
  | _ :: _, [] => UB
  end.
(** std::string::c_str with size() + 1 *)
Definition cz (s : bytes) : bytes := s ++ [NUL].

(** The common pattern: try { auto r = call(); memcpy every [fixed] result into its buffer; *out = malloc(n), *len = n, memcpy;
    return true; } catch (...) { return false; }.  Result: [Some] the buffers and the malloc'd block (empty if the function has none), or
    [None] for false / nullptr. *)
Definition c_call {A} (r : outcome A) (fixed : A -> list bytes) (blk : A -> bytes) (bufs : list bytes) : outcome (option (list bytes * bytes)) :=
  match r with
  | Ok a => x <- put_all (fixed a) bufs ;; Ok (Some (x, blk a))
  | Err | Throw => Ok None
  | UB => UB
  | Hang => Hang
  end.

(** ** community.cpp *)
(** 228-235 *)
Definition COMMUNITY_FULL_URL_MAX_LENGTH : nat := BASE_URL_MAX_LENGTH + 3 + ROOM_MAX_LENGTH + length qs_pubkey + 64 + 1.
(** 237-252 community_parse_full_url; the assertions are not there in a release build *)
Definition c_parse_full (url base room pk : bytes) : outcome (option (list bytes * bytes)) :=
  c_call (parse_full_url url) (fun r => let '(x, y, z) := r in [cz x; cz y; z]) (fun _ => []) [base; room; pk].
(** 254-275 community_parse_partial_url, with all pointers given; the flag is the byte written to has_pubkey *)
Definition c_parse_partial (url base room pk flag : bytes) : outcome (option (list bytes * bytes)) :=
  match parse_partial_url url with
  | Ok (x, y, Some z) => c_call (Ok tt) (fun _ => [cz x; cz y; z; [byte 1]]) (fun _ => []) [base; room; pk; flag]
  | Ok (x, y, None) => c_call (Ok tt) (fun _ => [cz x; cz y; []; [byte 0]]) (fun _ => []) [base; room; pk; flag]
  | Err => Ok None | Throw => Ok None | UB => UB | Hang => Hang
  end.
(** 277-284 community_make_full_url (no try block, but nothing throws) *)
Definition c_make_full (base room pk out : bytes) : outcome bytes := put out (cz (full_url base room pk)).

(** ** session_encrypt.cpp: keys have the sizes the C functions give them *)
Definition none_fixed {A} (_ : A) : list bytes := [].
Definition sid_fixed (r : bytes * bytes) : list bytes := [cz (snd r)].
(** 597-618, 620-643 *)
Definition c_encrypt_deterministic (E : ecrypt) (sk pk m : bytes) := c_call (encrypt_deterministic E sk pk m) none_fixed id [].
Definition c_encrypt_blinded (E : ecrypt) (nonce sk server recipient m : bytes) := c_call (encrypt_blinded E nonce sk server recipient m) none_fixed id [].
(** 645-667 *)
Definition c_decrypt_incoming (E : ecrypt) (sk c sid : bytes) := c_call (decrypt_incoming_session_id E sk c) sid_fixed fst [sid].
(** 669-694 *)
Definition c_decrypt_legacy (E : ecrypt) (xpk xsk c sid : bytes) := c_call (decrypt_incoming_session_id_x E xpk xsk c) sid_fixed fst [sid].
(** 696-725 *)
Definition c_decrypt_blinded (E : ecrypt) (sk server sender recipient c sid : bytes) := c_call (decrypt_blinded E sk server sender recipient c) sid_fixed fst [sid].
(** 727-746 *)
Definition c_decrypt_ons (E : ecrypt) (name c nonce sid : bytes) := c_call (decrypt_ons_response E name c nonce) (fun s => [cz s]) (fun _ => []) [sid].
(** 748-765 *)
Definition c_decrypt_push (E : ecrypt) (payload key : bytes) := c_call (decrypt_push_notification E payload key) none_fixed id [].

(** ** blinding.cpp 464-522; 524-533 *)
Definition c_blind15_key_pair (E : ecrypt) (sk server pk_out sk_out : bytes) :=
  c_call (blind15_key_pair E sk server) (fun r => [fst (fst r); snd (fst r)]) (fun _ => []) [pk_out; sk_out].
Definition c_blind25_key_pair (E : ecrypt) (sk server pk_out sk_out : bytes) :=
  c_call (blind25_key_pair E sk server) (fun r => [fst (fst r); snd (fst r)]) (fun _ => []) [pk_out; sk_out].
Definition c_blind15_sign (E : ecrypt) (sk server m out : bytes) := c_call (blind15_sign E sk server m) (fun s => [s]) (fun _ => []) [out].
Definition c_blind25_sign (E : ecrypt) (sk server m out : bytes) := c_call (blind25_sign E sk server m) (fun s => [s]) (fun _ => []) [out].
(** [{p, 66}]: the first 66 bytes at p, whatever the length of the string; [UB]: there are fewer *)
Definition view (n : nat) (mem : bytes) : outcome bytes := if Nat.leb n (length mem) then Ok (firstn n mem) else UB.
Definition c_matches (E : ecrypt) (sid blinded server : bytes) : outcome bool :=
  s <- view 66 sid ;; i <- view 66 blinded ;; k <- view 64 server ;;
  match matches_blinded_id E s i k with Err => Ok false | Throw => Ok false | x => x end.

(** ** ed25519.cpp 88-148, curve25519.cpp 54-87; [seed], [sk]: 32 random bytes *)
Definition c_ed_key_pair (E : ecrypt) (seed pk_out sk_out : bytes) :=
  c_call (ed25519_key_pair E seed) (fun r => [fst r; snd r]) (fun _ => []) [pk_out; sk_out].
Definition c_seed (sk out : bytes) := c_call (seed_for_ed_privkey sk) (fun s => [s]) (fun _ => []) [out].
Definition c_ed_sign (E : ecrypt) (sk m out : bytes) := c_call (ed25519_sign E sk m) (fun s => [s]) (fun _ => []) [out].
(** 142-148: no try block *)
Definition c_ed_verify (E : ecrypt) (sig pk m : bytes) : outcome bool := ed25519_verify E sig pk m.
Definition c_x_key_pair (E : ecrypt) (sk pk_out sk_out : bytes) :=
  c_call (Ok (x_base E sk, sk)) (fun r => [fst r; snd r]) (fun _ => []) [pk_out; sk_out].
Definition c_to_x_pk (E : ecrypt) (pk out : bytes) := c_call (to_curve25519_pubkey E pk) (fun s => [s]) (fun _ => []) [out].
Definition c_to_x_sk (E : ecrypt) (sk out : bytes) := c_call (to_curve25519_seckey E sk) (fun s => [s]) (fun _ => []) [out].

(** ** hash.cpp 44-65: an empty key is no key; [size] bytes of the result are copied *)
Definition c_hash (E : ecrypt) (size : nat) (m key out : bytes) :=
  c_call (hash E size m (if is_nil key then None else Some key)) (fun s => [firstn size s]) (fun _ => []) [out].

(** ** xed25519.cpp 157-190 *)
Definition c_xed_sign (E : ecrypt) (rnd sk m out : bytes) := c_call (Ok (xed_sign E rnd sk m)) (fun s => [s]) (fun _ => []) [out].
Definition c_xed_pubkey (E : ecrypt) (pk out : bytes) := c_call (Ok (ec_xed E pk)) (fun s => [s]) (fun _ => []) [out].

(** ** multi_encrypt.cpp 244-249 to_c_buffer, 251-288 and 321-343 *)
Definition c_encrypt_multi (X : xcrypt) (junk : nat -> nat -> bytes) (messages recipients : list bytes) (priv pub domain nonce : bytes) (pad : Z) :=
  c_call (encrypt_simple X junk messages recipients priv pub domain nonce pad) none_fixed id [].
Definition c_decrypt_multi (X : xcrypt) (encoded priv pub sender domain : bytes) :=
  c_call (of_opt (decrypt_simple X encoded priv pub sender domain) Throw) none_fixed id [].

(** ** groups/keys.cpp *)
(** oxenc::to_base64 *)
Definition to_base64 (s : bytes) : bytes := let x := encode_with b64_alphabet 6 s in x ++ repeat "="%char ((4 - length x mod 4) mod 4).
(** 1546-1566 *)
Definition c_keys_encrypt (G : gcrypt) (nonce m : bytes) (o : kobj) := c_call (encrypt_message G nonce m true 256 o) none_fixed id [].
(** 1568-1590 *)
Definition c_keys_decrypt (G : gcrypt) (c : bytes) (o : kobj) (sid : bytes) := c_call (decrypt_message G c o) (fun r => [cz (fst r)]) snd [sid].
(** 1618-1639 *)
Definition c_make_subaccount (C : scrypt) (sid : bytes) (write del : bool) (o : kobj) (out : bytes) :=
  c_call (make_subaccount C sid write del o) (fun s => [s]) (fun _ => []) [out].
(** 1641-1658 with flags, 1660-1668 without: no try block there *)
Definition c_verify_subaccount_flags (C : scrypt) (group_id user_sk sign_val : bytes) (write del : bool) : outcome bool :=
  match verify_subaccount C group_id user_sk sign_val write del with Err => Ok false | Throw => Ok false | x => x end.
Definition c_verify_subaccount (C : scrypt) (group_id user_sk sign_val : bytes) : outcome bool := verify_subaccount C group_id user_sk sign_val true false.
(** 1670-1692, 1694-1716 *)
Definition c_subaccount_sign (E : ecrypt) (user_sk m sign_val o1 o2 o3 : bytes) :=
  c_call (subaccount_sign E user_sk m sign_val) (fun r => let '(x, y, z) := r in [cz (to_base64 x); cz (to_base64 y); cz (to_base64 z)]) (fun _ => []) [o1; o2; o3].
Definition c_subaccount_sign_binary (E : ecrypt) (user_sk m sign_val o1 o2 o3 : bytes) :=
  c_call (subaccount_sign E user_sk m sign_val) (fun r => let '(x, y, z) := r in [firstn 36 x; firstn 64 y; firstn 64 z]) (fun _ => []) [o1; o2; o3].
(** 1718-1737; exactly 36 bytes are copied *)
Definition c_subaccount_token (C : scrypt) (sid : bytes) (write del : bool) (o : kobj) (out : bytes) :=
  c_call (subaccount_token C sid write del o) (fun s => [firstn 36 s]) (fun _ => []) [out].

(** ** onionreq/builder.cpp 245-274: a copy of the builder builds; the caller's one does not change.  Without a key pair: an exception *)
Definition c_onion_build (O : Onion.ocrypt) (r : Onion.layer_rnd) (rs : list Onion.layer_rnd) (x : Onion.builder) (payload pk_out sk_out : bytes) :=
  c_call (y <- Onion.build O r rs x payload ;; kp <- of_opt (Onion.bd_final (snd y)) Throw ;; Ok (fst y, kp))
    (fun a => [fst (snd a); snd (snd a)]) fst [pk_out; sk_out].
(** onionreq/response_parser.cpp 51-112 onion_request_decrypt: the keys come from the caller *)
Definition c_onion_decrypt (O : Onion.ocrypt) (t : Onion.enc_type) (dest final_pk final_sk c : bytes) :=
  c_call (let h := Onion.mkHop final_sk final_pk false in
          match Onion.hop_decrypt O h t c dest with
          | Ok m => Ok m
          | _ => match t with Onion.XChaCha20 => Onion.hop_decrypt O h Onion.AesGcm c dest | Onion.AesGcm => Throw end
          end) none_fixed id [].
