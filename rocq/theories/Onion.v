(** Onion requests: src/onionreq/builder.cpp, hop_encryption.cpp, parser.cpp, response_parser.cpp, key_types.cpp and their
    headers.  Any exception is [Throw].  The C wrappers (builder.cpp 157-274, response_parser.cpp 47-113) call these and turn exceptions into false,
    except for the setters, which let them escape.  Definitions only. *)
From Verif Require Export SessEnc Json Pubkey.

(** libsodium as in Ed.v, HMAC-SHA256 (key, input), and nettle's AES256-GCM (key, 12-byte IV, message): ciphertext and 16-byte digest *)
Record ocrypt := mkOcrypt {
  o_e :> ecrypt;
  o_hmac : bytes -> bytes -> bytes;
  o_gcm : bytes -> bytes -> bytes -> bytes;
  o_ungcm : bytes -> bytes -> bytes -> option bytes
}.
(** builder.hpp 10-13 *)
Inductive enc_type := AesGcm | XChaCha20.
(** builder.hpp 19-25 to_string; builder.cpp 38-44 parse_enc_type *)
Definition enc_name (t : enc_type) : bytes := match t with XChaCha20 => b "xchacha20" | AesGcm => b "aes-gcm" end.
Definition parse_enc_type (s : bytes) : outcome enc_type :=
  if eqb s (b "xchacha20") || eqb s (b "xchacha20-poly1305") then Ok XChaCha20
  else if eqb s (b "aes-gcm") || eqb s (b "gcm") then Ok AesGcm
  else Throw.

(** key_types.cpp 15-32, key_types.hpp 41-63: from_hex, from_bytes of 32-byte keys *)
Definition key_from_hex (s : bytes) : outcome bytes := if is_hex s && Nat.eqb (length s) 64 then of_opt (from_hex s) Throw else Throw.
Definition key_from_bytes (s : bytes) : outcome bytes := if Nat.eqb (length s) 32 then Ok s else Throw.
(** key_types.cpp 34-38 *)
Definition snode_address (pk : bytes) : bytes := to_b32z pk ++ b ".snode".
(** key_types.cpp 55-83: parse_legacy_pubkey, parse_ed25519_pubkey, parse_x25519_pubkey.  The array is zero to begin with and what is
    decoded is copied to its front. *)
Definition null_key : bytes := repeat NUL 32.
Definition fill32 (s : bytes) : bytes := s ++ repeat NUL (32 - length s).
Definition or_null (o : option bytes) : bytes := match o with Some s => fill32 s | None => null_key end.
Definition is_some {A} (o : option A) : bool := match o with Some _ => true | None => false end.
Definition parse_pubkey (s : bytes) : bytes :=
  if Nat.eqb (length s) 32 then s
  else if Nat.eqb (length s) 64 && is_hex s then or_null (from_hex s)
  else if (Nat.eqb (length s) 43 || (Nat.eqb (length s) 44 && Ascii.eqb (last s Ascii.zero) "=")) && is_some (from_b64 s) then or_null (from_b64 s)
  else if Nat.eqb (length s) 52 && is_some (from_b32z s) then or_null (from_b32z s)
  else null_key.

(** hop_encryption.hpp 11-16, 41-45 *)
Record hop := mkHop { h_sk : bytes; h_pk : bytes; h_server : bool }.
(** hop_encryption.cpp 28-52 derive_symmetric_key *)
Definition gcm_key (O : ocrypt) (h : hop) (pk : bytes) : outcome bytes :=
  d <- of_opt (ec_dh O (h_sk h) pk) Throw ;;
  Ok (o_hmac O (b "LOKI") d).
(** 57-79 xchacha20_shared_key *)
Definition xchacha_key (O : ocrypt) (h : hop) (pk : bytes) : outcome bytes :=
  d <- of_opt (ec_dh O (h_sk h) pk) Throw ;;
  let local_first := negb (h_server h) in
  Ok (ec_blake O 32 [] [] (d ++ (if local_first then h_pk h else pk) ++ (if local_first then pk else h_pk h))).
(** 83-91, 103-129, 166-190 encrypt; [rnd]: 24 random bytes, of which AES-GCM uses 12 *)
Definition hop_encrypt (O : ocrypt) (rnd : bytes) (h : hop) (t : enc_type) (m pk : bytes) : outcome bytes :=
  match t with
  | AesGcm => k <- gcm_key O h pk ;; Ok (firstn 12 rnd ++ o_gcm O k (firstn 12 rnd) m)
  | XChaCha20 => k <- xchacha_key O h pk ;; Ok (rnd ++ ec_seal O k rnd m)
  end.
(** 93-101, 131-164, 192-224 decrypt *)
Definition hop_decrypt (O : ocrypt) (h : hop) (t : enc_type) (c pk : bytes) : outcome bytes :=
  match t with
  | AesGcm =>
      if Nat.ltb (length c) (12 + 16) then Throw
      else k <- gcm_key O h pk ;; of_opt (o_ungcm O k (firstn 12 c) (skipn 12 c)) Throw
  | XChaCha20 =>
      if Nat.ltb (length c - 24) 16 then Throw
      else k <- xchacha_key O h pk ;; of_opt (ec_open O k (firstn 24 c) (skipn 24 c)) Throw
  end.

(** builder.hpp 28-80 *)
Record builder := mkBuilder {
  bd_enc : enc_type;
  bd_dest : option bytes;                 (* destination_x25519_public_key *)
  bd_final : option (bytes * bytes);      (* final_hop_x25519_keypair: public, secret *)
  bd_hops : list (bytes * bytes);         (* Ed25519 and X25519 keys *)
  bd_ed : option bytes;
  bd_host : option bytes; bd_target : option bytes; bd_proto : option bytes; bd_port : option N
}.
(** 34 *)
Definition new_builder (t : enc_type) : builder := mkBuilder t None None [] None None None None None.
(** 36 set_enc_type *)
Definition set_enc_type (t : enc_type) (x : builder) : builder :=
  mkBuilder t (bd_dest x) (bd_final x) (bd_hops x) (bd_ed x) (bd_host x) (bd_target x) (bd_proto x) (bd_port x).
(** 38-43 set_snode_destination *)
Definition set_snode (ed pk : bytes) (x : builder) : builder :=
  mkBuilder (bd_enc x) (Some pk) (bd_final x) (bd_hops x) (Some ed) (bd_host x) (bd_target x) (bd_proto x) (bd_port x).
(** 45-61 set_server_destination *)
Definition set_server (host target proto : bytes) (port : option N) (pk : bytes) (x : builder) : builder :=
  mkBuilder (bd_enc x) (Some pk) (bd_final x) (bd_hops x) (bd_ed x) (Some host) (Some target) (Some proto) (match port with Some _ => port | None => bd_port x end).
(** 63 add_hop *)
Definition add_hop (ed pk : bytes) (x : builder) : builder :=
  mkBuilder (bd_enc x) (bd_dest x) (bd_final x) (bd_hops x ++ [(ed, pk)]) (bd_ed x) (bd_host x) (bd_target x) (bd_proto x) (bd_port x).
Definition with_final (kp : bytes * bytes) (x : builder) : builder :=
  mkBuilder (bd_enc x) (bd_dest x) (Some kp) (bd_hops x) (bd_ed x) (bd_host x) (bd_target x) (bd_proto x) (bd_port x).

(** builder.cpp 30-35 encode_size(uint32_t) *)
Definition encode_size (n : nat) : bytes := to_le 4 (Z.of_nat n).
(** a JSON object with the given fields *)
Definition jobj (l : list (bytes * json)) : json := JObj (fold_left (fun m p => insert (fst p) (snd p) m) l []).
(** [N][BLOB]{json}, 118-120, 141-143, 152-155; [None] of dump(): type_error *)
Definition frame (blob : bytes) (j : json) : outcome bytes := t <- of_opt (jdump j) Throw ;; Ok (encode_size (length blob) ++ blob ++ t).
(** 110-115, 133-138: the routing data for a service node *)
Definition snode_route (t : enc_type) (ed A : bytes) : json :=
  jobj [(b "destination", JStr (to_hex ed)); (b "ephemeral_key", JStr (to_hex A)); (b "enc_type", JStr (enc_name t))].
(** 94-104 *)
Definition server_route (t : enc_type) (host target proto : bytes) (port : option N) (A : bytes) : json :=
  jobj [(b "host", JStr host); (b "target", JStr target); (b "method", JStr (b "POST")); (b "protocol", JStr proto);
        (b "port", JNum (dec (match port with Some p => p | None => if eqb proto (b "https") then 443 else 80 end)));
        (b "ephemeral_key", JStr (to_hex A)); (b "enc_type", JStr (enc_name t))].
(** ustring{p}: what is before the first NUL *)
Fixpoint c_str (s : bytes) : bytes := match s with c :: r => if Ascii.eqb c NUL then [] else c :: c_str r | [] => [] end.
(** the randomness of one layer: the secret key of crypto_box_keypair, the nonce *)
Definition layer_rnd := (bytes * bytes)%type.
(** 82-126: the innermost layer, its public key and the routing data for the last hop.  106: the pointer payload.data() becomes the
    plaintext. *)
Definition destination_layer (O : ocrypt) (r : layer_rnd) (x : builder) (payload : bytes) : outcome (bytes * json) :=
  let A := x_base O (fst r) in
  let h := mkHop (fst r) A false in
  match bd_host x, bd_target x, bd_proto x, bd_dest x with
  | Some host, Some target, Some proto, Some pk =>
      blob <- hop_encrypt O (snd r) h (bd_enc x) (c_str payload) pk ;;
      Ok (blob, server_route (bd_enc x) host target proto (bd_port x) A)
  | _, _, _, _ =>
      match bd_ed x, bd_dest x with
      | Some ed, Some pk =>
          data <- frame payload (jobj [(b "headers", JStr [])]) ;;
          blob <- hop_encrypt O (snd r) h (bd_enc x) data pk ;;
          Ok (blob, snode_route (bd_enc x) ed A)
      | _, _ => Throw
      end
  end.
(** 128-148, from the last hop to the first; [route]: the routing data for the next one to be wrapped, [A]: the public key of the last layer.  The
    result is the blob for the first hop and its public key. *)
Fixpoint hop_layers (O : ocrypt) (t : enc_type) (rhops : list (bytes * bytes)) (rs : list layer_rnd) (route : json) (A blob : bytes) : outcome (bytes * bytes) :=
  match rhops, rs with
  | [], _ => Ok (blob, A)
  | (ed, pk) :: rhops, r :: rs =>
      data <- frame blob route ;;
      let A := x_base O (fst r) in
      blob <- hop_encrypt O (snd r) (mkHop (fst r) A false) t data pk ;;
      hop_layers O t rhops rs (snode_route t ed A) A blob
  | _ :: _, [] => UB
  end.
(** 46-158 build; [r], [rs]: randomness of the innermost layer and of the others, last hop first (as many as hops).  The key pair is
    also kept when a later step throws; not modelled. *)
Definition build (O : ocrypt) (r : layer_rnd) (rs : list layer_rnd) (x : builder) (payload : bytes) : outcome (bytes * builder) :=
  d <- destination_layer O r x payload ;;
  let A := x_base O (fst r) in
  p <- hop_layers O (bd_enc x) (rev (bd_hops x)) rs (snd d) A (fst d) ;;
  out <- frame (fst p) (jobj [(b "ephemeral_key", JStr (to_hex (snd p))); (b "enc_type", JStr (enc_name (bd_enc x)))]) ;;
  Ok (out, with_final (A, fst r) x).

(** parser.hpp 12-20 *)
Record request := mkRequest { rq_hop : hop; rq_enc : enc_type; rq_remote : bytes; rq_payload : bytes }.
(** parser.cpp 11-41 OnionReqParser *)
Definition parse_request (O : ocrypt) (pk sk req : bytes) (max_size : nat) : outcome request :=
  pk <- key_from_bytes pk ;;
  sk <- key_from_bytes sk ;;
  let h := mkHop sk pk true in
  if Nat.ltb (length req) 4 then Throw
  else if Nat.ltb max_size (length req) then Throw
  else
    let size := Z.to_nat (le (firstn 4 req)) in
    let rest := skipn 4 req in
    if Nat.ltb (length rest) size then Throw
    else
      meta <- of_opt (json_parse (skipn size rest)) Throw ;;
      t <- match jfind (b "enc_type") meta with Some j => s <- jstring j ;; parse_enc_type s | None => Ok AesGcm end ;;
      remote <- match jfind (b "ephemeral_key") meta with Some j => s <- jstring j ;; Ok (parse_pubkey s) | None => Throw end ;;
      m <- hop_decrypt O h t (firstn size rest) remote ;;
      Ok (mkRequest h t remote m).
(** 43-45 encrypt_reply *)
Definition encrypt_reply (O : ocrypt) (rnd : bytes) (q : request) (m : bytes) : outcome bytes := hop_encrypt O rnd (rq_hop q) (rq_enc q) m (rq_remote q).

(** response_parser.cpp 15-43 ResponseParser{builder}.decrypt; also what onion_request_decrypt (51-112) does *)
Definition decrypt_response (O : ocrypt) (x : builder) (c : bytes) : outcome bytes :=
  match bd_dest x, bd_final x with
  | Some pk, Some kp =>
      let h := mkHop (snd kp) (fst kp) false in
      match hop_decrypt O h (bd_enc x) c pk with
      | Ok m => Ok m
      | _ => match bd_enc x with XChaCha20 => hop_decrypt O h AesGcm c pk | AesGcm => Throw end
      end
  | _, _ => Throw
  end.
