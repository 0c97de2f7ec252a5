(** What the Session protocol properties talk about. *)
From Verif Require Export SessEnc EdSpec.

(** an account is an Ed25519 seed; its secret key is given as the seed or in libsodium's 64-byte form *)
Definition account (E : ecrypt) (seed sk : bytes) : Prop := length seed = 32 /\ (sk = seed \/ sk = seed ++ ed_pub E seed).
(** the X25519 public key in the account's session id, and how a recipient may be written *)
Definition x_of (E : ecrypt) (seed : bytes) : bytes := x_base E (ed_scalar E seed).
Definition session_id_of (E : ecrypt) (seed : bytes) : bytes := b "05" ++ to_hex (x_of E seed).
Definition addresses (E : ecrypt) (seed pk : bytes) : Prop := pk = x_of E seed \/ pk = byte 5 :: x_of E seed.
(** the signature nonce that Ed25519 derives from the key and the signed text is not zero: a 2^-252 event, in which libsodium's
    own signature does not verify *)
Definition nonce_ok (E : ecrypt) (seed text : bytes) : Prop := ~ same (le (ed_nonce E seed text)) 0.
