(** The signing keys of a config object: ConfigSig, src/config/base.cpp 344-378 and 536-598, include/session/config/base.hpp
    71-139.  Definitions only. *)
From Verif Require Import Bytes Message Base BaseSpec GroupKeys.

(** base.hpp 74-75 _sign_sk, _sign_pk; [sg_verifies], [sg_signs]: the callables of the current ConfigMessage are set.  Every
    ConfigMessage that replaces the current one gets its callables (base.cpp 192-193, config.cpp 530-579, 698-717; copies copy
    them), so they are kept here and not in the message. *)
Record sigs := mkSigs { sg_sk : option bytes; sg_pk : option bytes; sg_verifies : bool; sg_signs : bool }.
Definition no_sigs : sigs := mkSigs None None false false.
(** 571-576 clear_sig_keys *)
Definition clear_sig_keys (s : sigs) : sigs := no_sigs.
(** 537-556 set_sig_keys; crypto_sign_ed25519_sk_to_pk copies the second half of the secret key *)
Definition set_sig_keys (secret : bytes) (s : sigs) : outcome sigs :=
  if negb (Nat.eqb (length secret) 64) then Throw
  else
    let s := clear_sig_keys s in
    Ok (mkSigs (Some secret) (Some (skipn 32 secret)) true true).
(** 558-569 set_sig_pubkey: neither the secret key nor the signer is touched *)
Definition set_sig_pubkey (pubkey : bytes) (s : sigs) : outcome sigs :=
  if negb (Nat.eqb (length pubkey) 32) then Throw
  else Ok (mkSigs (sg_sk s) (Some pubkey) true (sg_signs s)).
(** 365-377 init_sig_keys, called at the end of the constructor (344-363).  substr(32) throws for less than 32 bytes. *)
Definition init_sig_keys (pk sk : option bytes) (s : sigs) : outcome sigs :=
  match sk, pk with
  | Some sk, Some pk => if Nat.ltb (length sk) 32 then Throw else if negb (eqb pk (skipn 32 sk)) then Throw else set_sig_keys sk s
  | Some sk, None => set_sig_keys sk s
  | None, Some pk => set_sig_pubkey pk s
  | None, None => Ok (clear_sig_keys s)
  end.
(** The callables: 545-548, 549-555, 565-568 capture the object and read the keys when they are called. *)
Definition verifier_of (G : gcrypt) (s : sigs) : option (bytes -> bytes -> bool) :=
  if sg_verifies s then Some (fun data sg => match sg_pk s with Some pk => g_verify G sg data pk | None => false end) else None.
Definition signer_of (G : gcrypt) (s : sigs) : option (bytes -> bytes) :=
  if sg_signs s then Some (fun data => match sg_sk s with Some sk => g_sign G sk data | None => [] end) else None.
(** the environment in which the calls of the object run *)
Definition signing_env (G : gcrypt) (s : sigs) (B : benv) : benv :=
  mkBenv (mkEnv (e_hash (b_env B)) (verifier_of G s) (signer_of G s) (e_lag (b_env B))) (b_aead B) (b_domain B) (b_level B) (b_zstd B) (b_unzstd B) (b_proto B) (b_wrap B) (b_unwrap B).
(** 586-598 seed_hash *)
Definition config_seed_hash (G : gcrypt) (s : sigs) (key : bytes) : outcome bytes :=
  match sg_sk s with None => Throw | Some sk => Ok (seed_hash G sk key) end.

(** A call that sets keys; a call that throws leaves the object as it is. *)
Inductive sig_cmd := SigSecret (sk : bytes) | SigPublic (pk : bytes) | SigClear.
Definition sig_call (c : sig_cmd) (s : sigs) : outcome sigs :=
  match c with SigSecret sk => set_sig_keys sk s | SigPublic pk => set_sig_pubkey pk s | SigClear => Ok (clear_sig_keys s) end.
Definition sig_run (l : list sig_cmd) (s : sigs) : sigs :=
  fold_left (fun s c => match sig_call c s with Ok s' => s' | _ => s end) l s.
