(** What is assumed of libsodium: the laws of the curve's prime-order subgroup and its encodings, output sizes of the hashes,
    and that the ciphers decrypt what they encrypted. *)
From Verif Require Export Ed.

(** flipping and clearing the sign bit, the top bit of the last byte *)
Definition flip_sign (s : bytes) : bytes := firstn 31 s ++ map (fun c => byte ((N_of_ascii c + 128) mod 256)) (skipn 31 s).
Definition same (m n : Z) : Prop := (m mod L = n mod L)%Z.
Record ec_ok (E : ecrypt) : Prop := {
  eo_pt_len : forall m, length (ec_pt E m) = 32;
  eo_pt_eq : forall m n, ec_pt E m = ec_pt E n <-> same m n;
  eo_log : forall m, ec_log E (ec_pt E m) = Some (m mod L)%Z;
  eo_log_inv : forall s m, ec_log E s = Some m -> s = ec_pt E m;
  eo_flip : forall m, ~ same m 0 -> ec_pt E (- m) = flip_sign (ec_pt E m);
  eo_x_len : forall m, length (ec_x E m) = 32;
  eo_x_eq : forall m n, ec_x E m = ec_x E n <-> same m n \/ same m (- n);
  eo_xed : forall m, ~ same m 0 -> ec_xed E (ec_x E m) = clear_sign (ec_pt E m);
  eo_dh : forall s m, ec_dh E s (ec_x E m) = if (clamp (le s) * m mod L =? 0)%Z then None else Some (ec_x E (clamp (le s) * m));
  eo_sha : forall x, length (ec_sha512 E x) = 64;
  eo_blake : forall n k p x, length (ec_blake E n k p x) = n;
  eo_seal : forall k n m, ec_open E k n (ec_seal E k n m) = Some m;
  eo_seal_len : forall k n m, length (ec_seal E k n m) = length m + 16;
  eo_open_len : forall k n c m, ec_open E k n c = Some m -> length c = length m + 16;
  eo_bseal : forall k n m, ec_bopen E k n (ec_bseal E k n m) = Some m;
  eo_bseal_len : forall k n m, length (ec_bseal E k n m) = length m + 16;
  eo_bopen_len : forall k n c m, ec_bopen E k n c = Some m -> length c = length m + 16
}.
