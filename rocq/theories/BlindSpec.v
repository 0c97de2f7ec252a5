(** What the properties of blinded ids talk about. *)
From Verif Require Export Blind SessSpec.

(** the account's blinded id on a server: 0x15 or 0x25 and the public part of its blinded key pair *)
Definition blinds (E : ecrypt) (v25 : bool) (seed server id : bytes) : Prop :=
  exists A a k, (if v25 then blind25_key_pair E seed server else blind15_key_pair E seed server) = Ok (A, a, k) /\ id = byte (if v25 then 37 else 21) :: A.
(** the blinding factor, a hash modulo L, is not zero: a 2^-252 event in which nothing can be blinded *)
Definition factor_ok (E : ecrypt) (v25 : bool) (seed server : bytes) : Prop :=
  ~ same (le (if v25 then blind25_factor E (x_of E seed) server else blind15_factor E server)) 0.
(** a session id as raw bytes *)
Definition raw_id (E : ecrypt) (seed sid : bytes) : Prop := sid = x_of E seed \/ sid = byte 5 :: x_of E seed.
