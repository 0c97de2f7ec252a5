(** Specification of C94: the objects of a group on one device over time. *)
From Verif Require Import Crypt_facts.
From Verif Require Export KeysSpec BaseSpec Sig GroupObj.

(** what the class of a config needs: 32-byte hashes, and at least one older version kept *)
Definition class_ok (B : benv) : Prop := hash32 (b_env B) /\ (1 <= e_lag (b_env B) < 2 ^ 63)%Z.
(** Ed25519: what a key made from a seed signs verifies *)
Definition seeds_sign (G : gcrypt) : Prop := forall seed, length seed = 32 -> key_pair G (seed ++ g_edpk G seed) (g_edpk G seed).
(** the signing keys of an object of the group with public key [pk] and, for an administrator, secret key [sk] *)
Definition group_sigs (pk : bytes) (sk : option bytes) : sigs :=
  match sk with Some s => mkSigs (Some s) (Some pk) true true | None => mkSigs None (Some pk) true false end.

(** The states the three objects of a device can be in: opened (an administrator with the group's key), then any calls that
    came back, save calls that change a config's keys directly, and closing and opening again with what was saved. *)
Inductive device3 (G : gcrypt) (B : part -> benv) : gobjs -> Prop :=
| d3_open user pk sk q : match sk with Some s => key_pair G s pk | None => True end -> group_open G B user pk sk None None None = Ok q -> device3 G B q
| d3_load h data ts found q q' : device3 G B q -> group_load G B h data ts q = (Ok found, q') -> device3 G B q'
| d3_rekey m q q' : device3 G B q -> group_rekey G B q = (Ok m, q') -> device3 G B q'
| d3_dump q : device3 G B q -> device3 G B (snd (group_dump q))
| d3_admin secret q q' : device3 G B q -> group_admin G secret q = (Ok tt, q') -> device3 G B q'
| d3_conf p o x q q' : device3 G B q -> key_op o = false -> group_conf G B p o q = (x, q') -> returned x -> tame (part_env G B q p) o (q_conf q p) (q_conf q' p) -> device3 G B q'
| d3_reopen q di sti dm stm q' : device3 G B q ->
    dump (part_env G B q Info) (q_conf q Info) = (Ok di, sti) -> dump (part_env G B q Members) (q_conf q Members) = (Ok dm, stm) ->
    (N.of_nat (length di) <= uint64_max)%N -> (N.of_nat (length dm) <= uint64_max)%N -> (N.of_nat (length (kdump (q_keys q))) <= uint64_max)%N ->
    group_open G B (ko_user (q_keys q)) (ko_pk (q_keys q)) (ko_sk (q_keys q)) (Some di) (Some dm) (Some (kdump (q_keys q))) = Ok q' -> device3 G B q'.

(** the two configs' environments agree with another device's up to the signing key *)
Definition same_class (A R : benv) : Prop :=
  e_hash (b_env R) = e_hash (b_env A) /\ e_lag (b_env R) = e_lag (b_env A) /\ b_aead R = b_aead A /\ b_domain R = b_domain A /\
  (forall x, b_unzstd R (b_zstd A x) = Some x) /\ b_proto R = false /\ b_proto A = false.
(** any calls on the two configs that leave their keys alone *)
Inductive used (G : gcrypt) (B : part -> benv) (q : gobjs) : gobjs -> Prop :=
| us_none : used G B q q
| us_call p o x q1 q2 : used G B q q1 -> key_op o = false -> group_conf G B p o q1 = (x, q2) -> returned x -> tame (part_env G B q1 p) o (q_conf q1 p) (q_conf q2 p) -> used G B q q2.
(** the assumptions about the libraries and the classes of two devices *)
Record setting (G : gcrypt) (A R : part -> benv) : Prop := {
  se_lib : lib_ok G;
  se_seeds : seeds_sign G;
  se_aead : forall p, aead_ok (b_aead (A p));
  se_a : forall p, class_ok (A p);
  se_r : forall p, class_ok (R p);
  se_same : forall p, same_class (A p) (R p)
}.
