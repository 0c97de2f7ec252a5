(** Vocabulary: a device which is left out of key messages, and what others push. *)
From Verif Require Export LeftSpec GroupObjSpec.

(** the device's three objects after a key message; one which throws leaves them as they are *)
Definition receive3 (G : gcrypt) (B : part -> benv) (q : gobjs) (m : kmsg) : gobjs := snd (group_load G B (fst (fst m)) (snd (fst m)) (snd m) q).
Definition receive3_all (G : gcrypt) (B : part -> benv) (ms : list kmsg) (q : gobjs) : gobjs := fold_left (receive3 G B) ms q.
(** the key a config message of [size] bytes is encrypted with: encrypt.cpp 33-55 *)
Definition config_key (A : aead) (key : bytes) (size : nat) (domain : bytes) : bytes := a_hash32 A (key ++ be64 (N.of_nat size) ++ domain).
(** What is assumed of the encryption: with none of [ks] opens what is encrypted, under the same domain, with [k]. *)
Definition sealed_off (A : aead) (domain : bytes) (ks : list bytes) (k : bytes) : Prop :=
  forall k' n t, In k' ks -> a_open A (config_key A k' (length t) domain) n (a_seal A (config_key A k (length t) domain) n t) = None.
(** somebody whose first key is [k] pushed [c] (a group's configs are not wrapped in protobuf) *)
Definition pushed_with (B : benv) (k c : bytes) : Prop :=
  exists A st n old st', b_aead A = b_aead B /\ b_domain A = b_domain B /\ b_proto A = false /\
    hd_error (s_keys st) = Some k /\ push A st = (Ok (n, c, old), st').
