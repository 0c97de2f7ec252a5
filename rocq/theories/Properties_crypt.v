(** C34, C35, C63: config encryption framing and padding.  Statements only; proofs are in Crypt_facts.v. *)
From Verif Require Import Spec Crypt Crypt_facts Toy ToyCrypt.

(** ** C34 *)
(** Encrypting succeeds exactly for a 32-byte key and a domain of 1 to 24 bytes; the result is 40 bytes longer and
    decrypts with the same key and domain to the same message. *)
Theorem C34_roundtrip A m k d : aead_ok A -> length k = 32 -> 1 <= length d <= 24 ->
  exists c, encrypt A m k d = Ok c /\ length c = length m + 40 /\ decrypt A c k d = Ok m.
Proof.
  intros ha hk hd. destruct (encrypt_ok A m k d hk hd) as (key & nonce & _ & _ & he). eexists. split; [exact he|].
  split; [exact (encrypt_length A m k d _ ha he)|exact (decrypt_encrypt A m k d _ ha he)].
Qed.
Theorem C34_refuses_bad_parameters A m k d : length k <> 32 \/ length d = 0 \/ 24 < length d -> encrypt A m k d = Throw.
Proof. exact (encrypt_refuses A m k d). Qed.
(** Too short input is a decryption error; whatever decrypts is an encryption under this key and domain, and gives a
    message exactly 40 bytes shorter. *)
Theorem C34_short_rejected A c k d : length c < 40 -> decrypt A c k d = Err.
Proof. exact (decrypt_short A c k d). Qed.
Theorem C34_decrypts_only_encryptions A c k d m : aead_ok A -> decrypt A c k d = Ok m ->
  exists key nonce, make_encrypt_key A k (N.of_nat (length m)) d = Ok key /\ c = a_seal A key nonce m ++ nonce /\
    length nonce = 24 /\ length c = length m + 40.
Proof. exact (decrypt_inv A c k d m). Qed.
Print Assumptions C34_roundtrip.
Print Assumptions C34_refuses_bad_parameters.
Print Assumptions C34_short_rejected.
Print Assumptions C34_decrypts_only_encryptions.
Example ex_C34 : aead_ok toy_aead /\ (exists c, encrypt toy_aead (b "hello") toy_key (b "UserProfile") = Ok c /\ length c = 45 /\
  decrypt toy_aead c toy_key (b "UserProfile") = Ok (b "hello") /\ decrypt toy_aead c toy_key (b "Contacts") = Err) /\
  encrypt toy_aead (b "hello") toy_key (b "") = Throw.
Proof.
  split; [exact toy_aead_ok|]. split; [|reflexivity]. eexists. split; [vm_compute; reflexivity|]. split; [reflexivity|].
  split; vm_compute; reflexivity.
Qed.

(** ** C63 *)
(** What is hashed into the message key determines the base key, the message size and the domain: two uses that differ
    in any of the three never hash the same input. *)
Theorem C63_domain_separation k k' z z' d d' : length k = 32 -> length k' = 32 -> (z < 2 ^ 64)%N -> (z' < 2 ^ 64)%N ->
  kdf_input k z d = kdf_input k' z' d' -> k = k' /\ z = z' /\ d = d'.
Proof. exact (kdf_input_inj k k' z z' d d'). Qed.
Print Assumptions C63_domain_separation.
Example ex_C63 : kdf_input toy_key 5 (b "A") <> kdf_input toy_key 6 (b "A") /\ kdf_input toy_key 256 (b "A") = toy_key ++ repeat NUL 6 ++ ["001"%char; NUL; "A"%char].
Proof. split; [vm_compute; discriminate|vm_compute; reflexivity]. Qed.

(** ** C35 *)
(** The bucket for a total size (message plus overhead): 256 bytes below 5120, 1024 below 20480, 2048 below 40960,
    5120 from there on. *)
Definition bucket (total : N) : N :=
  if (total <? 5120)%N then 256%N else if (total <? 20480)%N then 1024%N else if (total <? 40960)%N then 2048%N else 5120%N.
(** For any size and overhead that do not overflow size_t: the padded total is a multiple of the bucket, at least the
    message size and less than one bucket more. *)
Theorem C35_bucket s o : (s + o + 5120 < 2 ^ 64)%N ->
  (s <= padded_size s o < s + bucket (s + o))%N /\ ((padded_size s o + o) mod bucket (s + o) = 0)%N.
Proof. exact (padded_bounds s o). Qed.
(** padding is monotone and padding a padded size changes nothing *)
Theorem C35_monotone s t o : (t + o + 10240 < 2 ^ 64)%N -> (s <= t)%N -> (padded_size s o <= padded_size t o)%N.
Proof. exact (padded_mono s t o). Qed.
Theorem C35_idempotent s o : (s + o + 10240 < 2 ^ 64)%N -> padded_size (padded_size s o) o = padded_size s o.
Proof. exact (padded_idem s o). Qed.
(** padding only prepends NULs, to exactly that size *)
Theorem C35_pads m o : (N.of_nat (length m) + o + 5120 < 2 ^ 64)%N ->
  (exists n, pad_message m o = repeat NUL n ++ m) /\ N.of_nat (length (pad_message m o)) = padded_size (N.of_nat (length m)) o.
Proof. intros h. split; [exact (pad_is_nuls m o)|exact (proj2 (pad_spec m o h))]. Qed.
(** and the receiver removes exactly it, for a message that starts with a non-NUL byte (config messages start with
    'd', 'z' or 'm') *)
Theorem C35_removable c r o : c <> NUL -> strip_nul (pad_message (c :: r) o) = c :: r.
Proof. exact (fun hc => strip_pad (c :: r) o c r eq_refl hc). Qed.
Print Assumptions C35_bucket.
Print Assumptions C35_monotone.
Print Assumptions C35_idempotent.
Print Assumptions C35_pads.
Print Assumptions C35_removable.
Example ex_C35 : padded_size 216 40 = 216%N /\ padded_size 217 40 = 472%N /\ padded_size 5079 40 = 5080%N /\ padded_size 5081 40 = 6104%N /\
  (N.of_nat (length (b "d1:#i1e1:&dee")) + 40 + 5120 < 2 ^ 64)%N /\ strip_nul (pad_message (b "d1:#i1e1:&dee") 40) = b "d1:#i1e1:&dee".
Proof. vm_compute. repeat split. Qed.
