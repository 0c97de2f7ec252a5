(** A small executable instance of the AEAD parameter, used only in examples: ciphertext = plaintext ++ 16-byte tag. *)
From Verif Require Import Spec Crypt Crypt_facts Toy.
Definition toy_tag (k n m : bytes) : bytes := firstn 16 (toy_hash (k ++ n ++ m)).
Definition toy_seal (k n m : bytes) : bytes := m ++ toy_tag k n m.
Definition toy_open (k n c : bytes) : option bytes :=
  let m := firstn (length c - 16) c in if eqb c (toy_seal k n m) then Some m else None.
Definition toy_aead : aead := mkAead toy_hash (fun k x => firstn 24 (toy_hash (k ++ x))) toy_seal toy_open.
Lemma toy_hash_length s : length (toy_hash s) = 32.
Proof. apply (toy_hash32 None None 0%Z). Qed.
Lemma toy_tag_length k n m : length (toy_tag k n m) = 16.
Proof. unfold toy_tag. rewrite firstn_length, toy_hash_length. reflexivity. Qed.
Lemma toy_aead_ok : aead_ok toy_aead.
Proof.
  split; cbn [toy_aead a_nonce a_seal a_open].
  - intros k x. rewrite firstn_length, toy_hash_length. reflexivity.
  - intros k n m. unfold toy_seal. rewrite app_length, toy_tag_length. reflexivity.
  - intros k n m. unfold toy_open. cbv zeta.
    assert (e : firstn (length (toy_seal k n m) - 16) (toy_seal k n m) = m).
    { unfold toy_seal at 1. rewrite app_length, toy_tag_length. replace (length m + 16 - 16) with (length m) by lia.
      unfold toy_seal. rewrite firstn_app, Nat.sub_diag, firstn_all. apply app_nil_r. }
    rewrite e, eqb_refl. reflexivity.
  - intros k n c m. unfold toy_open. cbv zeta. destruct (eqb c _) eqn:e; [|discriminate]. intros [= <-]. apply eqb_eq. exact e.
Qed.
Definition toy_key : bytes := Eval vm_compute in b "0123456789abcdef0123456789abcdef".
