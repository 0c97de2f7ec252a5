(** A small executable instance of the libraries used by the group keys, used only in examples and counterexamples.
    A key pair is (seed, hash of the seed); the X25519 keys of both sides are the public key; the shared secret is the
    unordered pair. *)
From Verif Require Import KeysSpec Multi_facts Keys4_facts Toy ToyCrypt.

Definition fill (n : nat) (s : bytes) : bytes := let h := toy_hash s in map (fun i => nth (i mod 32) h NUL) (seq 0 n).
Lemma fill_length n s : length (fill n s) = n. Proof. unfold fill. rewrite map_length, seq_length. reflexivity. Qed.
Definition toy_dh (a B : bytes) : option bytes := Some (if ltb a B then a ++ B else B ++ a).
Definition toy_x : xcrypt := mkXcrypt toy_dh (fun d x => toy_hash (d ++ x)) toy_seal toy_open.
Definition toy_xpk (pk : bytes) : option bytes := if Nat.eqb (length pk) 32 then Some pk else None.
Definition toy_xsk (sk : bytes) : bytes := firstn 32 (skipn 32 sk ++ repeat NUL 32).
Definition toy_gsign (sk m : bytes) : bytes := toy_sign (skipn 32 sk ++ m).
Definition toy_gverify (sig m pk : bytes) : bool := eqb sig (toy_sign (pk ++ m)).
(** compresses one string *)
Definition zeros : bytes := Eval vm_compute in repeat "0"%char 40.
Definition toy_zstd (s : bytes) : bytes := if eqb s zeros then b "z" else "_"%char :: s.
Definition toy_unzstd (n : N) (c : bytes) : option bytes := if eqb c (b "z") then Some zeros else match c with _ :: s => Some s | [] => None end.
Definition toy_g : gcrypt := mkGcrypt toy_x (fun n k m => fill n (k ++ m)) toy_xpk toy_xsk toy_gsign toy_gverify (fun s n => fill n s) toy_hash toy_zstd toy_unzstd.
Lemma toy_x_ok : seal_ok toy_x.
Proof.
  split; cbn [toy_x x_seal x_open].
  - intros k n m. unfold toy_open. cbv zeta.
    assert (e : firstn (length (toy_seal k n m) - 16) (toy_seal k n m) = m).
    { unfold toy_seal at 1. rewrite app_length, toy_tag_length. replace (length m + 16 - 16) with (length m) by lia.
      unfold toy_seal. rewrite firstn_app, Nat.sub_diag, firstn_all. apply app_nil_r. }
    rewrite e, eqb_refl. reflexivity.
  - intros k n m. unfold toy_seal. rewrite app_length, toy_tag_length. reflexivity.
  - intros k n c m. unfold toy_open. cbv zeta. destruct (eqb c _) eqn:e; [|discriminate]. intros [= <-]. apply eqb_eq in e. rewrite e at 1.
    unfold toy_seal. rewrite app_length, toy_tag_length. reflexivity.
Qed.
Lemma toy_binding : binding toy_x.
Proof.
  intros k k' n m m'. cbn [toy_x x_seal x_open]. unfold toy_open. cbv zeta. destruct (eqb _ _); [|discriminate]. intros [= <-].
  unfold toy_seal. rewrite app_length, toy_tag_length. replace (length m + 16 - 16) with (length m) by lia. rewrite firstn_app, Nat.sub_diag, firstn_all. apply app_nil_r.
Qed.
Lemma toy_xsk_length sk : length (toy_xsk sk) = 32.
Proof. unfold toy_xsk. rewrite firstn_length, app_length, repeat_length. lia. Qed.
Lemma toy_g_ok : lib_ok toy_g.
Proof.
  split; [exact toy_x_ok|]. split; cbn [toy_g g_hash g_xpk g_xsk g_sign g_rng g_edpk].
  - intros n k m. apply fill_length.
  - intros pk x. unfold toy_xpk. destruct (Nat.eqb (length pk) 32) eqn:E; [|discriminate]. intros [= <-]. apply Nat.eqb_eq in E. exact E.
  - exact toy_xsk_length.
  - intros sk m. unfold toy_gsign, toy_sign. rewrite app_length, !toy_hash_length. reflexivity.
  - intros s n. apply fill_length.
  - intros s. apply toy_hash_length.
Qed.
Definition toy_sk (seed : bytes) : bytes := seed ++ toy_hash seed.
Lemma toy_sk_pk seed : length seed = 32 -> skipn 32 (toy_sk seed) = toy_hash seed.
Proof.
  intros h. unfold toy_sk. assert (e : skipn (length seed) (seed ++ toy_hash seed) = toy_hash seed).
  { rewrite skipn_app, skipn_all, Nat.sub_diag. reflexivity. }
  rewrite h in e. exact e.
Qed.
Lemma toy_pair seed : length seed = 32 -> key_pair toy_g (toy_sk seed) (toy_hash seed).
Proof. intros h m. cbn [toy_g g_verify g_sign]. unfold toy_gverify, toy_gsign. rewrite toy_sk_pk by exact h. apply eqb_refl. Qed.
Lemma toy_xsk_sk seed : length seed = 32 -> toy_xsk (toy_sk seed) = toy_hash seed.
Proof.
  intros h. unfold toy_xsk. rewrite toy_sk_pk by exact h. assert (e : firstn (length (toy_hash seed)) (toy_hash seed ++ repeat NUL 32) = toy_hash seed).
  { rewrite firstn_app, Nat.sub_diag, firstn_all. apply app_nil_r. }
  rewrite toy_hash_length in e. exact e.
Qed.
Lemma toy_agree seed seed' : length seed = 32 -> length seed' = 32 ->
  agree toy_x (toy_xsk (toy_sk seed)) (toy_hash seed) (toy_xsk (toy_sk seed')) (toy_hash seed').
Proof.
  intros h h'. unfold agree. rewrite !toy_xsk_sk by assumption. cbn [toy_x x_dh]. unfold toy_dh. destruct (ltb (toy_hash seed) (toy_hash seed')) eqn:E1, (ltb (toy_hash seed') (toy_hash seed)) eqn:E2; try (eexists; split; reflexivity).
  - apply ltb_lt in E1, E2. exfalso. exact (lt_irrefl _ (lt_trans _ _ _ E1 E2)).
  - apply ltb_nlt in E1, E2. destruct (lt_total (toy_hash seed) (toy_hash seed')) as [h1|[h1|h1]]; try contradiction. rewrite h1. eexists; split; reflexivity.
Qed.
