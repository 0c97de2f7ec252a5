From Verif Require Import SessSpec Ed_facts.
From Coq Require Import ZifyBool ZifyN ZifyNat.

Lemma skipn_skipn {A} x y (l : list A) : skipn x (skipn y l) = skipn (x + y) l.
Proof. revert l. induction y as [|y IH]; intros l; [rewrite Nat.add_0_r; reflexivity|]. rewrite Nat.add_succ_r. destruct l as [|a l]; [rewrite !skipn_nil; reflexivity|]. apply IH. Qed.

Lemma firstn_add {A} x y (l : list A) : firstn x l ++ firstn y (skipn x l) = firstn (x + y) l.
Proof. revert l. induction x as [|x IH]; intros l; [reflexivity|]. destruct l as [|a l]; [cbn; rewrite firstn_nil; reflexivity|]. cbn. f_equal. apply IH. Qed.

Section facts.
  Context (E : ecrypt) (H : ec_ok E).

  Lemma full_sk_account seed sk : account E seed sk -> full_sk E sk = Ok (seed ++ ed_pub E seed).
  Proof.
    intros (hl & [-> | ->]); unfold full_sk.
    - rewrite hl. reflexivity.
    - rewrite app_length, hl, (ed_pub_length E H). reflexivity.
  Qed.
  Lemma seed_of_account seed sk : account E seed sk -> seed_of sk = seed.
  Proof. intros (hl & [-> | ->]); unfold seed_of; [rewrite <- hl; apply firstn_all|apply firstn_exact; exact hl]. Qed.
  Lemma scalar_account seed sk : account E seed sk -> ed_scalar E sk = ed_scalar E seed.
  Proof.
    intros h. unfold ed_scalar. rewrite (seed_of_account seed sk h). assert (hs : account E seed seed) by (destruct h; split; auto). rewrite (seed_of_account seed seed hs). reflexivity.
  Qed.
  Lemma strip05_addr seed pk : addresses E seed pk -> strip05 pk = Ok (x_of E seed).
  Proof.
    pose proof (x_base_length E H (ed_scalar E seed)) as hl. fold (x_of E seed) in hl. intros [-> | ->]; unfold strip05.
    - destruct (x_of E seed) as [|c r] eqn:e; [discriminate|]. rewrite hl. reflexivity.
    - cbn [length]. rewrite hl. reflexivity.
  Qed.
  Lemma account_full seed sk : account E seed sk -> account E seed (seed ++ ed_pub E seed).
  Proof. intros (hl & _). split; [exact hl|right; reflexivity]. Qed.
  Lemma pk_account seed : length seed = 32 -> skipn 32 (seed ++ ed_pub E seed) = ed_pub E seed.
  Proof. apply skipn_exact. Qed.

  Definition signed_text (seed x m : bytes) : bytes := m ++ ed_pub E seed ++ x.
  Lemma nonce_full seed sk text : account E seed sk -> ed_nonce E sk text = ed_nonce E seed text.
  Proof. intros h. unfold ed_nonce. rewrite (seed_of_account seed sk h), (seed_of_account seed seed); [reflexivity|]. destruct h; split; auto. Qed.
  Lemma sign_account seed sk text : account E seed sk -> nonce_ok E seed text -> ed_verify E (ed_sign E (seed ++ ed_pub E seed) text) text (ed_pub E seed) = true.
  Proof.
    intros h hn. pose proof (account_full seed sk h) as hf. destruct h as (hl & _).
    assert (e := ed_sign_verify E H (seed ++ ed_pub E seed) text). rewrite (pk_account seed hl), (seed_of_account seed _ hf), (nonce_full seed _ text hf) in e.
    apply e; [rewrite app_length, hl, (ed_pub_length E H); reflexivity|reflexivity|exact hn].
  Qed.

  Lemma open_seal esk xsk m c : seal_box E esk (x_base E xsk) m = Some c -> open_box E (x_base E xsk) xsk c = Some m /\ length c = length m + 48.
  Proof.
    unfold seal_box. destruct (ec_dh E esk (x_base E xsk)) as [k|] eqn:ek; [|discriminate]. cbv zeta. intros h.
    assert (hc : c = x_base E esk ++ ec_bseal E k (box_nonce E (x_base E esk) (x_base E xsk)) m) by congruence. subst c. split.
    - unfold open_box. cbv zeta. rewrite firstn_exact, skipn_exact by apply (x_base_length E H). rewrite (dh_sym E H), ek. apply (eo_bseal E H).
    - rewrite app_length, (x_base_length E H), (eo_bseal_len E H). lia.
  Qed.
  (** the sealed box of M || A || SIG decrypts to M and A, if SIG signs M || A || Y *)
  Lemma incoming_ok xsk m A sig c esk :
    length A = 32 -> length sig = 64 -> ed_verify E sig (m ++ A ++ x_base E xsk) A = true ->
    seal_box E esk (x_base E xsk) (m ++ A ++ sig) = Some c -> decrypt_incoming_x E (x_base E xsk) xsk c = Ok (m, A) /\ length c = length m + 144.
  Proof.
    intros hA hs hv hc. apply open_seal in hc as [ho hl]. rewrite !app_length, hA, hs in hl. split; [|lia]. unfold decrypt_incoming_x.
    destruct (Nat.ltb_spec (length c) (48 + 32 + 64)) as [hlt|_]; [lia|]. rewrite ho. cbn [of_opt bind]. cbv zeta.
    replace (length c - 48 - 32 - 64) with (length m) by lia.
    assert (e1 : skipn (length m) (m ++ A ++ sig) = A ++ sig) by (apply skipn_exact; reflexivity).
    assert (e2 : firstn 32 (A ++ sig) = A) by (apply firstn_exact; exact hA).
    assert (e3 : skipn (length m + 32) (m ++ A ++ sig) = sig) by (rewrite app_assoc; apply skipn_exact; rewrite app_length; lia).
    assert (e4 : firstn (length m + 32) (m ++ A ++ sig) = m ++ A) by (rewrite app_assoc; apply firstn_exact; rewrite app_length; lia).
    assert (e5 : firstn (length m) (m ++ A ++ sig) = m) by (apply firstn_exact; reflexivity).
    unfold bytes in *. rewrite e1, e2, e3, e4, e5, <- app_assoc, hv. reflexivity.
  Qed.
  Lemma encrypt_inv from sk to pk m s : account E from sk -> addresses E to pk -> sign_for_recipient E sk pk m = Ok s ->
    s = m ++ ed_pub E from ++ ed_sign E (from ++ ed_pub E from) (m ++ ed_pub E from ++ x_of E to).
  Proof.
    intros h ha. unfold sign_for_recipient. rewrite (full_sk_account from sk h), (strip05_addr to pk ha). cbn [bind]. cbv zeta. destruct h as (hl & _). rewrite (pk_account from hl). congruence.
  Qed.
  Lemma sealed_roundtrip from sk to pk sk' m esk c : account E from sk -> account E to sk' -> addresses E to pk ->
    nonce_ok E from (m ++ ed_pub E from ++ x_of E to) ->
    (s <- sign_for_recipient E sk pk m ;; y <- strip05 pk ;; of_opt (seal_box E (esk y) y s) Throw) = Ok c ->
    decrypt_incoming E sk' c = Ok (m, ed_pub E from) /\ decrypt_incoming_x E (x_of E to) (ed_scalar E to) c = Ok (m, ed_pub E from) /\ length c = length m + 144.
  Proof.
    intros h h' ha hn. destruct (sign_for_recipient E sk pk m) as [s| | | |] eqn:es; try discriminate. cbn [bind].
    pose proof (encrypt_inv from sk to pk m s h ha es) as hs. rewrite (strip05_addr to pk ha). cbn [bind]. intros hc.
    destruct (seal_box E (esk (x_of E to)) (x_of E to) s) as [c'|] eqn:ec; [|discriminate]. assert (c' = c) by (cbn [of_opt] in hc; congruence). subst c'. subst s.
    apply incoming_ok in ec; [|apply (ed_pub_length E H)|apply (ed_sign_length E H)|apply (sign_account from sk); assumption]. destruct ec as (e1 & e2). split; [|split; [exact e1|exact e2]].
    unfold decrypt_incoming. rewrite (full_sk_account to sk' h'). cbn [bind]. cbv zeta. rewrite (scalar_account to _ (account_full to sk' h')). exact e1.
  Qed.
  Lemma session_id_roundtrip from r m : r = Ok (m, ed_pub E from) -> with_session_id E r = Ok (m, session_id_of E from).
  Proof. intros ->. unfold with_session_id. cbn [bind fst snd]. rewrite (ed_pub_x E H). reflexivity. Qed.

  (** what an accepted message is *)
  Lemma incoming_inv xpk xsk c m A : decrypt_incoming_x E xpk xsk c = Ok (m, A) ->
    exists sig, open_box E xpk xsk c = Some (m ++ A ++ sig) /\ length A = 32 /\ length sig = 64 /\ ed_verify E sig (m ++ A ++ xpk) A = true.
  Proof.
    unfold decrypt_incoming_x. destruct (Nat.ltb_spec (length c) (48 + 32 + 64)) as [|hc]; [discriminate|].
    destruct (open_box E xpk xsk c) as [o|] eqn:eo; [|discriminate]. cbn [of_opt bind]. cbv zeta.
    assert (hl : length o = length c - 48).
    { unfold open_box in eo. cbv zeta in eo. destruct (ec_dh E xsk (firstn 32 c)) as [k|]; [|discriminate]. apply (eo_bopen_len E H) in eo. rewrite skipn_length in eo. lia. }
    set (n := length c - 48 - 32 - 64). destruct (ed_verify _ _ _ _) eqn:ev; [|discriminate]. intros h. assert (hm : m = firstn n o) by congruence. assert (hA : A = firstn 32 (skipn n o)) by congruence. subst m A.
    exists (skipn (n + 32) o). split; [|split; [|split]].
    - f_equal. rewrite <- (firstn_skipn n o) at 1. f_equal. rewrite <- (firstn_skipn 32 (skipn n o)) at 1. f_equal. rewrite skipn_skipn. f_equal. lia.
    - rewrite firstn_length, skipn_length. lia.
    - rewrite skipn_length. lia.
    - rewrite app_assoc. assert (e : firstn n o ++ firstn 32 (skipn n o) = firstn (n + 32) o).
      { apply firstn_add. }
      rewrite e. exact ev.
  Qed.

  (** padding *)
  Lemma drop_nul_app n s : drop_nul (repeat NUL n ++ s) = drop_nul s.
  Proof. induction n as [|n IH]; [reflexivity|]. cbn [repeat app drop_nul]. exact IH. Qed.
  Lemma strip_end m n : (forall p, m <> p ++ [NUL]) -> m <> [] -> strip_nul_end (m ++ repeat NUL n) = m.
  Proof.
    intros h hne. unfold strip_nul_end, strip_nul. rewrite rev_app_distr. assert (hr : rev (repeat NUL n) = repeat NUL n).
    { clear. induction n as [|n IH]; [reflexivity|]. cbn [repeat rev]. rewrite IH. symmetry. apply repeat_cons. }
    rewrite hr, drop_nul_app. destruct (rev m) as [|c r] eqn:e.
    - exfalso. apply hne. rewrite <- (rev_involutive m), e. reflexivity.
    - cbn [drop_nul]. destruct (Ascii.eqb_spec c NUL) as [->|]; [|rewrite <- e, rev_involutive; reflexivity].
      exfalso. apply (h (rev r)). rewrite <- (rev_involutive m), e. reflexivity.
  Qed.
End facts.
