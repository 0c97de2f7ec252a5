From Verif Require Import BlindSpec Ed_facts SessEnc_facts Hex_facts PrimeL Blind_facts.
From Coq Require Import ZArith Znumtheory Lia ZifyBool ZifyN ZifyNat.
Open Scope nat_scope.

Section facts.
  Context (E : ecrypt) (H : ec_ok E).

  Definition wlog (v : bool) (seed server : bytes) : Z := if v then (k25 E seed server * plog E seed)%Z else alog E seed.
  Definition zlog (v : bool) (seed server : bytes) : Z := if v then (k25 E seed server * plog E seed)%Z else (k15 E server * alog E seed)%Z.
  Definition prefix (v : bool) : ascii := byte (if v then 37 else 21).
  Definition idv (v : bool) (seed server : bytes) : bytes := prefix v :: ec_pt E (zlog v seed server).
  Lemma factor_nz v seed server : factor_ok E v seed server -> if v then ~ same (k25 E seed server) 0 else ~ same (k15 E server) 0.
  Proof. destruct v; exact (fun h => h). Qed.
  Lemma zlog_nz v seed server : factor_ok E v seed server -> ~ same (zlog v seed server) 0.
  Proof. intros h. apply factor_nz in h. destruct v; (apply mul_nz; [exact h|]); [apply plog_nz|apply alog_nz]. Qed.
  Lemma wlog_nz v seed server : factor_ok E v seed server -> ~ same (wlog v seed server) 0.
  Proof. intros h. apply factor_nz in h. destruct v; [apply mul_nz; [exact h|apply plog_nz]|apply alog_nz]. Qed.
  Lemma account_seed seed sk : account E seed sk -> account E seed seed. Proof. intros (h & _). split; [exact h|left; reflexivity]. Qed.
  Lemma blinds_id v seed sk server id : account E seed sk -> length server = 32 -> blinds E v seed server id <-> id = idv v seed server.
  Proof.
    intros h hs. unfold blinds, idv, prefix, zlog. destruct v.
    - rewrite (key_pair25 E H seed seed server (account_seed seed sk h) hs). split; [intros (A & a & k & e & ->); injection e as <- _ _; reflexivity|intros ->; eexists _, _, _; split; reflexivity].
    - rewrite (key_pair15 E H seed seed server (account_seed seed sk h) hs). split; [intros (A & a & k & e & ->); injection e as <- _ _; reflexivity|intros ->; eexists _, _, _; split; reflexivity].
  Qed.
  Lemma idv_length v seed server : length (idv v seed server) = 33. Proof. unfold idv. cbn [length]. rewrite (eo_pt_len E H). reflexivity. Qed.
  Lemma from_ed_v v seed server want : length server = 32 -> factor_ok E v seed server -> exists sid, id_from_ed E v (ed_pub E seed) server want = Ok (idv v seed server, sid).
  Proof.
    intros hs h. apply factor_nz in h. unfold id_from_ed. destruct v.
    - rewrite (from_ed25 E H) by (try assumption; left; reflexivity). eexists; reflexivity.
    - rewrite (from_ed15 E H) by assumption. eexists; reflexivity.
  Qed.
  (** the scalar used in the shared secret *)
  Lemma secret_is v seed sk server kA z sending : account E seed sk -> length server = 32 -> factor_ok E v seed server -> length kA = 33 -> head_is (if v then 37 else 21) kA = true -> ~ same z 0 ->
    blinded_shared_secret E sk kA (prefix v :: ec_pt E z) server sending =
    Ok (ec_blake E 32 [] [] (ec_pt E (wlog v seed server * z) ++ (if sending then skipn 1 kA else ec_pt E z) ++ (if sending then ec_pt E z else skipn 1 kA))).
  Proof.
    intros h hs hf hl hh hz. unfold blinded_shared_secret. assert (hsk : negb (Nat.eqb (length sk) 64) && negb (Nat.eqb (length sk) 32) = false).
    { destruct h as (h1 & [-> | ->]); [rewrite h1; reflexivity|]. rewrite app_length, h1, (ed_pub_length E H). reflexivity. }
    rewrite hsk, hs, hl. cbn [length]. rewrite (eo_pt_len E H). cbn [Nat.eqb negb orb]. cbv zeta. change (skipn 1 (prefix v :: ec_pt E z)) with (ec_pt E z).
    pose proof (factor_nz v seed server hf) as hn. rewrite (scalar_account E seed sk h). destruct v; unfold wlog.
    - assert (e : head_is 21 kA = false). { destruct kA as [|c r]; [reflexivity|]. cbn [head_is] in *. apply Ascii.eqb_eq in hh. subst c. reflexivity. }
      rewrite e, hh. cbn [andb]. change (head_is 37 (prefix true :: ec_pt E z)) with true. cbn iota. rewrite (key_pair25 E H seed sk server h hs). cbn [bind snd].
      assert (em : mul_noclamp E (sc_mul (ed_scalar E seed) (f25 E seed server)) (ec_pt E z) = Some (ec_pt E (k25 E seed server * plog E seed * z))).
      { rewrite (mul_pt E H). assert (e1 : same (le (sc_mul (ed_scalar E seed) (f25 E seed server)) mod 2 ^ 255) (k25 E seed server * plog E seed)).
        { unfold sc_mul. rewrite le_modL255. apply same_trans with (le (ed_scalar E seed) * le (f25 E seed server))%Z; [apply same_mod|]. rewrite Z.mul_comm. apply (f25_log E). }
        assert (e2 : same (le (sc_mul (ed_scalar E seed) (f25 E seed server)) mod 2 ^ 255 * z) (k25 E seed server * plog E seed * z)) by (apply same_mul; [exact e1|apply same_refl]).
        assert (e3 : ~ same (k25 E seed server * plog E seed * z) 0) by (apply mul_nz; [apply mul_nz; [exact hn|apply plog_nz]|exact hz]).
        rewrite (proj1 (same0_false z) hz). cbn [orb].
        assert (e4 : ~ same (le (sc_mul (ed_scalar E seed) (f25 E seed server)) mod 2 ^ 255 * z) 0) by (intros hx; apply e3; eapply same_trans; [apply same_sym; exact e2|exact hx]).
        rewrite (proj1 (same0_false _) e4). f_equal. apply (pt_same E H). exact e2. }
      rewrite em. cbn [of_opt bind]. reflexivity.
    - rewrite hh. change (head_is 21 (prefix false :: ec_pt E z)) with true. cbn [andb]. rewrite (key_pair15 E H seed sk server h hs). cbn [bind].
      assert (em : mul_noclamp E (ed_scalar E seed) (ec_pt E z) = Some (ec_pt E (alog E seed * z))).
      { rewrite (mul_pt E H), scalar_255. fold (alog E seed). rewrite (proj1 (same0_false z) hz). assert (hx := mul_nz _ _ (alog_nz E seed) hz). rewrite (proj1 (same0_false _) hx). reflexivity. }
      rewrite em. cbn [of_opt bind]. reflexivity.
  Qed.
  Definition blinded_key (v : bool) (from to server : bytes) : bytes :=
    ec_blake E 32 [] [] (ec_pt E (wlog v from server * zlog v to server) ++ ec_pt E (zlog v from server) ++ ec_pt E (zlog v to server)).
  Lemma secret_sym v s t server : (wlog v s server * zlog v t server = wlog v t server * zlog v s server)%Z.
  Proof. unfold wlog, zlog. destruct v; ring. Qed.
  Lemma secret_send v from sk to server : account E from sk -> length server = 32 -> factor_ok E v from server -> factor_ok E v to server ->
    blinded_shared_secret E sk (idv v from server) (idv v to server) server true = Ok (blinded_key v from to server).
  Proof.
    intros h hs hf ht. unfold idv at 2. rewrite (secret_is v from sk server _ _ true h hs hf).
    - reflexivity.
    - apply idv_length.
    - destruct v; reflexivity.
    - apply zlog_nz. exact ht.
  Qed.
  Lemma secret_recv v from to sk server : account E to sk -> length server = 32 -> factor_ok E v from server -> factor_ok E v to server ->
    blinded_shared_secret E sk (idv v to server) (idv v from server) server false = Ok (blinded_key v from to server).
  Proof.
    intros h hs hf ht. unfold idv at 2. rewrite (secret_is v to sk server _ _ false h hs ht).
    - unfold blinded_key. rewrite secret_sym. reflexivity.
    - apply idv_length.
    - destruct v; reflexivity.
    - apply zlog_nz. exact hf.
  Qed.
  (** with equal ids, "sending" computes the same *)
  Lemma secret_self v from to sk server : account E to sk -> length server = 32 -> factor_ok E v from server -> factor_ok E v to server -> idv v from server = idv v to server ->
    blinded_shared_secret E sk (idv v from server) (idv v to server) server true = Ok (blinded_key v from to server).
  Proof.
    intros h hs hf ht he. unfold idv at 2. rewrite (secret_is v to sk server _ _ true h hs ht).
    - unfold blinded_key, idv. cbn [skipn]. assert (e : ec_pt E (wlog v to server * zlog v to server) = ec_pt E (wlog v from server * zlog v to server)).
      { rewrite (secret_sym v from to server). apply (pt_same E H). apply same_mul; [apply same_refl|]. apply (eo_pt_eq E H). unfold idv in he. congruence. }
      rewrite e. reflexivity.
    - apply idv_length.
    - destruct v; reflexivity.
    - apply zlog_nz. exact ht.
  Qed.

  Lemma encrypt_is v from sk to server nonce m : account E from sk -> length server = 32 -> factor_ok E v from server -> factor_ok E v to server ->
    encrypt_blinded E nonce sk server (idv v to server) m = Ok (byte 0 :: ec_seal E (blinded_key v from to server) nonce (m ++ ed_pub E from) ++ nonce).
  Proof.
    intros h hs hf ht. unfold encrypt_blinded. assert (hsk : negb (Nat.eqb (length sk) 64) && negb (Nat.eqb (length sk) 32) = false).
    { destruct h as (h1 & [-> | ->]); [rewrite h1; reflexivity|]. rewrite app_length, h1, (ed_pub_length E H). reflexivity. }
    rewrite hsk, hs, idv_length. cbn [Nat.eqb negb].
    assert (hA : (if Nat.eqb (length sk) 64 then skipn 32 sk else ed_pub E sk) = ed_pub E from).
    { destruct h as (h1 & [-> | ->]); [rewrite h1; reflexivity|]. rewrite app_length, h1, (ed_pub_length E H). cbn [Nat.add Nat.eqb]. apply pk_account. exact h1. }
    pose proof (secret_send v from sk to server h hs hf ht) as hsec.
    destruct v.
    - change (head_is 21 (idv true to server)) with false. change (head_is 37 (idv true to server)) with true. cbn iota. rewrite (key_pair25 E H from sk server h hs). cbn [bind fst].
      change (firstn 1 (idv true to server) ++ ec_pt E (k25 E from server * plog E from)) with (idv true from server). rewrite hsec. cbn [bind]. cbv zeta. rewrite hA. reflexivity.
    - change (head_is 21 (idv false to server)) with true. cbn iota. rewrite (key_pair15 E H from sk server h hs). cbn [bind fst].
      change (firstn 1 (idv false to server) ++ ec_pt E (k15 E server * alog E from)) with (idv false from server). rewrite hsec. cbn [bind]. cbv zeta. rewrite hA. reflexivity.
  Qed.
  (** decryption, by either side, once the key is right *)
  Lemma decrypt_is v who sk from to server nonce m : account E who sk -> who = from \/ who = to -> length server = 32 -> length nonce = 24 -> factor_ok E v from server -> factor_ok E v to server ->
    decrypt_blinded E sk server (idv v from server) (idv v to server) (byte 0 :: ec_seal E (blinded_key v from to server) nonce (m ++ ed_pub E from) ++ nonce) = Ok (m, session_id_of E from).
  Proof.
    intros h hw hs hn hf ht. unfold decrypt_blinded. rewrite (full_sk_account E H who sk h). cbn [bind].
    set (ct := ec_seal E (blinded_key v from to server) nonce (m ++ ed_pub E from)). assert (hct : length ct = length m + 48) by (unfold ct; rewrite (eo_seal_len E H), app_length, (ed_pub_length E H); lia).
    assert (hl : length (byte 0 :: ct ++ nonce) = length m + 73) by (cbn [length]; rewrite app_length, hct, hn; lia). rewrite hl.
    destruct (Nat.ltb_spec (length m + 73) (NPUBBYTES + 1 + ABYTES)) as [hx|_]; [unfold NPUBBYTES, ABYTES in hx; lia|].
    rewrite idv_length. cbn [Nat.eqb]. cbv zeta.
    assert (hv : head_is 37 (idv v to server) = v) by (destruct v; reflexivity). rewrite hv.
    rewrite (pk_account E who (proj1 h)). assert (hfw : factor_ok E v who server) by (destruct hw as [-> | ->]; assumption).
    destruct (from_ed_v v who server false hs hfw) as (sid & hown). rewrite hown. cbn [bind fst].
    assert (hkey : (if eqb (idv v from server) (idv v who server) then blinded_shared_secret E (who ++ ed_pub E who) (idv v from server) (idv v to server) server true
                    else blinded_shared_secret E (who ++ ed_pub E who) (idv v to server) (idv v from server) server false) = Ok (blinded_key v from to server)).
    { destruct (eqb (idv v from server) (idv v who server)) eqn:ee.
      - apply eqb_eq in ee. destruct hw as [-> | ->]; [apply secret_send; try assumption; exact (account_full E from sk h)|apply secret_self; try assumption; exact (account_full E to sk h)].
      - destruct hw as [-> | ->]; [rewrite eqb_refl in ee; discriminate|]. apply secret_recv; try assumption. exact (account_full E to sk h). }
    rewrite hkey. cbn [bind]. change (head_is 0 (byte 0 :: ct ++ nonce)) with true. cbn [negb].
    replace (length m + 73 - ABYTES - 1 - NPUBBYTES) with (length m + 32) by (unfold ABYTES, NPUBBYTES; lia). destruct (Nat.ltb_spec (length m + 32) 32) as [hx|_]; [lia|].
    assert (e1 : skipn (length m + 32 + 1 + ABYTES) (byte 0 :: ct ++ nonce) = nonce).
    { replace (length m + 32 + 1 + ABYTES) with (S (length m + 48)) by (unfold ABYTES; lia). cbn [skipn]. apply skipn_exact. exact hct. }
    assert (e2 : firstn (length m + 32 + ABYTES) (skipn 1 (byte 0 :: ct ++ nonce)) = ct).
    { cbn [skipn]. apply firstn_exact. rewrite hct. unfold ABYTES. lia. }
    unfold bytes in *. rewrite e1, e2. unfold ct at 1. rewrite (eo_seal E H). cbn [of_opt bind]. replace (length m + 32 - 32) with (length m) by lia.
    assert (e3 : skipn (length m) (m ++ ed_pub E from) = ed_pub E from) by (apply skipn_exact; reflexivity).
    assert (e4 : firstn (length m) (m ++ ed_pub E from) = m) by (apply firstn_exact; reflexivity).
    unfold bytes in *. rewrite e3, e4, (ed_pub_x E H). cbn [of_opt bind]. destruct (from_ed_v v from server true hs hf) as (sid' & hext). rewrite hext. cbn [bind fst]. unfold bytes in *. rewrite eqb_refl. cbn [orb]. reflexivity.
  Qed.
End facts.
