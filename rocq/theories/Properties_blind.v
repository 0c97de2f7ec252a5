(** C72 to C76: blinded ids, keys, signatures and messages; XEd25519; signatures of subaccounts.  Statements; proofs in Blind_facts.v and
    Blind2_facts.v. *)
From Verif Require Import BlindSpec Ed_facts SessEnc_facts Hex_facts PrimeL Blind_facts Blind2_facts Toy ToyEd ToyKeys KeysSpec Keys6_facts.
From Coq Require Import ZArith Znumtheory Lia.
Open Scope nat_scope.

(** ** C69: sending always works *)
(** Since the order of the group is prime, encryption never fails. *)
Theorem C69_sends E from sk to pk m esk : ec_ok E -> account E from sk -> addresses E to pk ->
  (exists c, encrypt_for_recipient E esk sk pk m = Ok c) /\ (exists c, encrypt_deterministic E sk pk m = Ok c).
Proof.
  intros H h ha. split; [exact (encrypt_some E H from sk to pk m (fun _ => esk) h ha)|exact (encrypt_some E H from sk to pk m (fun y => det_esk E sk y m) h ha)].
Qed.
Print Assumptions C69_sends.

(** ** C72: one blinded id *)
(** 25-blinding: the ids computed from the session id (raw, with or without prefix, or hex), from the Ed25519 public key and
    from the secret key are all the same, and it matches the session id. *)
Theorem C72_blind25_agrees E seed sk server sid : ec_ok E -> account E seed sk -> length server = 32 -> factor_ok E true seed server -> raw_id E seed sid ->
  exists A a k, blind25_key_pair E sk server = Ok (A, a, k) /\ A = base_noclamp E a /\
    blind25_id E sid server = Ok (byte 37 :: A) /\
    blind25_id_hex E (session_id_of E seed) (to_hex server) = Ok (to_hex (byte 37 :: A)) /\
    (forall given, given = [] \/ given = byte 5 :: x_of E seed -> blinded25_from_ed E (ed_pub E seed) server given = Ok (byte 37 :: A, byte 5 :: x_of E seed)) /\
    matches_blinded_id E (session_id_of E seed) (to_hex (byte 37 :: A)) (to_hex server) = Ok true.
Proof.
  intros H h hs hf hid. pose proof (factor_nz E true seed server hf) as hk. exists (ec_pt E (k25 E seed server * plog E seed)), (sc_mul (f25 E seed server) (ed_scalar E seed)), (f25 E seed server).
  assert (hhex : blind25_id_hex E (session_id_of E seed) (to_hex server) = Ok (to_hex (id25 E seed server))).
  { unfold blind25_id_hex. rewrite (hex_args_account E H) by exact hs. cbn [of_opt bind fst snd]. rewrite (impl25 E H seed) by (try exact hk; right; reflexivity). reflexivity. }
  split; [apply key_pair25; assumption|]. split; [rewrite (base_mul E H); symmetry; apply (pt_same E H), (f25_log E)|]. split.
  - unfold blind25_id. rewrite (raw_ok E H seed) by assumption. apply (impl25 E H); assumption.
  - split; [exact hhex|]. split; [intros given hg; apply (from_ed25 E H); assumption|].
    unfold matches_blinded_id. change (session_id_of E seed) with (sid_of (x_of E seed)) at 1. rewrite sid_of_ok by apply (x_of_length E H). cbn [negb].
    fold (id25 E seed server). assert (et : exists t, to_hex (id25 E seed server) = "2"%char :: "5"%char :: t) by (eexists; reflexivity). destruct et as (t & et). rewrite et at 1.
    cbn [Ascii.eqb Bool.eqb negb]. rewrite to_hex_length, hs. unfold is_hex. rewrite from_to_hex. change (Nat.eqb (2 * 32) 64) with true. cbn [andb negb].
    rewrite hhex. cbn [bind]. rewrite eqb_refl. reflexivity.
Qed.
Print Assumptions C72_blind25_agrees.
(** 15-blinding: the ids computed from the keys are the same; the id computed from the session id is that one or its negative, the
    two hex ids are the two alternatives in some order, and both match the session id. *)
Theorem C72_blind15_agrees E seed sk server sid : ec_ok E -> account E seed sk -> length server = 32 -> factor_ok E false seed server -> raw_id E seed sid ->
  exists A a k, blind15_key_pair E sk server = Ok (A, a, k) /\ A = base_noclamp E a /\
    (forall want, blinded15_from_ed E (ed_pub E seed) server want = Ok (byte 21 :: A, if want then byte 5 :: x_of E seed else [])) /\
    (blind15_id E sid server = Ok (byte 21 :: A) \/ blind15_id E sid server = Ok (byte 21 :: flip_sign A)) /\
    (blind15_id_hex E (session_id_of E seed) (to_hex server) = Ok (to_hex (byte 21 :: A), to_hex (byte 21 :: flip_sign A)) \/
     blind15_id_hex E (session_id_of E seed) (to_hex server) = Ok (to_hex (byte 21 :: flip_sign A), to_hex (byte 21 :: A))) /\
    (forall id, id = byte 21 :: A \/ id = byte 21 :: flip_sign A -> matches_blinded_id E (session_id_of E seed) (to_hex id) (to_hex server) = Ok true).
Proof.
  intros H h hs hf hid. pose proof (factor_nz E false seed server hf) as hk. cbn iota in hk.
  exists (ec_pt E (k15 E server * alog E seed)), (sc_mul (blind15_factor E server) (ed_scalar E seed)), (blind15_factor E server).
  assert (hhex : blind15_id_hex E (session_id_of E seed) (to_hex server) = Ok (to_hex (byte 21 :: ec_pt E (k15 E server * plog E seed)), to_hex (flip_last (byte 21 :: ec_pt E (k15 E server * plog E seed))))).
  { unfold blind15_id_hex. rewrite (hex_args_account E H) by exact hs. cbn [of_opt bind fst snd]. rewrite (impl15 E H seed) by (try exact hk; right; reflexivity). reflexivity. }
  assert (hl : length (ec_pt E (k15 E server * alog E seed)) = 32) by apply (eo_pt_len E H).
  assert (hfl : flip_last (id15 E seed server) = byte 21 :: flip_sign (ec_pt E (k15 E server * alog E seed))) by (apply flip_last_cons; exact hl).
  assert (hex2 : blind15_id_hex E (session_id_of E seed) (to_hex server) = Ok (to_hex (id15 E seed server), to_hex (flip_last (id15 E seed server))) \/
     blind15_id_hex E (session_id_of E seed) (to_hex server) = Ok (to_hex (flip_last (id15 E seed server)), to_hex (id15 E seed server))).
  { rewrite hhex. destruct (plog15 E H seed server hk) as [(e1 & e2)|(e1 & e2)]; rewrite e2, e1; [left|right]; reflexivity. }
  split; [apply key_pair15; assumption|]. split; [rewrite (base_mul E H); reflexivity|]. split; [intros want; apply (from_ed15 E H); assumption|]. split.
  - unfold blind15_id. rewrite (raw_ok E H seed) by assumption. assert (hd : drop_prefix sid = x_of E seed).
    { destruct hid as [-> | ->]; unfold drop_prefix; [rewrite (x_of_length E H); reflexivity|]. cbn [length]. rewrite (x_of_length E H). reflexivity. }
    rewrite hd, (impl15 E H seed) by (try exact hk; left; reflexivity). rewrite <- hfl. destruct (plog15 E H seed server hk) as [(e1 & e2)|(e1 & e2)]; rewrite e1; [left|right]; reflexivity.
  - split; [rewrite <- hfl; exact hex2|]. intros id hi.
    unfold matches_blinded_id. change (session_id_of E seed) with (sid_of (x_of E seed)) at 1. rewrite sid_of_ok by apply (x_of_length E H). cbn [negb].
    assert (et : exists t, to_hex id = "1"%char :: "5"%char :: t) by (destruct hi as [-> | ->]; eexists; reflexivity). destruct et as (t & et). rewrite et at 1.
    cbn [Ascii.eqb Bool.eqb negb]. rewrite to_hex_length, hs. unfold is_hex. rewrite from_to_hex. change (Nat.eqb (2 * 32) 64) with true. cbn [andb negb].
    assert (hid2 : id = id15 E seed server \/ id = flip_last (id15 E seed server)) by (rewrite hfl; exact hi).
    destruct hex2 as [e|e]; rewrite e; cbn [bind fst snd]; destruct hid2 as [-> | ->]; rewrite eqb_refl, ?orb_true_r; reflexivity.
Qed.
Print Assumptions C72_blind15_agrees.
(** Only its own session id matches a 15-blinded id. *)
Theorem C72_blind15_one_account E s1 s2 server id : ec_ok E -> length server = 32 -> account E s2 s2 -> factor_ok E false s2 server -> blinds E false s2 server id ->
  matches_blinded_id E (session_id_of E s1) (to_hex id) (to_hex server) = Ok true -> session_id_of E s1 = session_id_of E s2.
Proof.
  intros H hs h2 hf hb hm. pose proof (factor_nz E false s2 server hf) as hk. cbn iota in hk. apply (blinds_id E H false s2 s2 server id h2 hs) in hb. subst id. change (idv E false s2 server) with (id15 E s2 server) in hm.
  unfold matches_blinded_id in hm. change (session_id_of E s1) with (sid_of (x_of E s1)) in hm at 1. rewrite sid_of_ok in hm by apply (x_of_length E H). cbn [negb] in hm.
  assert (et : exists t, to_hex (id15 E s2 server) = "1"%char :: "5"%char :: t) by (eexists; reflexivity). destruct et as (t & et). rewrite et in hm at 1.
  cbn [Ascii.eqb Bool.eqb negb] in hm. rewrite to_hex_length, hs in hm. unfold is_hex in hm. rewrite from_to_hex in hm. change (Nat.eqb (2 * 32) 64) with true in hm. cbn [andb negb] in hm.
  unfold blind15_id_hex in hm. rewrite (hex_args_account E H) in hm by exact hs. cbn [of_opt bind fst snd] in hm. rewrite (impl15 E H s1) in hm by (try exact hk; right; reflexivity). cbn [bind fst snd] in hm.
  assert (hinj : forall x y, to_hex x = to_hex y -> x = y) by (intros x y e; assert (e2 : from_hex (to_hex x) = from_hex (to_hex y)) by congruence; rewrite !from_to_hex in e2; congruence).
  assert (hx : same (alog E s2) (alog E s1) \/ same (alog E s2) (- alog E s1)).
  { assert (hor : ec_pt E (k15 E server * alog E s2) = ec_pt E (k15 E server * plog E s1) \/ ec_pt E (k15 E server * alog E s2) = ec_pt E (k15 E server * - plog E s1)).
    { assert (ho : id15 E s2 server = byte 21 :: ec_pt E (k15 E server * plog E s1) \/ id15 E s2 server = flip_last (byte 21 :: ec_pt E (k15 E server * plog E s1))).
      { destruct (eqb (to_hex (id15 E s2 server)) (to_hex (byte 21 :: ec_pt E (k15 E server * plog E s1)))) eqn:e1; [left; apply hinj, eqb_eq; exact e1|]. cbn [orb] in hm.
        right. apply hinj, eqb_eq. congruence. }
      destruct ho as [ho|ho]; [left; unfold id15 in ho; congruence|right]. rewrite flip_last_cons in ho by apply (eo_pt_len E H).
      replace (k15 E server * - plog E s1)%Z with (- (k15 E server * plog E s1))%Z by lia. rewrite (eo_flip E H) by (apply mul_nz; [exact hk|apply plog_nz]). unfold id15 in ho. congruence. }
    destruct hor as [e|e]; apply (eo_pt_eq E H) in e; apply mul_cancel in e; try exact hk; destruct (plog_cases E s1) as [ep|ep]; rewrite ep in e; rewrite ?Z.opp_involutive in e; tauto. }
  unfold session_id_of. do 2 f_equal. rewrite !(x_of_is E). symmetry. apply (eo_x_eq E H). exact hx.
Qed.
Print Assumptions C72_blind15_one_account.
(** If a blinded id matches, it is the one computed from the session id. *)
Theorem C72_matches_only E sid id server : matches_blinded_id E sid id server = Ok true ->
  (exists a b', blind15_id_hex E sid server = Ok (a, b') /\ (id = a \/ id = b')) \/ blind25_id_hex E sid server = Ok id.
Proof.
  unfold matches_blinded_id. destruct (negb _); [discriminate|]. destruct id as [|c0 [|c1 r]]; try discriminate. destruct (negb _); [discriminate|]. destruct (negb _); [discriminate|].
  destruct (Ascii.eqb c0 "1").
  - destruct (blind15_id_hex E sid server) as [[a b']| | | |]; try discriminate. cbn [bind fst snd]. intros h. left. exists a, b'. split; [reflexivity|].
    injection h as h. apply orb_true_iff in h as [h|h]; [left|right]; apply eqb_eq in h; exact h.
  - destruct (Ascii.eqb c0 "2"); [|discriminate]. destruct (blind25_id_hex E sid server) as [a| | | |]; try discriminate. cbn [bind]. intros h. right. injection h as h. apply eqb_eq in h. congruence.
Qed.
Print Assumptions C72_matches_only.
(** An id of less than two characters is read beyond its end. *)
Theorem C72_short_id_refuted E seed server c : ec_ok E -> matches_blinded_id E (session_id_of E seed) [c] server = UB.
Proof. intros H. unfold matches_blinded_id. change (session_id_of E seed) with (sid_of (x_of E seed)). rewrite sid_of_ok by apply (x_of_length E H). reflexivity. Qed.
Print Assumptions C72_short_id_refuted.

(** ** C73: blinded signatures *)
(** What is signed with the blinded key of an account is valid under its blinded id, for the server key in binary or hex. *)
Theorem C73_blind15_sign E seed sk server server' m sig A a k : ec_ok E -> account E seed sk -> length server = 32 -> server' = server \/ server' = to_hex server -> factor_ok E false seed server ->
  blind15_key_pair E sk server = Ok (A, a, k) -> ~ same (le (blind15_nonce E (seed ++ ed_pub E seed) A m)) 0 ->
  blind15_sign E sk server' m = Ok sig -> ed_verify E sig m A = true /\ length sig = 64.
Proof.
  intros H h hs hsrv hf hkp hn. pose proof (factor_nz E false seed server hf) as hk. cbn iota in hk. unfold blind15_sign. rewrite (full_sk_account E H seed sk h). cbn [bind].
  assert (hsk : server_key server' = Ok server) by (destruct hsrv as [-> | ->]; unfold server_key; [rewrite hs; reflexivity|rewrite to_hex_length, hs; change (Nat.eqb (2 * 32) 32) with false; change (Nat.eqb (2 * 32) 64) with true; cbn iota; rewrite from_to_hex; reflexivity]).
  rewrite hsk. cbn [bind]. rewrite (key_pair15 E H seed sk server h hs) in hkp. rewrite (key_pair15 E H seed _ server (account_full E seed sk h) hs). cbn [bind fst snd]. cbv zeta.
  assert (hA : A = ec_pt E (k15 E server * alog E seed)) by congruence. subst A. intros hsig. assert (hsg : sig = schnorr_sign E (ec_pt E (k15 E server * alog E seed)) (sc_mul (blind15_factor E server) (ed_scalar E seed)) (blind15_nonce E (seed ++ ed_pub E seed) (ec_pt E (k15 E server * alog E seed)) m) m) by congruence. subst sig.
  split; [|apply (schnorr_length E H)]. apply (schnorr_sign_ok E H); [apply (pt_same E H), same_sym, le_sc_mul| |apply reduce_lt|exact hn].
  intros h0. apply (mul_nz _ _ hk (alog_nz E seed)). eapply same_trans; [apply same_sym, le_sc_mul|exact h0].
Qed.
Print Assumptions C73_blind15_sign.
Theorem C73_blind25_sign E seed sk server server' m sig A a k : ec_ok E -> account E seed sk -> length server = 32 -> server' = server \/ server' = to_hex server -> factor_ok E true seed server ->
  blind25_key_pair E sk server = Ok (A, a, k) -> ~ same (le (blind25_nonce E seed A m)) 0 ->
  blind25_sign E sk server' m = Ok sig -> ed_verify E sig m A = true /\ length sig = 64.
Proof.
  intros H h hs hsrv hf hkp hn. pose proof (factor_nz E true seed server hf) as hk. cbn iota in hk. unfold blind25_sign. rewrite (full_sk_account E H seed sk h). cbn [bind].
  assert (hsk : server_key server' = Ok server) by (destruct hsrv as [-> | ->]; unfold server_key; [rewrite hs; reflexivity|rewrite to_hex_length, hs; change (Nat.eqb (2 * 32) 32) with false; change (Nat.eqb (2 * 32) 64) with true; cbn iota; rewrite from_to_hex; reflexivity]).
  rewrite hsk. cbn [bind]. rewrite (key_pair25 E H seed sk server h hs) in hkp. rewrite (key_pair25 E H seed _ server (account_full E seed sk h) hs). cbn [bind fst snd]. cbv zeta.
  assert (hA : A = ec_pt E (k25 E seed server * plog E seed)) by congruence. subst A. rewrite (seed_of_account E seed _ (account_full E seed sk h)). intros hsig.
  assert (hsg : sig = schnorr_sign E (ec_pt E (k25 E seed server * plog E seed)) (sc_mul (f25 E seed server) (ed_scalar E seed)) (blind25_nonce E seed (ec_pt E (k25 E seed server * plog E seed)) m) m) by congruence. subst sig.
  assert (hlog : same (le (sc_mul (f25 E seed server) (ed_scalar E seed))) (k25 E seed server * plog E seed)) by (eapply same_trans; [apply le_sc_mul|apply (f25_log E)]).
  split; [|apply (schnorr_length E H)]. apply (schnorr_sign_ok E H); [apply (pt_same E H), same_sym; exact hlog| |apply reduce_lt|exact hn].
  intros h0. apply (mul_nz _ _ hk (plog_nz E seed)). eapply same_trans; [apply same_sym; exact hlog|exact h0].
Qed.
Print Assumptions C73_blind25_sign.

(** ** C74: messages between blinded ids *)
(** What an account writes to another's blinded id, both the recipient and the sender itself decrypt, to the message and the
    sender's session id. *)
Theorem C74_round_trip E v25 from sk to sk' idf idt server nonce m : ec_ok E -> account E from sk -> account E to sk' -> length server = 32 -> length nonce = 24 ->
  factor_ok E v25 from server -> factor_ok E v25 to server -> blinds E v25 from server idf -> blinds E v25 to server idt ->
  exists c, encrypt_blinded E nonce sk server idt m = Ok c /\ length c = length m + 73 /\
    decrypt_blinded E sk' server idf idt c = Ok (m, session_id_of E from) /\ decrypt_blinded E sk server idf idt c = Ok (m, session_id_of E from).
Proof.
  intros H h h' hs hn hf ht hif hit. apply (blinds_id E H v25 from sk server idf h hs) in hif. apply (blinds_id E H v25 to sk' server idt h' hs) in hit. subst idf idt.
  eexists. split; [apply (encrypt_is E H v25 from sk to); assumption|]. split; [cbn [length]; rewrite app_length, (eo_seal_len E H), app_length, (ed_pub_length E H), hn; lia|].
  split; [apply (decrypt_is E H v25 to sk'); auto|apply (decrypt_is E H v25 from sk); auto].
Qed.
Print Assumptions C74_round_trip.
(** Whatever is accepted was sealed under the key for the two ids and carries an Ed25519 key whose blinded id is that of the
    sender (or, for 15-blinding, differs from it in the top bit of its last but one byte: the code flips the wrong byte); the session id
    reported is that key's. *)
Theorem C74_sender E sk server sender recipient c m id : ec_ok E -> decrypt_blinded E sk server sender recipient c = Ok (m, id) ->
  exists key nonce ct A x ext sid, c = byte 0 :: ct ++ nonce /\ length nonce = 24 /\ ec_open E key nonce ct = Some (m ++ A) /\ pk_to_x E A = Some x /\ id = b "05" ++ to_hex x /\
    id_from_ed E (head_is 37 recipient) A server true = Ok (ext, sid) /\ (sender = ext \/ sender = flip_at 31 ext) /\
    (exists sk64 kA jB snd, full_sk E sk = Ok sk64 /\ blinded_shared_secret E sk64 kA jB server snd = Ok key /\ ((kA, jB, snd) = (sender, recipient, true) \/ (kA, jB, snd) = (recipient, sender, false))).
Proof.
  intros H. unfold decrypt_blinded. destruct (full_sk E sk) as [sk64| | | |] eqn:ek; try discriminate. cbn [bind]. destruct (Nat.ltb_spec (length c) (NPUBBYTES + 1 + ABYTES)) as [|hc]; [discriminate|].
  destruct (Nat.eqb (length recipient) 0); [discriminate|]. cbv zeta. destruct (id_from_ed E (head_is 37 recipient) (skipn 32 sk64) server false) as [own| | | |]; try discriminate. cbn [bind].
  destruct (if eqb sender (fst own) then _ else _) as [key| | | |] eqn:ekey; try discriminate. cbn [bind]. destruct (head_is 0 c) eqn:eh; [|discriminate]. cbn [negb].
  set (size := length c - ABYTES - 1 - NPUBBYTES). destruct (Nat.ltb_spec size 32) as [|h32]; [discriminate|].
  destruct (ec_open E key (skipn (size + 1 + ABYTES) c) (firstn (size + ABYTES) (skipn 1 c))) as [buf|] eqn:eo; [|discriminate]. cbn [of_opt bind].
  destruct (pk_to_x E (skipn (size - 32) buf)) as [x|] eqn:ex; [|discriminate]. cbn [of_opt bind].
  destruct (id_from_ed E (head_is 37 recipient) (skipn (size - 32) buf) server true) as [ext| | | |] eqn:ext'; try discriminate. cbn [bind].
  destruct (eqb sender (fst ext) || (head_is 21 (fst ext) && eqb sender (flip_at 31 (fst ext)))) eqn:em; [|discriminate]. intros hr. assert (hm : m = firstn (size - 32) buf) by congruence. assert (hi : id = b "05" ++ to_hex x) by congruence.
  exists key, (skipn (size + 1 + ABYTES) c), (firstn (size + ABYTES) (skipn 1 c)), (skipn (size - 32) buf), x, (fst ext), (snd ext).
  destruct c as [|c0 c']; [discriminate|]. cbn [head_is] in eh. apply Ascii.eqb_eq in eh. subst c0. cbn [skipn] in *. replace (size + 1 + ABYTES) with (S (size + ABYTES)) in * by lia. cbn [skipn] in *.
  split; [rewrite firstn_skipn; reflexivity|]. split; [rewrite skipn_length; cbn [length] in *; unfold size, NPUBBYTES, ABYTES in *; lia|]. split; [rewrite hm, firstn_skipn; exact eo|].
  split; [exact ex|]. split; [exact hi|]. split; [destruct ext as [e1 e2]; exact ext'|]. split.
  - apply orb_true_iff in em as [em|em]; [left; apply eqb_eq; exact em|right]. apply andb_prop in em as [_ em]. apply eqb_eq. exact em.
  - destruct (eqb sender (fst own)); [exists sk64, sender, recipient, true|exists sk64, recipient, sender, false]; (split; [reflexivity|]; split; [exact ekey|tauto]).
Qed.
Print Assumptions C74_sender.

(** ** C75: XEd25519 *)
(** A signature made with an X25519 private key (as libsodium makes them: clamped) verifies under the public key. *)
Theorem C75_sign_verify E rnd sk m : ec_ok E -> le sk = clamp (le sk) -> (forall a, a = sk \/ a = sc_neg sk -> ~ same (le (xed_nonce E a m rnd)) 0) -> xed_verify E (xed_sign E rnd sk m) (x_base E sk) m = true.
Proof.
  intros H hc hn. unfold xed_verify, xed_sign, x_base, base_clamp. cbv zeta. pose proof (clamp_nz (le sk)) as hz. rewrite (eo_xed E H) by exact hz. rewrite (clear_log E H) by exact hz.
  set (nb := neg_bit (ec_pt E (clamp (le sk)))). assert (hl : same (le (if nb then sc_neg sk else sk)) (if nb then - clamp (le sk) else clamp (le sk))%Z).
  { destruct nb; [eapply same_trans; [apply le_sc_neg|]; rewrite <- hc; apply same_refl|rewrite <- hc; apply same_refl]. }
  apply (schnorr_sign_ok E H); [apply (pt_same E H), same_sym; exact hl| |apply reduce_lt|apply hn; destruct nb; auto].
  intros h0. assert (h1 : ~ same (if nb then - clamp (le sk) else clamp (le sk))%Z 0) by (destruct nb; [apply opp_nz|]; exact hz). apply h1. eapply same_trans; [apply same_sym; exact hl|exact h0].
Qed.
Print Assumptions C75_sign_verify.
(** The Ed25519 key of an X25519 public key converts back to it. *)
Theorem C75_pubkey E sk : ec_ok E -> pk_to_x E (ec_xed E (x_base E sk)) = Some (x_base E sk).
Proof.
  intros H. unfold x_base. pose proof (clamp_nz (le sk)) as hz. rewrite (eo_xed E H) by exact hz. rewrite (clear_log E H) by exact hz. destruct (neg_bit _).
  - rewrite (pk_x E H) by (apply opp_nz; exact hz). f_equal. apply (x_opp E H).
  - apply (pk_x E H). exact hz.
Qed.
Print Assumptions C75_pubkey.
(** A private key that is not clamped (any 32 random bytes are a valid X25519 private key) yields signatures that do not
    verify under its public key. *)
Theorem C75_unclamped_refuted : ec_ok toy_e /\ exists rnd sk m, length sk = 32 /\ (forall a, a = sk \/ a = sc_neg sk -> ~ same (le (xed_nonce toy_e a m rnd)) 0) /\ xed_verify toy_e (xed_sign toy_e rnd sk m) (x_base toy_e sk) m = false.
Proof.
  split; [exact toy_e_ok|]. exists (repeat "r"%char 64), (repeat "a"%char 32), (b "hi"). split; [reflexivity|]. split; [|vm_compute; reflexivity].
  intros a [-> | ->]; apply same0_false; vm_compute; reflexivity.
Qed.
Print Assumptions C75_unclamped_refuted.

(** ** C76: signing requests as a subaccount *)
(** Sub.v with libsodium's functions as in Ed.v, where [G] is the rest of what Keys uses *)
Definition sub_of (E : ecrypt) (G : gcrypt) : scrypt := mkScrypt G sc_reduce (ec_xed E) (mul_noclamp E).
(** what C46 assumes of these functions holds *)
Theorem C76_sub_ok E G : ec_ok E -> (forall pk, g_xpk G pk = pk_to_x E pk) -> sub_ok (sub_of E G).
Proof.
  intros H hx. split; cbn [sub_of s_reduce s_xed s_g].
  - intros x. apply to_le_length.
  - intros pk x. rewrite hx. intros h. apply (pk_x_inv E H) in h as (m & -> & hm & ->). apply (eo_xed E H). exact hm.
Qed.
Print Assumptions C76_sub_ok.
(** With the value that an administrator made for it, a member signs requests so that: the token is the one the administrator knows (and
    can revoke), the administrator's signature is over that token, and the request's signature verifies under the key in the
    token. *)
Theorem C76_subaccount_sign E G seed sk o write del v m : ec_ok E -> account E seed sk -> length (skipn 32 sk) = 32 ->
  (forall x y, length (g_sign G x y) = 64) -> (forall s, ko_sk o = Some s -> key_pair G s (ko_pk o)) ->
  make_subaccount (sub_of E G) (session_id_of E seed) write del o = Ok v ->
  (forall token, subaccount_token (sub_of E G) (session_id_of E seed) write del o = Ok token -> ~ same (le (sub_nonce E seed (skipn 4 token) m)) 0) ->
  exists token asig sig, subaccount_sign E sk m v = Ok (token, asig, sig) /\ subaccount_token (sub_of E G) (session_id_of E seed) write del o = Ok token /\
    g_verify G asig token (ko_pk o) = true /\ ed_verify E sig m (skipn 4 token) = true /\ length token = 36 /\ length sig = 64.
Proof.
  intros H h hsk hgl hkp hm hn. assert (hfull : sk = seed ++ ed_pub E seed). { destruct h as (h1 & [-> | ->]); [rewrite skipn_length, h1 in hsk; discriminate|reflexivity]. } subst sk.
  unfold make_subaccount in hm. destruct (ko_sk o) as [s|] eqn:es; [|discriminate]. specialize (hkp s eq_refl). change (session_id_of E seed) with (sid_of (x_of E seed)) in *. rewrite sid_of_pk in hm by apply (x_of_length E H). cbn [bind] in hm. cbv zeta in hm.
  cbn [sub_of s_xed s_mul s_g] in hm. rewrite (xed_x E H) in hm. set (k := blind_factor (sub_of E G) s (ko_pk o) (x_of E seed)) in *.
  destruct (mul_noclamp E k (ec_pt E (plog E seed))) as [kT|] eqn:em; [|discriminate]. cbn [of_opt bind] in hm. 
  assert (hv : v = sub_head write del ++ k ++ g_sign G s (sub_head write del ++ kT)) by congruence. clear hm.
  assert (hk : length k = 32) by apply to_le_length. assert (hh : length (sub_head write del) = 4) by reflexivity.
  assert (e1 : firstn 4 v = sub_head write del) by (rewrite hv; apply firstn_exact; exact hh).
  assert (e2 : firstn 32 (skipn 4 v) = k) by (rewrite hv, skipn_exact by exact hh; apply firstn_exact; exact hk).
  assert (e3 : skipn 36 v = g_sign G s (sub_head write del ++ kT)) by (rewrite hv, app_assoc; apply skipn_exact; rewrite app_length, hk; reflexivity).
  assert (e0 : length v = 100) by (rewrite hv, !app_length, hk, hgl; reflexivity).
  assert (hpk : skipn 32 (seed ++ ed_pub E seed) = ed_pub E seed) by (apply pk_account; apply h).
  assert (hkT : kT = ec_pt E (le k * plog E seed) /\ ~ same (le k * plog E seed) 0).
  { unfold k, blind_factor in em |- *. cbn [sub_of s_reduce] in em |- *. rewrite (mul_pt E H), reduce_255 in em. destruct ((plog E seed) mod L =? 0)%Z eqn:ez; [discriminate|]. cbn [orb] in em.
    match type of em with (if (?q =? 0)%Z then _ else _) = _ => destruct (q =? 0)%Z eqn:eq; [discriminate|] end. split; [congruence|apply same0_false; exact eq]. }
  destruct hkT as [hkT hnz].
  exists (sub_head write del ++ kT), (g_sign G s (sub_head write del ++ kT)), (schnorr_sign E kT (sc_mul k (if neg_bit (ed_pub E seed) then sc_neg (ed_scalar E seed) else ed_scalar E seed)) (sub_nonce E seed kT m) m).
  assert (htok : subaccount_token (sub_of E G) (sid_of (x_of E seed)) write del o = Ok (sub_head write del ++ kT)).
  { unfold subaccount_token. rewrite es. rewrite sid_of_pk by apply (x_of_length E H). cbn [bind sub_of s_mul s_xed]. rewrite (xed_x E H). fold (sub_of E G). fold k. rewrite em. reflexivity. }
  specialize (hn _ htok). assert (e4 : skipn 4 (sub_head write del ++ kT) = kT) by (apply skipn_exact; reflexivity). unfold bytes in *. rewrite e4 in hn.
  split; [|split; [exact htok|split; [|split; [|split]]]].
  - unfold subaccount_sign. rewrite e0. cbn [Nat.eqb negb]. cbv zeta. unfold bytes in *. rewrite e2, hpk, (clear_pub E H), em. cbn [of_opt bind]. rewrite e1, e3, (scalar_account E seed _ h), (seed_of_account E seed _ h). reflexivity.
  - apply hkp.
  - rewrite e4.
    assert (hlog : same (le (sc_mul k (if neg_bit (ed_pub E seed) then sc_neg (ed_scalar E seed) else ed_scalar E seed))) (le k * plog E seed)).
    { eapply same_trans; [apply le_sc_mul|]. apply same_mul; [apply same_refl|]. unfold plog. destruct (neg_bit _); [apply le_sc_neg|apply same_refl]. }
    apply (schnorr_sign_ok E H); [rewrite hkT; apply (pt_same E H), same_sym; exact hlog| |apply reduce_lt|exact hn].
    intros h0. apply hnz. eapply same_trans; [apply same_sym; exact hlog|exact h0].
  - rewrite app_length, hkT, (eo_pt_len E H). reflexivity.
  - apply (schnorr_length E H).
Qed.
Print Assumptions C76_subaccount_sign.

(** ** Examples: an account with a positive and one with a negative public key *)
Definition pos0 : bytes := repeat "a"%char 32.
Definition neg0 : bytes := repeat "p"%char 32.
Definition srv : bytes := repeat "s"%char 32.
Definition non0 : bytes := repeat "n"%char 24.
Lemma pos0_account : account toy_e pos0 pos0. Proof. split; [reflexivity|left; reflexivity]. Qed.
Lemma neg0_account : account toy_e neg0 (neg0 ++ ed_pub toy_e neg0). Proof. split; [reflexivity|right; reflexivity]. Qed.
Lemma pos0_factor v : factor_ok toy_e v pos0 srv. Proof. destruct v; apply same0_false; vm_compute; reflexivity. Qed.
Lemma neg0_factor v : factor_ok toy_e v neg0 srv. Proof. destruct v; apply same0_false; vm_compute; reflexivity. Qed.
Definition id_of (r : outcome (bytes * bytes * bytes)) (p : N) : bytes := match r with Ok x => byte p :: fst (fst x) | _ => [] end.
Definition neg15_id : bytes := id_of (blind15_key_pair toy_e neg0 srv) 21.
Definition pos15_id : bytes := id_of (blind15_key_pair toy_e pos0 srv) 21.
Example ex_C72 : neg_bit (ed_pub toy_e pos0) = false /\ neg_bit (ed_pub toy_e neg0) = true /\ blinds toy_e false neg0 srv neg15_id /\
  blind15_id toy_e (x_of toy_e neg0) srv = Ok (flip_last neg15_id) /\ blind15_id toy_e (x_of toy_e pos0) srv = Ok pos15_id /\
  matches_blinded_id toy_e (session_id_of toy_e pos0) (to_hex neg15_id) (to_hex srv) = Ok false.
Proof.
  split; [vm_compute; reflexivity|]. split; [vm_compute; reflexivity|]. split; [eexists _, _, _; split; [reflexivity|reflexivity]|]. split; [vm_compute; reflexivity|]. split; vm_compute; reflexivity.
Qed.
Example ex_C73 : ~ same (le (blind25_nonce toy_e neg0 (skipn 1 (id_of (blind25_key_pair toy_e neg0 srv) 37)) (b "hi"))) 0 /\
  exists sig, blind25_sign toy_e neg0 (to_hex srv) (b "hi") = Ok sig /\ ed_verify toy_e sig (b "ho") (skipn 1 (id_of (blind25_key_pair toy_e neg0 srv) 37)) = false.
Proof. split; [apply same0_false; vm_compute; reflexivity|]. eexists. split; [vm_compute; reflexivity|]. vm_compute. reflexivity. Qed.
(** The alternative id of 15-blinding: it matches the session id, it can be written to, but the recipient cannot decrypt what was written to it,
    under either id. *)
Theorem C74_alternative_id_refuted : exists c, let alt := flip_last neg15_id in
  matches_blinded_id toy_e (session_id_of toy_e neg0) (to_hex alt) (to_hex srv) = Ok true /\ encrypt_blinded toy_e non0 pos0 srv alt (b "hi") = Ok c /\
  decrypt_blinded toy_e neg0 srv pos15_id alt c = Throw /\ decrypt_blinded toy_e neg0 srv pos15_id neg15_id c = Throw.
Proof. eexists. cbv zeta. split; [vm_compute; reflexivity|]. split; [vm_compute; reflexivity|]. split; vm_compute; reflexivity. Qed.
Print Assumptions C74_alternative_id_refuted.
Example ex_C75 : let sk := to_le 32 (clamp 12345) in le sk = clamp (le sk) /\ (forall a, a = sk \/ a = sc_neg sk -> ~ same (le (xed_nonce toy_e a (b "hi") srv)) 0) /\
  xed_verify toy_e (xed_sign toy_e srv sk (b "hi")) (x_base toy_e sk) (b "ho") = false.
Proof. cbv zeta. split; [vm_compute; reflexivity|]. split; [intros a [-> | ->]; apply same0_false; vm_compute; reflexivity|]. vm_compute. reflexivity. Qed.
Definition toy_ge : gcrypt := mkGcrypt (g_x toy_g) (g_hash toy_g) (pk_to_x toy_e) (g_xsk toy_g) (g_sign toy_g) (g_verify toy_g) (g_rng toy_g) (g_edpk toy_g) (g_zstd toy_g) (g_unzstd toy_g).
Definition gsk0 : bytes := toy_sk (repeat "g"%char 32).
Definition gpk0 : bytes := toy_hash (repeat "g"%char 32).
Definition adm0 : kobj := new_keys (pos0 ++ ed_pub toy_e pos0) gpk0 (Some gsk0).
Example ex_C76 : (forall s, ko_sk adm0 = Some s -> key_pair toy_ge s (ko_pk adm0)) /\
  exists v token, make_subaccount (sub_of toy_e toy_ge) (session_id_of toy_e neg0) true false adm0 = Ok v /\
    subaccount_token (sub_of toy_e toy_ge) (session_id_of toy_e neg0) true false adm0 = Ok token /\ ~ same (le (sub_nonce toy_e neg0 (skipn 4 token) (b "hi"))) 0.
Proof.
  split.
  - intros s h. assert (e : s = gsk0) by (cbn [adm0 new_keys ko_sk] in h; congruence). rewrite e. pose proof (toy_pair (repeat "g"%char 32) eq_refl) as hp. exact hp.
  - eexists _, _. split; [vm_compute; reflexivity|]. split; [vm_compute; reflexivity|]. apply same0_false. vm_compute. reflexivity.
Qed.
