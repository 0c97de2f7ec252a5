(** C69, C70, C71: messages between accounts, push notifications and ONS lookups.  Statements; proofs in SessEnc_facts.v. *)
From Verif Require Import Crypt_facts.
From Verif Require Import SessSpec SessEnc_facts Ed_facts ToyEd ToyKeys Hex_facts.
From Coq Require Import Lia.

(** What one account encrypts for another, the other decrypts: to the same message and the sender's Ed25519 key, or session
    id.  Either key form and either way of writing the recipient will do, the size is that of the message plus 144, and
    the random and the deterministic variant agree in this. *)
Theorem C69_round_trip E from sk to pk sk' m esk c : ec_ok E -> account E from sk -> account E to sk' -> addresses E to pk ->
  nonce_ok E from (m ++ ed_pub E from ++ x_of E to) ->
  encrypt_for_recipient E esk sk pk m = Ok c \/ encrypt_deterministic E sk pk m = Ok c ->
  decrypt_incoming E sk' c = Ok (m, ed_pub E from) /\ decrypt_incoming_session_id E sk' c = Ok (m, session_id_of E from) /\ length c = length m + 144.
Proof.
  intros H h h' ha hn hc.
  assert (e : decrypt_incoming E sk' c = Ok (m, ed_pub E from) /\ decrypt_incoming_x E (x_of E to) (ed_scalar E to) c = Ok (m, ed_pub E from) /\ length c = length m + 144).
  { destruct hc as [hc|hc]; [exact (sealed_roundtrip E H from sk to pk sk' m (fun _ => esk) c h h' ha hn hc)|exact (sealed_roundtrip E H from sk to pk sk' m (fun y => det_esk E sk y m) c h h' ha hn hc)]. }
  destruct e as (e1 & _ & e3). split; [exact e1|]. split; [apply session_id_roundtrip; assumption|exact e3].
Qed.
Print Assumptions C69_round_trip.
(** The same for a recipient that only has X25519 keys (a legacy group). *)
Theorem C69_round_trip_x E from sk xsk m esk c : ec_ok E -> account E from sk -> nonce_ok E from (m ++ ed_pub E from ++ x_base E xsk) ->
  encrypt_for_recipient E esk sk (x_base E xsk) m = Ok c ->
  decrypt_incoming_x E (x_base E xsk) xsk c = Ok (m, ed_pub E from) /\ decrypt_incoming_session_id_x E (x_base E xsk) xsk c = Ok (m, session_id_of E from).
Proof.
  intros H h hn hc. assert (hx : strip05 (x_base E xsk) = Ok (x_base E xsk)).
  { pose proof (x_base_length E H xsk) as hl. unfold strip05. destruct (x_base E xsk) as [|ch r]; [discriminate|]. rewrite hl. reflexivity. }
  unfold encrypt_for_recipient, sign_for_recipient in hc. rewrite (full_sk_account E H from sk h), hx in hc. cbn [bind] in hc. cbv zeta in hc. rewrite (pk_account E from (proj1 h)) in hc.
  destruct (seal_box E esk (x_base E xsk) _) as [c'|] eqn:ec in hc; [|discriminate]. assert (c' = c) by (cbn [of_opt] in hc; congruence). subst c'.
  apply (incoming_ok E H) in ec; [|apply (ed_pub_length E H)|apply (ed_sign_length E H)|apply (sign_account E H from sk); assumption].
  destruct ec as (e1 & _). split; [exact e1|apply session_id_roundtrip; assumption].
Qed.
Print Assumptions C69_round_trip_x.

(** The deterministic variant takes no random key.  The first 32 bytes of what it gives, the public key of the box, are made from the sender's seed, the
    recipient and the message: they repeat only for the same three, unless the hashes collide on these very inputs. *)
Definition eph_of (E : ecrypt) (input : bytes) : bytes := x_base E (firstn 32 (ec_sha512 E (ec_blake E 32 (b "SessionBoxEphemeralHashKey") [] input))).
Theorem C69_deterministic_keys E from sk to pk m c from' sk' to' pk' m' c' : ec_ok E -> account E from sk -> account E from' sk' -> addresses E to pk -> addresses E to' pk' ->
  encrypt_deterministic E sk pk m = Ok c -> encrypt_deterministic E sk' pk' m' = Ok c' ->
  (eph_of E (from ++ x_of E to ++ m) = eph_of E (from' ++ x_of E to' ++ m') -> from ++ x_of E to ++ m = from' ++ x_of E to' ++ m') ->
  firstn 32 c = firstn 32 c' -> from = from' /\ x_of E to = x_of E to' /\ m = m' /\ c = c'.
Proof.
  intros H h h' ha ha' hc hc' hcol hf.
  assert (inv : forall from sk to pk m c, account E from sk -> addresses E to pk -> encrypt_deterministic E sk pk m = Ok c ->
    firstn 32 c = eph_of E (from ++ x_of E to ++ m) /\ exists s, s = m ++ ed_pub E from ++ ed_sign E (from ++ ed_pub E from) (m ++ ed_pub E from ++ x_of E to) /\ Ok c = of_opt (seal_box E (firstn 32 (ec_sha512 E (ec_blake E 32 BOX_HASHKEY [] (from ++ x_of E to ++ m)))) (x_of E to) s) Throw).
  { clear -H. intros from sk to pk m c h ha hc. unfold encrypt_deterministic in hc. destruct (sign_for_recipient E sk pk m) as [s| | | |] eqn:es; try discriminate. cbn [bind] in hc.
    pose proof (encrypt_inv E H from sk to pk m s h ha es) as hs. rewrite (strip05_addr E H to pk ha) in hc. cbn [bind] in hc. unfold det_esk in hc. rewrite (seed_of_account E from sk h) in hc.
    split; [|exists s; split; [exact hs|symmetry; exact hc]]. unfold seal_box in hc. destruct (ec_dh E _ _) as [k|]; [|discriminate]. cbn [of_opt] in hc. cbv zeta in hc.
    match type of hc with Ok ?t = _ => assert (e : c = t) by congruence end. rewrite e, firstn_app, (x_base_length E H), Nat.sub_diag, firstn_O, app_nil_r.
    apply firstn_all2. unfold eph_of. rewrite (x_base_length E H). lia. }
  destruct (inv _ _ _ _ _ _ h ha hc) as (e1 & s1 & hs1 & e2). destruct (inv _ _ _ _ _ _ h' ha' hc') as (e1' & s1' & hs1' & e2').
  rewrite e1, e1' in hf. specialize (hcol hf).
  assert (l1 : length from = 32) by apply h. assert (l2 : length from' = 32) by apply h'.
  assert (a1 : from = from' /\ x_of E to ++ m = x_of E to' ++ m') by (apply app_inj_len; [congruence|exact hcol]).
  destruct a1 as [a1 a2]. pose proof (x_base_length E H (ed_scalar E to)) as l3. pose proof (x_base_length E H (ed_scalar E to')) as l4. fold (x_of E to) in l3. fold (x_of E to') in l4.
  assert (a3 : x_of E to = x_of E to' /\ m = m') by (apply app_inj_len; [congruence|exact a2]).
  destruct a3 as [a3 a4]. split; [exact a1|]. split; [exact a3|]. split; [exact a4|].
  assert (e3 : Ok c = Ok c'). { rewrite e2, e2', hs1, hs1', a1, a3, a4. reflexivity. }
  congruence.
Qed.
Print Assumptions C69_deterministic_keys.

(** A message is accepted only if it is a sealed box, for us, of the message, the claimed sender's key and that key's valid
    signature over the message, the sender and us as recipient; and the session id reported is that of the key. *)
Theorem C70_authentic E xpk xsk c m A : ec_ok E -> decrypt_incoming_x E xpk xsk c = Ok (m, A) ->
  exists sig, length A = 32 /\ length sig = 64 /\ open_box E xpk xsk c = Some (m ++ A ++ sig) /\ ed_verify E sig (m ++ A ++ xpk) A = true.
Proof. intros H h. destruct (incoming_inv E H xpk xsk c m A h) as (sig & h1 & h2 & h3 & h4). exists sig. repeat split; assumption. Qed.
Print Assumptions C70_authentic.
Theorem C70_session_id E sk c m id : ec_ok E -> decrypt_incoming_session_id E sk c = Ok (m, id) ->
  exists seed_xsk A sig x, decrypt_incoming E sk c = Ok (m, A) /\ open_box E (x_base E seed_xsk) seed_xsk c = Some (m ++ A ++ sig) /\
    ed_verify E sig (m ++ A ++ x_base E seed_xsk) A = true /\ pk_to_x E A = Some x /\ id = b "05" ++ to_hex x /\ session_id_ok id (b "05") = true.
Proof.
  intros H. unfold decrypt_incoming_session_id, with_session_id. destruct (decrypt_incoming E sk c) as [[m' A]| | | |] eqn:ed; try discriminate. cbn [bind fst snd].
  destruct (pk_to_x E A) as [x|] eqn:ex; [|discriminate]. cbn [of_opt bind]. intros h. injection h as <- <-. pose proof ed as ed0. unfold decrypt_incoming in ed.
  destruct (full_sk E sk) as [fsk| | | |] eqn:ef; try discriminate. cbn [bind] in ed. cbv zeta in ed. apply (incoming_inv E H) in ed as (sig & h1 & h2 & h3 & h4).
  exists (ed_scalar E fsk), A, sig, x. split; [reflexivity|]. split; [exact h1|]. split; [exact h4|]. split; [exact ex|]. split; [reflexivity|].
  apply (sid_of_ok x). apply (pk_x_inv E H) in ex as (k & _ & _ & ->). apply (eo_x_len E H).
Qed.
Print Assumptions C70_session_id.
(** libsodium's signatures as used through ed25519::sign and ed25519::verify: what is signed with either form of the key
    verifies under the public key of the pair. *)
Theorem C70_sign_verify E seed sk m sig : ec_ok E -> account E seed sk -> nonce_ok E seed m -> ed25519_sign E sk m = Ok sig -> ed25519_verify E sig (ed_pub E seed) m = Ok true.
Proof.
  intros H h hn. unfold ed25519_sign. rewrite (full_sk_account E H seed sk h). cbn [bind]. intros hs. assert (e : sig = ed_sign E (seed ++ ed_pub E seed) m) by congruence. subst sig.
  unfold ed25519_verify. rewrite (ed_sign_length E H), (ed_pub_length E H). cbn [Nat.eqb negb]. rewrite (sign_account E H seed sk m h hn). reflexivity.
Qed.
Print Assumptions C70_sign_verify.

Definition sd1 : bytes := repeat "a"%char 32.
Definition sd2 : bytes := repeat "b"%char 32.
Example ex_C69 : account toy_e sd1 sd1 /\ account toy_e sd2 (sd2 ++ ed_pub toy_e sd2) /\ addresses toy_e sd2 (byte 5 :: x_of toy_e sd2) /\
  nonce_ok toy_e sd1 (b "hello" ++ ed_pub toy_e sd1 ++ x_of toy_e sd2) /\
  exists c, encrypt_for_recipient toy_e (repeat "e"%char 32) sd1 (byte 5 :: x_of toy_e sd2) (b "hello") = Ok c /\
  exists c2, encrypt_deterministic toy_e sd1 (byte 5 :: x_of toy_e sd2) (b "hello") = Ok c2 /\ c <> c2 /\ decrypt_incoming toy_e sd1 c = Throw.
Proof.
  split; [split; [reflexivity|left; reflexivity]|]. split; [split; [reflexivity|right; reflexivity]|]. split; [right; reflexivity|]. split; [apply same0_false; vm_compute; reflexivity|].
  eexists. split; [vm_compute; reflexivity|]. eexists. split; [vm_compute; reflexivity|]. split; [vm_compute; discriminate|vm_compute; reflexivity].
Qed.

(** A push notification: the nonce, then the encryption of the message padded with any number of NULs.  The message comes
    back without the padding, unless it is empty or ends in a NUL itself. *)
Theorem C71_push E key nonce m n : ec_ok E -> length key = 32 -> length nonce = 24 -> m <> [] -> (forall p, m <> p ++ [NUL]) ->
  decrypt_push_notification E (nonce ++ ec_seal E key nonce (m ++ repeat NUL n)) key = Ok m.
Proof.
  intros H hk hn hne hm. unfold decrypt_push_notification. rewrite app_length, (eo_seal_len E H), hn, hk. destruct (Nat.ltb_spec (24 + (length (m ++ repeat NUL n) + 16)) (NPUBBYTES + ABYTES)) as [hx|_]; [unfold NPUBBYTES, ABYTES in hx; lia|].
  cbn [Nat.eqb negb]. rewrite firstn_exact, skipn_exact by exact hn. rewrite (eo_seal E H). cbn [of_opt bind]. f_equal. apply strip_end; assumption.
Qed.
Print Assumptions C71_push.
(** Nothing but what was sealed under the key is accepted, and nothing is changed but trailing NULs. *)
Theorem C71_push_only E payload key m : decrypt_push_notification E payload key = Ok m ->
  exists padded, ec_open E key (firstn 24 payload) (skipn 24 payload) = Some padded /\ (m = padded \/ exists n, padded = m ++ repeat NUL n).
Proof.
  unfold decrypt_push_notification. destruct (Nat.ltb _ _); [discriminate|]. destruct (negb _); [discriminate|]. destruct (ec_open E key (firstn 24 payload) (skipn 24 payload)) as [x|]; [|discriminate].
  cbn [of_opt bind]. intros h. assert (e : m = strip_nul_end x) by congruence. exists x. split; [reflexivity|]. subst m. unfold strip_nul_end, strip_nul.
  assert (hd : exists n, rev x = repeat NUL n ++ drop_nul (rev x)).
  { generalize (rev x). intros s. induction s as [|ch s (n & IH)]; [exists 0; reflexivity|]. cbn [drop_nul]. destruct (Ascii.eqb_spec ch NUL) as [->|]; [|exists 0; reflexivity]. exists (S n). cbn [repeat app]. congruence. }
  destruct hd as (n & hd). destruct (drop_nul (rev x)) as [|ch r]; [left; apply rev_involutive|]. right. exists n.
  rewrite <- (rev_involutive x) at 1. rewrite hd, rev_app_distr. f_equal. clear. induction n as [|n IH]; [reflexivity|]. cbn [repeat rev]. rewrite IH. symmetry. apply repeat_cons.
Qed.
Print Assumptions C71_push_only.
(** A message of NULs only keeps its padding. *)
Theorem C71_push_all_nul E key nonce n : ec_ok E -> length key = 32 -> length nonce = 24 -> decrypt_push_notification E (nonce ++ ec_seal E key nonce (repeat NUL n)) key = Ok (repeat NUL n).
Proof.
  intros H hk hn. unfold decrypt_push_notification. rewrite app_length, (eo_seal_len E H), hn, hk. destruct (Nat.ltb_spec (24 + (length (repeat NUL n) + 16)) (NPUBBYTES + ABYTES)) as [hx|_]; [unfold NPUBBYTES, ABYTES in hx; lia|].
  cbn [Nat.eqb negb]. rewrite firstn_exact, skipn_exact by exact hn. rewrite (eo_seal E H). cbn [of_opt bind]. f_equal. unfold strip_nul_end, strip_nul.
  assert (hr : forall k, rev (repeat NUL k) = repeat NUL k) by (induction k as [|k IH]; [reflexivity|]; cbn [repeat rev]; rewrite IH; symmetry; apply repeat_cons).
  rewrite !hr. pose proof (drop_nul_app n []) as hd. rewrite app_nil_r in hd. rewrite hd. cbn [drop_nul]. apply hr.
Qed.
Print Assumptions C71_push_all_nul.
(** An ONS record encrypted under the key of the name gives back the session id in hex; any other name, nonce or size is
    refused unless the ciphertext opens to 33 bytes under that name's key. *)
Theorem C71_ons E name nonce id : ec_ok E -> length nonce = 24 -> length id = 33 -> decrypt_ons_response E name (ec_seal E (ons_key E name) nonce id) nonce = Ok (to_hex id).
Proof.
  intros H hn hi. unfold decrypt_ons_response. rewrite (eo_seal_len E H), hn, hi. cbn [Nat.add Nat.ltb Nat.leb ABYTES Nat.eqb negb]. rewrite (eo_seal E H). cbn [of_opt bind]. rewrite hi. reflexivity.
Qed.
Print Assumptions C71_ons.
Theorem C71_ons_only E name c nonce s : decrypt_ons_response E name c nonce = Ok s -> length nonce = 24 /\ exists id, ec_open E (ons_key E name) nonce c = Some id /\ length id = 33 /\ s = to_hex id.
Proof.
  unfold decrypt_ons_response. destruct (Nat.ltb _ _); [discriminate|]. destruct (Nat.eqb_spec (length nonce) 24) as [hn|]; [|discriminate]. cbn [negb].
  destruct (ec_open E (ons_key E name) nonce c) as [id|]; [|discriminate]. cbn [of_opt bind]. destruct (Nat.eqb_spec (length id) 33) as [hi|]; [|discriminate]. cbn [negb]. intros h.
  split; [exact hn|]. exists id. repeat split; [exact hi|congruence].
Qed.
Print Assumptions C71_ons_only.
Example ex_C71 : let key := repeat "k"%char 32 in let nonce := repeat "n"%char 24 in
  decrypt_push_notification toy_e (nonce ++ ec_seal toy_e key nonce (b "ping" ++ repeat NUL 3)) key = Ok (b "ping") /\
  decrypt_push_notification toy_e (nonce ++ ec_seal toy_e key nonce (b "ping" ++ repeat NUL 3)) (repeat "l"%char 32) = Throw /\
  decrypt_ons_response toy_e (b "joe") (ec_seal toy_e (ons_key toy_e (b "joe")) nonce (byte 5 :: repeat NUL 32)) nonce = Ok (b "05" ++ repeat "0"%char 64) /\
  decrypt_ons_response toy_e (b "jim") (ec_seal toy_e (ons_key toy_e (b "joe")) nonce (byte 5 :: repeat NUL 32)) nonce = Throw.
Proof. cbv zeta. split; [vm_compute; reflexivity|]. split; [vm_compute; reflexivity|]. split; vm_compute; reflexivity. Qed.
