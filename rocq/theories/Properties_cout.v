(** C85, C86: C functions that write into buffers of the caller *)
From Coq Require Import Lia.
From Verif Require Import Bytes Message Hex_facts Community Community_facts Pubkey Pubkey_facts GroupKeys Sub KeysSpec Keys_facts Keys6_facts SessEnc EdSpec Ed_facts Blind Blind_facts ToyEd ToyKeys
  Contacts Contacts_facts CStruct_facts COut COut_facts.
From Verif Require Onion.

(** The outcome of the C function [c] that wraps the C++ call [r]: if the call returns, the values [vals] have the documented
    [sizes] and lie at the front of the caller's buffers, whose other bytes are untouched, and [blk] is in the malloc'd block; if it throws, the
    function returns false; nothing else can happen. *)
Definition writes {A} (r : outcome A) (vals : A -> list bytes) (blk : A -> bytes) (sizes : list nat) (bufs : list bytes) (c : outcome (option (list bytes * bytes))) : Prop :=
  match r with
  | Ok a => map (@length ascii) (vals a) = sizes /\ c = Ok (Some (map (fun p => fst p ++ skipn (length (fst p)) (snd p)) (combine (vals a) bufs), blk a))
  | Err | Throw => c = Ok None
  | UB | Hang => False
  end.
(** the buffers are at least as large as documented *)
Definition large_enough (sizes : list nat) (bufs : list bytes) : Prop := Forall2 (fun n m => n <= length m) sizes bufs.

Lemma call_writes {A} (r : outcome A) fixed blk sizes bufs : settled r -> (forall a, r = Ok a -> map (@length ascii) (fixed a) = sizes) -> large_enough sizes bufs ->
  writes r fixed blk sizes bufs (c_call r fixed blk bufs).
Proof.
  intros hs hl hb. destruct r as [a| | | |]; cbn [writes]; try contradiction; try reflexivity. split; [exact (hl a eq_refl)|].
  apply (call_ok (Ok a) fixed blk bufs a eq_refl). exact (sizes_fit _ _ _ (hl a eq_refl) hb).
Qed.

(** ** C85: community URLs *)
(** Parsing, with buffers of the documented sizes.  The caller gets the parts as C strings and the key if the room has at most 64 characters; *)
Theorem C85_parse_partial url base room pk : 268 <= length base -> 65 <= length room -> 32 <= length pk ->
  match parse_full_url url with
  | Ok (x, y, z) => length x <= 267 /\ length z <= 32 /\ (length y <= 64 ->
      c_parse_full url base room pk = Ok (Some ([x ++ NUL :: skipn (length x + 1) base; y ++ NUL :: skipn (length y + 1) room; z ++ skipn (length z) pk], [])))
  | Throw | Err => c_parse_full url base room pk = Ok None
  | UB | Hang => False
  end.
Proof.
  intros h1 h2 h3. unfold c_parse_full. pose proof (full_settled_url url) as hs. unfold parse_full_url in *. pose proof (partial_inv url) as hp.
  destruct (parse_partial_url url) as [[[x y] z]| | | |]; cbn [bind] in *; try contradiction; try reflexivity.
  destruct z as [z|]; cbn [bind]; [|reflexivity]. destruct (hp x y (Some z) eq_refl) as [hx hz]. destruct (hz z eq_refl) as [s hd]. pose proof (pubkey_short s z hd) as hl.
    split; [exact hx|]. split; [lia|]. intros hy. erewrite call_ok; [|reflexivity|].
    + cbv beta iota. unfold each_into, cz. cbn [combine map fst snd]. rewrite !app_length. cbn [length]. rewrite <- !app_assoc. reflexivity.
    + cbv beta iota. unfold cz. constructor; [rewrite app_length; cbn [length]; lia|]. constructor; [rewrite app_length; cbn [length]; lia|]. constructor; [lia|constructor].
Qed.
Print Assumptions C85_parse_partial.
(** the same for the function that takes URLs without a key, where the last byte is the has_pubkey flag and the key buffer is left alone if there is none. *)
Theorem C85_parse_no_key_partial url base room pk flag : 268 <= length base -> 65 <= length room -> 32 <= length pk -> 1 <= length flag ->
  match parse_partial_url url with
  | Ok (x, y, z) => length y <= 64 ->
      exists base' room' pk' flag', c_parse_partial url base room pk flag = Ok (Some ([base'; room'; pk'; flag'], [])) /\
        base' = x ++ NUL :: skipn (length x + 1) base /\ room' = y ++ NUL :: skipn (length y + 1) room /\
        match z with Some k => pk' = k ++ skipn (length k) pk /\ nth 0 flag' NUL <> NUL | None => pk' = pk /\ nth 0 flag' NUL = NUL end
  | Throw | Err => c_parse_partial url base room pk flag = Ok None
  | UB | Hang => False
  end.
Proof.
  intros h1 h2 h3 h4. unfold c_parse_partial. pose proof (partial_settled url) as hs. pose proof (partial_inv url) as hp.
  destruct (parse_partial_url url) as [[[x y] z]| | | |]; try contradiction; try reflexivity. intros hy. destruct (hp x y z eq_refl) as [hx hz].
  assert (e1 : length (cz x) <= length base) by (unfold cz; rewrite app_length; cbn [length]; lia). assert (e2 : length (cz y) <= length room) by (unfold cz; rewrite app_length; cbn [length]; lia).
  destruct z as [z|].
  - destruct (hz z eq_refl) as [s hd]. pose proof (pubkey_short s z hd) as hl. erewrite call_ok; [|reflexivity|].
    + cbv beta. unfold each_into. cbn [combine map fst snd]. eexists. eexists. eexists. eexists. split; [reflexivity|]. unfold cz. rewrite !app_length. cbn [length]. rewrite <- !app_assoc. cbn [app].
      repeat split. cbn [nth]. discriminate.
    + cbv beta. constructor; [exact e1|]. constructor; [exact e2|]. constructor; [lia|]. constructor; [exact h4|constructor].
  - erewrite call_ok; [|reflexivity|].
    + cbv beta. unfold each_into. cbn [combine map fst snd]. eexists. eexists. eexists. eexists. split; [reflexivity|]. unfold cz. rewrite !app_length. cbn [length]. rewrite <- !app_assoc. cbn [app].
      repeat split.
    + cbv beta. constructor; [exact e1|]. constructor; [exact e2|]. constructor; [cbn [length]; lia|]. constructor; [exact h4|constructor].
Qed.
Print Assumptions C85_parse_no_key_partial.
(** A URL made for a canonical base URL, a valid room and a key fits the documented buffer, and parsing that C string gives the
    caller the same parts as C strings, and the key. *)
Theorem C85_round_trip u base room nroom pk out b1 b2 b3 : canonical_url u = Ok base -> canonical_room room = Ok nroom -> length pk = 32 ->
  COMMUNITY_FULL_URL_MAX_LENGTH <= length out -> 268 <= length b1 -> 65 <= length b2 -> 32 <= length b3 ->
  exists out' b1' b2' b3', c_make_full base room pk out = Ok out' /\ c_parse_full (c_str out') b1 b2 b3 = Ok (Some ([b1'; b2'; b3'], [])) /\
    c_str b1' = base /\ c_str b2' = room /\ firstn 32 b3' = pk /\ length b1' = length b1 /\ length b2' = length b2 /\ length b3' = length b3.
Proof.
  intros hu hr hk ho h1 h2 h3. destruct (url_nonul _ _ hu) as [n1 l1]. destruct (room_nonul _ _ hr) as (n2 & _ & l2 & _).
  assert (hl : length (cz (full_url base room pk)) <= length out).
  { unfold cz, full_url. rewrite !app_length, to_hex_length, hk. unfold COMMUNITY_FULL_URL_MAX_LENGTH, BASE_URL_MAX_LENGTH, ROOM_MAX_LENGTH in ho. cbn [length] in *.
    change (length (b "/")) with 1. change (length qs_pubkey) with 12 in *. unfold bytes in *. lia. }
  unfold c_make_full, put. apply Nat.leb_le in hl. rewrite hl. eexists. 
  assert (hc : c_str (cz (full_url base room pk) ++ skipn (length (cz (full_url base room pk))) out) = full_url base room pk).
  { unfold cz. rewrite <- app_assoc. cbn [app]. apply c_str_app. change (nonul (full_url base room pk) = true). unfold full_url. rewrite !nonul_app, n1, n2, (from_hex_nonul _ _ (from_to_hex pk)). reflexivity. }
  pose proof (C85_parse_partial (full_url base room pk) b1 b2 b3 h1 h2 h3) as hp. rewrite (proj1 (full_url_parses u base room nroom pk hu hr hk)) in hp. destruct hp as (_ & _ & hp).
  specialize (hp ltac:(lia)). eexists. eexists. eexists. split; [reflexivity|]. rewrite hc, hp. split; [reflexivity|].
  split; [apply c_str_app; exact n1|]. split; [apply c_str_app; exact n2|]. split; [rewrite <- hk; apply firstn_exact; reflexivity|].
  rewrite !app_length. cbn [length]. rewrite !skipn_length. unfold bytes in *. lia.
Qed.
Print Assumptions C85_round_trip.
(** A room of more than 64 characters is not refused by the parser, and is written past the end of a buffer of the documented size. *)
Definition long_room : bytes := b "http://abcd.ef/" ++ repeat "a"%char 65 ++ b "?public_key=" ++ to_hex (repeat NUL 32).
Theorem C85_long_room_refuted : c_str long_room = long_room /\ exists x y z, parse_full_url long_room = Ok (x, y, z) /\ length y = 65 /\
  forall base room pk, length base = 268 -> length room = 65 -> length pk = 32 -> c_parse_full long_room base room pk = UB.
Proof.
  split; [vm_compute; reflexivity|]. assert (e : parse_full_url long_room = Ok (b "http://abcd.ef", repeat "a"%char 65, repeat NUL 32)) by (vm_compute; reflexivity).
  eexists. eexists. eexists. split; [exact e|]. split; [reflexivity|]. intros base room pk h1 h2 h3. unfold c_parse_full, c_call. rewrite e. cbn [put_all]. unfold put.
  rewrite h1, h2. reflexivity.
Qed.
Print Assumptions C85_long_room_refuted.
(** A key in base64 that ends in two '=' has 31 bytes: the last byte of the caller's key buffer keeps what was there before. *)
Definition short_key : bytes := b "http://abcd.ef/room?public_key=" ++ repeat "A"%char 42 ++ b "==".
Theorem C85_short_key_refuted : c_str short_key = short_key /\ forall base room old, length base = 268 -> length room = 65 ->
  exists base' room', c_parse_full short_key base room (repeat "x"%char 31 ++ [old]) = Ok (Some ([base'; room'; repeat NUL 31 ++ [old]], [])).
Proof.
  split; [vm_compute; reflexivity|]. intros base room old h1 h2. assert (e : parse_full_url short_key = Ok (b "http://abcd.ef", b "room", repeat NUL 31)) by (vm_compute; reflexivity).
  pose proof (C85_parse_partial short_key base room (repeat "x"%char 31 ++ [old]) ltac:(lia) ltac:(lia) (le_n 32)) as hp. rewrite e in hp. destruct hp as (_ & _ & hp).
  rewrite hp by (apply Nat.leb_le; reflexivity). eexists. eexists. reflexivity.
Qed.
Print Assumptions C85_short_key_refuted.
Example ex_C85 : exists base nroom, canonical_url (b "HTTPS://Example.ORG:443/") = Ok base /\ canonical_room (b "Main-Room") = Ok nroom /\ base = b "https://example.org" /\
  parse_full_url (full_url base (b "Main-Room") (repeat "k"%char 32)) = Ok (base, b "Main-Room", repeat "k"%char 32).
Proof. eexists. eexists. split; [vm_compute; reflexivity|]. split; [vm_compute; reflexivity|]. split; vm_compute; reflexivity. Qed.

(** ** C86: outputs of fixed size *)
Ltac fits_ := repeat constructor; assumption.
(** session_encrypt.h: the sender's session id, 66 characters and a terminator, and the message; decryption for an account, a legacy group, a
    blinded id, and of an ONS answer, *)
Theorem C86_decrypt E sk c sid : ec_ok E -> length sk = 64 -> 67 <= length sid ->
  writes (decrypt_incoming_session_id E sk c) (fun r => [snd r ++ [NUL]]) fst [67] [sid] (c_decrypt_incoming E sk c sid).
Proof.
  intros H _ hb. apply call_writes; [apply with_sid_settled, incoming_settled| |fits_]. intros a h. cbn [map]. f_equal. exact (with_sid_length E H _ _ h).
Qed.
Print Assumptions C86_decrypt.
Theorem C86_decrypt_legacy E xpk xsk c sid : ec_ok E -> 67 <= length sid ->
  writes (decrypt_incoming_session_id_x E xpk xsk c) (fun r => [snd r ++ [NUL]]) fst [67] [sid] (c_decrypt_legacy E xpk xsk c sid).
Proof.
  intros H hb. apply call_writes; [apply with_sid_settled, incoming_x_settled| |fits_]. intros a h. cbn [map]. f_equal. exact (with_sid_length E H _ _ h).
Qed.
Print Assumptions C86_decrypt_legacy.
Theorem C86_decrypt_blinded E sk server sender recipient c sid : ec_ok E -> length recipient = 33 -> 67 <= length sid ->
  writes (decrypt_blinded E sk server sender recipient c) (fun r => [snd r ++ [NUL]]) fst [67] [sid] (c_decrypt_blinded E sk server sender recipient c sid).
Proof.
  intros H hr hb. apply call_writes; [apply dec_blinded_settled; intros ->; discriminate| |fits_]. intros a h. cbn [map]. f_equal. exact (dec_blinded_length E H _ _ _ _ _ _ h).
Qed.
Print Assumptions C86_decrypt_blinded.
Theorem C86_decrypt_ons E name c nonce sid : ec_ok E -> 67 <= length sid ->
  writes (decrypt_ons_response E name c nonce) (fun s => [s ++ [NUL]]) (fun _ => []) [67] [sid] (c_decrypt_ons E name c nonce sid).
Proof. intros H hb. apply call_writes; [apply ons_settled| |fits_]. intros a h. cbn [map]. f_equal. exact (ons_length E _ _ _ _ h). Qed.
Print Assumptions C86_decrypt_ons.
(** and the functions with nothing but a malloc'd block. *)
Theorem C86_blocks E X junk msgs rcpts nonce sk pk server m payload key priv pub domain pad encoded sender :
  writes (encrypt_deterministic E sk pk m) (fun _ => []) (fun r => r) [] [] (c_encrypt_deterministic E sk pk m) /\
  writes (encrypt_blinded E nonce sk server pk m) (fun _ => []) (fun r => r) [] [] (c_encrypt_blinded E nonce sk server pk m) /\
  writes (decrypt_push_notification E payload key) (fun _ => []) (fun r => r) [] [] (c_decrypt_push E payload key) /\
  writes (encrypt_simple X junk msgs rcpts priv pub domain nonce pad) (fun _ => []) (fun r => r) [] [] (c_encrypt_multi X junk msgs rcpts priv pub domain nonce pad) /\
  c_decrypt_multi X encoded priv pub sender domain = Ok match decrypt_simple X encoded priv pub sender domain with Some m => Some ([], m) | None => None end.
Proof.
  split; [|split; [|split; [|split]]].
  - apply call_writes; [apply enc_det_settled|reflexivity|constructor].
  - apply call_writes; [apply enc_blinded_settled|reflexivity|constructor].
  - apply call_writes; [apply push_settled|reflexivity|constructor].
  - apply call_writes; [apply multi_settled|reflexivity|constructor].
  - unfold c_decrypt_multi. destruct (decrypt_simple X encoded priv pub sender domain); reflexivity.
Qed.
Print Assumptions C86_blocks.
(** blinding.h: key pairs of 32 and 32 bytes, signatures of 64. *)
Theorem C86_blind E sk server m o1 o2 : ec_ok E -> 
  (32 <= length o1 -> 32 <= length o2 ->
   writes (blind15_key_pair E sk server) (fun r => [fst (fst r); snd (fst r)]) (fun _ => []) [32; 32] [o1; o2] (c_blind15_key_pair E sk server o1 o2) /\
   writes (blind25_key_pair E sk server) (fun r => [fst (fst r); snd (fst r)]) (fun _ => []) [32; 32] [o1; o2] (c_blind25_key_pair E sk server o1 o2)) /\
  (64 <= length o1 ->
   writes (blind15_sign E sk server m) (fun s => [s]) (fun _ => []) [64] [o1] (c_blind15_sign E sk server m o1) /\
   writes (blind25_sign E sk server m) (fun s => [s]) (fun _ => []) [64] [o1] (c_blind25_sign E sk server m o1)).
Proof.
  intros H. split; [intros h1 h2|intros h1]; split.
  - apply call_writes; [apply kp15_settled| |fits_]. intros a h. destruct (kp15_sizes E H _ _ _ h) as [e1 e2]. cbn [map]. rewrite e1, e2. reflexivity.
  - apply call_writes; [apply kp25_settled| |fits_]. intros a h. destruct (kp25_sizes E H _ _ _ h) as [e1 e2]. cbn [map]. rewrite e1, e2. reflexivity.
  - apply call_writes; [apply sign15_settled| |fits_]. intros a h. cbn [map]. f_equal. exact (sign15_size E H _ _ _ _ h).
  - apply call_writes; [apply sign25_settled| |fits_]. intros a h. cbn [map]. f_equal. exact (sign25_size E H _ _ _ _ h).
Qed.
Print Assumptions C86_blind.
(** session_id_matches_blinded_id never fails on strings of the documented lengths (66, 66 and 64 characters), and reads beyond shorter ones. *)
Theorem C86_matches E sid id server : 66 <= length sid -> 66 <= length id -> 64 <= length server ->
  c_matches E sid id server = Ok match matches_blinded_id E (firstn 66 sid) (firstn 66 id) (firstn 64 server) with Ok x => x | _ => false end.
Proof.
  intros h1 h2 h3. unfold c_matches, view. apply Nat.leb_le in h1, h3. pose proof h2 as h4. apply Nat.leb_le in h2. rewrite h1, h2, h3. cbn [bind].
  pose proof (matches_settled E (firstn 66 sid) (firstn 66 id) (firstn 64 server)) as hs. rewrite firstn_length in hs. specialize (hs ltac:(unfold bytes in *; lia)).
  destruct (matches_blinded_id E _ _ _) as [x| | | |]; try contradiction; reflexivity.
Qed.
Print Assumptions C86_matches.
Theorem C86_matches_short_refuted E sid id server : length id < 66 -> c_matches E sid id server = UB.
Proof. intros h. unfold c_matches, view. apply Nat.leb_gt in h. rewrite h. destruct (Nat.leb 66 (length sid)); reflexivity. Qed.
Print Assumptions C86_matches_short_refuted.
(** ed25519.h and curve25519.h: public keys of 32 bytes, Ed25519 secret keys of 64, X25519 ones of 32, seeds of 32, signatures of 64. *)
Theorem C86_ed E seed sk m o1 o2 : ec_ok E -> length seed = 32 ->
  (32 <= length o1 -> 64 <= length o2 -> writes (ed25519_key_pair E seed) (fun r => [fst r; snd r]) (fun _ => []) [32; 64] [o1; o2] (c_ed_key_pair E seed o1 o2)) /\
  (32 <= length o1 -> writes (seed_for_ed_privkey sk) (fun s => [s]) (fun _ => []) [32] [o1] (c_seed sk o1)) /\
  (64 <= length o1 -> writes (ed25519_sign E sk m) (fun s => [s]) (fun _ => []) [64] [o1] (c_ed_sign E sk m o1)) /\
  (forall sig pk, length sig = 64 -> length pk = 32 -> exists x, c_ed_verify E sig pk m = Ok x).
Proof.
  intros H hseed. split; [intros h1 h2|split; [intros h1|split; [intros h1|]]].
  - apply call_writes; [| |fits_]; unfold ed25519_key_pair; rewrite hseed; [exact I|]. intros a h. assert (e : a = (ed_pub E seed, seed ++ ed_pub E seed)) by (cbn [Nat.eqb] in h; congruence). subst a.
    cbn [map fst snd]. rewrite app_length, (ed_pub_length E H), hseed. reflexivity.
  - apply call_writes; [| |fits_]; unfold seed_for_ed_privkey.
    + destruct (_ || _); exact I.
    + intros a h. destruct (Nat.eqb (length sk) 32 || Nat.eqb (length sk) 64) eqn:e; [|discriminate]. assert (ea : a = firstn 32 sk) by congruence. subst a. cbn [map]. rewrite firstn_length.
      apply Bool.orb_true_iff in e as [e|e]; apply Nat.eqb_eq in e; rewrite e; reflexivity.
  - apply call_writes; [| |fits_]; unfold ed25519_sign.
    + apply settled_bind; [apply full_settled|]. intros; exact I.
    + intros a h. destruct (full_sk E sk) as [k| | | |]; cbn [bind] in h; try discriminate. injection h as <-. cbn [map]. rewrite (ed_sign_length E H). reflexivity.
  - intros sig pk h1 h2. unfold c_ed_verify, ed25519_verify. rewrite h1, h2. eexists. reflexivity.
Qed.
Print Assumptions C86_ed.
Theorem C86_x E sk esk pk m rnd o1 o2 : ec_ok E -> (forall p, length p = 32 -> length (ec_xed E p) = 32) -> length sk = 32 ->
  (32 <= length o1 -> 32 <= length o2 -> c_x_key_pair E sk o1 o2 = Ok (Some ([x_base E sk ++ skipn 32 o1; sk ++ skipn 32 o2], []))) /\
  (32 <= length o1 -> writes (to_curve25519_pubkey E pk) (fun s => [s]) (fun _ => []) [32] [o1] (c_to_x_pk E pk o1)) /\
  (32 <= length o1 -> writes (to_curve25519_seckey E esk) (fun s => [s]) (fun _ => []) [32] [o1] (c_to_x_sk E esk o1)) /\
  (64 <= length o1 -> length (xed_sign E rnd sk m) = 64 /\ c_xed_sign E rnd sk m o1 = Ok (Some ([xed_sign E rnd sk m ++ skipn 64 o1], []))) /\
  (32 <= length o1 -> length pk = 32 -> c_xed_pubkey E pk o1 = Ok (Some ([ec_xed E pk ++ skipn 32 o1], []))).
Proof.
  intros H hx hsk. split; [intros h1 h2|split; [intros h1|split; [intros h1|split; [intros h1|intros h1 hpk]]]].
  - unfold c_x_key_pair. erewrite call_ok; [|reflexivity|]; cbn [fst snd].
    + unfold each_into. cbn [combine map fst snd]. rewrite (x_base_length E H), hsk. reflexivity.
    + constructor; [rewrite (x_base_length E H); exact h1|]. constructor; [rewrite hsk; exact h2|constructor].
  - apply call_writes; [| |fits_]; unfold to_curve25519_pubkey; destruct (Nat.eqb _ 32); [apply settled_opt|exact I| |discriminate].
    intros a h. destruct (pk_to_x E pk) as [x|] eqn:e; [|discriminate]. injection h as <-. cbn [map]. f_equal. exact (pk_to_x_length E H _ _ e).
  - apply call_writes; [| |fits_]; unfold to_curve25519_seckey; destruct (Nat.eqb _ 64); [exact I|exact I| |discriminate].
    intros a h. assert (ea : a = ed_scalar E esk) by congruence. subst a. cbn [map]. rewrite (ed_scalar_length E). reflexivity.
  - assert (hs : length (xed_sign E rnd sk m) = 64) by (unfold xed_sign; cbv zeta; apply (schnorr_length E H)). split; [exact hs|]. unfold c_xed_sign. erewrite call_ok; [|reflexivity|]; cbv beta.
    + unfold each_into. cbn [combine map fst snd]. rewrite hs. reflexivity.
    + constructor; [rewrite hs; exact h1|constructor].
  - unfold c_xed_pubkey. erewrite call_ok; [|reflexivity|]; cbv beta.
    + unfold each_into. cbn [combine map fst snd]. rewrite (hx _ hpk). reflexivity.
    + constructor; [rewrite (hx _ hpk); exact h1|constructor].
Qed.
Print Assumptions C86_x.
(** hash.h: as many bytes as asked for; sizes below 16 and above 64 are refused.  A key of length zero is the same as none. *)
Theorem C86_hash E size m key out : ec_ok E -> size <= length out ->
  c_hash E size m key out = if Nat.leb 16 size && Nat.leb size 64 && Nat.leb (length key) 64 then Ok (Some ([ec_blake E size key [] m ++ skipn size out], [])) else Ok None.
Proof.
  intros H hb. unfold c_hash, hash.
  assert (he : length (ec_blake E size key [] m) = size) by apply (eo_blake E H).
  replace (Nat.ltb size 16 || Nat.ltb 64 size) with (negb (Nat.leb 16 size && Nat.leb size 64)) by
    (destruct (Nat.ltb_spec size 16), (Nat.ltb_spec 64 size), (Nat.leb_spec 16 size), (Nat.leb_spec size 64); cbn [andb orb negb]; try reflexivity; lia).
  destruct (Nat.leb 16 size && Nat.leb size 64); cbn [negb andb]; [|reflexivity].
  assert (hgo : c_call (Ok (ec_blake E size key [] m)) (fun s : bytes => [firstn size s]) (fun _ => []) [out] = Ok (Some ([ec_blake E size key [] m ++ skipn size out], []))).
  { erewrite call_ok; [|reflexivity|]; cbv beta; rewrite firstn_all2 by (rewrite he; apply le_n).
    - unfold each_into. cbn [combine map fst snd]. rewrite he. reflexivity.
    - constructor; [rewrite he; exact hb|constructor]. }
  destruct key as [|k0 key]; cbn [is_nil].
  - exact hgo.
  - destruct (Nat.leb_spec (length (k0 :: key)) 64) as [hl|hl].
    + replace (Nat.ltb 64 (length (k0 :: key))) with false by (symmetry; apply Nat.ltb_ge; exact hl). exact hgo.
    + replace (Nat.ltb 64 (length (k0 :: key))) with true by (symmetry; apply Nat.ltb_lt; exact hl). reflexivity.
Qed.
Print Assumptions C86_hash.
(** groups/keys.h: the session id of the sender of a group message; *)
Theorem C86_keys_decrypt G c o sid : lib_ok G -> 67 <= length sid -> writes (decrypt_message G c o) (fun r => [fst r ++ [NUL]]) snd [67] [sid] (c_keys_decrypt G c o sid).
Proof. intros [_ hZ] hb. apply call_writes; [apply keys_decrypt_settled| |fits_]. intros a h. cbn [map]. f_equal. exact (keys_decrypt_sid G _ _ _ hZ h). Qed.
Print Assumptions C86_keys_decrypt.
Theorem C86_keys_encrypt G nonce m o : writes (encrypt_message G nonce m true 256 o) (fun _ => []) (fun r => r) [] [] (c_keys_encrypt G nonce m o).
Proof. apply call_writes; [apply keys_encrypt_settled|reflexivity|constructor]. Qed.
Print Assumptions C86_keys_encrypt.
(** subaccounts: 100 bytes for the member, a 36-byte token, *)
Theorem C86_subaccount C sid write del o o1 : lib_ok (s_g C) -> sub_ok C -> (forall k p r, s_mul C k p = Some r -> length r = 32) ->
  (100 <= length o1 -> writes (make_subaccount C sid write del o) (fun s => [s]) (fun _ => []) [100] [o1] (c_make_subaccount C sid write del o o1)) /\
  (36 <= length o1 -> writes (subaccount_token C sid write del o) (fun s => [s]) (fun _ => []) [36] [o1] (c_subaccount_token C sid write del o o1)).
Proof.
  intros [_ hZ] hC hm. split; intros hb.
  - apply call_writes; [apply make_sub_settled| |fits_]. intros a h. cbn [map]. f_equal. exact (make_sub_size C _ _ _ _ _ hZ hC h).
  - unfold c_subaccount_token. pose proof (token_settled C sid write del o) as hs. pose proof (token_size C sid write del o) as hz. destruct (subaccount_token C sid write del o) as [t| | | |]; try contradiction; try reflexivity.
    specialize (hz t hm eq_refl). cbn [writes]. split; [cbn [map]; rewrite hz; reflexivity|]. erewrite call_ok; [|reflexivity|]; cbv beta; rewrite firstn_all2 by (rewrite hz; apply le_n); [reflexivity|].
    constructor; [rewrite hz; exact hb|constructor].
Qed.
Print Assumptions C86_subaccount.
(** and to sign a request, in base64 (48, 88 and 88 characters and terminators) or in binary (36, 64 and 64 bytes). *)
Theorem C86_subaccount_sign E user_sk m v o1 o2 o3 : ec_ok E ->
  (49 <= length o1 -> 89 <= length o2 -> 89 <= length o3 ->
   writes (subaccount_sign E user_sk m v) (fun r => [to_base64 (fst (fst r)) ++ [NUL]; to_base64 (snd (fst r)) ++ [NUL]; to_base64 (snd r) ++ [NUL]]) (fun _ => []) [49; 89; 89] [o1; o2; o3]
     (c_subaccount_sign E user_sk m v o1 o2 o3)) /\
  (36 <= length o1 -> 64 <= length o2 -> 64 <= length o3 ->
   writes (subaccount_sign E user_sk m v) (fun r => [fst (fst r); snd (fst r); snd r]) (fun _ => []) [36; 64; 64] [o1; o2; o3] (c_subaccount_sign_binary E user_sk m v o1 o2 o3)).
Proof.
  intros H. pose proof (sub_sign_settled E user_sk m v) as hs. pose proof (sub_sign_sizes E H user_sk m v) as hz. unfold c_subaccount_sign, c_subaccount_sign_binary.
  destruct (subaccount_sign E user_sk m v) as [[[x y] z]| | | |]; try contradiction; try (split; intros; reflexivity). destruct (hz x y z eq_refl) as (e1 & e2 & e3).
  split; intros h1 h2 h3; cbn [writes fst snd].
  - fold (cz (to_base64 x)) (cz (to_base64 y)) (cz (to_base64 z)). pose proof (b64_cz x 36 e1) as f1. pose proof (b64_cz y 64 e2) as f2. pose proof (b64_cz z 64 e3) as f3.
    change (4 * ((36 + 2) / 3) + 1) with 49 in f1. change (4 * ((64 + 2) / 3) + 1) with 89 in f2, f3.
    split; [cbn [map]; rewrite f1, f2, f3; reflexivity|]. erewrite call_ok; [|reflexivity|]; cbv beta iota; [reflexivity|].
    constructor; [rewrite f1; exact h1|]. constructor; [rewrite f2; exact h2|]. constructor; [rewrite f3; exact h3|constructor].
  - split; [cbn [map]; rewrite e1, e2, e3; reflexivity|]. erewrite call_ok; [|reflexivity|]; cbv beta iota; rewrite !firstn_all2 by (rewrite ?e1, ?e2, ?e3; apply le_n); [reflexivity|].
    constructor; [rewrite e1; exact h1|]. constructor; [rewrite e2; exact h2|]. constructor; [rewrite e3; exact h3|constructor].
Qed.
Print Assumptions C86_subaccount_sign.
(** base64 loses nothing. *)
Theorem C86_base64 x y : to_base64 x = to_base64 y -> length x = length y -> x = y.
Proof.
  intros h hl. unfold to_base64 in h. cbv zeta in h. destruct (encode_back b64_alphabet 6 x b64_ok ltac:(lia) ltac:(lia)) as (dx & p & hp & ex).
  destruct (encode_back b64_alphabet 6 y b64_ok ltac:(lia) ltac:(lia)) as (dy & q & hq & ey). rewrite hl in ex.
  assert (e : length (encode_with b64_alphabet 6 x) = length (encode_with b64_alphabet 6 y)) by lia. 
  apply (f_equal (firstn (length (encode_with b64_alphabet 6 x)))) in h. rewrite firstn_exact in h by reflexivity. rewrite e, firstn_exact in h by reflexivity. rewrite h, dy in dx. congruence.
Qed.
Print Assumptions C86_base64.
(** onion_request_builder.h: with the request the caller gets the X25519 key pair of its innermost layer, 32 bytes each. *)
Theorem C86_onion_build (O : Onion.ocrypt) (r : Onion.layer_rnd) rs x payload o1 o2 : ec_ok (Onion.o_e O) -> length (fst r) = 32 -> length (Onion.bd_hops x) <= length rs -> 32 <= length o1 -> 32 <= length o2 ->
  writes (Onion.build O r rs x payload) (fun _ => [x_base (Onion.o_e O) (fst r); fst r]) fst [32; 32] [o1; o2] (c_onion_build O r rs x payload o1 o2).
Proof.
  intros H hr hl h1 h2. unfold c_onion_build. pose proof (build_settled O r rs x payload hl) as hs. pose proof (build_final O r rs x payload) as hf.
  destruct (Onion.build O r rs x payload) as [[req y]| | | |]; cbn [bind] in *; try contradiction; try reflexivity. destruct (hf req y eq_refl) as [e _]. cbn [snd fst]. rewrite e. cbn [of_opt bind writes].
  split; [cbn [map]; rewrite (x_base_length (Onion.o_e O) H), hr; reflexivity|]. erewrite call_ok; [|reflexivity|]; cbn [fst snd]; [reflexivity|].
  constructor; [rewrite (x_base_length (Onion.o_e O) H); exact h1|]. constructor; [rewrite hr; exact h2|constructor].
Qed.
Print Assumptions C86_onion_build.
(** Given this pair and the destination's key, decrypting a reply in C is the same as with the builder in C++ (C78). *)
Theorem C86_onion_decrypt (O : Onion.ocrypt) (r : Onion.layer_rnd) rs x payload req y dest c : Onion.build O r rs x payload = Ok (req, y) -> Onion.bd_dest x = Some dest ->
  c_onion_decrypt O (Onion.bd_enc x) dest (x_base (Onion.o_e O) (fst r)) (fst r) c = match Onion.decrypt_response O y c with Ok m => Ok (Some ([], m)) | _ => Ok None end.
Proof.
  intros hb hd. destruct (build_final O r rs x payload req y hb) as (e1 & e2 & e3). unfold c_onion_decrypt, Onion.decrypt_response. cbv zeta. rewrite e1, e2, e3, hd. cbn [fst snd].
  pose proof (hop_dec_settled O (Onion.mkHop (fst r) (x_base (Onion.o_e O) (fst r)) false) (Onion.bd_enc x) c dest) as h1.
  pose proof (hop_dec_settled O (Onion.mkHop (fst r) (x_base (Onion.o_e O) (fst r)) false) Onion.AesGcm c dest) as h2.
  destruct (Onion.hop_decrypt O _ (Onion.bd_enc x) c dest) as [m1| | | |]; try contradiction; try reflexivity;
    (destruct (Onion.bd_enc x); [reflexivity|]; destruct (Onion.hop_decrypt O _ Onion.AesGcm c dest) as [m2| | | |]; try contradiction; reflexivity).
Qed.
Print Assumptions C86_onion_decrypt.

(** *** non-vacuity: a message that decrypts, a subaccount, and the laws of the toy library *)
Example ex_C86 : ec_ok toy_e /\ (forall p, length p = 32 -> length (ec_xed toy_e p) = 32) /\ lib_ok toy_g /\
  (exists sk, length sk = 64 /\ exists s, ed25519_sign toy_e sk (b "hello") = Ok s) /\
  (exists s, c_hash toy_e 32 (b "hello") (b "key") (repeat "z"%char 40) = Ok (Some ([s], [])) /\ skipn 32 s = repeat "z"%char 8) /\
  to_base64 (b "hello") = b "aGVsbG8=".
Proof.
  split; [exact toy_e_ok|]. split; [intros p h; exact h|]. split; [exact toy_g_ok|]. split; [exists (repeat "s"%char 64); split; [reflexivity|]; eexists; unfold ed25519_sign; reflexivity|].
  split; [|vm_compute; reflexivity]. eexists. split; [rewrite (C86_hash toy_e _ _ _ _ toy_e_ok) by (apply Nat.leb_le; reflexivity); reflexivity|]. rewrite skipn_exact; [reflexivity|apply (eo_blake toy_e toy_e_ok)].
Qed.
From Verif Require Import Properties_keys.
(** and the hypotheses of [C86_subaccount] on the library and on the keys *)
Example ex_C86_subaccount : lib_ok (s_g toy_c) /\ sub_ok toy_c /\ (forall k p r, s_mul toy_c k p = Some r -> length r = 32).
Proof.
  split; [exact toy_g_ok|]. split; [exact toy_c_ok|]. cbn [s_mul toy_c]. intros k p r h. assert (e : r = fill 32 (k ++ p)) by congruence. rewrite e. apply fill_length.
Qed.
