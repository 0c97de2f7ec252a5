(** Proofs about the C functions that write into buffers of the caller *)
From Coq Require Import Lia.
From Verif Require Import Bytes Message Hex_facts Community Community_facts Pubkey Pubkey_facts GroupKeys Sub KeysSpec Keys_facts Keys6_facts SessEnc EdSpec Ed_facts Blind Blind_facts COut.
From Verif Require Onion OnionSpec.

Definition settled {A} (r : outcome A) : Prop := match r with UB | Hang => False | _ => True end.
Lemma settled_bind {A B} (x : outcome A) (f : A -> outcome B) : settled x -> (forall a, x = Ok a -> settled (f a)) -> settled (bind x f).
Proof. destruct x as [a| | | |]; intros h1 h2; cbn [bind settled] in *; try exact I; try exact h1. exact (h2 a eq_refl). Qed.
Lemma settled_opt {A} (x : option A) : settled (of_opt x Throw).
Proof. destruct x; exact I. Qed.

(** what a C function is expected to do: [vals] go to the front of the buffers, the rest of them stays *)
Definition each_into (vals bufs : list bytes) : list bytes := map (fun p => fst p ++ skipn (length (fst p)) (snd p)) (combine vals bufs).
Lemma put_all_ok : forall vals bufs, Forall2 (fun v m => length v <= length m) vals bufs -> put_all vals bufs = Ok (each_into vals bufs).
Proof.
  intros vals bufs h. induction h as [|v m vals bufs h1 h2 IH]; [reflexivity|]. cbn [put_all]. unfold put. apply Nat.leb_le in h1. rewrite h1. cbn [bind]. rewrite IH. reflexivity.
Qed.
Lemma call_ok {A} (r : outcome A) fixed blk bufs a : r = Ok a -> Forall2 (fun v m => length v <= length m) (fixed a) bufs -> c_call r fixed blk bufs = Ok (Some (each_into (fixed a) bufs, blk a)).
Proof. intros -> h. cbn [c_call]. rewrite (put_all_ok _ _ h). reflexivity. Qed.
Lemma sizes_fit : forall (vals bufs : list bytes) sizes, map (@length ascii) vals = sizes -> Forall2 (fun n m => n <= length m) sizes bufs -> Forall2 (fun v m => length v <= length m) vals bufs.
Proof.
  induction vals as [|v vals IH]; intros bufs sizes e h; cbn [map] in e; subst sizes; inversion h; subst; constructor; [assumption|]. eapply IH; [reflexivity|assumption].
Qed.

Section E.
  Context (E : ecrypt) (H : ec_ok E).
  Lemma pk_to_x_length pk x : pk_to_x E pk = Some x -> length x = 32.
  Proof. unfold pk_to_x. destruct (ec_log E pk) as [a|]; [|discriminate]. destruct (_ =? _)%Z; [discriminate|]. intros h. injection h as <-. apply (eo_x_len E H). Qed.
  Lemma mul_length s p x : mul_noclamp E s p = Some x -> length x = 32.
  Proof. unfold mul_noclamp. destruct (ec_log E p) as [a|]; [|discriminate]. cbv zeta. destruct (_ || _); [discriminate|]. intros h. injection h as <-. apply (eo_pt_len E H). Qed.
  Lemma sid_cz x : length x = 32 -> length (cz (b "05" ++ to_hex x)) = 67.
  Proof. intros h. unfold cz. rewrite !app_length, to_hex_length, h. reflexivity. Qed.
  Lemma full_settled sk : settled (full_sk E sk).
  Proof. unfold full_sk. destruct (Nat.eqb _ 32); [exact I|]. destruct (Nat.eqb _ 64); exact I. Qed.
  Lemma full_64 sk : length sk = 64 -> full_sk E sk = Ok sk.
  Proof. intros h. unfold full_sk. rewrite h. reflexivity. Qed.
  Lemma incoming_x_settled xpk xsk c : settled (decrypt_incoming_x E xpk xsk c).
  Proof. unfold decrypt_incoming_x. destruct (Nat.ltb _ _); [exact I|]. apply settled_bind; [apply settled_opt|]. intros o _. cbv zeta. destruct (ed_verify _ _ _ _); exact I. Qed.
  Lemma incoming_settled sk c : settled (decrypt_incoming E sk c).
  Proof. unfold decrypt_incoming. apply settled_bind; [apply full_settled|]. intros s _. apply incoming_x_settled. Qed.
  Lemma with_sid_settled r : settled r -> settled (with_session_id E r).
  Proof. intros h. unfold with_session_id. apply settled_bind; [exact h|]. intros x _. apply settled_bind; [apply settled_opt|]. intros y _. exact I. Qed.
  Lemma with_sid_length r p : with_session_id E r = Ok p -> length (cz (snd p)) = 67.
  Proof.
    unfold with_session_id. intros h. destruct r as [x| | | |]; cbn [bind] in h; try discriminate. destruct (pk_to_x E (snd x)) as [y|] eqn:ey; cbn [of_opt bind] in h; [|discriminate].
    injection h as <-. cbn [snd]. apply sid_cz. exact (pk_to_x_length _ _ ey).
  Qed.
  Ltac settle :=
    repeat (cbv zeta; match goal with
    | |- settled (Ok _) => exact I
    | |- settled Throw => exact I
    | |- settled (of_opt _ Throw) => apply settled_opt
    | |- settled (full_sk _ _) => apply full_settled
    | |- settled (if ?q then _ else _) => destruct q
    | |- settled (bind _ _) => apply settled_bind; [|intros ? _]
    | |- settled (let '(_, _) := ?q in _) => destruct q
    | |- settled (match ?q with _ => _ end) => destruct q
    end).
  Lemma id_settled v25 pk server want : settled (id_from_ed E v25 pk server want).
  Proof. unfold id_from_ed, blinded25_from_ed, blinded15_from_ed. settle. Qed.
  Lemma kp15_settled sk server : settled (blind15_key_pair E sk server).
  Proof. unfold blind15_key_pair. settle. Qed.
  Lemma kp25_settled sk server : settled (blind25_key_pair E sk server).
  Proof. unfold blind25_key_pair. settle. Qed.
  Lemma shared_settled sk x y server s : settled (blinded_shared_secret E sk x y server s).
  Proof. unfold blinded_shared_secret. settle; first [apply kp15_settled | apply kp25_settled]. Qed.
  Lemma dec_blinded_settled sk server sender recipient c : recipient <> [] -> settled (decrypt_blinded E sk server sender recipient c).
  Proof.
    intros hr. unfold decrypt_blinded. apply settled_bind; [apply full_settled|]. intros k _. destruct (Nat.ltb _ _); [exact I|].
    destruct recipient as [|c0 recipient]; [congruence|]. cbn [length Nat.eqb]. settle; first [apply id_settled | apply shared_settled].
  Qed.
  Lemma dec_blinded_length sk server sender recipient c p : decrypt_blinded E sk server sender recipient c = Ok p -> length (cz (snd p)) = 67.
  Proof.
    unfold decrypt_blinded. destruct (full_sk E sk) as [k| | | |]; cbn [bind]; try discriminate. destruct (Nat.ltb _ _); [discriminate|]. destruct (Nat.eqb _ 0); [discriminate|].
    cbv zeta. destruct (id_from_ed E _ _ _ false) as [own| | | |]; cbn [bind]; try discriminate.
    destruct (if eqb sender (fst own) then _ else _) as [key| | | |]; cbn [bind]; try discriminate. destruct (negb _); [discriminate|]. destruct (Nat.ltb _ 32); [discriminate|].
    destruct (ec_open _ _ _ _) as [buf|]; cbn [of_opt bind]; [|discriminate]. destruct (pk_to_x E _) as [x|] eqn:ex; cbn [of_opt bind]; [|discriminate].
    destruct (id_from_ed E _ _ _ true) as [ext| | | |]; cbn [bind]; try discriminate. destruct (_ || _); [|discriminate]. intros h. injection h as <-. cbn [snd].
    apply sid_cz. exact (pk_to_x_length _ _ ex).
  Qed.
  Lemma enc_blinded_settled nonce sk server recipient m : settled (encrypt_blinded E nonce sk server recipient m).
  Proof. unfold encrypt_blinded. settle; first [apply kp15_settled | apply kp25_settled | apply shared_settled]. Qed.
  Lemma enc_det_settled sk pk m : settled (encrypt_deterministic E sk pk m).
  Proof. unfold encrypt_deterministic, sign_for_recipient, strip05. settle. Qed.
  Lemma ons_settled name c nonce : settled (decrypt_ons_response E name c nonce).
  Proof. unfold decrypt_ons_response. settle. Qed.
  Lemma ons_length name c nonce s : decrypt_ons_response E name c nonce = Ok s -> length (cz s) = 67.
  Proof.
    unfold decrypt_ons_response. destruct (Nat.ltb _ _); [discriminate|]. destruct (negb _); [discriminate|]. destruct (ec_open _ _ _ _) as [m|]; cbn [of_opt bind]; [|discriminate].
    destruct (Nat.eqb (length m) 33) eqn:e; cbn [negb]; [|discriminate]. apply Nat.eqb_eq in e. intros h. injection h as <-. unfold cz. rewrite app_length, to_hex_length, e. reflexivity.
  Qed.
  Lemma push_settled payload key : settled (decrypt_push_notification E payload key).
  Proof. unfold decrypt_push_notification. settle. Qed.
  Lemma kp15_sizes sk server r : blind15_key_pair E sk server = Ok r -> length (fst (fst r)) = 32 /\ length (snd (fst r)) = 32.
  Proof.
    unfold blind15_key_pair. destruct (full_sk E sk) as [k| | | |]; cbn [bind]; try discriminate. destruct (negb _); [discriminate|]. cbv zeta. intros h. injection h as <-. cbn [fst snd].
    split; [apply (eo_pt_len E H)|apply to_le_length].
  Qed.
  Lemma kp25_sizes sk server r : blind25_key_pair E sk server = Ok r -> length (fst (fst r)) = 32 /\ length (snd (fst r)) = 32.
  Proof.
    unfold blind25_key_pair. destruct (full_sk E sk) as [k| | | |]; cbn [bind]; try discriminate. destruct (negb _); [discriminate|]. destruct (pk_to_x E _) as [x|]; cbn [of_opt bind]; [|discriminate].
    cbv zeta. intros h. injection h as <-. cbn [fst snd]. split; [apply (eo_pt_len E H)|apply to_le_length].
  Qed.
  Lemma server_settled s : settled (server_key s).
  Proof. unfold server_key. settle. Qed.
  Lemma sign15_settled sk server m : settled (blind15_sign E sk server m).
  Proof. unfold blind15_sign. settle; first [apply server_settled | apply kp15_settled]. Qed.
  Lemma sign25_settled sk server m : settled (blind25_sign E sk server m).
  Proof. unfold blind25_sign. settle; first [apply server_settled | apply kp25_settled]. Qed.
  Lemma sign15_size sk server m s : blind15_sign E sk server m = Ok s -> length s = 64.
  Proof.
    unfold blind15_sign. destruct (full_sk E sk) as [k| | | |]; cbn [bind]; try discriminate. destruct (server_key server) as [x| | | |]; cbn [bind]; try discriminate.
    destruct (blind15_key_pair E k x) as [kp| | | |]; cbn [bind]; try discriminate. cbv zeta. intros h. injection h as <-. apply (schnorr_length E H).
  Qed.
  Lemma sign25_size sk server m s : blind25_sign E sk server m = Ok s -> length s = 64.
  Proof.
    unfold blind25_sign. destruct (full_sk E sk) as [k| | | |]; cbn [bind]; try discriminate. destruct (server_key server) as [x| | | |]; cbn [bind]; try discriminate.
    destruct (blind25_key_pair E k x) as [kp| | | |]; cbn [bind]; try discriminate. cbv zeta. intros h. injection h as <-. apply (schnorr_length E H).
  Qed.
  Lemma matches_settled sid id server : 2 <= length id -> settled (matches_blinded_id E sid id server).
  Proof.
    intros hl. unfold matches_blinded_id. destruct (negb _); [exact I|]. destruct id as [|c0 [|c1 id]]; cbn [length] in hl; [lia|lia|].
    unfold blind15_id_hex, blind25_id_hex, blind15_impl, blind25_impl. settle.
  Qed.
  Lemma sub_sign_settled sk m v : settled (subaccount_sign E sk m v).
  Proof. unfold subaccount_sign. settle. Qed.
  Lemma sub_sign_sizes sk m v x y z : subaccount_sign E sk m v = Ok (x, y, z) -> length x = 36 /\ length y = 64 /\ length z = 64.
  Proof.
    unfold subaccount_sign. destruct (Nat.eqb (length v) 100) eqn:e; cbn [negb]; [|discriminate]. apply Nat.eqb_eq in e. cbv zeta.
    destruct (mul_noclamp E _ _) as [kT|] eqn:ek; cbn [of_opt bind]; [|discriminate]. intros h.
    match type of h with Ok (?a1, ?a2, ?a3) = _ => assert (e1 : x = a1) by congruence; assert (e2 : y = a2) by congruence; assert (e3 : z = a3) by congruence end. clear h. subst x y z. pose proof (mul_length _ _ _ ek) as hk.
    split; [rewrite app_length, firstn_length, hk, e; reflexivity|]. split; [rewrite skipn_length, e; reflexivity|apply (schnorr_length E H)].
  Qed.
End E.

(** base64 *)
Lemma b64_length s : length (to_base64 s) = 4 * ((length s + 2) / 3).
Proof.
  unfold to_base64. cbv zeta. destruct (encode_back b64_alphabet 6 s) as (_ & p & hp & he); [exact b64_ok|lia|lia|]. set (n := length (encode_with b64_alphabet 6 s)) in *.
  rewrite app_length, repeat_length. fold n. pose proof (Nat.div_mod n 4 ltac:(lia)) as h1. pose proof (Nat.mod_upper_bound n 4 ltac:(lia)) as h2.
  pose proof (Nat.div_mod (length s + 2) 3 ltac:(lia)) as h3. pose proof (Nat.mod_upper_bound (length s + 2) 3 ltac:(lia)) as h4.
  destruct (n mod 4) as [|[|[|[|k]]]]; [| | | |lia]; cbn [Nat.sub]; unfold Nat.modulo; cbn [Nat.divmod snd Nat.sub]; lia.
Qed.
Lemma b64_cz s n : length s = n -> length (cz (to_base64 s)) = 4 * ((n + 2) / 3) + 1.
Proof. intros <-. unfold cz. rewrite app_length, b64_length. reflexivity. Qed.

(** ** URLs *)
Lemma canonical_max u v : canonical_url u = Ok v -> length v <= BASE_URL_MAX_LENGTH.
Proof.
  unfold canonical_url. destruct (parse_url u) as [[[p h] n]| | | |]; cbn [bind]; try discriminate. cbv zeta. destruct (Nat.ltb BASE_URL_MAX_LENGTH _) eqn:e; [discriminate|]. apply Nat.ltb_ge in e.
  intros h'. injection h' as <-. exact e.
Qed.
Lemma parse_url_settled u : settled (parse_url u).
Proof.
  unfold parse_url, parse_proto. apply settled_bind. { destruct (split_first _ u) as [[p r]|]; [|exact I]. destruct (string_iequal _ _); [exact I|]. destruct (string_iequal _ _); exact I. }
  intros [p r] _. destruct (scan_host false false r) as [[h d] t]. destruct (_ || _); [exact I|]. apply settled_bind.
  { unfold parse_port, from_chars_u16. destruct t as [|c t]; [exact I|]. destruct (Ascii.eqb c ":"); [|exact I]. destruct (take_digits t) as [x t']. destruct x; cbn [bind settled]; try exact I; destruct (_ <? _)%N; exact I. }
  intros [n t'] _. destruct (ended t'); exact I.
Qed.
Lemma canonical_settled u : settled (canonical_url u).
Proof. unfold canonical_url. apply settled_bind; [apply parse_url_settled|]. intros [[p h] n] _. cbv zeta. destruct (Nat.ltb _ _); exact I. Qed.
Lemma pubkey_settled s : settled (decode_pubkey s).
Proof. destruct (decode_pubkey s) as [x| | | |] eqn:e; try exact I; exfalso; unfold decode_pubkey in e; repeat match type of e with context [if ?q then _ else _] => destruct q end; try discriminate;
  match type of e with of_opt ?x _ = _ => destruct x; discriminate end. Qed.
Lemma partial_settled u : settled (parse_partial_url u).
Proof.
  unfold parse_partial_url. apply settled_bind.
  { destruct (split_last qs_pubkey u) as [[x y]|]; [|exact I]. apply settled_bind; [apply pubkey_settled|]. intros; exact I. }
  intros [pk t] _. destruct (match split_last (b "/r/") t with Some _ => _ | None => _ end) as [room t']. apply settled_bind; [apply canonical_settled|]. intros; exact I.
Qed.
Lemma full_settled_url u : settled (parse_full_url u).
Proof. unfold parse_full_url. apply settled_bind; [apply partial_settled|]. intros [[x y] [z|]] _; exact I. Qed.
Lemma partial_inv u x y z : parse_partial_url u = Ok (x, y, z) -> length x <= 267 /\ (forall pk, z = Some pk -> exists s, decode_pubkey s = Ok pk).
Proof.
  unfold parse_partial_url. destruct (split_last qs_pubkey u) as [[p q]|].
  - destruct (decode_pubkey q) as [k| | | |] eqn:ek; cbn [bind]; try discriminate. destruct (match split_last (b "/r/") p with Some _ => _ | None => _ end) as [room t].
    destruct (canonical_url t) as [v| | | |] eqn:ev; cbn [bind]; try discriminate. intros h. injection h as <- <- <-. split; [exact (canonical_max _ _ ev)|]. intros pk h. injection h as <-. exists q. exact ek.
  - cbn [bind]. destruct (match split_last (b "/r/") u with Some _ => _ | None => _ end) as [room t].
    destruct (canonical_url t) as [v| | | |] eqn:ev; cbn [bind]; try discriminate. intros h. injection h as <- <- <-. split; [exact (canonical_max _ _ ev)|]. discriminate.
Qed.
Lemma pubkey_short s k : decode_pubkey s = Ok k -> length k = 31 \/ length k = 32.
Proof. intros h. apply decode_iff in h. destruct (encoded_length s k h) as [h1|[_ h1]]; [right|left]; exact h1. Qed.

(** ** group keys, several recipients *)
Ltac settle2 :=
  repeat (cbv zeta; match goal with
  | |- settled (Ok _) => exact I
  | |- settled Throw => exact I
  | |- settled (of_opt _ Throw) => apply settled_opt
  | |- settled (if ?q then _ else _) => destruct q
  | |- settled (bind _ _) => apply settled_bind; [|intros ? _]
  | |- settled (let '(_, _) := ?q in _) => destruct q
  | |- settled (match ?q with _ => _ end) => destruct q
  end).
Lemma find_settled k s : settled (find_key k s).
Proof. unfold find_key. apply settled_opt. Qed.
Lemma take_str_settled s : settled (take_str s).
Proof. unfold take_str. settle2. Qed.
Lemma take_int_settled s : settled (take_int s).
Proof. unfold take_int. settle2. Qed.
Lemma require_settled {A} k s (take : bytes -> outcome (A * bytes)) : (forall t, settled (take t)) -> settled (require k s take).
Proof. intros h. unfold require. apply settled_bind; [apply find_settled|]. intros f _. destruct (fst f); [apply h|exact I]. Qed.
Lemma keys_decrypt_settled G c o : settled (decrypt_message G c o).
Proof.
  unfold decrypt_message. settle2; first [apply require_settled; first [exact take_str_settled | exact take_int_settled] | apply find_settled | apply take_str_settled].
Qed.
Lemma keys_decrypt_sid G c o p : sizes_ok G -> decrypt_message G c o = Ok p -> length (cz (fst p)) = 67.
Proof.
  intros hZ h. unfold decrypt_message in h. destruct (Nat.ltb _ _); [discriminate|]. cbv zeta in h. destruct (open_any _ _ _ _) as [plain|]; cbn [of_opt bind] in h; [|discriminate].
  destruct (strip_end plain) as [|c0 s0]; [discriminate|]. destruct (Ascii.eqb c0 "d") eqn:e0; [apply Ascii.eqb_eq in e0; subst c0|destruct c0 as [[] [] [] [] [] [] [] []]; discriminate].
  destruct (negb _); [discriminate|].
  repeat match type of h with
  | bind ?x _ = Ok _ => match x with
      | of_opt (g_xpk G ?pk) _ => let e := fresh "ex" in destruct (g_xpk G pk) as [xpk|] eqn:e; cbn [of_opt bind] in h; [apply (z_xpk _ hZ) in e|discriminate]
      | _ => destruct x as [?a| | | |]; cbn [bind] in h; try discriminate
      end
  | (let '(_, _) := ?q in _) = _ => destruct q
  | (if ?q then _ else _) = _ => destruct q; try discriminate
  end.
  match type of h with Ok (?t, _) = _ => assert (e : fst p = t) by (assert (h' := f_equal (fun o => match o with Ok q => fst q | _ => [] end) h); symmetry; exact h') end.
  rewrite e. unfold cz. rewrite !app_length, to_hex_length, ex. reflexivity.
Qed.
Lemma keys_encrypt_settled G nonce m z n o : settled (encrypt_message G nonce m z n o).
Proof. unfold encrypt_message, group_enc_key. settle2. Qed.
Lemma sid_pk_settled s p : settled (session_id_pk s p).
Proof. unfold session_id_pk. settle2. Qed.
Lemma make_sub_settled C sid w d o : settled (make_subaccount C sid w d o).
Proof. unfold make_subaccount. settle2. apply sid_pk_settled. Qed.
Lemma token_settled C sid w d o : settled (subaccount_token C sid w d o).
Proof. unfold subaccount_token. settle2. apply sid_pk_settled. Qed.
Lemma verify_sub_settled C g u v w d : settled (verify_subaccount C g u v w d).
Proof. unfold verify_subaccount. settle2. apply sid_pk_settled. Qed.
Lemma make_sub_size C sid w d o v : sizes_ok (s_g C) -> sub_ok C -> make_subaccount C sid w d o = Ok v -> length v = 100.
Proof.
  intros hZ hC. unfold make_subaccount. destruct (ko_sk o) as [sk|]; [|discriminate]. destruct (session_id_pk _ _) as [x| | | |]; cbn [bind]; try discriminate. cbv zeta.
  destruct (s_mul _ _ _) as [kT|]; cbn [of_opt bind]; [|discriminate]. intros h. match type of h with Ok ?t = _ => assert (e : v = t) by congruence end. clear h. subst v.
  rewrite !app_length, (z_sign _ hZ). unfold blind_factor. rewrite (su_reduce C hC). reflexivity.
Qed.
Lemma token_size C sid w d o v : (forall k p r, s_mul C k p = Some r -> length r = 32) -> subaccount_token C sid w d o = Ok v -> length v = 36.
Proof.
  intros hm. unfold subaccount_token. destruct (ko_sk o) as [sk|]; [|discriminate]. destruct (session_id_pk _ _) as [x| | | |]; cbn [bind]; try discriminate.
  destruct (s_mul _ _ _) as [kT|] eqn:e; cbn [of_opt bind]; [|discriminate]. intros h. match type of h with Ok ?t = _ => assert (e' : v = t) by congruence end. clear h. subst v.
  rewrite app_length, (hm _ _ _ e). reflexivity.
Qed.
Lemma each_settled X nonce priv pub domain ignore single : forall recipients messages, (single = true /\ length messages = 1 \/ length recipients <= length messages) ->
  settled (encrypt_each X single messages recipients nonce priv pub domain ignore).
Proof.
  induction recipients as [|r rs IH]; intros messages h; cbn [encrypt_each]; [exact I|]. destruct messages as [|m ms].
  - exfalso. destruct h as [[_ h]|h]; cbn [length] in h; lia.
  - assert (hr : settled (encrypt_each X single (if single then m :: ms else ms) rs nonce priv pub domain ignore)).
    { apply IH. destruct h as [[-> h]|h]; [left; split; [reflexivity|exact h]|]. right. cbn [length] in h. destruct single; cbn [length]; lia. }
    cbv zeta. unfold multi_key. destruct (x_dh X priv r) as [sh|]; cbn [of_opt bind].
    + apply settled_bind; [exact hr|]. intros; exact I.
    + destruct ignore; [exact hr|exact I].
Qed.
Lemma multi_settled X junk messages recipients priv pub domain nonce pad : settled (encrypt_simple X junk messages recipients priv pub domain nonce pad).
Proof.
  unfold encrypt_simple. destruct (negb _); [exact I|]. apply settled_bind; [|intros; exact I]. unfold encrypt_for_multiple. destruct (negb _); [exact I|]. destruct (negb (forallb _ _)); [exact I|].
  destruct (negb (Nat.eqb (length messages) 1)) eqn:e1; cbn [andb].
  - destruct (Nat.eqb (length messages) (length recipients)) eqn:e2; cbn [negb]; [|exact I]. apply Nat.eqb_eq in e2. apply each_settled. right. lia.
  - apply Bool.negb_false_iff in e1. rewrite e1. apply Nat.eqb_eq in e1. apply each_settled. left. split; [reflexivity|exact e1].
Qed.

(** ** onion requests *)
Section O.
  Import Onion.
  Context (O : ocrypt) (H : ec_ok O).
  Lemma hop_enc_settled rnd h t m pk : settled (hop_encrypt O rnd h t m pk).
  Proof. unfold hop_encrypt, gcm_key, xchacha_key. settle2. Qed.
  Lemma hop_dec_settled h t c pk : settled (hop_decrypt O h t c pk).
  Proof. unfold hop_decrypt, gcm_key, xchacha_key. settle2. Qed.
  Lemma frame_settled x j : settled (frame x j).
  Proof. unfold frame. settle2. Qed.
  Lemma layers_settled t : forall hops rs route A blob, length hops <= length rs -> settled (hop_layers O t hops rs route A blob).
  Proof.
    induction hops as [|[ed pk] hops IH]; intros rs route A blob h; cbn [hop_layers]; [exact I|]. destruct rs as [|r rs]; cbn [length] in h; [lia|].
    apply settled_bind; [apply frame_settled|]. intros d _. cbv zeta. apply settled_bind; [apply hop_enc_settled|]. intros c _. apply IH. lia.
  Qed.
  Lemma build_settled r rs x payload : length (bd_hops x) <= length rs -> settled (build O r rs x payload).
  Proof.
    intros h. unfold build. apply settled_bind. { unfold destination_layer. cbv zeta. settle2; first [apply hop_enc_settled | apply frame_settled]. }
    intros d _. cbv zeta. apply settled_bind; [apply layers_settled; rewrite rev_length; exact h|]. intros p _. apply settled_bind; [apply frame_settled|]. intros; exact I.
  Qed.
  Lemma build_final r rs x payload req y : build O r rs x payload = Ok (req, y) -> bd_final y = Some (x_base O (fst r), fst r) /\ bd_dest y = bd_dest x /\ bd_enc y = bd_enc x.
  Proof.
    unfold build. destruct (destination_layer O r x payload) as [d| | | |]; cbn [bind]; try discriminate. cbv zeta. destruct (hop_layers _ _ _ _ _ _ _) as [p| | | |]; cbn [bind]; try discriminate.
    destruct (frame _ _) as [out| | | |]; cbn [bind]; try discriminate. intros h. assert (e : y = with_final (x_base O (fst r), fst r) x) by congruence. subst y. split; [|split]; reflexivity.
  Qed.
End O.
