(** Proofs about onion requests. *)
From Verif Require Import OnionSpec Json_facts Ed_facts SessEnc_facts Blind_facts Hex_facts Pubkey_facts.
From Coq Require Import Lia Znumtheory ZifyN ZifyNat ZifyBool.
Open Scope nat_scope.

(** ** UTF-8 *)
Lemma in_range_N lo hi n : (n < 256)%N -> in_range lo hi (ascii_of_N n) = ((lo <=? n) && (n <=? hi))%N.
Proof. intros h. unfold in_range. rewrite N_ascii_embedding by exact h. reflexivity. Qed.
Ltac rng := rewrite ?in_range_N by lia.
Lemma utf8_next_enc n r : (n < 55296 \/ 57344 <= n < 1114112)%N -> utf8_next (utf8_enc n ++ r) = Some (utf8_enc n, r).
Proof.
  intros h. unfold utf8_enc. cbv zeta.
  pose proof (N.div_mod n 64 ltac:(lia)) as d1. pose proof (N.mod_lt n 64 ltac:(lia)) as m1. pose proof (N.div_mod (n / 64) 64 ltac:(lia)) as d2. pose proof (N.mod_lt (n / 64) 64 ltac:(lia)) as m2.
  pose proof (N.div_mod (n / 4096) 64 ltac:(lia)) as d3. pose proof (N.mod_lt (n / 4096) 64 ltac:(lia)) as m3.
  assert (e2 : (n / 4096 = n / 64 / 64)%N) by (rewrite N.div_div by lia; reflexivity). assert (e3 : (n / 262144 = n / 4096 / 64)%N) by (rewrite N.div_div by lia; reflexivity).
  set (q1 := (n / 64)%N) in *. set (q2 := (n / 4096)%N) in *. set (q3 := (n / 262144)%N) in *. set (r1 := (n mod 64)%N) in *. set (r2 := (q1 mod 64)%N) in *. set (r3 := (q2 mod 64)%N) in *.
  rewrite <- e2 in d2. rewrite <- e3 in d3. clearbody q1 q2 q3 r1 r2 r3.
  destruct (N.ltb_spec n 128) as [h1|h1].
  { cbn [app]. unfold utf8_next, utf8_tail. rng. replace ((0 <=? n) && (n <=? 127))%N with true by lia. reflexivity. }
  destruct (N.ltb_spec n 2048) as [h2|h2].
  { cbn [app]. unfold utf8_next, utf8_tail. rng. replace ((0 <=? 192 + q1) && (192 + q1 <=? 127))%N with false by lia. replace ((194 <=? 192 + q1) && (192 + q1 <=? 223))%N with true by lia.
    cbn [take_ranges]. rng. replace ((128 <=? 128 + r1) && (128 + r1 <=? 191))%N with true by lia. reflexivity. }
  destruct (N.ltb_spec n 65536) as [h3|h3].
  { cbn [app]. unfold utf8_next, utf8_tail. rng. replace ((0 <=? 224 + q2) && (224 + q2 <=? 127))%N with false by lia. replace ((194 <=? 224 + q2) && (224 + q2 <=? 223))%N with false by lia.
    destruct ((224 <=? 224 + q2) && (224 + q2 <=? 224))%N eqn:e.
    { cbn [take_ranges]. rng. replace ((160 <=? 128 + r2) && (128 + r2 <=? 191))%N with true by lia. replace ((128 <=? 128 + r1) && (128 + r1 <=? 191))%N with true by lia. reflexivity. }
    destruct ((237 <=? 224 + q2) && (224 + q2 <=? 237))%N eqn:e'.
    { cbn [take_ranges]. rng. replace ((128 <=? 128 + r2) && (128 + r2 <=? 159))%N with true by lia. replace ((128 <=? 128 + r1) && (128 + r1 <=? 191))%N with true by lia. reflexivity. }
    replace ((225 <=? 224 + q2) && (224 + q2 <=? 239))%N with true by lia.
    cbn [take_ranges]. rng. replace ((128 <=? 128 + r2) && (128 + r2 <=? 191))%N with true by lia. replace ((128 <=? 128 + r1) && (128 + r1 <=? 191))%N with true by lia. reflexivity. }
  cbn [app]. unfold utf8_next, utf8_tail. rng. replace ((0 <=? 240 + q3) && (240 + q3 <=? 127))%N with false by lia. replace ((194 <=? 240 + q3) && (240 + q3 <=? 223))%N with false by lia.
  replace ((224 <=? 240 + q3) && (240 + q3 <=? 224))%N with false by lia. replace ((237 <=? 240 + q3) && (240 + q3 <=? 237))%N with false by lia. replace ((225 <=? 240 + q3) && (240 + q3 <=? 239))%N with false by lia.
  assert (c1 : ((128 <=? 128 + r1) && (128 + r1 <=? 191))%N = true) by lia. assert (c2 : ((128 <=? 128 + r2) && (128 + r2 <=? 191))%N = true) by lia. 
  destruct ((240 <=? 240 + q3) && (240 + q3 <=? 240))%N eqn:e.
  { cbn [take_ranges]. rng. replace ((144 <=? 128 + r3) && (128 + r3 <=? 191))%N with true by lia. rewrite c1, c2. reflexivity. }
  destruct ((241 <=? 240 + q3) && (240 + q3 <=? 243))%N eqn:e'.
  { cbn [take_ranges]. rng. replace ((128 <=? 128 + r3) && (128 + r3 <=? 191))%N with true by lia. rewrite c1, c2. reflexivity. }
  replace ((244 <=? 240 + q3) && (240 + q3 <=? 244))%N with true by lia.
  cbn [take_ranges]. rng. replace ((128 <=? 128 + r3) && (128 + r3 <=? 143))%N with true by lia. rewrite c1, c2. reflexivity.
Qed.
Lemma utf8_enc_len n : 1 <= length (utf8_enc n).
Proof. unfold utf8_enc. cbv zeta. destruct (n <? 128)%N; [cbn; lia|]. destruct (n <? 2048)%N; [cbn; lia|]. destruct (n <? 65536)%N; cbn; lia. Qed.
Lemma utf8_dump s : utf8 s -> exists t, dump_str s = Some t.
Proof.
  intros h. assert (g : forall f, length s < f -> exists t, dump_chars f s = Some t).
  { induction h as [|n s hn hs IH]; intros f hf; (destruct f as [|f]; [lia|]); [eexists; reflexivity|]. cbn [dump_chars]. rewrite utf8_next_enc by exact hn. rewrite app_length in hf. pose proof (utf8_enc_len n) as hl.
    destruct (IH f) as (t & ->); [lia|]. destruct (utf8_enc n) as [|c u]; [cbn in hl; lia|]. cbn [app]. eexists. reflexivity. }
  unfold dump_str. destruct (g (S (length s))) as (t & ->); [lia|]. eexists. reflexivity.
Qed.
Lemma ascii_utf8 s : Forall (fun c => (N_of_ascii c < 128)%N) s -> utf8 s.
Proof.
  induction 1 as [|c s h hs IH]; [constructor|]. assert (e : c :: s = utf8_enc (N_of_ascii c) ++ s) by (unfold utf8_enc; cbv zeta; rewrite (proj2 (N.ltb_lt _ _) h), ascii_N_embedding; reflexivity).
  rewrite e. constructor; [lia|exact IH].
Qed.
Lemma hex_char_lt n : (n < 16)%N -> (N_of_ascii (hex_char n) < 128)%N.
Proof. intros h. unfold hex_char. destruct (N.ltb_spec n 10); rewrite N_ascii_embedding; lia. Qed.
Lemma hex_utf8 s : utf8 (to_hex s).
Proof.
  apply ascii_utf8. unfold to_hex. induction s as [|c s IH]; [constructor|]. cbn [flat_map app]. pose proof (N_of_ascii_lt c). constructor; [apply hex_char_lt; apply N.div_lt_upper_bound; lia|].
  constructor; [apply hex_char_lt; apply N.mod_lt; lia|exact IH].
Qed.

(** ** one hop *)
Lemma bind_ok {A B} (x : outcome A) (f : A -> outcome B) y : bind x f = Ok y -> exists a, x = Ok a /\ f a = Ok y.
Proof. destruct x as [a| | | |]; try discriminate. intros h. exists a. split; [reflexivity|exact h]. Qed.
Lemma parse_hex_key A : length A = 32 -> parse_pubkey (to_hex A) = A.
Proof.
  intros h. unfold parse_pubkey. rewrite to_hex_length, h. cbn [Nat.mul Nat.eqb Nat.add]. unfold is_hex. rewrite from_to_hex. change (Nat.eqb (2 * 32) 32) with false. change (Nat.eqb (2 * 32) 64) with true. cbn [andb or_null]. unfold fill32. rewrite h. cbn [Nat.sub repeat]. apply app_nil_r.
Qed.
Section hops.
  Variable O : ocrypt.
  Hypothesis H : o_ok O.
  Let He : ec_ok O := oo_ec O H.
  (** the two sides derive the same key *)
  Lemma keys_agree a s : gcm_key O (mkHop a (x_base O a) false) (x_base O s) = gcm_key O (mkHop s (x_base O s) true) (x_base O a) /\
    xchacha_key O (mkHop a (x_base O a) false) (x_base O s) = xchacha_key O (mkHop s (x_base O s) true) (x_base O a).
  Proof. unfold gcm_key, xchacha_key. cbn [h_sk h_pk h_server negb]. rewrite (dh_sym O He a s). split; reflexivity. Qed.
  Lemma key_some h s : (exists k, gcm_key O h (x_base O s) = Ok k) /\ (exists k, xchacha_key O h (x_base O s) = Ok k).
  Proof. unfold gcm_key, xchacha_key. destruct (dh_base O He (h_sk h) s) as (k & ->). cbn [of_opt bind]. split; eexists; reflexivity. Qed.
  Lemma encrypt_ok rnd h t m s : exists c, hop_encrypt O rnd h t m (x_base O s) = Ok c.
  Proof. destruct (key_some h s) as [(k1 & e1) (k2 & e2)]. unfold hop_encrypt. destruct t; [rewrite e1|rewrite e2]; cbn [bind]; eexists; reflexivity. Qed.
  Lemma encrypt_len rnd h t m pk c : length rnd = 24 -> hop_encrypt O rnd h t m pk = Ok c -> length c = length m + match t with AesGcm => 28 | XChaCha20 => 40 end.
  Proof.
    intros hr. unfold hop_encrypt. destruct t; intros h0; apply bind_ok in h0 as (k & _ & h0).
    - assert (e : c = firstn 12 rnd ++ o_gcm O k (firstn 12 rnd) m) by congruence. subst c. rewrite app_length, (oo_gcm_len O H), firstn_length, hr. cbn [Nat.min]. lia.
    - injection h0 as <-. rewrite app_length, (eo_seal_len O He), hr. lia.
  Qed.
  (** what one side encrypted the other decrypts *)
  Lemma decrypt_ok rnd h h' t m pk pk' c : length rnd = 24 -> gcm_key O h pk = gcm_key O h' pk' -> xchacha_key O h pk = xchacha_key O h' pk' ->
    hop_encrypt O rnd h t m pk = Ok c -> hop_decrypt O h' t c pk' = Ok m.
  Proof.
    intros hr hg hx hc. pose proof (encrypt_len _ _ _ _ _ _ hr hc) as hl. unfold hop_encrypt in hc. unfold hop_decrypt. destruct t; apply bind_ok in hc as (k & hk & hc).
    - assert (e : c = firstn 12 rnd ++ o_gcm O k (firstn 12 rnd) m) by congruence. subst c. rewrite (proj2 (Nat.ltb_ge _ _)) by lia. rewrite <- hg, hk. cbn [bind]. assert (h12 : length (firstn 12 rnd) = 12) by (rewrite firstn_length, hr; reflexivity).
      rewrite (firstn_exact _ _ _ h12), (skipn_exact _ _ _ h12), (oo_gcm O H). reflexivity.
    - injection hc as <-. rewrite (proj2 (Nat.ltb_ge _ _)) by lia. rewrite <- hx, hk. cbn [bind]. rewrite (firstn_exact _ _ _ hr), (skipn_exact _ _ _ hr), (eo_seal O He). reflexivity.
  Qed.
  Lemma to_node rnd a s t m c : length rnd = 24 -> hop_encrypt O rnd (mkHop a (x_base O a) false) t m (x_base O s) = Ok c ->
    hop_decrypt O (mkHop s (x_base O s) true) t c (x_base O a) = Ok m.
  Proof. intros hr. destruct (keys_agree a s) as [hg hx]. apply decrypt_ok; assumption. Qed.
  Lemma from_node rnd a s t m c : length rnd = 24 -> hop_encrypt O rnd (mkHop s (x_base O s) true) t m (x_base O a) = Ok c ->
    hop_decrypt O (mkHop a (x_base O a) false) t c (x_base O s) = Ok m.
  Proof. intros hr. destruct (keys_agree a s) as [hg hx]. apply decrypt_ok; [exact hr|symmetry; exact hg|symmetry; exact hx]. Qed.

  (** ** frames *)
  Lemma frame_split blob j req : frame blob j = Ok req -> exists t, jdump j = Some t /\ req = encode_size (length blob) ++ blob ++ t.
  Proof. unfold frame. destruct (jdump j) as [t|]; [|discriminate]. cbn [of_opt bind]. intros h. injection h as <-. exists t. split; reflexivity. Qed.
  Lemma encode_size_len n : length (encode_size n) = 4. Proof. apply to_le_length. Qed.
  Lemma encode_size_le n : (Z.of_nat n < 2 ^ 32)%Z -> Z.to_nat (le (encode_size n)) = n.
  Proof. intros h. unfold encode_size. rewrite le_to_le. change (256 ^ Z.of_nat 4)%Z with (2 ^ 32)%Z. rewrite Z.mod_small by lia. lia. Qed.
  Lemma frame_len blob j req : frame blob j = Ok req -> length blob + 4 <= length req.
  Proof. intros h. apply frame_split in h as (t & _ & ->). rewrite !app_length, encode_size_len. lia. Qed.
  Definition readable (m : list (bytes * json)) : Prop := m <> [] /\ Forall reads_back (map snd m) /\ msorted m.
  Lemma frame_rest blob m req : frame blob (JObj m) = Ok req -> readable m -> (Z.of_nat (length req) < 2 ^ 32)%Z ->
    Z.to_nat (le (firstn 4 req)) = length blob /\ firstn (length blob) (skipn 4 req) = blob /\ length blob <= length (skipn 4 req) /\ json_parse (skipn (length blob) (skipn 4 req)) = Some (JObj m).
  Proof.
    intros h (h1 & h2 & h3) hs. pose proof (frame_len _ _ _ h) as hl. apply frame_split in h as (t & ht & ->).
    rewrite (firstn_exact _ _ _ (encode_size_len _)), (skipn_exact _ _ _ (encode_size_len _)). rewrite encode_size_le by lia. split; [reflexivity|]. rewrite (firstn_exact blob t _ eq_refl), (skipn_exact blob t _ eq_refl). split; [reflexivity|].
    split; [rewrite app_length; lia|]. pose proof (parse_dump m t [] h1 h2 h3 ht (or_introl eq_refl)) as hp. rewrite app_nil_r in hp. exact hp.
  Qed.
  Lemma frame_metadata blob m req : frame blob (JObj m) = Ok req -> readable m -> (Z.of_nat (length req) < 2 ^ 32)%Z -> metadata req = Some (JObj m).
  Proof. intros h hr hs. destruct (frame_rest _ _ _ h hr hs) as (e1 & _ & _ & e2). unfold metadata. rewrite e1, (Nat.add_comm 4), <- skipn_skipn. exact e2. Qed.

  (** ** routing data *)
  Definition snode_fields (t : enc_type) (ed A : bytes) : list (bytes * json) :=
    [(b "destination", JStr (to_hex ed)); (b "enc_type", JStr (enc_name t)); (b "ephemeral_key", JStr (to_hex A))].
  Definition first_fields (t : enc_type) (A : bytes) : list (bytes * json) := [(b "enc_type", JStr (enc_name t)); (b "ephemeral_key", JStr (to_hex A))].
  Definition server_fields (t : enc_type) (host target proto : bytes) (port : N) (A : bytes) : list (bytes * json) :=
    [(b "enc_type", JStr (enc_name t)); (b "ephemeral_key", JStr (to_hex A)); (b "host", JStr host); (b "method", JStr (b "POST")); (b "port", JNum (dec port)); (b "protocol", JStr proto); (b "target", JStr target)].
  Lemma snode_route_is t ed A : snode_route t ed A = JObj (snode_fields t ed A). Proof. reflexivity. Qed.
  Lemma first_route_is t A : jobj [(b "ephemeral_key", JStr (to_hex A)); (b "enc_type", JStr (enc_name t))] = JObj (first_fields t A). Proof. reflexivity. Qed.
  Definition port_num (proto : bytes) (port : option N) : N := match port with Some p => p | None => if eqb proto (b "https") then 443 else 80 end.
  Lemma server_route_is t host target proto port A : server_route t host target proto port A = JObj (server_fields t host target proto (port_num proto port) A). Proof. reflexivity. Qed.
  Lemma strs_read (l : list (bytes * bytes)) : Forall reads_back (map snd (map (fun p => (fst p, JStr (snd p))) l)).
  Proof. induction l as [|p l IH]; [constructor|]. cbn [map snd]. constructor; [apply reads_str|exact IH]. Qed.
  Lemma snode_readable t ed A : readable (snode_fields t ed A).
  Proof. split; [discriminate|]. split; [exact (strs_read [(b "destination", to_hex ed); (b "enc_type", enc_name t); (b "ephemeral_key", to_hex A)])|]. apply ssortedb_spec. reflexivity. Qed.
  Lemma first_readable t A : readable (first_fields t A).
  Proof. split; [discriminate|]. split; [exact (strs_read [(b "enc_type", enc_name t); (b "ephemeral_key", to_hex A)])|]. apply ssortedb_spec. reflexivity. Qed.
  Lemma server_readable t host target proto port A : (port < 65536)%N -> readable (server_fields t host target proto port A).
  Proof.
    intros hp. split; [discriminate|]. split; [|apply ssortedb_spec; reflexivity]. unfold server_fields. cbn [map snd].
    repeat (constructor; [apply reads_str || (apply reads_num; exact hp)|]). constructor.
  Qed.
  (** data that tells its receiver how to decrypt *)
  Definition opens (t : enc_type) (A : bytes) (m : list (bytes * json)) : Prop :=
    readable m /\ lookup (b "enc_type") m = Some (JStr (enc_name t)) /\ lookup (b "ephemeral_key") m = Some (JStr (to_hex A)).
  Lemma snode_opens t ed A : opens t A (snode_fields t ed A). Proof. split; [apply snode_readable|split; reflexivity]. Qed.
  Lemma first_opens t A : opens t A (first_fields t A). Proof. split; [apply first_readable|split; reflexivity]. Qed.
  Lemma server_opens t host target proto port A : (port < 65536)%N -> opens t A (server_fields t host target proto port A).
  Proof. intros h. split; [apply server_readable; exact h|split; reflexivity]. Qed.
  Lemma enc_name_parses t : parse_enc_type (enc_name t) = Ok t. Proof. destruct t; reflexivity. Qed.
  Lemma parse_frame blob m req max s t A p : frame blob (JObj m) = Ok req -> opens t A m -> fits req max -> length s = 32 -> length A = 32 ->
    hop_decrypt O (mkHop s (x_base O s) true) t blob A = Ok p -> parse_request O (x_base O s) s req max = Ok (mkRequest (mkHop s (x_base O s) true) t A p).
  Proof.
    intros hf (hr & h1 & h2) [hz hm] hs hA hd. destruct (frame_rest _ _ _ hf hr hz) as (e1 & e2 & e3 & e4). pose proof (frame_len _ _ _ hf) as hl. unfold parse_request, key_from_bytes.
    rewrite (x_base_length O He), hs. cbn [Nat.eqb bind]. rewrite (proj2 (Nat.ltb_ge _ _)) by lia. rewrite (proj2 (Nat.ltb_ge _ _)) by lia. cbv zeta. rewrite e1. rewrite (proj2 (Nat.ltb_ge _ _)) by exact e3. rewrite e4. cbn [of_opt bind jfind].
    rewrite h1. cbn [jstring bind]. rewrite enc_name_parses. cbn [bind]. rewrite h2. cbn [jstring bind]. rewrite parse_hex_key by exact hA. rewrite e2, hd. reflexivity.
  Qed.

  (** ** layers *)
  (** [good t max blob A nodes out]: if [blob] is sent, with data that say how to open it, to the first of [nodes], it reaches the last as [out] *)
  Definition good (t : enc_type) (max : nat) (blob A : bytes) (nodes : list node) (out : request) : Prop :=
    forall req m, frame blob (JObj m) = Ok req -> opens t A m -> fits req max -> forwarded O t max req nodes out.
  Lemma good_last t max r s m c n : rnd_ok r -> snd n = s -> length s = 32 -> hop_encrypt O (snd r) (mkHop (fst r) (x_base O (fst r)) false) t m (x_base O s) = Ok c ->
    good t max c (x_base O (fst r)) [n] (mkRequest (mkHop s (x_base O s) true) t (x_base O (fst r)) m).
  Proof.
    intros [hr1 hr2] hn hs hc req j hf ho hfit. pose proof (to_node _ _ _ _ _ _ hr2 hc) as hd. pose proof (parse_frame _ _ _ max s t (x_base O (fst r)) m hf ho hfit hs (x_base_length O He _) hd) as hp.
    subst s. exact (fw_last O t max req n _ hp).
  Qed.
  Lemma good_next t max r s ed n nodes blob data A out c : rnd_ok r -> length s = 32 -> length A = 32 -> good t max blob A (n :: nodes) out -> frame blob (snode_route t (fst n) A) = Ok data ->
    hop_encrypt O (snd r) (mkHop (fst r) (x_base O (fst r)) false) t data (x_base O s) = Ok c -> good t max c (x_base O (fst r)) ((ed, s) :: n :: nodes) out.
  Proof.
    intros [hr1 hr2] hs hA hg hfr hc req j hf ho hfit. pose proof (to_node _ _ _ _ _ _ hr2 hc) as hd. pose proof (parse_frame _ _ _ max s t (x_base O (fst r)) data hf ho hfit hs (x_base_length O He _) hd) as hp.
    pose proof (encrypt_len _ _ _ _ _ _ hr2 hc) as hlen. pose proof (frame_len _ _ _ hf) as hl2. assert (hfd : fits data max) by (destruct hfit as [h1 h2]; split; lia).
    rewrite snode_route_is in hfr. apply (fw_next O t max req (ed, s) n nodes _ A out hp hA); cbn [rq_payload].
    - exact (frame_metadata _ _ _ hfr (snode_readable _ _ _) (proj1 hfd)).
    - apply (hg data (snode_fields t (fst n) A) hfr (snode_opens _ _ _) hfd).
  Qed.
  Lemma layers_good t max out : forall rnodes rs n nodes A blob p, Forall node_ok rnodes -> Forall rnd_ok rs -> length A = 32 -> good t max blob A (n :: nodes) out ->
    hop_layers O t (map (as_hop O) rnodes) rs (snode_route t (fst n) A) A blob = Ok p -> good t max (fst p) (snd p) (rev rnodes ++ n :: nodes) out.
  Proof.
    induction rnodes as [|n' rnodes IH]; intros rs n nodes A blob p hn hrs hA hg h; cbn [map hop_layers] in h.
    - injection h as <-. exact hg.
    - destruct rs as [|r rs]; [discriminate|]. inversion hn as [|? ? hn1 hn2]; subst. inversion hrs as [|? ? hr1 hr2]; subst. unfold as_hop at 1 in h. apply bind_ok in h as (data & hfr & h). cbv zeta in h. apply bind_ok in h as (c & hc & h).
      cbn [rev]. rewrite <- app_assoc. cbn [app]. apply (IH rs n' (n :: nodes) (x_base O (fst r)) c p hn2 hr2 (x_base_length O He _)); [|exact h].
      destruct n' as [ed s]. cbn [fst snd] in *. apply (good_next t max r s ed n nodes blob data A out c); assumption.
  Qed.
  Lemma layers_some t : forall rnodes rs n A blob, Forall node_ok rnodes -> length rnodes = length rs -> exists p, hop_layers O t (map (as_hop O) rnodes) rs (snode_route t (n : bytes) A) A blob = Ok p.
  Proof.
    induction rnodes as [|n' rnodes IH]; intros rs n A blob hn hl; cbn [map hop_layers]; [eexists; reflexivity|]. destruct rs as [|r rs]; [discriminate|]. inversion hn as [|? ? hn1 hn2]; subst.
    unfold as_hop at 1. assert (hd : exists t', jdump (snode_route t n A) = Some t').
    { rewrite snode_route_is. unfold snode_fields. cbn [jdump map all_some fst snd]. destruct (utf8_dump _ (hex_utf8 n)) as (t1 & ->). destruct (utf8_dump _ (hex_utf8 A)) as (t2 & ->). destruct t; eexists; vm_compute; reflexivity. }
    destruct hd as (t' & ht). unfold frame at 1. rewrite ht. cbn [of_opt bind]. cbv zeta.
    match goal with |- context [hop_encrypt O ?a ?h ?t ?m ?k] => destruct (encrypt_ok a h t m (snd n')) as (c & ->) end. cbn [bind]. apply IH; [exact hn2|injection hl as hl; exact hl].
  Qed.
End hops.
