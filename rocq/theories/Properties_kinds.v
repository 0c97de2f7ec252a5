(** C107: the kinds of configs do not mix. *)
From Verif Require Import KindSpec Bt_facts Dump_facts Crypt_facts Base_facts Life_facts Left2_facts Proto_facts SessEnc_facts Ed_facts ToyEd Toy ToyBase ToyCrypt Properties_protos Properties_removed Properties_left.
From Coq Require Import Lia.

(** ** C107 *)
(** No two kinds have the same namespace or encryption domain; no namespace is that of group messages or keys; the domains
    can be used for encryption; the C functions report them; and wrap_config accepts exactly the namespaces of the kinds that are wrapped. *)
Theorem C107_distinct : (forall K K', namespace_of K = namespace_of K' -> K = K') /\ (forall K K', domain_of K = domain_of K' -> K = K') /\
  (forall K, namespace_of K <> GROUP_MESSAGES /\ namespace_of K <> GROUP_KEYS /\ (- 2 ^ 15 <= namespace_of K < 2 ^ 15)%Z) /\
  (forall K, 1 <= length (domain_of K) <= 24) /\
  (forall K, c_storage_namespace K = namespace_of K /\ c_encryption_domain K = domain_of K) /\
  (forall K, accepts_protobuf K = true <-> exists n, encode_namespace (namespace_of K) = Ok n).
Proof.
  split; [intros [] []; try reflexivity; discriminate|]. split; [intros [] []; try reflexivity; discriminate|]. split; [intros []; cbn; unfold GROUP_MESSAGES, GROUP_KEYS; lia|].
  split; [intros []; cbn; lia|]. split; [intros []; split; reflexivity|].
  intros []; cbn; (split; [intros h; try discriminate h; eexists; reflexivity|intros [n h]; try reflexivity; discriminate h]).
Qed.
Lemma kdf_split k k' size d d' : length k = 32 -> length k' = 32 -> d <> d' -> k' ++ be64 size ++ d' <> k ++ be64 size ++ d.
Proof.
  intros h h' hd e. assert (e1 : k' = k) by (apply (f_equal (firstn 32)) in e; rewrite !firstn_app, h, h', !Nat.sub_diag, !firstn_O, !app_nil_r, !firstn_all2 in e by lia; exact e). subst k'.
  apply app_inv_head, app_inv_head in e. congruence.
Qed.
Lemma drop_any B st h c : decrypt_any B (s_keys st) (snd (unwrap1 B st (h, c))) = Ok None -> no_part B st (h, c).
Proof.
  intros hd l1 l2. unfold merge. rewrite !map_app. cbn [map]. assert (e : unwrap1 B st (h, c) = (h, snd (unwrap1 B st (h, c)))).
  { unfold unwrap1. destruct (s_keys st); [reflexivity|]. destruct (b_proto B); [|reflexivity]. destruct (b_unwrap _ _ _); reflexivity. }
  rewrite e. unfold merge_plain. rewrite (incoming_drop _ _ _ _ _ _ hd). reflexivity.
Qed.
Lemma pushed_other (B : benv) d (A : benv) st n c old st' k keys : aead_ok (b_aead B) -> b_aead A = b_aead B -> b_domain A = d -> d <> b_domain B -> b_proto A = false ->
  hd_error (s_keys st) = Some k -> push A st = (Ok (n, c, old), st') ->
  (forall k', In k' keys -> length k' = 32) -> keys_apart (b_aead B) keys (b_domain B) k d -> domain_ok (b_domain B) -> decrypt_any B keys c = Ok None.
Proof.
  intros hA ea ed hne ep hk hp hl [hh hop] hdom.
  apply push_spec in hp as [[hp _]|(k0 & s & conf & c0 & st2 & (r & hk0) & _ & he & h)]; [destruct (hp _ eq_refl)|]. cbv zeta in h. destruct h as (_ & _ & hx & _).
  rewrite hk0 in hk. cbn [hd_error] in hk. injection hk as ->. rewrite ep in hx. assert (hc : c = c0) by congruence. clear hx. subst c0. rewrite ea, ed in he.
  set (t := pad_message _ _) in he. unfold encrypt in he. destruct (make_encrypt_key _ _ _ _) as [key| | | |] eqn:ek; try discriminate he. cbn [bind] in he. injection he as <-.
  unfold make_encrypt_key in ek. destruct (negb (Nat.eqb (length k) 32)) eqn:ekl; [discriminate|]. apply negb_false_iff, Nat.eqb_eq in ekl. destruct (_ || _); [discriminate|]. injection ek as <-.
  set (nn := a_nonce _ _ _). assert (hn : length nn = 24) by apply (ao_nonce _ hA). change (a_hash32 (b_aead B) (kdf_input k (N.of_nat (length t)) d)) with (config_key (b_aead B) k (length t) d).
  set (sealed := a_seal _ _ _ _). assert (hsl : length sealed = length t + 16) by apply (ao_len _ hA).
  induction keys as [|k' ks IH]; [reflexivity|]. cbn [decrypt_any].
  assert (e : decrypt (b_aead B) (sealed ++ nn) k' (b_domain B) = Err).
  { unfold decrypt. rewrite app_length, hsl, hn. change (ABYTES + NPUBBYTES) with 40. change NPUBBYTES with 24. change ABYTES with 16.
    replace (Nat.ltb (length t + 16 + 24) 40) with false by lia. cbv zeta. replace (length t + 16 + 24 - 16 - 24) with (length t) by lia. replace (length t + 16 + 24 - 24) with (length sealed) by lia.
    rewrite (make_key_ok _ _ _ _ (hl k' (or_introl eq_refl)) hdom). cbn [bind].
    rewrite skipn_app, skipn_all, Nat.sub_diag, firstn_app, firstn_all, Nat.sub_diag. cbn [app skipn firstn]. rewrite app_nil_r.
    change (a_hash32 (b_aead B) (kdf_input k' (N.of_nat (length t)) (b_domain B))) with (config_key (b_aead B) k' (length t) (b_domain B)).
    unfold sealed. rewrite (hop k' nn t (or_introl eq_refl)); [reflexivity|]. apply (hh k' (N.of_nat (length t)) (or_introl eq_refl)). apply kdf_split; auto. apply hl. left. reflexivity. }
  rewrite e. apply IH; [intros x hx; apply hl; right; exact hx|intros x z hx; apply hh; right; exact hx|intros x n1 t1 hx; apply hop; right; exact hx].
Qed.
(** A group's info pushed to the members config, or the other way round: whatever state the writer and the reader are in, and
    even if they have the same keys (they always do), the message takes no part in a merge. *)
Theorem C107_group_kinds K K' S A hash v g z unz hash' v' g' z' unz' st n c old st0 k st' h : aead_ok A -> K <> K' -> accepts_protobuf K = false -> accepts_protobuf K' = false ->
  hd_error (s_keys st) = Some k -> push (kind_env K S A hash v g z unz) st = (Ok (n, c, old), st0) ->
  (forall k', In k' (s_keys st') -> length k' = 32) -> keys_apart A (s_keys st') (domain_of K') k (domain_of K) ->
  no_part (kind_env K' S A hash' v' g' z' unz') st' (h, c).
Proof.
  intros hA hne hp hp' hk hpu hl hap. apply drop_any. assert (e : unwrap1 (kind_env K' S A hash' v' g' z' unz') st' (h, c) = (h, c)).
  { unfold unwrap1. destruct (s_keys st'); [reflexivity|]. cbn [kind_env b_proto]. rewrite hp'. reflexivity. }
  rewrite e. apply (pushed_other (kind_env K' S A hash' v' g' z' unz') (domain_of K) (kind_env K S A hash v g z unz) st n c old st0 k (s_keys st')); auto.
  - cbn [kind_env b_domain]. intros hd. apply hne. apply C107_distinct in hd. exact hd.
  - cbn [kind_env b_domain]. apply C107_distinct.
Qed.
(** Among an account's own configs the message is wrapped as well.  The data of a wrapped message are not even looked at by
    a config of another kind; the message as it is is tried, and does not decrypt. *)
Theorem C107_user_kinds K K' S A hash v g z unz st seed data n w kn h : ec_ok S -> length seed = 32 -> K <> K' -> accepts_protobuf K' = true ->
  (N.of_nat (length data) <= MAX_SIZE - 1000)%N -> encode_namespace (namespace_of K) = Ok kn -> nonce_ok S seed (wrapped_text S seed data n kn) ->
  wrap_config S seed data n (namespace_of K) = Ok w ->
  hd_error (s_keys st) = Some seed -> (forall k', In k' (s_keys st) -> decrypt A w k' (domain_of K') = Err) ->
  b_unwrap (kind_env K' S A hash v g z unz) seed w = None /\ b_unwrap (kind_env K S A hash v g z unz) seed w = Some data /\
  no_part (kind_env K' S A hash v g z unz) st (h, w).
Proof.
  intros hS hs hne hp hd hkn hn hw hk hraw. assert (ha : account S seed seed) by (split; auto).
  destruct (C57_wrap_unwrap S seed seed seed data n (namespace_of K) kn w hS ha ha hd hkn hn hw) as [h1 h2].
  assert (hu : unwrap_config S seed w (namespace_of K') = Throw) by (apply h2; intros e; apply hne; symmetry; apply (proj1 C107_distinct); exact e).
  split; [cbn [kind_env b_unwrap]; rewrite hu; reflexivity|]. split; [cbn [kind_env b_unwrap]; rewrite h1; reflexivity|].
  apply drop_any. assert (e : unwrap1 (kind_env K' S A hash v g z unz) st (h, w) = (h, w)).
  { unfold unwrap1. destruct (s_keys st) as [|k0 r]; [reflexivity|]. cbn [hd_error] in hk. injection hk as ->. cbn [kind_env b_proto b_unwrap snd fst]. rewrite hp, hu. reflexivity. }
  rewrite e. cbn [snd]. clear -hraw. revert hraw. generalize (s_keys st). intros ks hraw. induction ks as [|k' ks IH]; [reflexivity|]. cbn [decrypt_any]. cbn [kind_env b_aead b_domain] in *.
  rewrite (hraw k' (or_introl eq_refl)). apply IH. intros x hx. apply hraw. right. exact hx.
Qed.
(** and that is what such a config pushes: the encryption of its message, wrapped for its namespace. *)
Theorem C107_push_wraps K S A hash v g z unz st n c old st' seed : accepts_protobuf K = true -> hd_error (s_keys st) = Some seed ->
  push (kind_env K S A hash v g z unz) st = (Ok (n, c, old), st') ->
  exists data s st1, serialize (mkEnv hash v g LAG) (s_conf st) true = Ok (s, st1) /\
    encrypt A (pad_message (compress_message z LEVEL s) OVERHEAD) seed (domain_of K) = Ok data /\ n = s_seqno st /\ wrap_config S seed data n (namespace_of K) = Ok c.
Proof.
  intros hp hk h. apply push_spec in h as [[h _]|(k0 & s & conf & c0 & st2 & (r & hk0) & hse & he & h)]; [destruct (h _ eq_refl)|]. cbv zeta in h. destruct h as (hlen & _ & hx & _).
  rewrite hk0 in hk. cbn [hd_error] in hk. injection hk as ->. cbn [kind_env b_proto b_wrap] in hx, hlen. rewrite hp in hx, hlen. injection hx as -> hcc _.
  exists c0, s, conf. split; [exact hse|]. split; [exact he|]. split; [reflexivity|]. destruct (wrap_config _ _ _ _ _) as [w| | | |]; subst c; try (exfalso; unfold unwrappable in hlen; rewrite repeat_length, N2Nat.id in hlen; unfold MAX_MESSAGE_SIZE in hlen; lia). reflexivity.
Qed.
Lemma enc_bytes_ge n s : length s <= length (enc_field (n, WBytes s)).
Proof. unfold enc_field. cbn [fst snd]. rewrite !app_length. lia. Qed.
Lemma content_ge k n d : length d <= length (content_of k n d).
Proof.
  unfold content_of, enc_fields. cbn [flat_map]. rewrite !app_nil_r. eapply Nat.le_trans; [|apply enc_bytes_ge]. rewrite !app_length. pose proof (enc_bytes_ge 3 d). lia.
Qed.
Lemma envelope_ge c : length c <= length (envelope_of c).
Proof. unfold envelope_of, enc_fields. cbn [flat_map]. rewrite !app_nil_r, !app_length. pose proof (enc_bytes_ge 8 c). lia. Qed.
Lemma websocket_ge c : length c <= length (websocket_of c).
Proof.
  unfold websocket_of, enc_fields. cbn [flat_map]. rewrite !app_nil_r, !app_length. eapply Nat.le_trans; [|apply Nat.le_add_l]. eapply Nat.le_trans; [|apply enc_bytes_ge].
  rewrite !app_length. pose proof (enc_bytes_ge 3 c). lia.
Qed.
Lemma sealed_ge S sk pk m c : ec_ok S -> encrypt_deterministic S sk pk m = Ok c -> length m <= length c.
Proof.
  intros hS. unfold encrypt_deterministic, sign_for_recipient. destruct (full_sk S sk) as [sk1| | | |]; try discriminate. cbn [bind]. destruct (strip05 pk) as [y| | | |]; try discriminate. cbn [bind].
  unfold seal_box. destruct (ec_dh _ _ _) as [kk|]; [|discriminate]. cbv zeta. cbn [of_opt]. intros e. assert (ec : c = x_base S (det_esk S sk y m) ++ ec_bseal S kk (box_nonce S (x_base S (det_esk S sk y m)) y) (m ++ skipn 32 sk1 ++ ed_sign S sk1 (m ++ skipn 32 sk1 ++ y))) by congruence.
  rewrite ec, app_length, (eo_bseal_len S hS), !app_length. lia.
Qed.
Lemma wrap_ge S seed sk data n ns w : ec_ok S -> account S seed sk -> wrap_config S sk data n ns = Ok w -> length data <= length w.
Proof.
  intros hS ha hw. destruct (wrap_inv S seed sk data n ns w hS ha hw) as (k & c & _ & hc & ->). apply (sealed_ge _ _ _ _ _ hS) in hc. rewrite app_length in hc.
  pose proof (content_ge k n data). pose proof (envelope_ge c). pose proof (websocket_ge (envelope_of c)). lia.
Qed.
(** ** two devices *)
(** Two objects of one kind meet the assumption of the theorems about several clients of one config (peer in BaseSpec.v: C30, C91-C103), with the library's own protobuf wrapping; assumed is that zstd decompresses what it compressed and that no Ed25519
    signature nonce is zero. *)
Theorem C107_same_kind K S A hash v g g' z unz : ec_ok S -> (forall x, unz (z x) = Some x) -> (v = None -> g = None /\ g' = None) ->
  (forall seed data n kn, length seed = 32 -> nonce_ok S seed (wrapped_text S seed data n kn)) ->
  peer (kind_env K S A hash v g z unz) (kind_env K S A hash v g' z unz).
Proof.
  intros hS hz hv hn. split; [reflexivity|reflexivity|reflexivity|exact hv|reflexivity|reflexivity|exact hz|reflexivity|].
  intros k n c hp hk hl. cbn [kind_env b_wrap b_unwrap] in *. destruct (proj2 (proj2 (proj2 (proj2 (proj2 C107_distinct)))) K) as [hkn _]. destruct (hkn hp) as [kn hkn']. clear hkn.
  destruct (wrap_config S k c n (namespace_of K)) as [w| | | |] eqn:ew; try (exfalso; unfold unwrappable in hl; rewrite repeat_length, N2Nat.id in hl; unfold MAX_MESSAGE_SIZE in hl; lia).
  assert (ha : account S k k) by (split; auto). pose proof (wrap_ge S k k c n _ w hS ha ew) as hge.
  destruct (C57_wrap_unwrap S k k k c n (namespace_of K) kn w hS ha ha) as [-> _]; auto. unfold MAX_SIZE, MAX_MESSAGE_SIZE in *. lia.
Qed.
Print Assumptions C107_same_kind.
Print Assumptions C107_distinct.
Print Assumptions C107_push_wraps.
Print Assumptions C107_group_kinds.
Print Assumptions C107_user_kinds.

(** ** examples *)
(** no nonce of this one is zero *)
Definition toy_e1 : ecrypt := mkEcrypt (ec_pt toy_e) (ec_log toy_e) (ec_x toy_e) (ec_xed toy_e) (ec_dh toy_e) (fun _ => byte 1 :: repeat NUL 63) (ec_blake toy_e) (ec_other toy_e)
  (ec_seal toy_e) (ec_open toy_e) (ec_bseal toy_e) (ec_bopen toy_e).
Lemma toy_e1_ok : ec_ok toy_e1.
Proof. destruct toy_e_ok. split; first [assumption|reflexivity]. Qed.
Definition k_own (K : kind) : benv := kind_env K toy_e1 toy_aead (e_hash toy) None None (fun x => x) (fun x => Some x).
Definition own_0 : bstate := Eval vm_compute in snd (edit (k_own ContactList) (set_field [] (b "n") (VScal (SStr (b "me")))) (Base.fresh (k_own ContactList) [toy_key])).
Definition own_push : bytes := Eval vm_compute in match push (k_own ContactList) own_0 with (Ok (_, c, _), _) => c | _ => [] end.
Example ex_C107_same : peer (k_own ContactList) (k_own ContactList) /\ b_proto (k_own ContactList) = true /\ fst (push (k_own ContactList) own_0) = Ok (1%Z, own_push, []) /\
  fst (merge (k_own ContactList) [(b "h", own_push)] (Base.fresh (k_own ContactList) [toy_key])) = Ok [b "h"] /\
  exists w, wrap_config toy_e1 toy_key w 1 (namespace_of ContactList) = Ok own_push.
Proof.
  split.
  - apply C107_same_kind; [exact toy_e1_ok|reflexivity|auto|]. intros seed data n kn _ h. vm_compute in h. discriminate h.
  - split; [reflexivity|]. split; [vm_compute; reflexivity|]. split; [vm_compute; reflexivity|].
    assert (hp : exists n old st', push (k_own ContactList) own_0 = (Ok (n, own_push, old), st') /\ n = 1%Z) by (do 3 eexists; split; [vm_compute; reflexivity|reflexivity]).
    destruct hp as (n & old & st' & hp & ->). destruct (C107_push_wraps ContactList _ _ _ _ _ _ _ own_0 1 own_push old st' toy_key eq_refl eq_refl hp) as (data & _ & _ & _ & _ & _ & hw). eauto.
Qed.
(** a toy AEAD whose keys begin with the domain *)
Definition kinds_aead : aead := mkAead (fun x => firstn 32 (skipn 40 x ++ x ++ repeat NUL 32)) (a_nonce toy_aead) (fun k _ m => m ++ mark k) mark_open.
Lemma kinds_aead_ok : aead_ok kinds_aead.
Proof. destruct left_aead_ok as [h1 h2 h3 h4]. split; assumption. Qed.
Definition k_info : benv := kind_env GroupInfo toy_e kinds_aead (e_hash toy) None None (fun x => x) (fun x => Some x).
Definition w_info : bstate := Eval vm_compute in snd (edit k_info (set_field [] (b "n") (VScal (SStr (b "team")))) (Base.fresh k_info [toy_key])).
Definition info_push : bytes := Eval vm_compute in match push k_info w_info with (Ok (_, c, _), _) => c | _ => [] end.
(** The info config's own kind takes what it pushes, a members config with the same key ignores it. *)
Example ex_C107_group : keys_apart kinds_aead [toy_key] (domain_of GroupMembers) toy_key (domain_of GroupInfo) /\ info_push <> [] /\
  fst (merge k_info [(b "h", info_push)] (Base.fresh k_info [toy_key])) = Ok [b "h"] /\
  no_part (kind_env GroupMembers toy_e kinds_aead (e_hash toy) None None (fun x => x) (fun x => Some x)) (Base.fresh k_info [toy_key]) (b "h", info_push).
Proof.
  assert (hap : keys_apart kinds_aead [toy_key] (domain_of GroupMembers) toy_key (domain_of GroupInfo)).
  { split.
    - intros k' size [<-|[]] _ e. apply (f_equal (fun l => nth 8 l NUL)) in e. vm_compute in e. discriminate e.
    - intros k' n t [<-|[]] _. apply mark_other. unfold config_key. cbn [kinds_aead a_hash32]. vm_compute. reflexivity. }
  split; [exact hap|]. split; [discriminate|]. split; [vm_compute; reflexivity|].
  assert (hp : exists n old st', push k_info w_info = (Ok (n, info_push, old), st')) by (do 3 eexists; vm_compute; reflexivity). destruct hp as (n & old & st' & hp).
  apply (C107_group_kinds GroupInfo GroupMembers toy_e kinds_aead (e_hash toy) None None (fun x => x) (fun x => Some x) _ _ _ _ _ w_info n info_push old st' toy_key);
    [exact kinds_aead_ok|discriminate|reflexivity|reflexivity|reflexivity|exact hp|intros k' [<-|[]]; reflexivity|exact hap].
Qed.
Definition k_user (K : kind) : benv := kind_env K toy_e kinds_aead (e_hash toy) None None (fun x => x) (fun x => Some x).
Definition user_wrapped : bytes := Eval vm_compute in match wrap_config toy_e sd0 pdata 7 (namespace_of ContactList) with Ok w => w | _ => [] end.
Example ex_C107_user : wrap_config toy_e sd0 pdata 7 (namespace_of ContactList) = Ok user_wrapped /\ b_unwrap (k_user UserProfile) sd0 user_wrapped = None /\
  b_unwrap (k_user ContactList) sd0 user_wrapped = Some pdata /\ no_part (k_user UserProfile) (Base.fresh (k_user UserProfile) [sd0]) (b "h", user_wrapped).
Proof.
  assert (hw : wrap_config toy_e sd0 pdata 7 (namespace_of ContactList) = Ok user_wrapped) by (vm_compute; reflexivity). split; [exact hw|].
  apply (C107_user_kinds ContactList UserProfile toy_e kinds_aead (e_hash toy) None None (fun x => x) (fun x => Some x) _ sd0 pdata 7 user_wrapped 2%N);
    [exact toy_e_ok|reflexivity|discriminate|reflexivity|vm_compute; discriminate|reflexivity|apply same0_false; vm_compute; reflexivity|exact hw|reflexivity|].
  intros k' [<-|[]]. vm_compute. reflexivity.
Qed.
