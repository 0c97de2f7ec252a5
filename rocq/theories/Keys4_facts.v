(** Rekey and supplement messages, from the administrator to the members. *)
From Verif Require Import KeysSpec KeyList_facts Bt_facts Parse_facts Dump_facts Keys_facts Keys2_facts Keys3_facts Hex_facts Multi_facts.

Lemma signed_wire G sk d : signed G sk d = wire d (Some (g_sign G sk ("d"%char :: enc_entries d))) [].
Proof.
  unfold signed, wire, sig_entry, with_sig. rewrite enc_entries_app. cbn [app]. f_equal. rewrite <- app_assoc. f_equal.
  rewrite enc_entries_cons. cbn [enc]. change (enc_entries []) with (@nil ascii). rewrite app_nil_r, <- app_assoc. reflexivity.
Qed.
Lemma find_not k k' v es r : str_ok k' = true -> ltb k' k = false -> eqb k' k = false ->
  find_key k (enc_entries ((k', v) :: es) ++ r) = Ok (false, enc_entries ((k', v) :: es) ++ r).
Proof. intros h1 h2 h3. unfold find_key. cbn [skip_until]. rewrite next_key_enc, h2, h3 by exact h1. reflexivity. Qed.
Lemma chunks_spec n size : forall s, length s = size * n -> length (chunks n size s) = n /\ Forall (fun c => length c = size) (chunks n size s).
Proof.
  induction n as [|n IH]; intros s h; [split; [reflexivity|constructor]|]. cbn [chunks length]. destruct (IH (skipn size s)) as [h1 h2]; [rewrite skipn_length; lia|].
  split; [lia|]. constructor; [rewrite firstn_length; lia|exact h2].
Qed.
Lemma junk_count_spec n q : 1 < q -> (n + junk_count n (Z.of_nat q)) mod q = 0 /\ junk_count n (Z.of_nat q) < q.
Proof.
  intros hq. unfold junk_count. replace (Z.of_nat q <=? 1)%Z with false by lia. rewrite Nat2Z.id. pose proof (Nat.mod_upper_bound n q ltac:(lia)) as hm.
  destruct (Nat.eqb (n mod q) 0) eqn:E.
  - apply Nat.eqb_eq in E. rewrite Nat.add_0_r. split; [exact E|lia].
  - apply Nat.eqb_neq in E. split; [|lia]. replace (n + (q - n mod q)) with (q + q * (n / q)).
    + replace (q + q * (n / q)) with ((1 + n / q) * q) by lia. apply Nat.mod_mul. lia.
    + pose proof (Nat.div_mod n q ltac:(lia)). lia.
Qed.
Lemma all_pks_spec sids : forall pks, all_pks sids = Ok pks -> Forall (fun p => length p = 32) pks /\ Forall2 (fun s p => session_id_pk s (b "05") = Ok p) sids pks.
Proof.
  induction sids as [|s sids IH]; intros pks h; cbn [all_pks] in h; [injection h as <-; split; constructor|]. step h. step h. injection h as <-.
  destruct (IH _ eq_refl) as [h1 h2]. split; constructor; auto. exact (session_id_pk_length _ (b "05") _ eq_refl E).
Qed.
(** the entries of a rekey message *)
Definition rekey_entries (nonce : bytes) (gen : Z) (ak : bytes) (es : list bytes) : btdict :=
  [(b "#", BStr nonce); (b "G", BInt gen); (b "K", BStr ak); (b "k", BList (map BStr es))].
Record rekeyed (G : gcrypt) (sids : list bytes) (o : kobj) (m : bytes) (o' : kobj) (sk xpk nonce : bytes) (gen : Z) (key : bytes) (pks junk : list bytes) : Prop := {
  rk_sk : ko_sk o = Some sk;
  rk_xpk : g_xpk G (ko_pk o) = Some xpk;
  rk_gen : gen = match rev (ko_keys o) with [] => 0%Z | k :: _ => (k_gen k + 1)%Z end;
  rk_gen_ok : int64_ok gen = true;
  rk_nonce : length nonce = 24;
  rk_key : length key = 32;
  rk_pks : all_pks sids = Ok pks;
  rk_msg : m = signed G sk (rekey_entries nonce gen (x_seal (g_x G) (seed_hash G sk ADMIN_KEY) nonce key)
             (flat_map (sealed_for (g_x G) key nonce (g_xsk G sk) xpk MEMBER_KEY) pks ++ junk));
  rk_junk : (length (flat_map (sealed_for (g_x G) key nonce (g_xsk G sk) xpk MEMBER_KEY) pks) + length junk) mod MESSAGE_KEY_MULTIPLE = 0 /\ length junk < MESSAGE_KEY_MULTIPLE;
  rk_junk_len : Forall (fun c => length c = 48) junk;
  rk_obj : o' = mkK (ko_user o) (ko_pk o) (ko_sk o) (ko_keys o) (ko_active o) m gen key true
}.
Lemma rekey_spec G sids o m o' : lib_ok G -> rekey G sids o = Ok (m, o') -> exists sk xpk nonce gen key pks junk, rekeyed G sids o m o' sk xpk nonce gen key pks junk.
Proof.
  intros [hX hZ] h. unfold rekey in h. destruct (ko_sk o) as [sk|] eqn:Es; [|discriminate]. step h. rename a into xpk.
  set (gen := match rev (ko_keys o) with [] => 0%Z | k :: _ => (k_gen k + 1)%Z end) in *. destruct (int64_ok gen) eqn:Eg; [|discriminate]. cbn [negb] in h.
  cbv zeta in h. set (h1 := g_hash G 56 GEN_KEY (concat sids ++ dec_z gen ++ seed_hash G sk SEED_KEY)) in *.
  assert (hl : length h1 = 56) by apply (z_hash G hZ).
  assert (hk : length (firstn 32 h1) = 32) by (rewrite firstn_length; lia).
  assert (hn : length (firstn 24 (skipn 32 h1)) = 24) by (rewrite firstn_length, skipn_length; lia).
  step h. rename a into pks. step h. rename a into cs. apply encrypt_one in E1 as (-> & _).
  match type of h with Ok (?x, ?y) = _ => assert (hm : x = m /\ y = o') by (split; congruence) end. clear h. destruct hm as [hm ho].
  remember (firstn 32 h1) as key. remember (firstn 24 (skipn 32 h1)) as nonce.
  set (cs := flat_map (sealed_for (g_x G) key nonce (g_xsk G sk) xpk MEMBER_KEY) pks) in *.
  set (n := junk_count (length cs) (Z.of_nat MESSAGE_KEY_MULTIPLE)) in *.
  destruct (chunks_spec n 48 (g_rng G (g_hash G 32 JUNK_KEY (h1 ++ sk)) (48 * n))) as [c1 c2]; [apply (z_rng G hZ)|].
  set (junk := chunks n 48 (g_rng G (g_hash G 32 JUNK_KEY (h1 ++ sk)) (48 * n))) in *.
  exists sk, xpk, nonce, gen, key, pks, junk. destruct (g_xpk G (ko_pk o)) as [x|] eqn:Ex; [|discriminate]. injection E as <-. split; auto.
  - rewrite c1. apply junk_count_spec. unfold MESSAGE_KEY_MULTIPLE. lia.
  - rewrite <- ho, hm, Es. reflexivity.
Qed.
Lemma str48_ok l : Forall (fun c : bytes => length c = 48) l -> bt_ok (BList (map BStr l)) = true.
Proof.
  intros h. cbn [bt_ok]. apply forallb_forall. intros v hv. apply in_map_iff in hv as (c & <- & hc). rewrite Forall_forall in h. cbn [bt_ok]. unfold str_ok. rewrite (h c hc). reflexivity.
Qed.
Lemma existsb_48 l : Forall (fun c : bytes => length c = 48) l -> existsb (fun c : bytes => negb (Nat.eqb (length c) 48)) l = false.
Proof. induction 1 as [|c l h1 h2 IH]; [reflexivity|]. cbn [existsb]. rewrite h1, IH. reflexivity. Qed.
(** reading a well-formed full key message *)
Lemma read_full G p xpk nonce gen ak es sig ts own :
  g_xpk G (ko_pk p) = Some xpk -> length nonce = 24 -> int64_ok gen = true -> (0 <= gen)%Z -> length ak = 48 -> Forall (fun c => length c = 48) es ->
  length es mod MESSAGE_KEY_MULTIPLE = 0 -> ts_ok ts = true ->
  own = match ko_sk p with Some sk => x_open (g_x G) (seed_hash G sk ADMIN_KEY) nonce ak | None => None end ->
  (forall sk, ko_sk p = Some sk -> own <> None) ->
  read_message G p (wire (rekey_entries nonce gen ak es) (Some sig) []) ts =
  (m <- for_us G p xpk nonce es ;;
   Ok (match own, m with Some k, _ => [(gen, (ts, k))] | None, Some k => [(gen, (ts, k))] | None, None => [] end, gen, enc_entries (sig_entry (Some sig)) ++ ["e"%char])).
Proof.
  intros h1 h2 h3 h4 h5 h6 h7 h8 h9 h10. unfold wire, rekey_entries. cbn [app]. unfold read_message. rewrite h1. cbn [of_opt bind].
  rewrite require_str by (try reflexivity; apply str_ok_short; lia). cbn [bind]. rewrite find_not by reflexivity. cbn [bind]. rewrite h8. cbn [negb].
  rewrite require_int by (auto; reflexivity). cbn [bind]. replace (gen <? 0)%Z with false by lia.
  rewrite require_str by (try reflexivity; apply str_ok_short; lia). cbn [bind]. rewrite h5. change (Nat.eqb 48 48) with true. cbn [negb].
  assert (hown : match ko_sk p with
                 | Some sk => k <- of_opt (x_open (g_x G) (seed_hash G sk ADMIN_KEY) (firstn 24 nonce) ak) Throw ;; Ok (Some k)
                 | None => Ok None end = Ok own).
  { rewrite (firstn_all2 nonce) by lia. destruct (ko_sk p) as [sk|]; [|subst own; reflexivity]. specialize (h10 sk eq_refl). destruct (x_open _ _ _ _) as [k|]; subst own; [reflexivity|]. contradiction. }
  rewrite hown. cbn [bind]. rewrite require_list by (try reflexivity; apply str48_ok; exact h6). cbn [bind]. rewrite str_list_map. cbn [of_opt bind].
  rewrite existsb_48 by exact h6. destruct (for_us G p xpk nonce es) as [m| | | |]; cbn [bind]; try reflexivity.
 match goal with |- context [Nat.eqb ?q 0] => replace (Nat.eqb q 0) with true by (symmetry; apply Nat.eqb_eq; exact h7) end. reflexivity.
Qed.
Lemma verify_signed G pk d sk : length (g_sign G sk ("d"%char :: enc_entries d)) = 64 ->
  verify_sig (sig_env G pk) false (wire d (Some (g_sign G sk ("d"%char :: enc_entries d))) []) (enc_entries (sig_entry (Some (g_sign G sk ("d"%char :: enc_entries d)))) ++ ["e"%char]) =
  if g_verify G (g_sign G sk ("d"%char :: enc_entries d)) ("d"%char :: enc_entries d) pk then Ok (Some (g_sign G sk ("d"%char :: enc_entries d))) else Err.
Proof. intros h. rewrite verify_sig_wire by exact h. unfold check_sig, sig_env. cbn [e_verifier]. reflexivity. Qed.
(** ** the laws needed for delivery *)
Lemma member_opens G o p sk xpk upk m nonce pks rest : lib_ok G -> binding (g_x G) -> g_xpk G (ko_pk o) = Some xpk -> member_in G o p sk xpk upk -> In upk pks -> length nonce = 24 ->
  for_us G p xpk nonce (flat_map (sealed_for (g_x G) m nonce (g_xsk G sk) xpk MEMBER_KEY) pks ++ rest) = Ok (Some m).
Proof.
  intros [hX hZ] hB hx [m1 m2 m3 m4] hin hn. unfold for_us, admin. rewrite m2, m3. cbn [of_opt bind]. unfold decrypt_for_multiple, multi_fields_ok.
  rewrite hn, (z_xsk G hZ), (z_xpk G hZ _ _ m3), (z_xpk G hZ _ _ hx). cbn [Nat.leb Nat.eqb andb negb orb].
  destruct (agree_key _ _ _ _ _ MEMBER_KEY m4) as (k & k1 & k2). rewrite k2. cbn [bind]. f_equal. apply first_open_common; auto.
  - intros c hc. exact (sealed_for_all _ _ _ _ _ _ _ _ hc).
  - exact (sealed_for_in _ _ _ _ _ _ _ _ _ hin k1).
Qed.
Lemma all_pks_in sids pks pk : all_pks sids = Ok pks -> length pk = 32 -> In (sid_of pk) sids -> In pk pks.
Proof.
  intros h hl hin. apply all_pks_spec in h as [_ h]. induction h as [|s p sids pks h1 h2 IH]; [destruct hin|]. destruct hin as [-> | hin]; [|right; auto].
  left. rewrite sid_of_pk in h1 by exact hl. congruence.
Qed.
Lemma sealed_48 X key nonce priv pub d pks : seal_ok X -> length key = 32 -> Forall (fun c => length c = 48) (flat_map (sealed_for X key nonce priv pub d) pks).
Proof. intros hX hk. apply Forall_forall. intros c hc. apply sealed_for_all in hc as (k & ->). rewrite (so_len X hX), hk. reflexivity. Qed.
(** a member who is in the list gets the new key *)
Lemma rekey_reaches G sids o m o' p sk xpk nonce gen key pks junk upk h ts :
  lib_ok G -> binding (g_x G) -> rekeyed G sids o m o' sk xpk nonce gen key pks junk -> member_in G o p sk xpk upk -> In (sid_of upk) sids ->
  key_pair G sk (ko_pk o) -> (0 <= gen)%Z -> ts_ok ts = true ->
  load_key_message G h m ts p = Ok (true, take_in h [(gen, (ts, key))] gen p).
Proof.
  intros hG hB hr hm hin hk hg hts. destruct hr. pose proof hG as [hX hZ].
  set (cs := flat_map (sealed_for (g_x G) key nonce (g_xsk G sk) xpk MEMBER_KEY) pks) in *.
  rewrite rk_msg0, signed_wire.
  assert (hrd : read_message G p (wire (rekey_entries nonce gen (x_seal (g_x G) (seed_hash G sk ADMIN_KEY) nonce key) (cs ++ junk))
      (Some (g_sign G sk ("d"%char :: enc_entries (rekey_entries nonce gen (x_seal (g_x G) (seed_hash G sk ADMIN_KEY) nonce key) (cs ++ junk))))) []) ts =
      Ok ([(gen, (ts, key))], gen, enc_entries (sig_entry (Some (g_sign G sk ("d"%char :: enc_entries (rekey_entries nonce gen (x_seal (g_x G) (seed_hash G sk ADMIN_KEY) nonce key) (cs ++ junk)))))) ++ ["e"%char])).
  { rewrite read_full with (xpk := xpk) (own := None); auto.
    - unfold cs. rewrite (member_opens G o p sk xpk upk) by (auto; exact (all_pks_in _ _ _ rk_pks0 (z_xpk G hZ _ _ (mi_upk _ _ _ _ _ _ hm)) hin)). reflexivity.
    - rewrite (mi_pk _ _ _ _ _ _ hm). exact rk_xpk0.
    - rewrite (so_len _ hX), rk_key0. reflexivity.
    - apply Forall_app. split; [apply sealed_48; auto|exact rk_junk_len0].
    - rewrite app_length. apply rk_junk0.
    - rewrite (mi_not_admin _ _ _ _ _ _ hm). reflexivity.
    - rewrite (mi_not_admin _ _ _ _ _ _ hm). discriminate. }
  rewrite (load_ok G h _ ts p _ _ _ (Some (g_sign G sk ("d"%char :: enc_entries (rekey_entries nonce gen (x_seal (g_x G) (seed_hash G sk ADMIN_KEY) nonce key) (cs ++ junk))))) hrd); [reflexivity|].
  rewrite verify_signed by apply (z_sign G hZ). rewrite (mi_pk _ _ _ _ _ _ hm), hk. reflexivity.
Qed.
(** and so does every administrator, whether in the list or not *)
Lemma rekey_reaches_admin G sids o m o' p sk xpk nonce gen key pks junk h ts :
  lib_ok G -> rekeyed G sids o m o' sk xpk nonce gen key pks junk -> ko_pk p = ko_pk o -> ko_sk p = Some sk ->
  key_pair G sk (ko_pk o) -> (0 <= gen)%Z -> ts_ok ts = true ->
  load_key_message G h m ts p = Ok (true, take_in h [(gen, (ts, key))] gen p).
Proof.
  intros hG hr hpk hsk hk hg hts. destruct hr. pose proof hG as [hX hZ].
  set (cs := flat_map (sealed_for (g_x G) key nonce (g_xsk G sk) xpk MEMBER_KEY) pks) in *.
  rewrite rk_msg0, signed_wire.
  assert (hrd : read_message G p (wire (rekey_entries nonce gen (x_seal (g_x G) (seed_hash G sk ADMIN_KEY) nonce key) (cs ++ junk))
      (Some (g_sign G sk ("d"%char :: enc_entries (rekey_entries nonce gen (x_seal (g_x G) (seed_hash G sk ADMIN_KEY) nonce key) (cs ++ junk))))) []) ts =
      Ok ([(gen, (ts, key))], gen, enc_entries (sig_entry (Some (g_sign G sk ("d"%char :: enc_entries (rekey_entries nonce gen (x_seal (g_x G) (seed_hash G sk ADMIN_KEY) nonce key) (cs ++ junk)))))) ++ ["e"%char])).
  { rewrite read_full with (xpk := xpk) (own := Some key); auto.
    - unfold for_us, admin. rewrite hsk, rk_nonce0. reflexivity.
    - rewrite hpk. exact rk_xpk0.
    - rewrite (so_len _ hX), rk_key0. reflexivity.
    - apply Forall_app. split; [apply sealed_48; auto|exact rk_junk_len0].
    - rewrite app_length. apply rk_junk0.
    - rewrite hsk, (so_open _ hX). reflexivity.
    - discriminate. }
  rewrite (load_ok G h _ ts p _ _ _ (Some (g_sign G sk ("d"%char :: enc_entries (rekey_entries nonce gen (x_seal (g_x G) (seed_hash G sk ADMIN_KEY) nonce key) (cs ++ junk))))) hrd); [reflexivity|].
  rewrite verify_signed by apply (z_sign G hZ). rewrite hpk, hk. reflexivity.
Qed.
