(** Key messages for others. *)
From Verif Require Import LeftSpec KeyList_facts Bt_facts Parse_facts Dump_facts Keys_facts Keys2_facts Keys3_facts Hex_facts Multi_facts Keys4_facts Keys5_facts.

Lemma first_open_none X key nonce cs : (forall c, In c cs -> x_open X key (firstn 24 nonce) c = None) -> first_open X key nonce cs = None.
Proof.
  induction cs as [|c cs IH]; intros h; [reflexivity|]. cbn [first_open]. unfold decrypt_multi. rewrite (h c (or_introl eq_refl)).
  rewrite IH by (intros x hx; apply h; right; exact hx). destruct (Nat.ltb _ _); reflexivity.
Qed.
Lemma listed_pks sids pks r : all_pks sids = Ok pks -> In r pks -> exists s, In s sids /\ session_id_pk s (b "05") = Ok r.
Proof.
  intros h hin. apply all_pks_spec in h as [_ h]. induction h as [|s p sids pks h1 h2 IH]; [destruct hin|].
  destruct hin as [-> | hin]; [exists s; split; [left; reflexivity|exact h1]|]. destruct (IH hin) as (s' & h3 & h4). exists s'. split; [right; exact h3|exact h4].
Qed.
Lemma for_listed G sk xpk sids pks t nonce c : all_pks sids = Ok pks -> In c (flat_map (sealed_for (g_x G) t nonce (g_xsk G sk) xpk MEMBER_KEY) pks) ->
  exists r kr, listed_key G sk xpk sids r kr /\ c = x_seal (g_x G) kr (firstn 24 nonce) t.
Proof.
  intros h hc. apply in_flat_map in hc as (r & hr & hc). unfold sealed_for in hc. destruct (multi_key _ _ _ _ _ _) as [kr| | | |] eqn:E; try contradiction hc.
  destruct hc as [<-|[]]. destruct (listed_pks _ _ _ h hr) as (s & h1 & h2). unfold multi_key in E. destruct (x_dh (g_x G) (g_xsk G sk) r) as [secret|] eqn:Ed; [|discriminate]. cbn [of_opt bind] in E. injection E as <-. exists r, (x_kdf (g_x G) MEMBER_KEY (secret ++ xpk ++ r)). split; [exists s, secret; auto|reflexivity].
Qed.
Lemma for_us_none G p upk kp xpk nonce es m : shared_key G upk p kp -> g_xpk G (ko_pk p) = Some xpk -> ko_sk p = None ->
  (forall c, In c es -> x_open (g_x G) kp (firstn 24 nonce) c = None) -> for_us G p xpk nonce es = Ok m -> m = None.
Proof.
  intros (x & secret & h1 & h2 & h3 & h4) hx hs hc h. unfold for_us, admin in h. rewrite hs, h1 in h. cbn [of_opt bind] in h. unfold decrypt_for_multiple in h.
  destruct (negb _ || negb _); [discriminate|]. assert (x = xpk) by congruence. subst x. unfold multi_key in h. rewrite h3 in h. cbn [of_opt bind] in h. change (firstn 64 MEMBER_KEY) with MEMBER_KEY in h. rewrite <- h4 in h. rewrite first_open_none in h by exact hc. congruence.
Qed.
Lemma read_rekey_nothing G p upk kp xpk nonce gen ak es sig ts ks g s : shared_key G upk p kp -> g_xpk G (ko_pk p) = Some xpk -> ko_sk p = None ->
  length nonce = 24 -> int64_ok gen = true -> length ak = 48 -> Forall (fun c => length c = 48) es -> (forall c, In c es -> x_open (g_x G) kp (firstn 24 nonce) c = None) ->
  read_message G p (wire (rekey_entries nonce gen ak es) (Some sig) []) ts = Ok (ks, g, s) -> ks = [].
Proof.
  intros hk hx hs h1 h2 h3 h4 hc h. unfold wire, rekey_entries in h. cbn [app] in h. unfold read_message in h. rewrite hx in h. cbn [of_opt bind] in h.
  rewrite require_str in h by (try reflexivity; apply str_ok_short; lia). cbn [bind] in h. rewrite find_not in h by reflexivity. cbn [bind] in h.
  destruct (ts_ok ts); [|discriminate]. cbn [negb] in h. rewrite require_int in h by (auto; reflexivity). cbn [bind] in h. destruct (gen <? 0)%Z; [discriminate|].
  rewrite require_str in h by (try reflexivity; apply str_ok_short; lia). cbn [bind] in h. rewrite h3 in h. change (Nat.eqb 48 48) with true in h. cbn [negb] in h. rewrite hs in h. cbn [bind] in h.
  rewrite require_list in h by (try reflexivity; apply str48_ok; exact h4). cbn [bind] in h. rewrite str_list_map in h. cbn [of_opt bind] in h. rewrite existsb_48 in h by exact h4.
  destruct (for_us G p xpk nonce es) as [m| | | |] eqn:E; try discriminate. cbn [bind] in h. apply (for_us_none G p upk kp xpk nonce es m hk hx hs hc) in E. subst m.
  match type of h with (if ?q then _ else _) = _ => destruct q end; [discriminate|]. injection h as h _ _. symmetry. exact h.
Qed.
Lemma read_supp_nothing G p upk kp xpk nonce gen es sig ts ks g s : shared_key G upk p kp -> g_xpk G (ko_pk p) = Some xpk -> ko_sk p = None ->
  length nonce = 24 -> bt_ok (BList (map BStr es)) = true -> (forall c, In c es -> x_open (g_x G) kp (firstn 24 nonce) c = None) ->
  read_message G p (wire (supp_entries nonce gen es) (Some sig) []) ts = Ok (ks, g, s) -> ks = [].
Proof.
  intros hk hx hs h1 h2 hc h. unfold wire, supp_entries in h. cbn [app] in h. unfold read_message in h. rewrite hx in h. cbn [of_opt bind] in h.
  rewrite require_str in h by (try reflexivity; apply str_ok_short; lia). cbn [bind] in h. rewrite find_here in h by reflexivity. cbn [bind] in h.
  unfold take_list in h. rewrite consume_enc in h by (auto; reflexivity). cbn [bind] in h. rewrite str_list_map in h. cbn [of_opt bind] in h.
  match type of h with (if ?q then _ else _) = _ => destruct q end; [discriminate|].
  destruct (for_us G p xpk nonce es) as [m| | | |] eqn:E; try discriminate. cbn [bind] in h. apply (for_us_none G p upk kp xpk nonce es m hk hx hs hc) in E. subst m. cbn [bind] in h.
  match type of h with (bind ?q _ = _) => destruct q as [[? ?]| | | |]; try discriminate end. cbn [bind fst snd] in h. injection h as h _ _. symmetry. exact h.
Qed.
Lemma bt_ok_rekey nonce gen ak es sig : length nonce = 24 -> int64_ok gen = true -> length ak = 48 -> Forall (fun c => length c = 48) es -> length sig = 64 ->
  bt_ok (BDict [(b "#", BStr nonce); (b "G", BInt gen); (b "K", BStr ak); (b "k", BList (map BStr es)); (b "~", BStr sig)]) = true.
Proof.
  intros h1 h2 h3 h4 h5. apply str48_ok in h4. cbn [bt_ok forallb map fst snd]. cbn [bt_ok] in h4. rewrite h4.
  rewrite (str_ok_short nonce), (str_ok_short ak), (str_ok_short sig) by lia. assert (hg : btint_ok gen = true) by (unfold int64_ok, int64_min, int64_max in h2; unfold btint_ok, uint64_max; apply andb_true_iff in h2 as [h6 h7]; apply Z.leb_le in h6, h7; apply andb_true_iff; split; apply Z.leb_le; lia). rewrite hg. reflexivity.
Qed.
Lemma bt_ok_within d sig cs m nonce gen : m = wire (supp_entries nonce gen cs) (Some sig) d -> (N.of_nat (length m) <= uint64_max)%N -> bt_ok (BList (map BStr cs)) = true.
Proof.
  intros hmw hlen. cbn [bt_ok]. apply forallb_forall. intros v hv. apply in_map_iff in hv as (c & <- & hc). cbn [bt_ok]. unfold str_ok. apply N.leb_le.
  apply enc_list_len in hc. assert (hb : length (enc (BList (map BStr cs))) <= length m).
  { rewrite hmw. unfold wire. cbn [length]. rewrite app_length, enc_entries_app, app_length.
    pose proof (enc_in_entries (supp_entries nonce gen cs) _ _ (or_intror (or_introl eq_refl))). lia. }
  lia.
Qed.
Lemma sent_nothing G p upk kp m ts h ks gen s : lib_ok G -> shared_key G upk p kp -> ko_sk p = None -> sent_without G p upk kp (h, m, ts) -> read_message G p m ts = Ok (ks, gen, s) -> ks = [].
Proof.
  intros hG hk hs hm hr. pose proof hG as [hX hZ]. inversion hm as [o sk xpk sids m' o' h' ts' h1 h2 h3 h4 h5 h6 h7 | o sk xpk sids m' h' ts' h1 h2 h3 h4 h5 h6 h7]; subst.
  - assert (hl : forall r kr, listed_key G sk xpk sids r kr -> r <> upk) by (intros r0 kr (s0 & z0 & l1 & l2 & _) ->; exact (h4 s0 l1 l2)). destruct (rekey_spec G sids o m o' hG h7) as (sk' & xpk' & nonce & gen' & key & pks & junk & []).
    assert (sk' = sk) by congruence. assert (xpk' = xpk) by congruence. subst sk' xpk'. rewrite signed_wire in rk_msg.
    set (es := flat_map (sealed_for (g_x G) key nonce (g_xsk G sk) xpk MEMBER_KEY) pks ++ junk) in *. rewrite h1 in h3.
    match type of rk_msg with _ = wire _ (Some ?q) _ => set (sig := q) in * end.
    rewrite rk_msg in hr. apply (read_rekey_nothing G p upk kp xpk nonce gen' _ es sig ts ks gen s hk h3 hs) in hr; auto.
    + rewrite (so_len _ hX), rk_key. reflexivity.
    + apply Forall_app. split; [apply sealed_48; auto|exact rk_junk_len].
    + intros c hc. assert (hf : firstn 24 nonce = nonce) by (apply firstn_all2; lia). rewrite hf.
      assert (hbt : bt_ok (BDict (rekey_entries nonce gen' (x_seal (g_x G) (seed_hash G sk ADMIN_KEY) nonce key) es ++ sig_entry (Some sig))) = true).
      { unfold rekey_entries, sig_entry. cbn [app]. apply bt_ok_rekey; auto; [rewrite (so_len _ hX), rk_key; reflexivity|apply Forall_app; split; [apply sealed_48; auto|exact rk_junk_len]|apply (z_sign G hZ)]. }
      destruct (h6 nonce gen' _ es sig rk_msg hbt c hc) as [(r & kr & t & k1 & ->) | k1]; [exact (h5 r kr _ _ k1 (hl _ _ k1))|exact k1].
  - assert (hl : forall r kr, listed_key G sk xpk sids r kr -> r <> upk) by (intros r0 kr (s0 & z0 & l1 & l2 & _) ->; exact (h4 s0 l1 l2)). destruct (supp_spec G sids o m hG h6) as (sk' & xpk' & nonce & newest & r & pks & k1 & k2 & k3 & k4 & k5 & k6 & k7).
    assert (sk' = sk) by congruence. assert (xpk' = xpk) by congruence. subst sk' xpk'. rewrite signed_wire in k7.
    set (es := flat_map _ pks) in *. rewrite h1 in h3. match type of k7 with _ = wire _ (Some ?q) _ => set (sig := q) in * end.
    pose proof (bt_ok_within [] sig es m nonce (k_gen newest) k7 h7) as hb. rewrite k7 in hr.
    apply (read_supp_nothing G p upk kp xpk nonce (k_gen newest) es sig ts ks gen s hk h3 hs) in hr; auto.
    intros c hc. destruct (for_listed _ _ _ _ _ _ _ _ k5 hc) as (r' & kr & j1 & ->). exact (h5 r' kr _ _ j1 (hl _ _ j1)).
Qed.
Lemma skip_gen_in g l k : In k (skip_gen g l) -> In k l.
Proof. induction l as [|x l IH]; [auto|]. cbn [skip_gen]. destruct (k_gen x =? g)%Z; [intros h; right; auto|auto]. Qed.
Lemma unexpired_in fuel newest k : forall l, In k (unexpired fuel newest l) -> In k l.
Proof.
  induction fuel as [|fuel IH]; intros l h; [exact h|]. cbn [unexpired] in h. destruct l as [|x r]; [exact h|]. destruct (skip_gen (k_gen x) r) as [|n r'] eqn:E; [exact h|].
  destruct (k_ts n + KEY_EXPIRY <? newest)%Z; [|exact h]. right. apply IH in h. rewrite <- E in h. exact (skip_gen_in _ _ _ h).
Qed.
Lemma expire_in l k : In k (expire_keys l) -> In k l.
Proof. unfold expire_keys. destruct l as [|x [|y r]]; [auto|auto|]. apply unexpired_in. Qed.
(** what stays when a message without keys for us arrives *)
Record no_more (p q : kobj) : Prop := {
  nm_user : ko_user q = ko_user p;
  nm_pk : ko_pk q = ko_pk p;
  nm_sk : ko_sk q = ko_sk p;
  nm_pconf : ko_pconf q = ko_pconf p;
  nm_pkey : ko_pkey q = ko_pkey p;
  nm_keys : forall k, In k (ko_keys q) -> In k (ko_keys p)
}.
Lemma receive_nothing G p upk kp m : lib_ok G -> shared_key G upk p kp -> ko_sk p = None -> sent_without G p upk kp m -> no_more p (receive G p m).
Proof.
  intros hG hk hs hm. destruct m as [[h m] ts]. unfold receive. cbn [fst snd]. destruct (load_key_message G h m ts p) as [[r o']| | | |] eqn:E; try (split; auto; fail).
  apply load_inv in E as (ks & gen & s & sig & h1 & h2 & h3 & h4). apply (sent_nothing G p upk kp m ts h ks gen s hG hk hs hm) in h1. subst ks. subst o'.
  split; try reflexivity. intros k hin. cbn in hin. apply expire_in in hin. exact hin.
Qed.
Lemma sent_keep G p q upk kp m : no_more p q -> sent_without G p upk kp m -> sent_without G q upk kp m.
Proof.
  intros [h1 h2 h3 h4 h5 h6] h. inversion h as [o sk xpk sids m' o' h' ts' k1 k2 k3 k4 k5 k6 k7 | o sk xpk sids m' h' ts' k1 k2 k3 k4 k5 k6 k7]; subst.
  - apply (sw_rekey G q upk kp o sk xpk sids m' o'); auto. rewrite h2. exact k1.
  - apply (sw_supplement G q upk kp o sk xpk sids m'); auto. rewrite h2. exact k1.
Qed.
Lemma receive_all_nothing G upk kp ms : lib_ok G -> forall p, shared_key G upk p kp -> ko_sk p = None -> Forall (sent_without G p upk kp) ms -> no_more p (receive_all G ms p).
Proof.
  intros hG. induction ms as [|m ms IH]; intros p hk hs hf; [split; auto|]. inversion hf as [|? ? h1 h2]; subst.
  change (receive_all G (m :: ms) p) with (receive_all G ms (receive G p m)). pose proof (receive_nothing G p upk kp m hG hk hs h1) as hn.
  assert (hk' : shared_key G upk (receive G p m) kp).
  { destruct hk as (x & secret & k1 & k2 & k3 & k4). exists x, secret. unfold user_pk in *. rewrite (nm_user _ _ hn), (nm_pk _ _ hn). auto. }
  assert (hs' : ko_sk (receive G p m) = None) by (rewrite (nm_sk _ _ hn); exact hs).
  assert (hf' : Forall (sent_without G (receive G p m) upk kp) ms) by (eapply Forall_impl; [|exact h2]; intros x hx; exact (sent_keep _ _ _ _ _ _ hn hx)).
  destruct (IH _ hk' hs' hf') as [a1 a2 a3 a4 a5 a6], hn as [b1 b2 b3 b4 b5 b6]. split; try congruence. auto.
Qed.
Lemma open_any_none G ks n c : (forall k, In k ks -> x_open (g_x G) k n c = None) -> open_any G ks n c = None.
Proof. induction ks as [|k ks IH]; intros h; [reflexivity|]. cbn [open_any]. rewrite (h k (or_introl eq_refl)). apply IH. intros x hx. apply h. right. exact hx. Qed.
Lemma no_more_keys p q k : no_more p q -> In k (decrypt_keys q) -> In k (decrypt_keys p).
Proof.
  intros [h1 h2 h3 h4 h5 h6] h. unfold decrypt_keys in *. rewrite h4, h5 in h. apply in_app_iff. apply in_app_iff in h as [h | h]; [left; exact h|right].
  apply in_map_iff in h as (x & <- & hx). apply in_map. auto.
Qed.
