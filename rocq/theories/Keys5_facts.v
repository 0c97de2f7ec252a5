(** Supplements, dump flag, rekey determinism. *)
From Verif Require Import KeysSpec KeyList_facts Bt_facts Parse_facts Dump_facts Keys_facts Keys2_facts Keys3_facts Hex_facts Multi_facts Keys4_facts.

Lemma read_infos_enc ks : forall fuel r, Forall key_fine ks -> length ks < fuel -> read_infos fuel (flat_map enc (map key_entry ks) ++ "e"%char :: r) = Ok ks.
Proof.
  induction ks as [|k ks IH]; intros fuel r hf hl; [destruct fuel; [cbn in hl; lia|reflexivity]|]. destruct fuel as [|fuel]; [cbn in hl; lia|]. inversion hf as [|? ? h1 h2]; subst.
  cbn [map flat_map]. rewrite <- app_assoc. pose proof (parse1_enc (key_entry k) (flat_map enc (map key_entry ks) ++ "e"%char :: r) (key_entry_ok k h1)) as hp.
  destruct (enc_head (key_entry k)) as (c & t & hc & he). cbn [read_infos]. destruct (enc (key_entry k) ++ flat_map enc (map key_entry ks) ++ "e"%char :: r) as [|c' t'] eqn:E; [rewrite hc in E; discriminate|].
  rewrite hc in E. injection E as <- _. rewrite he, hp, read_key_entry by exact h1. cbn [bind]. cbn [length] in hl. rewrite IH by (auto; lia). reflexivity.
Qed.
Lemma dec_len n : 1 <= length (dec n).
Proof. destruct (dec_head n) as (c & r & -> & _). cbn. lia. Qed.
Lemma enc_int_len z : 3 <= length (enc_int z).
Proof. unfold enc_int. cbn [length]. rewrite app_length. cbn [length]. destruct (z <? 0)%Z; cbn [length]; pose proof (dec_len (Z.to_N (- z))); pose proof (dec_len (Z.to_N z)); lia. Qed.
Lemma key_entry_len k : length (k_key k) = 32 -> 52 <= length (enc (key_entry k)).
Proof.
  intros h. unfold key_entry. change (enc (BDict ?d)) with ("d"%char :: enc_entries d ++ b "e"). cbn [length]. rewrite app_length, !enc_entries_cons, !app_length.
  change (enc (BInt ?z)) with (enc_int z). change (enc (BStr ?z)) with (enc_str z). pose proof (enc_int_len (k_gen k)). pose proof (enc_int_len (k_ts k)).
  assert (hs : length (enc_str (k_key k)) = 35) by (unfold enc_str; rewrite h, app_length; cbn [length]; rewrite h; reflexivity).
  rewrite hs. change (length (enc_str (b "g"))) with 3. change (length (enc_str (b "k"))) with 3. change (length (enc_str (b "t"))) with 3. change (length (b "e")) with 1. lia.
Qed.
Definition supp_entries (nonce : bytes) (gen : Z) (cs : list bytes) : btdict := [(b "#", BStr nonce); (b "+", BList (map BStr cs)); (b "G", BInt gen)].
Definition supp_text (o : kobj) : bytes := enc (BList (map key_entry (ko_keys o))).
Lemma supp_spec G sids o m : lib_ok G -> key_supplement G sids o = Ok m -> exists sk xpk nonce newest r pks,
  ko_sk o = Some sk /\ g_xpk G (ko_pk o) = Some xpk /\ length nonce = 24 /\ rev (ko_keys o) = newest :: r /\ all_pks sids = Ok pks /\
  flat_map (sealed_for (g_x G) (supp_text o) nonce (g_xsk G sk) xpk MEMBER_KEY) pks <> [] /\
  m = signed G sk (supp_entries nonce (k_gen newest) (flat_map (sealed_for (g_x G) (supp_text o) nonce (g_xsk G sk) xpk MEMBER_KEY) pks)).
Proof.
  intros [hX hZ] h. unfold key_supplement in h. destruct (ko_sk o) as [sk|] eqn:Es; [|discriminate]. destruct (rev (ko_keys o)) as [|newest r] eqn:Er; [discriminate|].
  step h. rename a into xpk. cbv zeta in h. fold (supp_text o) in h. set (nonce := g_hash G 24 _ _) in *. assert (hn : length nonce = 24) by apply (z_hash G hZ).
  step h. rename a into pks. step h. apply encrypt_one in E1 as (-> & _). destruct (g_xpk G (ko_pk o)) as [x|] eqn:Ex; [|discriminate]. injection E as <-.
  destruct (flat_map _ _) as [|c cs] eqn:Ef in h; [discriminate|]. injection h as <-. exists sk, x, nonce, newest, r, pks. rewrite Ef.
  repeat split; auto. discriminate.
Qed.
Lemma supp_reaches G sids o m p upk h ts : lib_ok G -> binding (g_x G) -> kinv o -> key_supplement G sids o = Ok m -> (N.of_nat (length m) <= uint64_max)%N ->
  (forall sk xpk, ko_sk o = Some sk -> g_xpk G (ko_pk o) = Some xpk -> member_in G o p sk xpk upk /\ key_pair G sk (ko_pk o)) -> In (sid_of upk) sids ->
  exists gen, load_key_message G h m ts p = Ok (true, take_in h (ko_keys o) gen p).
Proof.
  intros hG hB ho hs hlen hm hin. pose proof hG as [hX hZ]. destruct (supp_spec G sids o m hG hs) as (sk & xpk & nonce & newest & r & pks & h1 & h2 & h3 & h4 & h5 & h6 & h7).
  destruct (hm sk xpk h1 h2) as [hmem hkp]. clear hm hs. exists (k_gen newest).
  set (cs := flat_map (sealed_for (g_x G) (supp_text o) nonce (g_xsk G sk) xpk MEMBER_KEY) pks) in *.
  assert (hnew : In newest (ko_keys o)) by (apply in_rev; rewrite h4; left; reflexivity).
  assert (hgen : int64_ok (k_gen newest) = true) by (pose proof (ki_fine o ho) as hf; rewrite Forall_forall in hf; apply hf; exact hnew).
  set (sig := g_sign G sk ("d"%char :: enc_entries (supp_entries nonce (k_gen newest) cs))).
  assert (hmw : m = wire (supp_entries nonce (k_gen newest) cs) (Some sig) []) by (rewrite h7; apply signed_wire).
  assert (hcs : bt_ok (BList (map BStr cs)) = true).
  { cbn [bt_ok]. apply forallb_forall. intros v hv. apply in_map_iff in hv as (c & <- & hc). cbn [bt_ok]. unfold str_ok. apply N.leb_le.
    apply enc_list_len in hc. assert (hb : length (enc (BList (map BStr cs))) <= length m).
    { rewrite hmw. unfold wire. cbn [length]. rewrite app_length, enc_entries_app, app_length.
      pose proof (enc_in_entries (supp_entries nonce (k_gen newest) cs) _ _ (or_intror (or_introl eq_refl))). lia. }
    lia. }
  assert (hmin : existsb (fun c : bytes => Nat.ltb (length c) (52 + ABYTES)) cs = false).
  { apply not_true_iff_false. intros hx. apply existsb_exists in hx as (c & hc & hl). apply Nat.ltb_lt in hl. apply sealed_for_all in hc as (k & ->). rewrite (so_len _ hX) in hl.
    assert (52 <= length (supp_text o)); [|lia]. unfold supp_text. apply in_split in hnew as (l1 & l2 & hnew).
    assert (hin2 : In (key_entry newest) (map key_entry (ko_keys o))) by (apply in_map; apply in_rev; rewrite h4; left; reflexivity).
    apply enc_in_list in hin2. pose proof (ki_fine o ho) as hf. rewrite Forall_forall in hf.
    assert (hk : length (k_key newest) = 32) by (apply hf; apply in_rev; rewrite h4; left; reflexivity). pose proof (key_entry_len newest hk). lia. }
  assert (hrd : read_message G p m ts = Ok (ko_keys o, k_gen newest, enc_entries (sig_entry (Some sig)) ++ ["e"%char])).
  { rewrite hmw. unfold wire, supp_entries. cbn [app]. unfold read_message. rewrite (mi_pk _ _ _ _ _ _ hmem), h2. cbn [of_opt bind].
    rewrite require_str by (try reflexivity; apply str_ok_short; lia). cbn [bind]. rewrite find_here by reflexivity. cbn [bind].
    unfold take_list. rewrite consume_enc by (auto; reflexivity). cbn [bind]. rewrite str_list_map. cbn [of_opt bind].
    match goal with |- context [if ?q then Throw else _] => replace q with false by (symmetry; exact hmin) end.
    assert (hfor : for_us G p xpk nonce cs = Ok (Some (supp_text o))).
    { rewrite <- (app_nil_r cs). apply (member_opens G o p sk xpk upk); auto. exact (all_pks_in _ _ _ h5 (z_xpk G hZ _ _ (mi_upk _ _ _ _ _ _ hmem)) hin). }
    rewrite hfor. cbn [bind]. unfold supp_text. cbn [enc]. rewrite read_infos_enc.
    - cbn [bind]. rewrite require_int by (auto; reflexivity). reflexivity.
    - apply ho.
    - rewrite app_length. assert (hl : forall ks, length ks <= length (flat_map enc (map key_entry ks))).
      { induction ks as [|k ks IH]; [apply le_n|]. cbn [map flat_map length]. rewrite app_length. pose proof (enc_length (key_entry k)). lia. }
      specialize (hl (ko_keys o)). lia. }
  rewrite (load_ok G h m ts p _ _ _ (Some sig) hrd).
  - destruct (ko_keys o); [destruct hnew|reflexivity].
  - rewrite hmw. unfold sig. rewrite verify_signed by apply (z_sign G hZ). rewrite (mi_pk _ _ _ _ _ _ hmem), hkp. reflexivity.
Qed.
Lemma one_time_inv o : kinv o -> one_time (fun k => In k (ko_keys o)).
Proof.
  intros ho x y hx hy hg hk. pose proof (ki_ids o ho) as hd. induction (ko_keys o) as [|k l IH]; [destruct hx|]. cbn [map] in hd. inversion hd as [|? ? h1 h2]; subst.
  assert (hid : key_id x = key_id y) by (unfold key_id; congruence).
  destruct hx as [-> | hx], hy as [-> | hy]; auto; exfalso; apply h1; [rewrite hid|rewrite <- hid]; apply in_map; assumption.
Qed.
(** taking in all keys of a list, when starting without any *)
Lemma take_all h ks gen o p : kinv o -> ks = ko_keys o -> in_step (fun k => In k ks) -> ko_keys p = [] -> ko_active p = [] -> ko_keys (take_in h ks gen p) = ks.
Proof.
  intros ho hks hm h1 h2. destruct ks as [|k ks]; [unfold take_in; unfold remove_expired; cbn [with_keys ko_keys]; rewrite h1; reflexivity|].
  unfold take_in. destruct (drop_pending_keys (k :: ks) p) as [q1 q2].
  assert (ht : tracked [] (drop_pending (k :: ks) p)) by (apply tracked_nil; congruence).
  assert (hsub : forall y, In y (k :: ks) \/ known [] y -> In y (k :: ks)) by (intros y [hy|(? & [])]; exact hy).
  pose proof (tracked_inserts h (k :: ks) [] _ ht) as htr. destruct htr as [(T & t1 & t2 & t3) _ _].
  - refine (in_step_incl _ _ _ hm). exact hsub.
  - intros y z hy hz. pose proof (one_time_inv o ho) as ho1. rewrite <- hks in ho1. apply ho1; apply hsub; assumption.
  - rewrite t3. assert (hT : T = k :: ks).
    { apply ssorted_ext; [exact t1|rewrite hks; apply ho|]. intros y. rewrite t2. unfold known. rewrite app_nil_r. split.
      - intros (h' & hy). apply in_map_iff in hy as (z & [= _ <-] & hz). apply in_rev. exact hz.
      - intros hy. exists h. apply in_map_iff. exists y. split; [reflexivity|]. apply in_rev in hy. exact hy. }
    rewrite hT, hks. apply ho.
Qed.
(** ** dump flag *)
Lemma insert_flag h x o : ko_needs_dump (insert_key h x o) = true \/ insert_key h x o = o \/
  (existsb (fun y => same_key y x) (ko_keys o) = true /\ ko_needs_dump (insert_key h x o) = ko_needs_dump o /\ ko_keys (insert_key h x o) = ko_keys o).
Proof. unfold insert_key. destruct (existsb _ _) eqn:E; [right; right; auto|]. destruct (stale _ _); auto. Qed.
Lemma insert_flag_mono h x o : ko_needs_dump o = true -> ko_needs_dump (insert_key h x o) = true.
Proof. intros h0. unfold insert_key. destruct (existsb _ _); [exact h0|]. destruct (stale _ _); auto. Qed.
Lemma inserts_flag_mono h ks : forall o, ko_needs_dump o = true -> ko_needs_dump (fold_left (fun o k => insert_key h k o) ks o) = true.
Proof. induction ks as [|k ks IH]; intros o ho; [exact ho|]. cbn [fold_left]. apply IH. apply insert_flag_mono. exact ho. Qed.
Lemma inserts_flag h ks : forall o, (forall k y, In k ks -> In y (ko_keys o) -> same_key y k = false) ->
  let o' := fold_left (fun o k => insert_key h k o) ks o in ko_needs_dump o' = true \/ o' = o.
Proof.
  induction ks as [|k ks IH]; intros o ho; [right; reflexivity|]. cbn [fold_left]. destruct (insert_flag h k o) as [h1|[h1|(h1 & _)]].
  - left. apply inserts_flag_mono. exact h1.
  - rewrite h1. apply IH. intros k' y hk hy. apply ho; [right; exact hk|exact hy].
  - apply existsb_exists in h1 as (y & y1 & y2). rewrite (ho k y (or_introl eq_refl) y1) in y2. discriminate.
Qed.
Lemma kdump_ext o o' : ko_keys o = ko_keys o' -> ko_active o = ko_active o' -> ko_pconf o = ko_pconf o' -> ko_pgen o = ko_pgen o' -> ko_pkey o = ko_pkey o' -> kdump o = kdump o'.
Proof. intros h1 h2 h3 h4 h5. unfold kdump. rewrite h1, h2, h3, h4, h5. reflexivity. Qed.
Lemma take_flag h ks gen o : (forall k y, In k ks -> In y (ko_keys o) -> same_key y k = false) -> let o' := take_in h ks gen o in ko_needs_dump o' = true \/ kdump o' = kdump o.
Proof.
  intros hd. cbv zeta. unfold take_in. destruct ks as [|k ks]; [left; reflexivity|]. destruct (drop_pending_keys (k :: ks) o) as [q1 q2].
  destruct (inserts_flag h (k :: ks) (drop_pending (k :: ks) o)) as [h1|h1]; [rewrite q1; exact hd|left; exact h1|]. rewrite h1.
  unfold drop_pending. destruct (_ && _); [left; reflexivity|right; reflexivity].
Qed.
