(** Proofs of C53 and C59: pruning and iterating conversations. *)
From Verif Require Import ConvoSpec Data_facts Fields_facts Base_facts Conf2_facts Maps Hex_facts Message_facts Records_facts Contacts_facts Members_facts Community_facts UserGroups_facts UserGroups2_facts UserGroups3_facts UserGroups4_facts Convo_facts.
From Coq Require Import Lia.

Lemma prefix_first k : prefix_of k = to_hex [first_of k].
Proof. destruct k; reflexivity. Qed.
Lemma convo_list_spec k st : usable st -> ssorted (map fst (convo_list k st)) /\
  forall sid c, In (sid, c) (convo_list k st) <-> make_lc sid = sid /\ convo_get st k sid = Ok (Some c).
Proof.
  intros hu. pose proof (ids_list_spec (first_of k) (top_of k) (fun _ => load_cbase) (s_data st) (convo_list k st) (proj1 hu) eq_refl) as h. rewrite <- prefix_first in h. exact h.
Qed.
Lemma lc_get st k sid : convo_get st k (make_lc sid) = convo_get st k sid \/ session_id_ok sid (prefix_of k) = false.
Proof.
  destruct (session_id_ok sid (prefix_of k)) eqn:e; [left|right; reflexivity]. destruct (sid_ok_key _ _ e) as [pk ek]. unfold convo_get. rewrite ek.
  assert (hp : make_lc (prefix_of k) = prefix_of k) by (destruct k; reflexivity). pose proof (lc_sid_ok _ _ _ hp ek) as h. apply sid_key in ek as [ek _]. rewrite <- (to_from_hex _ _ ek), (sid_to_bytes_hex _ _ h). reflexivity.
Qed.
Lemma lc_same_id sid sid' pr : session_id_ok sid pr = true -> same_id sid sid' = true -> session_id_ok sid' pr = true -> make_lc sid = make_lc sid'.
Proof.
  intros h1 h2 h3. destruct (sid_ok_key _ _ h1) as [p e1], (sid_ok_key _ _ h3) as [q e2]. rewrite (same_id_key _ _ _ _ _ e1 e2) in h2. apply eqb_eq in h2. subst q.
  apply sid_key in e1 as [e1 _], e2 as [e2 _]. rewrite <- (to_from_hex _ _ e1), <- (to_from_hex _ _ e2). reflexivity.
Qed.
Lemma same_id_lc sid : forall pr, session_id_ok sid pr = true -> make_lc pr = pr -> same_id sid (make_lc sid) = true.
Proof.
  intros pr h hp. destruct (sid_ok_key _ _ h) as [p e]. pose proof (lc_sid_ok _ _ _ hp e) as h'. apply sid_key in e as e'. destruct e' as [e' _]. pose proof (to_from_hex _ _ e') as e2. rewrite <- e2.
  rewrite (same_id_key _ _ _ _ _ e (sid_to_bytes_hex _ _ h')). apply eqb_refl.
Qed.

(** ** erasing several *)
Lemma erase_ids B k l : forall st st', usable st -> erase_each (convo_erase B k) l st = (Ok tt, st') ->
  usable st' /\ (forall j sid, session_id_ok sid (prefix_of j) = true -> convo_get st' j sid = if kind_eqb j k && existsb (same_id sid) l then Ok None else convo_get st j sid) /\
  same_below (b "o") (s_data st) (s_data st').
Proof.
  induction l as [|x l IH]; intros st st' hu h; cbn [erase_each existsb] in *.
  - injection h as <-. split; [exact hu|]. split; [intros; rewrite andb_false_r; reflexivity|]. intros p. reflexivity.
  - destruct (convo_erase B k x st) as [[y| | | |] st1] eqn:e; try discriminate. destruct (convo_erase_sees _ _ _ _ _ _ hu e) as (u1 & g1 & f1). destruct (IH _ _ u1 h) as (u2 & g2 & f2).
    split; [exact u2|]. split; [|intros p; rewrite f2; apply f1]. intros j sid hs. rewrite g2, g1 by exact hs. destruct (kind_eqb j k); cbn [andb]; [|reflexivity]. destruct (same_id sid x), (existsb (same_id sid) l); reflexivity.
Qed.
Definition names_room (url room : bytes) (p : bytes * bytes) : bool := match new_comm (fst p) (snd p) with Ok c => same_room url room c | _ => false end.
Lemma erase_comms B l : forall st st', usable st -> erase_each (fun p => ccomm_erase B (fst p) (snd p)) l st = (Ok tt, st') ->
  usable st' /\ (forall url room, ccomm_get st' url room = if existsb (names_room url room) l then Ok None else ccomm_get st url room) /\
  (forall y, y <> b "o" -> same_below y (s_data st) (s_data st')) /\ (canonical_keys st -> canonical_keys st').
Proof.
  induction l as [|x l IH]; intros st st' hu h; cbn [erase_each existsb] in *.
  - injection h as <-. split; [exact hu|]. split; [reflexivity|]. split; [intros y _ p; reflexivity|auto].
  - destruct (ccomm_erase B (fst x) (snd x) st) as [[y| | | |] st1] eqn:e; try discriminate. unfold names_room at 1. destruct (new_comm (fst x) (snd x)) as [og| | | |] eqn:eo; try (unfold ccomm_erase, comm_erase in e; rewrite eo in e; discriminate).
    destruct (ccomm_erase_sees _ _ _ _ _ _ _ hu eo e) as (u1 & g1 & f1 & c1). destruct (IH _ _ u1 h) as (u2 & g2 & f2 & c2).
    split; [exact u2|]. split; [|split; [intros y' hy p; rewrite f2 by exact hy; apply f1, hy|auto]]. intros url room. rewrite g2, g1. destruct (same_room url room og), (existsb (names_room url room) l); reflexivity.
Qed.
Lemma stale_ids_are now k st sid : usable st -> session_id_ok sid (prefix_of k) = true ->
  existsb (same_id sid) (stale_ids now k st) = match convo_get st k sid with Ok (Some c) => stale now c | _ => false end.
Proof.
  intros hu hs. destruct (convo_list_spec k st hu) as [_ hl]. assert (hp : make_lc (prefix_of k) = prefix_of k) by (destruct k; reflexivity).
  assert (hlc : convo_get st k (make_lc sid) = convo_get st k sid) by (destruct (lc_get st k sid) as [h|h]; congruence).
  destruct (existsb (same_id sid) (stale_ids now k st)) eqn:e.
  - apply existsb_exists in e as (sid' & h1 & h2). unfold stale_ids in h1. apply in_map_iff in h1 as ([s c] & h3 & h4). cbn [fst] in h3. subst s. apply filter_In in h4 as [h4 h5]. cbn [snd] in h5. apply hl in h4 as [h6 h7].
    assert (hs' : session_id_ok sid' (prefix_of k) = true). { unfold convo_get in h7. unfold session_id_to_bytes in h7. destruct (session_id_ok sid' (prefix_of k)); [reflexivity|discriminate]. }
    rewrite <- hlc, (lc_same_id _ _ _ hs h2 hs'), h6, h7. symmetry. exact h5.
  - destruct (convo_get st k sid) as [[c|]| | | |] eqn:eg; try reflexivity. destruct (stale now c) eqn:es; [|reflexivity]. exfalso. apply Bool.not_true_iff_false in e. apply e. apply existsb_exists. exists (make_lc sid).
    split; [|exact (same_id_lc sid _ hs hp)]. unfold stale_ids. apply in_map_iff. exists (make_lc sid, c). split; [reflexivity|]. apply filter_In. split; [|exact es]. apply hl. split; [apply lc_lc|congruence].
Qed.

(** ** visiting communities *)
Definition stored_ccomm (d : dict) (k : bytes * bytes) (c : ccomm) : Prop :=
  exists info pk rooms i, lookup (fst k) d = Some (VDict info) /\ maybe_str info (b "#") = Some pk /\ lookup (b "R") info = Some (VDict rooms) /\
    lookup (snd k) rooms = Some (VDict i) /\ (og <- new_comm (fst k) (snd k) ;; set_pubkey pk og) = Ok (cc_comm c) /\ cc_base c = load_cbase i.
Lemma visited_ccomm (d : dict) c : wf d = true -> In c (flat_map visit_cserver d) <-> exists k, stored_ccomm d k c.
Proof.
  intros hw. split.
  - intros h. apply in_flat_map in h as ([u v] & h1 & h2). apply (In_lookup _ _ _ (wf_sorted _ hw)) in h1. unfold visit_cserver in h2. cbn [fst snd] in h2. destruct v as [| |info]; try contradiction.
    destruct (maybe_str info (b "#")) as [pk|] eqn:ep; [|contradiction]. apply in_flat_map in h2 as ([r w] & h3 & h4). apply (In_lookup _ _ _ (rooms_of_sorted _ (wf_lookup _ _ _ hw h1))) in h3.
    unfold rooms_of in h3. rewrite ep in h3. destruct (lookup (b "R") info) as [[| |rooms]|] eqn:er; try discriminate. unfold visit_croom in h4. cbn [fst snd] in h4. destruct w as [| |i]; try contradiction.
    destruct (og <- new_comm u r ;; set_pubkey pk og) as [og| | | |] eqn:eo; try contradiction. destruct h4 as [<-|[]]. exists (u, r), info, pk, rooms, i. cbn [fst snd cc_comm cc_base]. auto 8.
  - intros (k & info & pk & rooms & i & h1 & h2 & h3 & h4 & h5 & h6). apply in_flat_map. exists (fst k, VDict info). split; [apply lookup_In, h1|]. unfold visit_cserver. cbn [fst snd]. rewrite h2. unfold rooms_of. rewrite h2, h3.
    apply in_flat_map. exists (snd k, VDict i). split; [apply lookup_In, h4|]. unfold visit_croom. cbn [fst snd]. rewrite h5. left. destruct c as [c0 cb]. cbn [cc_comm cc_base] in *. congruence.
Qed.
Lemma ccomms_wf st d : usable st -> dict_at [] (b "o") (s_data st) = Some d -> wf d = true.
Proof. intros hu e. unfold dict_at in e. rewrite field_nil in e. destruct (lookup (b "o") (s_data st)) as [[| |d']|] eqn:eo; try discriminate. injection e as ->. exact (wf_lookup _ _ _ (proj1 hu) eo). Qed.
(** with canonical keys: what get_community finds, if the server's key is valid *)
Lemma ccomms_list_spec st c : usable st -> canonical_keys st ->
  In c (ccomms_list st) <-> ccomm_get st (co_url (cc_comm c)) (co_room (cc_comm c)) = Ok (Some c) /\ co_pub (cc_comm c) <> [].
Proof.
  intros hu hc. unfold ccomms_list. split.
  - intros h. destruct (dict_at [] (b "o") (s_data st)) as [d|] eqn:e; [|destruct h]. pose proof (ccomms_wf _ _ hu e) as hw. apply (visited_ccomm _ _ hw) in h as ([u r] & info & pk & rooms & i & h1 & h2 & h3 & h4 & h5 & h6). cbn [fst snd] in *.
    assert (hf : field [b "o"; u; b "R"] r (s_data st) = Some (VDict i)).
    { rewrite field_cons. unfold dict_at in e. rewrite field_nil in e. destruct (lookup (b "o") (s_data st)) as [[| |d']|]; try discriminate. injection e as ->. rewrite field_cons, h1, field_cons, h3, field_nil. exact h4. }
    destruct (hc _ _ _ hf) as [c1 c2]. unfold new_comm in h5. rewrite c1, c2 in h5. cbn [bind] in h5. unfold set_pubkey in h5. destruct (Nat.eqb (length pk) 32) eqn:el; try discriminate. cbn [co_url co_norm co_room co_base] in h5.
    destruct c as [c cb]. cbn [cc_comm cc_base] in *. injection h5 as <-. cbn [co_url co_room co_pub]. rewrite (ccomm_get_read st u r u r c1 c2). unfold dict_at. rewrite hf. cbn [option_map].
    assert (hk : server_key st u = pk).
    { unfold server_key. rewrite field_cons. unfold dict_at in e. rewrite field_nil in e. destruct (lookup (b "o") (s_data st)) as [[| |d']|]; try discriminate. injection e as ->. rewrite field_cons, h1, field_nil. unfold maybe_str in h2. rewrite h2, el. reflexivity. }
    rewrite hk, h6. split; [reflexivity|]. intros ->. discriminate.
  - intros [h hk]. destruct (canonical_url (co_url (cc_comm c))) as [u| | | |] eqn:eu; try (unfold ccomm_get, new_comm in h; destruct (canonical_room (co_room (cc_comm c))); cbn [bind] in h; try discriminate; rewrite eu in h; discriminate).
    destruct (canonical_room (co_room (cc_comm c))) as [r| | | |] eqn:er; try (unfold ccomm_get in h; rewrite er in h; discriminate).
    rewrite (ccomm_get_read _ _ _ _ _ eu er) in h. destruct (dict_at [b "o"; u; b "R"] r (s_data st)) as [i|] eqn:ei; [|discriminate]. cbn [option_map] in h.
    assert (hcc : c = mkCC (mkComm u r r (server_key st u) new_gbase) (load_cbase i)) by congruence. clear h. subst c. cbn [cc_comm co_url co_room co_pub] in *.
    unfold dict_at in ei |- *. rewrite field_cons in ei. rewrite field_nil. destruct (lookup (b "o") (s_data st)) as [[| |d]|] eqn:eo; try discriminate.
    assert (hw : wf d = true) by exact (wf_lookup _ _ _ (proj1 hu) eo). apply (visited_ccomm _ _ hw). exists (u, r). rewrite field_cons in ei. destruct (lookup u d) as [[| |info]|] eqn:ed; try discriminate. rewrite field_cons in ei.
    destruct (lookup (b "R") info) as [[| |rooms]|] eqn:eR; try discriminate. rewrite field_nil in ei. destruct (lookup r rooms) as [[| |i']|] eqn:ero; try discriminate. injection ei as ->.
    unfold server_key in *. rewrite field_cons, eo, field_cons, ed, field_nil in *. destruct (as_str (lookup (b "#") info)) as [pk|] eqn:ep; [|congruence]. destruct (Nat.eqb (length pk) 32) eqn:el; [|congruence].
    exists info, pk, rooms, i. cbn [fst snd cc_comm cc_base]. split; [exact ed|]. split; [exact ep|]. split; [exact eR|]. split; [exact ero|]. split; [|reflexivity]. unfold new_comm. rewrite eu, er. cbn [bind]. unfold set_pubkey. rewrite el. reflexivity.
Qed.
Lemma stale_comms_are now st url room : usable st -> canonical_keys st -> 
  existsb (names_room url room) (stale_comms now st) = match ccomm_get st url room with Ok (Some c) => stale now (cc_base c) && negb (is_nil (co_pub (cc_comm c))) | _ => false end.
Proof.
  intros hu hc. pose proof (fun c => ccomms_list_spec st c hu hc) as hl. destruct (existsb (names_room url room) (stale_comms now st)) eqn:e.
  - apply existsb_exists in e as (p & h1 & h2). unfold stale_comms in h1. apply in_map_iff in h1 as (c & <- & h4). apply filter_In in h4 as [h4 h5]. apply hl in h4 as [h6 h7]. unfold names_room in h2. cbn [fst snd] in h2.
    destruct (new_comm (co_url (cc_comm c)) (co_room (cc_comm c))) as [og| | | |] eqn:eo; try discriminate. apply new_comm_inv in eo as (u & r & e1 & e2 & ->). unfold same_room, same_server in h2. cbn [co_url co_norm] in h2.
    apply andb_prop in h2 as [h2 h3]. destruct (canonical_url url) as [u'| | | |] eqn:eu; try discriminate. destruct (canonical_room room) as [r'| | | |] eqn:er; try discriminate. apply eqb_eq in h2, h3. subst u' r'.
    assert (hg : ccomm_get st url room = Ok (Some c)) by (rewrite (ccomm_get_read st _ _ _ _ eu er), <- h6; symmetry; apply (ccomm_get_read st _ _ _ _ e1 e2)). rewrite hg, h5. destruct (co_pub (cc_comm c)); [contradiction|reflexivity].
  - destruct (ccomm_get st url room) as [[c|]| | | |] eqn:eg; try reflexivity. destruct (stale now (cc_base c) && negb (is_nil (co_pub (cc_comm c)))) eqn:es; [|reflexivity]. exfalso. apply Bool.not_true_iff_false in e. apply e. apply andb_prop in es as [es en].
    destruct (canonical_url url) as [u| | | |] eqn:eu; try (unfold ccomm_get, new_comm in eg; destruct (canonical_room room); cbn [bind] in eg; try discriminate; rewrite eu in eg; discriminate).
    destruct (canonical_room room) as [r| | | |] eqn:er; try (unfold ccomm_get in eg; rewrite er in eg; discriminate).
    assert (hcc : exists i, c = mkCC (mkComm u r r (server_key st u) new_gbase) (load_cbase i)). { rewrite (ccomm_get_read _ _ _ _ _ eu er) in eg. destruct (dict_at [b "o"; u; b "R"] r (s_data st)) as [i|]; [|discriminate]. exists i. cbn [option_map] in eg. congruence. }
    destruct hcc as [i hcc]. pose proof (url_fixed _ _ eu) as fu. pose proof (proj1 (room_fixed _ _ er)) as fr.
    apply existsb_exists. exists (u, r). split.
    + unfold stale_comms. apply in_map_iff. exists c. split; [subst c; reflexivity|]. apply filter_In. split; [|exact es]. apply hl. split; [|destruct (co_pub (cc_comm c)); [discriminate|congruence]].
      rewrite <- eg, (ccomm_get_read _ _ _ _ _ eu er). subst c. cbn [cc_comm co_url co_room]. apply (ccomm_get_read _ _ _ _ _ fu fr).
    + unfold names_room. cbn [fst snd]. unfold new_comm. rewrite fu, fr. cbn [bind]. unfold same_room, same_server. rewrite eu, er. cbn [co_url co_norm]. rewrite !eqb_refl. reflexivity.
Qed.
Lemma prune_sees B now st st' : usable st -> canonical_keys st -> prune_stale B now st = (Ok tt, st') ->
  usable st' /\ (forall j sid, session_id_ok sid (prefix_of j) = true -> convo_get st' j sid =
      match j with KGroup => convo_get st j sid | _ => match convo_get st j sid with Ok (Some c) => if stale now c then Ok None else Ok (Some c) | o => o end end) /\
  (forall url room, ccomm_get st' url room = match ccomm_get st url room with Ok (Some c) => if stale now (cc_base c) && negb (is_nil (co_pub (cc_comm c))) then Ok None else Ok (Some c) | o => o end) /\
  canonical_keys st'.
Proof.
  intros hu hc h. unfold prune_stale in h. destruct (erase_each (convo_erase B KOne) (stale_ids now KOne st) st) as [[[]| | | |] st1] eqn:e1; try discriminate.
  destruct (erase_ids _ _ _ _ _ hu e1) as (u1 & g1 & f1). destruct (erase_each (convo_erase B KLegacy) (stale_ids now KLegacy st1) st1) as [[[]| | | |] st2] eqn:e2; try discriminate.
  destruct (erase_ids _ _ _ _ _ u1 e2) as (u2 & g2 & f2). destruct (erase_comms _ _ _ _ u2 h) as (u3 & g3 & f3 & c3).
  assert (hc2 : canonical_keys st2) by (apply (kept_canonical st1); [apply below_kept, f2|]; apply (kept_canonical st); [apply below_kept, f1|exact hc]).
  split; [exact u3|]. split; [|split; [|exact (c3 hc2)]].
  - intros j sid hs. rewrite (convo_get_frame st2 st' j) by (apply f3; destruct j; discriminate). rewrite g2, g1 by exact hs. destruct j; cbn [kind_eqb andb].
    + rewrite (stale_ids_are now KOne st sid hu hs). destruct (convo_get st KOne sid) as [[c|]| | | |]; try reflexivity. 
    + reflexivity.
    + rewrite (stale_ids_are now KLegacy st1 sid u1 hs). rewrite g1 by exact hs. cbn [kind_eqb andb]. destruct (convo_get st KLegacy sid) as [[c|]| | | |]; reflexivity.
  - intros url room. rewrite g3, (stale_comms_are now st2 url room u2 hc2). rewrite (ccomm_get_frame st1 st2 f2), (ccomm_get_frame st st1 f1).
    destruct (ccomm_get st url room) as [[c|]| | | |]; reflexivity.
Qed.
Lemma ccmd_spec B m st st' v : usable st -> canonical_keys st -> ccmd_fits m -> run_ccmd B m st = (Ok tt, st') -> sees_convos st v ->
  usable st' /\ canonical_keys st' /\ sees_convos st' (after_ccmd m v).
Proof.
  intros hu hc hf h (s1 & s2). destruct v as [vk vc]. cbn [v_conv v_ccomm] in *. destruct m as [now k id c|k id|now c|url room|now]; cbn [run_ccmd after_ccmd] in *.
  - destruct (convo_set_sees _ _ _ _ _ _ _ hu hf h) as (hu' & g & f). split; [exact hu'|]. split; [apply (kept_canonical st); [apply below_kept, f|exact hc]|]. split; cbn [v_conv v_ccomm].
    + intros j sid hs. rewrite g, (s1 j sid hs). destruct (kind_eqb j k && same_id sid id); reflexivity.
    + intros url room. rewrite (ccomm_get_frame st st' f). apply s2.
  - unfold ignore in h. destruct (convo_erase B k id st) as [[x| | | |] st1] eqn:e; try discriminate. assert (st1 = st') by (cbn in h; congruence). subst st1.
    destruct (convo_erase_sees _ _ _ _ _ _ hu e) as (hu' & g & f). split; [exact hu'|]. split; [apply (kept_canonical st); [apply below_kept, f|exact hc]|]. split; cbn [v_conv v_ccomm].
    + intros j sid hs. rewrite (g j sid hs), (s1 j sid hs). destruct (kind_eqb j k && same_id sid id); reflexivity.
    + intros url room. rewrite (ccomm_get_frame st st' f). apply s2.
  - destruct hf as [hf ho]. destruct (ccomm_set_sees _ _ _ _ _ hu hf ho h) as (hu' & g & f & cc). split; [exact hu'|]. split; [exact (cc hc)|]. split; cbn [v_conv v_ccomm].
    + intros j sid hs. rewrite (convo_get_frame st st' j) by (apply f, top_not_o). apply s1, hs.
    + intros url room. rewrite g, s2. reflexivity.
  - unfold ignore in h. destruct (new_comm url room) as [og| | | |] eqn:eo; try (unfold ccomm_erase, comm_erase in h; rewrite eo in h; discriminate).
    destruct (ccomm_erase B url room st) as [[x| | | |] st1] eqn:e; try discriminate. assert (st1 = st') by (cbn in h; congruence). subst st1.
    destruct (ccomm_erase_sees _ _ _ _ _ _ _ hu eo e) as (hu' & g & f & cc). split; [exact hu'|]. split; [exact (cc hc)|]. split; cbn [v_conv v_ccomm].
    + intros j sid hs. rewrite (convo_get_frame st st' j) by (apply f, top_not_o). apply s1, hs.
    + intros url' room'. rewrite g, s2. reflexivity.
  - destruct (prune_sees _ _ _ _ hu hc h) as (hu' & g & f & cc). split; [exact hu'|]. split; [exact cc|]. split; cbn [v_conv v_ccomm].
    + intros j sid hs. rewrite (g j sid hs), (s1 j sid hs). unfold drop_stale. destruct j; try reflexivity; destruct (vk _ sid) as [c|]; try reflexivity; rewrite (stale_is now c hf); destruct (is_stale now c); reflexivity.
    + intros url room. rewrite f, s2. unfold drop_stale_comm. destruct (vc url room) as [[c|]| | | |]; try reflexivity. rewrite (stale_is now _ hf). reflexivity.
Qed.
Lemma ccmds_spec B l : forall st st' v, usable st -> canonical_keys st -> Forall ccmd_fits l -> run_ccmds B l st = (Ok tt, st') -> sees_convos st v ->
  usable st' /\ canonical_keys st' /\ sees_convos st' (fold_left (fun v m => after_ccmd m v) l v).
Proof.
  induction l as [|m l IH]; intros st st' v hu hc hl h hv; cbn [run_ccmds fold_left] in *; [injection h as <-; auto|].
  inversion hl as [|x y h1 h2]; subst. destruct (run_ccmd B m st) as [[[]| | | |] st1] eqn:e; try discriminate.
  destruct (ccmd_spec _ _ _ _ _ hu hc h1 e hv) as (hu1 & hc1 & hv1). exact (IH _ _ _ hu1 hc1 h2 h hv1).
Qed.
