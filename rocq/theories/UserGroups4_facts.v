(** Proofs of C52: states in which every record is one this library writes. *)
From Verif Require Import UserGroupsSpec Data_facts Fields_facts Base_facts Conf2_facts Maps Hex_facts Message_facts Records_facts Contacts_facts Members_facts Community_facts UserGroups_facts UserGroups2_facts UserGroups3_facts.
From Coq Require Import Lia.

Definition tidy_ids (p top : bytes) (d : dict) : Prop := forall k v, field [top] k d = Some v -> session_id_ok (to_hex k) p = true /\ exists i, v = VDict i.
Definition tidy_room (r : bytes) (w : value) : Prop := canonical_room r = Ok r /\ exists i n, w = VDict i /\ lookup (b "n") i = Some (vstr n) /\ canonical_room n = Ok r.
Definition tidy_server (u : bytes) (d : dict) : Prop :=
  canonical_url u = Ok u /\ (exists pk, field [b "o"; u] (b "#") d = Some (vstr pk) /\ length pk = 32) /\
  (exists rooms, field [b "o"; u] (b "R") d = Some (VDict rooms)) /\ forall r w, field [b "o"; u; b "R"] r d = Some w -> tidy_room r w.
Lemma field_snoc i k l d : field (i ++ [k]) l d = match field i k d with Some (VDict x) => lookup l x | _ => None end.
Proof. unfold field. apply get_path_app. destruct i; discriminate. Qed.
Lemma tidy_iff st : tidy st <-> tidy_ids (b "03") (b "g") (s_data st) /\ tidy_ids (b "05") (b "C") (s_data st) /\
  forall u v, field [b "o"] u (s_data st) = Some v -> tidy_server u (s_data st).
Proof.
  unfold tidy, tidy_ids. split; intros (h1 & h2 & h3); (split; [exact h1|split; [exact h2|]]); intros u v hv.
  - destruct (h3 u v hv) as (hc & d & -> & (pk & k1 & k2) & rooms & k3 & k4). split; [exact hc|].
    change [b "o"; u] with ([b "o"] ++ [u]). rewrite !field_snoc, hv. split; [exists pk; auto|]. split; [exists rooms; exact k3|]. intros r w hw.
    change [b "o"; u; b "R"] with (([b "o"] ++ [u]) ++ [b "R"]) in hw. rewrite field_snoc, field_snoc, hv, k3 in hw. exact (k4 r w hw).
  - destruct (h3 u v hv) as (hc & (pk & k1 & k2) & (rooms & k3) & k4). split; [exact hc|].
    change [b "o"; u] with ([b "o"] ++ [u]) in k1, k3. rewrite field_snoc, hv in k1, k3. destruct v as [| |d]; try discriminate. exists d. split; [reflexivity|]. split; [exists pk; auto|].
    exists rooms. split; [exact k3|]. intros r w hw. apply (k4 r w). change [b "o"; u; b "R"] with (([b "o"] ++ [u]) ++ [b "R"]). rewrite field_snoc, field_snoc, hv, k3. exact hw.
Qed.
Lemma ids_frame p top d d' : same_below top d d' -> tidy_ids p top d -> tidy_ids p top d'.
Proof. intros hs h k v hv. apply (h k v). unfold field in *. cbn [app] in *. rewrite <- hs. exact hv. Qed.
Lemma server_same u d d' : (forall q, get_path (b "o" :: u :: q) d' = get_path (b "o" :: u :: q) d) -> tidy_server u d -> tidy_server u d'.
Proof. intros hs (h1 & h2 & h3 & h4). unfold tidy_server, field in *. cbn [app] in *. split; [exact h1|]. setoid_rewrite hs. auto. Qed.
Lemma ids_set p top pk d d' i : session_id_ok (to_hex pk) p = true -> dict_at [top] pk d' = Some i -> (forall k, k <> pk -> field [top] k d' = field [top] k d) -> tidy_ids p top d -> tidy_ids p top d'.
Proof.
  intros hp hi ho h k v hv. destruct (eqb k pk) eqn:e.
  - apply eqb_eq in e. subst k. unfold dict_at in hi. rewrite hv in hi. destruct v; try discriminate. split; [exact hp|eauto].
  - apply (h k v). rewrite <- ho; [exact hv|]. intros ->. rewrite eqb_refl in e. discriminate.
Qed.
Lemma ids_erase p top pk d d' : field [top] pk d' = None -> (forall k, k <> pk -> field [top] k d' = field [top] k d) -> tidy_ids p top d -> tidy_ids p top d'.
Proof.
  intros hi ho h k v hv. destruct (eqb k pk) eqn:e.
  - apply eqb_eq in e. subst k. congruence.
  - apply (h k v). rewrite <- ho; [exact hv|]. intros ->. rewrite eqb_refl in e. discriminate.
Qed.
Lemma server_frame d d' : same_below (b "o") d d' -> (forall u v, field [b "o"] u d = Some v -> tidy_server u d) -> forall u v, field [b "o"] u d' = Some v -> tidy_server u d'.
Proof. intros hs h u v hv. apply (server_same u d d'); [intros q; apply hs|]. apply (h u v). unfold field in *. cbn [app] in *. rewrite <- hs. exact hv. Qed.
Lemma url_fixed u v : canonical_url u = Ok v -> canonical_url v = Ok v.
Proof. intros h. apply canonical_iff in h. apply canonical_iff. exact (means_fixed _ _ h). Qed.
Lemma comm_set_other B c st st' u q : usable st -> gbase_fits (co_base c) -> comm_set B c st = (Ok tt, st') -> u <> co_url c -> get_path (b "o" :: u :: q) (s_data st') = get_path (b "o" :: u :: q) (s_data st).
Proof.
  intros hu hf h hne. apply run_ops_data in h as [hd hu']; [|exact hu|apply comm_ops_writes, hf]. rewrite hd.
  set (o1 := OpAssign [b "o"; co_url c] (b "#") (vstr (co_pub c))). set (s := gbase_script (co_base c) ++ [(b "n", Some (vstr (co_room c)))]).
  change (after_ops (comm_ops c) (s_data st)) with (after_ops (map (op_at [b "o"; co_url c; b "R"; co_norm c]) s) (edited o1 (s_data st))).
  assert (ha : forall q', apart (b "o" :: u :: q) (b "o" :: co_url c :: q') = true). { intros q'. cbn [apart]. rewrite eqb_refl. destruct (eqb u (co_url c)) eqn:e; [apply eqb_eq in e; contradiction|reflexivity]. }
  rewrite (script_other [b "o"; co_url c; b "R"; co_norm c] s); [|exact (comm_script_ok c hf)|intros k; apply (ha [b "R"; co_norm c; k])|apply edited_wf; [reflexivity|reflexivity|apply hu]].
  apply edited_other; [reflexivity|apply hu|]. apply (ha [b "#"]).
Qed.
Lemma path_exists i k l d : field (i ++ [k]) l d <> None -> exists x, field i k d = Some (VDict x).
Proof. rewrite field_snoc. destruct (field i k d) as [[| |x]|]; intros h; try contradiction. eauto. Qed.
Lemma eqb_false (x y : bytes) : eqb x y = false -> x <> y.
Proof. intros h ->. rewrite eqb_refl in h. discriminate. Qed.
Lemma comm_set_tidy B c st st' : usable st -> gbase_fits (co_base c) -> comm_ok c -> length (co_pub c) = 32 -> comm_set B c st = (Ok tt, st') ->
  (forall u v, field [b "o"] u (s_data st) = Some v -> tidy_server u (s_data st)) -> forall u v, field [b "o"] u (s_data st') = Some v -> tidy_server u (s_data st').
Proof.
  intros hu hf [hc1 hc2] hl h ht u v hv. destruct (comm_set_data _ _ _ _ hu hf h) as (_ & (r & k1 & _ & k2) & k3 & k4 & _). destruct (eqb u (co_url c)) eqn:e.
  - apply eqb_eq in e. subst u. split; [exact hc1|]. split; [exists (co_pub c); rewrite k4, eqb_refl; auto|]. unfold dict_at in k1.
    destruct (field [b "o"; co_url c; b "R"] (co_norm c) (s_data st')) as [[| |r']|] eqn:er; try discriminate. injection k1 as ->. split.
    + apply (path_exists [b "o"; co_url c] (b "R") (co_norm c)). cbn [app]. congruence.
    + intros x w hw. destruct (eqb x (co_norm c)) eqn:ex.
      * apply eqb_eq in ex. subst x. split; [apply (room_fixed _ _ hc2)|]. exists r, (co_room c). split; [congruence|]. auto.
      * apply eqb_false in ex. rewrite k3 in hw by congruence. assert (hf0 : field [b "o"; co_url c; b "R"] x (s_data st) <> None) by congruence.
        destruct (path_exists [b "o"; co_url c] (b "R") x _ hf0) as [rooms e1]. assert (hf1 : field [b "o"; co_url c] (b "R") (s_data st) <> None) by congruence.
        destruct (path_exists [b "o"] (co_url c) (b "R") _ hf1) as [info e2]. destruct (ht _ _ e2) as (_ & _ & _ & h4). exact (h4 x w hw).
  - apply eqb_false in e. apply (server_same u (s_data st)); [intros q; apply (comm_set_other B c st st' u q hu hf h e)|]. apply (ht u v). rewrite <- hv. symmetry. apply (comm_set_other B c st st' u [] hu hf h e).
Qed.
Lemma erase_absent B i l st x st' : usable st -> erase_impl B i l st = (Ok x, st') -> field i l (s_data st) = None -> s_data st' = s_data st.
Proof.
  intros hu h hn. unfold erase_impl in h. cbv zeta in h. destruct (run B (OpErase i l) st) as [[[]| | | |] st1] eqn:e; try discriminate. assert (st1 = st') as -> by congruence.
  assert (hw : writes (OpErase i l)) by (split; [reflexivity|exact I]). destruct (run_usable _ _ _ _ hu hw e) as [hd _]. rewrite hd. apply mod_field_id; [apply hu|]. intros v hv. congruence.
Qed.
Lemma comm_erase_tidy B u n st x st' : usable st -> comm_erase_at B u n st = (Ok x, st') ->
  (forall v w, field [b "o"] v (s_data st) = Some w -> tidy_server v (s_data st)) -> forall v w, field [b "o"] v (s_data st') = Some w -> tidy_server v (s_data st').
Proof.
  intros hu h ht v w hv. destruct (comm_erase_data _ _ _ _ _ _ hu h) as (hu' & hx & k1 & k2 & k3 & k4 & _). unfold comm_erase_at in h.
  destruct (erase_impl B [b "o"; u; b "R"] n st) as [[e| | | |] st1] eqn:ee; try (destruct e; discriminate || congruence); try discriminate.
  destruct (erase_impl_spec _ _ _ _ _ _ hu ee) as (u1 & f1 & f2 & f3).
  destruct (field [b "o"; u; b "R"] n (s_data st)) as [rv|] eqn:er; subst e.
  2:{ assert (st1 = st') as -> by congruence. rewrite (erase_absent _ _ _ _ _ _ hu ee er) in *. exact (ht v w hv). }
  destruct (no_rooms u st1) eqn:en.
  - destruct (run_ops B [OpErase [b "o"; u] (b "R"); OpErase [b "o"] u] st1) as [[[]| | | |] st2] eqn:eo; try discriminate. assert (st2 = st') as -> by congruence.
    assert (hw : Forall writes [OpErase [b "o"; u] (b "R"); OpErase [b "o"] u]) by (repeat constructor). apply run_ops_data in eo as [hd _]; [|exact u1|exact hw]. cbn [after_ops fold_left] in hd.
    set (d1 := edited (OpErase [b "o"; u] (b "R")) (s_data st1)) in *. assert (w1 : wf d1 = true) by (apply edited_wf; [reflexivity|exact I|apply u1]).
    assert (hne : v <> u). { intros ->. assert (field [b "o"] u (s_data st') = None); [|congruence]. rewrite hd. change (field [b "o"] u) with (get_path (edit_path (OpErase [b "o"] u))). rewrite edited_read by (reflexivity || exact w1). reflexivity. }
    apply (server_same v (s_data st)); [|apply (ht v w); rewrite <- k3 by exact hne; exact hv]. intros q.
    assert (ha : forall q', apart (b "o" :: v :: q) (b "o" :: u :: q') = true). { intros q'. cbn [apart]. rewrite eqb_refl. destruct (eqb v u) eqn:e; [apply eqb_eq in e; contradiction|reflexivity]. }
    rewrite hd. rewrite edited_other; [|reflexivity|exact w1|apply (ha [])]. unfold d1. rewrite edited_other; [|reflexivity|apply u1|apply (ha [b "R"])]. apply f2. apply (ha [b "R"; n]).
  - assert (st1 = st') as -> by congruence. destruct (eqb v u) eqn:ev.
    + apply eqb_eq in ev. subst v. assert (hf0 : field [b "o"; u; b "R"] n (s_data st) <> None) by congruence. destruct (path_exists [b "o"; u] (b "R") n _ hf0) as [rooms e1].
      assert (hf1 : field [b "o"; u] (b "R") (s_data st) <> None) by congruence. destruct (path_exists [b "o"] u (b "R") _ hf1) as [info e2]. destruct (ht _ _ e2) as (h1 & h2 & h3 & h4).
      unfold no_rooms, dict_at in en. destruct (field [b "o"; u] (b "R") (s_data st')) as [[| |rs]|] eqn:ers; try discriminate. split; [exact h1|]. split; [|split; [eauto|]].
      * replace (field [b "o"; u] (b "#") (s_data st')) with (field [b "o"; u] (b "#") (s_data st)); [exact h2|]. symmetry. apply f2. cbn [app apart]. rewrite !eqb_refl. reflexivity.
      * intros r y hr. apply (h4 r y). rewrite <- k2; [exact hr|]. intros e. injection e as ->. congruence.
    + apply eqb_false in ev. apply (server_same v (s_data st)); [|apply (ht v w); rewrite <- k3 by exact ev; exact hv]. intros q. apply f2. cbn [app apart]. rewrite eqb_refl.
      destruct (eqb v u) eqn:e; [apply eqb_eq in e; contradiction|reflexivity].
Qed.
(** the server key of a community has 32 bytes *)
Definition keyed (m : gcmd) : Prop := match m with GSetComm c => length (co_pub c) = 32 | _ => True end.
Lemma tidy_cmd B m st st' : usable st -> gcmd_fits m -> keyed m -> run_gcmd B m st = (Ok tt, st') -> tidy st -> tidy st'.
Proof.
  intros hu hf hk h ht. apply tidy_iff in ht as (s1 & s2 & s3). apply tidy_iff. destruct neq_tops as (t1 & t2 & t3 & t4 & t5 & t6). destruct m as [id g|id|c|url room|id g|id]; cbn [run_gcmd] in h.
  - unfold group_set in h. destruct (session_id_to_bytes id (b "03")) as [pk| | | |] eqn:ek; try discriminate. destruct (group_named pk g) as (kv & n1 & n2).
    destruct (record_set _ _ _ _ _ _ _ _ hu (group_script_ok pk g hf) n1 n2 h) as (hu' & (r & e & hr) & ho & hfr). split; [|split].
    + exact (ids_set _ _ _ _ _ _ (lc_sid_ok (b "03") _ _ eq_refl ek) e ho s1).
    + eapply ids_frame; [|exact s2]. apply (below_other _ (b "g")); assumption.
    + eapply server_frame; [|exact s3]. apply (below_other _ (b "g")); assumption.
  - unfold ignore, group_erase in h. destruct (session_id_to_bytes id (b "03")) as [pk| | | |] eqn:ek; try discriminate.
    destruct (erase_impl B [b "g"] pk st) as [[x| | | |] st1] eqn:e; try discriminate. assert (st1 = st') by (cbn in h; congruence). subst st1.
    destruct (erase_impl_spec _ _ _ _ _ _ hu e) as (hu' & f1 & f2 & _). split; [|split].
    + apply (ids_erase _ _ pk (s_data st)); [exact f1| |exact s1]. intros k hne. apply f2. apply (apart_diff [b "g"]), hne.
    + eapply ids_frame; [|exact s2]. intros p. apply f2, apart_top, t6.
    + eapply server_frame; [|exact s3]. intros p. apply f2, apart_top, t4.
  - destruct hf as [hf hc]. destruct (comm_set_data _ _ _ _ hu hf h) as (hu' & _ & _ & _ & h5). split; [|split].
    + eapply ids_frame; [|exact s1]. apply h5, t1.
    + eapply ids_frame; [|exact s2]. apply h5, t2.
    + exact (comm_set_tidy _ _ _ _ hu hf hc hk h s3).
  - unfold ignore, comm_erase in h. destruct (new_comm url room) as [og| | | |] eqn:eo; try discriminate.
    destruct (comm_erase_at B (co_url og) (co_norm og) st) as [[x| | | |] st1] eqn:e; try discriminate. assert (st1 = st') by (cbn in h; congruence). subst st1.
    destruct (comm_erase_data _ _ _ _ _ _ hu e) as (hu' & _ & _ & _ & _ & _ & h5). split; [|split].
    + eapply ids_frame; [|exact s1]. apply h5, t1.
    + eapply ids_frame; [|exact s2]. apply h5, t2.
    + exact (comm_erase_tidy _ _ _ _ _ _ hu e s3).
  - destruct hf as (hf & ht & hm). unfold legacy_set in h. destruct (session_id_to_bytes id (b "05")) as [pk| | | |] eqn:ek; try discriminate. destruct (legacy_named g) as [n1 n2].
    destruct (record_set _ _ _ _ _ _ _ _ hu (legacy_script_ok g hf ht) n1 n2 h) as (hu' & (r & e & hr) & ho & hfr). split; [|split].
    + eapply ids_frame; [|exact s1]. apply (below_other _ (b "C")); assumption.
    + exact (ids_set _ _ _ _ _ _ (lc_sid_ok (b "05") _ _ eq_refl ek) e ho s2).
    + eapply server_frame; [|exact s3]. apply (below_other _ (b "C")); assumption.
  - unfold ignore, legacy_erase in h. destruct (session_id_to_bytes id (b "05")) as [pk| | | |] eqn:ek; try discriminate.
    destruct (erase_impl B [b "C"] pk st) as [[x| | | |] st1] eqn:e; try discriminate. assert (st1 = st') by (cbn in h; congruence). subst st1.
    destruct (erase_impl_spec _ _ _ _ _ _ hu e) as (hu' & f1 & f2 & _). split; [|split].
    + eapply ids_frame; [|exact s1]. intros p. apply f2, apart_top, t3.
    + apply (ids_erase _ _ pk (s_data st)); [exact f1| |exact s2]. intros k hne. apply f2. apply (apart_diff [b "C"]), hne.
    + eapply server_frame; [|exact s3]. intros p. apply f2, apart_top, t5.
Qed.
Lemma tidy_cmds B l : forall st st', usable st -> Forall gcmd_fits l -> Forall keyed l -> run_gcmds B l st = (Ok tt, st') -> tidy st -> usable st' /\ tidy st'.
Proof.
  induction l as [|m l IH]; intros st st' hu hf hk h ht; cbn [run_gcmds] in h; [injection h as <-; auto|].
  inversion hf as [|x y f1 f2]; subst. inversion hk as [|x y k1 k2]; subst. destruct (run_gcmd B m st) as [[[]| | | |] st1] eqn:e; try discriminate.
  assert (hu1 : usable st1). { refine (proj1 (gcmd_spec B (fun s => s) m st st1 (mkView (fun sid => match group_get (fun s => s) st sid with Ok x => x | _ => None end) (comm_get st) (fun sid => match legacy_get st sid with Ok x => x | _ => None end)) hu (fun s hs => hs) f1 e _)).
    split; [|split]; cbn [v_group v_comm v_legacy].
    - intros sid hs _. destruct (sid_ok_key _ _ hs) as [pk ek]. unfold group_get. rewrite ek. reflexivity.
    - reflexivity.
    - intros sid hs. destruct (sid_ok_key _ _ hs) as [pk ek]. unfold legacy_get. rewrite ek. reflexivity. }
  exact (IH _ _ hu1 f2 k2 h (tidy_cmd _ _ _ _ hu f1 k1 e ht)).
Qed.
Lemma tidy_empty st : s_data st = [] -> tidy st.
Proof. intros h. unfold tidy. rewrite h. split; [|split]; intros k v hv; discriminate. Qed.
(** ** reading the visited communities *)
Lemma tidy_stored st u r d : tidy st -> dict_at [b "o"; u; b "R"] r (s_data st) = Some d ->
  exists pk n, canonical_url u = Ok u /\ canonical_room r = Ok r /\ field [b "o"; u] (b "#") (s_data st) = Some (vstr pk) /\ length pk = 32 /\ maybe_str d (b "n") = Some n /\ canonical_room n = Ok r.
Proof.
  intros ht hd. apply tidy_iff in ht as (_ & _ & ht). unfold dict_at in hd. destruct (field [b "o"; u; b "R"] r (s_data st)) as [[| |x]|] eqn:e; try discriminate. injection hd as ->.
  assert (hf0 : field [b "o"; u; b "R"] r (s_data st) <> None) by congruence. destruct (path_exists [b "o"; u] (b "R") r _ hf0) as [rooms e1].
  assert (hf1 : field [b "o"; u] (b "R") (s_data st) <> None) by congruence. destruct (path_exists [b "o"] u (b "R") _ hf1) as [info e2].
  destruct (ht _ _ e2) as (h1 & (pk & h2 & h3) & _ & h4). destruct (h4 _ _ e) as (h5 & i & n & h6 & h7 & h8). injection h6 as <-. exists pk, n. unfold maybe_str. rewrite h7. auto 8.
Qed.
Definition the_comm (u r n pk : bytes) (d : dict) : comm := mkComm u r n pk (load_gbase d).
Lemma get_tidy st url room u r : tidy st -> canonical_url url = Ok u -> canonical_room room = Ok r ->
  comm_get st url room = Ok match dict_at [b "o"; u; b "R"] r (s_data st) with
                            | Some d => Some (the_comm u r (or_else (maybe_str d (b "n")) []) (or_else (as_str (field [b "o"; u] (b "#") (s_data st))) []) d)
                            | None => None end.
Proof.
  intros ht h1 h2. rewrite comm_get_read. unfold new_comm. rewrite h1, h2. cbn [bind co_url co_norm]. unfold read_comm.
  destruct (dict_at [b "o"; u; b "R"] r (s_data st)) as [d|] eqn:e; [|reflexivity]. destruct (tidy_stored _ _ _ _ ht e) as (pk & n & k1 & k2 & k3 & k4 & k5 & k6).
  unfold load_comm. cbn [co_url co_norm co_room co_pub co_base]. rewrite k5. unfold set_room. rewrite k6. cbn [bind]. unfold server_key. rewrite k3. unfold vstr. cbn [as_str or_else]. rewrite k4. reflexivity.
Qed.
Lemma stored_tidy st k c : tidy st -> (stored_comm st k c <-> k = (co_url c, co_norm c) /\ comm_get st (co_url c) (co_room c) = Ok (Some c)).
Proof.
  intros ht. split.
  - intros (pk & d & og & h1 & h2 & h3 & h4 & h5). destruct k as [u r]. cbn [fst snd] in *. destruct (tidy_stored _ _ _ _ ht h3) as (pk' & n & k1 & k2 & k3 & k4 & k5 & k6).
    unfold new_comm in h4. rewrite k1, k2 in h4. cbn [bind] in h4. injection h4 as <-. cbn [co_url co_norm co_room co_base] in h5. unfold load_comm in h5. cbn [co_url co_norm co_room co_pub co_base] in h5.
    rewrite k5 in h5. unfold set_room in h5. cbn [co_url co_norm co_room co_pub co_base] in h5. rewrite k6 in h5. cbn [bind] in h5. injection h5 as <-. cbn [co_url co_norm co_room]. split; [reflexivity|].
    rewrite (get_tidy st u n u r ht k1 k6), h3, k5. unfold the_comm. rewrite h1. reflexivity.
  - intros [-> h]. destruct (canonical_url (co_url c)) as [u| | | |] eqn:eu; try (unfold comm_get, new_comm in h; rewrite eu in h; discriminate).
    destruct (canonical_room (co_room c)) as [r| | | |] eqn:er; try (unfold comm_get, new_comm in h; rewrite eu, er in h; discriminate).
    rewrite (get_tidy st _ _ _ _ ht eu er) in h. destruct (dict_at [b "o"; u; b "R"] r (s_data st)) as [d|] eqn:e; [|discriminate]. destruct (tidy_stored _ _ _ _ ht e) as (pk & n & k1 & k2 & k3 & k4 & k5 & k6).
    rewrite k5, k3 in h. unfold vstr in h. cbn [as_str or_else] in h. assert (hc : c = the_comm u r n pk d) by congruence. clear h eu er. subst c. cbn [the_comm co_url co_norm co_room].
    exists pk, d, (mkComm u r r [] new_gbase). cbn [fst snd]. rewrite k3. split; [reflexivity|]. split; [exact k4|]. split; [exact e|]. unfold new_comm. rewrite k1, k2. split; [reflexivity|].
    unfold load_comm. cbn [co_url co_norm co_room co_pub co_base]. rewrite k5. unfold set_room. rewrite k6. reflexivity.
Qed.
Lemma Forall2_In_r {X Y} (R : X -> Y -> Prop) l m y : Forall2 R l m -> In y m -> exists x, In x l /\ R x y.
Proof. induction 1 as [|a c l m h1 h2 IH]; intros []; [subst; exists a; split; [left; reflexivity|exact h1]|]. destruct (IH H) as (x & hx & hr). exists x. split; [right; exact hx|exact hr]. Qed.
Lemma Forall2_In_l {X Y} (R : X -> Y -> Prop) l m x : Forall2 R l m -> In x l -> exists y, In y m /\ R x y.
Proof. induction 1 as [|a c l m h1 h2 IH]; intros []; [subst; exists c; split; [left; reflexivity|exact h1]|]. destruct (IH H) as (y & hy & hr). exists y. split; [right; exact hy|exact hr]. Qed.
Lemma comms_tidy st : usable st -> tidy st -> ssorted (map (fun c => (co_url c, co_norm c)) (comms_list st)) /\
  forall c, In c (comms_list st) <-> comm_get st (co_url c) (co_room c) = Ok (Some c).
Proof.
  intros hu ht. destruct (comms_list_spec st hu) as (ks & h1 & h2 & h3). split.
  - replace (map (fun c => (co_url c, co_norm c)) (comms_list st)) with ks; [exact h1|]. clear h1 h3. induction h2 as [|k c ks cs hk h2 IH]; [reflexivity|]. cbn [map]. f_equal; [apply (stored_tidy _ _ _ ht) in hk; apply hk|exact IH].
  - intros c. split.
    + intros hin. destruct (Forall2_In_r _ _ _ _ h2 hin) as (k & _ & hk). apply (stored_tidy _ _ _ ht) in hk. apply hk.
    + intros h. assert (hs : stored_comm st (co_url c, co_norm c) c) by (apply (stored_tidy _ _ _ ht); auto). destruct (Forall2_In_l _ _ _ _ h2 (h3 _ _ hs)) as (c' & hin & hs').
      apply (stored_tidy _ _ _ ht) in hs' as [e1 e2]. injection e1 as e1 e3. assert (c' = c); [|subst; exact hin].
      apply (stored_tidy _ _ _ ht) in hs as [_ e4].
      assert (hg : forall x, comm_get st (co_url x) (co_room x) = Ok (Some x) -> canonical_url (co_url x) = Ok (co_url x) /\ canonical_room (co_room x) = Ok (co_norm x)).
      { intros x hx. destruct (canonical_url (co_url x)) as [u| | | |] eqn:eu; try (unfold comm_get, new_comm in hx; rewrite eu in hx; discriminate).
        destruct (canonical_room (co_room x)) as [r| | | |] eqn:er; try (unfold comm_get, new_comm in hx; rewrite eu, er in hx; discriminate).
        rewrite (get_tidy st _ _ _ _ ht eu er) in hx. destruct (dict_at [b "o"; u; b "R"] r (s_data st)) as [d|] eqn:e; [|discriminate].
        assert (hc : x = the_comm u r (or_else (maybe_str d (b "n")) []) (or_else (as_str (field [b "o"; u] (b "#") (s_data st))) []) d) by congruence. rewrite hc. split; reflexivity. }
      destruct (hg _ e2) as [a1 a2], (hg _ e4) as [b1 b2]. rewrite (get_tidy _ _ _ _ _ ht a1 a2) in e2. rewrite (get_tidy _ _ _ _ _ ht b1 b2) in e4. rewrite <- e1, <- e3 in e2. congruence.
Qed.
