(** Proofs of C52: all groups together. *)
From Verif Require Import UserGroupsSpec Data_facts Fields_facts Base_facts Conf2_facts Maps Hex_facts Message_facts Records_facts Contacts_facts Members_facts Community_facts UserGroups_facts.
From Coq Require Import Lia.

Definition same_below (k : bytes) (d d' : dict) : Prop := forall p, get_path (k :: p) d' = get_path (k :: p) d.
Lemma group_get_frame pub st st' : same_below (b "g") (s_data st) (s_data st') -> forall sid, group_get pub st' sid = group_get pub st sid.
Proof. intros h sid. unfold group_get, dict_at, field. destruct (session_id_to_bytes sid (b "03")); try reflexivity. cbn [bind app]. rewrite h. reflexivity. Qed.
Lemma legacy_get_frame st st' : same_below (b "C") (s_data st) (s_data st') -> forall sid, legacy_get st' sid = legacy_get st sid.
Proof. intros h sid. unfold legacy_get, dict_at, field. destruct (session_id_to_bytes sid (b "05")); try reflexivity. cbn [bind app]. rewrite h. reflexivity. Qed.
Lemma comm_get_frame st st' : same_below (b "o") (s_data st) (s_data st') -> forall url room, comm_get st' url room = comm_get st url room.
Proof. intros h url room. unfold comm_get, server_key, dict_at, field. destruct (new_comm url room); try reflexivity. cbn [bind app]. rewrite !h. reflexivity. Qed.
Lemma below_other x y d d' : x <> y -> (forall p, (forall q, apart p (y :: q) = true) -> get_path p d' = get_path p d) -> same_below x d d'.
Proof. intros h hp p. apply hp. intros q. apply apart_top, h. Qed.

(** ** communities *)
Lemma comm_script_ok c : gbase_fits (co_base c) -> script_ok (gbase_script (co_base c) ++ [(b "n", Some (vstr (co_room c)))]).
Proof. intros h. apply script_ok_app; [apply gbase_ok, h|]. apply script_ok_1. split; reflexivity. Qed.
Lemma comm_ops_writes c : gbase_fits (co_base c) -> Forall writes (comm_ops c).
Proof. intros h. constructor; [split; reflexivity|]. apply script_writes, comm_script_ok, h. Qed.
Lemma room_apart u r url norm k : (u, r) <> (url, norm) -> apart [b "o"; u; b "R"; r] ([b "o"; url; b "R"; norm] ++ [k]) = true.
Proof.
  intros h. cbn [app apart]. rewrite eqb_refl. destruct (eqb u url) eqn:e; [|reflexivity]. apply eqb_eq in e. subst u. rewrite eqb_refl. destruct (eqb r norm) eqn:e; [|reflexivity]. apply eqb_eq in e. congruence.
Qed.
Lemma key_apart u url norm k : apart [b "o"; u; b "#"] ([b "o"; url; b "R"; norm] ++ [k]) = true.
Proof. cbn [app apart]. rewrite eqb_refl. destruct (eqb u url); reflexivity. Qed.
Lemma room_key_apart u r url : apart [b "o"; u; b "R"; r] [b "o"; url; b "#"] = true.
Proof. cbn [apart]. rewrite eqb_refl. destruct (eqb u url); reflexivity. Qed.
Lemma comm_set_data B c st st' : usable st -> gbase_fits (co_base c) -> comm_set B c st = (Ok tt, st') ->
  usable st' /\
  (exists r, dict_at [b "o"; co_url c; b "R"] (co_norm c) (s_data st') = Some r /\ load_gbase r = kept_gbase (co_base c) /\ lookup (b "n") r = Some (vstr (co_room c))) /\
  (forall u r, (u, r) <> (co_url c, co_norm c) -> field [b "o"; u; b "R"] r (s_data st') = field [b "o"; u; b "R"] r (s_data st)) /\
  (forall u, field [b "o"; u] (b "#") (s_data st') = if eqb u (co_url c) then Some (vstr (co_pub c)) else field [b "o"; u] (b "#") (s_data st)) /\
  (forall x, x <> b "o" -> same_below x (s_data st) (s_data st')).
Proof.
  intros hu hf h. apply run_ops_data in h as [hd hu']; [|exact hu|apply comm_ops_writes, hf]. split; [exact hu'|]. rewrite hd. clear hd hu'.
  set (o1 := OpAssign [b "o"; co_url c] (b "#") (vstr (co_pub c))). set (s := gbase_script (co_base c) ++ [(b "n", Some (vstr (co_room c)))]).
  change (after_ops (comm_ops c) (s_data st)) with (after_ops (map (op_at [b "o"; co_url c; b "R"; co_norm c]) s) (edited o1 (s_data st))).
  assert (hw : wf (edited o1 (s_data st)) = true) by (apply edited_wf; [reflexivity|reflexivity|apply hu]). pose proof (comm_script_ok c hf : script_ok s) as hs.
  split; [|split; [|split]].
  - destruct (script_dict [b "o"; co_url c; b "R"] (co_norm c) s (edited o1 (s_data st)) (b "n") (vstr (co_room c)) hs hw eq_refl (fun a => eq_refl)) as (r & h1 & h2).
    exists r. split; [exact h1|]. split.
    + apply load_gbase_spec; [exact hf|]. intros k hk. rewrite h2. unfold s. rewrite fold_left_app, pick_other; [apply base_pick, hk|]. cbn in hk. repeat destruct hk as [<-|hk]; try contradiction; not_in.
    + rewrite h2. reflexivity.
  - intros u r hne. unfold field. cbn [app]. rewrite (script_other [b "o"; co_url c; b "R"; co_norm c] s); [|exact hs|intros k; apply room_apart, hne|exact hw].
    apply edited_other; [reflexivity|apply hu|]. apply room_key_apart.
  - intros u. unfold field. cbn [app]. rewrite (script_other [b "o"; co_url c; b "R"; co_norm c] s); [|exact hs|intros k; apply key_apart|exact hw].
    destruct (eqb u (co_url c)) eqn:e.
    + apply eqb_eq in e. subst u. change [b "o"; co_url c; b "#"] with (edit_path o1). rewrite edited_read by (reflexivity || apply hu). reflexivity.
    + apply edited_other; [reflexivity|apply hu|]. cbn [edit_path o1 app apart]. rewrite eqb_refl, e. reflexivity.
  - intros x hx p. rewrite (script_other [b "o"; co_url c; b "R"; co_norm c] s); [|exact hs|intros k; apply apart_top, hx|exact hw].
    apply edited_other; [reflexivity|apply hu|]. apply apart_top, hx.
Qed.
Lemma new_comm_inv url room og : new_comm url room = Ok og -> exists u r, canonical_url url = Ok u /\ canonical_room room = Ok r /\ og = mkComm u r room [] new_gbase.
Proof. unfold new_comm. intros h. ok_inv h. ok_inv h. injection h as <-. eauto 6. Qed.
Lemma server_key_len st u : server_key st u = [] \/ length (server_key st u) = 32.
Proof. unfold server_key. destruct (as_str _) as [pk|]; [|auto]. destruct (Nat.eqb (length pk) 32) eqn:e; [right; apply Nat.eqb_eq, e|auto]. Qed.
Definition key_comm (pk : bytes) (c : comm) : comm := mkComm (co_url c) (co_norm c) (co_room c) pk (co_base c).
Definition read_comm (od : option dict) (pk : bytes) (og : comm) : outcome (option comm) :=
  match od with Some d => c <- load_comm d og ;; Ok (Some (key_comm pk c)) | None => Ok None end.
Lemma load_comm_pub d og c : load_comm d og = Ok c -> co_pub c = co_pub og.
Proof. unfold load_comm. destruct (maybe_str d (b "n")) as [n|]; [|intros h; injection h as <-; reflexivity]. unfold set_room. intros h. ok_inv h. injection h as <-. reflexivity. Qed.
(** get_community: the room's record with the server's key *)
Lemma comm_get_read st url room : comm_get st url room =
  (og <- new_comm url room ;; read_comm (dict_at [b "o"; co_url og; b "R"] (co_norm og) (s_data st)) (server_key st (co_url og)) og).
Proof.
  unfold comm_get. destruct (new_comm url room) as [og| | | |] eqn:e; try reflexivity. cbn [bind]. unfold read_comm.
  destruct (dict_at [b "o"; co_url og; b "R"] (co_norm og) (s_data st)) as [d|]; [|reflexivity]. destruct (load_comm d og) as [c| | | |] eqn:ec; try reflexivity. cbn [bind].
  apply new_comm_inv in e as (u & r & _ & _ & ->). apply load_comm_pub in ec. cbn [co_pub] in ec.
  destruct (server_key_len st (co_url (mkComm u r room [] new_gbase))) as [h|h].
  - rewrite h. cbn [is_nil]. unfold key_comm. rewrite <- ec. destruct c; reflexivity.
  - unfold set_pubkey. rewrite h, Nat.eqb_refl. destruct (server_key st _); [discriminate h|]. cbn [is_nil bind]. reflexivity.
Qed.
Lemma load_saved_comm r c og : comm_ok c -> load_gbase r = kept_gbase (co_base c) -> lookup (b "n") r = Some (vstr (co_room c)) -> co_url og = co_url c ->
  load_comm r og = Ok (mkComm (co_url c) (co_norm c) (co_room c) (co_pub og) (kept_gbase (co_base c))).
Proof. intros [h1 h2] hb hn hu. unfold load_comm, maybe_str. rewrite hn. cbn [as_str vstr]. unfold set_room. rewrite h2. cbn [bind co_url co_pub co_base]. rewrite hb, hu. reflexivity. Qed.
Lemma comm_set_sees B c st st' : usable st -> gbase_fits (co_base c) -> comm_ok c -> comm_set B c st = (Ok tt, st') ->
  forall url room, comm_get st' url room = if same_room url room c then Ok (Some (kept_comm c))
    else if same_server url c then with_key (co_pub c) (comm_get st url room) else comm_get st url room.
Proof.
  intros hu hf hc h url room. destruct (comm_set_data _ _ _ _ hu hf h) as (_ & (r & h1 & h2 & h3) & h4 & h5 & _).
  rewrite !comm_get_read. unfold same_room, same_server. unfold new_comm. destruct (canonical_url url) as [u| | | |]; try reflexivity. cbn [bind].
  destruct (canonical_room room) as [ro| | | |]; cbn [bind andb]; try (rewrite andb_false_r; destruct (eqb u (co_url c)); reflexivity). cbn [co_url co_norm].
  assert (hk : server_key st' u = if eqb u (co_url c) then kept_key (co_pub c) else server_key st u).
  { unfold server_key. rewrite h5. destruct (eqb u (co_url c)); reflexivity. }
  rewrite hk. destruct (eqb u (co_url c)) eqn:eu; cbn [andb].
  - apply eqb_eq in eu. subst u. destruct (eqb ro (co_norm c)) eqn:er.
    + apply eqb_eq in er. subst ro. rewrite h1. unfold read_comm. rewrite (load_saved_comm r c _ hc h2 h3) by reflexivity. reflexivity.
    + unfold dict_at. rewrite h4 by (intros e; injection e as ->; rewrite eqb_refl in er; discriminate). unfold read_comm.
      destruct (field [b "o"; co_url c; b "R"] ro (s_data st)) as [[| |d]|]; try reflexivity. destruct (load_comm d _); reflexivity.
  - unfold dict_at. rewrite h4; [reflexivity|]. intros e. injection e as -> _. rewrite eqb_refl in eu. discriminate.
Qed.
Lemma erase_impl_spec B i l st x st' : usable st -> erase_impl B i l st = (Ok x, st') ->
  usable st' /\ field i l (s_data st') = None /\ (forall p, apart p (i ++ [l]) = true -> get_path p (s_data st') = get_path p (s_data st)) /\
  x = match field i l (s_data st) with Some _ => true | None => false end.
Proof.
  intros hu h. unfold erase_impl in h. cbv zeta in h. destruct (run B (OpErase i l) st) as [[[]| | | |] st1] eqn:e; try discriminate.
  assert (st1 = st' /\ x = match field i l (s_data st) with Some _ => true | None => false end) as [-> ->] by (split; congruence).
  destruct (run_usable B (OpErase i l) st st' hu (conj eq_refl I) e) as [hd hu']. split; [exact hu'|]. rewrite hd. split; [|split; [|reflexivity]].
  - change (field i l) with (get_path (edit_path (OpErase i l))). rewrite edited_read by (reflexivity || apply hu). reflexivity.
  - intros p hp. apply edited_other; [reflexivity|apply hu|exact hp].
Qed.
Lemma nil_lookup {V} (d : list (bytes * V)) k : is_nil d = true -> lookup k d = None.
Proof. destruct d; [reflexivity|discriminate]. Qed.
Lemma comm_erase_data B u n st x st' : usable st -> comm_erase_at B u n st = (Ok x, st') ->
  usable st' /\ x = match field [b "o"; u; b "R"] n (s_data st) with Some _ => true | None => false end /\
  field [b "o"; u; b "R"] n (s_data st') = None /\
  (forall v r, (v, r) <> (u, n) -> field [b "o"; v; b "R"] r (s_data st') = field [b "o"; v; b "R"] r (s_data st)) /\
  (forall v, v <> u -> field [b "o"] v (s_data st') = field [b "o"] v (s_data st)) /\
  (forall v r, field [b "o"; v; b "R"] r (s_data st') <> None -> field [b "o"; v] (b "#") (s_data st') = field [b "o"; v] (b "#") (s_data st)) /\
  (forall y, y <> b "o" -> same_below y (s_data st) (s_data st')).
Proof.
  intros hu h. unfold comm_erase_at in h. destruct (erase_impl B [b "o"; u; b "R"] n st) as [[e| | | |] st1] eqn:ee; try (destruct e; discriminate || congruence); try discriminate.
  destruct (erase_impl_spec _ _ _ _ _ _ hu ee) as (u1 & f1 & f2 & f3).
  assert (g1 : forall v r, (v, r) <> (u, n) -> field [b "o"; v; b "R"] r (s_data st1) = field [b "o"; v; b "R"] r (s_data st)).
  { intros v r hne. apply f2. cbn [app apart]. rewrite eqb_refl. destruct (eqb v u) eqn:e1; [|reflexivity]. apply eqb_eq in e1. subst v. rewrite eqb_refl. destruct (eqb r n) eqn:e2; [|reflexivity]. apply eqb_eq in e2. congruence. }
  assert (g2 : forall v, field [b "o"; v] (b "#") (s_data st1) = field [b "o"; v] (b "#") (s_data st)).
  { intros v. apply f2. cbn [app apart]. rewrite eqb_refl. destruct (eqb v u); reflexivity. }
  assert (g3 : forall y, y <> b "o" -> same_below y (s_data st) (s_data st1)) by (intros y hy p; apply f2, apart_top, hy).
  assert (g4 : forall v, v <> u -> field [b "o"] v (s_data st1) = field [b "o"] v (s_data st)).
  { intros v hv. apply f2. cbn [app apart]. rewrite eqb_refl. destruct (eqb v u) eqn:e1; [apply eqb_eq in e1; contradiction|reflexivity]. }
  destruct e.
  - destruct (no_rooms u st1) eqn:en.
    + destruct (run_ops B [OpErase [b "o"; u] (b "R"); OpErase [b "o"] u] st1) as [[[]| | | |] st2] eqn:er; try discriminate. assert (x = true /\ st2 = st') as [-> ->] by (split; congruence).
      assert (hw : Forall writes [OpErase [b "o"; u] (b "R"); OpErase [b "o"] u]) by (repeat constructor).
      apply run_ops_data in er as [hd hu']; [|exact u1|exact hw]. split; [exact hu'|]. split; [exact f3|]. rewrite hd. cbn [after_ops fold_left].
      set (d1 := edited (OpErase [b "o"; u] (b "R")) (s_data st1)). assert (w1 : wf d1 = true) by (apply edited_wf; [reflexivity|exact I|apply u1]).
      assert (k1 : get_path [b "o"; u] (edited (OpErase [b "o"] u) d1) = None) by (change [b "o"; u] with (edit_path (OpErase [b "o"] u)); rewrite edited_read by (reflexivity || exact w1); reflexivity).
      assert (k2 : forall r, field [b "o"; u; b "R"] r (edited (OpErase [b "o"] u) d1) = None).
      { intros r. unfold field. rewrite get_path_app by discriminate. change [b "o"; u; b "R"] with ([b "o"; u] ++ [b "R"]). rewrite get_path_app by discriminate. rewrite k1. reflexivity. }
      assert (k3 : forall v q, v <> u -> get_path (b "o" :: v :: q) (edited (OpErase [b "o"] u) d1) = get_path (b "o" :: v :: q) (s_data st1)).
      { intros v q hv. assert (ha : forall q', apart (b "o" :: v :: q) (b "o" :: u :: q') = true). { intros q'. cbn [apart]. rewrite eqb_refl. destruct (eqb v u) eqn:e; [apply eqb_eq in e; contradiction|reflexivity]. }
        rewrite edited_other; [|reflexivity|exact w1|apply (ha [])]. apply edited_other; [reflexivity|apply u1|apply (ha [b "R"])]. }
      split; [apply k2|]. split; [|split; [|split]].
      * intros v r hne. destruct (eqb v u) eqn:ev.
        -- apply eqb_eq in ev. subst v. rewrite k2. rewrite <- g1 by exact hne. unfold field. rewrite get_path_app by discriminate. unfold no_rooms, dict_at, field in en. cbn [app] in en.
           destruct (get_path [b "o"; u; b "R"] (s_data st1)) as [[| |d]|]; try reflexivity. symmetry. apply nil_lookup, en.
        -- rewrite <- g1 by exact hne. unfold field. cbn [app]. apply k3. intros ->. rewrite eqb_refl in ev. discriminate.
      * intros v hv. rewrite <- g4 by exact hv. apply k3, hv.
      * intros v r hn. destruct (eqb v u) eqn:ev; [apply eqb_eq in ev; subst v; rewrite k2 in hn; contradiction|]. rewrite <- g2. unfold field. cbn [app]. apply k3. intros ->. rewrite eqb_refl in ev. discriminate.
      * intros y hy p. rewrite <- (g3 y hy p). rewrite edited_other; [|reflexivity|exact w1|apply apart_top, hy]. apply edited_other; [reflexivity|apply u1|apply apart_top, hy].
    + assert (x = true /\ st1 = st') as [-> ->] by (split; congruence). auto 8.
  - assert (x = false /\ st1 = st') as [-> ->] by (split; congruence). auto 8.
Qed.
Lemma comm_erase_sees B url0 room0 og st x st' : usable st -> new_comm url0 room0 = Ok og -> comm_erase B url0 room0 st = (Ok x, st') ->
  usable st' /\ (forall url room, comm_get st' url room = if same_room url room og then Ok None else comm_get st url room) /\ (forall y, y <> b "o" -> same_below y (s_data st) (s_data st')).
Proof.
  intros hu ho h. unfold comm_erase in h. rewrite ho in h. destruct (comm_erase_data _ _ _ _ _ _ hu h) as (hu' & _ & h1 & h2 & _ & h3 & h4).
  split; [exact hu'|]. split; [|exact h4]. intros url room. rewrite !comm_get_read. unfold same_room, same_server, new_comm. destruct (canonical_url url) as [u| | | |]; try reflexivity. cbn [bind].
  destruct (canonical_room room) as [ro| | | |]; cbn [bind]; try (rewrite andb_false_r; reflexivity). cbn [co_url co_norm]. unfold dict_at.
  destruct (eqb u (co_url og) && eqb ro (co_norm og)) eqn:e.
  - apply andb_prop in e as [e1 e2]. apply eqb_eq in e1, e2. subst u ro. rewrite h1. reflexivity.
  - rewrite h2. 2:{ intros e'. injection e' as -> ->. rewrite !eqb_refl in e. discriminate. }
    destruct (field [b "o"; u; b "R"] ro (s_data st)) as [[| |d]|] eqn:ef; try reflexivity. unfold read_comm. unfold server_key. rewrite (h3 u ro); [reflexivity|]. rewrite h2, ef; [discriminate|].
    intros e'. injection e' as -> ->. rewrite !eqb_refl in e. discriminate.
Qed.

(** ** all commands *)
Lemma neq_tops : b "g" <> b "o" /\ b "C" <> b "o" /\ b "g" <> b "C" /\ b "o" <> b "g" /\ b "o" <> b "C" /\ b "C" <> b "g".
Proof. repeat split; discriminate. Qed.
Lemma gcmd_spec B pub m st st' v : usable st -> (forall s, length s = 32 -> length (pub s) = 32) -> gcmd_fits m -> run_gcmd B m st = (Ok tt, st') -> sees pub st v ->
  usable st' /\ sees pub st' (after_gcmd pub m v).
Proof.
  intros hu hpub hf h (s1 & s2 & s3). destruct neq_tops as (t1 & t2 & t3 & t4 & t5 & t6). destruct v as [vg vc vl]. cbn [v_group v_comm v_legacy] in *. destruct m as [id g|id|c|url room|id g|id]; cbn [run_gcmd after_gcmd] in *.
  - unfold group_set in h. destruct (session_id_to_bytes id (b "03")) as [pk| | | |] eqn:ek; try discriminate. destruct (group_named pk g) as (kv & n1 & n2).
    destruct (record_set _ _ _ _ _ _ _ _ hu (group_script_ok pk g hf) n1 n2 h) as (hu' & (r & e & hr) & ho & hfr). split; [exact hu'|]. split; [|split]; cbn [v_group v_comm v_legacy].
    + intros sid hs hl. destruct (sid_ok_key _ _ hs) as [pk' ek']. pose proof (s1 sid hs hl) as hg. unfold group_get in *. rewrite ek' in *. cbn [bind] in *. rewrite (same_id_key _ _ _ _ _ ek' ek).
      destruct (eqb pk' pk) eqn:eq.
      * apply eqb_eq in eq. subst pk'. rewrite e. rewrite (load_group_script pub sid pk g r _ hf ek' hl hpub hr). unfold kept_group. do 3 f_equal. destruct (has_secret sid g); [|reflexivity].
        assert (hv : vg sid = match dict_at [b "g"] pk (s_data st) with Some d => Some (load_group pub sid d) | None => None end) by congruence. rewrite hv.
        destruct (dict_at [b "g"] pk (s_data st)); reflexivity.
      * rewrite <- hg. unfold dict_at. rewrite ho; [reflexivity|]. intros ->. rewrite eqb_refl in eq. discriminate.
    + intros url room. rewrite <- s2. apply comm_get_frame. apply (below_other _ (b "g")); assumption.
    + intros sid hs. rewrite <- s3 by exact hs. apply legacy_get_frame. apply (below_other _ (b "g")); assumption.
  - unfold ignore, group_erase in h. destruct (session_id_to_bytes id (b "03")) as [pk| | | |] eqn:ek; try discriminate.
    destruct (erase_impl B [b "g"] pk st) as [[x| | | |] st1] eqn:e; try discriminate. assert (st1 = st') by (cbn in h; congruence). subst st1.
    destruct (erase_impl_spec _ _ _ _ _ _ hu e) as (hu' & f1 & f2 & _). split; [exact hu'|]. split; [|split]; cbn [v_group v_comm v_legacy].
    + intros sid hs hl. destruct (sid_ok_key _ _ hs) as [pk' ek']. pose proof (s1 sid hs hl) as hg. unfold group_get in *. rewrite ek' in *. cbn [bind] in *. rewrite (same_id_key _ _ _ _ _ ek' ek).
      unfold dict_at in *. destruct (eqb pk' pk) eqn:eq; [apply eqb_eq in eq; subst pk'; rewrite f1; reflexivity|]. rewrite <- hg. unfold field. rewrite f2; [reflexivity|]. apply (apart_diff [b "g"]). intros ->. rewrite eqb_refl in eq. discriminate.
    + intros url room. rewrite <- s2. apply comm_get_frame. intros p. apply f2, apart_top, t4.
    + intros sid hs. rewrite <- s3 by exact hs. apply legacy_get_frame. intros p. apply f2, apart_top, t6.
  - destruct hf as [hf hc]. destruct (comm_set_data _ _ _ _ hu hf h) as (hu' & _ & _ & _ & h5). split; [exact hu'|]. split; [|split]; cbn [v_group v_comm v_legacy].
    + intros sid hs hl. rewrite <- (s1 sid hs hl). apply group_get_frame, h5, t1.
    + intros url room. rewrite (comm_set_sees _ _ _ _ hu hf hc h), s2. reflexivity.
    + intros sid hs. rewrite <- s3 by exact hs. apply legacy_get_frame, h5, t2.
  - unfold ignore in h. destruct (new_comm url room) as [og| | | |] eqn:eo; try (unfold comm_erase in h; rewrite eo in h; discriminate).
    destruct (comm_erase B url room st) as [[x| | | |] st1] eqn:e; try discriminate. assert (st1 = st') by (cbn in h; congruence). subst st1.
    destruct (comm_erase_sees _ _ _ _ _ _ _ hu eo e) as (hu' & f1 & f2). split; [exact hu'|]. split; [|split]; cbn [v_group v_comm v_legacy].
    + intros sid hs hl. rewrite <- (s1 sid hs hl). apply group_get_frame, f2, t1.
    + intros url' room'. rewrite f1, s2. reflexivity.
    + intros sid hs. rewrite <- s3 by exact hs. apply legacy_get_frame, f2, t2.
  - destruct hf as (hf & ht & hm). unfold legacy_set in h. destruct (session_id_to_bytes id (b "05")) as [pk| | | |] eqn:ek; try discriminate. destruct (legacy_named g) as [n1 n2].
    destruct (record_set _ _ _ _ _ _ _ _ hu (legacy_script_ok g hf ht) n1 n2 h) as (hu' & (r & e & hr) & ho & hfr). split; [exact hu'|]. split; [|split]; cbn [v_group v_comm v_legacy].
    + intros sid hs hl. rewrite <- (s1 sid hs hl). apply group_get_frame. apply (below_other _ (b "C")); assumption.
    + intros url room. rewrite <- s2. apply comm_get_frame. apply (below_other _ (b "C")); assumption.
    + intros sid hs. destruct (sid_ok_key _ _ hs) as [pk' ek']. pose proof (s3 sid hs) as hg. unfold legacy_get in *. rewrite ek' in *. cbn [bind] in *. rewrite (same_id_key _ _ _ _ _ ek' ek).
      destruct (eqb pk' pk) eqn:eq.
      * apply eqb_eq in eq. subst pk'. rewrite e, (load_legacy_script g r _ hf hm hr). reflexivity.
      * rewrite <- hg. unfold dict_at. rewrite ho; [reflexivity|]. intros ->. rewrite eqb_refl in eq. discriminate.
  - unfold ignore, legacy_erase in h. destruct (session_id_to_bytes id (b "05")) as [pk| | | |] eqn:ek; try discriminate.
    destruct (erase_impl B [b "C"] pk st) as [[x| | | |] st1] eqn:e; try discriminate. assert (st1 = st') by (cbn in h; congruence). subst st1.
    destruct (erase_impl_spec _ _ _ _ _ _ hu e) as (hu' & f1 & f2 & _). split; [exact hu'|]. split; [|split]; cbn [v_group v_comm v_legacy].
    + intros sid hs hl. rewrite <- (s1 sid hs hl). apply group_get_frame. intros p. apply f2, apart_top, t3.
    + intros url room. rewrite <- s2. apply comm_get_frame. intros p. apply f2, apart_top, t5.
    + intros sid hs. destruct (sid_ok_key _ _ hs) as [pk' ek']. pose proof (s3 sid hs) as hg. unfold legacy_get in *. rewrite ek' in *. cbn [bind] in *. rewrite (same_id_key _ _ _ _ _ ek' ek).
      unfold dict_at in *. destruct (eqb pk' pk) eqn:eq; [apply eqb_eq in eq; subst pk'; rewrite f1; reflexivity|]. rewrite <- hg. unfold field. rewrite f2; [reflexivity|]. apply (apart_diff [b "C"]). intros ->. rewrite eqb_refl in eq. discriminate.
Qed.
Lemma gcmds_spec B pub l : (forall s, length s = 32 -> length (pub s) = 32) -> forall st st' v, usable st -> Forall gcmd_fits l -> run_gcmds B l st = (Ok tt, st') -> sees pub st v ->
  sees pub st' (fold_left (fun v m => after_gcmd pub m v) l v).
Proof.
  intros hpub. induction l as [|m l IH]; intros st st' v hu hl h hv; cbn [run_gcmds fold_left] in *; [injection h as <-; exact hv|].
  inversion hl as [|x y h1 h2]; subst. destruct (run_gcmd B m st) as [[[]| | | |] st1] eqn:e; try discriminate.
  destruct (gcmd_spec _ _ _ _ _ _ hu hpub h1 e hv) as [hu1 hv1]. exact (IH _ _ _ hu1 h2 h hv1).
Qed.
