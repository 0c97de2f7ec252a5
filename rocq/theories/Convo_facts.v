(** Proofs of C53: conversations. *)
From Verif Require Import ConvoSpec Data_facts Fields_facts Base_facts Conf2_facts Maps Hex_facts Message_facts Records_facts Contacts_facts Members_facts Community_facts UserGroups_facts UserGroups2_facts UserGroups3_facts UserGroups4_facts.
From Coq Require Import Lia.

Lemma recent_is now c : cbase_fits c -> recent now (cv_read c) = is_recent now (cv_read c).
Proof.
  intros [h1 h2]. unfold recent, is_recent, to_ns, PRUNE_LOW, DAY. rewrite Z.mod_small by lia. f_equal; lia.
Qed.
Lemma stale_is now c : (45 * 86400 * 10 ^ 9 <= now)%Z -> stale now c = is_stale now c.
Proof. intros h. unfold stale, is_stale, cutoff, PRUNE_HIGH, DAY. rewrite Z.quot_div_nonneg by lia. do 3 f_equal. Qed.

(** ** one record *)
Lemma mod_field_dict i l f : forall k d, wf d = true ->
  field i l (mod_field (i ++ [l]) k f d) = match field i l d with Some (VDict x) => Some (VDict (mod_field [] k f x)) | o => o end.
Proof.
  induction i as [|y i IH]; intros k d hd; cbn [app mod_field].
  - rewrite !field_nil. destruct (lookup l d) as [[s|s|x]|] eqn:e; try exact e. rewrite lookup_insert, eqb_refl by (apply wf_sorted, hd). reflexivity.
  - rewrite !field_cons. destruct (lookup y d) as [[s|s|x]|] eqn:e; try (rewrite e; reflexivity). rewrite lookup_insert, eqb_refl by (apply wf_sorted, hd). apply IH. exact (wf_lookup d _ _ hd e).
Qed.
Definition writes_r (now : Z) (c : cbase) (old : option Z) : bool := makes_older c old || recent now (cv_read c).
Lemma cscript_ok now c old : cbase_fits c -> script_ok (cbase_script now c old).
Proof.
  intros [h1 h2]. unfold cbase_script. apply script_ok_app.
  - destruct (_ || _); [|constructor]. apply script_ok_1. split; [|reflexivity]. cbn. unfold int64_ok, int64_min, int64_max. apply andb_true_intro. split; apply Z.leb_le; lia.
  - unfold set_flag. destruct (cv_unread c); apply script_ok_1; [split; reflexivity|exact I].
Qed.
Definition cbase_after (now : Z) (c : cbase) (old : option Z) (o : option dict) : option cbase :=
  match o with
  | Some x => Some (mkCBase (if writes_r now c old then cv_read c else or_else (maybe_int x (b "r")) 0%Z) (cv_unread c))
  | None => if writes_r now c old || cv_unread c then Some (mkCBase (if writes_r now c old then cv_read c else 0%Z) (cv_unread c)) else None
  end.
Lemma cbase_record now c old i l d : cbase_fits c -> wf d = true ->
  option_map load_cbase (dict_at i l (after_ops (map (op_at (i ++ [l])) (cbase_script now c old)) d)) = cbase_after now c old (dict_at i l d).
Proof.
  intros hf hw. pose proof (cscript_ok now c old hf) as hs. unfold cbase_after. unfold cbase_script in *. fold (writes_r now c old) in *. destruct (writes_r now c old) eqn:ew; cbn [app orb] in *.
  - destruct (script_dict i l ((b "r", Some (vint (cv_read c))) :: set_flag (b "u") (cv_unread c)) d (b "r") (vint (cv_read c)) hs hw) as (r & h1 & h2).
    { unfold set_flag. destruct (cv_unread c); reflexivity. } { intros a. unfold set_flag. destruct (cv_unread c); reflexivity. }
    rewrite h1. cbn [option_map]. assert (e : load_cbase r = mkCBase (cv_read c) (cv_unread c)); [|rewrite e; destruct (dict_at i l d); reflexivity].
    unfold load_cbase, maybe_int. rewrite !h2. unfold set_flag. destruct (cv_unread c); reflexivity.
  - destruct (cv_unread c) eqn:eu.
    + destruct (script_dict i l (set_flag (b "u") true) d (b "u") (vint 1) hs hw eq_refl (fun a => eq_refl)) as (r & h1 & h2).
      rewrite h1. cbn [option_map]. unfold load_cbase, maybe_int. rewrite !h2. cbn. destruct (dict_at i l d); reflexivity.
    + cbn [set_flag map op_at snd fst after_ops fold_left edited]. unfold dict_at, erase_field. rewrite mod_field_dict by exact hw.
      destruct (field i l d) as [[s|s|x]|] eqn:e; try reflexivity. cbn [option_map]. f_equal. cbn [mod_field].
      assert (hx : wf x = true). { pose proof (field_wf i l d _ hw e) as h. exact h. }
      unfold load_cbase, maybe_int. destruct (lookup (b "u") x) eqn:eux.
      * rewrite !lookup_erase by (apply wf_sorted, hx). cbn. reflexivity.
      * rewrite eux. reflexivity.
Qed.
Lemma old_read i l d : as_int (field (i ++ [l]) (b "r") d) = match dict_at i l d with Some x => maybe_int x (b "r") | None => None end.
Proof. rewrite field_snoc. unfold dict_at. destruct (field i l d) as [[| |x]|]; reflexivity. Qed.
(** in terms of what was read before *)
Lemma cbase_after_is now c o : cbase_fits c ->
  cbase_after now c match o with Some x => maybe_int x (b "r") | None => None end o = stored_over now c (option_map load_cbase o).
Proof.
  intros hf. unfold cbase_after, stored_over, writes_r. rewrite recent_is by exact hf. destruct hf as [h1 h2]. destruct o as [x|]; cbn [option_map].
  - cbn [load_cbase cv_read cv_unread]. unfold makes_older. destruct (maybe_int x (b "r")) as [v|]; cbn [or_else]; [reflexivity|].
    replace (cv_read c <? 0)%Z with false by (symmetry; apply Z.ltb_ge; lia). reflexivity.
  - cbn [makes_older orb]. replace (cv_read c <? 0)%Z with false by (symmetry; apply Z.ltb_ge; lia). cbn [orb]. destruct (is_recent now (cv_read c)); [reflexivity|]. destruct (cv_unread c); reflexivity.
Qed.

(** ** ids *)
Lemma convo_get_map st k sid : convo_get st k sid = (pk <- session_id_to_bytes sid (prefix_of k) ;; Ok (option_map load_cbase (dict_at [top_of k] pk (s_data st)))).
Proof. unfold convo_get. destruct (session_id_to_bytes sid (prefix_of k)); reflexivity. Qed.
Lemma convo_get_frame st st' k : same_below (top_of k) (s_data st) (s_data st') -> forall sid, convo_get st' k sid = convo_get st k sid.
Proof. intros h sid. unfold convo_get, dict_at, field. destruct (session_id_to_bytes sid (prefix_of k)); try reflexivity. cbn [bind app]. rewrite h. reflexivity. Qed.
Lemma ccomm_get_frame st st' : same_below (b "o") (s_data st) (s_data st') -> forall url room, ccomm_get st' url room = ccomm_get st url room.
Proof.
  intros h url room. unfold ccomm_get, server_key, dict_at, field. destruct (canonical_room room) as [r| | | |]; try reflexivity. cbn [bind]. destruct (new_comm url r); try reflexivity. cbn [bind app]. rewrite !h. reflexivity.
Qed.
Lemma tops_differ j k : kind_eqb j k = false -> top_of j <> top_of k.
Proof. destruct j, k; cbn; intros h e; discriminate. Qed.
Lemma top_not_o k : top_of k <> b "o" /\ b "o" <> top_of k.
Proof. destruct k; split; discriminate. Qed.
Lemma kind_eqb_eq j k : kind_eqb j k = true <-> j = k.
Proof. destruct j, k; cbn; split; congruence. Qed.
Definition keys_kept (d d' : dict) : Prop := forall u r v, field [b "o"; u; b "R"] r d' = Some v -> exists v', field [b "o"; u; b "R"] r d = Some v'.
Lemma kept_canonical st st' : keys_kept (s_data st) (s_data st') -> canonical_keys st -> canonical_keys st'.
Proof. intros h hc u r v hv. destruct (h u r v hv) as [v' hv']. exact (hc u r v' hv'). Qed.
Lemma below_kept d d' : same_below (b "o") d d' -> keys_kept d d'.
Proof. intros h u r v hv. unfold field in *. cbn [app] in *. rewrite h in hv. eauto. Qed.
Lemma convo_set_sees B now k id c st st' : usable st -> cbase_fits c -> convo_set B now k id c st = (Ok tt, st') ->
  usable st' /\ (forall j sid, convo_get st' j sid = if kind_eqb j k && same_id sid id then o <- convo_get st j sid ;; Ok (stored_over now c o) else convo_get st j sid) /\
  same_below (b "o") (s_data st) (s_data st').
Proof.
  intros hu hf h. unfold convo_set in h. destruct (session_id_to_bytes id (prefix_of k)) as [pk| | | |] eqn:ek; try discriminate.
  set (old := as_int (field [top_of k; pk] (b "r") (s_data st))) in *. pose proof (cscript_ok now c old hf) as hs.
  destruct (run_script_spec _ _ _ _ _ hu hs h) as [hd hu']. split; [exact hu'|]. split.
  - intros j sid. destruct (kind_eqb j k) eqn:ej; cbn [andb].
    + apply kind_eqb_eq in ej. subst j. rewrite !convo_get_map. destruct (session_id_to_bytes sid (prefix_of k)) as [pk'| | | |] eqn:ek'; try (destruct (same_id sid id); reflexivity). cbn [bind].
      rewrite (same_id_key _ _ _ _ _ ek' ek). rewrite hd. destruct (eqb pk' pk) eqn:e.
      * apply eqb_eq in e. subst pk'. f_equal. change [top_of k; pk] with ([top_of k] ++ [pk]) in *. rewrite cbase_record by (exact hf || apply hu). unfold old. rewrite old_read. apply cbase_after_is, hf.
      * apply eqb_false in e. unfold dict_at. change [top_of k; pk] with ([top_of k] ++ [pk]). rewrite script_sibling; [reflexivity|exact hs|apply hu|exact e].
    + apply convo_get_frame. intros p. rewrite hd. apply (script_other [top_of k; pk]); [exact hs| |apply hu]. intros x. apply apart_top, tops_differ, ej.
  - intros p. rewrite hd. apply (script_other [top_of k; pk]); [exact hs| |apply hu]. intros x. apply apart_top, top_not_o.
Qed.
Lemma convo_erase_sees B k id st x st' : usable st -> convo_erase B k id st = (Ok x, st') ->
  usable st' /\ (forall j sid, session_id_ok sid (prefix_of j) = true -> convo_get st' j sid = if kind_eqb j k && same_id sid id then Ok None else convo_get st j sid) /\
  same_below (b "o") (s_data st) (s_data st').
Proof.
  intros hu h. unfold convo_erase in h. destruct (session_id_to_bytes id (prefix_of k)) as [pk| | | |] eqn:ek; try discriminate.
  destruct (erase_impl_spec _ _ _ _ _ _ hu h) as (hu' & f1 & f2 & _). split; [exact hu'|]. split.
  - intros j sid hs. destruct (kind_eqb j k) eqn:ej; cbn [andb].
    + apply kind_eqb_eq in ej. subst j. destruct (sid_ok_key _ _ hs) as [pk' ek']. unfold convo_get. rewrite ek'. cbn [bind]. rewrite (same_id_key _ _ _ _ _ ek' ek). unfold dict_at. destruct (eqb pk' pk) eqn:e.
      * apply eqb_eq in e. subst pk'. rewrite f1. reflexivity.
      * apply eqb_false in e. unfold field. rewrite f2; [reflexivity|]. apply (apart_diff [top_of k]), e.
    + apply convo_get_frame. intros p. apply f2, apart_top, tops_differ, ej.
  - intros p. apply f2, apart_top, top_not_o.
Qed.

(** ** communities *)
Lemma ccomm_get_read st url room u r : canonical_url url = Ok u -> canonical_room room = Ok r ->
  ccomm_get st url room = Ok (option_map (fun d => mkCC (mkComm u r r (server_key st u) new_gbase) (load_cbase d)) (dict_at [b "o"; u; b "R"] r (s_data st))).
Proof.
  intros h1 h2. unfold ccomm_get. rewrite h2. cbn [bind]. unfold new_comm. rewrite h1, (proj1 (room_fixed _ _ h2)). cbn [bind co_url co_norm].
  destruct (dict_at [b "o"; u; b "R"] r (s_data st)) as [d|]; [|reflexivity]. cbn [option_map]. destruct (server_key_len st u) as [-> | e]; [reflexivity|].
  destruct (server_key st u) as [|c k]; [discriminate|]. cbn [is_nil]. unfold set_pubkey. rewrite e. reflexivity.
Qed.
Lemma ccomm_bad st st' url room : (forall c, new_comm url room <> Ok c) -> ccomm_get st' url room = ccomm_get st url room.
Proof.
  intros h. unfold ccomm_get, new_comm in *. destruct (canonical_room room) as [r| | | |] eqn:er; try reflexivity. cbn [bind].
  destruct (canonical_url url) as [u| | | |] eqn:eu; try reflexivity. cbn [bind] in *. destruct (h _ eq_refl).
Qed.
Lemma server_key_set pk : kept_key pk = (if Nat.eqb (length pk) 32 then pk else []).
Proof. reflexivity. Qed.
Lemma ccomm_set_sees B now c st st' : usable st -> cbase_fits (cc_base c) -> comm_ok (cc_comm c) -> ccomm_set B now c st = (Ok tt, st') ->
  usable st' /\
  (forall url room, ccomm_get st' url room = if same_room url room (cc_comm c) then ccomm_over now c (ccomm_get st url room)
     else if same_server url (cc_comm c) then cwith_key (co_pub (cc_comm c)) (ccomm_get st url room) else ccomm_get st url room) /\
  (forall y, y <> b "o" -> same_below y (s_data st) (s_data st')) /\ (canonical_keys st -> canonical_keys st').
Proof.
  intros hu hf [hc1 hc2] h. destruct c as [c cb]. cbn [cc_comm cc_base] in *. unfold ccomm_set in h. cbn [cc_comm cc_base] in h. cbv zeta in h.
  set (o1 := OpAssign [b "o"; co_url c] (b "#") (vstr (co_pub c))) in *. destruct (run B o1 st) as [[[]| | | |] st1] eqn:e1; try discriminate.
  assert (w1 : writes o1) by (split; reflexivity). destruct (run_usable _ _ _ _ hu w1 e1) as [d1 u1].
  set (old := as_int (field [b "o"; co_url c; b "R"; co_norm c] (b "r") (s_data st1))) in *. pose proof (cscript_ok now cb old hf) as hs.
  destruct (run_script_spec _ _ _ _ _ u1 hs h) as [hd hu'].
  assert (rooms : forall u r, (u, r) <> (co_url c, co_norm c) -> field [b "o"; u; b "R"] r (s_data st') = field [b "o"; u; b "R"] r (s_data st)).
  { intros u r hne. rewrite hd. unfold field. cbn [app]. rewrite (script_other [b "o"; co_url c; b "R"; co_norm c]); [|exact hs|intros k; apply room_apart, hne|apply u1].
    rewrite d1. apply edited_other; [reflexivity|apply hu|]. apply room_key_apart. }
  assert (key : forall u, field [b "o"; u] (b "#") (s_data st') = if eqb u (co_url c) then Some (vstr (co_pub c)) else field [b "o"; u] (b "#") (s_data st)).
  { intros u. rewrite hd. unfold field. cbn [app]. rewrite (script_other [b "o"; co_url c; b "R"; co_norm c]); [|exact hs|intros k; apply key_apart|apply u1]. rewrite d1. destruct (eqb u (co_url c)) eqn:e.
    - apply eqb_eq in e. subst u. change [b "o"; co_url c; b "#"] with (edit_path o1). rewrite edited_read by (reflexivity || apply hu). reflexivity.
    - apply edited_other; [reflexivity|apply hu|]. cbn [edit_path o1 app apart]. rewrite eqb_refl, e. reflexivity. }
  assert (same1 : dict_at [b "o"; co_url c; b "R"] (co_norm c) (s_data st1) = dict_at [b "o"; co_url c; b "R"] (co_norm c) (s_data st)).
  { unfold dict_at, field. cbn [app]. rewrite d1, edited_other; [reflexivity|reflexivity|apply hu|]. apply room_key_apart. }
  assert (room : option_map load_cbase (dict_at [b "o"; co_url c; b "R"] (co_norm c) (s_data st')) = stored_over now cb (option_map load_cbase (dict_at [b "o"; co_url c; b "R"] (co_norm c) (s_data st)))).
  { rewrite hd. change [b "o"; co_url c; b "R"; co_norm c] with ([b "o"; co_url c; b "R"] ++ [co_norm c]) in *. rewrite cbase_record by (exact hf || apply u1). unfold old. rewrite old_read, same1. apply cbase_after_is, hf. }
  assert (keyis : forall u, server_key st' u = if eqb u (co_url c) then kept_key (co_pub c) else server_key st u).
  { intros u. unfold server_key. rewrite key. destruct (eqb u (co_url c)); reflexivity. }
  split; [exact hu'|]. split; [|split].
  - intros url ro. unfold same_room, same_server. destruct (canonical_url url) as [u| | | |] eqn:eu; try (cbn [andb]; apply ccomm_bad; intros x; unfold new_comm; rewrite eu; discriminate).
    destruct (canonical_room ro) as [r| | | |] eqn:er.
    2,3,4,5: rewrite andb_false_r; assert (hb : ccomm_get st' url ro = ccomm_get st url ro) by (apply ccomm_bad; intros x; unfold new_comm; rewrite eu, er; discriminate); rewrite hb; unfold ccomm_get; rewrite er; destruct (eqb u (co_url c)); reflexivity.
    rewrite !(ccomm_get_read _ _ _ _ _ eu er). rewrite keyis. destruct (eqb u (co_url c)) eqn:e; cbn [andb].
    + apply eqb_eq in e. subst u. destruct (eqb r (co_norm c)) eqn:e2.
      * apply eqb_eq in e2. subst r. unfold ccomm_over. cbn [cc_comm cc_base]. f_equal.
        assert (hx : match Ok (option_map (fun d => mkCC (mkComm (co_url c) (co_norm c) (co_norm c) (server_key st (co_url c)) new_gbase) (load_cbase d)) (dict_at [b "o"; co_url c; b "R"] (co_norm c) (s_data st))) with Ok (Some x) => Some (cc_base x) | _ => None end
          = option_map load_cbase (dict_at [b "o"; co_url c; b "R"] (co_norm c) (s_data st))) by (destruct (dict_at [b "o"; co_url c; b "R"] (co_norm c) (s_data st)); reflexivity).
        rewrite hx, <- room. destruct (dict_at [b "o"; co_url c; b "R"] (co_norm c) (s_data st')); reflexivity.
      * apply eqb_false in e2. unfold dict_at. rewrite rooms by congruence. destruct (field [b "o"; co_url c; b "R"] r (s_data st)) as [[| |x]|]; reflexivity.
    + apply eqb_false in e. unfold dict_at. rewrite rooms by congruence. reflexivity.
  - intros y hy p. rewrite hd. rewrite (script_other [b "o"; co_url c; b "R"; co_norm c]); [|exact hs|intros k; apply apart_top, hy|apply u1]. rewrite d1. apply edited_other; [reflexivity|apply hu|]. apply apart_top, hy.
  - intros hcan u r v hv. destruct (eqb u (co_url c) && eqb r (co_norm c)) eqn:e.
    + apply andb_prop in e as [e e']. apply eqb_eq in e, e'. subst u r. split; [exact hc1|apply (room_fixed _ _ hc2)].
    + apply (hcan u r v). rewrite <- rooms; [exact hv|]. intros e'. injection e' as -> ->. rewrite !eqb_refl in e. discriminate.
Qed.
Lemma ccomm_erase_sees B url0 room0 og st x st' : usable st -> new_comm url0 room0 = Ok og -> ccomm_erase B url0 room0 st = (Ok x, st') ->
  usable st' /\ (forall url room, ccomm_get st' url room = if same_room url room og then Ok None else ccomm_get st url room) /\
  (forall y, y <> b "o" -> same_below y (s_data st) (s_data st')) /\ (canonical_keys st -> canonical_keys st').
Proof.
  intros hu ho h. unfold ccomm_erase, comm_erase in h. rewrite ho in h. destruct (comm_erase_data _ _ _ _ _ _ hu h) as (hu' & _ & h1 & h2 & _ & h3 & h4).
  split; [exact hu'|]. split; [|split; [exact h4|]].
  - intros url ro. unfold same_room, same_server. destruct (canonical_url url) as [u| | | |] eqn:eu; try (cbn [andb]; apply ccomm_bad; intros y; unfold new_comm; rewrite eu; discriminate).
    destruct (canonical_room ro) as [r| | | |] eqn:er; try (rewrite andb_false_r; apply ccomm_bad; intros y; unfold new_comm; rewrite eu, er; discriminate).
    rewrite !(ccomm_get_read _ _ _ _ _ eu er). destruct (eqb u (co_url og) && eqb r (co_norm og)) eqn:e.
    + apply andb_prop in e as [e e']. apply eqb_eq in e, e'. subst u r. unfold dict_at. rewrite h1. reflexivity.
    + assert (hne : (u, r) <> (co_url og, co_norm og)) by (intros e'; injection e' as -> ->; rewrite !eqb_refl in e; discriminate). unfold dict_at. pose proof (h2 _ _ hne) as h2'.
      destruct (field [b "o"; u; b "R"] r (s_data st')) as [w|] eqn:ef; [|rewrite <- h2'; reflexivity]. rewrite <- h2'. assert (hn : field [b "o"; u; b "R"] r (s_data st') <> None) by congruence.
      unfold server_key. rewrite (h3 _ _ hn). reflexivity.
  - intros hcan u r v hv. destruct (eqb u (co_url og) && eqb r (co_norm og)) eqn:e.
    + apply andb_prop in e as [e e']. apply eqb_eq in e, e'. subst u r. congruence.
    + apply (hcan u r v). rewrite <- h2; [exact hv|]. intros e'. injection e' as -> ->. rewrite !eqb_refl in e. discriminate.
Qed.
