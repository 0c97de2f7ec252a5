(** Proofs of C53: pushing conversations. *)
From Verif Require Import ConvoSpec Data_facts Fields_facts Replay_facts Redeliver_facts Life_facts Base_facts Conf_facts Conf2_facts Maps Message_facts Records_facts Community_facts UserGroups_facts UserGroups2_facts UserGroups3_facts UserGroups4_facts Convo_facts Convo2_facts.
From Coq Require Import Lia.

(** after a push the data is as it was, or without empty containers *)
Lemma push_trims B st x st' : push B st = (Ok x, st') -> s_data st' = s_data st \/ s_data st' = fst (prune (s_data st)).
Proof.
  intros h. apply push_spec in h as [(hx & _)|(k & s & conf & c0 & st2 & _ & hs & _ & _ & hst & _ & ->)]; [exfalso; eapply hx; reflexivity|].
  assert (e : m_data (c_msg conf) = s_data st \/ m_data (c_msg conf) = fst (prune (s_data st))).
  { apply serialize_refresh in hs. unfold s_data, s_msg. destruct (s_conf st) as [m|m orig]; cbn [refresh] in hs; [injection hs as <-; left; reflexivity|]. destruct (diff _ _); [|discriminate]. injection hs as <-. right. reflexivity. }
  assert (e2 : s_conf st2 = conf). { destruct hst as [(_ & g)|(_ & ->)]; [|reflexivity]. apply set_state_spec in g as [(g & _)|(_ & g & _)]; [discriminate|]. rewrite g. reflexivity. }
  unfold s_data at 1 3, s_msg. cbn. rewrite e2. exact e.
Qed.
Lemma load_prune i : wf i = true -> load_cbase (fst (prune i)) = load_cbase i.
Proof.
  intros hw. unfold load_cbase, maybe_int. rewrite !lookup_prune by exact hw.
  assert (e : forall v, as_int (match v with None => None | Some v => let '(v', (e, _)) := prune_v v in if e then None else Some v' end) = as_int v).
  { intros [[s|l|d]|]; try reflexivity. - cbn [prune_v]. destruct (is_nil l); reflexivity. - rewrite prune_v_dict'. destruct (is_nil (fst (prune d))); reflexivity. }
  rewrite !e. reflexivity.
Qed.
Lemma load_empty i : wf i = true -> fst (prune i) = [] -> load_cbase i = new_cbase.
Proof. intros hw e. rewrite <- load_prune by exact hw. rewrite e. reflexivity. Qed.
Lemma dict_at_prune p k d : wf d = true ->
  dict_at p k (fst (prune d)) = match dict_at p k d with Some i => if is_nil (fst (prune i)) then None else Some (fst (prune i)) | None => None end.
Proof.
  intros hw. unfold dict_at, field. rewrite get_path_prune by (try exact hw; destruct p; discriminate). destruct (get_path (p ++ [k]) d) as [[s|l|i]|]; try reflexivity.
  - cbn [prune_v]. destruct (is_nil l); reflexivity.
  - rewrite prune_v_dict'. destruct (is_nil (fst (prune i))); reflexivity.
Qed.
Lemma dict_at_wf p k d i : wf d = true -> dict_at p k d = Some i -> wf i = true.
Proof. intros hw h. unfold dict_at in h. destruct (field p k d) as [[| |x]|] eqn:e; try discriminate. injection h as ->. exact (field_wf _ _ _ _ hw e). Qed.
Lemma read_prune p k d : wf d = true -> 
  option_map load_cbase (dict_at p k (fst (prune d))) = option_map load_cbase (dict_at p k d) \/ (dict_at p k (fst (prune d)) = None /\ option_map load_cbase (dict_at p k d) = Some new_cbase).
Proof.
  intros hw. rewrite (dict_at_prune p k d hw). destruct (dict_at p k d) as [i|] eqn:e; [|left; reflexivity]. pose proof (dict_at_wf _ _ _ _ hw e) as hi.
  destruct (fst (prune i)) as [|y z] eqn:ei; cbn [is_nil option_map].
  - right. rewrite (load_empty _ hi ei). auto.
  - left. rewrite <- ei, load_prune by exact hi. reflexivity.
Qed.
Lemma server_key_prune st st' u : wf (s_data st) = true -> s_data st' = fst (prune (s_data st)) -> server_key st' u = server_key st u.
Proof.
  intros hw h. unfold server_key, field. rewrite h, get_path_prune by (try exact hw; discriminate).
  destruct (get_path ([b "o"; u] ++ [b "#"]) (s_data st)) as [[s|l|i]|]; try reflexivity.
  - cbn [prune_v]. destruct (is_nil l); reflexivity.
  - rewrite prune_v_dict'. destruct (is_nil (fst (prune i))); reflexivity.
Qed.
(** reading after a push *)
Lemma push_convo B st x st' k sid : usable st -> push B st = (Ok x, st') ->
  convo_get st' k sid = convo_get st k sid \/ convo_get st k sid = Ok (Some new_cbase) /\ convo_get st' k sid = Ok None.
Proof.
  intros hu h. apply push_trims in h. unfold convo_get. destruct (session_id_to_bytes sid (prefix_of k)) as [pk| | | |]; try (left; reflexivity). cbn [bind].
  destruct h as [-> | ->]; [left; reflexivity|]. destruct (read_prune [top_of k] pk _ (proj1 hu)) as [e|[e1 e2]].
  - left. destruct (dict_at [top_of k] pk (fst (prune (s_data st)))), (dict_at [top_of k] pk (s_data st)); cbn [option_map] in e; congruence.
  - right. rewrite e1. destruct (dict_at [top_of k] pk (s_data st)); cbn [option_map] in e2; [|discriminate]. split; congruence.
Qed.
Lemma push_ccomm B st x st' url room : usable st -> push B st = (Ok x, st') ->
  ccomm_get st' url room = ccomm_get st url room \/ (exists c, ccomm_get st url room = Ok (Some c) /\ cc_base c = new_cbase) /\ ccomm_get st' url room = Ok None.
Proof.
  intros hu h. apply push_trims in h.
  destruct (canonical_room room) as [r| | | |] eqn:er; try (left; unfold ccomm_get; rewrite er; reflexivity).
  destruct (canonical_url url) as [u| | | |] eqn:eu; try (left; unfold ccomm_get, new_comm; rewrite er; cbn [bind]; rewrite eu; reflexivity).
  rewrite !(ccomm_get_read _ _ _ _ _ eu er). assert (hk : server_key st' u = server_key st u). { destruct h as [h|h]; [unfold server_key; rewrite h; reflexivity|exact (server_key_prune _ _ _ (proj1 hu) h)]. }
  rewrite hk. destruct h as [-> | ->]; [left; reflexivity|]. destruct (read_prune [b "o"; u; b "R"] r _ (proj1 hu)) as [e|[e1 e2]].
  - left. destruct (dict_at [b "o"; u; b "R"] r (fst (prune (s_data st)))), (dict_at [b "o"; u; b "R"] r (s_data st)); cbn [option_map] in *; congruence.
  - right. rewrite e1. destruct (dict_at [b "o"; u; b "R"] r (s_data st)); cbn [option_map] in *; [|discriminate]. split; [|reflexivity]. eexists. split; [reflexivity|]. cbn [cc_base]. congruence.
Qed.
Lemma new_is_stale now : (45 * 86400 * 10 ^ 9 + 10 ^ 6 <= now)%Z -> stale now new_cbase = true.
Proof.
  intros h. rewrite stale_is by lia. unfold is_stale, new_cbase. cbn [cv_unread cv_read negb andb]. apply Z.ltb_lt.
  assert (1 <= (now - 45 * 86400 * 10 ^ 9) / 10 ^ 6)%Z; [|lia]. apply Z.div_le_lower_bound; lia.
Qed.
Lemma convo_push_sees B now st x st' : usable st -> canonical_keys st -> (45 * 86400 * 10 ^ 9 + 10 ^ 6 <= now)%Z -> convo_push B now st = (Ok x, st') ->
  (forall k sid, session_id_ok sid (prefix_of k) = true -> k <> KGroup -> convo_get st' k sid = match convo_get st k sid with Ok o => Ok (drop_stale now o) | y => y end) /\
  (forall sid, session_id_ok sid (b "03") = true -> convo_get st' KGroup sid = convo_get st KGroup sid \/ convo_get st KGroup sid = Ok (Some new_cbase) /\ convo_get st' KGroup sid = Ok None) /\
  (forall url room, ccomm_get st' url room = drop_stale_comm now (ccomm_get st url room) \/
     (exists c, ccomm_get st url room = Ok (Some c) /\ cc_base c = new_cbase /\ co_pub (cc_comm c) = []) /\ ccomm_get st' url room = Ok None).
Proof.
  intros hu hc hn h. unfold convo_push in h. destruct (prune_stale B now st) as [[[]| | | |] st1] eqn:e; try discriminate. destruct (prune_sees _ _ _ _ hu hc e) as (hu1 & g & gc & _).
  pose proof (new_is_stale _ hn) as hst. assert (hn' : (45 * 86400 * 10 ^ 9 <= now)%Z) by lia. split; [|split].
  - intros k sid hs hk. pose proof (g k sid hs) as e1. assert (e2 : convo_get st1 k sid = match convo_get st k sid with Ok o => Ok (drop_stale now o) | y => y end).
    { destruct k; [| |]; try contradiction; rewrite e1; destruct (convo_get st _ sid) as [[c|]| | | |]; try reflexivity; unfold drop_stale; rewrite (stale_is now c hn'); destruct (is_stale now c); reflexivity. }
    rewrite <- e2. destruct (push_convo _ _ _ _ k sid hu1 h) as [e3|[e3 e4]]; [exact e3|]. exfalso. rewrite e3 in e2. destruct (convo_get st k sid) as [[c|]| | | |]; try discriminate. unfold drop_stale in e2.
    destruct (is_stale now c) eqn:es; [discriminate|]. injection e2 as <-. rewrite stale_is in hst by exact hn'. congruence.
  - intros sid hs. pose proof (g KGroup sid hs) as e1. cbn [prefix_of] in e1. rewrite <- e1. destruct (push_convo _ _ _ _ KGroup sid hu1 h) as [e3|[e3 e4]]; auto.
  - intros url room. specialize (gc url room). assert (e2 : ccomm_get st1 url room = drop_stale_comm now (ccomm_get st url room)).
    { rewrite gc. unfold drop_stale_comm. destruct (ccomm_get st url room) as [[c|]| | | |]; try reflexivity. rewrite (stale_is now _ hn'). reflexivity. }
    rewrite <- e2. destruct (push_ccomm _ _ _ _ url room hu1 h) as [e3|[(c & e3 & e4) e5]]; [left; exact e3|]. right. split; [|exact e5]. exists c. rewrite e3 in gc.
    destruct (ccomm_get st url room) as [[c'|]| | | |]; try discriminate. destruct (stale now (cc_base c') && negb (is_nil (co_pub (cc_comm c')))) eqn:es; [discriminate|]. injection gc as <-. split; [reflexivity|]. split; [exact e4|].
    rewrite e4, hst in es. cbn [andb] in es. destruct (co_pub (cc_comm c)); [reflexivity|discriminate].
Qed.
Lemma visit_croom_le url pk p : length (visit_croom url pk p) <= 1.
Proof. unfold visit_croom. destruct (snd p) as [| |d]; cbn; try lia. destruct (og <- new_comm url (fst p) ;; set_pubkey pk og); cbn; lia. Qed.
Lemma visit_cserver_le p : length (visit_cserver p) <= length (rooms_of (snd p)).
Proof.
  unfold visit_cserver. destruct (snd p) as [| |info] eqn:e; cbn [length]; try lia. destruct (maybe_str info (b "#")) as [pk|]; cbn [length]; [|lia]. apply flat_map_le. intros. apply visit_croom_le.
Qed.
Lemma convo_sizes_le st : (forall k, length (convo_list k st) <= size_convos k st) /\ length (ccomms_list st) <= size_ccomms st.
Proof.
  split.
  - intros k. unfold convo_list, size_convos, size_at. destruct (dict_at [] (top_of k) (s_data st)); cbn [length]; [|lia]. apply flat_map_le. intros. apply visit_ids_le.
  - unfold ccomms_list, size_ccomms, size_communities. destruct (dict_at [] (b "o") (s_data st)); cbn [length]; [|lia]. apply (flat_map_sum_le visit_cserver (fun p => length (rooms_of (snd p)))). intros. apply visit_cserver_le.
Qed.
(** storing a conversation that is neither recent nor unread and not there: nothing happens *)
Lemma set_old_nothing B now k sid c st : s_state st <> Dirty -> convo_get st k sid = Ok None -> recent now (cv_read c) = false -> cv_unread c = false -> convo_set B now k sid c st = (Ok tt, st).
Proof.
  intros hd hg hr hn. unfold convo_get in hg. unfold convo_set. destruct (session_id_to_bytes sid (prefix_of k)) as [pk| | | |]; try discriminate. cbn [bind] in hg.
  assert (hf : forall y, field [top_of k; pk] y (s_data st) = None).
  { intros y. change [top_of k; pk] with ([top_of k] ++ [pk]). rewrite field_snoc. unfold dict_at in hg. destruct (field [top_of k] pk (s_data st)) as [[| |d]|]; try reflexivity. discriminate. }
  rewrite hf. unfold cbase_script, makes_older. cbn [as_int]. rewrite hr, hn. cbn [orb app]. unfold set_flag, run_script. cbn [map run_ops]. unfold op_at. cbn [fst snd].
  rewrite (erase_missing B _ _ st hd (hf _)). reflexivity.
Qed.
