(** Proofs of C103: publishing removes empty containers, but no record that was saved. *)
From Verif Require Import KeepSpec RecordsSpec UserGroupsSpec Conf3_facts Data_facts Fields_facts Replay_facts Base_facts Conf2_facts Maps Message_facts Records_facts Contacts_facts Members_facts Community_facts UserGroups_facts UserGroups2_facts UserGroups3_facts UserGroups4_facts Convo3_facts.
From Coq Require Import Lia.

(** ** reading a record with its empty containers removed *)
Definition trimmed (v : option value) : option value := match v with None => None | Some v => let '(v', (e, _)) := prune_v v in if e then None else Some v' end.
Lemma int_trim v : as_int (trimmed v) = as_int v.
Proof. destruct v as [[s|l|d]|]; cbn [trimmed]; try reflexivity. - cbn [prune_v]. destruct (is_nil l); reflexivity. - rewrite prune_v_dict'. destruct (is_nil (fst (prune d))); reflexivity. Qed.
Lemma str_trim v : as_str (trimmed v) = as_str v.
Proof. destruct v as [[s|l|d]|]; cbn [trimmed]; try reflexivity. - cbn [prune_v]. destruct (is_nil l); reflexivity. - rewrite prune_v_dict'. destruct (is_nil (fst (prune d))); reflexivity. Qed.
Lemma lookup_trim i k : wf i = true -> lookup k (fst (prune i)) = trimmed (lookup k i).
Proof. intros hw. rewrite lookup_prune by exact hw. reflexivity. Qed.
Lemma mint_prune i k : wf i = true -> maybe_int (fst (prune i)) k = maybe_int i k.
Proof. intros hw. unfold maybe_int. rewrite lookup_trim by exact hw. apply int_trim. Qed.
Lemma mstr_prune i k : wf i = true -> maybe_str (fst (prune i)) k = maybe_str i k.
Proof. intros hw. unfold maybe_str. rewrite lookup_trim by exact hw. apply str_trim. Qed.
Lemma mset_prune i k : wf i = true -> or_else (maybe_set (fst (prune i)) k) [] = or_else (maybe_set i k) [].
Proof.
  intros hw. unfold maybe_set. rewrite lookup_trim by exact hw. destruct (lookup k i) as [[s|l|d]|]; cbn [trimmed]; try reflexivity.
  - cbn [prune_v]. destruct l; reflexivity.
  - rewrite prune_v_dict'. destruct (is_nil (fst (prune d))); reflexivity.
Qed.
Lemma pic_prune i : wf i = true -> load_pic (fst (prune i)) = load_pic i.
Proof. intros hw. unfold load_pic. rewrite !mstr_prune by exact hw. reflexivity. Qed.
Lemma contact_prune i : wf i = true -> load_contact (fst (prune i)) = load_contact i.
Proof. intros hw. unfold load_contact, load_expiry. rewrite !mstr_prune, !mint_prune, pic_prune by exact hw. reflexivity. Qed.
Lemma member_prune i : wf i = true -> load_member (fst (prune i)) = load_member i.
Proof. intros hw. unfold load_member. rewrite !mstr_prune, !mint_prune, pic_prune by exact hw. reflexivity. Qed.
Lemma gbase_prune i : wf i = true -> load_gbase (fst (prune i)) = load_gbase i.
Proof. intros hw. unfold load_gbase. rewrite !mint_prune by exact hw. reflexivity. Qed.
Lemma legacy_prune i : wf i = true -> load_legacy (fst (prune i)) = load_legacy i.
Proof. intros hw. unfold load_legacy, load_keys, load_members. rewrite gbase_prune, !mstr_prune, !mint_prune, !mset_prune by exact hw. reflexivity. Qed.
Lemma group_prune pub sid i : wf i = true -> load_group pub sid (fst (prune i)) = load_group pub sid i.
Proof. intros hw. unfold load_group, load_secret, load_auth. rewrite gbase_prune, !mstr_prune by exact hw. reflexivity. Qed.
Lemma comm_prune i og : wf i = true -> load_comm (fst (prune i)) og = load_comm i og.
Proof. intros hw. unfold load_comm. rewrite gbase_prune, !mstr_prune by exact hw. reflexivity. Qed.

(** ** a record that does not vanish *)
Definition lively (p : list bytes) (k : bytes) (d : dict) : Prop := forall r, dict_at p k d = Some r -> fst (prune r) <> [].
Lemma lively_scalar (r : dict) k s : wf r = true -> lookup k r = Some (VScal s) -> fst (prune r) <> [].
Proof. intros hw h e. pose proof (lookup_trim r k hw) as g. rewrite e, h in g. discriminate. Qed.
Lemma lively_pruned p k d : wf d = true -> pruned d = true -> lively p k d.
Proof.
  intros hw hp r h e. pose proof (dict_at_prune p k d hw) as g. rewrite prune_id, h, e in g by exact hp. discriminate.
Qed.
Lemma lively_read p k d : wf d = true -> lively p k d -> dict_at p k (fst (prune d)) = option_map (fun r => fst (prune r)) (dict_at p k d).
Proof.
  intros hw hl. rewrite dict_at_prune by exact hw. destruct (dict_at p k d) as [r|] eqn:e; [|reflexivity]. specialize (hl r e). cbn [option_map]. destruct (fst (prune r)); [congruence|reflexivity].
Qed.
Lemma lively_load {A} (load : dict -> A) p k d : (forall i, wf i = true -> load (fst (prune i)) = load i) -> wf d = true -> lively p k d ->
  option_map load (dict_at p k (fst (prune d))) = option_map load (dict_at p k d).
Proof.
  intros hload hw hl. rewrite lively_read by assumption. destruct (dict_at p k d) as [r|] eqn:e; [|reflexivity]. cbn [option_map]. f_equal. apply hload. exact (dict_at_wf _ _ _ _ hw e).
Qed.

(** ** collections of records under one key *)
Definition lively_all (top : bytes) (d : dict) : Prop := forall pk, lively [top] pk d.
Lemma lively_set top pk (d d' : dict) r k s : wf d' = true -> dict_at [top] pk d' = Some r -> lookup k r = Some (VScal s) ->
  (forall pk', pk' <> pk -> field [top] pk' d' = field [top] pk' d) -> lively_all top d -> lively_all top d'.
Proof.
  intros hw hr hk ho h pk' r' h'. destruct (eqb pk' pk) eqn:e.
  - apply eqb_eq in e. subst pk'. assert (er : r' = r) by congruence. subst r'. exact (lively_scalar _ _ _ (dict_at_wf _ _ _ _ hw hr) hk).
  - apply (h pk'). unfold dict_at in *. rewrite <- ho; [exact h'|]. intros ->. rewrite eqb_refl in e. discriminate.
Qed.
Lemma lively_erase top pk (d d' : dict) : field [top] pk d' = None -> (forall pk', pk' <> pk -> field [top] pk' d' = field [top] pk' d) -> lively_all top d -> lively_all top d'.
Proof.
  intros hn ho h pk' r' h'. destruct (eqb pk' pk) eqn:e.
  - apply eqb_eq in e. subst pk'. unfold dict_at in h'. rewrite hn in h'. discriminate.
  - apply (h pk'). unfold dict_at in *. rewrite <- ho; [exact h'|]. intros ->. rewrite eqb_refl in e. discriminate.
Qed.
Lemma lively_below top (d d' : dict) : same_below top d d' -> lively_all top d -> lively_all top d'.
Proof. intros hs h pk r hr. apply (h pk). unfold dict_at, field in *. cbn [app] in *. rewrite <- (hs [pk]). exact hr. Qed.

(** iteration *)
Lemma walk_prune {A} skips prefix (load : dict -> A) : (forall i, wf i = true -> load (fst (prune i)) = load i) -> forall c : dict, wf c = true ->
  (forall k r, In (k, VDict r) c -> fst (prune r) <> []) -> walk_ids skips prefix load (fst (prune c)) = walk_ids skips prefix load c.
Proof.
  intros hload c. rewrite prune_eq. induction c as [|[k v] c IH]; intros hw hl; [reflexivity|].
  apply wf_cons in hw as (hwv & hwc & _). specialize (IH hwc (fun k r h => hl k r (or_intror h))).
  cbn [prune_list]. destruct (prune_list c) as [c' ch] eqn:ec. cbn [fst] in IH. destruct v as [s|l|r].
  - cbn [prune_v fst walk_ids]. rewrite IH. destruct (Nat.eqb (length k) 33); reflexivity.
  - cbn [prune_v]. destruct (is_nil l); cbn [fst walk_ids]; rewrite IH; destruct (Nat.eqb (length k) 33); reflexivity.
  - rewrite prune_v_dict'. pose proof (hl k r (or_introl eq_refl)) as hr. destruct (fst (prune r)) as [|y z] eqn:er; [congruence|]. cbn [is_nil fst walk_ids]. rewrite IH, <- er.
    destruct (Nat.eqb (length k) 33); [|reflexivity]. rewrite hload by exact hwv. reflexivity.
Qed.
Lemma list_prune {A} skips prefix top (load : dict -> A) (d : dict) : (forall i, wf i = true -> load (fst (prune i)) = load i) -> wf d = true -> lively_all top d ->
  match dict_at [] top (fst (prune d)) with Some c => walk_ids skips prefix load c | None => Ok [] end =
  match dict_at [] top d with Some c => walk_ids skips prefix load c | None => Ok [] end.
Proof.
  intros hload hw hl. rewrite dict_at_prune by exact hw. destruct (dict_at [] top d) as [c|] eqn:ec; [|reflexivity].
  pose proof (collection_wf _ _ _ hw ec) as hwc.
  assert (hx : walk_ids skips prefix load (fst (prune c)) = walk_ids skips prefix load c).
  { apply walk_prune; [exact hload|exact hwc|]. intros k r hin. apply (hl k). unfold dict_at. rewrite (collection_entries _ _ _ _ ec). rewrite (In_lookup _ _ _ (wf_sorted _ hwc) hin). reflexivity. }
  rewrite <- hx. destruct (fst (prune c)); reflexivity.
Qed.

(** ** contacts *)
Definition keeps_records (tops : list bytes) (st : bstate) : Prop := usable st /\ forall top, In top tops -> lively_all top (s_data st).
Lemma pruned_keeps tops st : usable st -> pruned (s_data st) = true -> keeps_records tops st.
Proof. intros hu hp. split; [exact hu|]. intros top _ pk. apply lively_pruned; [apply hu|exact hp]. Qed.
Lemma contacts_set_keeps B sid c st st' : keeps_records [b "c"] st -> contact_fits c -> contacts_set B sid c st = (Ok tt, st') -> keeps_records [b "c"] st'.
Proof.
  intros [hu hl] hf h. unfold contacts_set in h. destruct (session_id_to_bytes sid (b "05")) as [pk| | | |] eqn:ek; try discriminate. destruct (contact_named c) as [n1 n2].
  destruct (record_set _ _ _ _ _ _ _ _ hu (contact_script_ok _ hf) n1 n2 h) as (hu' & (r & e & hr) & ho & _). split; [exact hu'|]. intros top [<-|[]].
  eapply (lively_set (b "c") pk _ _ r (b "n")); [apply hu'|exact e| |exact ho|apply hl; left; reflexivity]. rewrite hr, n2. exact n1.
Qed.
Lemma contact_keeps B m st st' : keeps_records [b "c"] st -> contact_cmd_fits m -> run_contact B m st = (Ok tt, st') -> keeps_records [b "c"] st'.
Proof.
  intros hk hf h. destruct m as [id c|id ch|id]; cbn [run_contact] in h.
  - exact (contacts_set_keeps _ _ _ _ _ hk hf h).
  - unfold contacts_change, contacts_get_or_construct in h. destruct (contacts_get st id) as [o| | | |] eqn:eg; try discriminate. cbn [bind] in h.
    assert (hc0 : contact_fits (or_else o new_contact)). { destruct o as [c|]; [|exact new_fits]. exact (get_fits _ _ _ (proj1 hk) eg). }
    destruct (change_contact ch (or_else o new_contact)) as [c'| | | |] eqn:ec; try discriminate.
    assert (hf' : contact_cmd_fits (CtChange [] ch)) by (destruct ch; exact hf).
    exact (contacts_set_keeps _ _ _ _ _ hk (change_fits _ _ _ hc0 hf' ec) h).
  - destruct hk as [hu hl]. unfold ignore in h. destruct (contacts_erase B id st) as [[x| | | |] st1] eqn:e; try discriminate. cbn [fst snd] in h. assert (st1 = st') by congruence. subst st1.
    destruct (session_id_to_bytes id (b "05")) as [pk| | | |] eqn:ek; try (unfold contacts_erase in e; rewrite ek in e; discriminate).
    destruct (contacts_erase_spec _ _ _ _ _ _ hu ek e) as (hu1 & e1 & ho & _). split; [exact hu1|]. intros top [<-|[]]. apply (lively_erase (b "c") pk (s_data st)); [exact e1|exact ho|]. apply hl. left. reflexivity.
Qed.
Lemma contacts_keep B l : forall st st', keeps_records [b "c"] st -> Forall contact_cmd_fits l -> run_contacts B l st = (Ok tt, st') -> keeps_records [b "c"] st'.
Proof.
  induction l as [|m l IH]; intros st st' hk hl h; cbn [run_contacts] in h; [assert (st = st') by congruence; subst st'; exact hk|].
  inversion hl as [|x y h1 h2]; subst. destruct (run_contact B m st) as [[[]| | | |] st1] eqn:e; try discriminate. exact (IH st1 st' (contact_keeps _ _ _ _ hk h1 e) h2 h).
Qed.
Lemma some_load {A} (load : dict -> A) o o' : option_map load o' = option_map load o -> match o' with Some d => Some (load d) | None => None end = match o with Some d => Some (load d) | None => None end.
Proof. destruct o, o'; cbn; congruence. Qed.
(** what two states with the same data, up to empty containers, show *)
Definition trim_of (st st' : bstate) : Prop := s_data st' = s_data st \/ s_data st' = fst (prune (s_data st)).
Lemma contacts_trim st st' : keeps_records [b "c"] st -> trim_of st st' -> (forall sid, contacts_get st' sid = contacts_get st sid) /\ contacts_list st' = contacts_list st.
Proof.
  intros [hu hl] ht. specialize (hl (b "c") (or_introl eq_refl)). unfold contacts_get, contacts_list. destruct ht as [-> | ->]; [auto|]. split.
  - intros sid. destruct (session_id_to_bytes sid (b "05")) as [pk| | | |]; try reflexivity. cbn [bind]. f_equal. apply some_load, lively_load; [exact contact_prune|apply hu|apply hl].
  - apply list_prune; [exact contact_prune|apply hu|exact hl].
Qed.

(** ** members *)
Lemma members_keep B l : forall st st', keeps_records [b "m"] st -> Forall member_cmd_fits l -> run_members B l st = (Ok tt, st') -> keeps_records [b "m"] st'.
Proof.
  induction l as [|m l IH]; intros st st' hk hl h; cbn [run_members] in h; [assert (st = st') by congruence; subst st'; exact hk|].
  inversion hl as [|x y h1 h2]; subst. destruct (run_member B m st) as [[[]| | | |] st1] eqn:e; try discriminate. apply (IH st1 st'); [|exact h2|exact h]. clear IH hl h2 h l.
  destruct hk as [hu hl]. destruct m as [id c|id]; cbn [run_member] in e.
  - unfold members_set in e. destruct (session_id_to_bytes id (b "05")) as [pk| | | |] eqn:ek; try discriminate. destruct (member_named c) as [n1 n2].
    destruct (record_set _ _ _ _ _ _ _ _ hu (member_script_ok _ h1) n1 n2 e) as (hu' & (r & er & hr) & ho & _). split; [exact hu'|]. intros top [<-|[]].
    eapply (lively_set (b "m") pk _ _ r (b "n")); [apply hu'|exact er| |exact ho|apply hl; left; reflexivity]. rewrite hr, n2. exact n1.
  - unfold ignore, members_erase in e. destruct (session_id_to_bytes id (b "05")) as [pk| | | |] eqn:ek; try discriminate. cbv zeta in e.
    destruct (run B (OpErase [b "m"] pk) st) as [[[]| | | |] st2] eqn:er; try discriminate. cbn [fst snd] in e. assert (st2 = st1) by congruence. subst st2.
    destruct (record_erase _ _ _ _ _ hu er) as (hu1 & e1 & ho & _). split; [exact hu1|]. intros top [<-|[]]. apply (lively_erase (b "m") pk (s_data st)); [exact e1|exact ho|]. apply hl. left. reflexivity.
Qed.
Lemma members_trim st st' : keeps_records [b "m"] st -> trim_of st st' -> (forall sid, members_get st' sid = members_get st sid) /\ members_list st' = members_list st.
Proof.
  intros [hu hl] ht. specialize (hl (b "m") (or_introl eq_refl)). unfold members_get, members_list. destruct ht as [-> | ->]; [auto|]. split.
  - intros sid. destruct (session_id_to_bytes sid (b "05")) as [pk| | | |]; try reflexivity. cbn [bind]. f_equal. apply some_load, lively_load; [exact member_prune|apply hu|apply hl].
  - apply list_prune; [exact member_prune|apply hu|exact hl].
Qed.

(** ** groups and communities *)
Definition lively_rooms (d : dict) : Prop := forall u r, lively [b "o"; u; b "R"] r d.
Record keeps_groups (st : bstate) : Prop := { kg_rec : keeps_records [b "g"; b "C"] st; kg_room : lively_rooms (s_data st) }.
Lemma pruned_groups st : usable st -> pruned (s_data st) = true -> keeps_groups st.
Proof. intros hu hp. split; [apply pruned_keeps; assumption|]. intros u r. apply lively_pruned; [apply hu|exact hp]. Qed.
Lemma rooms_below d d' : same_below (b "o") d d' -> lively_rooms d -> lively_rooms d'.
Proof. intros hs h u r i hi. apply (h u r). unfold dict_at, field in *. cbn [app] in *. rewrite <- (hs [u; b "R"; r]). exact hi. Qed.
Lemma gcmd_keeps B m st st' : keeps_groups st -> gcmd_fits m -> run_gcmd B m st = (Ok tt, st') -> keeps_groups st'.
Proof.
  intros [[hu hl] hr] hf h. destruct neq_tops as (t1 & t2 & t3 & t4 & t5 & t6).
  pose proof (hl (b "g") (or_introl eq_refl)) as lg. pose proof (hl (b "C") (or_intror (or_introl eq_refl))) as lc. clear hl.
  assert (mk : usable st' -> lively_all (b "g") (s_data st') -> lively_all (b "C") (s_data st') -> lively_rooms (s_data st') -> keeps_groups st').
  { intros u1 u2 u3 u4. split; [|exact u4]. split; [exact u1|]. intros top [<-|[<-|[]]]; assumption. }
  destruct m as [id g|id|c|url room|id g|id]; cbn [run_gcmd] in h.
  - unfold group_set in h. destruct (session_id_to_bytes id (b "03")) as [pk| | | |] eqn:ek; try discriminate.
    assert (hn : exists s, fold_left (pick (b "K")) (group_script pk g) None = Some (VScal s) /\ forall a, fold_left (pick (b "K")) (group_script pk g) a = fold_left (pick (b "K")) (group_script pk g) None).
    { destruct (group_named pk g) as (kv & n1 & n2). destruct kv as [s|l|d0]; [exists s; split; assumption| |]; exfalso; revert n1; unfold group_script; destruct (own_secret pk g); rewrite !fold_left_app; cbn; discriminate. }
    destruct hn as (s & n1 & n2). destruct (record_set _ _ _ _ _ _ _ _ hu (group_script_ok pk g hf) n1 n2 h) as (hu' & (r & e & hrr) & ho & hfr). apply mk; [exact hu'| | |].
    + eapply (lively_set (b "g") pk _ _ r (b "K")); [apply hu'|exact e| |exact ho|exact lg]. rewrite hrr, n2. exact n1.
    + eapply lively_below; [|exact lc]. apply (below_other _ (b "g")); assumption.
    + eapply rooms_below; [|exact hr]. apply (below_other _ (b "g")); assumption.
  - unfold ignore, group_erase in h. destruct (session_id_to_bytes id (b "03")) as [pk| | | |] eqn:ek; try discriminate.
    destruct (erase_impl B [b "g"] pk st) as [[x| | | |] st1] eqn:e; try discriminate. assert (st1 = st') by (cbn in h; congruence). subst st1.
    destruct (erase_impl_spec _ _ _ _ _ _ hu e) as (hu' & f1 & f2 & _). apply mk; [exact hu'| | |].
    + apply (lively_erase _ pk (s_data st)); [exact f1| |exact lg]. intros k hne. apply f2. apply (apart_diff [b "g"]), hne.
    + eapply lively_below; [|exact lc]. intros p. apply f2, apart_top, t6.
    + eapply rooms_below; [|exact hr]. intros p. apply f2, apart_top, t4.
  - destruct hf as [hf hc]. destruct (comm_set_data _ _ _ _ hu hf h) as (hu' & (r & e & _ & hn) & ho & _ & h5). apply mk; [exact hu'| | |].
    + eapply lively_below; [|exact lg]. apply h5, t1.
    + eapply lively_below; [|exact lc]. apply h5, t2.
    + intros u rm i hi. destruct (eqb u (co_url c) && eqb rm (co_norm c)) eqn:eq.
      * apply andb_prop in eq as [q1 q2]. apply eqb_eq in q1, q2. subst u rm. assert (er : i = r) by congruence. subst i. exact (lively_scalar _ _ _ (dict_at_wf _ _ _ _ (proj1 hu') e) hn).
      * apply (hr u rm). unfold dict_at in *. rewrite <- ho; [exact hi|]. intros ex. injection ex as -> ->. rewrite !eqb_refl in eq. discriminate.
  - unfold ignore, comm_erase in h. destruct (new_comm url room) as [og| | | |] eqn:eo; try discriminate.
    destruct (comm_erase_at B (co_url og) (co_norm og) st) as [[x| | | |] st1] eqn:e; try discriminate. assert (st1 = st') by (cbn in h; congruence). subst st1.
    destruct (comm_erase_data _ _ _ _ _ _ hu e) as (hu' & _ & k1 & k2 & _ & _ & h5). apply mk; [exact hu'| | |].
    + eapply lively_below; [|exact lg]. apply h5, t1.
    + eapply lively_below; [|exact lc]. apply h5, t2.
    + intros u rm i hi. destruct (eqb u (co_url og) && eqb rm (co_norm og)) eqn:eq.
      * apply andb_prop in eq as [q1 q2]. apply eqb_eq in q1, q2. subst u rm. unfold dict_at in hi. rewrite k1 in hi. discriminate.
      * apply (hr u rm). unfold dict_at in *. rewrite <- k2; [exact hi|]. intros ex. injection ex as -> ->. rewrite !eqb_refl in eq. discriminate.
  - destruct hf as (hf & ht & hm). unfold legacy_set in h. destruct (session_id_to_bytes id (b "05")) as [pk| | | |] eqn:ek; try discriminate. destruct (legacy_named g) as [n1 n2].
    destruct (record_set _ _ _ _ _ _ _ _ hu (legacy_script_ok g hf ht) n1 n2 h) as (hu' & (r & e & hrr) & ho & hfr). apply mk; [exact hu'| | |].
    + eapply lively_below; [|exact lg]. apply (below_other _ (b "C")); assumption.
    + eapply (lively_set (b "C") pk _ _ r (b "n")); [apply hu'|exact e| |exact ho|exact lc]. rewrite hrr, n2. exact n1.
    + eapply rooms_below; [|exact hr]. apply (below_other _ (b "C")); assumption.
  - unfold ignore, legacy_erase in h. destruct (session_id_to_bytes id (b "05")) as [pk| | | |] eqn:ek; try discriminate.
    destruct (erase_impl B [b "C"] pk st) as [[x| | | |] st1] eqn:e; try discriminate. assert (st1 = st') by (cbn in h; congruence). subst st1.
    destruct (erase_impl_spec _ _ _ _ _ _ hu e) as (hu' & f1 & f2 & _). apply mk; [exact hu'| | |].
    + eapply lively_below; [|exact lg]. intros p. apply f2, apart_top, t3.
    + apply (lively_erase _ pk (s_data st)); [exact f1| |exact lc]. intros k hne. apply f2. apply (apart_diff [b "C"]), hne.
    + eapply rooms_below; [|exact hr]. intros p. apply f2, apart_top, t5.
Qed.
Lemma gcmds_keep B l : forall st st', keeps_groups st -> Forall gcmd_fits l -> run_gcmds B l st = (Ok tt, st') -> keeps_groups st'.
Proof.
  induction l as [|m l IH]; intros st st' hk hl h; cbn [run_gcmds] in h; [assert (st = st') by congruence; subst st'; exact hk|].
  inversion hl as [|x y h1 h2]; subst. destruct (run_gcmd B m st) as [[[]| | | |] st1] eqn:e; try discriminate. exact (IH st1 st' (gcmd_keeps _ _ _ _ hk h1 e) h2 h).
Qed.
Lemma groups_trim pub st st' : keeps_groups st -> trim_of st st' ->
  (forall sid, group_get pub st' sid = group_get pub st sid) /\ (forall sid, legacy_get st' sid = legacy_get st sid) /\ (forall url room, comm_get st' url room = comm_get st url room).
Proof.
  intros [[hu hl] hr] ht. pose proof (hl (b "g") (or_introl eq_refl)) as lg. pose proof (hl (b "C") (or_intror (or_introl eq_refl))) as lc. clear hl.
  assert (hk : forall u, server_key st' u = server_key st u). { intros u. destruct ht as [h|h]; [unfold server_key; rewrite h; reflexivity|exact (server_key_prune _ _ _ (proj1 hu) h)]. }
  unfold group_get, legacy_get, comm_get. destruct ht as [-> | ->].
  { split; [reflexivity|]. split; [reflexivity|]. intros url room. destruct (new_comm url room) as [og| | | |]; try reflexivity. cbn [bind]. rewrite hk. reflexivity. }
  split; [|split].
  - intros sid. destruct (session_id_to_bytes sid (b "03")) as [pk| | | |]; try reflexivity. cbn [bind]. f_equal. apply some_load, lively_load; [exact (group_prune pub sid)|apply hu|apply lg].
  - intros sid. destruct (session_id_to_bytes sid (b "05")) as [pk| | | |]; try reflexivity. cbn [bind]. f_equal. apply some_load, lively_load; [exact legacy_prune|apply hu|apply lc].
  - intros url room. destruct (new_comm url room) as [og| | | |]; try reflexivity. cbn [bind]. rewrite hk.
    pose proof (lively_load (fun d => load_comm d og) [b "o"; co_url og; b "R"] (co_norm og) _ (fun i hi => comm_prune i og hi) (proj1 hu) (hr _ _)) as e.
    destruct (dict_at _ _ (fst _)), (dict_at _ _ (s_data st)); cbn [option_map] in e; try congruence; try reflexivity.
Qed.

(** ** iterating over groups and communities *)
Lemma flat_prune {A} (f : bytes * value -> list A) (c : dict) : (forall k v, In (k, v) c -> match trimmed (Some v) with Some v' => f (k, v') = f (k, v) | None => f (k, v) = [] end) ->
  flat_map f (fst (prune c)) = flat_map f c.
Proof.
  rewrite prune_eq. induction c as [|[k v] c IH]; intros h; [reflexivity|]. specialize (IH (fun k v hi => h k v (or_intror hi))). pose proof (h k v (or_introl eq_refl)) as hv.
  cbn [prune_list trimmed] in *. destruct (prune_v v) as [v' [e ch]]. destruct (prune_list c) as [c' rr]. cbn [fst] in *. destruct e; cbn [fst flat_map]; rewrite hv, IH; reflexivity.
Qed.
Lemma ids_prune {A} first (load : bytes -> dict -> A) top (d : dict) : (forall id i, wf i = true -> load id (fst (prune i)) = load id i) -> wf d = true -> lively_all top d ->
  match dict_at [] top (fst (prune d)) with Some c => flat_map (visit_ids first load) c | None => [] end = match dict_at [] top d with Some c => flat_map (visit_ids first load) c | None => [] end.
Proof.
  intros hload hw hl. rewrite dict_at_prune by exact hw. destruct (dict_at [] top d) as [c|] eqn:ec; [|reflexivity].
  pose proof (collection_wf _ _ _ hw ec) as hwc.
  assert (hx : flat_map (visit_ids first load) (fst (prune c)) = flat_map (visit_ids first load) c).
  { apply flat_prune. intros k v hin. pose proof (In_lookup _ _ _ (wf_sorted _ hwc) hin) as hk. destruct v as [s|l|r]; cbn [trimmed].
    - reflexivity.
    - cbn [prune_v]. destruct (is_nil l); reflexivity.
    - rewrite prune_v_dict'. assert (hr : fst (prune r) <> []). { apply (hl k). unfold dict_at. rewrite (collection_entries _ _ _ _ ec), hk. reflexivity. }
      destruct (fst (prune r)) as [|y z] eqn:er; [congruence|]. cbn [is_nil]. rewrite <- er. unfold visit_ids. rewrite hload by exact (wf_lookup _ _ _ hwc hk). reflexivity. }
  rewrite <- hx. destruct (fst (prune c)); reflexivity.
Qed.
Lemma room_prune url pk (rooms : dict) : wf rooms = true -> (forall k r, lookup k rooms = Some (VDict r) -> fst (prune r) <> []) ->
  flat_map (visit_room url pk) (fst (prune rooms)) = flat_map (visit_room url pk) rooms.
Proof.
  intros hw hl. apply flat_prune. intros k v hin. pose proof (In_lookup _ _ _ (wf_sorted _ hw) hin) as hk. destruct v as [s|l|r]; cbn [trimmed].
  - reflexivity.
  - cbn [prune_v]. destruct (is_nil l); reflexivity.
  - rewrite prune_v_dict'. pose proof (hl _ _ hk) as hr. destruct (fst (prune r)) as [|y z] eqn:er; [congruence|]. cbn [is_nil]. rewrite <- er. unfold visit_room. cbn [fst snd].
    destruct (new_comm url k) as [og| | | |]; try reflexivity. cbn [bind]. destruct (set_pubkey pk og) as [og'| | | |]; try reflexivity. cbn [bind]. rewrite comm_prune by exact (wf_lookup _ _ _ hw hk). reflexivity.
Qed.
Lemma comms_prune (d : dict) : wf d = true -> lively_rooms d ->
  match dict_at [] (b "o") (fst (prune d)) with Some c => flat_map visit_server c | None => [] end = match dict_at [] (b "o") d with Some c => flat_map visit_server c | None => [] end.
Proof.
  intros hw hl. rewrite dict_at_prune by exact hw. destruct (dict_at [] (b "o") d) as [c|] eqn:ec; [|reflexivity]. pose proof (collection_wf _ _ _ hw ec) as hwc.
  assert (hx : flat_map visit_server (fst (prune c)) = flat_map visit_server c).
  { apply flat_prune. intros u v hin. pose proof (In_lookup _ _ _ (wf_sorted _ hwc) hin) as hk. destruct v as [s|l|i]; cbn [trimmed].
    - reflexivity.
    - cbn [prune_v]. destruct (is_nil l); reflexivity.
    - rewrite prune_v_dict'. assert (hwi : wf i = true) by exact (wf_lookup _ _ _ hwc hk).
      assert (hs : visit_server (u, VDict (fst (prune i))) = visit_server (u, VDict i)).
      { unfold visit_server. cbn [fst snd rooms_of]. rewrite !mstr_prune, lookup_trim by exact hwi. destruct (maybe_str i (b "#")) as [pk|]; [|reflexivity].
        destruct (lookup (b "R") i) as [[s|l|rooms]|] eqn:er; cbn [trimmed]; try reflexivity.
        - cbn [prune_v]. destruct (is_nil l); reflexivity.
        - rewrite prune_v_dict'. assert (hwr : wf rooms = true) by exact (wf_lookup _ _ _ hwi er).
          rewrite <- (room_prune u pk rooms hwr); [destruct (fst (prune rooms)); reflexivity|].
          intros k r hr. apply (hl u k). unfold dict_at. change [b "o"; u; b "R"] with (([b "o"] ++ [u]) ++ [b "R"]). rewrite !field_snoc.
          rewrite (collection_entries _ _ _ _ ec), hk, er, hr. reflexivity. }
      destruct (is_nil (fst (prune i))) eqn:en; [|exact hs]. rewrite <- hs. destruct (fst (prune i)); [reflexivity|discriminate]. }
  rewrite <- hx. destruct (fst (prune c)); reflexivity.
Qed.
Lemma all_groups_trim pub st st' : keeps_groups st -> trim_of st st' -> all_groups pub st' = all_groups pub st.
Proof.
  intros [[hu hl] hr] ht. pose proof (hl (b "g") (or_introl eq_refl)) as lg. pose proof (hl (b "C") (or_intror (or_introl eq_refl))) as lc.
  unfold all_groups, groups_list, comms_list, legacy_list. destruct ht as [-> | ->]; [reflexivity|].
  rewrite (ids_prune _ (load_group pub) (b "g") (s_data st) (group_prune pub) (proj1 hu) lg), (ids_prune _ (fun _ => load_legacy) (b "C") (s_data st) (fun _ => legacy_prune) (proj1 hu) lc), (comms_prune (s_data st) (proj1 hu) hr).
  reflexivity.
Qed.

(** ** the profile, and a group's info *)
Lemma top_trim st st' k : usable st -> trim_of st st' -> top_str st' k = top_str st k /\ top_int st' k = top_int st k.
Proof.
  intros hu ht. unfold top_str, top_int, field. cbn [app]. destruct ht as [-> | ->]; [auto|]. rewrite get_path_prune by (try discriminate; apply hu). split; [apply str_trim|apply int_trim].
Qed.
Lemma profile_trim st st' : usable st -> trim_of st st' -> see_profile st' = see_profile st.
Proof.
  intros hu ht. pose proof (fun k => proj1 (top_trim st st' k hu ht)) as hs. pose proof (fun k => proj2 (top_trim st st' k hu ht)) as hi.
  unfold see_profile, get_name, top_pic, get_nts_priority, get_nts_expiry, get_blinded, top_name. rewrite !hs, !hi. reflexivity.
Qed.
Lemma info_trim st st' : usable st -> trim_of st st' -> see_info st' = see_info st.
Proof.
  intros hu ht. pose proof (fun k => proj1 (top_trim st st' k hu ht)) as hs. pose proof (fun k => proj2 (top_trim st st' k hu ht)) as hi.
  unfold see_info, get_name, get_description, top_pic, get_expiry_timer, get_created, get_delete_before, get_delete_attach_before, is_destroyed, top_name. rewrite !hs, !hi. reflexivity.
Qed.

(** ** handing the data on *)
Lemma handed_trim B st st' : benv_ok B -> life B tame st -> handed_on B st st' -> trim_of st st'.
Proof.
  intros hB hl [x h|ks d st1 h1 h2 h3|R n c o st2 r h hs a1 a2 a3 a4 a5 a6 a7 a8 a9 b1 b2 b3 b4 b5].
  - exact (push_trims _ _ _ _ h).
  - right. apply (restore_same B st d st1 ks st' hB hl h1 h2 h3).
  - destruct (joins B R st n c o st2 r h a1 hB a2 a3 hl a4 a5 a6 a7 a8 a9 b1 b2 b3 b4) as (r' & st3 & e1 & e2 & e3 & _). assert (er : r' = st') by congruence. subst r'. right. congruence.
Qed.
