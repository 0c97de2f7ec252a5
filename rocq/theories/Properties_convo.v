(** C53, C59: conversations.  Statements only; the proofs are in Convo_facts.v to Convo3_facts.v, the vocabulary is in
    ConvoSpec.v. *)
From Verif Require Import ConvoSpec Life_facts Conf_facts Conf2_facts Data_facts Maps Hex_facts Records_facts Contacts_facts UserGroups_facts UserGroups2_facts UserGroups3_facts UserGroups4_facts Convo_facts Convo2_facts Convo3_facts Toy ToyCrypt ToyBase Properties_records Properties_groups.
From Coq Require Import Lia.

(** ** C53 *)
(** Whatever is set, erased and pruned, in any number and order, at any clock, at any point of a config's life: afterwards
    every conversation reads as the sequence of commands says ([after_ccmd]); communities stored under other than canonical
    names (which this library never writes) are excluded. *)
Theorem C53_convos B st l st' v : benv_ok B -> life B tame st -> canonical_keys st -> Forall ccmd_fits l -> run_ccmds B l st = (Ok tt, st') ->
  sees_convos st v -> sees_convos st' (fold_left (fun v m => after_ccmd m v) l v) /\ canonical_keys st'.
Proof. intros hB hl hc hf h hv. destruct (ccmds_spec B l st st' v (life_usable _ _ hB hl) hc hf h hv) as (_ & h1 & h2). auto. Qed.
Print Assumptions C53_convos.
(** What is read back is what was set, if the time is less than 30 days ago (or the time read goes back). *)
Theorem C53_kept B now k sid c st st' : benv_ok B -> life B tame st -> cbase_fits c -> is_recent now (cv_read c) = true ->
  convo_set B now k sid c st = (Ok tt, st') -> convo_get st' k sid = Ok (Some c).
Proof.
  intros hB hl hf hr h. destruct (convo_set_sees _ _ _ _ _ _ _ (life_usable _ _ hB hl) hf h) as (_ & g & _). rewrite g.
  assert (hs : session_id_ok sid (prefix_of k) = true). { unfold convo_set, session_id_to_bytes in h. destruct (session_id_ok sid (prefix_of k)); [reflexivity|discriminate]. }
  destruct (sid_ok_key _ _ hs) as [pk ek]. rewrite (same_id_key _ _ _ _ _ ek ek), eqb_refl. assert (hk : kind_eqb k k = true) by (destruct k; reflexivity). rewrite hk. cbn [andb].
  unfold convo_get. rewrite ek. cbn [bind]. unfold stored_over. rewrite hr, orb_true_r. destruct c as [r u]. cbn [cv_read cv_unread orb]. destruct (dict_at [top_of k] pk (s_data st)); reflexivity.
Qed.
Print Assumptions C53_kept.
(** An old conversation that is not there and not marked unread is not stored; the config does not even become dirty. *)
Theorem C53_stale_not_stored B now k sid c st : s_state st <> Dirty -> cbase_fits c -> is_recent now (cv_read c) = false -> cv_unread c = false -> convo_get st k sid = Ok None ->
  convo_set B now k sid c st = (Ok tt, st).
Proof. intros hd hf hr hn hg. apply set_old_nothing; try assumption. rewrite recent_is by exact hf. exact hr. Qed.
Print Assumptions C53_stale_not_stored.
(** A push drops the one-to-one conversations, legacy groups and communities that are stale, and nothing else (but for
    records without any content). *)
Theorem C53_push B now st x st' : benv_ok B -> life B tame st -> canonical_keys st -> (45 * 86400 * 10 ^ 9 + 10 ^ 6 <= now)%Z -> convo_push B now st = (Ok x, st') ->
  (forall k sid, session_id_ok sid (prefix_of k) = true -> k <> KGroup -> convo_get st' k sid = match convo_get st k sid with Ok o => Ok (drop_stale now o) | y => y end) /\
  (forall sid, session_id_ok sid (b "03") = true -> convo_get st' KGroup sid = convo_get st KGroup sid \/ convo_get st KGroup sid = Ok (Some new_cbase) /\ convo_get st' KGroup sid = Ok None) /\
  (forall url room, ccomm_get st' url room = drop_stale_comm now (ccomm_get st url room) \/
     (exists c, ccomm_get st url room = Ok (Some c) /\ cc_base c = new_cbase /\ co_pub (cc_comm c) = []) /\ ccomm_get st' url room = Ok None).
Proof. intros hB hl. apply convo_push_sees. exact (life_usable _ _ hB hl). Qed.
Print Assumptions C53_push.
(** Ids that are not of the kind, and urls and rooms that cannot be canonicalised, are refused and nothing changes. *)
Theorem C53_bad_id B now k sid c st url room cc : 
  (session_id_ok sid (prefix_of k) = false -> convo_get st k sid = Throw /\ convo_set B now k sid c st = (Throw, st) /\ convo_erase B k sid st = (Throw, st)) /\
  ((forall c, new_comm url room <> Ok c) -> ccomm_get st url room <> Ok cc /\ snd (ccomm_erase B url room st) = st).
Proof.
  split.
  - intros e. assert (h0 : session_id_to_bytes sid (prefix_of k) = Throw) by (unfold session_id_to_bytes; rewrite e; reflexivity). unfold convo_get, convo_set, convo_erase. rewrite h0. repeat split.
  - intros h. split.
    + intros e. unfold ccomm_get in e. destruct (canonical_room room) as [r| | | |] eqn:er; try discriminate. cbn [bind] in e. unfold new_comm in e, h. destruct (canonical_url url) as [u| | | |]; try discriminate.
      rewrite er in h. exact (h _ eq_refl).
    + unfold ccomm_erase, comm_erase. destruct (new_comm url room) as [y| | | |]; [destruct (h y eq_refl)| | | |]; reflexivity.
Qed.
Print Assumptions C53_bad_id.
(** erase: the record is gone; if the result is false there was none *)
Theorem C53_erase B k sid st x st' : benv_ok B -> life B tame st -> convo_erase B k sid st = (Ok x, st') ->
  found (convo_get st' k sid) = false /\ (x = false -> convo_get st k sid = Ok None).
Proof.
  intros hB hl h. unfold convo_erase in h. unfold convo_get. destruct (session_id_to_bytes sid (prefix_of k)) as [pk| | | |]; try discriminate.
  destruct (erase_impl_spec _ _ _ _ _ _ (life_usable _ _ hB hl) h) as (_ & h1 & _ & ->). cbn [bind]. unfold dict_at. rewrite h1. split; [reflexivity|].
  destruct (field [top_of k] pk (s_data st)); [discriminate|reflexivity].
Qed.
Print Assumptions C53_erase.

Definition now1 : Z := (1700000000 * 10 ^ 9)%Z.
Definition ms1 : Z := 1700000000000%Z.
Definition days (n : Z) : Z := (n * 86400000)%Z.
Definition fresh : cbase := mkCBase ms1 false.
Definition aging : cbase := mkCBase (ms1 - days 31) false.
Definition marked : cbase := mkCBase (ms1 - days 40) true.
Definition croom (c : cbase) : ccomm := mkCC (mkComm (b "https://example.com") (b "room") (b "Room") (repeat "k"%char 32) new_gbase) c.
Definition croom2 (c : cbase) : ccomm := mkCC (mkComm (b "https://example.com") (b "other") (b "other") (repeat "k"%char 32) new_gbase) c.
Definition later1 : Z := (now1 + 30 * 86400 * 10 ^ 9)%Z.
Definition ccmds1 : list ccmd := [CSet now1 KOne id1 fresh; CSet now1 KOne id2 aging; CSet now1 KGroup gid marked; CSetComm now1 (croom fresh); CSetComm (now1 - days 10 * 10 ^ 6) (croom2 aging); CSet (now1 - days 5 * 10 ^ 6) KLegacy id2 aging;
  CErase KLegacy id1; CPrune later1].
Definition cv1 : bstate := Eval vm_compute in snd (run_ccmds tb ccmds1 (start tb)).
Lemma ccmds1_fit : Forall ccmd_fits ccmds1.
Proof.
  assert (hb : forall c, (0 <=? cv_read c)%Z && (cv_read c * 10 ^ 6 <? 2 ^ 63)%Z = true -> cbase_fits c).
  { intros c h. apply andb_prop in h as [h1 h2]. split; [apply Z.leb_le, h1|apply Z.ltb_lt, h2]. }
  unfold ccmds1. apply Forall_cons; [apply hb; vm_compute; reflexivity|]. apply Forall_cons; [apply hb; vm_compute; reflexivity|]. apply Forall_cons; [apply hb; vm_compute; reflexivity|].
  apply Forall_cons; [split; [apply hb; vm_compute; reflexivity|split; vm_compute; reflexivity]|]. apply Forall_cons; [split; [apply hb; vm_compute; reflexivity|split; vm_compute; reflexivity]|].
  apply Forall_cons; [apply hb; vm_compute; reflexivity|]. apply Forall_cons; [exact I|]. apply Forall_cons; [|apply Forall_nil]. apply Z.leb_le. vm_compute. reflexivity.
Qed.
Lemma start_canonical : canonical_keys (start tb).
Proof. intros u r v h. vm_compute in h. discriminate. Qed.
Example ex_C53 : benv_ok tb /\ life tb tame (start tb) /\ canonical_keys (start tb) /\ Forall ccmd_fits ccmds1 /\ run_ccmds tb ccmds1 (start tb) = (Ok tt, cv1) /\
  sees_convos (start tb) (mkCView (fun _ _ => None) (ccomm_get (start tb))) /\
  convo_get cv1 KOne id1 = Ok (Some fresh) /\ convo_get cv1 KOne id2 = Ok None /\ convo_get cv1 KGroup gid = Ok (Some (mkCBase 0 true)) /\ convo_get cv1 KLegacy id2 = Ok None /\
  ccomm_get cv1 (b "https://EXAMPLE.com/") (b "ROOM") = Ok (Some (mkCC (mkComm (b "https://example.com") (b "room") (b "room") (repeat "k"%char 32) new_gbase) fresh)) /\
  ccomm_get cv1 (b "https://example.com") (b "other") = Ok None /\ convos_size cv1 = 3.
Proof.
  split; [exact tb_ok|]. split; [apply life_fresh|]. split; [exact start_canonical|]. split; [exact ccmds1_fit|]. split; [vm_compute; reflexivity|]. split.
  - split; cbn [v_conv v_ccomm]; [|reflexivity]. intros k sid hs. destruct (sid_ok_key _ _ hs) as [pk ek]. unfold convo_get. rewrite ek. destruct k; reflexivity.
  - repeat split; vm_compute; reflexivity.
Qed.
Example ex_C53_push : let st := snd (convo_set tb now1 KOne id2 (mkCBase (ms1 - days 20) false) cv1) in
  exists x st', convo_push tb later1 st = (Ok x, st') /\ convo_get st KOne id2 = Ok (Some (mkCBase (ms1 - days 20) false)) /\ convo_get st' KOne id2 = Ok None /\ convo_get st' KOne id1 = Ok (Some fresh).
Proof. eexists. eexists. split; [vm_compute; reflexivity|]. repeat split; vm_compute; reflexivity. Qed.

Lemma convo_set_life now k sid c : match session_id_to_bytes sid (prefix_of k) with Ok pk =>
    match run_ops_checked tb (map (op_at [top_of k; pk]) (cbase_script now c None)) (start tb) with Some _ => true | None => false end | _ => false end = true ->
  script_ok (cbase_script now c None) -> life tb tame (snd (convo_set tb now k sid c (start tb))).
Proof.
  intros h hf. unfold convo_set, run_script. destruct (session_id_to_bytes sid (prefix_of k)) as [pk| | | |]; try discriminate.
  assert (e0 : as_int (field [top_of k; pk] (b "r") (s_data (start tb))) = None) by (destruct k; reflexivity). rewrite e0.
  destruct (run_ops_checked _ _ _) as [st1|] eqn:e; [|discriminate].
  destruct (run_ops_checked_life _ _ _ _ e (life_fresh _ _ _) (script_writes _ _ hf)) as [h1 h2]. rewrite h2. exact h1.
Qed.
(** Groups are never dropped, however old they are. *)
Theorem C53_group_pruned_refuted : ~ (forall B now st x st' sid c, benv_ok B -> life B tame st -> canonical_keys st -> (45 * 86400 * 10 ^ 9 + 10 ^ 6 <= now)%Z -> convo_push B now st = (Ok x, st') ->
  convo_get st KGroup sid = Ok (Some c) -> is_stale now c = true -> convo_get st' KGroup sid = Ok None).
Proof.
  intros h. set (st := snd (convo_set tb now1 KGroup gid fresh (start tb))). set (now := (now1 + 1000 * 86400 * 10 ^ 9)%Z).
  destruct (convo_push tb now st) as [[x| | | |] st'] eqn:e; try (vm_compute in e; discriminate).
  assert (e2 : convo_get st' KGroup gid = Ok None).
  { refine (h tb now st x st' gid fresh tb_ok _ _ _ e _ _).
    - apply convo_set_life; [vm_compute; reflexivity|]. apply cscript_ok. split; [apply Z.leb_le|apply Z.ltb_lt]; vm_compute; reflexivity.
    - intros u r v hf. vm_compute in hf. discriminate.
    - apply Z.leb_le. vm_compute. reflexivity.
    - vm_compute. reflexivity.
    - vm_compute. reflexivity. }
  vm_compute in e. injection e as _ <-. vm_compute in e2. discriminate.
Qed.
Print Assumptions C53_group_pruned_refuted.
(** The last-read time of an unread conversation is lost if it is over 30 days ago, although the conversation is not stale. *)
Theorem C53_unread_time_refuted : ~ (forall B now k sid c st st', benv_ok B -> life B tame st -> cbase_fits c -> is_stale now c = false -> convo_set B now k sid c st = (Ok tt, st') -> convo_get st' k sid = Ok (Some c)).
Proof.
  intros h. specialize (h tb now1 KOne id1 marked (start tb) (snd (convo_set tb now1 KOne id1 marked (start tb))) tb_ok (life_fresh _ _ _)).
  assert (e : convo_get (snd (convo_set tb now1 KOne id1 marked (start tb))) KOne id1 = Ok (Some marked)).
  { apply h; [split; [apply Z.leb_le|apply Z.ltb_lt]; vm_compute; reflexivity|vm_compute; reflexivity|vm_compute; reflexivity]. }
  vm_compute in e. discriminate.
Qed.
Print Assumptions C53_unread_time_refuted.
(** A time that does not fit the clock (after 2262) is not stored, although it is recent; in C++ the conversion is
    undefined behaviour. *)
Theorem C53_far_future_refuted : ~ (forall B now k sid c st st', benv_ok B -> life B tame st -> (0 <= cv_read c < 2 ^ 63)%Z -> is_recent now (cv_read c) = true -> convo_set B now k sid c st = (Ok tt, st') -> convo_get st' k sid = Ok (Some c)).
Proof.
  intros h. set (c := mkCBase 9300000000000 false). specialize (h tb now1 KOne id1 c (start tb) (snd (convo_set tb now1 KOne id1 c (start tb))) tb_ok (life_fresh _ _ _)).
  assert (e : convo_get (snd (convo_set tb now1 KOne id1 c (start tb))) KOne id1 = Ok (Some c)).
  { apply h; [split; [apply Z.leb_le|apply Z.ltb_lt]; vm_compute; reflexivity|vm_compute; reflexivity|vm_compute; reflexivity]. }
  vm_compute in e. discriminate.
Qed.
Print Assumptions C53_far_future_refuted.
(** Setting a stale community that is not there stores something: the server without any room, to be pushed. *)
Theorem C53_stale_community_refuted : ~ (forall B now c st, benv_ok B -> life B tame st -> s_state st <> Dirty -> comm_ok (cc_comm c) -> cbase_fits (cc_base c) -> is_stale now (cc_base c) = true ->
  ccomm_get st (co_url (cc_comm c)) (co_room (cc_comm c)) = Ok None -> ccomm_set B now c st = (Ok tt, st)).
Proof.
  intros h. set (c := croom (mkCBase (ms1 - days 50) false)). assert (e : ccomm_set tb now1 c (start tb) = (Ok tt, start tb)).
  { apply h.
    - exact tb_ok.
    - apply life_fresh.
    - vm_compute. discriminate.
    - split; vm_compute; reflexivity.
    - split; [apply Z.leb_le|apply Z.ltb_lt]; vm_compute; reflexivity.
    - vm_compute. reflexivity.
    - vm_compute. reflexivity. }
  vm_compute in e. discriminate.
Qed.
Print Assumptions C53_stale_community_refuted.
(** With a room stored under a name in upper case (by another client), pruning takes the conversation of the room in lower
    case, which is fresh, for the stale one. *)
Theorem C53_prune_fresh_refuted : ~ (forall B now st st' url room c, benv_ok B -> life B tame st -> (45 * 86400 * 10 ^ 9 <= now)%Z -> prune_stale B now st = (Ok tt, st') ->
  ccomm_get st url room = Ok (Some c) -> is_stale now (cc_base c) = false -> ccomm_get st' url room = Ok (Some c)).
Proof.
  intros h. set (ops := [OpAssign [b "o"; b "https://e.com"] (b "#") (vstr (repeat "k"%char 32)); OpAssign [b "o"; b "https://e.com"; b "R"; b "ROOM"] (b "r") (vint 1);
                         OpAssign [b "o"; b "https://e.com"; b "R"; b "room"] (b "r") (vint ms1)]).
  set (st := snd (run_ops tb ops (start tb))). destruct (prune_stale tb now1 st) as [[[]| | | |] st'] eqn:e; try (vm_compute in e; discriminate).
  assert (e2 : ccomm_get st' (b "https://e.com") (b "room") = Ok (Some (mkCC (mkComm (b "https://e.com") (b "room") (b "room") (repeat "k"%char 32) new_gbase) fresh))).
  { refine (h tb now1 st st' _ _ _ tb_ok _ _ e _ _).
    - apply (run_ops_checked_life tb ops (start tb)); [vm_compute; reflexivity|apply life_fresh|]. repeat constructor.
    - apply Z.leb_le. vm_compute. reflexivity.
    - vm_compute. reflexivity.
    - vm_compute. reflexivity. }
  vm_compute in e. injection e as <-. vm_compute in e2. discriminate.
Qed.
Print Assumptions C53_prune_fresh_refuted.

(** ** C59 *)
Theorem C59_convos B k st : benv_ok B -> life B tame st -> ssorted (map fst (convo_list k st)) /\
  forall sid c, In (sid, c) (convo_list k st) <-> make_lc sid = sid /\ convo_get st k sid = Ok (Some c).
Proof. intros hB hl. exact (convo_list_spec k st (life_usable _ _ hB hl)). Qed.
Print Assumptions C59_convos.
Theorem C59_convo_communities B st c : benv_ok B -> life B tame st -> canonical_keys st ->
  In c (ccomms_list st) <-> ccomm_get st (co_url (cc_comm c)) (co_room (cc_comm c)) = Ok (Some c) /\ co_pub (cc_comm c) <> [].
Proof. intros hB hl. exact (ccomms_list_spec st c (life_usable _ _ hB hl)). Qed.
Print Assumptions C59_convo_communities.
Theorem C59_convo_sizes st : (forall k, length (convo_list k st) <= size_convos k st) /\ length (ccomms_list st) <= size_ccomms st.
Proof. exact (convo_sizes_le st). Qed.
Print Assumptions C59_convo_sizes.
(** Going from begin() to end() visits the conversations of all four kinds, and nothing more often than the iterators over one kind. *)
Theorem C59_all_convos B st : benv_ok B -> life B tame st ->
  (forall k sid c, In (AConvo k sid c) (all_convos st) <-> make_lc sid = sid /\ convo_get st k sid = Ok (Some c)) /\ (forall c, In (ACommunity c) (all_convos st) <-> In c (ccomms_list st)) /\
  length (all_convos st) = length (convo_list KOne st) + length (convo_list KGroup st) + length (ccomms_list st) + length (convo_list KLegacy st).
Proof.
  intros hB hl. unfold all_convos. split; [|split].
  - intros k sid c. rewrite <- (proj2 (C59_convos B k st hB hl)). rewrite !in_app_iff, !in_map_iff. split.
    + intros [([i x] & e & h)|[([i x] & e & h)|[(x & e & _)|([i x] & e & h)]]]; try discriminate e; cbn [fst snd] in e; injection e as <- <- <-; exact h.
    + intros h. destruct k; [left|right; left|right; right; right]; exists (sid, c); auto.
  - intros c. rewrite !in_app_iff, !in_map_iff. split.
    + intros [([i x] & e & _)|[([i x] & e & _)|[(x & e & h)|([i x] & e & _)]]]; try discriminate e. injection e as <-. exact h.
    + intros h. right. right. left. exists c. auto.
  - rewrite !app_length, !map_length. lia.
Qed.
Print Assumptions C59_all_convos.
Example ex_C59_convos : convo_list KOne cv1 = [(id1, fresh)] /\ map fst (convo_list KGroup cv1) = [gid] /\ length (ccomms_list cv1) = 1 /\ length (all_convos cv1) = 3.
Proof. repeat split; vm_compute; reflexivity. Qed.
