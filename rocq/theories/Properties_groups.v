(** C52, C59: the user's groups (communities, legacy groups, groups).  Statements only; the proofs are in UserGroups_facts.v
    to UserGroups4_facts.v, the vocabulary is in UserGroupsSpec.v. *)
From Verif Require Import UserGroupsSpec Life_facts Conf_facts Conf2_facts Data_facts Maps Hex_facts Records_facts Contacts_facts UserGroups_facts UserGroups2_facts UserGroups3_facts UserGroups4_facts Toy ToyCrypt ToyBase Properties_records.
From Coq Require Import Lia.

(** crypto_sign_seed_keypair turns 32-byte seeds into 32-byte public keys *)
Definition pub_ok (pub : bytes -> bytes) : Prop := forall s, length s = 32 -> length (pub s) = 32.

(** ** C52 *)
(** Whatever is done with groups of the three kinds, in any number and order, at any point of a config's life: afterwards
    every group, community and legacy group reads as the sequence of commands says ([after_gcmd]); in particular a command
    on one kind leaves the other two alone. *)
Theorem C52_groups B pub st l st' v : benv_ok B -> pub_ok pub -> life B tame st -> Forall gcmd_fits l -> run_gcmds B l st = (Ok tt, st') ->
  sees pub st v -> sees pub st' (fold_left (fun v m => after_gcmd pub m v) l v).
Proof. intros hB hp hl hf h hv. exact (gcmds_spec B pub l hp st st' v (life_usable _ _ hB hl) hf h hv). Qed.
Print Assumptions C52_groups.
(** What is kept of a record is the record itself, unless it holds times before 1970, a name over 100 bytes, keys of the
    wrong length or ids in upper case. *)
Definition gbase_plain (g : gbase) : Prop := (0 <= gb_joined g)%Z /\ (0 <= gb_mute g)%Z.
Theorem C52_kept_legacy g : gbase_plain (lg_base g) -> length (lg_name g) <= 100 ->
  (lg_pub g = [] /\ lg_sec g = [] \/ length (lg_pub g) = 32 /\ length (lg_sec g) = 32) -> (0 <= lg_timer g)%Z ->
  msorted (lg_members g) -> (forall sid a, In (sid, a) (lg_members g) -> make_lc sid = sid) -> kept_legacy g = g.
Proof.
  intros [h1 h2] h3 h4 h5 h6 h7. destruct g as [[p j n m i] name pk sk t ms]. cbn [lg_base lg_name lg_pub lg_sec lg_timer lg_members gb_joined gb_mute] in *.
  unfold kept_legacy. cbn [lg_base lg_name lg_pub lg_sec lg_timer lg_members]. unfold kept_gbase. cbn [gb_priority gb_joined gb_notify gb_mute gb_invited].
  rewrite !Z.max_r by lia. rewrite firstn_all2 by exact h3. rewrite kept_members_id by assumption. unfold two_keys. destruct h4 as [[-> ->]|[-> ->]]; reflexivity.
Qed.
Print Assumptions C52_kept_legacy.
Theorem C52_kept_group pub sid prev g : gbase_plain (gr_base g) -> length (gr_name g) <= 100 ->
  (gr_secret g = [] /\ (gr_auth g = [] \/ length (gr_auth g) = 100) \/
   length (gr_secret g) = 64 /\ skipn 32 (gr_secret g) = id_key sid /\ pub (firstn 32 (gr_secret g)) = id_key sid /\ gr_auth g = match prev with Some p => gr_auth p | None => [] end) ->
  kept_group pub sid prev g = g.
Proof.
  intros [h1 h2] h3 h4. destruct g as [[p j n m i] name sk au]. cbn [gr_base gr_name gr_secret gr_auth gb_joined gb_mute] in *.
  unfold kept_group, has_secret. cbn [gr_base gr_name gr_secret gr_auth]. unfold kept_gbase. cbn [gb_priority gb_joined gb_notify gb_mute gb_invited].
  rewrite !Z.max_r by lia. rewrite firstn_all2 by exact h3. destruct h4 as [[-> h4]|(h4 & h5 & h6 & ->)].
  - cbn [length Nat.eqb andb]. destruct h4 as [-> | ->]; reflexivity.
  - rewrite h4, h5, h6, !eqb_refl. reflexivity.
Qed.
Print Assumptions C52_kept_group.
Theorem C52_kept_community c : gbase_plain (co_base c) -> length (co_pub c) = 32 -> kept_comm c = c.
Proof.
  intros [h1 h2] h3. destruct c as [u r n pk [p j no m i]]. cbn [co_base co_pub gb_joined gb_mute] in *. unfold kept_comm, kept_gbase, kept_key. cbn [co_url co_norm co_room co_pub co_base gb_priority gb_joined gb_notify gb_mute gb_invited].
  rewrite !Z.max_r by lia. rewrite h3. reflexivity.
Qed.
Print Assumptions C52_kept_community.
(** Ids that are not of the kind, and urls and rooms that cannot be canonicalised, are refused and nothing changes. *)
Theorem C52_bad_id B pub st sid g lg url room c : 
  (session_id_ok sid (b "03") = false -> group_get pub st sid = Throw /\ group_set B sid g st = (Throw, st) /\ group_erase B sid st = (Throw, st)) /\
  (session_id_ok sid (b "05") = false -> legacy_get st sid = Throw /\ legacy_set B sid lg st = (Throw, st) /\ legacy_erase B sid st = (Throw, st)) /\
  ((forall c, new_comm url room <> Ok c) -> comm_get st url room <> Ok c /\ snd (comm_erase B url room st) = st).
Proof.
  split; [|split].
  - intros e. assert (h0 : session_id_to_bytes sid (b "03") = Throw) by (unfold session_id_to_bytes; rewrite e; reflexivity). unfold group_get, group_set, group_erase. rewrite h0. repeat split.
  - intros e. assert (h0 : session_id_to_bytes sid (b "05") = Throw) by (unfold session_id_to_bytes; rewrite e; reflexivity). unfold legacy_get, legacy_set, legacy_erase. rewrite h0. repeat split.
  - intros h. unfold comm_get, comm_erase. destruct (new_comm url room) as [x| | | |]; [destruct (h x eq_refl)| | | |]; (split; [discriminate|reflexivity]).
Qed.
Print Assumptions C52_bad_id.

Definition pub0 (s : bytes) : bytes := s.
Lemma pub0_ok : pub_ok pub0.
Proof. intros s h. exact h. Qed.
Definition seed0 : bytes := repeat (ascii_of_N 170) 32.
Definition gid : bytes := Eval vm_compute in to_hex (ascii_of_N 3 :: seed0).
Definition gid_upper : bytes := Eval vm_compute in map (fun c => if Ascii.eqb c "a" then "A"%char else c) gid.
Definition base1 : gbase := mkGBase 3 1700000000 NAll 0 true.
Definition mine : group := mkGroup base1 (b "Mine") (seed0 ++ seed0) [].
Definition invited : group := mkGroup base1 (b "Mine") [] (repeat "s"%char 100).
Definition oldies : legacy := mkLegacy base1 (b "Oldies") (repeat "p"%char 32) (repeat "s"%char 32) 3600 [(id1, true); (id2, false)].
Definition room1 : comm := mkComm (b "https://example.com") (b "room") (b "Room") (repeat "k"%char 32) base1.
Definition room2 : comm := mkComm (b "https://example.com") (b "other") (b "other") (repeat "K"%char 32) new_gbase.
Definition cmds1 : list gcmd := [GSetGroup gid mine; GSetComm room1; GSetLegacy id1 oldies; GSetComm room2; GEraseComm (b "HTTPS://Example.COM:443") (b "OTHER"); GSetComm room1].
Definition gr1 : bstate := Eval vm_compute in snd (run_gcmds tb cmds1 (start tb)).
Lemma cmds1_fit : Forall gcmd_fits cmds1.
Proof.
  repeat constructor; cbn; unfold int64_min; try (apply Z.ltb_lt; reflexivity); try (apply Z.leb_le; reflexivity); try discriminate.
  intros sid a [h|[h|[]]]; injection h as <- _; reflexivity.
Qed.
Example ex_C52 : benv_ok tb /\ pub_ok pub0 /\ life tb tame (start tb) /\ Forall gcmd_fits cmds1 /\ run_gcmds tb cmds1 (start tb) = (Ok tt, gr1) /\
  sees pub0 (start tb) (mkView (fun _ => None) (comm_get (start tb)) (fun _ => None)) /\
  group_get pub0 gr1 gid = Ok (Some mine) /\ comm_get gr1 (b "https://EXAMPLE.com/") (b "rooM") = Ok (Some room1) /\ comm_get gr1 (b "https://example.com") (b "other") = Ok None /\
  legacy_get gr1 id1 = Ok (Some oldies) /\ groups_size gr1 = 3.
Proof.
  split; [exact tb_ok|]. split; [exact pub0_ok|]. split; [apply life_fresh|]. split; [exact cmds1_fit|]. split; [vm_compute; reflexivity|]. split.
  - split; [|split]; cbn [v_group v_comm v_legacy]; [|reflexivity|].
    + intros sid hs _. destruct (sid_ok_key _ _ hs) as [pk ek]. unfold group_get. rewrite ek. reflexivity.
    + intros sid hs. destruct (sid_ok_key _ _ hs) as [pk ek]. unfold legacy_get. rewrite ek. reflexivity.
  - repeat split; vm_compute; reflexivity.
Qed.
Example ex_C52_kept : kept_legacy oldies = oldies /\ kept_group pub0 gid None mine = mine /\ kept_comm room1 = room1.
Proof. repeat split; vm_compute; reflexivity. Qed.

(** Storing a group with its secret key does not remove the auth data stored before: set, then get, gives something that
    was never set. *)
Lemma group_set_life id g1 : match session_id_to_bytes id (b "03") with Ok pk =>
    match run_ops_checked tb (map (op_at [b "g"; pk]) (group_script pk g1)) (start tb) with Some _ => true | None => false end | _ => false end = true ->
  gbase_fits (gr_base g1) -> life tb tame (snd (group_set tb id g1 (start tb))).
Proof.
  intros h hf. unfold group_set, run_script. destruct (session_id_to_bytes id (b "03")) as [pk| | | |]; try discriminate.
  destruct (run_ops_checked _ _ _) as [st1|] eqn:e; [|discriminate].
  destruct (run_ops_checked_life _ _ _ _ e (life_fresh _ _ _) (script_writes _ _ (group_script_ok pk g1 hf))) as [h1 h2]. rewrite h2. exact h1.
Qed.
Lemma base1_fits : gbase_fits base1.
Proof. unfold gbase_fits, int32_ok. repeat split; cbn; try discriminate; reflexivity. Qed.
Theorem C52_stale_auth_refuted : ~ (forall B pub st sid g st', benv_ok B -> pub_ok pub -> life B tame st -> make_lc sid = sid -> gbase_fits (gr_base g) ->
  group_set B sid g st = (Ok tt, st') -> has_secret sid g = true -> exists g', group_get pub st' sid = Ok (Some g') /\ gr_auth g' = gr_auth g).
Proof.
  intros h. destruct (h tb pub0 (snd (group_set tb gid invited (start tb))) gid mine (snd (group_set tb gid mine (snd (group_set tb gid invited (start tb))))) tb_ok pub0_ok) as (g' & e1 & e2).
  - apply (group_set_life gid invited); [vm_compute; reflexivity|exact base1_fits].
  - reflexivity.
  - exact base1_fits.
  - vm_compute. reflexivity.
  - vm_compute. reflexivity.
  - vm_compute in e1. injection e1 as <-. vm_compute in e2. discriminate.
Qed.
Print Assumptions C52_stale_auth_refuted.
(** Read under an id in upper case (which is accepted everywhere), a group has lost its secret key. *)
Theorem C52_upper_case_refuted : ~ (forall B pub st sid g st', benv_ok B -> pub_ok pub -> life B tame st -> gbase_fits (gr_base g) ->
  group_set B sid g st = (Ok tt, st') -> has_secret sid g = true -> pub (firstn 32 (gr_secret g)) = id_key sid -> exists g', group_get pub st' sid = Ok (Some g') /\ gr_secret g' = gr_secret g).
Proof.
  intros h. destruct (h tb pub0 (start tb) gid_upper mine (snd (group_set tb gid_upper mine (start tb))) tb_ok pub0_ok (life_fresh _ _ _) base1_fits) as (g' & e1 & e2).
  - vm_compute. reflexivity.
  - vm_compute. reflexivity.
  - vm_compute. reflexivity.
  - vm_compute in e1. injection e1 as <-. vm_compute in e2. discriminate.
Qed.
Print Assumptions C52_upper_case_refuted.
(** A legacy group member added under two spellings of the id, once as admin, is no admin after set and get. *)
Theorem C52_admin_lost_refuted : ~ (forall B st sid g0 g m st', benv_ok B -> life B tame st -> gbase_fits (lg_base g) -> int64_ok (lg_timer g) = true ->
  lg_insert m true g0 = Ok (true, g) -> legacy_set B sid g st = (Ok tt, st') -> exists g', legacy_get st' sid = Ok (Some g') /\ lookup (make_lc m) (lg_members g') = Some true).
Proof.
  intros h. set (g0 := set_members [(id2, false)] new_legacy). set (g := set_members [(id1_upper, true); (id2, false)] new_legacy).
  destruct (h tb (start tb) id1 g0 g id1_upper (snd (legacy_set tb id1 g (start tb))) tb_ok (life_fresh _ _ _)) as (g' & e1 & e2).
  - unfold gbase_fits, int32_ok. repeat split; cbn; try discriminate; reflexivity.
  - reflexivity.
  - vm_compute. reflexivity.
  - vm_compute. reflexivity.
  - vm_compute in e1. injection e1 as <-. vm_compute in e2. discriminate.
Qed.
Print Assumptions C52_admin_lost_refuted.
(** The server key is shared: setting one community changes what another one (of the same server) reads as. *)
Theorem C52_shared_key_refuted : ~ (forall B st c st' url room, benv_ok B -> life B tame st -> gbase_fits (co_base c) -> comm_ok c -> comm_set B c st = (Ok tt, st') ->
  same_room url room c = false -> comm_get st' url room = comm_get st url room).
Proof.
  intros h. specialize (h tb (snd (comm_set tb room1 (start tb))) room2 (snd (comm_set tb room2 (snd (comm_set tb room1 (start tb))))) (co_url room1) (co_room room1) tb_ok).
  assert (e : comm_get (snd (comm_set tb room2 (snd (comm_set tb room1 (start tb))))) (co_url room1) (co_room room1) = comm_get (snd (comm_set tb room1 (start tb))) (co_url room1) (co_room room1)).
  { apply h.
    - unfold comm_set. destruct (run_ops_checked tb (comm_ops room1) (start tb)) as [st1|] eqn:e; [|vm_compute in e; discriminate].
      destruct (run_ops_checked_life _ _ _ _ e (life_fresh _ _ _) (comm_ops_writes room1 base1_fits)) as [h1 h2]. rewrite h2. exact h1.
    - unfold gbase_fits, int32_ok. repeat split; cbn; try discriminate; reflexivity.
    - split; vm_compute; reflexivity.
    - vm_compute. reflexivity.
    - vm_compute. reflexivity. }
  vm_compute in e. discriminate.
Qed.
Print Assumptions C52_shared_key_refuted.
(** A stored room name that is not valid (from another device) makes get_community throw for a valid url and room. *)
Theorem C52_throws_refuted : ~ (forall B st url room c, benv_ok B -> life B tame st -> new_comm url room = Ok c -> exists o, comm_get st url room = Ok o).
Proof.
  intros h. set (ops := [OpAssign [b "o"; b "https://example.com"; b "R"; b "room"] (b "n") (vstr (b "no room"))]).
  destruct (h tb (snd (run_ops tb ops (start tb))) (b "https://example.com") (b "room") (get_ok (mkComm [] [] [] [] new_gbase) (new_comm (b "https://example.com") (b "room"))) tb_ok) as [o e].
  - apply (run_ops_checked_life tb ops (start tb)); [vm_compute; reflexivity|apply life_fresh|]. repeat constructor.
  - vm_compute. reflexivity.
  - vm_compute in e. discriminate.
Qed.
Print Assumptions C52_throws_refuted.

(** ** C52: counting and erasing *)
(** As long as only this library's calls (with 32-byte server keys) have written to the config, the sizes are the numbers of
    records, and erase tells whether there was a record. *)
Theorem C52_tidy B st l st' : benv_ok B -> life B tame st -> tidy st -> Forall gcmd_fits l -> Forall keyed l -> run_gcmds B l st = (Ok tt, st') -> tidy st'.
Proof. intros hB hl ht hf hk h. exact (proj2 (tidy_cmds B l st st' (life_usable _ _ hB hl) hf hk h ht)). Qed.
Print Assumptions C52_tidy.
Theorem C52_sizes B st l st' pub : benv_ok B -> life B tame st -> tidy st -> Forall gcmd_fits l -> Forall keyed l -> run_gcmds B l st = (Ok tt, st') ->
  size_groups st' = length (groups_list pub st') /\ size_legacy st' = length (legacy_list st') /\ size_communities st' = length (comms_list st') /\
  groups_size st' = length (all_groups pub st').
Proof.
  intros hB hl ht hf hk h. destruct (tidy_cmds B l st st' (life_usable _ _ hB hl) hf hk h ht) as [hu' ht']. destruct (sizes_eq pub st' hu' ht') as (h1 & h2 & h3).
  rewrite h1, h2, h3. split; [reflexivity|]. split; [reflexivity|]. split; [reflexivity|]. unfold groups_size, all_groups. rewrite !app_length, !map_length. lia.
Qed.
Print Assumptions C52_sizes.
Definition found {A} (o : outcome (option A)) : bool := match o with Ok (Some _) => true | _ => false end.
Theorem C52_erase_group B pub st sid x st' : benv_ok B -> life B tame st -> tidy st -> group_erase B sid st = (Ok x, st') -> x = found (group_get pub st sid) /\ found (group_get pub st' sid) = false.
Proof.
  intros hB hl ht h. unfold group_erase in h. unfold group_get. destruct (session_id_to_bytes sid (b "03")) as [pk| | | |] eqn:ek; try discriminate.
  destruct (erase_impl_spec _ _ _ _ _ _ (life_usable _ _ hB hl) h) as (_ & h1 & _ & ->). cbn [bind]. unfold dict_at. rewrite h1. split; [|reflexivity].
  destruct (field [b "g"] pk (s_data st)) as [v|] eqn:e; [|reflexivity]. destruct ht as (t1 & _ & _). destruct (t1 _ _ e) as (_ & d & ->). reflexivity.
Qed.
Print Assumptions C52_erase_group.
Theorem C52_erase_legacy B st sid x st' : benv_ok B -> life B tame st -> tidy st -> legacy_erase B sid st = (Ok x, st') -> x = found (legacy_get st sid) /\ found (legacy_get st' sid) = false.
Proof.
  intros hB hl ht h. unfold legacy_erase in h. unfold legacy_get. destruct (session_id_to_bytes sid (b "05")) as [pk| | | |] eqn:ek; try discriminate.
  destruct (erase_impl_spec _ _ _ _ _ _ (life_usable _ _ hB hl) h) as (_ & h1 & _ & ->). cbn [bind]. unfold dict_at. rewrite h1. split; [|reflexivity].
  destruct (field [b "C"] pk (s_data st)) as [v|] eqn:e; [|reflexivity]. destruct ht as (_ & t1 & _). destruct (t1 _ _ e) as (_ & d & ->). reflexivity.
Qed.
Print Assumptions C52_erase_legacy.
Theorem C52_erase_community B st url room x st' : benv_ok B -> life B tame st -> tidy st -> comm_erase B url room st = (Ok x, st') -> x = found (comm_get st url room) /\ found (comm_get st' url room) = false.
Proof.
  intros hB hl ht h. pose proof (life_usable _ _ hB hl) as hu. unfold comm_erase in h. destruct (new_comm url room) as [og| | | |] eqn:eo; try discriminate.
  destruct (comm_erase_data _ _ _ _ _ _ hu h) as (_ & -> & h1 & _). apply new_comm_inv in eo as (u & r & e1 & e2 & ->). cbn [co_url co_norm] in *. split.
  - rewrite (get_tidy st url room u r ht e1 e2). unfold dict_at. destruct (field [b "o"; u; b "R"] r (s_data st)) as [v|] eqn:e; [|reflexivity].
    apply tidy_iff in ht as (_ & _ & ht). assert (hf0 : field [b "o"; u; b "R"] r (s_data st) <> None) by congruence. destruct (path_exists [b "o"; u] (b "R") r _ hf0) as [rooms k1].
    assert (hf1 : field [b "o"; u] (b "R") (s_data st) <> None) by congruence. destruct (path_exists [b "o"] u (b "R") _ hf1) as [info k2].
    destruct (ht _ _ k2) as (_ & _ & _ & h4). destruct (h4 _ _ e) as (_ & i & n & -> & _). reflexivity.
  - rewrite comm_get_read. unfold new_comm. rewrite e1, e2. cbn [bind co_url co_norm]. unfold dict_at. rewrite h1. reflexivity.
Qed.
Print Assumptions C52_erase_community.
Example ex_C52_tidy : tidy (start tb) /\ Forall keyed cmds1 /\ groups_size gr1 = 3 /\ length (all_groups pub0 gr1) = 3 /\
  fst (comm_erase tb (b "https://example.com") (b "room") gr1) = Ok true /\ fst (comm_erase tb (b "https://example.com") (b "other") gr1) = Ok false.
Proof. split; [apply tidy_empty; reflexivity|]. split; [repeat constructor|]. repeat split; vm_compute; reflexivity. Qed.

(** Whatever is stored, by this library or by others, the time of joining reads as no time before 1970. *)
Theorem C52_joined pub st : (forall sid g, group_get pub st sid = Ok (Some g) -> 0 <= gb_joined (gr_base g))%Z /\ (forall sid g, legacy_get st sid = Ok (Some g) -> 0 <= gb_joined (lg_base g))%Z /\
  (forall url room c, comm_get st url room = Ok (Some c) -> 0 <= gb_joined (co_base c))%Z.
Proof.
  assert (hj : forall d, (0 <= gb_joined (load_gbase d))%Z) by (intros d; cbn [load_gbase gb_joined]; apply Z.le_max_l).
  split; [|split].
  - intros sid g h. unfold group_get in h. destruct (session_id_to_bytes _ _); try discriminate. cbn [bind] in h. destruct (dict_at _ _ _) as [d|]; [|discriminate]. assert (e : g = load_group pub sid d) by congruence. rewrite e. apply hj.
  - intros sid g h. unfold legacy_get in h. destruct (session_id_to_bytes _ _); try discriminate. cbn [bind] in h. destruct (dict_at _ _ _) as [d|]; [|discriminate]. assert (e : g = load_legacy d) by congruence. rewrite e. apply hj.
  - intros url room c h. unfold comm_get in h. destruct (new_comm url room) as [og| | | |]; try discriminate. cbn [bind] in h. destruct (dict_at _ _ _) as [d|]; [|discriminate].
    destruct (load_comm d og) as [c1| | | |] eqn:e; try discriminate. cbn [bind] in h.
    assert (hc : (0 <= gb_joined (co_base c1))%Z) by (unfold load_comm in e; cbv zeta in e; destruct (maybe_str d (b "n")) as [n|]; [unfold set_room in e; destruct (canonical_room n) as [r| | | |]; try discriminate e; cbn [bind] in e|]; injection e as <-; apply hj).
    destruct (is_nil _); [congruence|]. destruct (set_pubkey _ c1) as [c2| | | |] eqn:e2; try discriminate. cbn [bind] in h. assert (c2 = c) by congruence. subst c2.
    unfold set_pubkey in e2. destruct (_ =? 32); [|discriminate]. injection e2 as <-. exact hc.
Qed.
Print Assumptions C52_joined.

(** ** C59 *)
(** Whatever is stored, iterating the groups ends without an exception; the ids come in strictly increasing order and are
    exactly the ids (in lower case) that get finds, each with the record get returns. *)
Theorem C59_groups B pub st : benv_ok B -> life B tame st -> ssorted (map fst (groups_list pub st)) /\
  forall sid g, In (sid, g) (groups_list pub st) <-> make_lc sid = sid /\ group_get pub st sid = Ok (Some g).
Proof. intros hB hl. exact (groups_list_spec pub st (life_usable _ _ hB hl)). Qed.
Print Assumptions C59_groups.
Theorem C59_legacy_groups B st : benv_ok B -> life B tame st -> ssorted (map fst (legacy_list st)) /\
  forall sid g, In (sid, g) (legacy_list st) <-> make_lc sid = sid /\ legacy_get st sid = Ok (Some g).
Proof. intros hB hl. exact (legacy_list_spec st (life_usable _ _ hB hl)). Qed.
Print Assumptions C59_legacy_groups.
(** The communities are visited in strictly increasing order of server and room, each valid one exactly once. *)
Theorem C59_communities B st : benv_ok B -> life B tame st -> exists ks, ssorted ks /\ Forall2 (stored_comm st) ks (comms_list st) /\ forall k c, stored_comm st k c -> In k ks.
Proof. intros hB hl. exact (comms_list_spec st (life_usable _ _ hB hl)). Qed.
Print Assumptions C59_communities.
(** In a config that only this library's calls have written to, they are what get_community finds. *)
Theorem C59_own_communities B st : benv_ok B -> life B tame st -> tidy st -> ssorted (map (fun c => (co_url c, co_norm c)) (comms_list st)) /\
  forall c, In c (comms_list st) <-> comm_get st (co_url c) (co_room c) = Ok (Some c).
Proof. intros hB hl. exact (comms_tidy st (life_usable _ _ hB hl)). Qed.
Print Assumptions C59_own_communities.
(** The sizes never undercount. *)
Theorem C59_group_sizes pub st : length (groups_list pub st) <= size_groups st /\ length (legacy_list st) <= size_legacy st /\ length (comms_list st) <= size_communities st.
Proof. exact (sizes_le pub st). Qed.
Print Assumptions C59_group_sizes.
(** Going from begin() to end() visits the groups of all three kinds, and nothing more often than the iterators over one kind. *)
Theorem C59_all_groups B pub st : benv_ok B -> life B tame st ->
  (forall sid g, In (AGroup sid g) (all_groups pub st) <-> make_lc sid = sid /\ group_get pub st sid = Ok (Some g)) /\
  (forall sid g, In (ALegacy sid g) (all_groups pub st) <-> make_lc sid = sid /\ legacy_get st sid = Ok (Some g)) /\
  (forall c, In (AComm c) (all_groups pub st) <-> In c (comms_list st)) /\
  length (all_groups pub st) = length (groups_list pub st) + length (comms_list st) + length (legacy_list st).
Proof.
  intros hB hl. unfold all_groups. split; [|split; [|split]].
  - intros sid g. rewrite <- (proj2 (C59_groups B pub st hB hl)). rewrite !in_app_iff, !in_map_iff. split.
    + intros [([i x] & e & h)|[(x & e & _)|([i x] & e & _)]]; try discriminate e. cbn [fst snd] in e. injection e as <- <-. exact h.
    + intros h. left. exists (sid, g). auto.
  - intros sid g. rewrite <- (proj2 (C59_legacy_groups B st hB hl)). rewrite !in_app_iff, !in_map_iff. split.
    + intros [([i x] & e & _)|[(x & e & _)|([i x] & e & h)]]; try discriminate e. cbn [fst snd] in e. injection e as <- <-. exact h.
    + intros h. right. right. exists (sid, g). auto.
  - intros c. rewrite !in_app_iff, !in_map_iff. split.
    + intros [([i x] & e & _)|[(x & e & h)|([i x] & e & _)]]; try discriminate e. injection e as <-. exact h.
    + intros h. right. left. exists c. auto.
  - rewrite !app_length, !map_length. lia.
Qed.
Print Assumptions C59_all_groups.
Example ex_C59_groups : map fst (groups_list pub0 gr1) = [gid] /\ comms_list gr1 = [room1] /\ map fst (legacy_list gr1) = [id1] /\
  stored_comm gr1 (b "https://example.com", b "room") room1.
Proof.
  split; [vm_compute; reflexivity|]. split; [vm_compute; reflexivity|]. split; [vm_compute; reflexivity|].
  unfold stored_comm. cbn [fst snd]. do 3 eexists. split; [vm_compute; reflexivity|]. split; [vm_compute; reflexivity|]. split; [vm_compute; reflexivity|]. split; [vm_compute; reflexivity|]. vm_compute. reflexivity.
Qed.
