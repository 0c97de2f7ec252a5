(** C89: iterating over contacts, members, groups and conversations, step by step, in C++ and in C.  Statements, and proofs that
    put together Iter_facts.v with C59. *)
From Verif Require Import Iter IterSpec Iter_facts CStruct CStruct_facts UserGroupsSpec ConvoSpec Life_facts Conf_facts Conf2_facts Data_facts Maps Hex_facts Records_facts Contacts_facts
  UserGroups_facts UserGroups2_facts UserGroups3_facts UserGroups4_facts Community_facts Convo_facts Toy ToyCrypt ToyBase Properties_records Properties_groups Properties_convo.
From Coq Require Import Lia.

Lemma visits_of {I A} (done : I -> bool) (cur : I -> outcome A) adv i l : walk done cur adv i l -> visits done cur adv i l.
Proof. intros h. split; [exact h|]. intros l' h'. symmetry. exact (walk_fun _ _ _ _ _ h _ h'). Qed.
(** ids in order, each with what get finds *)
Definition as_got {R} (get : bytes -> outcome (option R)) (l : list (bytes * R)) : Prop :=
  ssorted (map fst l) /\ forall sid r, In (sid, r) l <-> make_lc sid = sid /\ get sid = Ok (Some r).

(** ** user groups *)
(** begin() and begin_groups(), begin_communities(), begin_legacy_groups() ([wg], [wc], [wl]: which kinds are wanted): whatever is stored, the
    walk ends without incrementing or dereferencing past the end, whether it is ended by done() or by comparison with end(), and visits the
    groups that get_group finds, then the communities stored, then the legacy groups that get_legacy_group finds, each once and in order. *)
Theorem C89_groups B pub st (wg wc wl : bool) : benv_ok B -> life B tame st -> exists gs cs ls,
  visits gi_done gi_deref (gi_advance pub) (gi_begin pub wg wc wl st) (map (fun p => AGroup (fst p) (snd p)) gs ++ map AComm cs ++ map (fun p => ALegacy (fst p) (snd p)) ls) /\
  visits (fun i => gi_eq i gi_end) gi_deref (gi_advance pub) (gi_begin pub wg wc wl st) (map (fun p => AGroup (fst p) (snd p)) gs ++ map AComm cs ++ map (fun p => ALegacy (fst p) (snd p)) ls) /\
  (if wg then as_got (group_get pub st) gs else gs = []) /\
  (if wc then (exists ks, ssorted ks /\ Forall2 (stored_comm st) ks cs /\ forall k c, stored_comm st k c -> In k ks) /\
     (UserGroupsSpec.tidy st -> ssorted (map (fun c => (co_url c, co_norm c)) cs) /\ forall c, In c cs <-> comm_get st (co_url c) (co_room c) = Ok (Some c)) else cs = []) /\
  (if wl then as_got (legacy_get st) ls else ls = []).
Proof.
  intros hB hl. exists (if wg then groups_list pub st else []), (if wc then comms_list st else []), (if wl then legacy_list st else []).
  assert (e : forall T U (f : T -> U) (w : bool) x, map f (if w then x else []) = if w then map f x else []) by (intros T U f [|] x; reflexivity).
  rewrite !e. pose proof (gi_begin_rest pub wg wc wl st) as hw. unfold any_g, any_l in hw. split; [exact (visits_of _ _ _ _ _ hw)|].
  split; [apply visits_of; apply (walk_ext gi_done); [|exact hw]; intros i; symmetry; apply gi_eq_end|].
  split; [destruct wg; [exact (C59_groups B pub st hB hl)|reflexivity]|]. split; [|destruct wl; [exact (C59_legacy_groups B st hB hl)|reflexivity]].
  destruct wc; [|reflexivity]. split; [exact (C59_communities B st hB hl)|exact (C59_own_communities B st hB hl)].
Qed.
Print Assumptions C89_groups.
(** In C: at every position a walk reaches, exactly one of user_groups_it_is_group, _community, _legacy_group recognises the record, and it fills the
    caller's struct with what the C getter gives for the record's id (for a community: with the community). *)
Theorem C89_c_groups B pub st (wg wc wl : bool) i o1 o2 o3 : benv_ok B -> life B tame st ->
  reached gi_done (gi_advance pub) (gi_begin pub wg wc wl st) i -> gi_done i = false ->
  (exists sid g, gi_deref i = Ok (AGroup sid g) /\ c_it_is_group i o1 = c_group_get pub st sid o1 /\ c_it_is_comm i o2 = Ok None /\ c_it_is_legacy i o3 = Ok None) \/
  (exists c, gi_deref i = Ok (AComm c) /\ c_it_is_comm i o2 = (k <- comm_into c o2 ;; Ok (Some k)) /\ c_it_is_group i o1 = Ok None /\ c_it_is_legacy i o3 = Ok None) \/
  (exists sid g, gi_deref i = Ok (ALegacy sid g) /\ (forall mem past, c_it_is_legacy i o3 = fst (fst (c_legacy_get st sid o3 mem past))) /\ c_it_is_group i o1 = Ok None /\ c_it_is_comm i o2 = Ok None).
Proof.
  intros hB hl hr hd. destruct (C89_groups B pub st wg wc wl hB hl) as (gs & cs & ls & [hw _] & _ & h1 & _ & h3).
  destruct (reached_in _ _ _ _ _ hw i hr hd) as (a & ha & hin). apply in_app_or in hin as [hin|hin]; [|apply in_app_or in hin as [hin|hin]].
  - left. apply in_map_iff in hin as ([sid g] & <- & hin). cbn [fst snd] in ha. exists sid, g. split; [exact ha|]. destruct wg; [|subst; contradiction].
    destruct h1 as [_ h1]. apply h1 in hin as [_ hg]. unfold c_it_is_group, c_it_is_comm, c_it_is_legacy. rewrite ha. cbn [bind]. split; [|split; reflexivity].
    assert (hs : session_id_ok sid (b "03") = true). { unfold group_get, session_id_to_bytes in hg. destruct (session_id_ok sid (b "03")); [reflexivity|discriminate]. }
    unfold c_group_get. rewrite (c_str_nonul _ (sid_ok_nonul _ _ hs)), hg. cbn [filled]. unfold group_into. destruct (_ && _); reflexivity.
  - right. left. apply in_map_iff in hin as (c & <- & hin). exists c. split; [exact ha|]. unfold c_it_is_group, c_it_is_comm, c_it_is_legacy. rewrite ha. split; [reflexivity|split; reflexivity].
  - right. right. apply in_map_iff in hin as ([sid g] & <- & hin). cbn [fst snd] in ha. exists sid, g. split; [exact ha|]. destruct wl; [|subst; contradiction].
    destruct h3 as [_ h3]. apply h3 in hin as [_ hg]. unfold c_it_is_group, c_it_is_comm, c_it_is_legacy. rewrite ha. cbn [bind]. split; [|split; reflexivity].
    assert (hs : session_id_ok sid (b "05") = true). { unfold legacy_get, session_id_to_bytes in hg. destruct (session_id_ok sid (b "05")); [reflexivity|discriminate]. }
    intros mem past. unfold c_legacy_get. rewrite (c_str_nonul _ (sid_ok_nonul _ _ hs)), hg. cbn [filled]. unfold legacy_into. destruct (_ && _); reflexivity.
Qed.
Print Assumptions C89_c_groups.

(** ** conversations *)
Theorem C89_convos B st (w1 wc wg wl : bool) : benv_ok B -> life B tame st -> exists os gs cs ls,
  let l := map (fun p => AConvo KOne (fst p) (snd p)) os ++ map (fun p => AConvo KGroup (fst p) (snd p)) gs ++ map ACommunity cs ++ map (fun p => AConvo KLegacy (fst p) (snd p)) ls in
  visits vi_done vi_deref vi_advance (vi_begin w1 wc wg wl st) l /\
  visits (fun i => vi_eq i vi_end) vi_deref vi_advance (vi_begin w1 wc wg wl st) l /\
  (if w1 then as_got (convo_get st KOne) os else os = []) /\ (if wg then as_got (convo_get st KGroup) gs else gs = []) /\
  (if wc then canonical_keys st -> forall c, In c cs <-> ccomm_get st (co_url (cc_comm c)) (co_room (cc_comm c)) = Ok (Some c) /\ co_pub (cc_comm c) <> [] else cs = []) /\
  (if wl then as_got (convo_get st KLegacy) ls else ls = []).
Proof.
  intros hB hl. exists (if w1 then convo_list KOne st else []), (if wg then convo_list KGroup st else []), (if wc then ccomms_list st else []), (if wl then convo_list KLegacy st else []). cbv zeta.
  assert (e : forall T U (f : T -> U) (w : bool) x, map f (if w then x else []) = if w then map f x else []) by (intros T U f [|] x; reflexivity).
  rewrite !e. pose proof (vi_begin_rest w1 wc wg wl st) as hw. pose proof (vi_begin_rest_end w1 wc wg wl st) as hw2. unfold any_c in hw, hw2.
  split; [exact (visits_of _ _ _ _ _ hw)|]. split; [exact (visits_of _ _ _ _ _ hw2)|].
  split; [destruct w1; [exact (C59_convos B KOne st hB hl)|reflexivity]|]. split; [destruct wg; [exact (C59_convos B KGroup st hB hl)|reflexivity]|].
  split; [|destruct wl; [exact (C59_convos B KLegacy st hB hl)|reflexivity]].
  destruct wc; [|reflexivity]. intros hc c. exact (C59_convo_communities B st c hB hl hc).
Qed.
Print Assumptions C89_convos.
Theorem C89_c_convos B st (w1 wc wg wl : bool) i o : benv_ok B -> life B tame st ->
  reached vi_done vi_advance (vi_begin w1 wc wg wl st) i -> vi_done i = false ->
  (exists kd sid c, vi_deref i = Ok (AConvo kd sid c) /\ (forall mem past, c_it_is_convo kd i = fst (fst (c_convo_get st kd sid mem past))) /\
     (forall kd', kd' <> kd -> c_it_is_convo kd' i = Ok None) /\ c_it_is_ccomm i o = Ok None) \/
  (exists c, vi_deref i = Ok (ACommunity c) /\ c_it_is_ccomm i o = (k <- ccomm_into c o ;; Ok (Some k)) /\ forall kd, c_it_is_convo kd i = Ok None).
Proof.
  intros hB hl hr hd. destruct (C89_convos B st w1 wc wg wl hB hl) as (os & gs & cs & ls & [hw _] & _ & h1 & h2 & _ & h4).
  destruct (reached_in _ _ _ _ _ hw i hr hd) as (a & ha & hin).
  assert (hk : forall kd sid c, a = AConvo kd sid c -> convo_get st kd sid = Ok (Some c) ->
    (exists kd sid c, vi_deref i = Ok (AConvo kd sid c) /\ (forall mem past, c_it_is_convo kd i = fst (fst (c_convo_get st kd sid mem past))) /\
       (forall kd', kd' <> kd -> c_it_is_convo kd' i = Ok None) /\ c_it_is_ccomm i o = Ok None)).
  { intros kd sid c -> hg. exists kd, sid, c. split; [exact ha|]. unfold c_it_is_convo, c_it_is_ccomm. rewrite ha. cbn [bind].
    assert (hs : session_id_ok sid (prefix_of kd) = true). { unfold convo_get, session_id_to_bytes in hg. destruct (session_id_ok sid (prefix_of kd)); [reflexivity|discriminate]. }
    split; [|split; [|reflexivity]].
    - intros mem past. unfold c_convo_get. rewrite (c_str_nonul _ (sid_ok_nonul _ _ hs)), hg. cbn [filled]. unfold convo_into. destruct (Nat.leb 66 (length sid)); destruct kd; reflexivity.
    - intros kd' hne. destruct kd, kd'; try reflexivity; congruence. }
  apply in_app_or in hin as [hin|hin]; [|apply in_app_or in hin as [hin|hin]; [|apply in_app_or in hin as [hin|hin]]].
  - left. apply in_map_iff in hin as ([sid c] & <- & hin). cbn [fst snd] in *. destruct w1; [|subst; contradiction]. apply (hk KOne sid c eq_refl). apply (proj1 (proj2 h1 sid c) hin).
  - left. apply in_map_iff in hin as ([sid c] & <- & hin). cbn [fst snd] in *. destruct wg; [|subst; contradiction]. apply (hk KGroup sid c eq_refl). apply (proj1 (proj2 h2 sid c) hin).
  - right. apply in_map_iff in hin as (c & <- & hin). exists c. split; [exact ha|]. unfold c_it_is_convo, c_it_is_ccomm. rewrite ha. split; [reflexivity|]. intros kd. reflexivity.
  - left. apply in_map_iff in hin as ([sid c] & <- & hin). cbn [fst snd] in *. destruct wl; [|subst; contradiction]. apply (hk KLegacy sid c eq_refl). apply (proj1 (proj2 h4 sid c) hin).
Qed.
Print Assumptions C89_c_convos.

(** ** contacts and members *)
(** A walk over the contacts that ends without an exception visits what get finds; it does end if every record under a 33-byte key is under a
    session id (C59_bad_record_refuted: otherwise begin() or ++ throws), and comparison with end() ends it at the same point. *)
Theorem C89_contacts_partial B st : benv_ok B -> life B tame st ->
  (forall i l, contacts_begin st = Ok i -> walk ri_done ri_deref (ri_advance load_contact) i l -> as_got (contacts_get st) l) /\
  ((forall k info, field [b "c"] k (s_data st) = Some (VDict info) -> length k = 33 -> exists r, k = ascii_of_N 5 :: r) ->
     exists i l, contacts_begin st = Ok i /\ visits ri_done ri_deref (ri_advance load_contact) i l /\ visits (fun i => ri_eq i ri_end) ri_deref (ri_advance load_contact) i l).
Proof.
  intros hB hl. split.
  - intros i l hi hw. apply (C59_contacts B st l hB hl). apply (ri_walk load_contact (b "c") st l). eauto.
  - intros h. destruct (C59_contacts_total_partial B st hB hl h) as [l e]. apply (ri_walk load_contact (b "c") st l) in e as (i & hi & hw). exists i, l. split; [exact hi|].
    split; [exact (visits_of _ _ _ _ _ hw)|]. apply visits_of, (walk_ext ri_done); [|exact hw]. intros j. symmetry. apply ri_eq_end.
Qed.
Print Assumptions C89_contacts_partial.
Theorem C89_members_partial B st : benv_ok B -> life B tame st ->
  (forall i l, members_begin st = Ok i -> walk ri_done ri_deref (ri_advance load_member) i l -> as_got (members_get st) l) /\
  ((forall k info, field [b "m"] k (s_data st) = Some (VDict info) -> length k = 33 -> exists r, k = ascii_of_N 5 :: r) ->
     exists i l, members_begin st = Ok i /\ visits ri_done ri_deref (ri_advance load_member) i l /\ visits (fun i => ri_eq i ri_end) ri_deref (ri_advance load_member) i l).
Proof.
  intros hB hl. split.
  - intros i l hi hw. apply (C59_members B st l hB hl). apply (ri_walk load_member (b "m") st l). eauto.
  - intros h. destruct (C59_members_total_partial B st hB hl h) as [l e]. apply (ri_walk load_member (b "m") st l) in e as (i & hi & hw). exists i, l. split; [exact hi|].
    split; [exact (visits_of _ _ _ _ _ hw)|]. apply visits_of, (walk_ext ri_done); [|exact hw]. intros j. symmetry. apply ri_eq_end.
Qed.
Print Assumptions C89_members_partial.
(** In C, contacts_iterator_done and groups_members_iterator_done fill the struct with what the C getter gives for the record's id. *)
Theorem C89_c_records B st : benv_ok B -> life B tame st ->
  (forall b0 l i o, contacts_begin st = Ok b0 -> walk ri_done ri_deref (ri_advance load_contact) b0 l -> reached ri_done (ri_advance load_contact) b0 i ->
     if ri_done i then c_rec_done (fun c => contact_into c o) i = Ok None
     else exists sid c, ri_deref i = Ok (sid, c) /\ In (sid, c) l /\ forall mem past, c_rec_done (fun c => contact_into c o) i = (k <- fst (fst (c_contacts_get_buf st sid o mem past)) ;; match k with Some k => Ok (Some (sid, k)) | None => Ok None end)) /\
  (forall b0 l i o, members_begin st = Ok b0 -> walk ri_done ri_deref (ri_advance load_member) b0 l -> reached ri_done (ri_advance load_member) b0 i ->
     if ri_done i then c_rec_done (fun m => member_into m o) i = Ok None
     else exists sid m, ri_deref i = Ok (sid, m) /\ In (sid, m) l /\ forall mem past, c_rec_done (fun m => member_into m o) i = (k <- fst (fst (c_members_get st sid o mem past)) ;; match k with Some k => Ok (Some (sid, k)) | None => Ok None end)).
Proof.
  intros hB hl. split; intros b0 l i o h0 hw hr; unfold c_rec_done; destruct (ri_done i) eqn:hd; try reflexivity.
  - destruct (reached_in _ _ _ _ _ hw i hr hd) as ([sid c] & ha & hin). exists sid, c. split; [exact ha|]. split; [exact hin|]. intros mem past.
    destruct (C89_contacts_partial B st hB hl) as [h _]. apply (proj2 (h _ _ h0 hw)) in hin as [_ hg]. rewrite ha. cbn [bind fst snd]. unfold c_contacts_get_buf.
    assert (hs : session_id_ok sid (b "05") = true). { unfold contacts_get, session_id_to_bytes in hg. destruct (session_id_ok sid (b "05")); [reflexivity|discriminate]. }
    rewrite (c_str_nonul _ (sid_ok_nonul _ _ hs)), hg. cbn [filled]. unfold contact_into. destruct (_ && _); reflexivity.
  - destruct (reached_in _ _ _ _ _ hw i hr hd) as ([sid c] & ha & hin). exists sid, c. split; [exact ha|]. split; [exact hin|]. intros mem past.
    destruct (C89_members_partial B st hB hl) as [h _]. apply (proj2 (h _ _ h0 hw)) in hin as [_ hg]. rewrite ha. cbn [bind fst snd]. unfold c_members_get.
    assert (hs : session_id_ok sid (b "05") = true). { unfold members_get, session_id_to_bytes in hg. destruct (session_id_ok sid (b "05")); [reflexivity|discriminate]. }
    rewrite (c_str_nonul _ (sid_ok_nonul _ _ hs)), hg. cbn [filled]. unfold member_into. destruct (_ && _); reflexivity.
Qed.
Print Assumptions C89_c_records.

(** A walk over three groups, stepping by hand. *)
Example ex_C89 : exists g i1 i2 i3, gi_deref (gi_begin pub0 true true true gr1) = Ok (AGroup gid g) /\ gi_advance pub0 (gi_begin pub0 true true true gr1) = Ok i1 /\
  gi_deref i1 = Ok (AComm room1) /\ gi_advance pub0 i1 = Ok i2 /\ gi_done i2 = false /\ gi_advance pub0 i2 = Ok i3 /\ gi_done i3 = true /\ gi_eq i3 gi_end = true /\ gi_advance pub0 i3 = UB.
Proof. do 4 eexists. repeat (split; [vm_compute; reflexivity|]). vm_compute. reflexivity. Qed.
Example ex_C89_hypotheses : exists st, benv_ok tb /\ life tb tame st /\ gi_done (gi_begin pub0 true true true st) = false /\
  vi_done (vi_begin true true true true st) = false /\ exists i, contacts_begin st = Ok i /\ ri_done i = false.
Proof.
  set (ops := [OpAssign [b "g"; ascii_of_N 3 :: repeat "x"%char 32] (b "n") (vstr (b "Joe")); OpAssign [b "c"; ascii_of_N 5 :: repeat "x"%char 32] (b "n") (vstr (b "Joe"));
    OpAssign [b "1"; ascii_of_N 5 :: repeat "x"%char 32] (b "r") (vint 1)]).
  exists (snd (run_ops tb ops (start tb))). split; [exact tb_ok|]. split; [|split; [vm_compute; reflexivity|split; [vm_compute; reflexivity|eexists; split; vm_compute; reflexivity]]].
  apply (run_ops_checked_life tb ops (start tb)); [vm_compute; reflexivity|apply life_fresh|]. repeat constructor.
Qed.
