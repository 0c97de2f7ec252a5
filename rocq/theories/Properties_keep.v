(** C103: what was saved is still there after publishing, after a restart, and on the other devices.  Statements only; the
    proofs are in Keep_facts.v, the vocabulary is in KeepSpec.v, RecordsSpec.v and UserGroupsSpec.v. *)
From Verif Require Import KeepSpec Life_facts Conf_facts Conf2_facts Conf3_facts Data_facts Maps Hex_facts Records_facts Contacts_facts Keep_facts Toy ToyCrypt ToyBase Properties_records Properties_groups.
From Coq Require Import Lia.

(** Messages and dumps hold no empty sets or dictionaries: these are removed first.  A record whose fields all have their
    default values must not be lost with them.  From any state with nothing unsaved, after any commands: *)
Theorem C103_contacts B st l st1 st2 : benv_ok B -> life B tame st -> s_state st <> Dirty -> Forall contact_cmd_fits l -> run_contacts B l st = (Ok tt, st1) ->
  life B tame st1 -> handed_on B st1 st2 -> same_contacts st1 st2.
Proof.
  intros hB hl hd hf h hl1 hh. apply contacts_trim; [|exact (handed_trim _ _ _ hB hl1 hh)]. apply (contacts_keep B l st); [|exact hf|exact h].
  pose proof (life_usable _ _ hB hl) as hu. apply pruned_keeps; [exact hu|]. apply hu. destruct (s_state st) eqn:e; unfold is_dirty; rewrite e; congruence.
Qed.
Theorem C103_members B st l st1 st2 : benv_ok B -> life B tame st -> s_state st <> Dirty -> Forall member_cmd_fits l -> run_members B l st = (Ok tt, st1) ->
  life B tame st1 -> handed_on B st1 st2 -> same_members st1 st2.
Proof.
  intros hB hl hd hf h hl1 hh. apply members_trim; [|exact (handed_trim _ _ _ hB hl1 hh)]. apply (members_keep B l st); [|exact hf|exact h].
  pose proof (life_usable _ _ hB hl) as hu. apply pruned_keeps; [exact hu|]. apply hu. destruct (s_state st) eqn:e; unfold is_dirty; rewrite e; congruence.
Qed.
Theorem C103_groups B pub st l st1 st2 : benv_ok B -> life B tame st -> s_state st <> Dirty -> Forall gcmd_fits l -> run_gcmds B l st = (Ok tt, st1) ->
  life B tame st1 -> handed_on B st1 st2 -> same_groups pub st1 st2.
Proof.
  intros hB hl hd hf h hl1 hh. pose proof (handed_trim _ _ _ hB hl1 hh) as ht. assert (hk : keeps_groups st1).
  { apply (gcmds_keep B l st); [|exact hf|exact h]. pose proof (life_usable _ _ hB hl) as hu. apply pruned_groups; [exact hu|]. apply hu. destruct (s_state st) eqn:e; unfold is_dirty; rewrite e; congruence. }
  destruct (groups_trim pub _ _ hk ht) as (h1 & h2 & h3). split; [exact h1|]. split; [exact h2|]. split; [exact h3|]. exact (all_groups_trim pub _ _ hk ht).
Qed.
(** The profile and a group's info are fields, not records: they stay in any state. *)
Theorem C103_fields B st st' : benv_ok B -> life B tame st -> handed_on B st st' -> see_profile st' = see_profile st /\ see_info st' = see_info st.
Proof.
  intros hB hl hh. pose proof (handed_trim _ _ _ hB hl hh) as ht. pose proof (life_usable _ _ hB hl) as hu. split; [exact (profile_trim _ _ hu ht)|exact (info_trim _ _ hu ht)].
Qed.
(** Together with C48: a contact saved with nothing in it is there afterwards. *)
Theorem C103_default B st sid st1 st2 : benv_ok B -> life B tame st -> s_state st <> Dirty -> session_id_ok sid (b "05") = true ->
  contacts_set B sid new_contact st = (Ok tt, st1) -> life B tame st1 -> handed_on B st1 st2 -> contacts_get st2 sid = Ok (Some new_contact).
Proof.
  intros hB hl hd hs h hl1 hh. assert (hr : run_contacts B [CtSet sid new_contact] st = (Ok tt, st1)) by (cbn [run_contacts run_contact]; rewrite h; reflexivity).
  assert (hf : Forall contact_cmd_fits [CtSet sid new_contact]) by (constructor; [exact new_fits|constructor]).
  destruct (C103_contacts B st _ st1 st2 hB hl hd hf hr hl1 hh) as [-> _].
  pose proof (C48_contacts B st [CtSet sid new_contact] st1 (fun s => match contacts_get st s with Ok x => x | _ => None end) hB hl hf hr) as g. rewrite g; [|intros s0 h0; destruct (sid_ok_key _ _ h0) as [pk ek]; unfold contacts_get; rewrite ek; reflexivity|exact hs].
  cbn [fold_left after_contact]. assert (e : same_id sid sid = true). { destruct (sid_ok_key _ _ hs) as [pk ek]. rewrite (same_id_key _ _ _ _ _ ek ek). apply eqb_refl. } rewrite e. reflexivity.
Qed.
Print Assumptions C103_contacts.
Print Assumptions C103_members.
Print Assumptions C103_groups.
Print Assumptions C103_fields.
Print Assumptions C103_default.
(** A contact with no name and nothing set, and one erased again: published, restored from a dump, and fetched by a new device. *)
Definition k_st : bstate := Eval vm_compute in snd (contacts_set tb id1 new_contact (start tb)).
Definition k_pushed : bstate := Eval vm_compute in snd (push tb k_st).
Definition k_sent : bytes := Eval vm_compute in match fst (push tb k_st) with Ok (_, c, _) => c | _ => [] end.
Definition k_dump : bytes := Eval vm_compute in match fst (dump tb k_st) with Ok d => d | _ => [] end.
Definition k_back : bstate := Eval vm_compute in match restore tb [toy_key] k_dump with Ok st => st | _ => start tb end.
Definition k_other : bstate := Eval vm_compute in snd (merge tb [(b "h", k_sent)] (start tb)).
Lemma k_life : life tb tame k_st.
Proof. change k_st with (snd (contacts_set tb id1 new_contact (start tb))). apply set_contact_life; vm_compute; reflexivity. Qed.
Example ex_C103 : benv_ok tb /\ life tb tame (start tb) /\ s_state (start tb) <> Dirty /\ contacts_set tb id1 new_contact (start tb) = (Ok tt, k_st) /\ life tb tame k_st /\
  handed_on tb k_st k_pushed /\ handed_on tb k_st k_back /\ handed_on tb k_st k_other /\
  contacts_get k_pushed id1 = Ok (Some new_contact) /\ contacts_get k_back id1 = Ok (Some new_contact) /\ contacts_get k_other id1 = Ok (Some new_contact).
Proof.
  split; [exact tb_ok|]. split; [apply life_fresh|]. split; [discriminate|]. split; [vm_compute; reflexivity|]. split; [exact k_life|].
  split. { apply (on_push _ _ _ (1%Z, k_sent, [])). vm_compute. reflexivity. }
  split. { apply (on_restart _ _ _ [toy_key] k_dump (snd (dump tb k_st))); [vm_compute; reflexivity|apply N.ltb_lt; vm_compute; reflexivity|vm_compute; reflexivity]. }
  split.
  { apply (on_fetch _ _ _ tb 1%Z k_sent [] k_pushed (start tb) (b "h") [b "h"]); [exact toy_aead_ok|exact tb_ok| |apply life_fresh|reflexivity|discriminate|reflexivity|vm_compute; reflexivity| |reflexivity|left; reflexivity|reflexivity| |vm_compute; reflexivity].
    - split; try reflexivity; [intros _; split; reflexivity|discriminate].
    - intros k rest e. change ([toy_key] = k :: rest) in e. assert (ek : k = toy_key) by congruence. subst k. exists [], []. split; [reflexivity|]. split; [reflexivity|intros k' []].
    - intros s c s0 c0 h1 h2. apply no_collisionb_ok. vm_compute in h1, h2. injection h1 as <- _. injection h2 as <- _. vm_compute. reflexivity. }
  repeat split; vm_compute; reflexivity.
Qed.
(** A group, a community and a legacy group; the ops are checked to stay within what can be sent. *)
Definition k_cmds : list gcmd := [GSetGroup gid new_group; GSetComm room1; GSetLegacy id1 new_legacy].
Definition k_gr : bstate := Eval vm_compute in snd (run_gcmds tb k_cmds (start tb)).
Example ex_C103_groups : Forall gcmd_fits k_cmds /\ run_gcmds tb k_cmds (start tb) = (Ok tt, k_gr) /\
  (exists x st2, push tb k_gr = (Ok x, st2) /\ group_get pub0 st2 gid = Ok (Some new_group) /\ legacy_get st2 id1 = Ok (Some new_legacy) /\ length (all_groups pub0 st2) = 3).
Proof.
  split; [|split; [vm_compute; reflexivity|]].
  - constructor; [|constructor; [|constructor; [|constructor]]].
    + cbn. unfold gbase_fits, int32_ok. repeat split; cbn; try discriminate; reflexivity.
    + pose proof cmds1_fit as h. inversion h as [|x y h1 h2]; subst. inversion h2 as [|x y h3 h4]; subst. exact h3.
    + cbn. unfold gbase_fits, int32_ok. repeat split; cbn; try discriminate; try reflexivity. intros sid a [].
  - eexists. eexists. split; [vm_compute; reflexivity|]. repeat split; vm_compute; reflexivity.
Qed.
(** Conversations are different: one that was never read and is not marked unread is an empty record, which is dropped (see
    C53_push). *)
Example ex_C103_convo : dict_at [b "1"] (b "x") (fst (prune [(b "1", VDict [(b "x", VDict [])])])) = None.
Proof. reflexivity. Qed.
