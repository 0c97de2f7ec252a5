(** C48-C51, C54, C55, C59: records.  Statements only; proofs are in Contacts_facts.v, Members_facts.v and
    Profile_facts.v, the vocabulary is in RecordsSpec.v. *)
From Verif Require Import RecordsSpec Life_facts Conf_facts Conf2_facts Data_facts Maps Hex_facts Records_facts Contacts_facts Members_facts Profile_facts Toy ToyCrypt ToyBase.

(** ** C48 *)
(** Whatever is done with contacts (set, the single-field setters, erase), in any number and order, at any point of a
    config's life: afterwards every valid session id reads as the sequence of commands says. *)
Theorem C48_contacts B st l st' g : benv_ok B -> life B tame st -> Forall contact_cmd_fits l -> run_contacts B l st = (Ok tt, st') ->
  (forall sid, session_id_ok sid (b "05") = true -> contacts_get st sid = Ok (g sid)) ->
  forall sid, session_id_ok sid (b "05") = true -> contacts_get st' sid = Ok (fold_left (fun g m => after_contact m g) l g sid).
Proof. intros hB hl. exact (contact_cmds_spec B l st st' g (life_usable _ _ hB hl)). Qed.
Print Assumptions C48_contacts.
(** An id that is not a session id is refused, by every call, and nothing changes. *)
Theorem C48_bad_id B st sid c h : session_id_ok sid (b "05") = false ->
  contacts_get st sid = Throw /\ contacts_set B sid c st = (Throw, st) /\ contacts_change B sid h st = (Throw, st) /\ contacts_erase B sid st = (Throw, st).
Proof.
  intros e. assert (h0 : session_id_to_bytes sid (b "05") = Throw) by (unfold session_id_to_bytes; rewrite e; reflexivity).
  unfold contacts_get, contacts_set, contacts_change, contacts_get_or_construct, contacts_get, contacts_erase. rewrite h0. repeat split.
Qed.
Print Assumptions C48_bad_id.
(** Saving a contact that is stored like this already changes nothing and needs no push. *)
Theorem C48_saving_again B st st1 st2 sid c : benv_ok B -> life B tame st -> contact_fits c -> contacts_set B sid c st = (Ok tt, st1) ->
  s_data st2 = s_data st1 -> is_dirty st2 = false -> contacts_set B sid c st2 = (Ok tt, st2).
Proof. intros hB hl. exact (contacts_set_again B sid c st st1 st2 (life_usable _ _ hB hl)). Qed.
Print Assumptions C48_saving_again.

Definition id1 : bytes := sid_of (repeat "a"%char 32).
Definition id1_upper : bytes := Eval vm_compute in map (fun c => if Ascii.eqb c "a" then "A"%char else c) (sid_of (repeat (ascii_of_N 170) 32)).
Definition id2 : bytes := sid_of (repeat (ascii_of_N 170) 32).
Definition joe : contact := mkContact (b "Joe") (b "J") (mkPic (b "http://x") (repeat "k"%char 32)) true false false (-1) NMentions 5 ExpRead 3600 1700000000.
Definition ct1 : bstate := Eval vm_compute in snd (run_contacts tb [CtSet id1 joe; CtChange id2 (CName (b "Ann")); CtChange id1 (CBlocked true); CtSet id1_upper joe; CtErase id2] (start tb)).
Example ex_C48 : benv_ok tb /\ life tb tame (start tb) /\
  Forall contact_cmd_fits [CtSet id1 joe; CtChange id2 (CName (b "Ann")); CtChange id1 (CBlocked true); CtSet id1_upper joe; CtErase id2] /\
  run_contacts tb [CtSet id1 joe; CtChange id2 (CName (b "Ann")); CtChange id1 (CBlocked true); CtSet id1_upper joe; CtErase id2] (start tb) = (Ok tt, ct1) /\
  contacts_get ct1 id1 = Ok (Some (mkContact (b "Joe") (b "J") (mkPic (b "http://x") (repeat "k"%char 32)) true false true (-1) NAll 5 ExpRead 3600 1700000000)) /\
  contacts_get ct1 id2 = Ok None /\ contacts_size ct1 = 1.
Proof.
  split; [exact tb_ok|]. split; [apply life_fresh|]. split.
  - repeat constructor; cbn; unfold int64_min; try (apply Z.ltb_lt; reflexivity); try (apply Z.leb_le; reflexivity); try discriminate.
  - repeat split; vm_compute; reflexivity.
Qed.
(** A disappearing-messages timer of 2^31 seconds or more is stored but not read back. *)
Theorem C48_long_timer_refuted : ~ (forall B st sid c st', benv_ok B -> life B tame st -> int32_ok (ct_priority c) -> int64_ok (ct_mute c) = true ->
  int64_ok (ct_created c) = true -> int64_ok (ct_timer c) = true -> contacts_set B sid c st = (Ok tt, st') -> contacts_get st' sid = Ok (Some (kept_contact c))).
Proof.
  intros h. set (c := mkContact (b "Joe") [] no_pic false false false 0 NDefault 0 ExpSend (2 ^ 31) 0).
  specialize (h tb (start tb) id1 c (snd (contacts_set tb id1 c (start tb))) tb_ok (life_fresh _ _ _)). cbn [ct_priority ct_mute ct_created ct_timer c] in h.
  assert (e : contacts_get (snd (contacts_set tb id1 c (start tb))) id1 = Ok (Some (kept_contact c))).
  { apply h; [unfold int32_ok; split; [discriminate|reflexivity]|reflexivity|reflexivity|reflexivity|vm_compute; reflexivity]. }
  vm_compute in e. discriminate.
Qed.
Print Assumptions C48_long_timer_refuted.

(** ** C49 *)
Definition no_nul (s : bytes) : bool := forallb (fun c => negb (Ascii.eqb c Ascii.zero)) s.
(** A contact without a mute time whose strings fit and contain no NUL goes through the C struct unchanged, whatever the
    struct held before. *)
Theorem C49_struct_partial c o : fits 101 (ct_name c) = true -> fits 101 (ct_nick c) = true -> fits 224 (pic_url (ct_pic c)) = true ->
  no_nul (ct_name c) = true -> no_nul (ct_nick c) = true -> no_nul (pic_url (ct_pic c)) = true ->
  kept_contact c = c -> contact_fits c -> ct_mute c = 0%Z -> exists k, contact_into c o = Ok k /\ contact_of_c k = c.
Proof. exact (contact_struct c o). Qed.
Print Assumptions C49_struct_partial.
Lemma set_contact_life id c : match session_id_to_bytes id (b "05") with Ok pk =>
    match run_ops_checked tb (map (op_at [b "c"; pk]) (contact_script c)) (start tb) with Some _ => true | None => false end | _ => false end = true ->
  int64_ok (ct_priority c) && int64_ok (ct_mute c) && int64_ok (ct_timer c) && int64_ok (ct_created c) = true -> life tb tame (snd (contacts_set tb id c (start tb))).
Proof.
  unfold contacts_set, run_script. destruct (session_id_to_bytes id (b "05")) as [pk| | | |]; try discriminate.
  destruct (run_ops_checked _ _ _) as [st1|] eqn:e; [|discriminate]. intros _ h. apply andb_prop in h as [h H]. apply andb_prop in h as [h H0]. apply andb_prop in h as [h H1].
  destruct (run_ops_checked_life _ _ _ _ e (life_fresh _ _ _) (script_writes _ _ (contact_script_wf c h H1 H0 H))) as [h1 h2]. rewrite h2. exact h1.
Qed.
(** Reading a contact with contacts_get and storing the same struct with contacts_set loses the mute time; and the struct
    comes back with whatever it held in that field. *)
Theorem C49_mute_lost_refuted : ~ (forall B st sid o k st' c, benv_ok B -> life B tame st -> contacts_get st sid = Ok (Some c) ->
  c_contacts_get st sid o = Ok (Some k) -> c_contacts_set B sid k st = (Ok tt, st') -> contacts_get st' sid = Ok (Some c)).
Proof.
  intros h. set (c := mkContact (b "Joe") [] no_pic false false false 0 NDefault 1234 ExpNone 0 0).
  set (st := snd (contacts_set tb id1 c (start tb))).
  set (o := mkCC [] [] [] [] false false false 0 NDefault 77 ExpNone 0 0).
  set (k := match c_contacts_get st id1 o with Ok (Some k) => k | _ => o end).
  assert (e : contacts_get (snd (c_contacts_set tb id1 k st)) id1 = Ok (Some c)); [|vm_compute in e; discriminate].
  apply (h tb st id1 o k); [exact tb_ok|apply (set_contact_life id1 c); vm_compute; reflexivity|vm_compute; reflexivity|vm_compute; reflexivity|vm_compute; reflexivity].
Qed.
Print Assumptions C49_mute_lost_refuted.
Example ex_C49 : fits 101 (ct_name (kept_contact joe)) = true /\ no_nul (ct_name joe) = true /\ no_nul (pic_url (ct_pic joe)) = true /\
  kept_contact (mkContact (b "Joe") (b "J") (mkPic (b "http://x") (repeat "k"%char 32)) true false true (-1) NAll 0 ExpRead 3600 1700000000) =
  mkContact (b "Joe") (b "J") (mkPic (b "http://x") (repeat "k"%char 32)) true false true (-1) NAll 0 ExpRead 3600 1700000000.
Proof. repeat split. Qed.

(** ** C50 *)
(** A string shorter than the buffer is copied into it, terminated, and nothing beyond it (and its terminator) is
    written. *)
Theorem C50_copy_partial n mem src past : length src < n -> n <= length mem ->
  length (copy_c_str n mem src past) = length mem /\ firstn (length src) (copy_c_str n mem src past) = src /\
  nth_error (copy_c_str n mem src past) (length src) = Some Ascii.zero /\
  forall i, length src < i -> nth_error (copy_c_str n mem src past) i = nth_error mem i.
Proof. exact (copy_in_bounds n mem src past). Qed.
Print Assumptions C50_copy_partial.
(** A string of the size of the buffer or longer is written past its end: one byte of the string at index n, the terminator
    at n + 1. *)
Theorem C50_overflow_refuted : ~ (forall n mem src past i, n + 2 <= length mem -> n <= i -> nth_error (copy_c_str n mem src past) i = nth_error mem i).
Proof.
  intros h. specialize (h 4 (b "......") (b "hello") [] 4 ltac:(cbn; lia) ltac:(lia)). vm_compute in h. discriminate.
Qed.
Print Assumptions C50_overflow_refuted.
(** This can be reached: a name of 101 bytes or more put there by another device (the merge checks no lengths) is copied
    by contacts_get. *)
Theorem C50_received_name_refuted : ~ (forall B st sid o c, benv_ok B -> life B tame st -> contacts_get st sid = Ok (Some c) -> c_contacts_get st sid o <> UB).
Proof.
  intros h. set (o := mkCC [] [] [] [] false false false 0 NDefault 77 ExpNone 0 0).
  set (pk := get_ok [] (session_id_to_bytes id1 (b "05"))).
  set (st := snd (run_ops tb [OpAssign [b "c"; pk] (b "n") (vstr (repeat "x"%char 101))] (start tb))).
  apply (h tb st id1 o (get_ok new_contact (contacts_get_or_construct st id1)) tb_ok); [|vm_compute; reflexivity|vm_compute; reflexivity].
  apply (run_ops_checked_life tb [OpAssign [b "c"; pk] (b "n") (vstr (repeat "x"%char 101))] (start tb)); [vm_compute; reflexivity|apply life_fresh|].
  repeat constructor.
Qed.
Print Assumptions C50_received_name_refuted.

(** ** C51 *)
Theorem C51_profile B st l st' : benv_ok B -> life B tame st -> Forall profile_cmd_fits l -> run_profiles B l st = (Ok tt, st') ->
  see_profile st' = fold_left (fun p c => after_profile c p) l (see_profile st).
Proof. intros hB hl. exact (profile_cmds_spec B l st st' (life_usable _ _ hB hl)). Qed.
Print Assumptions C51_profile.
Definition pf_cmds : list profile_cmd := [PName (b "Ann"); PPic (mkPic (b "http://x") (repeat "k"%char 32)); PPriority (-1); PExpiry 100; PBlinded (Some false); PName []; PExpiry 0].
Definition pf1 : bstate := Eval vm_compute in snd (run_profiles tb pf_cmds (start tb)).
Example ex_C51 : benv_ok tb /\ life tb tame (start tb) /\ Forall profile_cmd_fits pf_cmds /\ run_profiles tb pf_cmds (start tb) = (Ok tt, pf1) /\
  see_profile pf1 = mkProfile None (mkPic (b "http://x") (repeat "k"%char 32)) (-1) None (Some false).
Proof.
  split; [exact tb_ok|]. split; [apply life_fresh|]. split; [|split; vm_compute; reflexivity].
  repeat constructor; cbn; unfold int32_ok; try discriminate.
Qed.

(** ** C54 *)
Theorem C54_members B st l st' g : benv_ok B -> life B tame st -> Forall member_cmd_fits l -> run_members B l st = (Ok tt, st') ->
  (forall sid, session_id_ok sid (b "05") = true -> members_get st sid = Ok (g sid)) ->
  forall sid, session_id_ok sid (b "05") = true -> members_get st' sid = Ok (fold_left (fun g m => after_member m g) l g sid).
Proof. intros hB hl. exact (member_cmds_spec B l st st' g (life_usable _ _ hB hl)). Qed.
Print Assumptions C54_members.
Theorem C54_bad_id B st sid m : session_id_ok sid (b "05") = false ->
  members_get st sid = Throw /\ members_set B sid m st = (Throw, st) /\ members_erase B sid st = (Throw, st).
Proof.
  intros e. assert (h0 : session_id_to_bytes sid (b "05") = Throw) by (unfold session_id_to_bytes; rewrite e; reflexivity).
  unfold members_get, members_set, members_erase. rewrite h0. repeat split.
Qed.
Print Assumptions C54_bad_id.
Theorem C54_saving_again B st st1 st2 sid m : benv_ok B -> life B tame st -> member_fits m -> members_set B sid m st = (Ok tt, st1) ->
  s_data st2 = s_data st1 -> is_dirty st2 = false -> members_set B sid m st2 = (Ok tt, st2).
Proof. intros hB hl. exact (members_set_again B sid m st st1 st2 (life_usable _ _ hB hl)). Qed.
Print Assumptions C54_saving_again.
(** The statuses of a member, as its methods report them after saving and reading back, follow the state machine of the
    methods: invited (or failed to invite) until accepted, being promoted until admin, removed with or without messages. *)
Theorem C54_statuses m l : status_of (kept_member (fold_left (fun m a => act a m) l m)) = saved (fold_left (fun s a => stat_act a s) l (status_of m)).
Proof. exact (member_statuses m l). Qed.
Print Assumptions C54_statuses.
(** A member whose strings fit and contain no NUL, with statuses made by the methods, goes through the C struct
    unchanged. *)
Theorem C54_struct m o : fits 101 (mb_name m) = true -> fits 224 (pic_url (mb_pic m)) = true -> no_nul (mb_name m) = true -> no_nul (pic_url (mb_pic m)) = true ->
  kept_member m = m -> (mb_invite m <= 2)%Z -> (mb_promotion m <= 2)%Z -> (mb_removed m <= 2)%Z ->
  exists k, member_into m o = Ok k /\ member_of_c k = m.
Proof. exact (member_struct m o). Qed.
Print Assumptions C54_struct.
Definition bob : member := mkMember (b "Bob") no_pic false true 0 0 0.
Definition mb_cmds : list member_cmd := [MbSet id1 (act (Invite true) bob); MbSet id2 (act MakeAdmin (act (Invite false) bob)); MbSet id1_upper (act (Promote false) bob); MbErase id1].
Definition mb1 : bstate := Eval vm_compute in snd (run_members tb mb_cmds (start tb)).
Example ex_C54 : benv_ok tb /\ life tb tame (start tb) /\ Forall member_cmd_fits mb_cmds /\ run_members tb mb_cmds (start tb) = (Ok tt, mb1) /\
  members_get mb1 id1 = Ok None /\ members_get mb1 id2 = Ok (Some (mkMember (b "Bob") no_pic false false 0 1 0)) /\
  status_of (kept_member (act (Remove true) (act (Promote true) (act Accept (act (Invite false) bob))))) = mkStatus false None (Some true) (Some true).
Proof.
  split; [exact tb_ok|]. split; [apply life_fresh|]. split; [|repeat split; vm_compute; reflexivity].
  repeat constructor; cbn; unfold int32_ok; try discriminate.
Qed.

(** ** C55 *)
Theorem C55_info B st l st' : benv_ok B -> life B tame st -> Forall info_cmd_fits l -> run_infos B l st = (Ok tt, st') ->
  see_info st' = fold_left (fun p c => after_info c p) l (see_info st).
Proof. intros hB hl. exact (info_cmds_spec B l st st' (life_usable _ _ hB hl)). Qed.
Print Assumptions C55_info.
Definition in_cmds : list info_cmd := [IName (repeat "x"%char 101); IDesc (b "about"); ICreated 5; IDeleteBefore 7; IDeleteAttach (-1); IDestroy; IDesc []].
Definition in1 : bstate := Eval vm_compute in snd (run_infos tb in_cmds (start tb)).
Example ex_C55 : benv_ok tb /\ life tb tame (start tb) /\ Forall info_cmd_fits in_cmds /\ run_infos tb in_cmds (start tb) = (Ok tt, in1) /\
  see_info in1 = mkInfo (Some (repeat "x"%char 100)) None no_pic None (Some 5%Z) (Some 7%Z) None true.
Proof.
  split; [exact tb_ok|]. split; [apply life_fresh|]. split; [|split; vm_compute; reflexivity].
  repeat constructor; cbn; unfold int64_ok; reflexivity.
Qed.

(** ** C59 *)
(** When iterating the contacts ends without an exception, the ids come in strictly increasing order (so none twice), and
    they are exactly the ids (in lower case) that get finds, each with the record get returns. *)
Theorem C59_contacts B st l : benv_ok B -> life B tame st -> contacts_list st = Ok l ->
  ssorted (map fst l) /\ forall sid c, In (sid, c) l <-> make_lc sid = sid /\ contacts_get st sid = Ok (Some c).
Proof. intros hB hl. exact (contacts_list_spec st l (life_usable _ _ hB hl)). Qed.
Print Assumptions C59_contacts.
Theorem C59_members B st l : benv_ok B -> life B tame st -> members_list st = Ok l ->
  ssorted (map fst l) /\ forall sid m, In (sid, m) l <-> make_lc sid = sid /\ members_get st sid = Ok (Some m).
Proof. intros hB hl. exact (members_list_spec st l (life_usable _ _ hB hl)). Qed.
Print Assumptions C59_members.
(** It does end without an exception if every record stored under a 33-byte key has a key that starts with 0x05; *)
Theorem C59_contacts_total_partial B st : benv_ok B -> life B tame st ->
  (forall k info, field [b "c"] k (s_data st) = Some (VDict info) -> length k = 33 -> exists r, k = ascii_of_N 5 :: r) -> exists l, contacts_list st = Ok l.
Proof.
  intros hB hl h. apply (collection_total false (b "c") (b "05") load_contact (s_data st)); [apply (life_usable _ _ hB hl)|].
  intros _ k info h1 h2. destruct (h k info h1 h2) as [r ->]. apply five_ok. cbn in h2. lia.
Qed.
Print Assumptions C59_contacts_total_partial.
Theorem C59_members_total_partial B st : benv_ok B -> life B tame st ->
  (forall k info, field [b "m"] k (s_data st) = Some (VDict info) -> length k = 33 -> exists r, k = ascii_of_N 5 :: r) -> exists l, members_list st = Ok l.
Proof.
  intros hB hl h. apply (collection_total false (b "m") (b "05") load_member (s_data st)); [apply (life_usable _ _ hB hl)|].
  intros _ k info h1 h2. destruct (h k info h1 h2) as [r ->]. apply five_ok. cbn in h2. lia.
Qed.
Print Assumptions C59_members_total_partial.
(** and throws otherwise: one bad record (stored by another device, for instance) makes all contacts unlistable. *)
Theorem C59_bad_record_refuted : ~ (forall B st, benv_ok B -> life B tame st -> exists l, contacts_list st = Ok l).
Proof.
  intros h. set (ops := [OpAssign [b "c"; repeat "x"%char 33] (b "n") (vstr (b "Joe"))]).
  destruct (h tb (snd (run_ops tb ops (start tb))) tb_ok) as [l e].
  - apply (run_ops_checked_life tb ops (start tb)); [vm_compute; reflexivity|apply life_fresh|]. repeat constructor.
  - vm_compute in e. discriminate.
Qed.
Print Assumptions C59_bad_record_refuted.
(** size() counts every entry, valid or not. *)
Theorem C59_size_refuted : ~ (forall B st l, benv_ok B -> life B tame st -> contacts_list st = Ok l -> contacts_size st = length l).
Proof.
  intros h. set (ops := [OpAssign [b "c"; b "short"] (b "n") (vstr (b "Joe"))]).
  specialize (h tb (snd (run_ops tb ops (start tb))) [] tb_ok).
  assert (e : contacts_size (snd (run_ops tb ops (start tb))) = 0).
  { apply h; [|vm_compute; reflexivity]. apply (run_ops_checked_life tb ops (start tb)); [vm_compute; reflexivity|apply life_fresh|]. repeat constructor. }
  vm_compute in e. discriminate.
Qed.
Print Assumptions C59_size_refuted.
Example ex_C59 : exists l, contacts_list ct1 = Ok l /\ map fst l = [id1].
Proof. eexists. split; vm_compute; reflexivity. Qed.
