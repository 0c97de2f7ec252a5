(** C82 to C84: error buffers, member lists and structs of the C interface.  Statements, and proofs that put together the lemmas of
    CStruct_facts.v with C52 and C53. *)
From Verif Require Import CStruct CStruct_facts UserGroupsSpec ConvoSpec Life_facts Conf_facts Conf2_facts Data_facts Maps Hex_facts Records_facts Contacts_facts
  UserGroups_facts UserGroups2_facts UserGroups3_facts UserGroups4_facts Community_facts Convo_facts Toy ToyCrypt ToyBase Properties_records Properties_groups Properties_convo.
From Coq Require Import Lia.

(** ** C82 *)
(** Whatever the message, set_error keeps to the 256 bytes of the buffer ([mem]: the buffer and what lies after it): what is
    written is the message, cut at 255 bytes, with a terminator. *)
Theorem C82_set_error mem msg : 256 <= length mem ->
  length (put_error mem msg) = length mem /\ (forall i, 256 <= i -> nth_error (put_error mem msg) i = nth_error mem i) /\
  In Ascii.zero (firstn 256 (put_error mem msg)) /\ c_str (firstn 256 (put_error mem msg)) = c_str (firstn 255 msg).
Proof. exact (put_error_spec mem msg). Qed.
Print Assumptions C82_set_error.
(** A getter given an id of up to 190 characters: no exception leaves it.  Either the error is not set and the buffer is as it was,
    or there is no result and the buffer holds the whole message, terminated, and nothing after the buffer has changed. *)
Definition error_kept {A} (what mem : bytes) (r : outcome (option A) * bytes * bool) : Prop :=
  fst (fst r) <> Throw /\ fst (fst r) <> Err /\
  (snd r = false /\ snd (fst r) = mem \/
   snd r = true /\ fst (fst r) = Ok None /\ length (snd (fst r)) = length mem /\ (forall i, 256 <= i -> nth_error (snd (fst r)) i = nth_error mem i) /\
   c_str (firstn 256 (snd (fst r))) = what).
Lemma c_getter_kept {A} (r : outcome (option A)) what mem past : 256 <= length mem -> length what < 256 -> nonul what = true -> error_kept what mem (c_getter r what mem past).
Proof.
  intros h1 h2 h3. unfold error_kept, c_getter. rewrite (c_str_nonul what) by exact h3. destruct (copy_short mem what past h2 h3 h1) as (k1 & k2 & k3). unfold ERROR_BUF.
  destruct r as [x| | | |]; cbn [fst snd]; (split; [discriminate|]; split; [discriminate|]); auto 8.
Qed.
Lemma sid_error_short sid p : length (c_str sid) <= 190 -> length p = 2 -> nonul p = true -> length (sid_error (c_str sid) p) < 256 /\ nonul (sid_error (c_str sid) p) = true.
Proof.
  intros h hp hn. unfold sid_error. rewrite !app_length, !nonul_app, nonul_c_str, hn, hp. split; [|reflexivity]. cbn [length b String.list_ascii_of_string]. lia.
Qed.
Theorem C82_getters_partial st sid oc om ol k mem past : 256 <= length mem -> length (c_str sid) <= 190 ->
  error_kept (sid_error (c_str sid) (b "05")) mem (c_contacts_get_buf st sid oc mem past) /\
  error_kept (sid_error (c_str sid) (b "05")) mem (c_members_get st sid om mem past) /\
  error_kept (sid_error (c_str sid) (b "05")) mem (c_legacy_get st sid ol mem past) /\
  error_kept (sid_error (c_str sid) (prefix_of k)) mem (c_convo_get st k sid mem past).
Proof.
  intros hm hl. destruct (sid_error_short sid (b "05") hl eq_refl eq_refl) as [a1 a2].
  assert (hp : length (prefix_of k) = 2 /\ nonul (prefix_of k) = true) by (destruct k; split; reflexivity). destruct (sid_error_short sid (prefix_of k) hl (proj1 hp) (proj2 hp)) as [b1 b2].
  split; [|split; [|split]]; apply c_getter_kept; assumption.
Qed.
Print Assumptions C82_getters_partial.
(** The error is set exactly when the id is not an id of the kind. *)
Theorem C82_when st sid ol mem past : snd (c_legacy_get st sid ol mem past) = true <-> session_id_ok (c_str sid) (b "05") = false.
Proof.
  unfold c_legacy_get, legacy_get, session_id_to_bytes. destruct (session_id_ok (c_str sid) (b "05")) eqn:e.
  2: { split; reflexivity. }
  split; [|discriminate]. intros h. destruct (sid_ok_key _ _ e) as [pk ek]. unfold session_id_to_bytes in ek. rewrite e in ek. rewrite ek in h. cbn [bind] in h.
  destruct (dict_at [b "C"] pk (s_data st)) as [d|]; [|discriminate h]. cbn [filled] in h. unfold legacy_into in h. destruct (fits 67 (c_str sid) && fits 101 (lg_name (load_legacy d))); discriminate h.
Qed.
Print Assumptions C82_when.
(** An id of 192 characters or more makes a message of 257 bytes or more: byte 256 of the message is written to the byte after the buffer
    and the terminator to the one after it. *)
Theorem C82_long_id_refuted : ~ (forall st sid o mem past i, ERROR_BUF <= i -> nth_error (snd (fst (c_contacts_get_buf st sid o mem past))) i = nth_error mem i).
Proof.
  intros h. specialize (h (start tb) (repeat "0"%char 192) (Contacts.mkCC [] [] [] [] false false false 0 NDefault 77 ExpNone 0 0) (repeat "."%char 300) [] 256 (le_n _)).
  vm_compute in h. discriminate.
Qed.
Print Assumptions C82_long_id_refuted.
Definition buf0 : bytes := repeat "."%char 300.
Example ex_C82 : 256 <= length buf0 /\ length (c_str (b "05abc")) <= 190 /\ snd (c_legacy_get (start tb) (b "05abc") (mkCL [] [] false [] [] 0 new_gbase None) buf0 []) = true /\
  c_str (snd (fst (c_legacy_get (start tb) (b "05abc") (mkCL [] [] false [] [] 0 new_gbase None) buf0 []))) = b "Invalid session ID: expected 66 hex digits starting with 05; got 05abc" /\
  snd (c_legacy_get (start tb) id1 (mkCL [] [] false [] [] 0 new_gbase None) buf0 []) = false.
Proof. split; [vm_compute; lia|]. split; [vm_compute; lia|]. repeat split; vm_compute; reflexivity. Qed.

(** ** C83 *)
(** The loop of the documentation, erasing some of the members while walking over them: it ends, having seen every member once and in
    order, and what is left are the members that were not erased. *)
Theorem C83_walk m f fuel : length m < fuel -> lm_loop f fuel (lm_begin m) = Ok (m, filter (fun p => negb (f (fst p) (snd p))) m).
Proof. intros h. exact (proj1 (lm_loop_spec f m [] fuel h ([], false))). Qed.
Print Assumptions C83_walk.
(** add: refused unless the id is valid; false if nothing changed; otherwise this member has this role and the others are as before *)
Theorem C83_add sid admin m : msorted m ->
  let '(x, m') := lm_add sid admin m in
  msorted m' /\ (session_id_ok sid (b "05") = false -> x = false /\ m' = m) /\
  (session_id_ok sid (b "05") = true -> (x = false <-> lookup sid m = Some admin) /\ (forall s, lookup s m' = if eqb s sid then Some admin else lookup s m)).
Proof. exact (lm_add_spec sid admin m). Qed.
Print Assumptions C83_add.
Theorem C83_remove sid m : msorted m ->
  let '(x, m') := lm_remove sid m in
  msorted m' /\ (x = true <-> exists a, lookup sid m = Some a) /\ (forall s, lookup s m' = if eqb s sid then None else lookup s m).
Proof.
  intros hm. cbn. split; [apply msorted_erase, hm|]. split; [|intros s; apply lookup_erase; exact hm].
  destruct (lookup sid m) as [a|]; split; [eauto|reflexivity|discriminate|intros [a h]; discriminate].
Qed.
Print Assumptions C83_remove.
Theorem C83_count m : exists n a, lm_count m = (length m, n, a) /\ n + a = length m /\ n = length (filter (fun p => negb (snd p)) m) /\ a = length (filter snd m).
Proof.
  rewrite lm_count_spec. do 2 eexists. split; [reflexivity|]. split; [|auto]. induction m as [|[s x] m IH]; [reflexivity|]. cbn [filter snd]. destruct x; cbn [negb length]; lia.
Qed.
Print Assumptions C83_count.
(** The C++ calls on a legacy_group_info (insert, erase, counts): an id that is not one is refused with an exception; otherwise
    this member has this role, the others and all other fields are as before, and the result says whether something changed. *)
Definition other_fields (l l' : legacy) : Prop := lg_base l' = lg_base l /\ lg_name l' = lg_name l /\ lg_pub l' = lg_pub l /\ lg_sec l' = lg_sec l /\ lg_timer l' = lg_timer l.
Theorem C83_insert sid admin l : msorted (lg_members l) ->
  (lg_insert sid admin l = Throw <-> session_id_ok sid (b "05") = false) /\
  (session_id_ok sid (b "05") = true -> exists x l', lg_insert sid admin l = Ok (x, l') /\ (x = false <-> lookup sid (lg_members l) = Some admin) /\
     (forall s, lookup s (lg_members l') = if eqb s sid then Some admin else lookup s (lg_members l)) /\ msorted (lg_members l') /\ other_fields l l').
Proof.
  intros hm. unfold lg_insert. split.
  - destruct (session_id_ok sid (b "05")); split; try reflexivity; try discriminate. destruct (lookup sid (lg_members l)) as [y|]; [|discriminate]. destruct (Bool.eqb y admin); discriminate.
  - intros ->.
    assert (hins : (forall s, lookup s (lg_members (set_members (insert sid admin (lg_members l)) l)) = if eqb s sid then Some admin else lookup s (lg_members l)) /\
      msorted (lg_members (set_members (insert sid admin (lg_members l)) l)) /\ other_fields l (set_members (insert sid admin (lg_members l)) l)).
    { split; [intros s; apply lookup_insert; exact hm|]. split; [apply msorted_insert, hm|]. repeat split. }
    destruct (lookup sid (lg_members l)) as [y|] eqn:e.
    + destruct (Bool.eqb y admin) eqn:ey; do 2 eexists; (split; [reflexivity|]).
      * apply Bool.eqb_prop in ey. subst y. split; [split; reflexivity|]. split; [|split; [exact hm|repeat split]].
        intros s. destruct (eqb s sid) eqn:es; [apply eqb_eq in es; subst s; exact e|reflexivity].
      * split; [|exact hins]. split; [discriminate|]. intros h. assert (y = admin) by congruence. subst y. rewrite Bool.eqb_reflx in ey. discriminate.
    + do 2 eexists. split; [reflexivity|]. split; [|exact hins]. split; discriminate.
Qed.
Print Assumptions C83_insert.
Theorem C83_erase sid l : msorted (lg_members l) ->
  let '(x, l') := lg_erase sid l in
  (x = true <-> exists a, lookup sid (lg_members l) = Some a) /\ (forall s, lookup s (lg_members l') = if eqb s sid then None else lookup s (lg_members l)) /\
  msorted (lg_members l') /\ other_fields l l'.
Proof.
  intros hm. unfold lg_erase. split; [destruct (lookup sid (lg_members l)) as [a|]; split; [eauto|reflexivity|discriminate|intros [a h]; discriminate]|].
  split; [intros s; cbn [set_members lg_members]; apply lookup_erase; exact hm|]. split; [apply msorted_erase, hm|repeat split].
Qed.
Print Assumptions C83_erase.
(** The C calls do the same as the C++ ones, with "false" for the exception. *)
Theorem C83_same sid admin l : lm_add sid admin (lg_members l) = match lg_insert sid admin l with Ok (x, l') => (x, lg_members l') | _ => (false, lg_members l) end /\
  lm_remove sid (lg_members l) = (fst (lg_erase sid l), lg_members (snd (lg_erase sid l))) /\
  lm_count (lg_members l) = (fst (lg_counts l) + snd (lg_counts l), snd (lg_counts l), fst (lg_counts l)).
Proof.
  split; [|split].
  - unfold lm_add, lg_insert. destruct (session_id_ok sid (b "05")); [|reflexivity]. destruct (lookup sid (lg_members l)) as [y|] eqn:el; [|unfold emplace; rewrite el; reflexivity]. destruct (Bool.eqb y admin); reflexivity.
  - reflexivity.
  - rewrite lm_count_spec. unfold lg_counts. cbn [fst snd]. do 2 f_equal. induction (lg_members l) as [|[s x] m IH]; [reflexivity|]. cbn [filter snd]. destruct x; cbn [negb length]; lia.
Qed.
Print Assumptions C83_same.
Example ex_C83_insert : exists l, lg_insert id2 true (set_members [(id2, false)] new_legacy) = Ok (true, l) /\ lg_members l = [(id2, true)] /\ lg_erase id2 l = (true, new_legacy) /\ lg_counts l = (1, 0).
Proof. eexists. repeat split. Qed.
(** Asking once more after the end is undefined, and so is erasing twice in a row without asking for the next at the last member. *)
Theorem C83_past_end_refuted : ~ (forall m i, lm_next (lm_begin m) = Ok (None, i) -> lm_next i <> UB).
Proof. intros h. exact (h [] (mkIter [] [] true) eq_refl eq_refl). Qed.
Print Assumptions C83_past_end_refuted.
Example ex_C83 : lm_loop (fun s a => a) 9 (lm_begin [(id1, true); (id2, false)]) = Ok ([(id1, true); (id2, false)], [(id2, false)]) /\ msorted [(id1, true); (id2, false)] /\
  lm_add id2 true [(id1, true); (id2, false)] = (true, [(id1, true); (id2, true)]).
Proof. split; [vm_compute; reflexivity|]. split; [|vm_compute; reflexivity]. exact (msorted_emplace id1 true _ (msorted_emplace id2 false [] msorted_nil)). Qed.

(** ** C84 *)
(** What C++ hands over in a struct comes back unchanged: a legacy group (with both keys or without), a group, a community and
    conversations of the four kinds.  [o] is what the struct held before. *)
Theorem C84_structs sid g o sid3 gr og c oc csid cb cc occ :
  (session_id_ok sid (b "05") = true -> length (lg_name g) <= 100 -> nonul (lg_name g) = true -> two_keys (lg_pub g) (lg_sec g) = true \/ lg_pub g = [] /\ lg_sec g = [] ->
     exists k, legacy_into sid g o = Ok k /\ legacy_of_c k = (sid, g)) /\
  (session_id_ok sid3 (b "03") = true -> length (gr_name gr) <= 100 -> nonul (gr_name gr) = true -> length (gr_secret gr) = 64 \/ gr_secret gr = [] -> length (gr_auth gr) = 100 \/ gr_auth gr = [] ->
     exists k, group_into sid3 gr og = Ok k /\ group_of_c k = (sid3, gr) /\ (c_is_kicked k = true <-> gr_secret gr = [] /\ gr_auth gr = [])) /\
  (comm_ok c -> length (co_pub c) = 32 -> exists k, comm_into c oc = Ok k /\ comm_of_c k = Ok c) /\
  (length csid = 66 -> exists k, convo_into csid cb = Ok k /\ convo_of_c k = (csid, cb)) /\
  (comm_ok (cc_comm cc) -> co_room (cc_comm cc) = co_norm (cc_comm cc) -> length (co_pub (cc_comm cc)) = 32 -> co_base (cc_comm cc) = new_gbase -> exists k, ccomm_into cc occ = Ok k /\ ccomm_of_c k = Ok cc).
Proof.
  split; [|split; [|split; [|split]]].
  - intros h1 h2 h3 h4. destruct (legacy_struct sid g o h1 h2 h3) as (k & e1 & e2 & _). exists k. split; [exact e1|]. rewrite e2. destruct (two_keys (lg_pub g) (lg_sec g)) eqn:ek; [reflexivity|].
    destruct h4 as [h4|[h4 h5]]; [discriminate|]. destruct g; cbn in *. subst. reflexivity.
  - intros h1 h2 h3 h4 h5. destruct (group_struct sid3 gr og h1 h2 h3) as (k & e1 & e2 & _ & e3). exists k. split; [exact e1|]. rewrite e2, e3. destruct gr as [gb n s a]. cbn [gr_base gr_name gr_secret gr_auth] in *.
    destruct h4 as [h4 | ->], h5 as [h5 | ->]; rewrite ?h4, ?h5; cbn [length Nat.eqb negb andb]; (split; [reflexivity|]; split; [try discriminate; auto|intros [x y]; subst; try discriminate; reflexivity]).
  - intros h1 h2. exact (comm_struct c oc h1 h2).
  - intros h. destruct (convo_struct csid cb h) as (k & e1 & e2 & _). eauto.
  - intros [h1 h2] h3 h4 h5. rewrite h3 in h2. destruct (ccomm_struct cc occ h1 h2 h4) as (k & e1 & c' & e2 & f1 & f2 & f3 & f4 & f5 & f6). exists k. split; [exact e1|]. rewrite e2. f_equal.
    destruct cc as [[u n r p gb] cb0], c' as [[u' n' r' p' gb'] cb']. cbn in *. subst. reflexivity.
Qed.
Print Assumptions C84_structs.

(** user_groups_set_legacy_group, then user_groups_get_legacy_group: the struct that comes back holds what C52 says is kept of the one that
    was set.  The char arrays of [k] hold the id and a terminated name. *)
Definition sees_all (pub : bytes -> bytes) (st : bstate) : gview :=
  mkView (fun sid => match group_get pub st sid with Ok o => o | _ => None end) (comm_get st) (fun sid => match legacy_get st sid with Ok o => o | _ => None end).
Lemma sees_all_ok pub st : sees pub st (sees_all pub st).
Proof.
  split; [|split]; cbn [v_group v_comm v_legacy sees_all].
  - intros sid hs _. destruct (sid_ok_key _ _ hs) as [pk ek]. unfold group_get. rewrite ek. reflexivity.
  - reflexivity.
  - intros sid hs. destruct (sid_ok_key _ _ hs) as [pk ek]. unfold legacy_get. rewrite ek. reflexivity.
Qed.
Lemma same_self sid p : session_id_ok sid p = true -> same_id sid sid = true.
Proof. intros h. destruct (sid_ok_key _ _ h) as [pk ek]. rewrite (same_id_key _ _ _ _ _ ek ek). apply eqb_refl. Qed.
Lemma c_id sid : nonul sid = true -> length sid = 66 -> c_str (sid ++ [Ascii.zero]) = sid /\ firstn 66 (sid ++ [Ascii.zero]) = sid.
Proof. intros h1 h2. split; [exact (c_str_app sid h1 [])|apply first66, h2]. Qed.
Theorem C84_legacy B st k sid st' o mem past : benv_ok B -> life B tame st ->
  cl_id k = sid ++ [Ascii.zero] -> session_id_ok sid (b "05") = true ->
  gbase_fits (cl_base k) -> int64_ok (cl_timer k) = true -> (forall m a, In (m, a) (or_else (cl_internal k) []) -> session_id_ok m (b "05") = true) ->
  c_legacy_set B k st = (Ok tt, st') ->
  exists k', c_legacy_get st' (cl_id k) o mem past = (Ok (Some k'), mem, false) /\ legacy_of_c k' = (sid, kept_legacy (snd (legacy_of_c k))).
Proof.
  intros hB hl hid hs hf ht hm h. pose proof (sid_ok_length _ _ hs) as hlen. change (length sid = 66) in hlen. destruct (c_id sid (sid_ok_nonul _ _ hs) hlen) as [i1 i2].
  unfold c_legacy_set in h. cbn [legacy_of_c fst] in h. rewrite hid, i2 in h. set (g := snd (legacy_of_c k)) in *.
  assert (hfit : gcmd_fits (GSetLegacy sid g)). { cbn [gcmd_fits]. split; [exact hf|]. split; [exact ht|exact hm]. }
  destruct (gcmd_spec B (fun s => s) (GSetLegacy sid g) st st' _ (life_usable _ _ hB hl) (fun s e => e) hfit h (sees_all_ok (fun s => s) st)) as [_ (_ & _ & s3)].
  cbn [after_gcmd sees_all v_legacy] in s3. specialize (s3 sid hs). rewrite (same_self _ _ hs) in s3.
  destruct (legacy_struct sid (kept_legacy g) o hs) as (k' & e1 & e2 & _).
  - cbn [kept_legacy lg_name]. rewrite firstn_length. lia.
  - cbn [kept_legacy lg_name]. apply nonul_firstn. unfold g. cbn [legacy_of_c snd lg_name]. apply nonul_c_str.
  - exists k'. unfold c_legacy_get. rewrite hid, i1, s3. cbn [filled bind]. rewrite e1. cbn [bind c_getter]. split; [reflexivity|]. rewrite e2. f_equal.
    destruct (two_keys (lg_pub (kept_legacy g)) (lg_sec (kept_legacy g))) eqn:ek; [reflexivity|]. cbn [kept_legacy lg_pub lg_sec] in *. unfold kept_legacy. cbn [lg_base lg_name lg_timer lg_members].
    destruct (two_keys (lg_pub g) (lg_sec g)) eqn:eg; [rewrite eg in ek; discriminate|reflexivity].
Qed.
Print Assumptions C84_legacy.
Theorem C84_group B pub st k sid st' o prev : benv_ok B -> pub_ok pub -> life B tame st ->
  cg_id k = sid ++ [Ascii.zero] -> session_id_ok sid (b "03") = true -> make_lc sid = sid -> gbase_fits (cg_base k) ->
  c_group_set B k st = (Ok tt, st') -> group_get pub st sid = Ok prev ->
  exists k', c_group_get pub st' (cg_id k) o = Ok (Some k') /\ group_of_c k' = (sid, kept_group pub sid prev (snd (group_of_c k))).
Proof.
  intros hB hp hl hid hs hlc hf h hprev. pose proof (sid_ok_length _ _ hs) as hlen. change (length sid = 66) in hlen. destruct (c_id sid (sid_ok_nonul _ _ hs) hlen) as [i1 i2].
  unfold c_group_set in h. cbn [group_of_c fst] in h. rewrite hid, i2 in h. set (g := snd (group_of_c k)) in *.
  destruct (gcmd_spec B pub (GSetGroup sid g) st st' _ (life_usable _ _ hB hl) hp hf h (sees_all_ok pub st)) as [_ (s1 & _)].
  cbn [after_gcmd sees_all v_group] in s1. specialize (s1 sid hs hlc). rewrite (same_self _ _ hs), hprev in s1.
  destruct (group_struct sid (kept_group pub sid prev g) o hs) as (k' & e1 & e2 & _).
  - cbn [kept_group gr_name]. rewrite firstn_length. lia.
  - cbn [kept_group gr_name]. apply nonul_firstn. unfold g. cbn [group_of_c snd gr_name]. apply nonul_c_str.
  - exists k'. unfold c_group_get. rewrite hid, i1, s1. cbn [filled bind]. rewrite e1. cbn [bind]. split; [reflexivity|]. rewrite e2. f_equal. unfold kept_group. cbn [gr_base gr_name gr_secret gr_auth]. f_equal.
    + unfold has_secret. destruct (Nat.eqb (length (gr_secret g)) 64) eqn:es; cbn [andb]; [|reflexivity]. destruct (eqb (skipn 32 (gr_secret g)) (id_key sid)); cbn [andb]; [|reflexivity].
      destruct (eqb (pub _) (id_key sid)); [rewrite es; reflexivity|reflexivity].
    + assert (hpv : forall p, prev = Some p -> gr_auth p = [] \/ length (gr_auth p) = 100).
      { intros p ->. destruct (sid_ok_key _ _ hs) as [pk ek]. unfold group_get in hprev. rewrite ek in hprev. cbn [bind] in hprev. destruct (dict_at [b "g"] pk (s_data st)) as [d|]; [|discriminate].
        injection hprev as <-. cbn [load_group gr_auth]. unfold load_auth. destruct (maybe_str d (b "s")) as [s|]; [|auto]. destruct (Nat.eqb_spec (length s) 100); auto. }
      destruct (has_secret sid g).
      * destruct prev as [p|]; [|reflexivity]. destruct (hpv p eq_refl) as [e|e]; rewrite e; reflexivity.
      * destruct (Nat.eqb (length (gr_auth g)) 100) eqn:ea; [rewrite ea; reflexivity|reflexivity].
Qed.
Print Assumptions C84_group.
(** ugroups_group_set_kicked, then set and get: the group is kicked and has no secret and no auth data *)
Theorem C84_kicked B pub st k sid st' o : benv_ok B -> pub_ok pub -> life B tame st ->
  cg_id k = sid ++ [Ascii.zero] -> session_id_ok sid (b "03") = true -> make_lc sid = sid -> gbase_fits (cg_base k) ->
  c_group_set B (c_set_kicked k) st = (Ok tt, st') ->
  exists k', c_group_get pub st' (cg_id k) o = Ok (Some k') /\ c_is_kicked k' = true /\ gr_secret (snd (group_of_c k')) = [] /\ gr_auth (snd (group_of_c k')) = [].
Proof.
  intros hB hp hl hid hs hlc hf h. destruct (sees_all_ok pub st) as (hs1 & _). specialize (hs1 sid hs hlc).
  destruct (C84_group B pub st (c_set_kicked k) sid st' o _ hB hp hl hid hs hlc hf h hs1) as (k' & e1 & e2). exists k'. split; [exact e1|].
  unfold group_of_c in e2. cbn [c_set_kicked cg_id cg_name cg_have_secret cg_secret cg_have_auth cg_auth cg_base snd] in e2. unfold kept_group, has_secret in e2. cbn [gr_secret gr_auth gr_name gr_base length Nat.eqb andb] in e2.
  assert (q1 : (if cg_have_secret k' then cg_secret k' else []) = []) by congruence. assert (q2 : (if cg_have_auth k' then cg_auth k' else []) = []) by congruence.
  cbn [group_of_c snd gr_secret gr_auth]. split; [|split; assumption].
  change (cg_id (c_set_kicked k)) with (cg_id k) in e1. unfold c_group_get in e1. destruct (group_get pub st' (c_str (cg_id k))) as [[x|]| | | |] eqn:eg; cbn [filled] in e1; try discriminate. unfold group_into in e1.
  destruct (fits 67 (c_str (cg_id k)) && fits 101 (gr_name x)); [|discriminate e1]. cbn [bind] in e1. cbv zeta in e1. injection e1 as <-. unfold c_is_kicked. cbn [cg_have_secret cg_secret cg_have_auth cg_auth] in *.
  destruct (Nat.eqb_spec (length (gr_secret x)) 64) as [e|]; [rewrite q1 in e; discriminate|]. destruct (Nat.eqb_spec (length (gr_auth x)) 100) as [e|]; [rewrite q2 in e; discriminate|]. reflexivity.
Qed.
Print Assumptions C84_kicked.
Theorem C84_community B st k c st' url room o : benv_ok B -> life B tame st -> comm_of_c k = Ok c -> gbase_fits (cu_base k) ->
  c_comm_set B k st = (Ok tt, st') -> canonical_url (c_str url) = Ok (co_url c) -> canonical_room (c_str room) = Ok (co_norm c) ->
  exists k', c_comm_get st' url room o = Ok (Some k') /\ comm_of_c k' = Ok (kept_comm c) /\ cu_pub k' = cu_pub k.
Proof.
  intros hB hl hk hf h hu hr. unfold c_comm_set in h. rewrite hk in h. unfold comm_of_c in hk. destruct (new_comm (c_str (cu_url k)) (c_str (cu_room k))) as [og| | | |] eqn:eo; try discriminate. cbn [bind] in hk.
  unfold set_pubkey in hk. destruct (Nat.eqb_spec (length (cu_pub k)) 32) as [el|]; [|discriminate]. cbn [bind co_url co_norm co_room co_pub] in hk. apply new_comm_inv in eo as (u & r & c1 & c2 & ->). cbn [co_url co_norm co_room] in hk.
  injection hk as <-. cbn [co_url co_norm] in hu, hr.
  assert (hc : comm_ok (mkComm u r (c_str (cu_room k)) (cu_pub k) (cu_base k))). { split; cbn [co_url co_room co_norm]; [exact (url_fixed _ _ c1)|exact c2]. }
  pose proof (comm_set_sees B (mkComm u r (c_str (cu_room k)) (cu_pub k) (cu_base k)) st st' (life_usable _ _ hB hl) hf hc h (c_str url) (c_str room)) as hg. unfold same_room, same_server in hg. rewrite hu, hr in hg. cbn [co_url co_norm] in hg. rewrite !eqb_refl in hg. cbn [andb] in hg.
  set (c := mkComm u r (c_str (cu_room k)) (cu_pub k) (cu_base k)) in *.
  assert (hk32 : kept_key (cu_pub k) = cu_pub k) by (unfold kept_key; rewrite el; reflexivity).
  destruct (comm_struct (kept_comm c) o) as (k' & e1 & e2); [exact hc|cbn [kept_comm co_pub c]; rewrite hk32; exact el|].
  exists k'. unfold c_comm_get. rewrite hg. cbn [filled bind]. rewrite e1. cbn [bind]. split; [reflexivity|]. split; [exact e2|].
  unfold comm_of_c, set_pubkey in e2. destruct (new_comm (c_str (cu_url k')) (c_str (cu_room k'))) as [og| | | |]; try discriminate. cbn [bind] in e2. destruct (Nat.eqb (length (cu_pub k')) 32); [|discriminate].
  cbn [bind] in e2. apply (f_equal (fun x => match x with Ok y => co_pub y | _ => [] end)) in e2. cbn [co_pub] in e2. change (cu_pub k' = kept_key (cu_pub k)) in e2. congruence.
Qed.
Print Assumptions C84_community.
(** convo_info_volatile: set_1to1, set_group and so on, then get *)
Theorem C84_convo B now kd k sid st st' mem past : benv_ok B -> life B tame st -> cx_id k = sid ++ [Ascii.zero] -> length sid = 66 -> cbase_fits (cx_base k) -> is_recent now (cv_read (cx_base k)) = true ->
  c_convo_set B now kd k st = (Ok tt, st') -> c_convo_get st' kd (cx_id k) mem past = (Ok (Some k), mem, false).
Proof.
  intros hB hl hid hlen hf hr h. unfold c_convo_set in h. cbn [convo_of_c fst snd] in h. rewrite hid, first66 in h by exact hlen.
  pose proof (C53_kept B now kd sid (cx_base k) st st' hB hl hf hr h) as hg.
  assert (hs : session_id_ok sid (prefix_of kd) = true). { unfold convo_get, session_id_to_bytes in hg. destruct (session_id_ok sid (prefix_of kd)); [reflexivity|discriminate]. }
  destruct (c_id sid (sid_ok_nonul _ _ hs) hlen) as [i1 i2]. unfold c_convo_get. rewrite hid, i1, hg. cbn [filled bind]. unfold convo_into. rewrite hlen. cbn [Nat.leb bind c_getter].
  rewrite (firstn_all2 (n := 67)) by (rewrite app_length, hlen; cbn; lia). rewrite <- hid. destruct k; reflexivity.
Qed.
Print Assumptions C84_convo.

(** A name of 101 bytes or more from another device (nothing checks its length on the way in) does not fit the struct. *)
Theorem C84_long_name_refuted : ~ (forall B st sid o mem past g, benv_ok B -> life B tame st -> legacy_get st sid = Ok (Some g) -> fst (fst (c_legacy_get st sid o mem past)) <> UB).
Proof.
  intros h. set (o := mkCL [] [] false [] [] 0 new_gbase None). set (pk := get_ok [] (session_id_to_bytes id1 (b "05"))).
  set (ops := [OpAssign [b "C"; pk] (b "n") (vstr (repeat "x"%char 101))]). set (st := snd (run_ops tb ops (start tb))).
  apply (h tb st id1 o [] [] (match get_ok None (legacy_get st id1) with Some g => g | None => new_legacy end) tb_ok); [|vm_compute; reflexivity|vm_compute; reflexivity].
  apply (run_ops_checked_life tb ops (start tb)); [vm_compute; reflexivity|apply life_fresh|]. repeat constructor.
Qed.
Print Assumptions C84_long_name_refuted.
(** A server without a key of 32 bytes, from another device: the C++ getter returns a community without key, the C getter reads 32 bytes
    from it. *)
Theorem C84_missing_key_refuted : ~ (forall B st url room o c, benv_ok B -> life B tame st -> comm_get st url room = Ok (Some c) -> c_comm_get st url room o <> UB).
Proof.
  intros h. set (o := mkCU [] [] [] new_gbase). set (ops := [OpAssign [b "o"; b "https://example.com"; b "R"; b "room"] (b "n") (vstr (b "Room"))]). set (st := snd (run_ops tb ops (start tb))).
  apply (h tb st (b "https://example.com") (b "room") o (match get_ok None (comm_get st (b "https://example.com") (b "room")) with Some c => c | None => mkComm [] [] [] [] new_gbase end) tb_ok); [|vm_compute; reflexivity|vm_compute; reflexivity].
  apply (run_ops_checked_life tb ops (start tb)); [vm_compute; reflexivity|apply life_fresh|]. repeat constructor.
Qed.
Print Assumptions C84_missing_key_refuted.

(** the hypotheses can be met *)
Definition k_legacy : c_legacy := mkCL (id1 ++ [Ascii.zero]) (b "Oldies" ++ repeat Ascii.zero 95) true (repeat "p"%char 32) (repeat "s"%char 32) 3600 base1 (Some [(id1, true); (id2, false)]).
Definition k_group : c_group := mkCG (gid ++ [Ascii.zero]) (b "Mine" ++ repeat Ascii.zero 97) true (seed0 ++ seed0) false [] base1.
Definition k_comm : c_comm := mkCU (b "https://Example.com" ++ [Ascii.zero]) (b "Room" ++ [Ascii.zero]) (repeat "k"%char 32) base1.
Example ex_C84 : fst (c_legacy_set tb k_legacy (start tb)) = Ok tt /\ snd (legacy_of_c k_legacy) = oldies /\ fst (c_group_set tb k_group (start tb)) = Ok tt /\ snd (group_of_c k_group) = mine /\
  comm_of_c k_comm = Ok room1 /\ fst (c_comm_set tb k_comm (start tb)) = Ok tt /\ gbase_fits base1 /\
  fst (c_group_set tb (c_set_kicked k_group) (start tb)) = Ok tt /\ fst (c_convo_set tb now1 KOne (mkCV (id1 ++ [Ascii.zero]) (mkCBase (now1 / 1000000) false)) (start tb)) = Ok tt.
Proof. split; [vm_compute; reflexivity|]. split; [vm_compute; reflexivity|]. split; [vm_compute; reflexivity|]. split; [vm_compute; reflexivity|]. split; [vm_compute; reflexivity|]. split; [vm_compute; reflexivity|]. split; [exact base1_fits|]. split; vm_compute; reflexivity. Qed.
