(** C87: exceptions and the C interface.  C88: user profile and group info through the C interface. *)
From Verif Require Import Bytes Message Merge Base BaseSpec Records RecordsSpec Contacts Members UserGroups Convo CStruct Profile CMem CMem_facts CInfo CInfo_facts Community Records_facts Profile_facts Life_facts Life4_facts Conf_facts Conf3_facts
  Contacts_facts CStruct_facts Crypt Crypt_facts Properties_crypt Properties_capi Hex Sub GroupKeys COut COut_facts Toy ToyCrypt ToyBase.
From Verif Require Onion.
From Coq Require Import Lia.

(** A config at any point of its life that may be changed: not read-only, and with a seqno left. *)
Definition writable (B : benv) (st : bstate) : Prop :=
  benv_ok B /\ (e_lag (b_env B) <= 2 ^ 63 - 1)%Z /\ life B tame st /\ readonly B = false /\ (s_seqno st < 2 ^ 63 - 1)%Z.
(** an exception leaves the function *)
Definition escapes {A} (x : outcome A) : Prop := x = Err \/ x = Throw.
(** the function comes back normally if its argument is valid; otherwise an exception leaves it and nothing has changed *)
Definition returns_iff (valid : bool) (c : call unit) (st : bstate) : Prop := if valid then exists st', c = (Ok tt, st') else escapes (fst c) /\ snd c = st.

Lemma writable_editable B st : writable B st -> editable B st.
Proof. intros (h1 & h2 & h3 & h4 & h5). apply life_editable; [exact h1|exact h2|exact h3|]. split; [exact h4|right; exact h5]. Qed.

(** ** C87 *)
(** No edit of a writable config throws; *)
Theorem C87_edits B st o : writable B st -> is_edit o = true -> exists st', run B o st = (Ok tt, st').
Proof. intros h ho. destruct (run_total B o st ho (writable_editable B st h)) as (st' & e & _). eauto. Qed.
(** so the setters that have no try block come back if, and only if, the id in the struct is an id of the right kind, *)
Theorem C87_setters_partial B st : writable B st ->
  (forall id k, returns_iff (session_id_ok (firstn 66 id) (b "05")) (c_contacts_set B (firstn 66 id) k st) st) /\
  (forall id k, returns_iff (session_id_ok (firstn 66 id) (b "05")) (c_members_set B id k st) st) /\
  (forall k, returns_iff (session_id_ok (firstn 66 (cl_id k)) (b "05")) (c_legacy_set B k st) st) /\
  (forall k, returns_iff (session_id_ok (firstn 66 (cg_id k)) (b "03")) (c_group_set B k st) st) /\
  (forall now kd k, returns_iff (session_id_ok (firstn 66 (cx_id k)) (prefix_of kd)) (c_convo_set B now kd k st) st).
Proof.
  intros h. apply writable_editable in h.
  assert (main : forall sid pre (f : bytes -> list bytes) (s : bytes -> script),
    returns_iff (session_id_ok sid pre) (match session_id_to_bytes sid pre with Ok pk => run_script B (f pk) (s pk) st | x => (failed x, st) end) st).
  { intros sid pre f s. destruct (session_id_ok sid pre) eqn:e; cbn [returns_iff].
    - destruct (sid_ok_key _ _ e) as [pk ->]. destruct (run_script_total B (f pk) (s pk) st h) as (st' & e' & _). eauto.
    - unfold session_id_to_bytes. rewrite e. split; [right|]; reflexivity. }
  split; [|split; [|split; [|split]]].
  - intros id k. apply (main _ _ (fun pk => [b "c"; pk]) (fun _ => contact_script (contact_of_c k))).
  - intros id k. apply (main _ _ (fun pk => [b "m"; pk]) (fun _ => member_script (member_of_c k))).
  - intros k. apply (main _ _ (fun pk => [b "C"; pk]) (fun _ => legacy_script (snd (legacy_of_c k)))).
  - intros k. apply (main _ _ (fun pk => [b "g"; pk]) (fun pk => group_script pk (snd (group_of_c k)))).
  - intros now kd k. apply (main _ _ (fun pk => [top_of kd; pk]) (fun pk => cbase_script now (snd (convo_of_c k)) (as_int (field [top_of kd; pk] (b "r") (s_data st))))).
Qed.
Print Assumptions C87_edits.
Print Assumptions C87_setters_partial.
(** and for communities if url and room can be made canonical (the key has 32 bytes in every struct). *)
Definition room_valid (url room : bytes) : bool := match canonical_url (c_str url), canonical_room (c_str room) with Ok _, Ok _ => true | _, _ => false end.
Theorem C87_communities_partial B st : writable B st ->
  (forall k, length (cu_pub k) = 32 -> returns_iff (room_valid (cu_url k) (cu_room k)) (c_comm_set B k st) st) /\
  (forall now k, length (cy_pub k) = 32 -> returns_iff (room_valid (cy_url k) (cy_room k)) (c_ccomm_set B now k st) st).
Proof.
  intros h. apply writable_editable in h.
  assert (hc : forall url room, match new_comm (c_str url) (c_str room) with Ok _ => room_valid url room = true | x => escapes x /\ room_valid url room = false end).
  { intros url room. unfold new_comm, room_valid. pose proof (canonical_settled (c_str url)) as h1. destruct (canonical_url (c_str url)) as [u| | | |]; try contradiction; cbn [bind]; try (split; [unfold escapes; auto|reflexivity]).
    unfold canonical_room. cbv zeta. destruct (Nat.ltb _ _); [split; [right|]; reflexivity|]. destruct (is_nil _); [split; [right|]; reflexivity|]. destruct (forallb _ _); [reflexivity|split; [right|]; reflexivity]. }
  assert (esc : forall A B' (x : outcome A), escapes x -> escapes (@failed A B' x)) by (intros A B' x [-> | ->]; unfold escapes; auto).
  split.
  - intros k hk. unfold c_comm_set, comm_of_c. pose proof (hc (cu_url k) (cu_room k)) as h1. destruct (new_comm (c_str (cu_url k)) (c_str (cu_room k))) as [c| | | |]; cbn [bind];
      try (destruct h1 as [h1 h0]; rewrite h0; split; [exact (esc _ _ _ h1)|reflexivity]).
    unfold set_pubkey. rewrite hk, Nat.eqb_refl. cbn [bind]. rewrite h1. cbn [returns_iff]. unfold comm_set. destruct (run_ops_total B (comm_ops (mkComm (co_url c) (co_norm c) (co_room c) (cu_pub k) (cu_base k))) st) as (st' & e & _); [|exact h|exists st'; exact e].
    cbn [comm_ops forallb is_edit andb]. apply forallb_forall. intros o ho. apply in_map_iff in ho as (p & <- & _). apply op_at_edit.
  - intros now k hk. unfold c_ccomm_set, ccomm_of_c. pose proof (hc (cy_url k) (cy_room k)) as h1. destruct (new_comm (c_str (cy_url k)) (c_str (cy_room k))) as [c| | | |]; cbn [bind];
      try (destruct h1 as [h1 h0]; rewrite h0; split; [exact (esc _ _ _ h1)|reflexivity]).
    unfold set_pubkey. rewrite hk, Nat.eqb_refl. cbn [bind]. rewrite h1. cbn [returns_iff]. unfold ccomm_set. cbv zeta. cbn [cc_comm cc_base].
    destruct (run_total B (OpAssign [b "o"; co_url c] (b "#") (vstr (cy_pub k))) st eq_refl h) as (st1 & e & h2). cbn [co_url co_pub co_norm]. rewrite e.
    destruct (run_script_total B [b "o"; co_url c; b "R"; co_norm c] (cbase_script now (cy_base k) (as_int (field [b "o"; co_url c; b "R"; co_norm c] (b "r") (s_data st1)))) st1 h2) as (st2 & e2 & _). exists st2. exact e2.
Qed.
Print Assumptions C87_communities_partial.
(** Without those conditions an exception does leave the functions: ids that are no session ids, and *)
Theorem C87_bad_id_refuted B st k m : escapes (fst (c_contacts_set B (b "05") k st)) /\ escapes (fst (c_members_set B (b "05") m st)).
Proof. split; right; reflexivity. Qed.
(** a read-only group (as every member has it): the functions with a try block return an error, those without let the exception out unless
    there is nothing to change. *)
Theorem C87_readonly B st c : benv_ok B -> life B tame st -> readonly B = true ->
  match c with
  | CIName _ | CIDesc _ | CIPic _ => exists r, c_run_info B c st = (Ok r, st) /\ (r = 0 \/ r = BAD_VALUE)%Z
  | _ => c_run_info B c st = (Ok 0%Z, st) \/ c_run_info B c st = (Throw, st)
  end.
Proof.
  intros hB hl hr.
  assert (main : forall l, forallb is_edit l = true -> run_ops B l st = (Ok tt, st) \/ run_ops B l st = (Throw, st)).
  { induction l as [|o l ih]; intros h; [left; reflexivity|]. cbn [forallb] in h. apply andb_prop in h as [ho h]. cbn [run_ops]. destruct (run B o st) as [x st'] eqn:e.
    destruct (edits_refused B st o x st' hB hl hr ho e) as [-> [-> |[-> _]]]; [right; reflexivity|]. exact (ih h). }
  assert (ms : forall s, run_script B [] s st = (Ok tt, st) \/ run_script B [] s st = (Throw, st)).
  { intros s. apply main. apply forallb_forall. intros o h. apply in_map_iff in h as (p & <- & _). apply op_at_edit. }
  assert (mi : forall i, run_info B i st = (Ok tt, st) \/ run_info B i st = (Throw, st)) by (intros i; apply ms).
  assert (mg : forall i, exists r, guarded (run_info B i st) = (Ok r, st) /\ (r = 0 \/ r = BAD_VALUE)%Z) by (intros i; destruct (mi i) as [-> | ->]; cbn [guarded]; eauto).
  assert (mu : forall i, unguarded (run_info B i st) = (Ok 0%Z, st) \/ unguarded (run_info B i st) = (Throw, st)) by (intros i; destruct (mi i) as [-> | ->]; cbn [unguarded failed]; auto).
  destruct c; cbn [c_run_info]; auto.
Qed.
Print Assumptions C87_bad_id_refuted.
Print Assumptions C87_readonly.
Theorem C87_readonly_refuted : readonly tb_reader = true /\ fst (c_run_info tb_reader (CIExpiry 60) (start tb_reader)) = Throw /\ fst (c_run_info tb_reader CIDestroy (start tb_reader)) = Throw /\
  fst (c_run_info tb_reader (CIName (b "x")) (start tb_reader)) = Ok BAD_VALUE /\
  exists k, fst (c_members_set tb_reader (b "05" ++ repeat "a"%char 64) k (start tb_reader)) = Throw.
Proof.
  split; [reflexivity|]. split; [vm_compute; reflexivity|]. split; [vm_compute; reflexivity|]. split; [vm_compute; reflexivity|].
  exists (mkCM (b "Bob" ++ repeat Ascii.zero 98) (repeat Ascii.zero 224) (repeat Ascii.zero 32) false 0 0 0 false). vm_compute. reflexivity.
Qed.
Print Assumptions C87_readonly_refuted.

(** *** merging *)
(** When no message of a batch is usable (no key opens it, it does not decompress, it is refused as a config message), config_merge returns an
    empty list if the config holds anything, and *)
Theorem C87_merge_unusable_partial B junk base l st : benv_ok B -> life B tame st -> malloc_ok junk -> fits_at base (list_bytes []) ->
  (s_seqno st + e_lag (b_env B) <= 2 ^ 63 - 1)%Z -> s_keys st <> [] -> Forall (unusable B st) l -> (s_seqno st <> 0%Z \/ is_dirty st = true) ->
  exists blk st', c_config_merge B junk base l st = (Ok blk, st') /\ c_read_list base blk = Ok [].
Proof.
  intros hB hl hj hb hs hk hu hn.
  assert (hu2 : Forall (unusable B st) (map (fun p => (c_str (fst p), snd p)) l)).
  { apply Forall_map. eapply Forall_impl; [|exact hu]. intros [h c] g. unfold unusable, unwrap1 in *. cbn [fst snd] in *. destruct (s_keys st) as [|k ks]; [exact g|]. destruct (b_proto B); [|exact g]. destruct (b_unwrap B k c); exact g. }
  destruct (merge_unusable B _ st hB (life_inv1 _ _ hB hl) hs hk hu2) as [st' e].
  assert (hz : (s_seqno st =? 0)%Z && negb (is_dirty st) = false) by (destruct hn as [hn|hn]; [apply Z.eqb_neq in hn; rewrite hn; reflexivity|rewrite hn; apply andb_false_r]).
  rewrite hz in e. destruct (C81_config_merge B junk base l st [] st' hj hb e) as (blk & e1 & _ & e2 & _). eauto.
Qed.
(** lets an exception out if the config is still new, even if the batch is empty. *)
Theorem C87_merge_new_refuted B junk base keys l : benv_ok B -> keys <> [] -> (e_lag (b_env B) <= 2 ^ 63 - 1)%Z -> Forall (unusable B (fresh B keys)) l ->
  escapes (fst (c_config_merge B junk base l (fresh B keys))).
Proof.
  intros hB hk hl hu. 
  assert (hu2 : Forall (unusable B (fresh B keys)) (map (fun p => (c_str (fst p), snd p)) l)).
  { apply Forall_map. eapply Forall_impl; [|exact hu]. intros [h c] g. unfold unusable, unwrap1 in *. cbn [fst snd] in *. destruct (s_keys (fresh B keys)) as [|k ks]; [exact g|]. destruct (b_proto B); [|exact g]. destruct (b_unwrap B k c); exact g. }
  destruct (merge_unusable B _ (fresh B keys) hB (life_inv1 _ _ hB (life_fresh _ _ _)) ltac:(exact hl) hk hu2) as [st' e].
  unfold c_config_merge. rewrite e. left. reflexivity.
Qed.
(** So does a message that somebody with the key sealed around something that is not a config message. *)
Theorem C87_merge_poison_refuted : escapes (fst (c_config_merge tb (fun n => repeat NUL n) 4096 [(b "h", sealed (b "x"))] (after tb (set_name "y") (start tb)))).
Proof. right. vm_compute. reflexivity. Qed.
Print Assumptions C87_merge_unusable_partial.
Print Assumptions C87_merge_new_refuted.
Print Assumptions C87_merge_poison_refuted.

(** *** pushing *)
(** config_push comes back exactly if there is a key and the message, compressed if that makes it shorter, has at most 76760 bytes (types that
    are not wrapped in a protobuf). *)
Theorem C87_push_partial B st k ks s c : benv_ok B -> aead_ok (b_aead B) -> domain_ok (b_domain B) -> b_proto B = false -> s_keys st = k :: ks -> length k = 32 ->
  serialize (b_env B) (s_conf st) true = Ok (s, c) -> let m := compress_message (b_zstd B) (b_level B) s in (N.of_nat (length m) < 2 ^ 63)%N ->
  if (N.of_nat (length m) <=? 76760)%N then exists data obs st', push B st = (Ok (s_seqno st, data, obs), st') else fst (push B st) = Throw.
Proof.
  intros hB hA hd hp hk hk32 hs m hm. unfold push. rewrite hk, hs. cbv zeta. fold m. unfold encrypt. rewrite make_key_ok by assumption. cbn [bind]. rewrite hp.
  set (p := pad_message m OVERHEAD).
  assert (hlen : N.of_nat (length (a_seal (b_aead B) (a_hash32 (b_aead B) (kdf_input k (N.of_nat (length p)) (b_domain B))) (a_nonce (b_aead B) (NONCE_KEY_PREFIX ++ b_domain B) p) p ++ a_nonce (b_aead B) (NONCE_KEY_PREFIX ++ b_domain B) p)) = (padded_size (N.of_nat (length m)) 40 + 40)%N).
  { rewrite app_length, (ao_len _ hA), (ao_nonce _ hA). destruct (C35_pads m 40) as [_ e]; [lia|]. unfold p, OVERHEAD. lia. }
  rewrite hlen. unfold MAX_MESSAGE_SIZE. destruct (N.of_nat (length m) <=? 76760)%N eqn:e.
  - apply N.leb_le in e. pose proof (C35_monotone (N.of_nat (length m)) 76760 40 ltac:(lia) e) as h. assert (h2 : padded_size 76760 40 = 76760%N) by (vm_compute; reflexivity). rewrite h2 in h.
    replace (76800 <? padded_size (N.of_nat (length m)) 40 + 40)%N with false by (symmetry; apply N.ltb_ge; lia).
    unfold set_state. cbn match. destruct (is_dirty (set_conf c st)); eauto 6.
  - apply N.leb_gt in e. destruct (C35_bucket (N.of_nat (length m)) 40) as [[h _] _]; [lia|].
    replace (76800 <? padded_size (N.of_nat (length m)) 40 + 40)%N with true by (symmetry; apply N.ltb_lt; lia). reflexivity.
Qed.
Theorem C87_push_no_keys_refuted B junk base : fst (c_config_push B junk base (fresh B [])) = Throw.
Proof. reflexivity. Qed.
Print Assumptions C87_push_partial.
Print Assumptions C87_push_no_keys_refuted.

(** *** onion requests and subaccounts *)
(** The setters of the builder come back exactly if the 64 characters they read are hex digits; *)
Definition key_arg (p : bytes) : bool := is_hex (firstn 64 p).
Theorem C87_onion_partial ed pk host target proto port x : 64 <= length ed -> 64 <= length pk ->
  (if key_arg ed && key_arg pk then exists y, c_set_snode ed pk x = Ok y else c_set_snode ed pk x = Throw) /\
  (if key_arg ed && key_arg pk then exists y, c_add_hop ed pk x = Ok y else c_add_hop ed pk x = Throw) /\
  (if key_arg pk then exists y, c_set_server host target proto port pk x = Ok y else c_set_server host target proto port pk x = Throw).
Proof.
  intros h1 h2.
  assert (main : forall p, 64 <= length p -> if key_arg p then exists k, hex_arg p = Ok k else hex_arg p = Throw).
  { intros p h. unfold hex_arg. replace (Nat.leb 64 (length p)) with true by (symmetry; apply Nat.leb_le; exact h). unfold Onion.key_from_hex, key_arg.
    rewrite firstn_length_le by exact h. rewrite Nat.eqb_refl, andb_true_r. destruct (is_hex (firstn 64 p)) eqn:e; [|reflexivity]. unfold is_hex in e. destruct (from_hex (firstn 64 p)); [cbn [of_opt]; eauto|discriminate]. }
  pose proof (main ed h1) as g1. pose proof (main pk h2) as g2. unfold c_set_snode, c_add_hop, c_set_server.
  destruct (key_arg ed); [destruct g1 as [e1 g1]|]; (destruct (key_arg pk); [destruct g2 as [e2 g2]|]); cbn [andb]; rewrite ?g1, ?g2; cbn [bind]; (split; [|split]); eauto.
Qed.
(** they read 64 characters even of a shorter string; an encryption type that does not exist throws. *)
Theorem C87_onion_refuted ed pk x : (length ed < 64 -> c_add_hop ed pk x = UB) /\ c_set_enc_type 2 x = Throw /\ c_add_hop (repeat "g"%char 64) pk x = Throw.
Proof.
  split; [|split; reflexivity]. intros h. unfold c_add_hop, hex_arg. replace (Nat.leb 64 (length ed)) with false by (symmetry; apply Nat.leb_gt; exact h). reflexivity.
Qed.
(** Of the two functions that check a subaccount the one with flags catches everything, the other lets the exception out for a bad group id. *)
Theorem C87_subaccount C gid sk v write del : c_verify_subaccount_flags C gid sk v write del <> Throw /\ c_verify_subaccount_flags C gid sk v write del <> Err.
Proof. unfold c_verify_subaccount_flags. split; destruct (verify_subaccount C gid sk v write del); discriminate. Qed.
Theorem C87_subaccount_refuted C gid sk v : session_id_ok gid (b "03") = false -> c_verify_subaccount C gid sk v = Throw.
Proof. intros h. unfold c_verify_subaccount, verify_subaccount, session_id_pk. rewrite h. reflexivity. Qed.
Print Assumptions C87_onion_partial.
Print Assumptions C87_onion_refuted.
Print Assumptions C87_subaccount.
Print Assumptions C87_subaccount_refuted.
(** *** non-vacuity: a writable config, an id, a read-only one, a batch that is not usable, a config that can be pushed *)
Example ex_C87 : writable tb (start tb) /\ session_id_ok (b "05" ++ repeat "a"%char 64) (b "05") = true /\ readonly tb_reader = true /\ benv_ok tb_reader /\
  life tb_reader tame (start tb_reader) /\ Forall (unusable tb (start tb)) [(b "h", b "rubbish"); (b "g", sealed (b "dx"))] /\ s_keys (start tb) <> [] /\
  room_valid (b "https://example.org") (b "Room") = true /\ aead_ok (b_aead tb) /\ domain_ok (b_domain tb) /\ b_proto tb = false /\
  exists s c, serialize (b_env tb) (s_conf (after tb (set_name "x") (start tb))) true = Ok (s, c) /\ (length s < 100) /\ fst (push tb (after tb (set_name "x") (start tb))) <> Throw.
Proof.
  split; [split; [exact tb_ok|]; split; [discriminate|]; split; [apply life_fresh|]; split; [reflexivity|]; vm_compute; reflexivity|].
  split; [vm_compute; reflexivity|]. split; [reflexivity|]. split; [exact tb_reader_ok|]. split; [apply life_fresh|]. split; [constructor; [vm_compute; exact I|constructor; [vm_compute; reflexivity|constructor]]|]. split; [discriminate|].
  split; [vm_compute; reflexivity|]. split; [exact toy_aead_ok|]. split; [unfold domain_ok; cbn; lia|]. split; [reflexivity|].
  eexists. eexists. split; [vm_compute; reflexivity|]. split; [apply Nat.ltb_lt; vm_compute; reflexivity|]. vm_compute. discriminate.
Qed.

(** ** C88 *)
(** What a C caller sees of the user profile ([o]: the memory the picture is returned in), and how each call is meant to change it. *)
Record cprofile := mkCPr { vp_name : option bytes; vp_pic : option (bytes * bytes); vp_priority : Z; vp_expiry : Z; vp_blinded : Z }.
Definition c_see_profile (st : bstate) (o : c_pic) : outcome cprofile :=
  p <- c_profile_pic st o ;; Ok (mkCPr (c_profile_name st) (read_pic p) (c_profile_priority st) (c_profile_expiry st) (c_profile_blinded st)).
Definition a_string (s : bytes) : option bytes := match c_str s with [] => None | t => Some t end.
Definition a_pic (p : c_pic) : option (bytes * bytes) := match c_str (cp_url p) with [] => None | t => Some (t, cp_key p) end.
Definition c_after_profile (v : cprofile) (c : c_profile_cmd) : cprofile :=
  match v with
  | mkCPr n p pr e bl =>
    match c with
    | CPName s => mkCPr (a_string s) p pr e bl
    | CPPic x => mkCPr n (a_pic x) pr e bl
    | CPPriority z => mkCPr n p z e bl
    | CPExpiry z => mkCPr n p pr (Z.max 0 z) bl
    | CPBlinded z => mkCPr n p pr e (if (z <? 0)%Z then -1 else if (z =? 0)%Z then 0 else 1)
    end
  end.
(** arguments a C caller can pass: ints, and structs with a terminated url *)
Definition c_pic_ok (p : c_pic) : Prop := length (cp_url p) = 224 /\ In Ascii.zero (cp_url p) /\ length (cp_key p) = 32.
Definition c_profile_arg (c : c_profile_cmd) : Prop := match c with CPPic p => c_pic_ok p | CPPriority z | CPExpiry z | CPBlinded z => int32_ok z | CPName _ => True end.
(** the calls one after the other, each of which returned 0 *)
Fixpoint c_run_all {C} (f : C -> bstate -> call Z) (l : list C) (st : bstate) : call unit :=
  match l with [] => (Ok tt, st) | c :: r => match f c st with (Ok z, st1) => if (z =? 0)%Z then c_run_all f r st1 else (Err, st1) | (x, st1) => (failed x, st1) end end.
Definition profile_conv (c : c_profile_cmd) : profile_cmd :=
  match c with
  | CPName s => PName (c_str s) | CPPic p => PPic (pic_of_c p) | CPPriority z => PPriority z | CPExpiry z => PExpiry (Z.max 0 z)
  | CPBlinded z => PBlinded (if (z <? 0)%Z then None else Some (to_bool z))
  end.
Lemma run_profiles_total B l : forall st, editable B st -> exists st', c_run_all (c_run_profile B) l st = (Ok tt, st') /\ run_profiles B (map profile_conv l) st = (Ok tt, st').
Proof.
  induction l as [|c l ih]; intros st h; [exists st; split; reflexivity|]. cbn [c_run_all map run_profiles].
  assert (e : exists st1, run_profile B (profile_conv c) st = (Ok tt, st1) /\ editable B st1) by (apply run_script_total; exact h). destruct e as (st1 & e & h1). rewrite e.
  replace (c_run_profile B c st) with (Ok 0%Z, st1); [apply ih; exact h1|]. destruct c; cbn [c_run_profile]; cbn [profile_conv] in e; rewrite e; reflexivity.
Qed.
Lemma url_fits p : c_pic_ok p -> fits 224 (c_str (cp_url p)) = true.
Proof.
  intros (h1 & h2 & _). apply Nat.ltb_lt. rewrite <- h1. clear h1. induction (cp_url p) as [|c r ih]; [destruct h2|]. cbn [c_str length].
  destruct (Ascii.eqb c Ascii.zero) eqn:e; [cbn [length]; lia|]. cbn [length]. destruct h2 as [-> |h2]; [rewrite Ascii.eqb_refl in e; discriminate|]. specialize (ih h2). unfold bytes in *. lia.
Qed.
Lemma pic_view o x : c_pic_ok x -> exists q, c_get_pic (kept_pic (pic_of_c x)) o = Ok q /\ read_pic q = a_pic x.
Proof.
  intros hx. pose proof (url_fits x hx) as hf. destruct hx as (_ & _ & hk). unfold kept_pic, pic_of_c, a_pic. pose proof (nonul_c_str (cp_url x)) as hn.
  destruct (c_str (cp_url x)) as [|u us] eqn:e; cbn [is_nil].
  - cbn [pic_set pic_url is_nil negb andb]. eexists. split; [reflexivity|]. reflexivity.
  - assert (hs : pic_set (mkPic (u :: us) (cp_key x)) = true) by (unfold pic_set; cbn [pic_url pic_key is_nil negb andb]; rewrite hk; reflexivity).
    rewrite hs. unfold c_get_pic. rewrite hs. cbn [pic_url pic_key]. rewrite hf. eexists. split; [reflexivity|]. unfold read_pic. cbn [cp_url cp_key]. rewrite c_str_copy by assumption. reflexivity.
Qed.
Lemma str_view s : option_map c_str (nonempty (c_str s)) = a_string s.
Proof. unfold a_string, nonempty. destruct (c_str s) as [|u us] eqn:e; [reflexivity|]. cbn [option_map]. rewrite <- e, c_str_fix. reflexivity. Qed.
Lemma int32_id z : int32_ok z -> to_int32 z = z.
Proof. unfold int32_ok, to_int32. intros h. rewrite Z.mod_small; lia. Qed.
Lemma positive_view z : int32_ok z -> to_int32 (or_else (if_positive (Z.max 0 z)) 0%Z) = Z.max 0 z.
Proof.
  intros h. unfold if_positive. destruct (0 <? Z.max 0 z)%Z eqn:e; cbn [or_else].
  - apply int32_id. unfold int32_ok in *. lia.
  - apply Z.ltb_ge in e. replace (Z.max 0 z) with 0%Z by lia. reflexivity.
Qed.
Definition view_profile (p : profile) (o : c_pic) : outcome cprofile :=
  q <- c_get_pic (pf_pic p) o ;; Ok (mkCPr (option_map c_str (pf_name p)) (read_pic q) (pf_priority p) (to_int32 (or_else (pf_expiry p) 0%Z)) (match pf_blinded p with Some true => 1 | Some false => 0 | None => -1 end)%Z).
Lemma view_profile_step c p o v : c_profile_arg c -> view_profile p o = Ok v -> view_profile (after_profile (profile_conv c) p) o = Ok (c_after_profile v c).
Proof.
  intros ha h. destruct p as [n pc pr ex bl]. unfold view_profile in h. cbn [pf_pic pf_name pf_priority pf_expiry pf_blinded] in h. destruct (c_get_pic pc o) as [q| | | |] eqn:eq; try discriminate. cbn [bind] in h.
  match type of h with Ok ?t = Ok _ => assert (ev : v = t) by congruence end. subst v. clear h.
  destruct c as [s|x|z|z|z]; cbn [profile_conv after_profile c_after_profile c_profile_arg] in *; unfold view_profile; cbn [pf_pic pf_name pf_priority pf_expiry pf_blinded].
  - rewrite eq. cbn [bind]. rewrite str_view. reflexivity.
  - destruct (pic_view o x ha) as (q2 & e1 & e2). rewrite e1. cbn [bind]. rewrite e2. reflexivity.
  - rewrite eq. reflexivity.
  - rewrite eq. cbn [bind]. rewrite positive_view by exact ha. reflexivity.
  - rewrite eq. cbn [bind]. unfold to_bool. destruct (z <? 0)%Z; [reflexivity|]. destruct (z =? 0)%Z; reflexivity.
Qed.
(** Calling the setters on a writable config always succeeds, and the getters then return what was set last: names up to their first NUL and
    only if not empty, pictures with their key, timers not below 0, the flag as -1, 0 or 1; what was not set is as it was. *)
Theorem C88_profile_partial B st o l v : writable B st -> Forall c_profile_arg l -> c_see_profile st o = Ok v ->
  exists st', c_run_all (c_run_profile B) l st = (Ok tt, st') /\ c_see_profile st' o = Ok (fold_left c_after_profile l v).
Proof.
  intros hw ha hv. destruct (run_profiles_total B l st (writable_editable B st hw)) as (st' & e1 & e2). exists st'. split; [exact e1|].
  destruct hw as (hB & _ & hl & _ & _).
  assert (hf : Forall profile_cmd_fits (map profile_conv l)).
  { apply Forall_map. eapply Forall_impl; [|exact ha]. intros c hc. destruct c; cbn [profile_conv profile_cmd_fits c_profile_arg] in *; auto. unfold int32_ok in hc. unfold int64_ok, int64_min, int64_max. apply andb_true_iff. split; apply Z.leb_le; lia. }
  pose proof (profile_cmds_spec B _ st st' (life_usable _ _ hB hl) hf e2) as e3.
  change (c_see_profile st' o) with (view_profile (see_profile st') o). change (c_see_profile st o) with (view_profile (see_profile st) o) in hv. rewrite e3. clear - ha hv.
  revert v hv. generalize (see_profile st). induction l as [|c l ih]; intros p v hv; [exact hv|]. cbn [map fold_left]. inversion ha as [|x y h1 h2]; subst. apply ih; [exact h2|]. apply view_profile_step; assumption.
Qed.
Print Assumptions C88_profile_partial.

(** The same for the group info. *)
Record cinfo := mkCIn { vi_name : option bytes; vi_desc : option bytes; vi_pic : option (bytes * bytes); vi_expiry : Z; vi_created : Z; vi_before : Z; vi_attach : Z; vi_destroyed : bool }.
Definition c_see_info (st : bstate) (o : c_pic) : outcome cinfo :=
  p <- c_info_pic st o ;; Ok (mkCIn (c_info_name st) (c_info_desc st) (read_pic p) (c_info_expiry st) (c_info_created st) (c_info_before st) (c_info_attach st) (is_destroyed st)).
Definition a_cut_string (n : nat) (s : bytes) : option bytes := match firstn n (c_str s) with [] => None | t => Some t end.
Definition c_after_info (v : cinfo) (c : c_info_cmd) : cinfo :=
  match v with
  | mkCIn n d p e cr be at_ de =>
    match c with
    | CIName s => mkCIn (a_cut_string 100 s) d p e cr be at_ de
    | CIDesc s => mkCIn n (a_cut_string 2000 s) p e cr be at_ de
    | CIPic x => mkCIn n d (a_pic x) e cr be at_ de
    | CIExpiry z => mkCIn n d p (Z.max 0 z) cr be at_ de
    | CICreated z => mkCIn n d p e (Z.max 0 z) be at_ de
    | CIDeleteBefore z => mkCIn n d p e cr (Z.max 0 z) at_ de
    | CIDeleteAttach z => mkCIn n d p e cr be (Z.max 0 z) de
    | CIDestroy => mkCIn n d p e cr be at_ true
    end
  end.
Definition c_info_arg (c : c_info_cmd) : Prop :=
  match c with CIPic p => c_pic_ok p | CIExpiry z => int32_ok z | CICreated z | CIDeleteBefore z | CIDeleteAttach z => int64_ok z = true | _ => True end.
Definition info_conv (c : c_info_cmd) : info_cmd :=
  match c with
  | CIName s => IName (c_str s) | CIDesc s => IDesc (c_str s) | CIPic p => IPic (pic_of_c p) | CIExpiry z => IExpiry (Z.max 0 z) | CICreated z => ICreated (Z.max 0 z)
  | CIDeleteBefore z => IDeleteBefore (Z.max 0 z) | CIDeleteAttach z => IDeleteAttach (Z.max 0 z) | CIDestroy => IDestroy
  end.
Lemma run_infos_total B l : forall st, editable B st -> exists st', c_run_all (c_run_info B) l st = (Ok tt, st') /\ run_infos B (map info_conv l) st = (Ok tt, st').
Proof.
  induction l as [|c l ih]; intros st h; [exists st; split; reflexivity|]. cbn [c_run_all map run_infos].
  assert (e : exists st1, run_info B (info_conv c) st = (Ok tt, st1) /\ editable B st1) by (apply run_script_total; exact h). destruct e as (st1 & e & h1). rewrite e.
  replace (c_run_info B c st) with (Ok 0%Z, st1); [apply ih; exact h1|]. destruct c; cbn [c_run_info]; cbn [info_conv] in e; rewrite e; reflexivity.
Qed.
Definition view_info (i : ginfo) (o : c_pic) : outcome cinfo :=
  q <- c_get_pic (gi_pic i) o ;;
  Ok (mkCIn (option_map c_str (gi_name i)) (option_map c_str (gi_desc i)) (read_pic q) (match gi_expiry i with Some t => if (0 <? t)%Z then to_int32 t else 0%Z | None => 0%Z end)
        (or_else (gi_created i) 0%Z) (or_else (gi_before i) 0%Z) (or_else (gi_attach i) 0%Z) (gi_destroyed i)).
Lemma cut_view n s : option_map c_str (nonempty (firstn n (c_str s))) = a_cut_string n s.
Proof.
  unfold a_cut_string, nonempty. pose proof (nonul_firstn n (c_str s) (nonul_c_str s)) as hn. destruct (firstn n (c_str s)) as [|u us] eqn:e; [reflexivity|]. cbn [option_map]. rewrite c_str_nonul by exact hn. reflexivity.
Qed.
Lemma or_view z : or_else (if_positive (Z.max 0 z)) 0%Z = Z.max 0 z.
Proof. unfold if_positive. destruct (0 <? Z.max 0 z)%Z eqn:e; cbn [or_else]; [reflexivity|]. apply Z.ltb_ge in e. lia. Qed.
Lemma view_info_step c i o v : c_info_arg c -> view_info i o = Ok v -> view_info (after_info (info_conv c) i) o = Ok (c_after_info v c).
Proof.
  intros ha h. destruct i as [n d pc ex cr be at_ de]. unfold view_info in h. cbn [gi_pic gi_name gi_desc gi_expiry gi_created gi_before gi_attach gi_destroyed] in h.
  destruct (c_get_pic pc o) as [q| | | |] eqn:eq; try discriminate. cbn [bind] in h. match type of h with Ok ?t = Ok _ => assert (ev : v = t) by congruence end. subst v. clear h.
  destruct c as [s|s|x|z|z|z|z|]; cbn [info_conv after_info c_after_info c_info_arg] in *; unfold view_info; cbn [gi_pic gi_name gi_desc gi_expiry gi_created gi_before gi_attach gi_destroyed];
    try (rewrite eq; cbn [bind]).
  - rewrite cut_view. reflexivity.
  - rewrite cut_view. reflexivity.
  - destruct (pic_view o x ha) as (q2 & e1 & e2). rewrite e1. cbn [bind]. rewrite e2. reflexivity.
  - do 2 f_equal. pose proof (positive_view z ha) as e. unfold if_positive in *. destruct (0 <? Z.max 0 z)%Z eqn:e0; cbn [or_else] in e; [rewrite e0; exact e|]. exact e.
  - rewrite or_view. reflexivity.
  - rewrite or_view. reflexivity.
  - rewrite or_view. reflexivity.
  - reflexivity.
Qed.
Theorem C88_info_partial B st o l v : writable B st -> Forall c_info_arg l -> c_see_info st o = Ok v ->
  exists st', c_run_all (c_run_info B) l st = (Ok tt, st') /\ c_see_info st' o = Ok (fold_left c_after_info l v).
Proof.
  intros hw ha hv. destruct (run_infos_total B l st (writable_editable B st hw)) as (st' & e1 & e2). exists st'. split; [exact e1|].
  destruct hw as (hB & _ & hl & _ & _).
  assert (hf : Forall info_cmd_fits (map info_conv l)).
  { apply Forall_map. eapply Forall_impl; [|exact ha]. intros c hc. destruct c; cbn [info_conv info_cmd_fits c_info_arg] in *; auto; unfold int32_ok, int64_ok, int64_min, int64_max in *; try apply andb_true_iff in hc as [hc1 hc2];
      try apply Z.leb_le in hc1; try apply Z.leb_le in hc2; apply andb_true_iff; split; apply Z.leb_le; lia. }
  pose proof (info_cmds_spec B _ st st' (life_usable _ _ hB hl) hf e2) as e3.
  change (c_see_info st' o) with (view_info (see_info st') o). change (c_see_info st o) with (view_info (see_info st) o) in hv. rewrite e3. clear - ha hv.
  revert v hv. generalize (see_info st). induction l as [|c l ih]; intros p v hv; [exact hv|]. cbn [map fold_left]. inversion ha as [|x y h1 h2]; subst. apply ih; [exact h2|]. apply view_info_step; assumption.
Qed.
Print Assumptions C88_info_partial.
(** The getters for the picture are defined only if the url fits: one of 224 bytes or more, which the C++ setters (and other clients) accept, is
    written past the end of the struct; *)
Theorem C88_long_url_refuted : exists B st st', writable B st /\ run_profile B (PPic (mkPic (repeat "u"%char 224) (repeat "k"%char 32))) st = (Ok tt, st') /\ forall o, c_see_profile st' o = UB.
Proof.
  exists tb, (start tb), (snd (run_profile tb (PPic (mkPic (repeat "u"%char 224) (repeat "k"%char 32))) (start tb))).
  split; [exact (proj1 ex_C87)|]. split; [vm_compute; reflexivity|]. intros o. unfold c_see_profile, c_profile_pic. vm_compute. reflexivity.
Qed.
(** and a timer of 2^31 seconds or more set through C++ reads as a negative number. *)
Theorem C88_long_timer_refuted : exists B st st', writable B st /\ run_profile B (PExpiry (2 ^ 31)) st = (Ok tt, st') /\ get_nts_expiry st' = Some (2 ^ 31)%Z /\ (c_profile_expiry st' < 0)%Z.
Proof.
  exists tb, (start tb), (snd (run_profile tb (PExpiry (2 ^ 31)) (start tb))). split; [exact (proj1 ex_C87)|]. split; [vm_compute; reflexivity|]. split; [vm_compute; reflexivity|]. vm_compute. reflexivity.
Qed.
Print Assumptions C88_long_url_refuted.
Print Assumptions C88_long_timer_refuted.
Example ex_C88 : exists v, writable tb (start tb) /\ c_see_profile (start tb) (mkCP (repeat "j"%char 224) (repeat "j"%char 32)) = Ok v /\
  Forall c_profile_arg [CPName (b "Ann" ++ [Ascii.zero; "x"%char]); CPPic (mkCP (b "http://x" ++ repeat Ascii.zero 216) (repeat "k"%char 32)); CPExpiry (-5); CPBlinded 3] /\
  fold_left c_after_profile [CPName (b "Ann" ++ [Ascii.zero; "x"%char]); CPPic (mkCP (b "http://x" ++ repeat Ascii.zero 216) (repeat "k"%char 32)); CPExpiry (-5); CPBlinded 3] v =
    mkCPr (Some (b "Ann")) (Some (b "http://x", repeat "k"%char 32)) 0 0 1.
Proof.
  eexists. split; [exact (proj1 ex_C87)|]. split; [vm_compute; reflexivity|]. split; [|vm_compute; reflexivity].
  constructor; [exact I|]. constructor; [split; [reflexivity|]; split; [right; right; right; right; right; right; right; right; left; reflexivity|reflexivity]|].
  constructor; [unfold c_profile_arg, int32_ok; lia|]. constructor; [unfold c_profile_arg, int32_ok; lia|constructor].
Qed.
