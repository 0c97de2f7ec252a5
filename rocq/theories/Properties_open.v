(** C93: making config objects from an account's or a group's keys and a dump.  Statements; proofs are in Open_facts.v, the vocabulary
    in OpenSpec.v. *)
From Verif Require Import OpenSpec Spec Sig GroupKeys CStruct COut Open_facts Message_facts Life_facts Conf_facts Conf2_facts Conf3_facts Plain_facts Overflow_facts
  SessEnc_facts Properties_sig Toy ToyCrypt ToyBase ToyKeys Properties_base Properties_sync Properties_converge.
From Verif Require Properties_keys.
From Coq Require Import Lia.

(** ** C93: a user's configs *)
(** The account's 64-byte secret key or its 32-byte seed is needed, and both make the same object; its one key is the seed. *)
Theorem C93_new B sk st : open_user B sk None = Ok st <->
  (length sk = 32 \/ length sk = 64) /\ s_keys st = [firstn 32 sk] /\ s_data st = [] /\ s_seqno st = 0%Z /\ needs_push st = false /\ s_needs_dump st = false /\ current_hashes st = [] /\ s_old st = [] /\
  s_conf st = Plain (empty_msg (b_env B)).
Proof.
  rewrite open_user_spec. split.
  - intros [h ->]. repeat split; try reflexivity. exact h.
  - intros (h & h1 & _ & _ & h2 & h3 & h4 & h5 & h6). split; [exact h|]. destruct st as [c s u o n k]. cbn [s_conf s_state s_curr s_old s_needs_dump s_keys] in *. subst. unfold fresh. f_equal.
    + unfold needs_push, is_clean in h2. cbn [s_state] in h2. destruct s; [reflexivity|discriminate|discriminate].
    + unfold current_hashes in h4. cbn [s_curr] in h4. destruct u; [reflexivity|discriminate].
Qed.
Theorem C93_seed_or_secret B sk d st : length sk = 64 -> open_user B sk d = Ok st <-> open_user B (firstn 32 sk) d = Ok st.
Proof.
  intros h. rewrite !open_user_spec. assert (e : length (firstn 32 sk) = 32) by (apply key32; auto). rewrite e. rewrite (firstn_all2 (firstn 32 sk)) by (unfold bytes in *; lia). tauto.
Qed.
(** What was dumped is back in the new object, with the account's key. *)
Theorem C93_reopen B st d st1 sk : benv_ok B -> life B tame st -> dump B st = (Ok d, st1) -> (N.of_nat (length d) < 2 ^ 64)%N -> length sk = 32 \/ length sk = 64 ->
  (s_state st = Dirty -> s_seqno st + e_lag (b_env B) < 2 ^ 63)%Z ->
  exists st', open_user B sk (Some d) = Ok st' /\ s_data st' = fst (prune (s_data st)) /\ needs_push st' = needs_push st /\ current_hashes st' = current_hashes st /\
    s_keys st' = [firstn 32 sk] /\ s_seqno st' = (s_seqno st + (if is_dirty st then 1 else 0))%Z.
Proof.
  intros hB hl hd hn hk hs. destruct (C28_restore_succeeds B st d st1 [firstn 32 sk] hB hl hd hn hs) as [st' h]. exists st'.
  destruct (C28_same B st d st1 [firstn 32 sk] st' hB hl hd hn h) as (h1 & h2 & h3 & h4 & _ & _ & h5).
  split; [apply open_user_spec; auto|]. split; [exact h1|]. unfold needs_push, is_clean, current_hashes. rewrite h2, h3. auto.
Qed.
(** Any bytes at all can be given as the dump: the constructor returns or throws, if the message in it is not one of those that a
    merge could not handle either (C21, C22). *)
Theorem C93_any_dump_partial B sk d : (1 <= e_lag (b_env B))%Z ->
  (forall data, field_in d (b "$") (BStr data) ->
    (forall x, field_in data (b "=") (BDict x) -> stray_int (BDict x) = false) /\
    (forall l, field_in data (b "<") (BList l) -> forall e, In e l -> stray_lag e = false) /\
    (forall z, seqno_field data z -> (- 2 ^ 63 + e_lag (b_env B) <= z)%Z /\ (z + e_lag (b_env B) < 2 ^ 63)%Z)) ->
  returned (open_user B sk (Some d)).
Proof. exact (open_user_returned B sk d). Qed.
Definition endless : bytes := b "d1:!i0e1:$29:d1:#i1e1:&de1:<le1:=d1:ai1eee1:(0:1:)lee".
Theorem C93_dump_hangs_refuted : ~ (forall B sk d, benv_ok B -> returned (open_user B sk (Some d))).
Proof. intros h. destruct (h tb (repeat NUL 32) endless tb_ok) as [_ g]. apply g. vm_compute. reflexivity. Qed.
Definition last_seqno : bytes := b "d1:!i1e1:$41:d1:#i9223372036854775807e1:&de1:<le1:=dee1:(0:1:)lee".
Theorem C93_dump_overflow_refuted : ~ (forall B sk d, benv_ok B -> open_user B sk (Some d) <> UB).
Proof. intros h. apply (h tb (repeat NUL 32) last_seqno tb_ok). vm_compute. reflexivity. Qed.
Print Assumptions C93_new.
Print Assumptions C93_seed_or_secret.
Print Assumptions C93_reopen.
Print Assumptions C93_any_dump_partial.
Print Assumptions C93_dump_hangs_refuted.
Print Assumptions C93_dump_overflow_refuted.

(** ** C93: the devices of an account *)
(** A device of the account always has exactly the account's key, whichever form of it was used, and however often it was restarted; and its
    history is one all other theorems speak of. *)
Theorem C93_device R B seed st : device R B seed st -> s_keys st = [seed] /\ life B R st.
Proof. intros h. apply device_life in h. tauto. Qed.
(** So any number of devices of an account, each with its own edits, are brought together by one exchange of their messages (C91), without any
    assumption about keys. *)
Theorem C93_account_converges {I : Type} (B : I -> benv) st seed c st1 l : account B st seed -> (exists i, 0 < s_seqno (st i))%Z -> all_push B st c st1 -> fetched st c l ->
  forall i, exists hs st2, merge (B i) (l i) (st1 i) = (Ok hs, st2) /\ forall j, exists hs' st2', merge (B j) (l j) (st1 j) = (Ok hs', st2') /\ agree (B i) st2 (B j) st2'.
Proof. intros h1 h2 h3 h4. exact (group_exchange B st c st1 l (account_group B st seed h1) h2 h3 (account_fetch B st seed c st1 l h1 h3 h4)). Qed.
Print Assumptions C93_device.
Print Assumptions C93_account_converges.

(** ** C93: group configs *)
(** The info and member configs of a group are made from its 32-byte public key and, for administrators, the 64-byte secret key that ends with it; a
    dump is read as in a user's config.  They have no encryption keys yet. *)
Theorem C93_group B pk sk d s st : open_group B pk sk d = Ok (s, st) <->
  length pk = 32 /\ match sk with None => s = sig_run [SigPublic pk] no_sigs | Some k => length k = 64 /\ skipn 32 k = pk /\ s = sig_run [SigSecret k] no_sigs end /\
  match d with None => st = fresh B [] | Some d => restore B [] d = Ok st end.
Proof.
  assert (hs : forall s, init_sig_keys (Some pk) sk no_sigs = Ok s <-> length pk = 32 /\ match sk with None => s = sig_run [SigPublic pk] no_sigs | Some k => length k = 64 /\ skipn 32 k = pk /\ s = sig_run [SigSecret k] no_sigs end).
  { intros s0. rewrite Properties_sig.C90_constructor. destruct sk as [k|]; [|tauto]. split; [intros (h1 & h2 & h3)|intros (_ & h1 & h2 & h3); auto].
    split; [rewrite h2, skipn_length; unfold bytes in *; lia|]. auto. }
  unfold open_group, base_new. destruct d as [d|]; cbn [bind].
  - split.
    + intros h. ok_inv h. ok_inv h. injection h as <- <-. destruct (hs a0) as [hs1 _]. specialize (hs1 eq_refl). tauto.
    + intros (h1 & h2 & h3). rewrite h3. cbn [bind]. assert (hi : init_sig_keys (Some pk) sk no_sigs = Ok s) by (apply hs; auto). rewrite hi. reflexivity.
  - split.
    + intros h. ok_inv h. injection h as <- <-. destruct (hs a) as [hs1 _]. specialize (hs1 eq_refl). tauto.
    + intros (h1 & h2 & ->). assert (hi : init_sig_keys (Some pk) sk no_sigs = Ok s) by (apply hs; auto). rewrite hi. reflexivity.
Qed.
(** An administrator's object can be edited and signs; a member's cannot; and each accepts what the other accepts: they are clients of one config in
    the sense of the theorems about replication. *)
Theorem C93_group_peers G B pk sk d d' s st s' st' : open_group B pk (Some sk) d = Ok (s, st) -> open_group B pk None d' = Ok (s', st') ->
  (forall x, b_unzstd B (b_zstd B x) = Some x) -> b_proto B = false ->
  let A := signing_env G s B in let R := signing_env G s' B in readonly A = false /\ readonly R = true /\ peer A R.
Proof.
  intros h1 h2 hz hp. apply C93_group in h1 as (g1 & (g2 & g3 & ->) & _). apply C93_group in h2 as (_ & -> & _). cbv zeta.
  unfold sig_run. cbn [fold_left sig_call]. unfold set_sig_keys, set_sig_pubkey. rewrite g1, g2. cbn [Nat.eqb negb]. rewrite g3.
  split; [reflexivity|]. split; [reflexivity|]. split; try reflexivity.
  - discriminate.
  - exact hz.
  - intros k n c e. cbn [signing_env b_proto] in e. congruence.
Qed.
Print Assumptions C93_group.
Print Assumptions C93_group_peers.

(** ** C93: C *)
(** From C: with readable memory behind the arguments, 256 bytes (or nothing) for the error, and an exception text [what], the call returns 0 and stores the
    object exactly if the C++ constructor returns it; it returns SESSION_ERR_INVALID_DUMP, stores nothing and leaves a terminated text of at most 255
    bytes in the error buffer if the constructor throws.  A dump of length 0 is no dump. *)
Definition c_dump (p : option bytes) (len : nat) : option bytes := match p, len with None, _ => None | _, 0 => None | Some m, _ => Some (firstn len m) end.
Definition c_dump_ok (p : option bytes) (len : nat) : Prop := match p with None => True | Some m => len <= length m end.
Definition err_ok (err : option bytes) : Prop := match err with None => True | Some buf => 256 <= length buf end.
Definition thrown {A} (x : outcome A) : Prop := x = Err \/ x = Throw.
Definition c_result {A} (r : outcome A) (what : bytes) (err : option bytes) (x : outcome (c_made A)) : Prop :=
  (forall o, r = Ok o <-> x = Ok (mkMade 0 (Some o) err)) /\
  (thrown r -> exists err', x = Ok (mkMade 1 None err') /\
     match err, err' with
     | None, None => True
     | Some buf, Some buf' => exists msg, msg = firstn 255 what /\ firstn (S (length msg)) buf' = msg ++ [NUL] /\ length buf' = length buf /\ skipn 256 buf' = skipn 256 buf
     | _, _ => False
     end) /\
  (returned r -> returned x).
Lemma c_make_result {A} (r : outcome A) what err : err_ok err -> c_result r what err (c_make r what err).
Proof.
  intros he. assert (hput : forall buf, 256 <= length buf -> put buf (cz (firstn 255 what)) = Ok (cz (firstn 255 what) ++ skipn (length (cz (firstn 255 what))) buf)).
  { intros buf hb. unfold put. assert (hle : length (cz (firstn 255 what)) <= length buf). { unfold cz. rewrite app_length, firstn_length. cbn [length]. unfold bytes in *. lia. }
    apply Nat.leb_le in hle. rewrite hle. reflexivity. }
  split; [|split].
  - intros o. unfold c_make. destruct r as [a| | | |]; try (split; discriminate).
    + split; [intros [= <-]; reflexivity|intros [= <-]; reflexivity].
    + destruct err as [buf|]; [|split; discriminate]. rewrite (hput buf he). split; discriminate.
    + destruct err as [buf|]; [|split; discriminate]. rewrite (hput buf he). split; discriminate.
  - intros ht. assert (e : c_make r what err = match err with None => Ok (mkMade 1 None None) | Some buf => buf' <- put buf (cz (firstn 255 what)) ;; Ok (mkMade 1 None (Some buf')) end) by (destruct ht as [-> | ->]; reflexivity).
    rewrite e. destruct err as [buf|]; [|exists None; auto]. cbn [err_ok] in he. rewrite (hput buf he). cbn [bind]. eexists. split; [reflexivity|].
    exists (firstn 255 what). split; [reflexivity|]. unfold cz. set (m := firstn 255 what). assert (hm : length m <= 255) by (unfold m; rewrite firstn_length; lia).
    assert (hl : length (m ++ [NUL]) = S (length m)) by (rewrite app_length; cbn [length]; lia). rewrite hl. split; [|split].
    + rewrite <- hl. rewrite firstn_app, Nat.sub_diag, firstn_O, app_nil_r. apply firstn_all.
    + rewrite app_length, hl, skipn_length. unfold bytes in *. lia.
    + rewrite skipn_app, hl. rewrite (skipn_all2 (m ++ [NUL])) by (rewrite hl; lia). cbn [app]. rewrite SessEnc_facts.skipn_skipn. f_equal. lia.
  - intros [r1 r2]. unfold c_make. destruct r as [a| | | |]; try (split; discriminate); try congruence; (destruct err as [buf|]; [rewrite (hput buf he)|]; split; discriminate).
Qed.
Lemma c_bytes_ok p len : c_dump_ok p len -> c_bytes p len = Ok (c_dump p len).
Proof.
  destruct p as [m|]; [|reflexivity]. cbn [c_dump_ok c_bytes c_dump]. intros h. destruct len as [|n]; [reflexivity|]. cbn [Nat.eqb]. rewrite (view_ok (S n) m h). reflexivity.
Qed.
Theorem C93_c_user B sk p len what err : 64 <= length sk -> c_dump_ok p len -> err_ok err ->
  c_result (open_user B (firstn 64 sk) (c_dump p len)) what err (c_open_user B sk p len what err).
Proof.
  intros h1 h2 h3. unfold c_open_user. rewrite (view_ok 64 sk h1). cbn [bind]. rewrite (c_bytes_ok p len h2). cbn [bind]. exact (c_make_result _ what err h3).
Qed.
Theorem C93_c_group B pk sk p len what err : 32 <= length pk -> match sk with None => True | Some m => 64 <= length m end -> c_dump_ok p len -> err_ok err ->
  c_result (open_group B (firstn 32 pk) (option_map (firstn 64) sk) (c_dump p len)) what err (c_open_group B pk sk p len what err).
Proof.
  intros h1 h2 h3 h4. unfold c_open_group. rewrite (view_ok 32 pk h1). cbn [bind]. destruct sk as [m|]; [rewrite (view_ok 64 m h2)|]; cbn [bind option_map];
    rewrite (c_bytes_ok p len h3); cbn [bind]; exact (c_make_result _ what err h4).
Qed.
(** The C key functions: after any calls with 32 readable bytes behind each key, the object is what it was but for its keys, which are as documented; counting, asking for and reading the keys
    show exactly those. *)
Definition c_key_calls (B : benv) (l : list ckey_cmd) (st : bstate) : bstate := fold_left (fun st c => snd (c_key_call B c st)) l st.
Theorem C93_c_keys B l st : NoDup (s_keys st) -> Forall c_arg_ok l ->
  let ks := fold_left (fun ks c => c_keys_after c ks) l (s_keys st) in let st' := c_key_calls B l st in
  st' = set_keys ks st /\ NoDup ks /\ c_key_count st' = Z.of_nat (length ks) /\ (forall m, 32 <= length m -> c_has_key st' m = Ok (if in_dec (list_eq_dec ascii_dec) (firstn 32 m) ks then true else false)) /\
  (forall i, i < length ks -> exists k, nth_error ks i = Some k /\ c_key st' i = Ok k).
Proof.
  intros hn ha. cbv zeta. assert (h : forall st, NoDup (s_keys st) -> c_key_calls B l st = set_keys (fold_left (fun ks c => c_keys_after c ks) l (s_keys st)) st /\ NoDup (fold_left (fun ks c => c_keys_after c ks) l (s_keys st))).
  { clear st hn. induction ha as [|c l hc _ IH]; intros st hn; [split; [destruct st; reflexivity|exact hn]|].
    unfold c_key_calls. cbn [fold_left]. destruct (c_key_call_spec B c st hc hn) as (r & e & _). rewrite e. cbn [snd].
    destruct (IH (set_keys (c_keys_after c (s_keys st)) st)) as [e1 e2]; [cbn [s_keys set_keys]; apply c_keys_NoDup; exact hn|].
    unfold c_key_calls in e1. rewrite e1. cbn [s_keys set_keys] in *. split; [reflexivity|exact e2]. }
  destruct (h st hn) as [e1 e2]. split; [exact e1|]. split; [exact e2|]. rewrite e1. split; [reflexivity|]. split.
  - intros m hm. unfold c_has_key. rewrite (view_ok 32 m hm). cbn [bind]. unfold has_key_. assert (hl : length (firstn 32 m) = 32) by (rewrite firstn_length; unfold bytes in *; lia). rewrite hl. cbn [Nat.eqb negb s_keys set_keys]. f_equal.
    destruct (in_dec _ _ _) as [hi|hi]; [apply Maps.mem_In; exact hi|apply Maps.mem_In_false; exact hi].
  - intros i hi. unfold c_key. cbn [s_keys set_keys]. destruct (nth_error _ i) as [k|] eqn:ek; [eauto|]. apply nth_error_None in ek. unfold bytes in *. lia.
Qed.
Theorem C93_c_key_results B c st : NoDup (s_keys st) -> c_arg_ok c -> fst (c_key_call B c st) =
  Ok match c with CRemoveKey m => if in_dec (list_eq_dec ascii_dec) (firstn 32 m) (s_keys st) then 1%Z else 0%Z | CClearKeys => Z.of_nat (length (s_keys st)) | _ => 0%Z end.
Proof.
  intros hn ha. destruct (c_key_call_spec B c st ha hn) as (r & e & ->). rewrite e. cbn [fst]. f_equal. destruct c as [m|m|m|]; try reflexivity.
  destruct (mem (firstn 32 m) (s_keys st)) eqn:em, (in_dec _ _ _) as [hi|hi]; try reflexivity; exfalso; [apply hi; apply Maps.mem_In; exact em|apply Maps.mem_In in hi; congruence].
Qed.
(** config_free does not free what was allocated for the object. *)
Theorem C93_free_refuted : ~ (forall h o h' h'', heap_init true h = (Some o, h') -> heap_free o h' = Some h'' -> h_live h'' = h_live h).
Proof. intros g. specialize (g (mkHeap 0 []) _ _ _ eq_refl eq_refl). discriminate g. Qed.
Print Assumptions C93_c_user.
Print Assumptions C93_c_group.
Print Assumptions C93_c_keys.
Print Assumptions C93_c_key_results.
Print Assumptions C93_free_refuted.

(** ** examples *)
Lemma start_opens : open_user tb toy_key None = Ok (start tb).
Proof. vm_compute. reflexivity. Qed.
(** two devices, opened from the seed and from a secret key; one sets "n", the other "m" *)
Lemma dev_device (i : bool) : device plainly tb toy_key (dev_st i).
Proof.
  destruct i.
  - apply (dev_use _ _ _ (start tb) (set_name "x")); [|reflexivity|].
    + apply (dev_new _ _ _ toy_key); [vm_compute; reflexivity|exact start_opens].
    + apply step_run with (x := Ok tt); [vm_compute; reflexivity|split; discriminate|]. split; [split; [reflexivity|vm_compute; reflexivity]|exact Logic.I].
  - apply (dev_use _ _ _ (start tb) (OpAssign [] (b "m") (VScal (SStr (b "y"))))); [|reflexivity|].
    + apply (dev_new _ _ _ (toy_key ++ repeat NUL 32)); vm_compute; reflexivity.
    + apply step_run with (x := Ok tt); [vm_compute; reflexivity|split; discriminate|]. split; [split; [reflexivity|vm_compute; reflexivity]|exact Logic.I].
Qed.
Example ex_C93_account : account (fun _ => tb) dev_st toy_key /\ (exists i, 0 < s_seqno (dev_st i))%Z /\ all_push (fun _ => tb) dev_st dev_c dev_1 /\ fetched dev_st dev_c dev_l.
Proof.
  destruct ex_C91 as (h1 & h2 & h3 & h4 & h5 & _). split; [|split; [exact h3|split; [exact h4|split; [exact (af_only _ _ _ _ _ h5)|exact (af_all _ _ _ _ _ h5)]]]].
  split; try (intros i; reflexivity); try (intros i j; reflexivity).
  - intros _. exact toy_aead_ok.
  - intros _. exact tb_ok.
  - intros i. split; reflexivity.
  - intros i j. exact (gp_peer _ _ (pg_group _ _ h1) i j).
  - exact dev_device.
  - exact (gp_apart _ _ (pg_group _ _ h1)).
  - intros i. specialize (h2 i). cbv beta in *. lia.
Qed.
(** a dump from a device makes it again; rubbish is refused with the text in the buffer *)
Definition w1_dump : bytes := Eval vm_compute in match fst (dump tb w1) with Ok d => d | _ => [] end.
Example ex_C93_c : (exists st', c_open_user tb (toy_key ++ repeat NUL 32) (Some (w1_dump ++ b "junk")) (length w1_dump) (b "no") (Some (repeat NUL 256)) = Ok (mkMade 0 (Some st') (Some (repeat NUL 256))) /\ s_data st' = s_data w1) /\
  c_open_user tb (toy_key ++ repeat NUL 32) (Some (b "rubbish")) 7 (b "no") (Some (repeat "x"%char 256)) = Ok (mkMade 1 None (Some (b "no" ++ [NUL] ++ repeat "x"%char 253))).
Proof. split; [eexists; split; vm_compute; reflexivity|vm_compute; reflexivity]. Qed.
Example ex_C93_group : exists s st s' st', open_group tb Properties_keys.gpk (Some Properties_keys.gsk) None = Ok (s, st) /\ open_group tb Properties_keys.gpk None (Some w1_dump) = Ok (s', st') /\ s_data st' = s_data w1 /\ open_group tb Properties_keys.gpk (Some (repeat NUL 64)) None = Throw.
Proof. do 4 eexists. split; [vm_compute; reflexivity|]. split; [vm_compute; reflexivity|]. split; [reflexivity|vm_compute; reflexivity]. Qed.
Example ex_C93_keys : s_keys (c_key_calls tb [CAddKey (repeat "a"%char 40); CAddKeyLow (repeat "b"%char 32); CAddKey (repeat "b"%char 32); CRemoveKey toy_key] w1) = [repeat "b"%char 32; repeat "a"%char 32].
Proof. vm_compute. reflexivity. Qed.
