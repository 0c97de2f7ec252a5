(** C90: the signing keys of a config object, and promotion of a client that could only read.  Statements, and proofs that put together Life4_facts.v and C36. *)
From Verif Require Import Sig BaseSpec GroupKeys KeysSpec Life_facts Life2_facts Life3_facts Life4_facts Message_facts Crypt_facts Conf_facts Conf2_facts Conf3_facts CInfo_facts
  Toy ToyCrypt ToyBase ToyKeys Properties_base Properties_sync Properties_keys.
From Coq Require Import Lia.

(** calls that throw: a key of the wrong size *)
Definition wrong_size (c : sig_cmd) : Prop := match c with SigSecret sk => length sk <> 64 | SigPublic pk => length pk <> 32 | SigClear => False end.
(** the environment of an object on which these calls were made *)
Definition env_after (G : gcrypt) (B : benv) (l : list sig_cmd) : benv := signing_env G (sig_run l no_sigs) B.

Lemma wrong_size_throws c s : wrong_size c -> sig_call c s = Throw.
Proof.
  destruct c as [sk|pk|]; cbn [wrong_size sig_call]; intros h; [| |contradiction].
  - unfold set_sig_keys. apply Nat.eqb_neq in h. rewrite h. reflexivity.
  - unfold set_sig_pubkey. apply Nat.eqb_neq in h. rewrite h. reflexivity.
Qed.
Lemma sig_run_wrong l : forall s, Forall wrong_size l -> sig_run l s = s.
Proof.
  induction l as [|c l IH]; intros s h; [reflexivity|]. inversion h as [|c' l' h1 h2]; subst. unfold sig_run. cbn [fold_left]. rewrite (wrong_size_throws c s h1). exact (IH s h2).
Qed.
Lemma sig_run_last l1 c l2 s s' : sig_call c (sig_run l1 s) = Ok s' -> Forall wrong_size l2 -> sig_run (l1 ++ c :: l2) s = s'.
Proof.
  intros h1 h2. unfold sig_run at 1. rewrite fold_left_app. cbn [fold_left]. change (fold_left _ l1 s) with (sig_run l1 s). rewrite h1. exact (sig_run_wrong l2 s' h2).
Qed.

(** The last call with a 64-byte secret key decides: messages are signed with it and checked with its public half. *)
Theorem C90_secret_key G B l1 sk l2 : length sk = 64 -> Forall wrong_size l2 ->
  let A := env_after G B (l1 ++ SigSecret sk :: l2) in
  (exists v, e_verifier (b_env A) = Some v /\ forall m sg, v m sg = g_verify G sg m (skipn 32 sk)) /\
  (exists f, e_signer (b_env A) = Some f /\ forall m, f m = g_sign G sk m) /\ readonly A = false.
Proof.
  intros h1 h2. cbv zeta. unfold env_after. rewrite (sig_run_last l1 (SigSecret sk) l2 no_sigs (mkSigs (Some sk) (Some (skipn 32 sk)) true true)); [| |exact h2].
  - split; [eexists; split; [reflexivity|]; intros m sg; reflexivity|]. split; [eexists; split; [reflexivity|]; intros m; reflexivity|reflexivity].
  - cbn [sig_call]. unfold set_sig_keys. rewrite h1. reflexivity.
Qed.
Print Assumptions C90_secret_key.
(** The last call with a 32-byte public key decides what messages are checked with; signing stays as it was.  Without a secret key the object becomes read-only. *)
Theorem C90_public_key G B l1 pk l2 : length pk = 32 -> Forall wrong_size l2 ->
  let A := env_after G B (l1 ++ SigPublic pk :: l2) in
  (exists v, e_verifier (b_env A) = Some v /\ forall m sg, v m sg = g_verify G sg m pk) /\
  e_signer (b_env A) = e_signer (b_env (env_after G B l1)) /\ ((forall sk, ~ In (SigSecret sk) l1) -> readonly A = true).
Proof.
  intros h1 h2. cbv zeta. unfold env_after. rewrite (sig_run_last l1 (SigPublic pk) l2 no_sigs (mkSigs (sg_sk (sig_run l1 no_sigs)) (Some pk) true (sg_signs (sig_run l1 no_sigs)))); [| |exact h2].
  - split; [eexists; split; [reflexivity|]; intros m sg; reflexivity|]. split; [reflexivity|]. intros hn.
    assert (e : sg_signs (sig_run l1 no_sigs) = false); [|unfold readonly, read_only; cbn [signing_env b_env e_verifier e_signer verifier_of signer_of sg_verifies sg_signs]; rewrite e; reflexivity].
    clear -hn. assert (h0 : sg_signs no_sigs = false) by reflexivity. revert h0. generalize no_sigs. induction l1 as [|c l IH]; intros s h0; [exact h0|].
    unfold sig_run. cbn [fold_left]. apply IH; [intros sk hin; apply (hn sk); right; exact hin|].
    destruct c as [sk|pk|]; cbn [sig_call]; [exfalso; apply (hn sk); left; reflexivity| |reflexivity].
    unfold set_sig_pubkey. destruct (negb _); [exact h0|exact h0].
  - cbn [sig_call]. unfold set_sig_pubkey. rewrite h1. reflexivity.
Qed.
Print Assumptions C90_public_key.
Theorem C90_cleared G B l1 l2 : Forall wrong_size l2 ->
  let A := env_after G B (l1 ++ SigClear :: l2) in e_verifier (b_env A) = None /\ e_signer (b_env A) = None.
Proof. intros h2. cbv zeta. unfold env_after. rewrite (sig_run_last l1 SigClear l2 no_sigs no_sigs eq_refl h2). split; reflexivity. Qed.
Print Assumptions C90_cleared.
(** The constructor takes a 64-byte secret key (with its own public key, or none), or a 32-byte public key, or nothing, and nothing else. *)
Theorem C90_constructor pk sk s : init_sig_keys pk sk no_sigs = Ok s <->
  match sk, pk with
  | Some k, Some p => length k = 64 /\ p = skipn 32 k /\ s = sig_run [SigSecret k] no_sigs
  | Some k, None => length k = 64 /\ s = sig_run [SigSecret k] no_sigs
  | None, Some p => length p = 32 /\ s = sig_run [SigPublic p] no_sigs
  | None, None => s = no_sigs
  end.
Proof.
  assert (hk : forall k, (set_sig_keys k no_sigs = Ok s) <-> length k = 64 /\ s = sig_run [SigSecret k] no_sigs).
  { intros k. unfold sig_run. cbn [fold_left sig_call]. unfold set_sig_keys. destruct (Nat.eqb (length k) 64) eqn:e; cbn [negb].
    - apply Nat.eqb_eq in e. split; [intros [= <-]; auto|intros [_ ->]; reflexivity].
    - apply Nat.eqb_neq in e. split; [discriminate|intros [h _]; congruence]. }
  destruct sk as [k|], pk as [p|]; cbn [init_sig_keys].
  - destruct (Nat.ltb (length k) 32) eqn:e1. { apply Nat.ltb_lt in e1. split; [discriminate|intros (h & _)]. unfold bytes in *. lia. }
    destruct (eqb p (skipn 32 k)) eqn:e2; cbn [negb]; rewrite ?hk.
    + apply eqb_eq in e2. tauto.
    + apply eqb_neq in e2. split; [discriminate|intros (_ & h & _); congruence].
  - apply hk.
  - unfold sig_run. cbn [fold_left sig_call]. unfold set_sig_pubkey. destruct (Nat.eqb (length p) 32) eqn:e; cbn [negb].
    + apply Nat.eqb_eq in e. split; [intros [= <-]; auto|intros [_ ->]; reflexivity].
    + apply Nat.eqb_neq in e. split; [discriminate|intros [h _]; congruence].
  - split; [intros [= <-]; reflexivity|intros ->; reflexivity].
Qed.
Print Assumptions C90_constructor.

(** ** promotion *)
(** what an object that only has the public key runs in *)
Definition reads (G : gcrypt) (B : benv) (pk : bytes) : benv := env_after G B [SigPublic pk].
Definition writes_with (G : gcrypt) (B : benv) (pk sk : bytes) : benv := env_after G B [SigPublic pk; SigSecret sk].
Lemma writes_with_signer G B pk sk : length pk = 32 -> length sk = 64 -> skipn 32 sk = pk -> writes_with G B pk sk = with_signer (g_sign G sk) (reads G B pk).
Proof.
  intros h1 h2 h3. unfold writes_with, reads, env_after, sig_run. cbn [fold_left sig_call]. unfold set_sig_keys, set_sig_pubkey. rewrite h1, h2, h3. reflexivity.
Qed.
Lemma reads_only G B pk : length pk = 32 -> readonly (reads G B pk) = true.
Proof. intros h. unfold reads, env_after, sig_run. cbn [fold_left sig_call]. unfold set_sig_pubkey. rewrite h. reflexivity. Qed.
Lemma writes_ok G B pk sk : sizes_ok G -> key_pair G sk pk -> length pk = 32 -> length sk = 64 -> skipn 32 sk = pk -> benv_ok (reads G B pk) -> benv_ok (writes_with G B pk sk).
Proof.
  intros hz hp h1 h2 h3 [b1 b2 b3 b4]. rewrite (writes_with_signer G B pk sk h1 h2 h3). split; [exact b1|exact b2| |].
  - intros v g x. unfold reads, env_after, sig_run. cbn [fold_left sig_call]. unfold set_sig_pubkey. rewrite h1. intros [= <-] [= <-]. apply hp.
  - intros g x [= <-]. apply (z_sign _ hz).
Qed.

(** A client of a group's config that could only read is given the group's secret key.  Its state stays the same; it is a client that can write, with a
    life like any other (so that every theorem about such clients applies to it); it can be edited whenever a writer can, and the next push after an
    edit is one above. *)
Theorem C90_promotion G B pk sk st : sizes_ok G -> key_pair G sk pk -> length pk = 32 -> length sk = 64 -> skipn 32 sk = pk ->
  benv_ok (reads G B pk) -> life (reads G B pk) tame st ->
  let A := writes_with G B pk sk in
  benv_ok A /\ life A tame st /\ readonly A = false /\
  ((e_lag (b_env B) <= 2 ^ 63 - 1)%Z -> (s_seqno st < 2 ^ 63 - 1)%Z -> forall o, is_edit o = true -> op_ok A o st ->
     exists st1, run A o st = (Ok tt, st1) /\ (sendable (s_data st1) -> st1 = st \/ s_seqno st1 = (s_seqno st + 1)%Z)).
Proof.
  intros hz hp h1 h2 h3 hb hl A. pose proof (writes_ok G B pk sk hz hp h1 h2 h3 hb) as hA. fold A in hA.
  assert (hlA : life A tame st). { eapply life_promote; [exact hl|apply reads_only; exact h1|]. apply writes_with_signer; assumption. }
  split; [exact hA|]. split; [exact hlA|]. split; [unfold A; rewrite (writes_with_signer G B pk sk h1 h2 h3); unfold readonly, read_only; cbn [with_signer b_env e_verifier e_signer]; destruct (e_verifier _); reflexivity|].
  intros hlag hs o ho hok. pose proof (i0_ro _ _ (life_inv0 _ _ _ hl) (reads_only G B pk h1)) as [hcl _].
  destruct (run_total A o st ho) as (st1 & e1 & _).
  { apply life_editable; [exact hA|exact hlag|exact hlA|]. split; [|right; exact hs]. unfold A. rewrite (writes_with_signer G B pk sk h1 h2 h3). unfold readonly, read_only. cbn [with_signer b_env e_verifier e_signer]. destruct (e_verifier _); reflexivity. }
  exists st1. split; [exact e1|]. intros hsd. apply (C25_edit_increases A o st st1 hA hlA ho); [|rewrite hcl; discriminate].
  apply step_run with (x := Ok tt); [exact e1|split; discriminate|]. split; [exact hok|exact hsd].
Qed.
Print Assumptions C90_promotion.

Lemma promoted_in_sync A g st R r : readonly A = true -> inv1 A st -> s_seqno st <> 0%Z -> in_sync A st R r -> in_sync (with_signer g A) st R r.
Proof.
  intros hr hi hn (h1 & h2 & s & c & c' & h3 & h4 & h5). split; [exact h1|]. split; [exact h2|]. exists s, c, c'. split; [|split; [exact h4|exact h5]].
  destruct (i0_ro _ _ (i1_0 _ _ hi) hr) as (_ & m & em). pose proof (i1_own _ _ hi) as ho. unfold s_seqno, s_msg in hn. rewrite em in *. cbn [c_msg own_ok] in *.
  destruct (m_vsig m) as [sg|] eqn:ev; [|exfalso; apply hn, ho; exact hr].
  unfold serialize in *. cbn [refresh bind c_msg] in *. unfold serialize_impl in *. rewrite ev in *. exact h3.
Qed.
(** Two clients hold the same message, and the first could only read it.  It is given the secret key, makes any edits and pushes: the other one (whether it
    can write or not) takes the pushed message under the server's hash [h] and ends with exactly its data, seqno and hash; then they are in sync again. *)
Theorem C90_promoted_replicates G B pk sk R st l st1 n c o st2 r h : sizes_ok G -> key_pair G sk pk -> length pk = 32 -> length sk = 64 -> skipn 32 sk = pk ->
  let A := writes_with G B pk sk in
  aead_ok (b_aead B) -> benv_ok (reads G B pk) -> benv_ok R -> peer A R -> life (reads G B pk) tame st -> life R tame r -> s_seqno st <> 0%Z ->
  in_sync (reads G B pk) st R r -> steps A (tame A) st l st1 -> forallb is_edit l = true -> s_state st1 = Dirty ->
  push A st1 = (Ok (n, c, o), st2) -> (forall k rest, s_keys st1 = k :: rest -> opens A R r k c) ->
  (n + e_lag (b_env A) < 2 ^ 63)%Z -> apart_hashes A st1 R r ->
  exists r' st3, merge R [(h, c)] r = (Ok [h], r') /\ s_data r' = s_data st2 /\ s_data st2 = fst (prune (s_data st1)) /\ s_seqno r' = n /\ s_curr r' = h /\ s_state r' = Clean /\
    confirm_pushed A n h st2 = (Ok tt, st3) /\ in_sync A st3 R r'.
Proof.
  intros hz hp h1 h2 h3 A ha hb hR hpeer hl hr hn hs hst he hd hpush hop hlag hap.
  destruct (C90_promotion G B pk sk st hz hp h1 h2 h3 hb hl) as (hA & hlA & _). fold A in hA, hlA.
  apply (C36_replicates A R st l st1 n c o st2 r h ha hA hR hpeer hlA hr); try assumption.
  unfold A. rewrite (writes_with_signer G B pk sk h1 h2 h3). apply promoted_in_sync; [apply reads_only; exact h1|exact (life_inv1 _ _ hb hl)|exact hn|exact hs].
Qed.
Print Assumptions C90_promoted_replicates.
(** load_admin_key gives the group's objects such a pair: it accepts exactly the 32-byte seed, or a 64-byte key beginning with it, of the group's public key,
    and the secret key it then sets has this public key as its second half. *)
Theorem C90_load_admin_key G secret o o' : sizes_ok G -> ko_sk o = None -> load_admin_key G secret o = Ok o' ->
  (length secret = 32 \/ length secret = 64) /\ exists sk, ko_sk o' = Some sk /\ length sk = 64 /\ length (ko_pk o) = 32 /\ ko_pk o' = ko_pk o /\ skipn 32 sk = ko_pk o /\
    firstn 32 sk = firstn 32 secret /\ ko_pk o = g_edpk G (firstn 32 secret).
Proof.
  intros hz hn h. unfold load_admin_key, admin in h. rewrite hn in h. destruct (Nat.eqb (length secret) 64 || Nat.eqb (length secret) 32) eqn:e1; [|discriminate]. cbn [negb] in h. cbv zeta in h.
  destruct (eqb (ko_pk o) (g_edpk G (firstn 32 secret))) eqn:e2; [|discriminate]. cbn [negb] in h. apply eqb_eq in e2. injection h as <-. cbn [ko_sk ko_pk].
  apply orb_true_iff in e1. rewrite !Nat.eqb_eq in e1. split; [tauto|]. exists (firstn 32 secret ++ g_edpk G (firstn 32 secret)).
  assert (el : length (firstn 32 secret) = 32) by (rewrite firstn_length; unfold bytes in *; lia).
  split; [reflexivity|]. rewrite app_length, el, e2, (z_edpk _ hz). split; [reflexivity|]. split; [reflexivity|]. split; [reflexivity|].
  split; [rewrite skipn_app, el, Nat.sub_diag, skipn_all2 by (rewrite el; lia); reflexivity|]. split; [|reflexivity].
  rewrite firstn_app, el, Nat.sub_diag, firstn_O, app_nil_r, firstn_firstn. reflexivity.
Qed.
Print Assumptions C90_load_admin_key.

(** ** what an object signs, it verifies *)
(** if all the keys ever set are of one key pair *)
Theorem C90_one_key G B l pk sk : sizes_ok G -> key_pair G sk pk -> skipn 32 sk = pk ->
  (forall p, In (SigPublic p) l -> p = pk) -> (forall s, In (SigSecret s) l -> s = sk) ->
  signer_ok (b_env (env_after G B l)) /\ forall g x, e_signer (b_env (env_after G B l)) = Some g -> length (g x) = 64.
Proof.
  intros hz hp h3 h1 h2.
  assert (hi : let s := sig_run l no_sigs in (sg_signs s = true -> sg_sk s = Some sk) /\ (sg_verifies s = true -> sg_pk s = Some pk)).
  { cbv zeta. assert (h0 : (sg_signs no_sigs = true -> sg_sk no_sigs = Some sk) /\ (sg_verifies no_sigs = true -> sg_pk no_sigs = Some pk)) by (split; discriminate).
    revert h0. generalize no_sigs. induction l as [|c l IH]; intros s h0; [exact h0|]. unfold sig_run. cbn [fold_left].
    apply IH; [intros p hi; apply h1; right; exact hi|intros k hi; apply h2; right; exact hi|].
    destruct c as [k|p|]; cbn [sig_call].
    - unfold set_sig_keys. destruct (negb _); [exact h0|]. cbn [sg_signs sg_verifies sg_sk sg_pk]. rewrite (h2 k (or_introl eq_refl)), h3. auto.
    - unfold set_sig_pubkey. destruct (negb _); [exact h0|]. cbn [sg_signs sg_verifies sg_sk sg_pk]. rewrite (h1 p (or_introl eq_refl)). split; [apply h0|reflexivity].
    - split; discriminate. }
  destruct hi as [hi1 hi2]. unfold env_after, signing_env. split.
  - intros v g x. cbn [b_env e_verifier e_signer]. unfold verifier_of, signer_of. destruct (sg_verifies _); [|discriminate]. destruct (sg_signs _); [|discriminate].
    intros [= <-] [= <-]. rewrite hi1, hi2 by reflexivity. apply hp.
  - intros g x. cbn [b_env e_signer]. unfold signer_of. destruct (sg_signs _); [|discriminate]. intros [= <-]. rewrite hi1 by reflexivity. apply (z_sign _ hz).
Qed.
Print Assumptions C90_one_key.
(** not in general: a public key set after a secret key leaves the object signing with the old key what it (and everybody it is meant for) refuses *)
Theorem C90_other_key_refuted : ~ (forall G B l, sizes_ok G -> (forall seed, length seed = 32 -> key_pair G (seed ++ g_edpk G seed) (g_edpk G seed)) ->
  (forall sk, In (SigSecret sk) l -> exists seed, length seed = 32 /\ sk = seed ++ g_edpk G seed) -> signer_ok (b_env (env_after G B l))).
Proof.
  intros h. specialize (h toy_g tb [SigSecret gsk; SigPublic pk_m] (proj2 toy_g_ok) toy_pair).
  assert (e : forall sk, In (SigSecret sk) [SigSecret gsk; SigPublic pk_m] -> exists seed, length seed = 32 /\ sk = seed ++ g_edpk toy_g seed).
  { intros sk [e|[e|[]]]; [|discriminate]. exists seed_g. split; [reflexivity|]. assert (e2 : sk = gsk) by congruence. rewrite e2. reflexivity. }
  specialize (h e). specialize (h _ _ [] eq_refl eq_refl). vm_compute in h. discriminate.
Qed.
Print Assumptions C90_other_key_refuted.

(** ** C27 after promotion *)
(** [once] without the clause about rivals of the current message *)
Definition once_rivals (B : benv) (o : op) (st st' : bstate) : Prop :=
  tame B o st st' /\
  match o with
  | OpMerge l => NoDup (map fst l) /\ forall h, In h (map fst l) -> h <> s_curr st /\ ~ In h (s_old st)
  | OpConfirm _ h => ~ In h (s_old st)
  | _ => True
  end.
(** A reader whose current message is rivalled keeps it and lists it for deletion; once promoted, its push asks to delete its current message. *)
Definition rv1 : bstate := Eval vm_compute in after tb_reader (OpMerge [(b "h1", msg_y)]) (start tb_reader).
Definition rv2 : bstate := Eval vm_compute in after tb_reader (OpMerge [(b "h2", msg_x)]) rv1.
Definition open_y : bytes := Eval vm_compute in get_ok [] (edit_of toy_admin (empty_msg toy_admin) [(b "n", VScal (SStr (b "y")))]).
Lemma rv1_life : life tb_reader once_rivals rv1.
Proof.
  apply (life_step _ _ (start tb_reader) (OpMerge [(b "h1", msg_y)])); [apply life_fresh|].
  apply step_run with (x := Ok tt); [vm_compute; reflexivity|split; discriminate|]. split; [split; [|vm_compute; reflexivity]|].
  - apply (merge_op_ok _ _ _ [] [(b "h1", open_y)]); [reflexivity|vm_compute; reflexivity|apply no_collisionb_ok; vm_compute; reflexivity|..].
    + intros s [<-|[]]. vm_compute. reflexivity.
    + intros _ s [<-|[]]. eexists. vm_compute. reflexivity.
  - split; [repeat constructor; intros []|]. intros h [<-|[]]. split; [discriminate|intros []].
Qed.
Lemma rv2_life : life tb_reader once_rivals rv2.
Proof.
  apply (life_step _ _ rv1 (OpMerge [(b "h2", msg_x)])); [exact rv1_life|].
  apply step_run with (x := Ok tt); [vm_compute; reflexivity|split; discriminate|]. split; [split; [|vm_compute; reflexivity]|].
  - apply (merge_op_ok _ _ _ [(b "h1", open_y)] [(b "h2", signed_msg)]); [vm_compute; reflexivity|vm_compute; reflexivity|apply no_collisionb_ok; vm_compute; reflexivity|..].
    + intros s [<-|[]]. vm_compute. reflexivity.
    + intros _ s [<-|[]]. eexists. vm_compute. reflexivity.
  - split; [repeat constructor; intros []|]. intros h [<-|[]]. split; [vm_compute; discriminate|intros []].
Qed.
Theorem C27_promoted_refuted : ~ (forall B st n c o st' h, benv_ok B -> life B once_rivals st -> push B st = (Ok (n, c, o), st') ->
  In h o -> ~ In h (current_hashes st')).
Proof.
  intros h. assert (hl : life tb_admin once_rivals rv2) by (eapply (life_promote _ _ tb_reader toy_sign); [exact rv2_life|reflexivity|reflexivity]).
  assert (g : exists n c st', push tb_admin rv2 = (Ok (n, c, [b "h1"]), st') /\ current_hashes st' = [b "h1"]).
  { do 3 eexists. split; vm_compute; reflexivity. }
  destruct g as (n & c & st' & g1 & g2). apply (h _ _ _ _ _ _ (b "h1") tb_admin_ok hl g1); [left; reflexivity|]. rewrite g2. left. reflexivity.
Qed.
Print Assumptions C27_promoted_refuted.

(** ** examples *)
(** a group member's info config that took the administrator's message, and is promoted with the group's seed *)
Definition rd : benv := reads toy_g tb gpk.
Definition wr : benv := writes_with toy_g tb gpk gsk.
Definition msg_i : bytes := Eval vm_compute in get_ok [] (edit_of (b_env wr) (empty_msg (b_env wr)) [(b "n", VScal (SStr (b "x")))]).
Definition rd1 : bstate := Eval vm_compute in after rd (OpMerge [(b "h1", sealed msg_i)]) (start rd).
Lemma rd_ok : benv_ok rd.
Proof. split; cbn; [apply toy_hash32|lia|intros v g x _ h; discriminate|discriminate]. Qed.
Lemma rd1_life : life rd tame rd1.
Proof.
  apply (life_step _ _ (start rd) (OpMerge [(b "h1", sealed msg_i)])); [apply life_fresh|].
  apply step_run with (x := Ok tt); [vm_compute; reflexivity|split; discriminate|]. split; [|vm_compute; reflexivity].
  apply (merge_op_ok _ _ _ [] [(b "h1", msg_i)]); [reflexivity|vm_compute; reflexivity|apply no_collisionb_ok; vm_compute; reflexivity|..].
  - intros s [<-|[]]. vm_compute. reflexivity.
  - intros _ s [<-|[]]. eexists. vm_compute. reflexivity.
Qed.
Definition wr2 : bstate := Eval vm_compute in after wr (set_name "y") rd1.
Definition sent_w : bytes := Eval vm_compute in match fst (push wr wr2) with Ok (_, c, _) => c | _ => [] end.
Lemma group_pair : key_pair toy_g gsk gpk.
Proof. exact (toy_pair seed_g eq_refl). Qed.
Example ex_C90 : sizes_ok toy_g /\ key_pair toy_g gsk gpk /\ skipn 32 gsk = gpk /\ aead_ok (b_aead tb) /\ benv_ok rd /\ life rd tame rd1 /\ s_seqno rd1 = 1%Z /\ in_sync rd rd1 rd rd1 /\
  fst (run rd (set_name "y") rd1) = Throw /\ steps wr (tame wr) rd1 [set_name "y"] wr2 /\ s_state wr2 = Dirty /\ peer wr rd /\
  (exists o st2, push wr wr2 = (Ok (2%Z, sent_w, o), st2)) /\ opens wr rd rd1 toy_key sent_w /\ apart_hashes wr wr2 rd rd1 /\
  s_data (snd (merge rd [(b "h2", sent_w)] rd1)) = [(b "n", VScal (SStr (b "y")))].
Proof.
  split; [exact (proj2 toy_g_ok)|]. split; [exact group_pair|]. split; [reflexivity|]. split; [exact toy_aead_ok|]. split; [exact rd_ok|]. split; [exact rd1_life|]. split; [reflexivity|].
  split. { split; [discriminate|]. split; [discriminate|]. do 3 eexists. split; [vm_compute; reflexivity|]. split; vm_compute; reflexivity. }
  split; [vm_compute; reflexivity|].
  split. { econstructor; [|constructor]. apply tame_edit; [reflexivity|reflexivity|vm_compute; reflexivity|vm_compute; reflexivity]. }
  split; [reflexivity|]. split. { split; try reflexivity; discriminate. }
  split; [do 2 eexists; vm_compute; reflexivity|]. split.
  { exists [], []. split; [vm_compute; reflexivity|]. split; [reflexivity|intros k' []]. }
  split. { intros s c s0 c0 h1 h2. apply no_collisionb_ok. vm_compute in h1, h2. injection h1 as <- _. injection h2 as <- _. vm_compute. reflexivity. }
  vm_compute. reflexivity.
Qed.
Example ex_C90_keys : length gsk = 64 /\ length gpk = 32 /\ Forall wrong_size [SigSecret gpk; SigPublic gsk] /\ load_admin_key toy_g seed_g mem = Ok (new_keys user_m gpk (Some gsk)) /\
  ko_sk mem = None /\ init_sig_keys (Some gpk) (Some gsk) no_sigs = Ok (sig_run [SigSecret gsk] no_sigs) /\ init_sig_keys (Some pk_m) (Some gsk) no_sigs = Throw.
Proof. split; [reflexivity|]. split; [reflexivity|]. split; [repeat constructor; cbn; discriminate|]. repeat split; vm_compute; reflexivity. Qed.
