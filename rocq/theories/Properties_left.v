(** C106: who is left out of the key messages of a group learns no key and cannot read. *)
From Verif Require Import LeftSpec KeyList_facts Bt_facts Parse_facts Dump_facts Keys_facts Keys2_facts Keys3_facts Hex_facts Multi_facts Keys4_facts Keys5_facts Left_facts Toy ToyCrypt ToyKeys Properties_keys.

(** ** C106 *)
(** [p] is a member (not an administrator) and all the messages it receives are full key messages and supplements which
    administrators of the group, in whatever state, made for lists of session ids that leave it out.  Then none of them
    counts as containing keys, and afterwards [p] has no key it did not have before (it may lose some which expire). *)
Theorem C106_no_key G upk kp p ms : lib_ok G -> shared_key G upk p kp -> ko_sk p = None -> Forall (sent_without G p upk kp) ms ->
  (forall k, In k (ko_keys (receive_all G ms p)) -> In k (ko_keys p)) /\
  (forall k, In k (decrypt_keys (receive_all G ms p)) -> In k (decrypt_keys p)) /\
  ko_sk (receive_all G ms p) = None /\
  (forall h m ts o', In (h, m, ts) ms -> load_key_message G h m ts p <> Ok (true, o')).
Proof.
  intros hG hk hs hf. pose proof (receive_all_nothing G upk kp ms hG p hk hs hf) as hn. split; [exact (nm_keys _ _ hn)|]. split; [intros k; apply (no_more_keys _ _ k hn)|].
  split; [rewrite (nm_sk _ _ hn); exact hs|]. intros h m ts o' hin hl. rewrite Forall_forall in hf. specialize (hf _ hin).
  apply load_inv in hl as (ks & gen & s & sig & h1 & h2 & h3 & h4). apply (sent_nothing G p upk kp m ts h ks gen s hG hk hs hf) in h1. subst ks. discriminate h4.
Qed.
(** So whatever is encrypted for the group with a key whose messages the keys [p] had at the start do not open, [p]
    cannot decrypt, however many key messages for others it receives. *)
Theorem C106_cannot_read G upk kp p ms o k nonce x z pad c : lib_ok G -> shared_key G upk p kp -> ko_sk p = None -> Forall (sent_without G p upk kp) ms ->
  length nonce = 24 -> group_enc_key o = Ok k -> encrypt_message G nonce x z pad o = Ok c ->
  (forall k' n t, In k' (decrypt_keys p) -> x_open (g_x G) k' n (x_seal (g_x G) k n t) = None) ->
  decrypt_message G c (receive_all G ms p) = Throw.
Proof.
  intros hG hk hs hf hn ho he hc. pose proof (receive_all_nothing G upk kp ms hG p hk hs hf) as hnm. unfold encrypt_message in he.
  destruct (_ <? _)%N; [discriminate|]. rewrite ho in he. cbn [bind] in he. injection he as <-. unfold decrypt_message.
  match goal with |- (if ?q then _ else _) = _ => destruct q; [reflexivity|] end. cbv zeta.
  fold (decrypt_keys (receive_all G ms p)). change NPUBBYTES with 24.
  match goal with |- context [nonce ++ ?q] => assert (h1 : skipn 24 (nonce ++ q) = q) by (rewrite skipn_app, skipn_all2 by lia; rewrite hn; reflexivity);
    assert (h2 : firstn 24 (nonce ++ q) = nonce) by (rewrite firstn_app, firstn_all2 by lia; rewrite hn; cbn [Nat.sub firstn]; apply app_nil_r) end.
  rewrite h1, h2, open_any_none; [reflexivity|]. intros k' hk'. apply hc. apply (no_more_keys _ _ k' hnm). exact hk'.
Qed.
(** In particular: an administrator removes a member by a rekey that leaves it out, and sends a message with the new key,
    or anybody does who has received it. *)
Theorem C106_removed G upk kp p a sk xpk sids m a' h ts o nonce x z pad c : lib_ok G -> shared_key G upk p kp -> ko_sk p = None ->
  ko_pk a = ko_pk p -> ko_sk a = Some sk -> g_xpk G (ko_pk a) = Some xpk -> left_out sids upk -> closed_to G sk xpk sids upk kp -> filler_closed G sk xpk sids kp m ->
  rekey G sids a = Ok (m, a') -> group_enc_key o = Ok (new_key G sids a sk) ->
  (forall k' n t, In k' (decrypt_keys p) -> x_open (g_x G) k' n (x_seal (g_x G) (new_key G sids a sk) n t) = None) ->
  length nonce = 24 -> encrypt_message G nonce x z pad o = Ok c -> group_enc_key a' = Ok (new_key G sids a sk) /\ decrypt_message G c (receive G p (h, m, ts)) = Throw.
Proof.
  intros hG hk hs h1 h2 h3 h4 h5 h6 h7 h8 h9 h10 h11. split.
  - apply rekey_inv in h7 as (sk' & gen & key & e1 & hm & _ & e2 & e3 & ->). unfold group_enc_key. cbn [ko_pconf ko_pkey]. assert (sk' = sk) by congruence. subst sk'. destruct m; [contradiction|]. cbn [is_nil negb]. rewrite e3, e2. reflexivity.
  - apply (C106_cannot_read G upk kp p [(h, m, ts)] o (new_key G sids a sk) nonce x z pad c); auto. constructor; [|constructor]. apply (sw_rekey G p upk kp a sk xpk sids m a'); auto.
Qed.
Print Assumptions C106_no_key.
Print Assumptions C106_cannot_read.
Print Assumptions C106_removed.
(** Toy encryption whose tag is the beginning of the key, so that other keys are seen to be others. *)
Definition mark (k : bytes) : bytes := firstn 16 (k ++ repeat NUL 16).
Lemma mark_length k : length (mark k) = 16.
Proof. unfold mark. rewrite firstn_length, app_length, repeat_length. lia. Qed.
Definition mark_open (k n c : bytes) : option bytes := if Nat.leb 16 (length c) && eqb (skipn (length c - 16) c) (mark k) then Some (firstn (length c - 16) c) else None.
Definition left_x : xcrypt := mkXcrypt toy_dh (fun d x => toy_hash (d ++ skipn 64 x)) (fun k _ m => m ++ mark k) mark_open.
Definition left_g : gcrypt := mkGcrypt left_x (g_hash toy_g) (g_xpk toy_g) (g_xsk toy_g) (g_sign toy_g) (g_verify toy_g) (g_rng toy_g) (g_edpk toy_g) (g_zstd toy_g) (g_unzstd toy_g).
Lemma mark_other k k' n m : eqb (mark k) (mark k') = false -> x_open left_x k n (x_seal left_x k' n m) = None.
Proof.
  intros h. cbn [left_x x_open x_seal]. unfold mark_open. rewrite app_length, mark_length. replace (length m + 16 - 16) with (length m) by lia.
  rewrite skipn_app, skipn_all, Nat.sub_diag. cbn [app skipn].
  match goal with |- (if ?q then _ else _) = _ => destruct q eqn:F end; [|reflexivity]. apply andb_true_iff in F as [_ F]. apply eqb_eq in F. change (mark k' = mark k) in F. rewrite F, eqb_refl in h. discriminate.
Qed.
Lemma left_x_ok : seal_ok left_x.
Proof.
  split; cbn [left_x x_open x_seal].
  - intros k n m. unfold mark_open. rewrite app_length, mark_length. replace (length m + 16 - 16) with (length m) by lia.
    rewrite skipn_app, skipn_all, Nat.sub_diag, firstn_app, firstn_all, Nat.sub_diag. cbn [app skipn firstn]. rewrite eqb_refl, app_nil_r. replace (Nat.leb 16 (length m + 16)) with true by lia. reflexivity.
  - intros k n m. rewrite app_length, mark_length. reflexivity.
  - intros k n c m. unfold mark_open. destruct (Nat.leb 16 (length c)) eqn:E; [|discriminate]. cbn [andb]. destruct (eqb _ _); [|discriminate]. intros [= <-].
    apply Nat.leb_le in E. rewrite firstn_length. change ABYTES with 16. lia.
Qed.
Lemma left_g_ok : lib_ok left_g.
Proof. destruct toy_g_ok as [_ [h1 h2 h3 h4 h5 h6]]. split; [exact left_x_ok|]. split; assumption. Qed.
(** The administrator starts a group with two members, then leaves [mem] out. *)
Definition sid_b : bytes := Eval vm_compute in sid_of user_b.
Definition sid_m : bytes := Eval vm_compute in sid_of pk_m.
Definition kp_m : bytes := Eval vm_compute in get_ok [] (multi_key left_x gpk pk_m gpk false MEMBER_KEY).
Definition kr_b : bytes := Eval vm_compute in get_ok [] (multi_key left_x gpk gpk user_b true MEMBER_KEY).
Definition first_msg : bytes := Eval vm_compute in match rekey left_g [sid_b; sid_m] adm with Ok (m, _) => m | _ => [] end.
Definition adm_first : kobj := Eval vm_compute in receive left_g (match rekey left_g [sid_b; sid_m] adm with Ok (_, a) => a | _ => adm end) (b "h1", first_msg, 5%Z).
Definition mem_first : kobj := Eval vm_compute in receive left_g mem (b "h1", first_msg, 5%Z).
Definition second : bytes * kobj := Eval vm_compute in match rekey left_g [sid_b] adm_first with Ok (m, a) => (m, a) | _ => ([], adm) end.
Definition said : bytes := Eval vm_compute in get_ok [] (encrypt_message left_g (repeat "q"%char 24) (b "hello") false 0 (snd second)).
(** the entries of the second message; none opens for [mem] *)
Definition entries (v : bt) : list bt := match v with BDict [_; _; _; (_, BList l); _] => l | _ => [] end.
Definition shut (v : bt) : bool := match v with BStr c => match mark_open kp_m [] c with None => true | _ => false end | _ => true end.
Definition second_bt : bt := Eval vm_compute in match parse1 (fst second) with Some (v, _) => v | None => BInt 0 end.
Lemma ex_filler : filler_closed left_g gsk gpk [sid_b] kp_m (fst second).
Proof.
  intros nonce gen ak es sig d hm hb c hc. right. assert (e : fst second = enc second_bt) by (vm_compute; reflexivity). rewrite e in hm.
  assert (hb0 : bt_ok second_bt = true) by (vm_compute; reflexivity). pose proof (enc_inj _ _ hb0 hb hm) as hd. assert (hl : entries second_bt = map BStr es) by (rewrite hd; reflexivity).
  assert (hin : In (BStr c) (entries second_bt)) by (rewrite hl; apply in_map; exact hc). assert (hall : forallb shut (entries second_bt) = true) by (vm_compute; reflexivity).
  rewrite forallb_forall in hall. specialize (hall _ hin). unfold shut in hall. cbn [left_g g_x left_x x_open]. change (mark_open kp_m [] c = None). destruct (mark_open kp_m [] c); [discriminate|reflexivity].
Qed.
Lemma ex_closed : closed_to left_g gsk gpk [sid_b] pk_m kp_m.
Proof.
  intros r kr n t (s & secret & [<-|[]] & h1 & h2 & h3) _. assert (hr : session_id_pk sid_b (b "05") = Ok user_b) by (vm_compute; reflexivity).
  assert (r = user_b) by congruence. subst r. cbn [left_g g_x left_x x_dh] in h2. unfold toy_dh in h2. injection h2 as <-.
  assert (hk : kr = kr_b) by (rewrite h3; vm_compute; reflexivity). rewrite hk. apply mark_other. vm_compute. reflexivity.
Qed.
Example ex_C106 : lib_ok left_g /\ shared_key left_g pk_m mem_first kp_m /\ ko_sk mem_first = None /\ left_out [sid_b] pk_m /\
  closed_to left_g gsk gpk [sid_b] pk_m kp_m /\ filler_closed left_g gsk gpk [sid_b] kp_m (fst second) /\
  rekey left_g [sid_b] adm_first = Ok second /\ length (ko_keys mem_first) = 1 /\
  (forall k' n t, In k' (decrypt_keys mem_first) -> x_open (g_x left_g) k' n (x_seal (g_x left_g) (new_key left_g [sid_b] adm_first gsk) n t) = None) /\ group_enc_key (snd second) = Ok (new_key left_g [sid_b] adm_first gsk) /\
  Forall (sent_without left_g mem_first pk_m kp_m) [(b "h2", fst second, 7%Z)] /\
  decrypt_message left_g said (receive left_g mem_first (b "h2", fst second, 7%Z)) = Throw /\
  decrypt_message left_g said (receive left_g (snd second) (b "h2", fst second, 7%Z)) = Ok (sid_of (user_pk adm), b "hello").
Proof.
  split; [exact left_g_ok|]. split; [exists gpk; eexists; repeat split; vm_compute; reflexivity|]. split; [reflexivity|].
  assert (hlo : left_out [sid_b] pk_m) by (intros s [<-|[]]; vm_compute; discriminate). split; [exact hlo|]. split; [exact ex_closed|]. split; [exact ex_filler|].
  assert (hrk : rekey left_g [sid_b] adm_first = Ok second) by (vm_compute; reflexivity). split; [exact hrk|]. split; [reflexivity|].
  split; [intros k' n t [<-|[]]; apply mark_other; vm_compute; reflexivity|]. split; [vm_compute; reflexivity|].
  split; [|split; vm_compute; reflexivity]. constructor; [|constructor].
  apply (sw_rekey left_g mem_first pk_m kp_m adm_first gsk gpk [sid_b] (fst second) (snd second)); auto using ex_closed, ex_filler.
Qed.
