(** Proofs of C94: the three objects of a group on one device. *)
From Verif Require Import Contacts Members Open GroupObjSpec Data_facts Reach_facts Life_facts Life2_facts Life4_facts Base_facts Conf2_facts Records Records_facts KeyList_facts Keys_facts Keys2_facts Keys3_facts Keys5_facts Group Group_facts Open_facts Message_facts.

Definition reader_env (G : gcrypt) (B : benv) (pk : bytes) : benv := signing_env G (group_sigs pk None) B.
Lemma reader_ok G B pk : class_ok B -> benv_ok (reader_env G B pk).
Proof. intros [h1 h2]. split; [exact h1|cbn; lia| |]; intros; discriminate. Qed.
Lemma reader_ro G B pk : readonly (reader_env G B pk) = true.
Proof. reflexivity. Qed.
Lemma writer_eq G B pk sk : signing_env G (group_sigs pk (Some sk)) B = with_signer (g_sign G sk) (reader_env G B pk).
Proof. reflexivity. Qed.
Lemma sigs_env_ok G B pk sk : sizes_ok G -> class_ok B -> match sk with Some s => key_pair G s pk | None => True end -> benv_ok (signing_env G (group_sigs pk sk) B).
Proof.
  intros hz hB hp. destruct sk as [s|]; [|exact (reader_ok G B pk hB)]. rewrite writer_eq. destruct (reader_ok G B pk hB) as [b1 b2 b3 b4]. split; [exact b1|exact b2| |].
  - intros v g x [= <-] [= <-]. apply hp.
  - intros g x [= <-]. apply (z_sign _ hz).
Qed.

Record inv3o (G : gcrypt) (B : part -> benv) (q : gobjs) : Prop := {
  io_reach : kreach G (q_keys q);
  io_sigs : forall p, q_sigs q p = group_sigs (ko_pk (q_keys q)) (ko_sk (q_keys q));
  io_pair : match ko_sk (q_keys q) with Some s => key_pair G s (ko_pk (q_keys q)) /\ skipn 32 s = ko_pk (q_keys q) | None => True end;
  io_keys : forall p, has_keys (q_keys q) (q_conf q p);
  io_life : forall p, life (part_env G B q p) tame (q_conf q p)
}.
Lemma inv3o_env G B q p : lib_ok G -> class_ok (B p) -> inv3o G B q -> benv_ok (part_env G B q p).
Proof.
  intros [_ hz] hB hi. unfold part_env. rewrite (io_sigs _ _ _ hi). apply sigs_env_ok; auto. pose proof (io_pair _ _ _ hi) as h. destruct (ko_sk (q_keys q)); [apply h|exact Logic.I].
Qed.

(** handing the keys to a config *)
Lemma life_sendable B st : benv_ok B -> life B tame st -> sendable (s_data st).
Proof.
  intros hB hl. pose proof (i1_cfg _ _ (life_inv1 _ _ hB hl)) as h. unfold s_data, s_msg. destruct (s_conf st) as [m|m o]; cbn [c_msg cfg_ok] in *; apply (fr_send _ _ (proj1 h)).
Qed.
Lemma usable_keys ks st : usable st -> usable (set_keys ks st).
Proof. destruct st. exact (fun h => h). Qed.
Definition first_changes (ks : list bytes) (st : bstate) : bool :=
  match ks, s_keys st with [], [] => false | [], _ => true | _, [] => true | f :: _, g :: _ => negb (eqb g f) end.
Lemma replace_ok B ks d st st' : replace_keys B ks d st = (Ok tt, st') ->
  exists ks', if d && negb (readonly B) && first_changes ks st then dirty B (set_keys ks' st) = (Ok tt, st') else st' = set_keys ks' st.
Proof.
  unfold replace_keys, first_changes. destruct ks as [|f r].
  - destruct (s_keys st) as [|k0 ks0] eqn:ek.
    + intros [= <-]. exists []. rewrite andb_false_r. destruct st; cbn in *; subst; reflexivity.
    + unfold clear_keys. rewrite ek. cbv zeta. change (Nat.ltb 0 (length (k0 :: ks0))) with true. destruct (d && negb (readonly B) && true); intros h; exists [].
      * destruct (dirty B (set_keys [] st)) as [[[]| | | |] st2]; try discriminate. injection h as <-. reflexivity.
      * injection h as <-. reflexivity.
  - destruct (negb (forallb _ _)); [discriminate|]. cbv zeta. destruct (fold_add_keys B (f :: r) (set_keys [] st)) as [ks e]. rewrite e.
    change (set_keys ks (set_keys [] st)) with (set_keys ks st). intros h. exists ks. destruct (s_keys st) as [|g r']; [destruct (_ && true)|destruct (_ && negb _)]; [exact h|injection h as <-; reflexivity|exact h|injection h as <-; reflexivity].
Qed.
Lemma replace_life B ks d st st' : benv_ok B -> life B tame st -> replace_keys B ks d st = (Ok tt, st') -> life B tame st' /\ s_data st' = s_data st.
Proof.
  intros hB hl h. pose proof (life_usable _ _ hB hl) as hu.
  assert (hd : s_data st' = s_data st).
  { destruct (replace_ok _ _ _ _ _ h) as [ks' h']. destruct (_ && _) in h'.
    - destruct (dirty_data _ _ _ (usable_keys ks' st hu) h') as [-> _]. destruct st; reflexivity.
    - rewrite h'. destruct st; reflexivity. }
  split; [|exact hd]. eapply life_step; [exact hl|]. apply (step_run _ _ _ (OpReplaceKeys ks d) (Ok tt) st' h); [split; discriminate|]. split; [exact Logic.I|]. rewrite hd. exact (life_sendable _ _ hB hl).
Qed.
Lemma hand_out_ok E ks d c c' : hand_out E ks d c = (Ok tt, c') -> forall p, replace_keys (E p) ks d (c p) = (Ok tt, c' p).
Proof.
  unfold hand_out. destruct (replace_keys (E Members) ks d (c Members)) as [[[]| | | |] m] eqn:em; try discriminate.
  destruct (replace_keys (E Info) ks d (c Info)) as [[[]| | | |] i] eqn:ei; try discriminate. intros [= <-] [|]; assumption.
Qed.
Lemma replace_has B o d st st' : kinv o -> NoDup (s_keys st) -> replace_keys B (group_keys o) d st = (Ok tt, st') -> has_keys o st'.
Proof. intros hi hn h. pose proof (give_keys B o d st hi hn) as hg. unfold give in hg. rewrite h in hg. exact hg. Qed.
Lemma kreach_step G o o' : kreach G o -> kstep G o o' -> kreach G o'.
Proof. intros (u & p & s & h1 & h2 & h3 & h4) hs. exists u, p, s. repeat (split; [assumption|]). eapply kl_step; eassumption. Qed.
Lemma inv3o_hand G B q o d c' : lib_ok G -> (forall p, class_ok (B p)) -> inv3o G B q -> kstep G (q_keys q) o -> ko_pk o = ko_pk (q_keys q) -> ko_sk o = ko_sk (q_keys q) ->
  hand_out (part_env G B q) (group_keys o) d (q_conf q) = (Ok tt, c') -> inv3o G B (mkObjs o (q_sigs q) c').
Proof.
  intros hG hB hi hs e1 e2 h. pose proof (hand_out_ok _ _ _ _ _ h) as hp. pose proof (kreach_step _ _ _ (io_reach _ _ _ hi) hs) as hr.
  split; cbn [q_keys q_sigs q_conf].
  - exact hr.
  - intros p. rewrite e1, e2. apply (io_sigs _ _ _ hi).
  - rewrite e1, e2. apply (io_pair _ _ _ hi).
  - intros p. eapply replace_has; [exact (kinv_reach _ _ hG hr)| |apply hp]. eapply has_NoDup. apply (io_keys _ _ _ hi).
  - intros p. apply (replace_life _ _ _ _ _ (inv3o_env G B q p hG (hB p) hi) (io_life _ _ _ hi p) (hp p)).
Qed.
Lemma inv3o_keys G B q o : inv3o G B q -> kstep G (q_keys q) o -> ko_pk o = ko_pk (q_keys q) -> ko_sk o = ko_sk (q_keys q) -> group_keys o = group_keys (q_keys q) ->
  inv3o G B (mkObjs o (q_sigs q) (q_conf q)).
Proof.
  intros hi hs e1 e2 e3. split; cbn [q_keys q_sigs q_conf].
  - exact (kreach_step _ _ _ (io_reach _ _ _ hi) hs).
  - intros p. rewrite e1, e2. apply (io_sigs _ _ _ hi).
  - rewrite e1, e2. apply (io_pair _ _ _ hi).
  - intros p. unfold has_keys. rewrite e3. apply (io_keys _ _ _ hi).
  - apply (io_life _ _ _ hi).
Qed.
Lemma group_load_inv G B h data ts q found q' : group_load G B h data ts q = (Ok found, q') ->
  exists o, load_key_message G h data ts (q_keys q) = Ok (found, o) /\ q_keys q' = o /\ q_sigs q' = q_sigs q /\
    (if found then hand_out (part_env G B q) (group_keys o) false (q_conf q) = (Ok tt, q_conf q') else q_conf q' = q_conf q) /\ q' = mkObjs o (q_sigs q) (q_conf q').
Proof.
  unfold group_load. destruct (load_key_message _ _ _ _ _) as [[[] o]| | | |] eqn:el; try discriminate.
  - destruct (hand_out _ _ _ _) as [[[]| | | |] c] eqn:eh; try discriminate. intros [= <- <-]. exists o. auto.
  - intros [= <- <-]. exists o. auto.
Qed.
Lemma group_rekey_inv G B q m q' : group_rekey G B q = (Ok m, q') ->
  exists l o, members_list (q_conf q Members) = Ok l /\ rekey G (map fst l) (q_keys q) = Ok (m, o) /\ q_keys q' = o /\ q_sigs q' = q_sigs q /\
    hand_out (part_env G B q) (group_keys o) true (q_conf q) = (Ok tt, q_conf q') /\ q' = mkObjs o (q_sigs q) (q_conf q').
Proof.
  unfold group_rekey. destruct (negb _); [discriminate|]. destruct (members_list _) as [l| | | |]; try discriminate. destruct (rekey _ _ _) as [[m0 o]| | | |] eqn:er; try discriminate.
  destruct (hand_out _ _ _ _) as [[[]| | | |] c] eqn:eh; try discriminate. intros [= <- <-]. exists l, o. auto 10.
Qed.
Lemma load_ids G h data ts o r o' : load_key_message G h data ts o = Ok (r, o') -> ko_user o' = ko_user o /\ ko_pk o' = ko_pk o /\ ko_sk o' = ko_sk o.
Proof. intros h'. apply load_inv in h' as (ks & gen & s & sig & _ & _ & -> & _). apply take_id. Qed.
Lemma rekey_ids G sids o m o' : rekey G sids o = Ok (m, o') -> ko_user o' = ko_user o /\ ko_pk o' = ko_pk o /\ ko_sk o' = ko_sk o.
Proof. intros h. apply rekey_inv in h as (sk & gen & key & _ & _ & _ & _ & _ & ->). auto. Qed.

(** opening *)
Lemma open_group_ok B pk sk d s st : open_group B pk sk d = Ok (s, st) ->
  (length pk = 32 /\ match sk with Some k => length k = 64 /\ skipn 32 k = pk | None => True end) /\ s = group_sigs pk sk /\
  match d with Some d => restore B [] d = Ok st | None => st = Base.fresh B [] end.
Proof.
  unfold open_group, base_new. intros h. destruct (match d with Some d => restore B [] d | None => Ok (Base.fresh B []) end) as [st0| | | |] eqn:e0; try discriminate. cbn [bind] in h.
  destruct (init_sig_keys (Some pk) sk no_sigs) as [s0| | | |] eqn:es; try discriminate. injection h as <- <-.
  assert (hs : (length pk = 32 /\ match sk with Some k => length k = 64 /\ skipn 32 k = pk | None => True end) /\ s0 = group_sigs pk sk).
  { unfold init_sig_keys in es. destruct sk as [k|].
    - destruct (Nat.ltb (length k) 32) eqn:e1; [discriminate|]. destruct (eqb pk (skipn 32 k)) eqn:e2; [|discriminate]. apply eqb_eq in e2. cbn [negb] in es.
      unfold set_sig_keys in es. destruct (Nat.eqb (length k) 64) eqn:e3; [|discriminate]. apply Nat.eqb_eq in e3. assert (e4 : s0 = mkSigs (Some k) (Some (skipn 32 k)) true true) by (apply (f_equal (fun r => match r with Ok x => x | _ => s0 end)) in es; symmetry; exact es). clear es. rewrite e4, <- e2.
      split; [|reflexivity]. split; [rewrite e2, skipn_length; unfold bytes in *; lia|split; [exact e3|reflexivity]].
    - unfold set_sig_pubkey in es. destruct (Nat.eqb (length pk) 32) eqn:e3; [|discriminate]. apply Nat.eqb_eq in e3. injection es as <-. auto. }
  destruct hs as [h1 h2]. split; [exact h1|]. split; [exact h2|]. destruct d; [exact e0|injection e0 as <-; reflexivity].
Qed.
Lemma keys_open_ok G E user pk sk d c o c' : keys_open G E user pk sk d c = (Ok o, c') ->
  length user = 64 /\ length pk = 32 /\ match sk with Some s => length s = 64 | None => True end /\
  match d with
  | None => o = new_keys user pk sk /\ c' = c
  | Some d => load_dump d (new_keys user pk sk) = Ok o /\ hand_out E (group_keys o) false c = (Ok tt, c')
  end.
Proof.
  unfold keys_open. destruct (Nat.eqb (length user) 64) eqn:e1; [|discriminate]. destruct (Nat.eqb (length pk) 32) eqn:e2; [|discriminate]. cbn [negb].
  destruct (match sk with Some s => negb (Nat.eqb (length s) 64) | None => false end) eqn:e3; [discriminate|]. destruct (init_sig_keys _ _ _) as [s0| | | |]; try discriminate.
  apply Nat.eqb_eq in e1, e2. assert (h3 : match sk with Some s => length s = 64 | None => True end) by (destruct sk; [apply Nat.eqb_eq, negb_false_iff; exact e3|exact Logic.I]).
  intros h. repeat (split; [assumption|]). destruct d as [d|].
  - destruct (load_dump d _) as [o1| | | |] eqn:el; try discriminate. destruct (hand_out _ _ _ _) as [[[]| | | |] c1] eqn:eh; try discriminate. injection h as <- <-. auto.
  - injection h as <- <-. auto.
Qed.
Lemma fresh_sig G s B ks : Base.fresh (signing_env G s B) ks = Base.fresh B ks.
Proof. reflexivity. Qed.
Lemma restore_sig G s B ks d : restore (signing_env G s B) ks d = restore B ks d.
Proof. reflexivity. Qed.
Lemma group_open_inv G B user pk sk di dm dk q : group_open G B user pk sk di dm dk = Ok q ->
  length user = 64 /\ length pk = 32 /\ match sk with Some k => length k = 64 /\ skipn 32 k = pk | None => True end /\ (forall p, q_sigs q p = group_sigs pk sk) /\
  exists c, (forall p, match (match p with Info => di | Members => dm end) with Some d => restore (B p) [] d = Ok (c p) | None => c p = Base.fresh (B p) [] end) /\
  match dk with
  | None => q_keys q = new_keys user pk sk /\ forall p, q_conf q p = c p
  | Some d => load_dump d (new_keys user pk sk) = Ok (q_keys q) /\ forall p, replace_keys (part_env G B q p) (group_keys (q_keys q)) false (c p) = (Ok tt, q_conf q p)
  end.
Proof.
  unfold group_open. intros h. destruct (open_group (B Info) pk sk di) as [[si ci]| | | |] eqn:ei; try discriminate. cbn [bind] in h.
  destruct (open_group (B Members) pk sk dm) as [[sm cm]| | | |] eqn:em; try discriminate. cbn [bind fst snd] in h. cbv zeta in h.
  apply open_group_ok in ei as ((h1 & h2) & -> & hi). apply open_group_ok in em as (_ & -> & hm).
  destruct (keys_open _ _ _ _ _ _ _) as [[o| | | |] c'] eqn:ek in h; try discriminate. injection h as <-. apply keys_open_ok in ek as (h3 & _ & _ & hk).
  split; [exact h3|]. split; [exact h1|]. split; [exact h2|]. cbn [q_sigs q_keys q_conf]. split; [intros [|]; reflexivity|].
  exists (fun p => match p with Info => ci | Members => cm end). split; [intros [|]; assumption|]. destruct dk as [d|].
  - destruct hk as [hk1 hk2]. split; [exact hk1|]. intros p. apply (hand_out_ok _ _ _ _ _ hk2).
  - destruct hk as [-> ->]. auto.
Qed.
Lemma inv3o_open G B user pk sk q : lib_ok G -> (forall p, class_ok (B p)) -> match sk with Some s => key_pair G s pk | None => True end ->
  group_open G B user pk sk None None None = Ok q -> inv3o G B q.
Proof.
  intros hG hB hp h. apply group_open_inv in h as (h1 & h2 & h3 & h4 & c & h5 & h6 & h7).
  assert (hpart : forall p, q_conf q p = Base.fresh (B p) []) by (intros p; rewrite (h7 p); specialize (h5 p); destruct p; exact h5).
  split; rewrite ?h6; cbn [new_keys ko_pk ko_sk].
  - exists user, pk, sk. split; [exact h1|]. split; [exact h2|]. split; [destruct sk; [apply h3|exact Logic.I]|constructor].
  - exact h4.
  - destruct sk; [split; [exact hp|apply h3]|exact Logic.I].
  - intros p. rewrite hpart. reflexivity.
  - intros p. rewrite hpart. unfold part_env. rewrite <- (fresh_sig G (q_sigs q p)). constructor.
Qed.
Lemma inv3o_reopen G B q di sti dm stm q' : lib_ok G -> (forall p, class_ok (B p)) -> inv3o G B q ->
  dump (part_env G B q Info) (q_conf q Info) = (Ok di, sti) -> dump (part_env G B q Members) (q_conf q Members) = (Ok dm, stm) ->
  (N.of_nat (length di) <= uint64_max)%N -> (N.of_nat (length dm) <= uint64_max)%N -> (N.of_nat (length (kdump (q_keys q))) <= uint64_max)%N ->
  group_open G B (ko_user (q_keys q)) (ko_pk (q_keys q)) (ko_sk (q_keys q)) (Some di) (Some dm) (Some (kdump (q_keys q))) = Ok q' -> inv3o G B q'.
Proof.
  intros hG hB hi hdi hdm n1 n2 n3 h. apply group_open_inv in h as (h1 & h2 & h3 & h4 & c & h5 & h6 & h7).
  assert (hr : kreach G (q_keys q')). { eapply kreach_step; [exact (io_reach _ _ _ hi)|]. apply ks_restart; [exact n3|exact h6]. }
  assert (hid : ko_pk (q_keys q') = ko_pk (q_keys q) /\ ko_sk (q_keys q') = ko_sk (q_keys q)).
  { pose proof (kinv_reach _ _ hG (io_reach _ _ _ hi)) as hk. rewrite load_kdump in h6 by assumption. assert (e : q_keys q' = restored (q_keys q) (ko_user (q_keys q)) (ko_pk (q_keys q)) (ko_sk (q_keys q))) by congruence. rewrite e. split; reflexivity. }
  destruct hid as [e1 e2].
  assert (hs : forall p, q_sigs q' p = q_sigs q p) by (intros p; rewrite h4, (io_sigs _ _ _ hi); reflexivity).
  assert (henv : forall p, part_env G B q' p = part_env G B q p) by (intros p; unfold part_env; rewrite hs; reflexivity).
  assert (hlc : forall p, life (part_env G B q p) tame (c p) /\ s_keys (c p) = []).
  { intros p. specialize (h5 p). destruct p; (split; [|exact (proj2 (restore_keys _ _ _ [] h5))]).
    - eapply life_restore; [apply (io_life _ _ _ hi)|exact hdi|exact n1|]. exact h5.
    - eapply life_restore; [apply (io_life _ _ _ hi)|exact hdm|exact n2|]. exact h5. }
  split; rewrite ?e1, ?e2.
  - exact hr.
  - exact h4.
  - apply (io_pair _ _ _ hi).
  - intros p. eapply replace_has; [exact (kinv_reach _ _ hG hr)| |apply h7]. rewrite (proj2 (hlc p)). constructor.
  - intros p. specialize (h7 p). rewrite henv in *. eapply replace_life; [apply inv3o_env; auto|exact (proj1 (hlc p))|exact h7].
Qed.
Lemma admin_key_spec G secret o o' : load_admin_key G secret o = Ok o' -> admin o = false ->
  exists seed, length seed = 32 /\ ko_pk o = g_edpk G seed /\ o' = mkK (ko_user o) (g_edpk G seed) (Some (seed ++ g_edpk G seed)) (ko_keys o) (ko_active o) (ko_pconf o) (ko_pgen o) (ko_pkey o) (ko_needs_dump o).
Proof.
  unfold load_admin_key. intros h ha. rewrite ha in h. destruct (negb (_ || _)) eqn:e1; [discriminate|]. cbv zeta in h. destruct (eqb _ _) eqn:e2; [|discriminate]. apply eqb_eq in e2. cbn [negb] in h.
  exists (firstn 32 secret). split; [apply key32, size_ok; exact e1|]. split; [exact e2|]. congruence.
Qed.
Lemma group_admin_inv G secret q q' : sizes_ok G -> group_admin G secret q = (Ok tt, q') ->
  (admin (q_keys q) = true /\ q' = q) \/
  (admin (q_keys q) = false /\ load_admin_key G secret (q_keys q) = Ok (q_keys q') /\ q_conf q' = q_conf q /\
   exists seed, length seed = 32 /\ ko_pk (q_keys q) = g_edpk G seed /\ ko_pk (q_keys q') = g_edpk G seed /\ ko_sk (q_keys q') = Some (seed ++ g_edpk G seed) /\
     group_keys (q_keys q') = group_keys (q_keys q) /\ forall p, q_sigs q' p = group_sigs (g_edpk G seed) (Some (seed ++ g_edpk G seed))).
Proof.
  intros hz. unfold group_admin. destruct (admin (q_keys q)) eqn:ea; [intros [= <-]; auto|]. destruct (load_admin_key G secret (q_keys q)) as [o| | | |] eqn:el; try discriminate.
  destruct (admin_key_spec _ _ _ _ el ea) as (seed & h1 & h2 & h3).
  assert (hsk : ko_sk o = Some (seed ++ g_edpk G seed)) by (rewrite h3; reflexivity). rewrite hsk.
  assert (hset : forall s, set_sig_keys (seed ++ g_edpk G seed) s = Ok (group_sigs (g_edpk G seed) (Some (seed ++ g_edpk G seed)))).
  { intros s. unfold set_sig_keys. rewrite app_length, h1, (z_edpk _ hz). cbn [Nat.add Nat.eqb negb]. unfold group_sigs. rewrite <- h1, skipn_app, skipn_all, Nat.sub_diag. reflexivity. }
  rewrite !hset. intros [= <-]. right. split; [reflexivity|]. split; [reflexivity|]. split; [reflexivity|]. exists seed. cbn [q_keys q_sigs]. rewrite h3. cbn [ko_pk ko_sk].
  repeat (split; [auto|]). intros [|]; reflexivity.
Qed.
Lemma inv3o_admin G B secret q q' : lib_ok G -> seeds_sign G -> inv3o G B q -> group_admin G secret q = (Ok tt, q') -> inv3o G B q'.
Proof.
  intros hG hss hi h. apply group_admin_inv in h as [[_ ->]|(ha & hl & hc & seed & h1 & h2 & h3 & h4 & h5 & h6)]; [exact hi| |apply hG].
  split; rewrite ?h3, ?h4.
  - eapply kreach_step; [exact (io_reach _ _ _ hi)|]. eapply ks_admin. exact hl.
  - exact h6.
  - split; [apply hss; exact h1|]. rewrite <- h1 at 1. rewrite skipn_app, skipn_all, Nat.sub_diag. reflexivity.
  - intros p. unfold has_keys. rewrite hc, h5. apply (io_keys _ _ _ hi).
  - intros p. rewrite hc. unfold part_env. rewrite h6, writer_eq. eapply life_promote; [|apply reader_ro|reflexivity].
    pose proof (io_life _ _ _ hi p) as hl'. unfold part_env in hl'. rewrite (io_sigs _ _ _ hi), h2 in hl'. unfold admin in ha. destruct (ko_sk (q_keys q)); [discriminate|]. exact hl'.
Qed.
Lemma device3_inv G B q : lib_ok G -> seeds_sign G -> (forall p, class_ok (B p)) -> device3 G B q -> inv3o G B q.
Proof.
  intros hG hss hB h. induction h as [user pk sk q hp h|hh data ts found q q' _ IH h|m q q' _ IH h|q _ IH|secret q q' _ IH h|p o x q q' _ IH ho h hx ht|q di sti dm stm q' _ IH h1 h2 h3 h4 h5 h6].
  - exact (inv3o_open G B user pk sk q hG hB hp h).
  - apply group_load_inv in h as (o & hl & e1 & e2 & hc & ->). destruct (load_ids _ _ _ _ _ _ _ hl) as (_ & f1 & f2). destruct found.
    + eapply inv3o_hand; eauto. eapply ks_load. exact hl.
    + rewrite hc. apply inv3o_keys; auto; [eapply ks_load; exact hl|]. apply load_inv in hl as (ks & gen & s & sig & _ & _ & -> & hf). destruct ks; [|discriminate].
      apply take_none. exact (kinv_reach _ _ hG (io_reach _ _ _ IH)).
  - apply group_rekey_inv in h as (l & o & _ & hr & e1 & e2 & hc & ->). destruct (rekey_ids _ _ _ _ _ hr) as (_ & f1 & f2). eapply inv3o_hand; eauto. eapply ks_rekey. exact hr.
  - unfold group_dump. cbn [snd]. apply inv3o_keys; auto. apply ks_dump.
  - exact (inv3o_admin G B secret q q' hG hss IH h).
  - unfold group_conf in h. destruct (run (part_env G B q p) o (q_conf q p)) as [y st] eqn:er. injection h as -> <-.
    split; cbn [q_keys q_sigs q_conf]; try apply IH; intros p'; unfold set_part; cbn [q_conf] in ht; unfold set_part in ht.
    + destruct (same_part p p') eqn:es; [|apply (io_keys _ _ _ IH)]. unfold has_keys. rewrite (other_op_keys _ _ _ _ _ ho er). apply (io_keys _ _ _ IH).
    + change (part_env G B (mkObjs (q_keys q) (q_sigs q) _) p') with (part_env G B q p'). destruct (same_part p p') eqn:es; [|apply (io_life _ _ _ IH)].
      assert (e : p' = p) by (destruct p, p'; try reflexivity; discriminate es). subst p'. rewrite es in ht. eapply life_step; [apply (io_life _ _ _ IH)|]. eapply step_run; eassumption.
  - eapply inv3o_reopen; eassumption.
Qed.
