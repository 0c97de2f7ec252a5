(** What an accepted message looks like on the wire, and round trips of whole messages. *)
From Verif Require Import Data_facts Diff_facts Bt_facts Message Message_facts Parse_facts Merge Merge_facts Spec Replay_facts Resolve_facts.

(** ** the cursor walks the top-level dict *)
Definition ents (s : bytes) : option (btdict * bytes) := parse_entries (fuel_for s) s.
Lemma ents_end g : ents ("e"%char :: g) = Some ([], g).
Proof. reflexivity. Qed.
Lemma next_key_inv s k r : next_key s = Some (Some (k, r)) ->
  parse_str s = Some (k, r) /\ exists c q, s = c :: q /\ Ascii.eqb c "e" = false.
Proof.
  unfold next_key. destruct s as [|c s]; [discriminate|]. destruct (Ascii.eqb c "e") eqn:Ec; [discriminate|].
  destruct (parse_str (c :: s)) as [[k' r']|] eqn:E; [|discriminate]. destruct r' as [|c' r']; [discriminate|].
  destruct (Ascii.eqb c' "e"); [discriminate|]. intros [= <- <-]. split; [reflexivity|eauto].
Qed.
Lemma next_key_end_inv s : next_key s = Some None -> exists g, s = "e"%char :: g.
Proof.
  unfold next_key. destruct s as [|c s]; [discriminate|]. destruct (Ascii.eqb c "e") eqn:Ec.
  - apply Ascii.eqb_eq in Ec. subst. eauto.
  - destruct (parse_str (c :: s)) as [[k' [|c' r']]|]; try discriminate. destruct (Ascii.eqb c' "e"); discriminate.
Qed.
Lemma ents_step s k v t d g : consume s = Ok (k, v, t) -> ents t = Some (d, g) -> ents s = Some ((k, v) :: d, g).
Proof.
  unfold consume. destruct (next_key s) as [[[k' r]|]|] eqn:En; try discriminate.
  destruct (parse1 r) as [[v' t']|] eqn:Ev; [|discriminate]. intros [= -> -> ->] ht.
  apply next_key_inv in En as [hp (c & q & -> & hc)]. pose proof (parse_str_suffix _ _ _ hp) as (p1 & e1 & n1).
  pose proof (parse1_shrinks _ _ _ Ev) as (p2 & e2 & n2).
  assert (l1 : length r < length (c :: q)). { rewrite e1, app_length. destruct p1; [congruence|cbn; lia]. }
  assert (l2 : length t < length r). { rewrite e2, app_length. destruct p2; [congruence|cbn; lia]. }
  unfold ents, fuel_for. remember (2 * length (c :: q) + 1) as f eqn:Ef. replace (2 * length (c :: q) + 2) with (S f) by lia.
  cbn [parse_entries]. rewrite hc, hp.
  replace (parse_value f r) with (parse1 r) by (symmetry; apply parse_fuel; unfold fuel_for; lia). rewrite Ev.
  unfold ents in ht. replace (parse_entries f t) with (parse_entries (fuel_for t) t); [rewrite ht; reflexivity|].
  apply (parse_fuel_aux (fuel_for t) f t); unfold fuel_for; lia.
Qed.
Inductive wsteps : bytes -> btdict -> bytes -> Prop :=
| wsteps_nil s : wsteps s [] s
| wsteps_cons s k v s1 es t : consume s = Ok (k, v, s1) -> wsteps s1 es t -> wsteps s ((k, v) :: es) t.
Lemma wsteps_app s es t es' u : wsteps s es t -> wsteps t es' u -> wsteps s (es ++ es') u.
Proof. induction 1 as [s|s k v s1 es t hc hs IH]; intros h; [exact h|]. cbn [app]. econstructor; eauto. Qed.
Lemma wsteps_one s k v t : consume s = Ok (k, v, t) -> wsteps s [(k, v)] t.
Proof. intros h. econstructor; [exact h|constructor]. Qed.
Lemma wsteps_ents s es t d g : wsteps s es t -> ents t = Some (d, g) -> ents s = Some (es ++ d, g).
Proof. induction 1 as [s|s k v s1 es t hc hs IH]; intros h; [exact h|]. cbn [app]. eapply ents_step; eauto. Qed.
Definition normed (raw : btdict) : btdict := map (fun p => (fst p, norm (snd p))) raw.
Lemma load_unknowns_steps until prev : forall fuel unk s u' s',
  load_unknowns fuel unk prev until s = Some (u', s') -> exists raw, wsteps s raw s' /\ u' = unk ++ normed raw.
Proof.
  induction fuel as [|f IH]; intros unk s u' s' h; [discriminate|]. cbn [load_unknowns] in h.
  destruct (next_key s) as [[[k r]|]|] eqn:E; [| |discriminate].
  - destruct (ltb k until) eqn:Eu.
    + destruct (_ || _); [discriminate|]. destruct (parse1 r) as [[v r']|] eqn:Ev; [|discriminate].
      apply IH in h as (raw & hs & ->). exists ((k, v) :: raw). split.
      * econstructor; [|exact hs]. unfold consume. rewrite E, Ev. reflexivity.
      * cbn [normed map fst snd]. rewrite <- app_assoc. reflexivity.
    + injection h as <- <-. exists []. split; [constructor|rewrite app_nil_r; reflexivity].
  - injection h as <- <-. exists []. split; [constructor|rewrite app_nil_r; reflexivity].
Qed.
Lemma unknowns_steps unk prev until s u' s' : unknowns unk prev until s = Ok (u', s') ->
  exists raw, wsteps s raw s' /\ u' = unk ++ normed raw.
Proof.
  unfold unknowns. destruct (load_unknowns _ unk prev until s) as [[u'' s'']|] eqn:E; [|discriminate].
  cbn [of_opt]. intros [= <- <-]. exact (load_unknowns_steps _ _ _ _ _ _ _ E).
Qed.
Lemma keys_normed raw : keys (normed raw) = keys raw.
Proof. apply keys_map. Qed.
Lemma lookup_normed raw k : lookup k (normed raw) = option_map norm (lookup k raw).
Proof. apply lookup_map. Qed.

Lemma parse1_str_inv r x t : parse1 r = Some (BStr x, t) -> parse_str r = Some (x, t).
Proof.
  unfold parse1, fuel_for. replace (2 * length r + 2) with (S (2 * length r + 1)) by lia. cbn [parse_value].
  destruct r as [|c r]; [discriminate|]. destruct (Ascii.eqb c "i"); [destruct (parse_int r) as [[? ?]|]; discriminate|].
  destruct (Ascii.eqb c "l"); [destruct (parse_list _ r) as [[? ?]|]; discriminate|].
  destruct (Ascii.eqb c "d"); [destruct (parse_entries _ r) as [[? ?]|]; discriminate|].
  destruct (parse_str (c :: r)) as [[? ?]|]; [intros [= -> ->]; reflexivity|discriminate].
Qed.
Lemma verify_sig_inv E trust whole s vs : suffix s whole -> verify_sig E trust whole s = Ok vs ->
  exists g, ((vs = None /\ e_verifier E = None /\ s = "e"%char :: g) \/
   exists sig t, wsteps s [(b "~", BStr sig)] t /\ t = "e"%char :: g /\ length sig = 64 /\
     (vs = None -> e_verifier E = None) /\ (forall x, vs = Some x -> x = sig) /\
     (forall v, e_verifier E = Some v -> vs = Some sig /\ signed_by v whole sig g)).
Proof.
  intros [pre hpre]. unfold verify_sig. destruct (next_key s) as [[[k r]|]|] eqn:En; [| |discriminate].
  - destruct (eqb k (b "~")) eqn:Ek; [|discriminate]. apply eqb_eq in Ek. subst k.
    destruct (consume s) as [[[k' [|sig| | ]] t]| | | |] eqn:Ec; try discriminate.
    destruct (Nat.eqb (length sig) 64) eqn:E64; [|discriminate]. apply Nat.eqb_eq in E64. cbn [negb]. intros h.
    assert (hk : k' = b "~" /\ parse_str s = Some (b "~", r) /\ parse_str r = Some (sig, t)).
    { unfold consume in Ec. rewrite En in Ec. destruct (parse1 r) as [[v' t']|] eqn:Ev; [|discriminate].
      injection Ec as <- -> ->. apply next_key_inv in En as [h1 _]. split; [reflexivity|]. split; [exact h1|]. apply parse1_str_inv, Ev. }
    destruct hk as (-> & hk1 & hk2).
    assert (hw : firstn (length whole - length s) whole = pre).
    { rewrite hpre, app_length, Nat.add_sub, firstn_app, firstn_all, Nat.sub_diag. apply app_nil_r. }
    rewrite hw in h.
    destruct (e_verifier E) as [v|] eqn:Ev.
    + destruct (v pre sig) eqn:Evs; [|discriminate]. cbn [negb] in h. destruct (next_key t) as [[|]|] eqn:Et; try discriminate.
      injection h as <-. apply next_key_end_inv in Et as [g ->]. exists g. right. exists sig, ("e"%char :: g).
      split; [apply wsteps_one, Ec|]. split; [reflexivity|]. split; [exact E64|]. split; [congruence|]. split; [congruence|].
      intros v' [= <-]. split; [reflexivity|]. exists pre, s, r. auto 10.
    + destruct (next_key t) as [[|]|] eqn:Et; try discriminate.
      injection h as <-. apply next_key_end_inv in Et as [g ->]. exists g. right. exists sig, ("e"%char :: g).
      split; [apply wsteps_one, Ec|]. split; [reflexivity|]. split; [exact E64|]. split; [reflexivity|].
      split; [destruct trust; [intros x [= <-]; reflexivity|discriminate]|congruence].
  - destruct (e_verifier E) eqn:Ev; [discriminate|]. intros [= <-]. apply next_key_end_inv in En as [g ->]. exists g. left. auto.
Qed.

Lemma between_trans (lo k hi : bytes) : ltb lo k = true -> ltb k hi = true -> lt lo hi.
Proof. intros h1 h2. apply ltb_lt in h1, h2. eapply lt_trans; eauto. Qed.
Definition within (lo hi : bytes) (l : btdict) : Prop := Forall (fun k => ltb lo k = true /\ ltb k hi = true) (keys l).
(** pieces of the top-level dict, in order *)
Lemma lookup_within lo hi l k : within lo hi l -> (ltb lo k = false \/ ltb k hi = false) -> lookup k l = None.
Proof.
  intros h hk. apply lookup_None. intros hin. unfold within in h. rewrite Forall_forall in h. destruct (h k hin). destruct hk; congruence.
Qed.
Lemma within_incl lo hi lo' hi' l : within lo hi l -> leb lo' lo = true -> leb hi hi' = true -> within lo' hi' l.
Proof.
  intros h h1 h2. eapply Forall_impl; [|exact h]. intros k [k1 k2]. apply ltb_lt in k1, k2. apply leb_nlt in h1, h2.
  split; apply ltb_lt.
  - destruct (lt_total lo' lo) as [?|[->|?]]; [eapply lt_trans; eauto|exact k1|tauto].
  - destruct (lt_total hi hi') as [?|[<-|?]]; [eapply lt_trans; eauto|exact k2|tauto].
Qed.
Lemma ssorted_mid (l1 l2 : list bytes) x : ssorted l1 -> ssorted l2 -> (forall y, In y l1 -> lt y x) -> (forall y, In y l2 -> lt x y) ->
  ssorted (l1 ++ x :: l2).
Proof.
  intros h1 h2 h3 h4. apply ssorted_app. split; [exact h1|]. split; [apply ssorted_cons; split; [exact h2|apply Forall_forall, h4]|].
  intros a c ha [<-|hc]; [auto|]. eapply lt_trans; eauto.
Qed.

Lemma parse_msg_wire E trust s m : parse_msg E trust s = Ok m -> exists d g, on_wire E s m d g.
Proof.
  intros h. pose proof h as hpm. unfold parse_msg in h.
  assert (hd : exists s0, s = "d"%char :: s0).
  { destruct s as [|c s0]; [discriminate h|]. destruct c as [[] [] [] [] [] [] [] []]; try discriminate h. eauto. }
  destruct hd as [s0 hs0]. rewrite hs0 in h. cbn iota in h. rewrite <- hs0 in h.
  assert (sf0 : suffix s0 s) by (rewrite hs0; apply suffix_cons).
  ok_inv h. rename ha into c1. destruct a as [[k v] s1].
  destruct v as [seqno| | | ]; try discriminate h.
  destruct (eqb k (b "#") && int64_ok seqno) eqn:E1; [|discriminate h]. cbn [negb] in h. apply andb_true_iff in E1 as [hk1 hseq].
  apply eqb_eq in hk1. subst k. pose proof (proj2 (proj2 (consume_spec _ _ _ _ c1))) as sf1.
  ok_inv h. rename ha into c2. destruct a as [u1 s2]. pose proof (unknowns_spec _ _ _ _ _ _ c2) as (sf2 & w1 & e1 & f1 & z1).
  apply unknowns_steps in c2 as (raw1 & st1 & e1').
  ok_inv h. rename ha into c3. destruct a as [[k3 v3] s3]. destruct v3 as [| | |d]; try discriminate h.
  destruct (eqb k3 (b "&")) eqn:Ek3; [|discriminate h]. cbn [negb] in h. apply eqb_eq in Ek3. subst k3.
  pose proof (proj2 (proj2 (consume_spec _ _ _ _ c3))) as sf3.
  ok_inv h. rename ha into c4, a into data. destruct (dict_of_bt d) as [data'|] eqn:Ed; [|discriminate c4]. injection c4 as ->.
  apply dict_of_bt_inv in Ed as (hd1 & _ & _).
  ok_inv h. rename ha into c5. destruct a as [u2 s4]. pose proof (unknowns_spec _ _ _ _ _ _ c5) as (sf4 & w2 & e2 & f2 & z2).
  apply unknowns_steps in c5 as (raw2 & st2 & e2').
  ok_inv h. rename ha into c6, a into haslag.
  ok_inv h. rename ha into c7. destruct a as [lagged s5].
  assert (hlg : exists lg, wsteps s4 lg s5 /\ suffix s5 s4 /\ (lg = [] \/ exists x, lg = [(b "<", x)])).
  { destruct haslag.
    - ok_inv c7. destruct a as [[kk vv] ss]. destruct vv as [| |l|]; try discriminate c7. ok_inv c7. injection c7 as <- <-.
      exists [(kk, BList l)]. split; [apply wsteps_one, ha|]. split; [apply (consume_spec _ _ _ _ ha)|]. right. exists (BList l). do 2 f_equal.
      unfold key_is in c6. unfold consume in ha. destruct (next_key s4) as [[[k' r]|]|]; try discriminate.
      destruct (parse1 r) as [[? ?]|]; [|discriminate]. injection ha as <- _ _. injection c6 as c6. apply eqb_eq, c6.
    - injection c7 as <- <-. exists []. split; [constructor|]. split; [apply suffix_refl|left; reflexivity]. }
  destruct hlg as (lg & st3 & sf5 & hlg). clear c7 c6.
  ok_inv h. rename ha into c8. destruct a as [u3 s6]. pose proof (unknowns_spec _ _ _ _ _ _ c8) as (sf6 & w3 & e3 & f3 & z3).
  apply unknowns_steps in c8 as (raw3 & st4 & e3').
  ok_inv h. rename ha into c9, a into hasdiff.
  ok_inv h. rename ha into c10. destruct a as [df s7].
  assert (hdf : exists dg, wsteps s6 dg s7 /\ suffix s7 s6 /\ (dg = [] \/ exists x, dg = [(b "=", x)])).
  { destruct hasdiff.
    - ok_inv c10. destruct a as [[kk vv] ss]. destruct vv as [| | |d']; try discriminate c10. ok_inv c10. injection c10 as <- <-.
      exists [(kk, BDict d')]. split; [apply wsteps_one, ha|]. split; [apply (consume_spec _ _ _ _ ha)|]. right. exists (BDict d'). do 2 f_equal.
      unfold key_is in c9. unfold consume in ha. destruct (next_key s6) as [[[k' r]|]|]; try discriminate.
      destruct (parse1 r) as [[? ?]|]; [|discriminate]. injection ha as <- _ _. injection c9 as c9. apply eqb_eq, c9.
    - injection c10 as <- <-. exists []. split; [constructor|]. split; [apply suffix_refl|left; reflexivity]. }
  destruct hdf as (dg & st5 & sf7 & hdg). clear c10 c9.
  ok_inv h. rename ha into c11. destruct a as [u4 s8]. pose proof (unknowns_spec _ _ _ _ _ _ c11) as (sf8 & w4 & e4 & f4 & z4).
  apply unknowns_steps in c11 as (raw4 & st6 & e4').
  ok_inv h. rename ha into c12, a into vs. injection h as hm.
  assert (hsf : suffix s8 s). { repeat first [assumption | eapply suffix_trans; [eassumption|]]. }
  assert (hr1 : w1 = normed raw1) by (rewrite e1 in e1'; apply app_inv_head in e1'; exact e1').
  assert (hr2 : w2 = normed raw2) by (rewrite e2 in e2'; apply app_inv_head in e2'; exact e2').
  assert (hr3 : w3 = normed raw3) by (rewrite e3 in e3'; apply app_inv_head in e3'; exact e3').
  assert (hr4 : w4 = normed raw4) by (rewrite e4 in e4'; apply app_inv_head in e4'; exact e4').
  assert (hb : forall prev utl w raw, w = normed raw ->
     Forall (fun p => ltb (fst p) utl = true /\ ltb prev (fst p) = true /\ str_ok (fst p) = true /\ bt_ok (snd p) = true) w -> within prev utl raw).
  { intros prev utl w raw -> hf. unfold within. rewrite <- keys_normed. apply Forall_forall. intros x hx. apply in_map_iff in hx as (p & <- & hp).
    rewrite Forall_forall in hf. destruct (hf p hp) as (q1 & q2 & _). auto. }
  apply (hb _ _ _ _ hr1) in f1. apply (hb _ _ _ _ hr2) in f2. apply (hb _ _ _ _ hr3) in f3. apply (hb _ _ _ _ hr4) in f4. clear hb.
  assert (hsorted : ssorted (keys (raw1 ++ raw2 ++ raw3 ++ raw4))).
  { specialize (z1 (ssorted_nil (K := bytes))). specialize (z2 z1). specialize (z3 z2). specialize (z4 z3).
    rewrite e4, e3, e2, e1, hr1, hr2, hr3, hr4 in z4. cbn [app] in z4. rewrite !keys_app, !keys_normed in z4. rewrite !keys_app, !app_assoc. exact z4. }
  rewrite !keys_app in hsorted. apply ssorted_app in hsorted as (q1 & hsorted & _). apply ssorted_app in hsorted as (q2 & hsorted & _).
  apply ssorted_app in hsorted as (q3 & q4 & _).
  (* the whole list *)
  set (sigs := match vs with Some x => [(b "~", BStr x)] | None => [] end).
  destruct (verify_sig_inv _ _ _ _ _ hsf c12) as [g hsig].
  assert (hsg : exists sg, ents s8 = Some (sg, g) /\ (sg = [] \/ exists x, sg = [(b "~", BStr x)]) /\
            (match vs with Some x => sg = [(b "~", BStr x)] | None => True end) /\
            (forall v, e_verifier E = Some v -> exists x, vs = Some x /\ sg = [(b "~", BStr x)] /\ signed_by v s x g)).
  { destruct hsig as [(-> & hve & ->)|(sig & t & hst & -> & h64 & hv1 & hv2 & hv3)].
    - exists []. split; [apply ents_end|]. split; [auto|]. split; [exact I|]. intros v hv. congruence.
    - exists [(b "~", BStr sig)]. split; [apply (wsteps_ents _ _ _ _ _ hst (ents_end g))|]. split; [eauto|]. split.
      + destruct vs as [x|]; [|exact I]. rewrite (hv2 x eq_refl). reflexivity.
      + intros v hv. destruct (hv3 v hv) as [-> hsb]. exists sig. auto. }
  clear hsig. destruct hsg as (sg & hes & hsg & hvs & hver).
  set (D := [(b "#", BInt seqno)] ++ raw1 ++ [(b "&", BDict d)] ++ raw2 ++ lg ++ raw3 ++ dg ++ raw4 ++ sg).
  assert (hents : ents s0 = Some (D, g)).
  { unfold D. eapply wsteps_ents; [apply wsteps_one, c1|]. eapply wsteps_ents; [exact st1|]. eapply wsteps_ents; [apply wsteps_one, c3|].
    eapply wsteps_ents; [exact st2|]. eapply wsteps_ents; [exact st3|]. eapply wsteps_ents; [exact st4|]. eapply wsteps_ents; [exact st5|].
    eapply wsteps_ents; [exact st6|]. exact hes. }
  assert (hlgw : lookup (b "#") lg = None /\ lookup (b "&") lg = None /\ (forall k, unknown_key k = true -> lookup k lg = None) /\ ssorted (keys lg) /\ within (b "&") (b "=") lg).
  { destruct hlg as [->|[x ->]]; [repeat split; try constructor; reflexivity|].
    repeat split; try reflexivity; [|constructor; constructor|repeat constructor].
    intros k hk. unfold unknown_key in hk. rewrite !andb_true_iff in hk. cbn [lookup].
    destruct (eqb k (b "<")) eqn:Ek; [|reflexivity]. destruct hk as [[_ hk] _]. discriminate. }
  assert (hdgw : lookup (b "#") dg = None /\ lookup (b "&") dg = None /\ (forall k, unknown_key k = true -> lookup k dg = None) /\ ssorted (keys dg) /\ within (b "<") (b "~") dg).
  { destruct hdg as [->|[x ->]]; [repeat split; try constructor; reflexivity|].
    repeat split; try reflexivity; [|constructor; constructor|repeat constructor].
    intros k hk. unfold unknown_key in hk. rewrite !andb_true_iff in hk. cbn [lookup].
    destruct (eqb k (b "=")) eqn:Ek; [|reflexivity]. destruct hk as [_ hk]. discriminate. }
  assert (hsgw : lookup (b "#") sg = None /\ lookup (b "&") sg = None /\ (forall k, unknown_key k = true -> lookup k sg = None) /\ ssorted (keys sg)).
  { destruct hsg as [->|[x ->]]; [repeat split; try constructor; reflexivity|].
    repeat split; try reflexivity; [|constructor; constructor].
    intros k hk. unfold unknown_key in hk. rewrite !andb_true_iff in hk. cbn [lookup].
    destruct (eqb k (b "~")) eqn:Ek; [|reflexivity]. apply eqb_eq in Ek. subst k. destruct hk as [[[[_ hk] _] _] _]. discriminate. }
  destruct hlgw as (lg1 & lg2 & lg3 & lg4 & lg5). destruct hdgw as (dg1 & dg2 & dg3 & dg4 & dg5). destruct hsgw as (sg1 & sg2 & sg3 & sg4).
  exists D, g. split.
  - rewrite hs0. unfold parse1, fuel_for. replace (2 * length ("d"%char :: s0) + 2) with (S (2 * length s0 + 3)) by (cbn [length]; lia).
    cbn [parse_value]. cbn [Ascii.eqb Bool.eqb]. unfold ents in hents.
    replace (parse_entries (2 * length s0 + 3) s0) with (parse_entries (fuel_for s0) s0); [rewrite hents; reflexivity|].
    apply (parse_fuel_aux (fuel_for s0) (2 * length s0 + 3) s0); unfold fuel_for; lia.
  - unfold msorted, D. rewrite !keys_app. cbn [keys map fst app].
    assert (a4 : ssorted (keys raw4 ++ keys sg)).
    { apply ssorted_app. split; [exact q4|]. split; [exact sg4|]. intros x y hx hy. unfold within in f4. rewrite Forall_forall in f4.
      destruct (f4 x hx) as [_ hlt]. destruct hsg as [->|[w ->]]; [destruct hy|]. destruct hy as [<-|[]]. apply ltb_lt, hlt. }
    assert (b4 : Forall (fun y => lt (b "=") y) (keys raw4 ++ keys sg)).
    { apply Forall_app. split.
      - eapply Forall_impl; [|exact f4]. intros y [hy _]. apply ltb_lt, hy.
      - destruct hsg as [->|[w ->]]; repeat constructor. }
    assert (a3 : ssorted (keys dg ++ keys raw4 ++ keys sg)).
    { destruct hdg as [->|[w ->]]; [exact a4|]. cbn [keys map fst app]. apply ssorted_cons. split; [exact a4|exact b4]. }
    assert (b3 : Forall (fun y => lt (b "<") y /\ ltb y (b "=") = false) (keys dg ++ keys raw4 ++ keys sg)).
    { assert (hx : Forall (fun y => lt (b "<") y /\ ltb y (b "=") = false) (keys raw4 ++ keys sg)).
      { eapply Forall_impl; [|exact b4]. intros y hy. split; [eapply lt_trans; [|exact hy]; reflexivity|]. apply ltb_nlt. apply lt_asym, hy. }
      destruct hdg as [->|[w ->]]; [exact hx|]. cbn [keys map fst app]. constructor; [|exact hx]. split; reflexivity. }
    assert (a2 : ssorted (keys raw3 ++ keys dg ++ keys raw4 ++ keys sg)).
    { apply ssorted_app. split; [exact q3|]. split; [exact a3|]. intros x y hx hy. unfold within in f3. rewrite Forall_forall in f3, b3.
      destruct (f3 x hx) as [_ h1]. destruct (b3 y hy) as [_ h2]. apply ltb_lt in h1. apply ltb_nlt in h2.
      destruct (lt_total y (b "=")) as [?|[->|?]]; [tauto|exact h1|eapply lt_trans; eauto]. }
    assert (b2 : Forall (fun y => lt (b "<") y) (keys raw3 ++ keys dg ++ keys raw4 ++ keys sg)).
    { apply Forall_app. split; [eapply Forall_impl; [|exact f3]; intros y [hy _]; apply ltb_lt, hy|]. eapply Forall_impl; [|exact b3]. intros y [hy _]. exact hy. }
    assert (a1 : ssorted (keys lg ++ keys raw3 ++ keys dg ++ keys raw4 ++ keys sg)).
    { destruct hlg as [->|[w ->]]; [exact a2|]. cbn [keys map fst app]. apply ssorted_cons. split; [exact a2|exact b2]. }
    assert (b1 : Forall (fun y => lt (b "&") y /\ ltb y (b "<") = false) (keys lg ++ keys raw3 ++ keys dg ++ keys raw4 ++ keys sg)).
    { assert (hx : Forall (fun y => lt (b "&") y /\ ltb y (b "<") = false) (keys raw3 ++ keys dg ++ keys raw4 ++ keys sg)).
      { eapply Forall_impl; [|exact b2]. intros y hy. split; [eapply lt_trans; [|exact hy]; reflexivity|]. apply ltb_nlt. apply lt_asym, hy. }
      destruct hlg as [->|[w ->]]; [exact hx|]. cbn [keys map fst app]. constructor; [|exact hx]. split; reflexivity. }
    assert (a0 : ssorted (keys raw2 ++ keys lg ++ keys raw3 ++ keys dg ++ keys raw4 ++ keys sg)).
    { apply ssorted_app. split; [exact q2|]. split; [exact a1|]. intros x y hx hy. unfold within in f2. rewrite Forall_forall in f2, b1.
      destruct (f2 x hx) as [_ h1]. destruct (b1 y hy) as [_ h2]. apply ltb_lt in h1. apply ltb_nlt in h2.
      destruct (lt_total y (b "<")) as [?|[->|?]]; [tauto|exact h1|eapply lt_trans; eauto]. }
    assert (b0 : Forall (fun y => lt (b "&") y) (keys raw2 ++ keys lg ++ keys raw3 ++ keys dg ++ keys raw4 ++ keys sg)).
    { apply Forall_app. split; [eapply Forall_impl; [|exact f2]; intros y [hy _]; apply ltb_lt, hy|]. eapply Forall_impl; [|exact b1]. intros y [hy _]. exact hy. }
    apply ssorted_cons. split.
    + apply ssorted_mid; [exact q1|exact a0| |].
      * intros y hy. unfold within in f1. rewrite Forall_forall in f1. apply ltb_lt. apply (f1 y hy).
      * intros y hy. rewrite Forall_forall in b0. auto.
    + apply Forall_app. split; [eapply Forall_impl; [|exact f1]; intros y [hy _]; apply ltb_lt, hy|]. constructor; [reflexivity|].
      eapply Forall_impl; [|exact b0]. intros y hy. eapply lt_trans; [|exact hy]. reflexivity.
  - (* keys *)
    assert (hu : forall p, In p (m_unknown m) -> unknown_key (fst p) = true).
    { pose proof (parse_msg_spec _ _ _ _ hpm) as (ok & _). intros p hp. pose proof (ok_unk _ _ ok) as hf. rewrite Forall_forall in hf. apply (hf p hp). }
    assert (hmu : m_unknown m = u4) by (rewrite <- hm; reflexivity).
    assert (hraw : forall k, In k (keys (raw1 ++ raw2 ++ raw3 ++ raw4)) -> unknown_key k = true).
    { intros k hk. assert (In k (keys (m_unknown m))) as hk'.
      { rewrite hmu, e4, e3, e2, e1, hr1, hr2, hr3, hr4. cbn [app]. rewrite <- !app_assoc, !keys_app, !keys_normed. rewrite !keys_app in hk. exact hk. }
      apply in_map_iff in hk' as (p & <- & hp). apply hu, hp. }
    intros k hk. unfold D in hk. rewrite !keys_app in hk. cbn [keys map fst] in hk.
    assert (hcase : In k (keys (raw1 ++ raw2 ++ raw3 ++ raw4)) \/ In k [b "#"; b "&"; b "<"; b "="; b "~"]).
    { rewrite !keys_app. repeat (apply in_app_iff in hk as [hk|hk]).
      all: try (left; repeat rewrite in_app_iff; tauto).
      all: right.
      - destruct hk as [<-|[]]. cbn; tauto.
      - destruct hk as [<-|[]]. cbn; tauto.
      - destruct hlg as [->|[w ->]]; [destruct hk|]. destruct hk as [<-|[]]. cbn; tauto.
      - destruct hdg as [->|[w ->]]; [destruct hk|]. destruct hk as [<-|[]]. cbn; tauto.
      - destruct hsg as [->|[w ->]]; [destruct hk|]. destruct hk as [<-|[]]. cbn; tauto. }
    destruct hcase as [hc|hc]; [left; apply hraw, hc|right; exact hc].
  - rewrite <- hm. reflexivity.
  - rewrite <- hm. cbn [m_data]. rewrite hd1. unfold D. rewrite !lookup_app.
    rewrite (lookup_within _ _ _ (b "&") f1) by (right; reflexivity). reflexivity.
  - intros k hk. assert (hmu : m_unknown m = u4) by (rewrite <- hm; reflexivity). rewrite hmu, e4, e3, e2, e1, hr1, hr2, hr3, hr4. cbn [app].
    rewrite !lookup_app, !lookup_normed. unfold D. rewrite !lookup_app. rewrite (lg3 k hk), (dg3 k hk), (sg3 k hk).
    assert (n1 : lookup k [(b "#", BInt seqno)] = None).
    { cbn [lookup]. unfold unknown_key in hk. rewrite !andb_true_iff in hk. destruct (eqb k (b "#")) eqn:Ek; [|reflexivity].
      apply eqb_eq in Ek. subst k. destruct hk as [[[[hk _] _] _] _]. discriminate. }
    assert (n2 : lookup k [(b "&", BDict d)] = None).
    { cbn [lookup]. unfold unknown_key in hk. rewrite !andb_true_iff in hk. destruct (eqb k (b "&")) eqn:Ek; [|reflexivity].
      destruct hk as [[[_ hk] _] _]. discriminate. }
    rewrite n1, n2. destruct (lookup k raw1), (lookup k raw2), (lookup k raw3), (lookup k raw4); reflexivity.
  - rewrite <- hm. cbn [m_vsig]. destruct vs as [x|]; [|exact I]. unfold D. rewrite !lookup_app.
    rewrite (lookup_within _ _ _ (b "~") f1) by (right; reflexivity). rewrite (lookup_within _ _ _ (b "~") f2) by (right; reflexivity).
    rewrite (lookup_within _ _ _ (b "~") f3) by (right; reflexivity). rewrite (lookup_within _ _ _ (b "~") f4) by (right; reflexivity).
    rewrite (lookup_within _ _ _ (b "~") lg5) by (right; reflexivity). rewrite (lookup_within _ _ _ (b "~") dg5) by (right; reflexivity).
    rewrite hvs. reflexivity.
  - intros v hv. destruct (hver v hv) as (x & hx1 & hx2 & hx3). exists x. rewrite <- hm. cbn [m_vsig]. split; [exact hx1|]. split; [|exact hx3].
    unfold D. rewrite !lookup_app.
    rewrite (lookup_within _ _ _ (b "~") f1) by (right; reflexivity). rewrite (lookup_within _ _ _ (b "~") f2) by (right; reflexivity).
    rewrite (lookup_within _ _ _ (b "~") f3) by (right; reflexivity). rewrite (lookup_within _ _ _ (b "~") f4) by (right; reflexivity).
    rewrite (lookup_within _ _ _ (b "~") lg5) by (right; reflexivity). rewrite (lookup_within _ _ _ (b "~") dg5) by (right; reflexivity).
    rewrite hx2. reflexivity.
Qed.
