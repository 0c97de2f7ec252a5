(** Proofs of C52: legacy groups and groups. *)
From Verif Require Import UserGroupsSpec Data_facts Fields_facts Base_facts Conf2_facts Maps Hex_facts Message_facts Records_facts Contacts_facts Members_facts Community_facts.
From Coq Require Import Lia.

(** ** the common fields *)
Lemma gbase_ok g : gbase_fits g -> script_ok (gbase_script g).
Proof.
  intros (h1 & h2 & h3). unfold gbase_script. repeat apply script_ok_app; apply ok_int; [apply int32_int64, h1|exact h2|destruct (gb_notify g); reflexivity|exact h3|reflexivity].
Qed.
Definition base_keys : list bytes := [b "+"; b "j"; b "@"; b "!"; b "i"].
Lemma load_gbase_spec (d : dict) g : gbase_fits g -> (forall k, In k base_keys -> lookup k d = fold_left (pick k) (gbase_script g) None) -> load_gbase d = kept_gbase g.
Proof.
  intros (h1 & h2 & h3) hd. unfold load_gbase, kept_gbase, maybe_int.
  rewrite (hd (b "+")), (hd (b "j")), (hd (b "@")), (hd (b "!")), (hd (b "i")) by (cbn; tauto).
  change (fold_left (pick (b "+")) (gbase_script g) None) with (if negb (gb_priority g =? 0)%Z then Some (vint (gb_priority g)) else None).
  change (fold_left (pick (b "j")) (gbase_script g) None) with (if (0 <? gb_joined g)%Z then Some (vint (gb_joined g)) else None).
  change (fold_left (pick (b "@")) (gbase_script g) None) with (if (0 <? notify_no (gb_notify g))%Z then Some (vint (notify_no (gb_notify g))) else None).
  change (fold_left (pick (b "!")) (gbase_script g) None) with (if (0 <? gb_mute g)%Z then Some (vint (gb_mute g)) else None).
  change (fold_left (pick (b "i")) (gbase_script g) None) with (if gb_invited g then Some (vint 1) else None).
  f_equal.
  - destruct (Z.eqb_spec (gb_priority g) 0) as [e|e]; cbn [negb as_int vint or_else]; [rewrite e; reflexivity|apply to_int32_id, h1].
  - destruct (Z.ltb_spec 0 (gb_joined g)); cbn [as_int vint or_else]; lia.
  - destruct (gb_notify g); reflexivity.
  - destruct (Z.ltb_spec 0 (gb_mute g)); cbn [as_int vint or_else]; lia.
  - destruct (gb_invited g); reflexivity.
Qed.
(** base fields are decided by the base script, whatever else is written after under other keys *)
Lemma pick_other k s : ~ In k (map fst s) -> forall a, fold_left (pick k) s a = a.
Proof.
  induction s as [|[k' v] s IH]; intros h a; [reflexivity|]. cbn [fold_left map In fst] in *. rewrite IH by tauto. unfold pick. cbn [fst snd].
  destruct (eqb k' k) eqn:e; [apply eqb_eq in e; tauto|reflexivity].
Qed.
Lemma base_pick g k a : In k base_keys -> fold_left (pick k) (gbase_script g) a = fold_left (pick k) (gbase_script g) None.
Proof. intros h. cbn in h. repeat destruct h as [<-|h]; try contradiction; reflexivity. Qed.
Lemma base_not g k a : ~ In k base_keys -> fold_left (pick k) (gbase_script g) a = a.
Proof. intros h. apply pick_other. exact h. Qed.

(** ** members of a legacy group *)
Lemma id_prefix c0 k : session_id_ok (to_hex k) (to_hex [c0]) = Nat.eqb (length k) 33 && match k with c :: _ => Ascii.eqb c c0 | [] => false end.
Proof.
  unfold session_id_ok. rewrite !to_hex_length. unfold is_hex. rewrite from_to_hex, andb_true_r. cbn [length].
  assert (e1 : Nat.eqb (2 * length k) (64 + 2 * 1) = Nat.eqb (length k) 33).
  { destruct (Nat.eqb_spec (length k) 33) as [e|e]; [rewrite e; reflexivity|]. apply Nat.eqb_neq. lia. }
  rewrite e1. destruct k as [|c r]; [reflexivity|]. f_equal.
  change (firstn (2 * 1) (to_hex (c :: r))) with (to_hex [c]). destruct (Ascii.eqb c c0) eqn:e.
  - apply Ascii.eqb_eq in e. subst. apply eqb_refl.
  - destruct (eqb (to_hex [c]) (to_hex [c0])) eqn:e2; [|exact e2]. apply eqb_eq, to_hex_inj in e2. injection e2 as ->. rewrite Ascii.eqb_refl in e. discriminate.
Qed.
Lemma member_key_spec x k : member_key x = Some k <-> x = SStr k /\ session_id_ok (to_hex k) (b "05") = true.
Proof.
  change (b "05") with (to_hex [ascii_of_N 5]). rewrite id_prefix. unfold member_key. destruct x as [z|[|c r]].
  - split; [discriminate|]. intros [h _]. discriminate.
  - split; [discriminate|]. intros [h h2]. injection h as <-. discriminate.
  - destruct (Nat.eqb (length (c :: r)) 33 && Ascii.eqb c (ascii_of_N 5)) eqn:e.
    + split; [intros h; injection h as <-; auto|intros [h _]; injection h as <-; reflexivity].
    + split; [discriminate|]. intros [h h2]. injection h as <-. congruence.
Qed.
Lemma add_stored_sorted a l : forall m, msorted m -> msorted (add_stored a l m).
Proof. unfold add_stored. induction l as [|x l IH]; intros m h; [exact h|]. cbn [fold_left]. apply IH. destruct (member_key x); [apply msorted_emplace, h|exact h]. Qed.
Definition listed (l : list scalar) (s : bytes) : Prop := exists k, In (SStr k) l /\ session_id_ok (to_hex k) (b "05") = true /\ s = to_hex k.
Lemma add_stored_lookup a l s : forall m, msorted m ->
  (forall x, lookup s m = Some x -> lookup s (add_stored a l m) = Some x) /\
  (lookup s m = None -> (listed l s -> lookup s (add_stored a l m) = Some a) /\ (~ listed l s -> lookup s (add_stored a l m) = None)).
Proof.
  unfold add_stored. induction l as [|x l IH]; intros m h; cbn [fold_left].
  - split; [auto|]. intros e. split; [intros (k & [] & _)|auto].
  - set (m1 := match member_key x with Some k => emplace (to_hex k) a m | None => m end).
    assert (h1 : msorted m1) by (unfold m1; destruct (member_key x); [apply msorted_emplace, h|exact h]). destruct (IH m1 h1) as [i1 i2].
    assert (e1 : lookup s m1 = match lookup s m with Some y => Some y | None => match member_key x with Some k => if eqb s (to_hex k) then Some a else None | None => None end end).
    { unfold m1. destruct (member_key x) as [k|]; [|destruct (lookup s m); reflexivity]. rewrite lookup_emplace by exact h. destruct (eqb s (to_hex k)) eqn:e; [|destruct (lookup s m); reflexivity].
      apply eqb_eq in e. subst. destruct (lookup (to_hex k) m); reflexivity. }
    split.
    + intros y hy. apply i1. rewrite e1, hy. reflexivity.
    + intros hn. rewrite hn in e1. destruct (member_key x) as [k|] eqn:ek.
      * apply member_key_spec in ek as [-> hk]. destruct (eqb s (to_hex k)) eqn:es.
        -- apply eqb_eq in es. subst s. split; [intros _; apply i1, e1|]. intros hno. exfalso. apply hno. exists k. split; [left; reflexivity|auto].
        -- destruct (i2 e1) as [j1 j2]. split.
           ++ intros (k' & [hk'|hk'] & h2 & ->); [injection hk' as <-; rewrite eqb_refl in es; discriminate|]. apply j1. exists k'. auto.
           ++ intros hno. apply j2. intros (k' & hk' & h2 & ->). apply hno. exists k'. split; [right; exact hk'|auto].
      * destruct (i2 e1) as [j1 j2]. split.
        -- intros (k' & [hk'|hk'] & h2 & ->); [|apply j1; exists k'; auto]. exfalso. assert (member_key x = Some k') by (apply member_key_spec; auto). congruence.
        -- intros hno. apply j2. intros (k' & hk' & h2 & ->). apply hno. exists k'. split; [right; exact hk'|auto].
Qed.
Lemma stored_ids_In a m x : In x (stored_ids a m) <-> exists sid k, In (sid, a) m /\ from_hex sid = Some k /\ x = SStr k.
Proof.
  unfold stored_ids. assert (hg : forall l acc, In x (fold_left (fun l p => if Bool.eqb (snd p) a then match from_hex (fst p) with Some k => sadd (SStr k) l | None => l end else l) l acc) <->
    (exists sid k, In (sid, a) l /\ from_hex sid = Some k /\ x = SStr k) \/ In x acc).
  { induction l as [|[sid a'] l IH]; intros acc; cbn [fold_left fst snd].
    - split; [auto|]. intros [(sid & k & [] & _)|h]; exact h.
    - rewrite IH. destruct (Bool.eqb a' a) eqn:ea.
      + apply eqb_prop in ea. subst a'. destruct (from_hex sid) as [k|] eqn:ek.
        * rewrite In_sadd. split.
          -- intros [(s & k' & h1 & h2 & h3)|[h|h]]; [left; exists s, k'; split; [right; exact h1|auto]|left; exists sid, k; split; [left; reflexivity|auto]|auto].
          -- intros [(s & k' & [h1|h1] & h2 & h3)|h]; [injection h1 as <-; right; left; congruence|left; eauto|auto].
        * split.
          -- intros [(s & k' & h1 & h2 & h3)|h]; [left; exists s, k'; split; [right; exact h1|auto]|auto].
          -- intros [(s & k' & [h1|h1] & h2 & h3)|h]; [injection h1 as <-; congruence|left; eauto|auto].
      + split.
        * intros [(s & k' & h1 & h2 & h3)|h]; [left; exists s, k'; split; [right; exact h1|auto]|auto].
        * intros [(s & k' & [h1|h1] & h2 & h3)|h]; [injection h1 as <- <-; rewrite eqb_reflx in ea; discriminate|left; eauto|auto]. }
  rewrite hg. split; [intros [h|[]]; exact h|auto].
Qed.
Lemma stored_ids_sorted a m : ssorted (stored_ids a m).
Proof.
  unfold stored_ids. assert (hg : forall l acc, ssorted acc -> ssorted (fold_left (fun l p => if Bool.eqb (snd p) a then match from_hex (fst p) with Some k => sadd (SStr k) l | None => l end else l) l acc)).
  { induction l as [|[sid a'] l IH]; intros acc h; cbn [fold_left fst snd]; [exact h|]. apply IH. destruct (Bool.eqb a' a); [|exact h]. destruct (from_hex sid); [apply ssorted_sadd, h|exact h]. }
  apply hg. constructor.
Qed.
Definition ids_ok (m : list (bytes * bool)) : Prop := forall sid a, In (sid, a) m -> session_id_ok sid (b "05") = true.
Lemma lc_sid sid pk : session_id_to_bytes sid (b "05") = Ok pk -> make_lc sid = to_hex pk.
Proof. intros h. apply sid_key in h as [h _]. symmetry. apply to_from_hex, h. Qed.
Lemma lc_sid_ok p sid pk : make_lc p = p -> session_id_to_bytes sid p = Ok pk -> session_id_ok (to_hex pk) p = true.
Proof.
  intros hp h. apply sid_key in h as [h1 h2]. apply to_from_hex in h1 as h3. unfold session_id_ok in *. apply andb_prop in h2 as [h2 h4]. apply andb_prop in h2 as [h2 h5].
  unfold is_hex. rewrite from_to_hex, andb_true_r. rewrite h3, lc_length. rewrite h2. cbn [andb]. apply eqb_eq in h4. apply eqb_eq.
  rewrite <- hp at 2. rewrite <- h4 at 2. unfold make_lc. rewrite firstn_map. reflexivity.
Qed.
Lemma listed_stored a m s : ids_ok m -> listed (stored_ids a m) s <-> exists sid, In (sid, a) m /\ s = make_lc sid.
Proof.
  intros hm. split.
  - intros (k & h1 & h2 & ->). apply stored_ids_In in h1 as (sid & k' & h1 & h3 & h4). injection h4 as <-. exists sid. split; [exact h1|]. apply to_from_hex, h3.
  - intros (sid & h1 & ->). destruct (sid_ok_key _ _ (hm _ _ h1)) as [pk hk]. exists pk. rewrite (lc_sid _ _ hk). split; [|split; [|reflexivity]].
    + apply stored_ids_In. exists sid, pk. apply sid_key in hk as [hk _]. auto.
    + exact (lc_sid_ok (b "05") sid pk eq_refl hk).
Qed.
Lemma kept_sorted l : forall m : list (bytes * bool), msorted m -> msorted (fold_left (fun m p => emplace (make_lc (fst p)) (snd p) m) l m).
Proof. induction l as [|p l IH]; intros m h; [exact h|]. cbn [fold_left]. apply IH, msorted_emplace, h. Qed.
Lemma fold_emplace_lookup a (l : list (bytes * bool)) s : (forall p, In p l -> snd p = a) -> forall m, msorted m ->
  (forall x, lookup s m = Some x -> lookup s (fold_left (fun m p => emplace (make_lc (fst p)) (snd p) m) l m) = Some x) /\
  (lookup s m = None -> ((exists sid, In (sid, a) l /\ s = make_lc sid) -> lookup s (fold_left (fun m p => emplace (make_lc (fst p)) (snd p) m) l m) = Some a) /\
     (~ (exists sid, In (sid, a) l /\ s = make_lc sid) -> lookup s (fold_left (fun m p => emplace (make_lc (fst p)) (snd p) m) l m) = None)).
Proof.
  intros hl. induction l as [|[sid a'] l IH]; intros m h; cbn [fold_left fst snd].
  - split; [auto|]. intros e. split; [intros (k & [] & _)|auto].
  - assert (a' = a) by (apply (hl (sid, a')); left; reflexivity). subst a'.
    destruct (IH (fun p hp => hl p (or_intror hp)) (emplace (make_lc sid) a m) (msorted_emplace _ _ _ h)) as [i1 i2].
    pose proof (lookup_emplace (make_lc sid) a m s h) as e1. split.
    + intros y hy. apply i1. rewrite e1, hy. reflexivity.
    + intros hn. destruct (eqb s (make_lc sid)) eqn:es.
      * apply eqb_eq in es. subst s. rewrite hn in e1. rewrite ?eqb_refl in e1. split; [intros _; apply i1, e1|]. intros hno. exfalso. apply hno. exists sid. split; [left|]; reflexivity.
      * rewrite hn in e1. destruct (i2 e1) as [j1 j2]. split.
        -- intros (k' & [hk'|hk'] & ->); [injection hk' as <-; rewrite eqb_refl in es; discriminate|]. apply j1. eauto.
        -- intros hno. apply j2. intros (k' & hk' & ->). apply hno. exists k'. split; [right; exact hk'|reflexivity].
Qed.
Lemma load_kept_members m (d : dict) : ids_ok m ->
  maybe_set d (b "m") = (if is_nil (stored_ids false m) then None else Some (stored_ids false m)) ->
  maybe_set d (b "a") = (if is_nil (stored_ids true m) then None else Some (stored_ids true m)) -> load_members d = kept_members m.
Proof.
  intros hm h1 h2. unfold load_members, kept_members.
  assert (e1 : or_else (maybe_set d (b "m")) [] = stored_ids false m) by (rewrite h1; destruct (stored_ids false m); reflexivity).
  assert (e2 : or_else (maybe_set d (b "a")) [] = stored_ids true m) by (rewrite h2; destruct (stored_ids true m); reflexivity).
  rewrite e1, e2. clear h1 h2 e1 e2. rewrite fold_left_app. apply msorted_ext.
  - apply add_stored_sorted, add_stored_sorted. constructor.
  - apply kept_sorted, kept_sorted. constructor.
  - intros s.
    assert (n0 : msorted (@nil (bytes * bool))) by constructor.
    destruct (add_stored_lookup false (stored_ids false m) s [] n0) as [_ a1]. destruct (a1 eq_refl) as [a2 a3].
    destruct (add_stored_lookup true (stored_ids true m) s _ (add_stored_sorted false (stored_ids false m) [] n0)) as [b1 b2].
    assert (f1 : forall p, In p (filter (fun p : bytes * bool => negb (snd p)) m) -> snd p = false) by (intros p hp; apply filter_In in hp as [_ hp]; destruct (snd p); [discriminate|reflexivity]).
    assert (f2 : forall p, In p (filter (@snd bytes bool) m) -> snd p = true) by (intros p hp; apply filter_In in hp as [_ hp]; exact hp).
    destruct (fold_emplace_lookup false _ s f1 [] n0) as [_ c1]. destruct (c1 eq_refl) as [c2 c3].
    destruct (fold_emplace_lookup true _ s f2 _ (kept_sorted (filter (fun p => negb (snd p)) m) [] n0)) as [d1 d2].
    assert (q1 : (exists sid, In (sid, false) (filter (fun p : bytes * bool => negb (snd p)) m) /\ s = make_lc sid) <-> listed (stored_ids false m) s).
    { rewrite listed_stored by exact hm. split; intros (sid & g1 & g2); exists sid; (split; [|exact g2]); [apply filter_In in g1; apply g1|apply filter_In; auto]. }
    assert (q2 : (exists sid, In (sid, true) (filter (@snd bytes bool) m) /\ s = make_lc sid) <-> listed (stored_ids true m) s).
    { rewrite listed_stored by exact hm. split; intros (sid & g1 & g2); exists sid; (split; [|exact g2]); [apply filter_In in g1; apply g1|apply filter_In; auto]. }
    assert (dec : forall l, listed l s \/ ~ listed l s).
    { intros l. unfold listed. induction l as [|x l IH]; [right; intros (k & [] & _)|]. destruct IH as [(k & i1 & i2)|IH]; [left; exists k; split; [right; exact i1|exact i2]|].
      destruct (member_key x) as [k|] eqn:ek.
      - pose proof (proj1 (member_key_spec _ _) ek) as [hx hk]. destruct (eqb s (to_hex k)) eqn:es.
        + apply eqb_eq in es. left. exists k. subst. split; [left; reflexivity|auto].
        + right. intros (k' & [g1|g1] & g2 & g3); [|apply IH; eauto]. assert (k' = k) by congruence. subst. rewrite eqb_refl in es. discriminate.
      - right. intros (k' & [g1|g1] & g2 & g3); [|apply IH; eauto]. assert (member_key x = Some k') by (apply member_key_spec; auto). congruence. }
    destruct (dec (stored_ids false m)) as [l1|l1].
    + rewrite (b1 false) by (apply a2, l1). symmetry. apply d1, c2, q1, l1.
    + specialize (a3 l1). destruct (b2 a3) as [b3 b4]. assert (c4 : lookup s (fold_left (fun m p => emplace (make_lc (fst p)) (snd p) m) (filter (fun p => negb (snd p)) m) ([] : list (bytes * bool))) = None) by (apply c3; rewrite q1; exact l1).
      destruct (d2 c4) as [d3 d4]. destruct (dec (stored_ids true m)) as [l2|l2].
      * rewrite (b3 l2). symmetry. apply d3, q2, l2.
      * rewrite (b4 l2). symmetry. apply d4. rewrite q2. exact l2.
Qed.
(** nothing is lost of a list of lower-case ids *)
Lemma kept_members_id l : msorted l -> (forall sid a, In (sid, a) l -> make_lc sid = sid) -> kept_members l = l.
Proof.
  intros hs hl. unfold kept_members. rewrite fold_left_app. assert (n0 : msorted (@nil (bytes * bool))) by constructor. apply msorted_ext; [apply kept_sorted, kept_sorted, n0|exact hs|]. intros s.
  assert (f1 : forall p, In p (filter (fun p : bytes * bool => negb (snd p)) l) -> snd p = false) by (intros p hp; apply filter_In in hp as [_ hp]; destruct (snd p); [discriminate|reflexivity]).
  assert (f2 : forall p, In p (filter (@snd bytes bool) l) -> snd p = true) by (intros p hp; apply filter_In in hp as [_ hp]; exact hp).
  destruct (fold_emplace_lookup false _ s f1 [] n0) as [_ c1]. destruct (c1 eq_refl) as [c2 c3].
  destruct (fold_emplace_lookup true _ s f2 _ (kept_sorted (filter (fun p => negb (snd p)) l) [] n0)) as [d1 d2].
  assert (q1 : (exists sid, In (sid, false) (filter (fun p : bytes * bool => negb (snd p)) l) /\ s = make_lc sid) <-> lookup s l = Some false).
  { split; [intros (sid & g1 & ->); apply filter_In in g1 as [g1 _]; rewrite (hl _ _ g1); apply In_lookup; assumption|intros g1; apply lookup_In in g1; exists s; split; [apply filter_In; auto|symmetry; eapply hl, g1]]. }
  assert (q2 : (exists sid, In (sid, true) (filter (@snd bytes bool) l) /\ s = make_lc sid) <-> lookup s l = Some true).
  { split; [intros (sid & g1 & ->); apply filter_In in g1 as [g1 _]; rewrite (hl _ _ g1); apply In_lookup; assumption|intros g1; apply lookup_In in g1; exists s; split; [apply filter_In; auto|symmetry; eapply hl, g1]]. }
  destruct (lookup s l) as [[|]|] eqn:e.
  - assert (c4 := c3 ltac:(rewrite q1; discriminate)). apply (d2 c4). apply q2. reflexivity.
  - apply d1, c2, q1. reflexivity.
  - assert (c4 := c3 ltac:(rewrite q1; discriminate)). apply (d2 c4). rewrite q2. discriminate.
Qed.

(** ** legacy groups *)
Lemma ids_value_ok a m : script_ok (set_ids (b "m") (stored_ids a m)) /\ script_ok (set_ids (b "a") (stored_ids a m)).
Proof.
  assert (h : match (if is_nil (stored_ids a m) then None else Some (VSet (stored_ids a m))) with Some v => wf_v v = true /\ empty_container v = false | None => True end).
  { destruct (is_nil (stored_ids a m)) eqn:e; [exact I|]. split; [|destruct (stored_ids a m); [discriminate|reflexivity]].
    cbn [wf_v]. apply andb_true_intro. split; [apply ssortedb_spec, stored_ids_sorted|]. apply forallb_forall. intros x hx. apply stored_ids_In in hx as (sid & k & _ & _ & ->). reflexivity. }
  split; apply script_ok_1, h.
Qed.
Lemma legacy_script_ok g : gbase_fits (lg_base g) -> int64_ok (lg_timer g) = true -> script_ok (legacy_script g).
Proof.
  intros h1 h2. unfold legacy_script. apply script_ok_app; [apply gbase_ok, h1|]. repeat apply script_ok_app.
  - apply script_ok_1. split; reflexivity.
  - apply ok_pair; reflexivity.
  - apply ids_value_ok.
  - apply ids_value_ok.
  - apply ok_int, h2.
Qed.
Definition legacy_rest (g : legacy) : script :=
  [(b "n", Some (vstr (trunc GROUP_NAME_MAX (lg_name g))))] ++
  set_pair_if (two_keys (lg_pub g) (lg_sec g)) (b "k") (vstr (lg_pub g)) (b "K") (vstr (lg_sec g)) ++
  set_ids (b "m") (stored_ids false (lg_members g)) ++ set_ids (b "a") (stored_ids true (lg_members g)) ++
  set_positive_int (b "E") (lg_timer g).
Lemma legacy_pick g k a : fold_left (pick k) (legacy_script g) a = fold_left (pick k) (legacy_rest g) (fold_left (pick k) (gbase_script (lg_base g)) a).
Proof. unfold legacy_script. apply fold_left_app. Qed.
Lemma legacy_rest_keys g : map fst (legacy_rest g) = [b "n"; b "k"; b "K"; b "m"; b "a"; b "E"].
Proof. unfold legacy_rest, set_pair_if. destruct (two_keys _ _); reflexivity. Qed.
Ltac not_in := let h := fresh in intros h; cbn in h; repeat destruct h as [h|h]; try discriminate h; exact h.
Lemma load_legacy_script g (r : dict) a : gbase_fits (lg_base g) -> ids_ok (lg_members g) ->
  (forall k, lookup k r = fold_left (pick k) (legacy_script g) (a k)) -> load_legacy r = kept_legacy g.
Proof.
  intros h1 h2 hr. unfold load_legacy, kept_legacy.
  assert (hb : load_gbase r = kept_gbase (lg_base g)).
  { apply load_gbase_spec; [exact h1|]. intros k hk. rewrite hr, legacy_pick, pick_other; [apply base_pick, hk|]. rewrite legacy_rest_keys. cbn in hk.
    repeat destruct hk as [<-|hk]; try contradiction; not_in. }
  assert (gn : lookup (b "n") r = Some (vstr (firstn 100 (lg_name g)))) by (rewrite hr; unfold legacy_script, set_pair_if; destruct (two_keys _ _); reflexivity).
  assert (gk : lookup (b "k") r = if two_keys (lg_pub g) (lg_sec g) then Some (vstr (lg_pub g)) else None) by (rewrite hr; unfold legacy_script, set_pair_if; destruct (two_keys _ _); reflexivity).
  assert (gK : lookup (b "K") r = if two_keys (lg_pub g) (lg_sec g) then Some (vstr (lg_sec g)) else None) by (rewrite hr; unfold legacy_script, set_pair_if; destruct (two_keys _ _); reflexivity).
  assert (gm : lookup (b "m") r = if is_nil (stored_ids false (lg_members g)) then None else Some (VSet (stored_ids false (lg_members g)))) by (rewrite hr; unfold legacy_script, set_pair_if; destruct (two_keys _ _); reflexivity).
  assert (ga : lookup (b "a") r = if is_nil (stored_ids true (lg_members g)) then None else Some (VSet (stored_ids true (lg_members g)))) by (rewrite hr; unfold legacy_script, set_pair_if; destruct (two_keys _ _); reflexivity).
  assert (gE : lookup (b "E") r = if (0 <? lg_timer g)%Z then Some (vint (lg_timer g)) else None) by (rewrite hr; unfold legacy_script, set_pair_if; destruct (two_keys _ _); reflexivity).
  rewrite hb. assert (hk : load_keys r = if two_keys (lg_pub g) (lg_sec g) then (lg_pub g, lg_sec g) else ([], [])).
  { unfold load_keys, maybe_str. rewrite gk, gK. destruct (two_keys (lg_pub g) (lg_sec g)) eqn:e; [|reflexivity]. cbn [as_str vstr]. rewrite e. reflexivity. }
  rewrite hk. assert (hm : load_members r = kept_members (lg_members g)).
  { apply load_kept_members; [exact h2| |]; unfold maybe_set; [rewrite gm; destruct (is_nil (stored_ids false (lg_members g)))|rewrite ga; destruct (is_nil (stored_ids true (lg_members g)))]; reflexivity. }
  rewrite hm. unfold maybe_str, maybe_int. rewrite gn, gE. f_equal.
  - destruct (two_keys _ _); reflexivity.
  - destruct (two_keys _ _); reflexivity.
  - destruct (Z.ltb_spec 0 (lg_timer g)); cbn [as_int vint or_else]; lia.
Qed.
Lemma legacy_named g : fold_left (pick (b "n")) (legacy_script g) None = Some (vstr (trunc GROUP_NAME_MAX (lg_name g))) /\
  forall a, fold_left (pick (b "n")) (legacy_script g) a = fold_left (pick (b "n")) (legacy_script g) None.
Proof. unfold legacy_script, set_pair_if. destruct (two_keys _ _); split; reflexivity. Qed.

(** ** groups *)
Lemma group_script_ok pk g : gbase_fits (gr_base g) -> script_ok (group_script pk g).
Proof.
  intros h. unfold group_script. apply script_ok_app; [apply gbase_ok, h|]. apply script_ok_app; [apply ok_str|]. destruct (own_secret pk g).
  - apply script_ok_1. split; reflexivity.
  - apply script_ok_2; [split; reflexivity|]. destruct (Nat.eqb _ _); [split; reflexivity|exact I].
Qed.
Definition group_rest (pk : bytes) (g : group) : script :=
  set_nonempty_str (b "n") (trunc GROUP_NAME_MAX (gr_name g)) ++
  (if own_secret pk g then [(b "K", Some (vstr (firstn 32 (gr_secret g))))]
   else [(b "K", Some (vstr [])); (b "s", if Nat.eqb (length (gr_auth g)) 100 then Some (vstr (gr_auth g)) else None)]).
Lemma group_pick pk g k a : fold_left (pick k) (group_script pk g) a = fold_left (pick k) (group_rest pk g) (fold_left (pick k) (gbase_script (gr_base g)) a).
Proof. unfold group_script. apply fold_left_app. Qed.
Lemma group_rest_keys pk g k : In k (map fst (group_rest pk g)) -> In k [b "n"; b "K"; b "s"].
Proof. unfold group_rest, set_nonempty_str. destruct (own_secret pk g); cbn; tauto. Qed.
Lemma load_group_script pub sid pk g (r : dict) a : gbase_fits (gr_base g) -> session_id_to_bytes sid (b "03") = Ok pk -> make_lc sid = sid -> (forall s, length s = 32 -> length (pub s) = 32) ->
  (forall k, lookup k r = fold_left (pick k) (group_script pk g) (a k)) ->
  load_group pub sid r = mkGroup (kept_gbase (gr_base g)) (firstn 100 (gr_name g))
    (if has_secret sid g && eqb (pub (firstn 32 (gr_secret g))) (id_key sid) then gr_secret g else [])
    (if has_secret sid g then match as_str (a (b "s")) with Some s => if Nat.eqb (length s) 100 then s else [] | None => [] end
     else if Nat.eqb (length (gr_auth g)) 100 then gr_auth g else []).
Proof.
  intros h1 hk hl hpub hr. unfold load_group.
  assert (hb : load_gbase r = kept_gbase (gr_base g)).
  { apply load_gbase_spec; [exact h1|]. intros k hin. rewrite hr, group_pick, pick_other; [apply base_pick, hin|]. intros hx. apply group_rest_keys in hx. cbn in hin.
    repeat destruct hin as [<-|hin]; try contradiction; revert hx; not_in. }
  assert (ho : own_secret pk g = has_secret sid g). { unfold own_secret, has_secret, id_key. apply sid_key in hk as [hk _]. rewrite hk. reflexivity. }
  assert (gn : lookup (b "n") r = if is_nil (firstn 100 (gr_name g)) then None else Some (vstr (firstn 100 (gr_name g)))) by (rewrite hr; unfold group_script; destruct (own_secret pk g); reflexivity).
  assert (gK : lookup (b "K") r = Some (vstr (if has_secret sid g then firstn 32 (gr_secret g) else []))) by (rewrite hr, <- ho; unfold group_script; destruct (own_secret pk g); reflexivity).
  assert (gs : lookup (b "s") r = if has_secret sid g then a (b "s") else if Nat.eqb (length (gr_auth g)) 100 then Some (vstr (gr_auth g)) else None) by (rewrite hr, <- ho; unfold group_script; destruct (own_secret pk g); reflexivity).
  rewrite hb. f_equal.
  - unfold maybe_str. rewrite gn. destruct (firstn 100 (gr_name g)); reflexivity.
  - unfold load_secret, maybe_str. rewrite gK. cbn [as_str vstr]. destruct (has_secret sid g) eqn:e; [|reflexivity]. cbn [andb].
    unfold has_secret in e. apply andb_prop in e as [e1 e2]. apply Nat.eqb_eq in e1. apply eqb_eq in e2. rewrite firstn_length, e1. cbn [Nat.min Nat.eqb andb].
    assert (hid : sid = to_hex (ascii_of_N 3 :: id_key sid)).
    { pose proof (sid_key _ _ _ hk) as [hk1 hk2]. unfold id_key. rewrite hk1. pose proof (to_from_hex _ _ hk1) as hx. rewrite hl in hx. rewrite <- hx. f_equal. rewrite <- hx in hk2. change (b "03") with (to_hex [ascii_of_N 3]) in hk2. rewrite id_prefix in hk2.
      apply andb_prop in hk2 as [_ hk2]. destruct pk as [|c q]; [discriminate|]. apply Ascii.eqb_eq in hk2. subst c. reflexivity. }
    destruct (eqb (pub (firstn 32 (gr_secret g))) (id_key sid)) eqn:ep.
    + apply eqb_eq in ep. rewrite ep. rewrite <- hid, eqb_refl. rewrite <- e2. apply firstn_skipn.
    + destruct (eqb sid (to_hex (ascii_of_N 3 :: pub (firstn 32 (gr_secret g))))) eqn:ex; [|reflexivity]. apply eqb_eq in ex. rewrite hid in ex at 1. apply to_hex_inj in ex. assert (ex2 : id_key sid = pub (firstn 32 (gr_secret g))) by (apply (f_equal (@tl ascii)) in ex; exact ex). rewrite <- ex2, eqb_refl in ep. discriminate.
  - unfold load_auth, maybe_str. rewrite gs. destruct (has_secret sid g); [reflexivity|]. destruct (Nat.eqb (length (gr_auth g)) 100) eqn:e; cbn [as_str vstr]; [rewrite e; reflexivity|reflexivity].
Qed.
Lemma group_named pk g : exists v, fold_left (pick (b "K")) (group_script pk g) None = Some v /\
  forall a, fold_left (pick (b "K")) (group_script pk g) a = fold_left (pick (b "K")) (group_script pk g) None.
Proof. unfold group_script. destruct (own_secret pk g); eexists; split; reflexivity. Qed.
