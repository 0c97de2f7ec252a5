(** C96: devices that were in step change the elements of a set concurrently (members of a legacy group, say); what becomes
    of each element.  Statements only; proofs are in Elem_facts.v to Elem4_facts.v, the vocabulary is in ElemSpec.v,
    FieldSpec.v, ConvergeSpec.v and BaseSpec.v. *)
From Verif Require Import Maps ElemSpec Life_facts Conf_facts Conf2_facts Conf3_facts Converge_facts Plain_facts Field_facts Field2_facts Field3_facts Field4_facts Elem_facts Elem2_facts Elem3_facts Elem4_facts Records UserGroups UserGroupsSpec Hex_facts UserGroups_facts Elem5_facts Toy ToyCrypt ToyBase Properties_base Properties_sync Properties_fields.

(** Whatever a device publishes has a change history that fits its data, as far as the element goes, if that was so for what
    it received. *)
Theorem C96_published p x B st s m : p <> [] -> benv_ok B -> life B (carefully p x) st -> publishes B st s -> parse_msg (b_env B) false s = Ok m -> regular p x m.
Proof. intros hp. exact (published_regular p x hp B st s m). Qed.
(** An element that no device added or removed stays as it was, on every device; an element that some device added, or that
    some device removed, is added, or removed, on every device. *)
Theorem C96_element {I : Type} p x (B : I -> benv) st0 st c st1 l st2 : p <> [] -> set_round p x B st0 st c st1 l st2 -> forall i,
  ((forall j, holds p x (st j) = holds p x (st0 j)) -> holds p x (st2 i) = holds p x (st0 i)) /\
  ((exists j, holds p x (st j) <> holds p x (st0 j)) -> holds p x (st2 i) = negb (holds p x (st0 i))).
Proof. intros hp. exact (round_elem p x hp B st0 st c st1 l st2). Qed.
(** So all additions and all removals take effect on all devices, and nothing else does: the merged set is the common old
    set, with the elements that any device added and without those that any device removed ([js]: the devices). *)
Theorem C96_set {I : Type} p (B : I -> benv) st0 st c st1 l st2 js : p <> [] -> (forall x, set_round p x B st0 st c st1 l st2) -> (forall i : I, In i js) ->
  forall x i, holds p x (st2 i) = true <->
    ((exists j, holds p x (st j) = true) /\ (holds p x (st0 i) = true -> forall j, holds p x (st j) = true)).
Proof.
  intros hp hr hjs x i. destruct (C96_element p x B st0 st c st1 l st2 hp (hr x) i) as [h1 h2].
  assert (hsame : forall j, holds p x (st0 j) = holds p x (st0 i)) by (intros j; unfold holds; rewrite (round_same p x B st0 st c st1 l st2 (hr x) j i); reflexivity).
  destruct (existsb (fun j => negb (Bool.eqb (holds p x (st j)) (holds p x (st0 j)))) js) eqn:e.
  - apply existsb_exists in e as (j & _ & hj). apply Bool.negb_true_iff, Bool.eqb_false_iff in hj. rewrite (h2 (ex_intro _ j hj)), <- (hsame j). split.
    + destruct (holds p x (st0 j)) eqn:e0; cbn [negb]; [discriminate|]. intros _. split; [|congruence]. exists j. destruct (holds p x (st j)); congruence.
    + intros [_ hall]. destruct (holds p x (st0 j)) eqn:e0; [|reflexivity]. exfalso. apply hj. rewrite hall; reflexivity.
  - assert (hall : forall j, holds p x (st j) = holds p x (st0 j)).
    { intros j. destruct (Bool.eqb (holds p x (st j)) (holds p x (st0 j))) eqn:ej; [apply Bool.eqb_prop, ej|]. exfalso. apply Bool.not_true_iff_false in e. apply e, existsb_exists. exists j. split; [apply hjs|rewrite ej; reflexivity]. }
    rewrite (h1 hall). split.
    + intros h. split; [exists i; rewrite hall; exact h|]. intros _ j. rewrite hall, hsame. exact h.
    + intros [(j & hj) _]. rewrite hall, hsame in hj. exact hj.
Qed.
(** If the merged set has an element, it has remained on all devices ... *)
Theorem C96_stays {I : Type} p x y (B : I -> benv) st0 st c st1 l st2 : p <> [] -> set_round p x B st0 st c st1 l st2 -> (forall i, holds p y (st2 i) = true) ->
  forall i j, remains p (tidied (st j)) (s_data (st2 i)) = true.
Proof. intros hp hr hy i j. exact (round_stays p x hp B st0 st c st1 l st2 hr y i j (hy i)). Qed.
(** ... and then the devices are in step again and ready for the next round: at once if no device found a conflict ... *)
Theorem C96_in_step {I : Type} p x (B : I -> benv) st0 st c st1 l st2 : p <> [] -> set_round p x B st0 st c st1 l st2 -> (forall i, s_seqno (st i) + 1 + e_lag (b_env (B i)) < 2 ^ 63)%Z -> (forall i, s_state (st2 i) <> Dirty) ->
  (forall i j, remains p (tidied (st j)) (s_data (st2 i)) = true) ->
  (forall i, life (B i) (carefully p x) (st2 i)) /\ in_step B st2.
Proof. intros hp. exact (set_clean p x hp B st0 st c st1 l st2). Qed.
(** ... and otherwise after one more exchange, which leaves the set as it is. *)
Theorem C96_settles {I : Type} p x (B : I -> benv) st0 st c st1 l st2 c' st3 l' st4 : p <> [] -> set_round p x B st0 st c st1 l st2 -> (forall i, s_seqno (st i) + 2 + e_lag (b_env (B i)) < 2 ^ 63)%Z ->
  (forall i j, remains p (tidied (st j)) (s_data (st2 i)) = true) ->
  all_push B st2 c' st3 -> all_fetch B st2 c' st3 l' -> all_merge B l' st3 st4 ->
  (forall i, life (B i) (carefully p x) (st4 i)) /\ in_step B st4 /\ (forall i, holds p x (st4 i) = holds p x (st2 i)) /\ plain_group B st4 /\ forall i, (0 < s_seqno (st4 i))%Z.
Proof. intros hp. exact (set_settled p x hp B st0 st c st1 l st2 c' st3 l' st4). Qed.

(** ** legacy groups *)
(** the role of a member (its session id in lower case hex) in a legacy group: Some true: administrator, Some false: member *)
Definition group_role (st : bstate) (sid : bytes) (h : bytes) : option bool := match legacy_get st sid with Ok (Some g) => lookup h (lg_members g) | _ => None end.
(** The members of a legacy group are the elements of two stored sets. *)
Theorem C96_member_role st sid pk k : session_id_to_bytes sid (b "05") = Ok pk -> session_id_ok (to_hex k) (b "05") = true ->
  group_role st sid (to_hex k) = if holds [b "C"; pk; b "m"] (SStr k) st then Some false else if holds [b "C"; pk; b "a"] (SStr k) st then Some true else None.
Proof.
  intros hpk hk. unfold group_role. destruct (legacy_get st sid) as [[g|]| | | |] eqn:e; [exact (member_role st sid pk g k hpk hk e)|..];
    unfold legacy_get in e; rewrite hpk in e; cbn [bind] in e; try discriminate. unfold dict_at, field in e. cbn [app] in e. unfold holds, has. rewrite !path3. destruct (get_path [b "C"; pk] (s_data st)) as [[| |d]|]; try reflexivity. discriminate.
Qed.
(** Storing a legacy group is an edit of the kind the rounds are made of, for either set and every element, if the group is
    new or has been stored by the class (which always writes a name), if its members, or its administrators, are not all
    removed, and if no one is removed from a merge result that is not pushed yet. *)
Definition changes_by (p : list bytes) (x : scalar) (B : benv) (st st' : bstate) : Prop := exists l, steps B (carefully p x B) st l st' /\ forallb is_edit l = true.
Theorem C96_legacy_set B sid pk' g id admin x st st' : let p := [b "C"; id; if admin : bool then b "a" else b "m"] in
  benv_ok B -> life B (carefully p x) st -> session_id_to_bytes sid (b "05") = Ok pk' -> gbase_fits (lg_base g) -> int64_ok (lg_timer g) = true ->
  stays_small B (map (op_at [b "C"; pk']) (legacy_script g)) st ->
  (get_path [b "C"; pk'] (s_data st) = None \/ exists v, get_path [b "C"; pk'; b "n"] (s_data st) = Some (VScal v)) ->
  (id = pk' -> get_path p (s_data st) <> None -> stored_ids admin (lg_members g) <> []) ->
  (id = pk' -> awaiting st = true -> holds p x st = true -> In x (stored_ids admin (lg_members g))) ->
  legacy_set B sid g st = (Ok tt, st') -> changes_by p x B st st'.
Proof. intros p hB hl hpk hb ht hs hrec hne haw h. exists (map (op_at [b "C"; pk']) (legacy_script g)). exact (legacy_careful B sid pk' g id admin x st st' hB hl hpk hb ht hs hrec hne haw h). Qed.
(** So a member whom one device adds, removes or promotes, and whom the others leave alone, has the role that device gave it
    on all devices; a member left alone by all keeps its role. *)
Theorem C96_members {I : Type} (B : I -> benv) sid pk k st0 st c st1 l st2 x : session_id_to_bytes sid (b "05") = Ok pk -> session_id_ok (to_hex k) (b "05") = true ->
  (forall s, s = b "m" \/ s = b "a" -> set_round [b "C"; pk; s] (SStr k) B st0 st c st1 l st2 /\ forall j, j = x \/ holds [b "C"; pk; s] (SStr k) (st j) = holds [b "C"; pk; s] (SStr k) (st0 j)) ->
  forall i, group_role (st2 i) sid (to_hex k) = group_role (st x) sid (to_hex k).
Proof.
  intros hpk hk hr i. rewrite !(C96_member_role _ sid pk k hpk hk).
  assert (hone : forall s, s = b "m" \/ s = b "a" -> holds [b "C"; pk; s] (SStr k) (st2 i) = holds [b "C"; pk; s] (SStr k) (st x)).
  { intros s hs. destruct (hr s hs) as [h1 h2]. destruct (C96_element [b "C"; pk; s] (SStr k) B st0 st c st1 l st2 ltac:(discriminate) h1 i) as [e1 e2].
    assert (e0 : holds [b "C"; pk; s] (SStr k) (st0 i) = holds [b "C"; pk; s] (SStr k) (st0 x)) by (unfold holds; rewrite (round_same _ _ B st0 st c st1 l st2 h1 i x); reflexivity).
    destruct (Bool.bool_dec (holds [b "C"; pk; s] (SStr k) (st x)) (holds [b "C"; pk; s] (SStr k) (st0 x))) as [e|e].
    - rewrite e1; [congruence|]. intros j. destruct (h2 j) as [->|hj]; assumption.
    - rewrite e2 by (exists x; exact e). rewrite e0. destruct (holds [b "C"; pk; s] (SStr k) (st x)), (holds [b "C"; pk; s] (SStr k) (st0 x)); try reflexivity; congruence. }
  rewrite !hone by auto. reflexivity.
Qed.

(** ** examples: two devices *)
Record stage := mkStage { x_a : bstate; x_b : bstate; x_ca : bytes; x_cb : bytes; x_1a : bstate; x_1b : bstate; x_2a : bstate; x_2b : bstate }.
Definition edits_of (l : list op) (st : bstate) : bstate := fold_left (fun s o => after tb o s) l st.
Definition play (a b0 : bstate) : stage :=
  let ca := out_f (push tb a) in let cb := out_f (push tb b0) in let a1 := snd (push tb a) in let b1 := snd (push tb b0) in let l := [(b "h", ca); (b "g", cb)] in
  mkStage a b0 ca cb a1 b1 (snd (merge tb l a1)) (snd (merge tb l b1)).
Definition two {A : Type} (a b0 : A) (i : bool) : A := if i then a else b0.
Definition g_st (e : stage) : bool -> bstate := two (x_a e) (x_b e).
Definition g_c (e : stage) : bool -> bytes := two (x_ca e) (x_cb e).
Definition g_1 (e : stage) : bool -> bstate := two (x_1a e) (x_1b e).
Definition g_l (e : stage) (i : bool) : list (bytes * bytes) := [(b "h", x_ca e); (b "g", x_cb e)].
Definition g_2 (e : stage) : bool -> bstate := two (x_2a e) (x_2b e).
Definition add_m (s : String.string) : op := OpSetInsert [b "G"] (b "m") (SStr (b s)).
Definition rem_m (s : String.string) : op := OpSetErase [b "G"] (b "m") (SStr (b s)).
Definition put_k (k s : String.string) : op := OpAssign [] (b k) (VScal (SStr (b s))).
Definition gm : list bytes := [b "G"; b "m"].
(** round 1: one device puts "a" and "c" in the set; round 2: one adds "x", the other adds "y" and removes "a" *)
Definition u1 : stage := Eval vm_compute in play (edits_of [add_m "a"; add_m "c"] (start tb)) (start tb).
Definition u2 : stage := Eval vm_compute in play (edits_of [add_m "x"] (x_2a u1)) (edits_of [add_m "y"; rem_m "a"] (x_2b u1)).
(** the pieces of a round of these devices *)
Definition fine (o : op) (st : bstate) : bool :=
  is_edit o && match o with OpAssign _ _ v => wf_v v | OpSetInsert _ _ x => scalar_ok x | _ => true end &&
  match fst (run tb o st) with Ok tt => true | _ => false end && bt_ok (BDict (bt_of_dict (s_data (after tb o st)))).
Fixpoint all_fine (l : list op) (st : bstate) : bool := match l with [] => true | o :: r => fine o st && all_fine r (after tb o st) end.
Fixpoint all_keep (p : list bytes) (l : list op) (st : bstate) : bool :=
  match l with [] => true | o :: r => set_shaped p (s_data (after tb o st)) && remains p (tidied st) (tidied (after tb o st)) && negb (awaiting st) && all_keep p r (after tb o st) end.
Lemma fine_edit o st : fine o st = true -> is_edit o = true /\ plainly tb o st (after tb o st) /\ run tb o st = (Ok tt, after tb o st).
Proof.
  unfold fine. intros h. apply Bool.andb_true_iff in h as [h h4]. apply Bool.andb_true_iff in h as [h h3]. apply Bool.andb_true_iff in h as [h1 h2].
  split; [exact h1|]. split.
  - split; [split; [|exact h4]|destruct o; try exact Logic.I; discriminate]. destruct o; try exact Logic.I; try exact h2; discriminate.
  - unfold after. destruct (run tb o st) as [[[]| | | |] st']; cbn [fst] in h3; try discriminate. reflexivity.
Qed.
Lemma fine_steps l : forall st, all_fine l st = true -> steps tb (plainly tb) st l (edits_of l st) /\ forallb is_edit l = true.
Proof.
  induction l as [|o r IH]; intros st h; [split; [apply steps_nil|reflexivity]|]. cbn [all_fine] in h. apply Bool.andb_true_iff in h as [h1 h2]. destruct (fine_edit _ _ h1) as (e1 & e2 & e3). destruct (IH _ h2) as [h3 h4].
  split; [|cbn [forallb]; rewrite e1, h4; reflexivity]. eapply steps_cons; [|exact h3]. apply step_run with (x := Ok tt); [exact e3|split; discriminate|exact e2].
Qed.
Lemma careful_steps p x l : forall st, all_fine l st = true -> all_keep p l st = true -> steps tb (carefully p x tb) st l (edits_of l st) /\ forallb is_edit l = true.
Proof.
  induction l as [|o r IH]; intros st h k; [split; [apply steps_nil|reflexivity]|]. cbn [all_fine] in h. apply Bool.andb_true_iff in h as [h1 h2]. cbn [all_keep] in k. apply Bool.andb_true_iff in k as [k k4]. apply Bool.andb_true_iff in k as [k k3]. apply Bool.andb_true_iff in k as [k1 k2].
  destruct (fine_edit _ _ h1) as (e1 & e2 & e3). destruct (IH _ h2 k4) as [h3 h4].
  split; [|cbn [forallb]; rewrite e1, h4; reflexivity]. eapply steps_cons; [|exact h3]. apply step_run with (x := Ok tt); [exact e3|split; discriminate|].
  split; [exact e2|]. split; [|destruct o; try exact Logic.I; discriminate]. intros _. split; [exact k1|]. split; [exact k2|]. apply Bool.negb_true_iff in k3. rewrite k3. discriminate.
Qed.
Lemma steps_life R B st l st' : life B R st -> steps B (R B) st l st' -> life B R st'.
Proof. intros hl hs. induction hs as [st|st o st1 l st2 h1 h2 IH]; [exact hl|]. apply IH. eapply life_step; [exact hl|exact h1]. Qed.
(** what a stage of the example must satisfy to be an exchange; all of it is computed *)
Definition parts_ok (e : stage) : Prop :=
  (forall i, exists n o, push tb (g_st e i) = (Ok (n, g_c e i, o), g_1 e i)) /\ (forall i, s_keys (g_st e i) = [toy_key]) /\ (forall i, s_keys (g_1 e i) = [toy_key]) /\
  (forall i, exists hs, merge tb (g_l e i) (g_1 e i) = (Ok hs, g_2 e i)).
Lemma stage_exchange e : parts_ok e -> all_push (fun _ => tb) (g_st e) (g_c e) (g_1 e) /\ all_fetch (fun _ => tb) (g_st e) (g_c e) (g_1 e) (g_l e) /\ all_merge (fun _ => tb) (g_l e) (g_1 e) (g_2 e).
Proof. intros (h1 & h2 & h3 & h4). split; [apply f_push, h1|]. split; [exact (f_fetch _ _ _ h2 h3)|]. intros i. destruct (h4 i) as (hs & e0). exists hs. exact e0. Qed.
Ltac parts := split; [intros [|]; do 2 eexists; vm_compute; reflexivity|]; split; [intros [|]; reflexivity|]; split; [intros [|]; reflexivity|]; intros [|]; eexists; vm_compute; reflexivity.
Lemma u1_parts : parts_ok u1.
Proof. parts. Qed.
Lemma u2_parts : parts_ok u2.
Proof. parts. Qed.
Ltac hashes := intros i j s c s0 c0 h1 h2; apply no_collisionb_ok; destruct i, j; vm_compute in h1, h2; injection h1 as <- _; injection h2 as <- _; vm_compute; reflexivity.
Lemma u1_apart i j : apart_hashes tb (g_st u1 i) tb (g_st u1 j).
Proof. revert i j. hashes. Qed.
Lemma u2_apart i j : apart_hashes tb (g_st u2 i) tb (g_st u2 j).
Proof. revert i j. hashes. Qed.
(** a round of two devices, from its computed parts *)
Lemma stage_round p x (st0 : bool -> bstate) (la lb : list op) e : (forall i, life tb (carefully p x) (st0 i)) -> in_step (fun _ => tb) st0 ->
  (forall i, g_st e i = edits_of (two la lb i) (st0 i)) -> (forall i, all_fine (two la lb i) (st0 i) = true) -> (forall i, all_keep p (two la lb i) (st0 i) = true) ->
  (forall i j, apart_hashes tb (g_st e i) tb (g_st e j)) -> (forall i, s_seqno (g_st e i) + e_lag (b_env tb) < 2 ^ 63)%Z -> (0 < s_seqno (x_a e))%Z -> parts_ok e ->
  set_round p x (fun _ => tb) st0 (g_st e) (g_c e) (g_1 e) (g_l e) (g_2 e).
Proof.
  intros hl hs he hf hk ha hr hpos hp. destruct (stage_exchange _ hp) as (h1 & h2 & h3).
  assert (hst : forall i, steps tb (carefully p x tb) (st0 i) (two la lb i) (g_st e i) /\ forallb is_edit (two la lb i) = true) by (intros i; rewrite (he i); apply careful_steps; [apply hf|apply hk]).
  split; auto.
  - intros i. exists (two la lb i). apply hst.
  - apply f_group; [intros i|exact ha|exact hr]. apply (carefully_life p x). eapply steps_life; [apply hl|apply hst].
  - exists true. exact hpos.
Qed.
Lemma u1_round x : set_round gm x (fun _ => tb) f_0 (g_st u1) (g_c u1) (g_1 u1) (g_l u1) (g_2 u1).
Proof.
  apply stage_round with (la := [add_m "a"; add_m "c"]) (lb := []).
  - intros i. apply life_fresh.
  - intros i j. split; [discriminate|]. split; [discriminate|]. do 3 eexists. split; [vm_compute; reflexivity|]. split; [vm_compute; reflexivity|vm_compute; reflexivity].
  - intros [|]; vm_compute; reflexivity.
  - intros [|]; vm_compute; reflexivity.
  - intros [|]; vm_compute; reflexivity.
  - exact u1_apart.
  - intros [|]; apply Z.ltb_lt; vm_compute; reflexivity.
  - apply Z.ltb_lt; vm_compute; reflexivity.
  - exact u1_parts.
Qed.
Lemma u1_step x : (forall i, life tb (carefully gm x) (g_2 u1 i)) /\ in_step (fun _ : bool => tb) (g_2 u1).
Proof.
  apply (C96_in_step gm x (fun _ => tb) f_0 (g_st u1) (g_c u1) (g_1 u1) (g_l u1) (g_2 u1)); [discriminate|apply u1_round|intros [|]; apply Z.ltb_lt; vm_compute; reflexivity|intros [|]; discriminate|].
  apply (C96_stays gm x (SStr (b "a")) (fun _ => tb) f_0 (g_st u1) (g_c u1) (g_1 u1) (g_l u1) (g_2 u1)); [discriminate|apply u1_round|intros [|]; reflexivity].
Qed.
Lemma u2_round x : set_round gm x (fun _ => tb) (g_2 u1) (g_st u2) (g_c u2) (g_1 u2) (g_l u2) (g_2 u2).
Proof.
  destruct (u1_step x) as [h0 hs].
  apply stage_round with (la := [add_m "x"]) (lb := [add_m "y"; rem_m "a"]).
  - exact h0.
  - exact hs.
  - intros [|]; vm_compute; reflexivity.
  - intros [|]; vm_compute; reflexivity.
  - intros [|]; vm_compute; reflexivity.
  - exact u2_apart.
  - intros [|]; apply Z.ltb_lt; vm_compute; reflexivity.
  - apply Z.ltb_lt; vm_compute; reflexivity.
  - exact u2_parts.
Qed.
(** Both additions and the removal are on both devices: the set was a, c; one device had a, c, x and the other c, y. *)
Example ex_C96 : (forall x, set_round gm x (fun _ => tb) (g_2 u1) (g_st u2) (g_c u2) (g_1 u2) (g_l u2) (g_2 u2)) /\
  get_path gm (s_data (g_st u2 true)) = Some (VSet (map SStr [b "a"; b "c"; b "x"])) /\ get_path gm (s_data (g_st u2 false)) = Some (VSet (map SStr [b "c"; b "y"])) /\
  (forall i, holds gm (SStr (b "a")) (g_2 u2 i) = false /\ forall s, In s ["c"; "x"; "y"]%string -> holds gm (SStr (b s)) (g_2 u2 i) = true).
Proof.
  split; [exact u2_round|]. split; [reflexivity|]. split; [reflexivity|]. intros i. split.
  - rewrite (proj2 (C96_element gm (SStr (b "a")) (fun _ => tb) (g_2 u1) (g_st u2) (g_c u2) (g_1 u2) (g_l u2) (g_2 u2) ltac:(discriminate) (u2_round _) i)); [destruct i; reflexivity|]. exists false. discriminate.
  - intros s hs. apply (C96_set gm (fun _ => tb) (g_2 u1) (g_st u2) (g_c u2) (g_1 u2) (g_l u2) (g_2 u2) [true; false]); [discriminate|exact u2_round|intros [|]; cbn; auto|].
    split; [destruct hs as [<-|[<-|[<-|[]]]]; [exists true|exists true|exists false]; reflexivity|].
    intros h0 j. destruct hs as [<-|[<-|[<-|[]]]]; destruct i; try discriminate h0; destruct j; reflexivity.
Qed.

(** A legacy group with the members 1 and 4 and the administrator 5; then one device adds member 2, and the other adds 3 as an
    administrator and removes 1. *)
Definition mkey (z : N) : bytes := ascii_of_N 5 :: repeat (ascii_of_N z) 32.
Definition mid (z : N) : bytes := to_hex (mkey z).
Definition lgroup (l : list (N * bool)) : legacy := mkLegacy new_gbase (b "Old") [] [] 0 (map (fun q => (mid (fst q), snd q)) l).
Definition lops (l : list (N * bool)) : list op := map (op_at [b "C"; mkey 9]) (legacy_script (lgroup l)).
Definition l1 : stage := Eval vm_compute in play (edits_of (lops [(1%N, false); (4%N, false); (5%N, true)]) (start tb)) (start tb).
Definition l2 : stage := Eval vm_compute in play (edits_of (lops [(1%N, false); (2%N, false); (4%N, false); (5%N, true)]) (x_2a l1)) (edits_of (lops [(3%N, true); (4%N, false); (5%N, true)]) (x_2b l1)).
Lemma l1_parts : parts_ok l1. Proof. parts. Qed.
Lemma l2_parts : parts_ok l2. Proof. parts. Qed.
Lemma l1_apart i j : apart_hashes tb (g_st l1 i) tb (g_st l1 j). Proof. revert i j. hashes. Qed.
Lemma l2_apart i j : apart_hashes tb (g_st l2 i) tb (g_st l2 j). Proof. revert i j. hashes. Qed.
Lemma l1_round s x : s = b "m" \/ s = b "a" -> set_round [b "C"; mkey 9; s] x (fun _ => tb) f_0 (g_st l1) (g_c l1) (g_1 l1) (g_l l1) (g_2 l1).
Proof.
  intros hs. apply stage_round with (la := lops [(1%N, false); (4%N, false); (5%N, true)]) (lb := []).
  - intros i. apply life_fresh.
  - intros i j. split; [discriminate|]. split; [discriminate|]. do 3 eexists. split; [vm_compute; reflexivity|]. split; [vm_compute; reflexivity|vm_compute; reflexivity].
  - intros [|]; vm_compute; reflexivity.
  - intros [|]; vm_compute; reflexivity.
  - destruct hs as [-> | ->]; intros [|]; vm_compute; reflexivity.
  - exact l1_apart.
  - intros [|]; apply Z.ltb_lt; vm_compute; reflexivity.
  - apply Z.ltb_lt; vm_compute; reflexivity.
  - exact l1_parts.
Qed.
Lemma l1_step s x : s = b "m" \/ s = b "a" -> (forall i, life tb (carefully [b "C"; mkey 9; s] x) (g_2 l1 i)) /\ in_step (fun _ : bool => tb) (g_2 l1).
Proof.
  intros hs. apply (C96_in_step [b "C"; mkey 9; s] x (fun _ => tb) f_0 (g_st l1) (g_c l1) (g_1 l1) (g_l l1) (g_2 l1)); [discriminate|apply l1_round, hs|intros [|]; apply Z.ltb_lt; vm_compute; reflexivity|intros [|]; discriminate|].
  apply (C96_stays [b "C"; mkey 9; s] x (SStr (mkey (if eqb s (b "m") then 4 else 5))) (fun _ => tb) f_0 (g_st l1) (g_c l1) (g_1 l1) (g_l l1) (g_2 l1)); [discriminate|apply l1_round, hs|]. destruct hs as [-> | ->]; intros [|]; vm_compute; reflexivity.
Qed.
Lemma l2_round s x : s = b "m" \/ s = b "a" -> set_round [b "C"; mkey 9; s] x (fun _ => tb) (g_2 l1) (g_st l2) (g_c l2) (g_1 l2) (g_l l2) (g_2 l2).
Proof.
  intros hs. destruct (l1_step s x hs) as [h0 h1].
  apply stage_round with (la := lops [(1%N, false); (2%N, false); (4%N, false); (5%N, true)]) (lb := lops [(3%N, true); (4%N, false); (5%N, true)]).
  - exact h0.
  - exact h1.
  - intros [|]; vm_compute; reflexivity.
  - intros [|]; vm_compute; reflexivity.
  - destruct hs as [-> | ->]; intros [|]; vm_compute; reflexivity.
  - exact l2_apart.
  - intros [|]; apply Z.ltb_lt; vm_compute; reflexivity.
  - apply Z.ltb_lt; vm_compute; reflexivity.
  - exact l2_parts.
Qed.
Example ex_C96_members : legacy_set tb (mid 9) (lgroup [(1%N, false); (4%N, false); (5%N, true)]) (start tb) = (Ok tt, g_st l1 true) /\
  legacy_set tb (mid 9) (lgroup [(1%N, false); (2%N, false); (4%N, false); (5%N, true)]) (g_2 l1 true) = (Ok tt, g_st l2 true) /\ legacy_set tb (mid 9) (lgroup [(3%N, true); (4%N, false); (5%N, true)]) (g_2 l1 false) = (Ok tt, g_st l2 false) /\
  forall i, group_role (g_2 l2 i) (mid 9) (mid 1) = None /\ group_role (g_2 l2 i) (mid 9) (mid 2) = Some false /\ group_role (g_2 l2 i) (mid 9) (mid 3) = Some true /\ group_role (g_2 l2 i) (mid 9) (mid 4) = Some false.
Proof.
  split; [vm_compute; reflexivity|]. split; [vm_compute; reflexivity|]. split; [vm_compute; reflexivity|]. intros i.
  assert (hm : forall z x, session_id_ok (mid z) (b "05") = true -> (forall s, s = b "m" \/ s = b "a" -> forall j, j = x \/ holds [b "C"; mkey 9; s] (SStr (mkey z)) (g_st l2 j) = holds [b "C"; mkey 9; s] (SStr (mkey z)) (g_2 l1 j)) -> group_role (g_2 l2 i) (mid 9) (mid z) = group_role (g_st l2 x) (mid 9) (mid z)).
  { intros z x hz hx. apply (C96_members (fun _ => tb) (mid 9) (mkey 9) (mkey z) (g_2 l1) (g_st l2) (g_c l2) (g_1 l2) (g_l l2) (g_2 l2) x); [vm_compute; reflexivity|exact hz|]. intros s hs. split; [apply l2_round, hs|apply hx, hs]. }
  split; [rewrite (hm 1%N false); [vm_compute; reflexivity..|]|split; [rewrite (hm 2%N true); [vm_compute; reflexivity..|]|split; [rewrite (hm 3%N false); [vm_compute; reflexivity..|]|rewrite (hm 4%N true); [vm_compute; reflexivity..|]]]];
    intros s [-> | ->] [|]; try (left; reflexivity); right; vm_compute; reflexivity.
Qed.

(** ** what the conditions are for *)
(** a round of two devices with no conditions on the edits *)
Lemma stage_free (st0 : bool -> bstate) (la lb : list op) e : (forall i, life tb plainly (st0 i)) ->
  (forall i, g_st e i = edits_of (two la lb i) (st0 i)) -> (forall i, all_fine (two la lb i) (st0 i) = true) ->
  (forall i j, apart_hashes tb (g_st e i) tb (g_st e j)) -> (forall i, s_seqno (g_st e i) + e_lag (b_env tb) < 2 ^ 63)%Z -> (0 < s_seqno (x_a e))%Z -> parts_ok e ->
  free_round (fun _ => tb) st0 (g_st e) (g_c e) (g_1 e) (g_l e) (g_2 e).
Proof.
  intros hl he hf ha hr hpos hp. destruct (stage_exchange _ hp) as (h1 & h2 & h3).
  assert (hst : forall i, steps tb (plainly tb) (st0 i) (two la lb i) (g_st e i) /\ forallb is_edit (two la lb i) = true) by (intros i; rewrite (he i); apply fine_steps, hf).
  split; auto.
  - intros i. exists (two la lb i). apply hst.
  - apply f_group; [intros i|exact ha|exact hr]. eapply steps_life; [apply hl|apply hst].
  - exists true. exact hpos.
Qed.
Lemma free_life (st0 : bool -> bstate) e : free_round (fun _ => tb) st0 (g_st e) (g_c e) (g_1 e) (g_l e) (g_2 e) -> (forall i, s_seqno (g_st e i) + 1 + e_lag (b_env tb) < 2 ^ 63)%Z -> forall i, life tb plainly (g_2 e i).
Proof. intros [h1 h2 h3 h4 h5 h6 h7] hr i. destruct (group_after (fun _ => tb) (g_st e) (g_c e) (g_1 e) (g_l e) (g_2 e) h3 hr h4 h5 h6 h7) as (h & _). exact (pg_life _ _ h i). Qed.
Ltac free la0 lb0 hl hp ha := apply stage_free with (la := la0) (lb := lb0); [exact hl|intros [|]; vm_compute; reflexivity|intros [|]; vm_compute; reflexivity|exact ha|intros [|]; apply Z.ltb_lt; vm_compute; reflexivity|apply Z.ltb_lt; vm_compute; reflexivity|exact hp].
Ltac alive h := apply (free_life _ _ h); intros [|]; apply Z.ltb_lt; vm_compute; reflexivity.
Lemma f_0_life i : life tb plainly (f_0 i).
Proof. apply life_fresh. Qed.
(** The set has one element, "a".  One device adds "x" (and sets another field), the other removes "a". *)
Definition d1 : stage := Eval vm_compute in play (edits_of [add_m "a"] (start tb)) (start tb).
Definition d2 : stage := Eval vm_compute in play (edits_of [add_m "x"; put_k "k" "1"] (x_2a d1)) (edits_of [rem_m "a"] (x_2b d1)).
(** The devices exchange the result; later one adds "y"; and later yet both change fields that have nothing to do with it. *)
Definition d3 : stage := Eval vm_compute in play (x_2a d2) (x_2b d2).
Definition d4 : stage := Eval vm_compute in play (edits_of [add_m "y"] (x_2a d3)) (x_2b d3).
Definition d5 : stage := Eval vm_compute in play (edits_of [put_k "u" "1"] (x_2a d4)) (edits_of [put_k "v" "2"] (x_2b d4)).
Lemma d1_parts : parts_ok d1. Proof. parts. Qed.
Lemma d2_parts : parts_ok d2. Proof. parts. Qed.
Lemma d3_parts : parts_ok d3. Proof. parts. Qed.
Lemma d4_parts : parts_ok d4. Proof. parts. Qed.
Lemma d5_parts : parts_ok d5. Proof. parts. Qed.
Lemma d1_apart i j : apart_hashes tb (g_st d1 i) tb (g_st d1 j). Proof. revert i j. hashes. Qed.
Lemma d2_apart i j : apart_hashes tb (g_st d2 i) tb (g_st d2 j). Proof. revert i j. hashes. Qed.
Lemma d3_apart i j : apart_hashes tb (g_st d3 i) tb (g_st d3 j). Proof. revert i j. hashes. Qed.
Lemma d4_apart i j : apart_hashes tb (g_st d4 i) tb (g_st d4 j). Proof. revert i j. hashes. Qed.
Lemma d5_apart i j : apart_hashes tb (g_st d5 i) tb (g_st d5 j). Proof. revert i j. hashes. Qed.
Lemma d1_free : free_round (fun _ => tb) f_0 (g_st d1) (g_c d1) (g_1 d1) (g_l d1) (g_2 d1).
Proof. free [add_m "a"] (@nil op) f_0_life d1_parts d1_apart. Qed.
Lemma d1_life i : life tb plainly (g_2 d1 i).
Proof. alive d1_free. Qed.
Lemma d2_free : free_round (fun _ => tb) (g_2 d1) (g_st d2) (g_c d2) (g_1 d2) (g_l d2) (g_2 d2).
Proof. free [add_m "x"; put_k "k" "1"] [rem_m "a"] d1_life d2_parts d2_apart. Qed.
Lemma d2_life i : life tb plainly (g_2 d2 i).
Proof. alive d2_free. Qed.
Lemma d3_free : free_round (fun _ => tb) (g_2 d2) (g_st d3) (g_c d3) (g_1 d3) (g_l d3) (g_2 d3).
Proof. free (@nil op) (@nil op) d2_life d3_parts d3_apart. Qed.
Lemma d3_life i : life tb plainly (g_2 d3 i).
Proof. alive d3_free. Qed.
Lemma d4_free : free_round (fun _ => tb) (g_2 d3) (g_st d4) (g_c d4) (g_1 d4) (g_l d4) (g_2 d4).
Proof. free [add_m "y"] (@nil op) d3_life d4_parts d4_apart. Qed.
Lemma d4_life i : life tb plainly (g_2 d4 i).
Proof. alive d4_free. Qed.
Lemma d5_free : free_round (fun _ => tb) (g_2 d4) (g_st d5) (g_c d5) (g_1 d5) (g_l d5) (g_2 d5).
Proof. free [put_k "u" "1"] [put_k "v" "2"] d4_life d5_parts d5_apart. Qed.
Ltac synced := intros [|] [|]; (split; [discriminate|]; split; [discriminate|]; do 3 eexists; split; [vm_compute; reflexivity|]; split; vm_compute; reflexivity).
Lemma d1_step : in_step (fun _ : bool => tb) (g_2 d1). Proof. synced. Qed.
Lemma d4_step : in_step (fun _ : bool => tb) (g_2 d4). Proof. synced. Qed.
(** C96_element is false without the condition that edits leave the set in place: the device that removed the set's last
    element has dropped the set from its data, and the other device's addition can be lost with it. *)
Theorem C96_last_removed_refuted : ~ (forall (I : Type) p x (B : I -> benv) st0 st c st1 l st2, p <> [] -> free_round B st0 st c st1 l st2 -> in_step B st0 ->
  (forall i, set_shaped p (s_data (st0 i)) = true /\ set_shaped p (s_data (st i)) = true) ->
  (exists j, holds p x (st j) <> holds p x (st0 j)) -> forall i, holds p x (st2 i) = negb (holds p x (st0 i))).
Proof.
  intros h. discriminate (h bool gm (SStr (b "x")) (fun _ => tb) (g_2 d1) (g_st d2) (g_c d2) (g_1 d2) (g_l d2) (g_2 d2) ltac:(discriminate) d2_free d1_step ltac:(intros [|]; split; reflexivity) ltac:(exists true; discriminate) true).
Qed.
(** Nor does such an element stay lost: an element that is on no device, of devices that are in step, and that no device
    adds, is back on all devices after they exchange changes to other fields. *)
Theorem C96_returns_refuted : ~ (forall (I : Type) p x (B : I -> benv) st0 st c st1 l st2, p <> [] -> free_round B st0 st c st1 l st2 -> in_step B st0 ->
  (forall i, set_shaped p (s_data (st0 i)) = true /\ set_shaped p (s_data (st i)) = true) ->
  (forall j, holds p x (st0 j) = false /\ holds p x (st j) = false) -> forall i, holds p x (st2 i) = false).
Proof.
  intros h. discriminate (h bool gm (SStr (b "x")) (fun _ => tb) (g_2 d4) (g_st d5) (g_c d5) (g_1 d5) (g_l d5) (g_2 d5) ltac:(discriminate) d5_free d4_step ltac:(intros [|]; split; reflexivity) ltac:(intros [|]; split; reflexivity) true).
Qed.
(** The other condition: devices that hold the same data, the result of a merge that they have not pushed yet.  Then one
    removes an element, or erases a field, the others change nothing, and they exchange. *)
Definition w_1 : stage := Eval vm_compute in play (edits_of [add_m "a"; add_m "x"; put_k "f" "1"] (start tb)) (start tb).
Definition w_2 : stage := Eval vm_compute in play (edits_of [put_k "u" "1"] (x_2a w_1)) (edits_of [put_k "v" "1"] (x_2b w_1)).
Definition w_3 : stage := Eval vm_compute in play (edits_of [rem_m "x"; OpErase [] (b "f")] (x_2a w_2)) (x_2b w_2).
Lemma w1_parts : parts_ok w_1. Proof. parts. Qed.
Lemma w2_parts : parts_ok w_2. Proof. parts. Qed.
Lemma w3_parts : parts_ok w_3. Proof. parts. Qed.
Lemma w1_apart i j : apart_hashes tb (g_st w_1 i) tb (g_st w_1 j). Proof. revert i j. hashes. Qed.
Lemma w2_apart i j : apart_hashes tb (g_st w_2 i) tb (g_st w_2 j). Proof. revert i j. hashes. Qed.
Lemma w3_apart i j : apart_hashes tb (g_st w_3 i) tb (g_st w_3 j). Proof. revert i j. hashes. Qed.
Lemma w1_free : free_round (fun _ => tb) f_0 (g_st w_1) (g_c w_1) (g_1 w_1) (g_l w_1) (g_2 w_1).
Proof. free [add_m "a"; add_m "x"; put_k "f" "1"] (@nil op) f_0_life w1_parts w1_apart. Qed.
Lemma w1_alive i : life tb plainly (g_2 w_1 i).
Proof. alive w1_free. Qed.
Lemma w2_free : free_round (fun _ => tb) (g_2 w_1) (g_st w_2) (g_c w_2) (g_1 w_2) (g_l w_2) (g_2 w_2).
Proof. free [put_k "u" "1"] [put_k "v" "1"] w1_alive w2_parts w2_apart. Qed.
Lemma w2_alive i : life tb plainly (g_2 w_2 i).
Proof. alive w2_free. Qed.
Lemma w3_free : free_round (fun _ => tb) (g_2 w_2) (g_st w_3) (g_c w_3) (g_1 w_3) (g_l w_3) (g_2 w_3).
Proof. free [rem_m "x"; OpErase [] (b "f")] (@nil op) w2_alive w3_parts w3_apart. Qed.
(** Neither is recorded as a change: both devices end with the element and with the field (C96_element and C95_one_changer
    are false if the devices only hold the same data and are not in step). *)
Theorem C96_pending_refuted : ~ (forall (I : Type) p x (B : I -> benv) st0 st c st1 l st2, p <> [] -> free_round B st0 st c st1 l st2 -> same_data st0 ->
  (forall i, set_shaped p (s_data (st0 i)) = true /\ set_shaped p (s_data (st i)) = true /\ remains p (s_data (st0 i)) (s_data (st i)) = true) ->
  (exists j, holds p x (st j) <> holds p x (st0 j)) -> forall i, holds p x (st2 i) = negb (holds p x (st0 i))).
Proof.
  intros h. discriminate (h bool gm (SStr (b "x")) (fun _ => tb) (g_2 w_2) (g_st w_3) (g_c w_3) (g_1 w_3) (g_l w_3) (g_2 w_3) ltac:(discriminate) w3_free ltac:(intros [|] [|]; reflexivity) ltac:(intros [|]; repeat split; reflexivity) ltac:(exists true; discriminate) true).
Qed.
Theorem C96_pending_field_refuted : ~ (forall (I : Type) p (B : I -> benv) st0 st c st1 l st2 j, p <> [] -> free_round B st0 st c st1 l st2 -> same_data st0 ->
  (forall i, shaped p (s_data (st0 i)) = true /\ shaped p (s_data (st i)) = true) ->
  value_at p (st j) <> value_at p (st0 j) -> (forall i, i = j \/ st i = st0 i) -> forall i, value_at p (st2 i) = value_at p (st j)).
Proof.
  intros h. discriminate (h bool [b "f"] (fun _ => tb) (g_2 w_2) (g_st w_3) (g_c w_3) (g_1 w_3) (g_l w_3) (g_2 w_3) true ltac:(discriminate) w3_free ltac:(intros [|] [|]; reflexivity) ltac:(intros [|]; split; reflexivity) ltac:(discriminate) ltac:(intros [|]; [left; reflexivity|right; reflexivity]) true).
Qed.
Print Assumptions C96_published.
Print Assumptions C96_element.
Print Assumptions C96_set.
Print Assumptions C96_stays.
Print Assumptions C96_in_step.
Print Assumptions C96_settles.
Print Assumptions C96_member_role.
Print Assumptions C96_legacy_set.
Print Assumptions C96_members.
Print Assumptions C96_last_removed_refuted.
Print Assumptions C96_returns_refuted.
Print Assumptions C96_pending_refuted.
Print Assumptions C96_pending_field_refuted.
