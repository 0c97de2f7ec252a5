(** C95: devices that were in step edit their config concurrently; what becomes of each field.  Statements only; proofs are
    in Field_facts.v to Field4_facts.v, the vocabulary is in FieldSpec.v, ConvergeSpec.v and BaseSpec.v. *)
From Verif Require Import Maps FieldSpec Records Contacts Members RecordsSpec Records_facts Contacts_facts Members_facts Life_facts Conf_facts Conf2_facts Conf3_facts Converge_facts Plain_facts Field_facts Field2_facts Field3_facts Field4_facts Field5_facts Toy ToyCrypt ToyBase Properties_base Properties_sync.

(** Whatever a device publishes has a change history that fits its data, if that was so for what it received. *)
Theorem C95_published p B st s m : p <> [] -> benv_ok B -> life B (steadily p) st -> publishes B st s -> parse_msg (b_env B) false s = Ok m -> orderly p m.
Proof. intros hp. exact (published_orderly p hp B st s m). Qed.
(** No value is made up: after the exchange the field has, on every device, the value some device had before it. *)
Theorem C95_no_invention {I : Type} p (B : I -> benv) st0 st c st1 l st2 : p <> [] -> round p B st0 st c st1 l st2 -> forall i, exists j, value_at p (st2 i) = value_at p (st j).
Proof. intros hp hr i. exact (proj1 (round_field p hp B st0 st c st1 l st2 hr i)). Qed.
(** A field on which all devices agree, changed or not, stays as it is. *)
Theorem C95_unanimous {I : Type} p (B : I -> benv) st0 st c st1 l st2 v : p <> [] -> round p B st0 st c st1 l st2 -> (forall j, value_at p (st j) = v) -> forall i, value_at p (st2 i) = v.
Proof. intros hp hr hv i. destruct (C95_no_invention p B st0 st c st1 l st2 hp hr i) as (j & ->). apply hv. Qed.
(** A change is not undone by devices that did not touch the field: it ends with the value of a device that changed it, if
    the others have not removed a dict that held the field's place. *)
Theorem C95_change_wins {I : Type} p (B : I -> benv) st0 st c st1 l st2 : p <> [] -> round p B st0 st c st1 l st2 ->
  (exists j, value_at p (st j) <> value_at p (st0 j)) ->
  (forall j, value_at p (st j) = value_at p (st0 j) -> keeps p (s_data (st0 j)) (s_data (st1 j)) = true) ->
  forall i, exists j, value_at p (st j) <> value_at p (st0 j) /\ value_at p (st2 i) = value_at p (st j).
Proof. intros hp hr h1 h2 i. exact (proj2 (round_field p hp B st0 st c st1 l st2 hr i) h1 h2). Qed.
(** So when one device alone has changed the field, all devices end with its value; and changes to different fields, by
    different devices, all survive. *)
Theorem C95_one_changer {I : Type} p (B : I -> benv) st0 st c st1 l st2 x : p <> [] -> round p B st0 st c st1 l st2 ->
  value_at p (st x) <> value_at p (st0 x) -> (forall j, j = x \/ value_at p (st j) = value_at p (st0 j) /\ keeps p (s_data (st0 j)) (s_data (st1 j)) = true) ->
  forall i, value_at p (st2 i) = value_at p (st x).
Proof.
  intros hp hr hx ho i. destruct (C95_change_wins p B st0 st c st1 l st2 hp hr) with (i := i) as (j & hj & ->).
  - exists x. exact hx.
  - intros j hj. destruct (ho j) as [->|[_ hk]]; [contradiction|exact hk].
  - destruct (ho j) as [->|[hk _]]; [reflexivity|contradiction].
Qed.
(** The same for a whole record, an entry with any number of fields under [id] in the dict [k]: if one device edits, adds or
    erases it, the others leave it alone and do not remove their last record of the kind, then all devices end with exactly
    that device's version. *)
Theorem C95_record {I : Type} (B : I -> benv) k id st0 st c st1 l st2 x : (forall f, round [k; id; f] B st0 st c st1 l st2) -> (forall i, s_seqno (st i) + 1 + e_lag (b_env (B i)) < 2 ^ 63)%Z ->
  (forall i, i = x \/ i <> x) -> (forall j, j <> x -> forall f, value_at [k; id; f] (st j) = value_at [k; id; f] (st0 j)) ->
  (forall j, j <> x -> lookup k (s_data (st0 j)) <> None -> lookup k (s_data (st1 j)) <> None) ->
  forall i, get_path [k; id] (s_data (st2 i)) = get_path [k; id] (s_data (st1 x)).
Proof. exact (round_record B k id st0 st c st1 l st2 x). Qed.
(** In terms of the Contacts class: *)
Theorem C95_contacts {I : Type} (B : I -> benv) sid pk st0 st c st1 l st2 x : session_id_to_bytes sid (b "05") = Ok pk ->
  (forall f, round [b "c"; pk; f] B st0 st c st1 l st2) -> (forall i, s_seqno (st i) + 1 + e_lag (b_env (B i)) < 2 ^ 63)%Z ->
  (forall i, i = x \/ i <> x) -> (forall j, j <> x -> forall f, value_at [b "c"; pk; f] (st j) = value_at [b "c"; pk; f] (st0 j)) ->
  (forall j, j <> x -> contacts_size (st0 j) <> 0 -> contacts_size (st1 j) <> 0) ->
  forall i, contacts_get (st2 i) sid = contacts_get (st1 x) sid.
Proof.
  intros hpk hr hroom hdec hun hk i. unfold contacts_get. rewrite hpk. cbn [bind]. unfold dict_at, field. cbn [app].
  rewrite (C95_record B (b "c") pk st0 st c st1 l st2 x hr hroom hdec hun); [reflexivity|].
  intros j hj h0 h1. apply (hk j hj); [|unfold contacts_size, dict_at, field; cbn [app get_path]; rewrite h1; reflexivity].
  exact (size_some _ (b "c") pk _ _ _ _ _ _ hr j h0).
Qed.
(** Setting or erasing any contact or member is an edit of the kind the rounds are made of, for every field of every record:
    the fields of the record classes are scalars and stay so.  [stays_small]: the data stays small enough to be sent. *)
Definition stays_small (B : benv) (ops : list op) (st : bstate) : Prop := forall n st1, run_ops B (firstn n ops) st = (Ok tt, st1) -> sendable (s_data st1).
Definition edits_by (p : list bytes) (B : benv) (st st' : bstate) : Prop := exists l, steps B (steadily p B) st l st' /\ forallb is_edit l = true.
Theorem C95_contacts_set B sid pk' c id f st st' : benv_ok B -> life B (steadily [b "c"; id; f]) st -> session_id_to_bytes sid (b "05") = Ok pk' ->
  int64_ok (ct_priority c) = true -> int64_ok (ct_mute c) = true -> int64_ok (ct_timer c) = true -> int64_ok (ct_created c) = true ->
  stays_small B (map (op_at [b "c"; pk']) (contact_script c)) st -> contacts_set B sid c st = (Ok tt, st') -> edits_by [b "c"; id; f] B st st'.
Proof.
  intros hB hl hpk h1 h2 h3 h4 hs h. unfold contacts_set in h. rewrite hpk in h. exists (map (op_at [b "c"; pk']) (contact_script c)).
  pose proof (contact_script_wf c h1 h2 h3 h4) as hok. split; [|apply script_edits, hok]. apply typed_steps; auto; [discriminate|]. apply script_gentle; [reflexivity|exact hok|apply contact_scalars].
Qed.
Theorem C95_contacts_erase B sid id f st st' x : benv_ok B -> life B (steadily [b "c"; id; f]) st -> sendable (s_data st') -> contacts_erase B sid st = (Ok x, st') -> edits_by [b "c"; id; f] B st st'.
Proof.
  intros hB hl hs h. unfold contacts_erase, failed in h. destruct (session_id_to_bytes sid (b "05")) as [pk'| | | |]; try (discriminate h). destruct (run B (OpErase [b "c"] pk') st) as [[[]| | | |] st1] eqn:e; try (discriminate h). injection h as _ ->.
  exists [OpErase [b "c"] pk']. split; [|reflexivity]. apply erase_steps; auto; discriminate.
Qed.
Theorem C95_members_set B sid pk' m id f st st' : benv_ok B -> life B (steadily [b "m"; id; f]) st -> session_id_to_bytes sid (b "05") = Ok pk' ->
  member_fits m -> stays_small B (map (op_at [b "m"; pk']) (member_script m)) st -> members_set B sid m st = (Ok tt, st') -> edits_by [b "m"; id; f] B st st'.
Proof.
  intros hB hl hpk h1 hs h. unfold members_set in h. rewrite hpk in h. exists (map (op_at [b "m"; pk']) (member_script m)).
  pose proof (member_script_ok m h1) as hok. split; [|apply script_edits, hok]. apply typed_steps; auto; [discriminate|]. apply script_gentle; [reflexivity|exact hok|apply member_scalars].
Qed.
Theorem C95_members_erase B sid id f st st' x : benv_ok B -> life B (steadily [b "m"; id; f]) st -> sendable (s_data st') -> members_erase B sid st = (Ok x, st') -> edits_by [b "m"; id; f] B st st'.
Proof.
  intros hB hl hs h. unfold members_erase, failed in h. destruct (session_id_to_bytes sid (b "05")) as [pk'| | | |]; try (discriminate h). destruct (run B (OpErase [b "m"] pk') st) as [[[]| | | |] st1] eqn:e; try (discriminate h). injection h as _ ->.
  exists [OpErase [b "m"] pk']. split; [|reflexivity]. apply erase_steps; auto; discriminate.
Qed.
(** The devices are then in step again and ready for the next round: at once if no device found a conflict ... *)
Theorem C95_in_step {I : Type} p (B : I -> benv) st0 st c st1 l st2 : p <> [] -> round p B st0 st c st1 l st2 -> (forall i, s_seqno (st i) + 1 + e_lag (b_env (B i)) < 2 ^ 63)%Z -> (forall i, s_state (st2 i) <> Dirty) ->
  (forall i, life (B i) (steadily p) (st2 i)) /\ in_step B st2.
Proof. intros hp. exact (round_clean p hp B st0 st c st1 l st2). Qed.
(** ... and otherwise after one more exchange, which leaves the field as it is. *)
Theorem C95_settles {I : Type} p (B : I -> benv) st0 st c st1 l st2 c' st3 l' st4 : p <> [] -> round p B st0 st c st1 l st2 -> (forall i, s_seqno (st i) + 2 + e_lag (b_env (B i)) < 2 ^ 63)%Z ->
  all_push B st2 c' st3 -> all_fetch B st2 c' st3 l' -> all_merge B l' st3 st4 ->
  (forall i, life (B i) (steadily p) (st4 i)) /\ in_step B st4 /\ (forall i, value_at p (st4 i) = value_at p (st2 i)) /\ plain_group B st4 /\ forall i, (0 < s_seqno (st4 i))%Z.
Proof. intros hp. exact (round_settled p hp B st0 st c st1 l st2 c' st3 l' st4). Qed.

(** ** example: two devices *)
Definition out_f (x : call (Z * bytes * list bytes)) : bytes := match fst x with Ok (_, c, _) => c | _ => [] end.
Definition put_f (p : list bytes) (k : String.string) (v : String.string) : op := OpAssign p (b k) (VScal (SStr (b v))).
Definition cA : list bytes := [b "c"; b "A"].
Definition cB : list bytes := [b "c"; b "B"].
(** round 1: one device adds record A with name "x" *)
Definition f_0 : bool -> bstate := fun _ => start tb.
Definition f1_a : bstate := Eval vm_compute in after tb (put_f cA "n" "x") (start tb).
Definition f1 (i : bool) : bstate := if i then f1_a else start tb.
Definition f1_ca : bytes := Eval vm_compute in out_f (push tb f1_a).
Definition f1_cb : bytes := Eval vm_compute in out_f (push tb (start tb)).
Definition f1_c (i : bool) : bytes := if i then f1_ca else f1_cb.
Definition f1_1a : bstate := Eval vm_compute in snd (push tb f1_a).
Definition f1_1b : bstate := Eval vm_compute in snd (push tb (start tb)).
Definition f1_1 (i : bool) : bstate := if i then f1_1a else f1_1b.
Definition f1_l (i : bool) : list (bytes * bytes) := [(b "h", f1_ca); (b "g", f1_cb)].
Definition f1_2a : bstate := Eval vm_compute in snd (merge tb (f1_l true) f1_1a).
Definition f1_2b : bstate := Eval vm_compute in snd (merge tb (f1_l false) f1_1b).
Definition f1_2 (i : bool) : bstate := if i then f1_2a else f1_2b.
(** round 2: one changes the name, the other sets the nickname *)
Definition f2_a : bstate := Eval vm_compute in after tb (put_f cA "n" "y") f1_2a.
Definition f2_b : bstate := Eval vm_compute in after tb (put_f cA "N" "z") f1_2b.
Definition f2 (i : bool) : bstate := if i then f2_a else f2_b.
Definition f2_ca : bytes := Eval vm_compute in out_f (push tb f2_a).
Definition f2_cb : bytes := Eval vm_compute in out_f (push tb f2_b).
Definition f2_c (i : bool) : bytes := if i then f2_ca else f2_cb.
Definition f2_1a : bstate := Eval vm_compute in snd (push tb f2_a).
Definition f2_1b : bstate := Eval vm_compute in snd (push tb f2_b).
Definition f2_1 (i : bool) : bstate := if i then f2_1a else f2_1b.
Definition f2_l (i : bool) : list (bytes * bytes) := [(b "h", f2_ca); (b "g", f2_cb)].
Definition f2_2a : bstate := Eval vm_compute in snd (merge tb (f2_l true) f2_1a).
Definition f2_2b : bstate := Eval vm_compute in snd (merge tb (f2_l false) f2_1b).
Definition f2_2 (i : bool) : bstate := if i then f2_2a else f2_2b.
(** round 2': one adds record B, the other erases record A, the only one *)
Definition f3_a : bstate := Eval vm_compute in after tb (put_f cB "n" "y") f1_2a.
Definition f3_b : bstate := Eval vm_compute in after tb (OpErase [b "c"] (b "A")) f1_2b.
Definition f3 (i : bool) : bstate := if i then f3_a else f3_b.
Definition f3_ca : bytes := Eval vm_compute in out_f (push tb f3_a).
Definition f3_cb : bytes := Eval vm_compute in out_f (push tb f3_b).
Definition f3_c (i : bool) : bytes := if i then f3_ca else f3_cb.
Definition f3_1a : bstate := Eval vm_compute in snd (push tb f3_a).
Definition f3_1b : bstate := Eval vm_compute in snd (push tb f3_b).
Definition f3_1 (i : bool) : bstate := if i then f3_1a else f3_1b.
Definition f3_l (i : bool) : list (bytes * bytes) := [(b "h", f3_ca); (b "g", f3_cb)].
Definition f3_2a : bstate := Eval vm_compute in snd (merge tb (f3_l true) f3_1a).
Definition f3_2b : bstate := Eval vm_compute in snd (merge tb (f3_l false) f3_1b).
Definition f3_2 (i : bool) : bstate := if i then f3_2a else f3_2b.

(** the pieces of a round of these devices *)
Definition flat (d : dict) : bool :=
  forallb (fun p => match snd p with VDict s => forallb (fun q => match snd q with VDict r => forallb (fun x => match snd x with VScal _ => true | _ => false end) r | _ => false end) s | _ => false end) d.
Lemma flat_shaped k id f d : flat d = true -> shaped [k; id; f] d = true.
Proof.
  unfold flat. rewrite forallb_forall. intros h. cbn [shaped is_nil negb andb]. destruct (lookup k d) as [v|] eqn:e1; [|reflexivity]. specialize (h _ (lookup_In _ _ _ e1)). cbn [snd] in h.
  destruct v as [s|s|sub]; try discriminate. rewrite forallb_forall in h. destruct (lookup id sub) as [v|] eqn:e2; [|reflexivity]. specialize (h _ (lookup_In _ _ _ e2)). cbn [snd] in h.
  destruct v as [s|s|r]; try discriminate. rewrite forallb_forall in h. destruct (lookup f r) as [v|] eqn:e3; [|reflexivity]. specialize (h _ (lookup_In _ _ _ e3)). cbn [snd] in h.
  destruct v; try discriminate. reflexivity.
Qed.
Lemma f_push st c st1 : (forall i : bool, exists n o, push tb (st i) = (Ok (n, c i, o), st1 i)) -> all_push (fun _ => tb) st c st1.
Proof. intros h i. destruct (h i) as (n & o & e). exists n, o, (st1 i). auto. Qed.
Lemma f_fetch st c st1 : (forall i : bool, s_keys (st i) = [toy_key]) -> (forall i : bool, s_keys (st1 i) = [toy_key]) -> all_fetch (fun _ => tb) st c st1 (fun _ => [(b "h", c true); (b "g", c false)]).
Proof.
  intros h0 h1. split.
  - intros i h x [e|[e|[]]]; [exists true|exists false]; congruence.
  - intros i j. left. destruct j; [left|right; left]; reflexivity.
  - intros i j k rest hk. rewrite h0 in hk. injection hk as <- _. exists [], []. rewrite h1. split; [reflexivity|]. split; [reflexivity|intros k' []].
Qed.
Lemma f_group st : (forall i, life tb plainly (st i)) -> (forall i j, apart_hashes tb (st i) tb (st j)) -> (forall i, s_seqno (st i) + e_lag (b_env tb) < 2 ^ 63)%Z -> @plain_group bool (fun _ => tb) st.
Proof.
  intros hl ha hr. split; [split|exact hl|exact hr]; auto.
  - intros _. exact toy_aead_ok.
  - intros _. exact tb_ok.
  - intros _ _. exact tb_peer.
  - intros i. apply plainly_life, hl.
Qed.
Lemma f1_round id f : round [b "c"; id; f] (fun _ => tb) f_0 f1 f1_c f1_1 f1_l f1_2.
Proof.
  assert (h0 : life tb (steadily [b "c"; id; f]) (start tb)) by apply life_fresh.
  assert (hstep : step tb (steadily [b "c"; id; f] tb) (start tb) (put_f cA "n" "x") f1_a).
  { apply step_run with (x := Ok tt); [vm_compute; reflexivity|split; discriminate|]. split; [split; [split; [reflexivity|vm_compute; reflexivity]|exact Logic.I]|]. split; [intros _; apply flat_shaped; reflexivity|exact Logic.I]. }
  assert (hl : forall i, life tb (steadily [b "c"; id; f]) (f1 i)) by (intros [|]; [eapply life_step; [exact h0|exact hstep]|exact h0]).
  split.
  - intros i. exact h0.
  - intros i j. split; [discriminate|]. split; [discriminate|]. do 3 eexists. split; [vm_compute; reflexivity|]. split; [vm_compute; reflexivity|vm_compute; reflexivity].
  - intros [|]; [exists [put_f cA "n" "x"]|exists []]; (split; [|reflexivity]); [eapply steps_cons; [exact hstep|apply steps_nil]|apply steps_nil].
  - apply f_group; [intros i; apply (steadily_life [b "c"; id; f]), hl| |intros [|]; apply Z.ltb_lt; vm_compute; reflexivity].
    intros i j s c s0 c0 h1 h2. apply no_collisionb_ok. destruct i, j; vm_compute in h1, h2; injection h1 as <- _; injection h2 as <- _; vm_compute; reflexivity.
  - exists true. reflexivity.
  - apply f_push. intros [|]; do 2 eexists; vm_compute; reflexivity.
  - apply f_fetch; intros [|]; reflexivity.
  - intros [|]; eexists; vm_compute; reflexivity.
Qed.

Lemma f1_step id f : (forall i, life tb (steadily [b "c"; id; f]) (f1_2 i)) /\ in_step (fun _ : bool => tb) f1_2.
Proof.
  apply (C95_in_step [b "c"; id; f] (fun _ => tb) f_0 f1 f1_c f1_1 f1_l f1_2); [discriminate|apply f1_round|intros [|]; apply Z.ltb_lt; vm_compute; reflexivity|intros [|]; discriminate].
Qed.
Lemma f2_round id f : round [b "c"; id; f] (fun _ => tb) f1_2 f2 f2_c f2_1 f2_l f2_2.
Proof.
  destruct (f1_step id f) as [h0 hs].
  assert (ha : step tb (steadily [b "c"; id; f] tb) (f1_2 true) (put_f cA "n" "y") f2_a).
  { apply step_run with (x := Ok tt); [vm_compute; reflexivity|split; discriminate|]. split; [split; [split; [reflexivity|vm_compute; reflexivity]|exact Logic.I]|]. split; [intros _; apply flat_shaped; reflexivity|exact Logic.I]. }
  assert (hb : step tb (steadily [b "c"; id; f] tb) (f1_2 false) (put_f cA "N" "z") f2_b).
  { apply step_run with (x := Ok tt); [vm_compute; reflexivity|split; discriminate|]. split; [split; [split; [reflexivity|vm_compute; reflexivity]|exact Logic.I]|]. split; [intros _; apply flat_shaped; reflexivity|exact Logic.I]. }
  assert (hl : forall i, life tb (steadily [b "c"; id; f]) (f2 i)) by (intros [|]; (eapply life_step; [apply h0|eassumption])).
  split.
  - exact h0.
  - exact hs.
  - intros [|]; [exists [put_f cA "n" "y"]|exists [put_f cA "N" "z"]]; (split; [|reflexivity]); (eapply steps_cons; [eassumption|apply steps_nil]).
  - apply f_group; [intros i; apply (steadily_life [b "c"; id; f]), hl| |intros [|]; apply Z.ltb_lt; vm_compute; reflexivity].
    intros i j s c s0 c0 h1 h2. apply no_collisionb_ok. destruct i, j; vm_compute in h1, h2; injection h1 as <- _; injection h2 as <- _; vm_compute; reflexivity.
  - exists true. reflexivity.
  - apply f_push. intros [|]; do 2 eexists; vm_compute; reflexivity.
  - apply f_fetch; intros [|]; reflexivity.
  - intros [|]; eexists; vm_compute; reflexivity.
Qed.
Lemma f3_round id f : round [b "c"; id; f] (fun _ => tb) f1_2 f3 f3_c f3_1 f3_l f3_2.
Proof.
  destruct (f1_step id f) as [h0 hs].
  assert (ha : step tb (steadily [b "c"; id; f] tb) (f1_2 true) (put_f cB "n" "y") f3_a).
  { apply step_run with (x := Ok tt); [vm_compute; reflexivity|split; discriminate|]. split; [split; [split; [reflexivity|vm_compute; reflexivity]|exact Logic.I]|]. split; [intros _; apply flat_shaped; reflexivity|exact Logic.I]. }
  assert (hb : step tb (steadily [b "c"; id; f] tb) (f1_2 false) (OpErase [b "c"] (b "A")) f3_b).
  { apply step_run with (x := Ok tt); [vm_compute; reflexivity|split; discriminate|]. split; [split; [split; [reflexivity|vm_compute; reflexivity]|exact Logic.I]|]. split; [intros _; apply flat_shaped; reflexivity|exact Logic.I]. }
  assert (hl : forall i, life tb (steadily [b "c"; id; f]) (f3 i)) by (intros [|]; (eapply life_step; [apply h0|eassumption])).
  split.
  - exact h0.
  - exact hs.
  - intros [|]; [exists [put_f cB "n" "y"]|exists [OpErase [b "c"] (b "A")]]; (split; [|reflexivity]); (eapply steps_cons; [eassumption|apply steps_nil]).
  - apply f_group; [intros i; apply (steadily_life [b "c"; id; f]), hl| |intros [|]; apply Z.ltb_lt; vm_compute; reflexivity].
    intros i j s c s0 c0 h1 h2. apply no_collisionb_ok. destruct i, j; vm_compute in h1, h2; injection h1 as <- _; injection h2 as <- _; vm_compute; reflexivity.
  - exists true. reflexivity.
  - apply f_push. intros [|]; do 2 eexists; vm_compute; reflexivity.
  - apply f_fetch; intros [|]; reflexivity.
  - intros [|]; eexists; vm_compute; reflexivity.
Qed.
(** Both changes of round 2 are on both devices, although each had only its own. *)
Example ex_C95 : let name := [b "c"; b "A"; b "n"] in let nick := [b "c"; b "A"; b "N"] in
  round name (fun _ => tb) f1_2 f2 f2_c f2_1 f2_l f2_2 /\ round nick (fun _ => tb) f1_2 f2 f2_c f2_1 f2_l f2_2 /\
  value_at name (f2 true) = Some (VScal (SStr (b "y"))) /\ value_at name (f2 false) = Some (VScal (SStr (b "x"))) /\ value_at nick (f2 true) = None /\ value_at nick (f2 false) = Some (VScal (SStr (b "z"))) /\
  (forall i, value_at name (f2_2 i) = Some (VScal (SStr (b "y"))) /\ value_at nick (f2_2 i) = Some (VScal (SStr (b "z")))).
Proof.
  cbv zeta. split; [apply f2_round|]. split; [apply f2_round|]. split; [reflexivity|]. split; [reflexivity|]. split; [reflexivity|]. split; [reflexivity|]. intros i. split.
  - apply (C95_one_changer [b "c"; b "A"; b "n"] (fun _ => tb) f1_2 f2 f2_c f2_1 f2_l f2_2 true); [discriminate|apply f2_round|discriminate|]. intros [|]; [left; reflexivity|right; split; reflexivity].
  - apply (C95_one_changer [b "c"; b "A"; b "N"] (fun _ => tb) f1_2 f2 f2_c f2_1 f2_l f2_2 false); [discriminate|apply f2_round|discriminate|]. intros [|]; [right; split; reflexivity|left; reflexivity].
Qed.
(** round 1 as an instance of C95_record: the record the first device added is on both *)
Example ex_C95_record : forall i, get_path [b "c"; b "A"] (s_data (f1_2 i)) = Some (VDict [(b "n", VScal (SStr (b "x")))]).
Proof.
  intros i. rewrite (C95_record (fun _ => tb) (b "c") (b "A") f_0 f1 f1_c f1_1 f1_l f1_2 true); [reflexivity|apply f1_round|intros [|]; apply Z.ltb_lt; vm_compute; reflexivity|intros [|]; [left|right]; congruence| |].
  - intros [|] hj f; [congruence|reflexivity].
  - intros [|] hj h; [congruence|exact h].
Qed.
(** Without the condition on removed dicts C95_change_wins is false: one device adds record B, another erases record A, which
    was the only one; both devices end without B. *)
Theorem C95_last_erased_refuted : ~ (forall (I : Type) p (B : I -> benv) st0 st c st1 l st2, p <> [] -> round p B st0 st c st1 l st2 ->
  (exists j, value_at p (st j) <> value_at p (st0 j)) -> forall i, exists j, value_at p (st j) <> value_at p (st0 j) /\ value_at p (st2 i) = value_at p (st j)).
Proof.
  intros h. destruct (h bool [b "c"; b "B"; b "n"] (fun _ => tb) f1_2 f3 f3_c f3_1 f3_l f3_2) with (i := true) as (j & h1 & h2).
  - discriminate.
  - apply f3_round.
  - exists true. discriminate.
  - destruct j; [discriminate h2|apply h1; reflexivity].
Qed.
Print Assumptions C95_published.
Print Assumptions C95_no_invention.
Print Assumptions C95_unanimous.
Print Assumptions C95_change_wins.
Print Assumptions C95_one_changer.
Print Assumptions C95_record.
Print Assumptions C95_contacts.
Print Assumptions C95_contacts_set.
Print Assumptions C95_contacts_erase.
Print Assumptions C95_members_set.
Print Assumptions C95_members_erase.
Print Assumptions C95_in_step.
Print Assumptions C95_settles.
Print Assumptions C95_last_erased_refuted.
