(** Proofs of C96, part 5: storing a legacy group with the class UserGroups changes the sets of its members and of its
    administrators in the way [carefully] asks for. *)
From Verif Require Import Bytes Maps ElemSpec Records Contacts UserGroups UserGroupsSpec Data_facts Fields_facts Base_facts Life_facts Life2_facts Life4_facts Conf2_facts Conf5_facts Replay_facts Records_facts UserGroups_facts Elem_facts Elem2_facts Elem4_facts.
From Coq Require Import Lia.

(** ** the shape *)
Definition fits_set (p : list bytes) (i : list bytes) (l : bytes) (v : value) : Prop := apart p (i ++ [l]) = true \/ p = i ++ [l] /\ exists s, v = VSet s.
Lemma set_shaped_upd v last inter : forall p d, wf d = true -> fits_set p inter last v -> set_shaped p d = true -> set_shaped p (upd_field inter last (fun _ => v) d) = true.
Proof.
  induction inter as [|k r IH]; intros p d hw hp hs; unfold fits_set in hp; cbn [upd_field app] in *; (destruct p as [|k' p]; [reflexivity|]); cbn [set_shaped] in *; rewrite lookup_insert by (apply wf_sorted; exact hw).
  - destruct (eqb k' last) eqn:e; [|exact hs]. destruct hp as [hp|[hp (s & ->)]]; [|injection hp as _ ->; reflexivity]. cbn [apart] in hp. rewrite e in hp. destruct p; discriminate.
  - destruct (eqb k' k) eqn:e; [|exact hs]. apply eqb_eq in e as ->.
    assert (hp' : fits_set p r last v) by (destruct hp as [hp|[hp hv]]; [left; cbn [apart] in hp; rewrite eqb_refl in hp; exact hp|right; split; [congruence|exact hv]]).
    assert (hn : is_nil p = false) by (destruct p as [|]; [destruct hp' as [h|[h _]]; [discriminate|destruct r; discriminate]|reflexivity]). rewrite hn. cbn [negb andb].
    apply IH; [apply wf_as_dict; destruct (lookup k d) as [v'|] eqn:el; [exact (Base_facts.wf_lookup _ _ _ hw el)|exact I]|exact hp'|].
    destruct (lookup k d) as [[x|x|sub]|]; cbn [as_dict].
    + discriminate.
    + rewrite hn in hs. discriminate.
    + apply andb_true_iff in hs. apply hs.
    + apply set_shaped_nil.
Qed.
Lemma set_shaped_del last inter : forall p d, wf d = true -> set_shaped p d = true -> set_shaped p (mod_field inter last (fun _ => None) d) = true.
Proof.
  induction inter as [|k r IH]; intros p d hw hs; cbn [mod_field]; (destruct p as [|k' p]; [reflexivity|]).
  - destruct (lookup last d); [|exact hs]. cbn [set_shaped] in *. rewrite lookup_erase. destruct (eqb k' last); [reflexivity|exact hs].
  - destruct (lookup k d) as [[x|x|sub]|] eqn:el; try exact hs. cbn [set_shaped] in *. rewrite lookup_insert by (apply wf_sorted; exact hw). destruct (eqb k' k) eqn:e; [|exact hs]. apply eqb_eq in e as ->. rewrite el in hs.
    apply andb_true_iff in hs as [h1 h2]. rewrite h1. cbn [andb]. apply IH; [exact (Base_facts.wf_lookup _ _ _ hw el)|exact h2].
Qed.
(** ** the set and the dicts on the way to it are still there, for a path of three *)
Lemma prune_full v : full_v v = true -> exists v' ch, prune_v v = (v', (false, ch)).
Proof.
  destruct v as [s|l|d]; cbn [full_v]; intros h; [exists (VScal s), false; reflexivity|exists (VSet l), false; cbn [prune_v]; destruct l; [discriminate|reflexivity]|].
  apply andb_true_iff in h as [h1 h2]. rewrite prune_v_dict', prune_id by exact h2. exists (VDict d), (snd (prune d)). destruct d; [discriminate|reflexivity].
Qed.
Lemma path2 (a c : bytes) d : get_path [a; c] d = match lookup a d with Some (VDict s) => lookup c s | _ => None end.
Proof. cbn [get_path]. destruct (lookup a d) as [[| |s]|]; reflexivity. Qed.
Lemma path3 (a c e : bytes) d : get_path [a; c; e] d = match get_path [a; c] d with Some (VDict s) => lookup e s | _ => None end.
Proof. rewrite path2. cbn [get_path]. destruct (lookup a d) as [[| |s]|]; reflexivity. Qed.
Lemma remains3 k id s id' f v d d' : wf d = true -> wf d' = true -> set_shaped [k; id; s] d = true -> set_shaped [k; id; s] d' = true ->
  get_path [k; id'; f] d' = Some v -> full_v v = true -> (id = id' \/ get_path [k; id] d' = get_path [k; id] d) ->
  (forall l, get_path [k; id; s] d = Some (VSet l) -> l <> [] -> exists l', get_path [k; id; s] d' = Some (VSet l') /\ l' <> []) ->
  remains [k; id; s] (fst (prune d)) (fst (prune d')) = true.
Proof.
  intros hw hw' hs hs' hv hf hid hset.
  destruct (prune_full _ hf) as (v' & ch & ev).
  assert (hv' : get_path [k; id'; f] (fst (prune d')) = Some v') by (rewrite get_path_prune, hv, ev by (assumption || discriminate); reflexivity).
  pose proof (set_shaped_prune _ _ hw hs) as hp1. pose proof (set_shaped_prune _ _ hw' hs') as hp2.
  assert (h2 : get_path [k; id] (fst (prune d)) <> None -> get_path [k; id] (fst (prune d')) <> None).
  { destruct hid as [->|hid]; [intros _ hn; rewrite path3, hn in hv'; discriminate|]. rewrite !get_path_prune by (assumption || discriminate). rewrite hid. tauto. }
  assert (h3 : forall l, get_path [k; id; s] (fst (prune d)) = Some (VSet l) -> exists l', get_path [k; id; s] (fst (prune d')) = Some (VSet l')).
  { intros l. rewrite !get_path_prune by (assumption || discriminate). destruct (get_path [k; id; s] d) as [[x|l0|sub]|] eqn:eg; [cbn [prune_v]; discriminate| |rewrite prune_v_dict'; destruct (is_nil _); discriminate|discriminate].
    cbn [prune_v]. destruct l0 as [|y l0]; [discriminate|]. intros _. destruct (hset _ eq_refl) as (l' & -> & hne); [discriminate|]. exists l'. cbn [prune_v]. destruct l'; [congruence|reflexivity]. }
  rewrite path2 in h2. rewrite path3, path2 in hv'. cbn [remains]. cbn [set_shaped] in hp1, hp2.
  destruct (lookup k (fst (prune d'))) as [[x|x|sub']|] eqn:e'; try discriminate. destruct (lookup k (fst (prune d))) as [[x|x|sub]|] eqn:e; try reflexivity; try discriminate hp1.
  rewrite path2, e' in h2. assert (h3' : forall l, match lookup id sub with Some (VDict r) => lookup s r | _ => None end = Some (VSet l) -> exists l', match lookup id sub' with Some (VDict r) => lookup s r | _ => None end = Some (VSet l')).
  { intros l. specialize (h3 l). rewrite !path3, !path2, e, e' in h3. exact h3. }
  apply andb_true_iff in hp1 as [_ hp1]. apply andb_true_iff in hp2 as [_ hp2].
  destruct (lookup id sub) as [[x|x|r]|] eqn:er; try reflexivity; try discriminate hp1.
  destruct (lookup id sub') as [[x|x|r']|] eqn:er'; try discriminate hp2; [|exfalso; apply h2; [discriminate|reflexivity]].
  destruct (lookup s r) as [[x|l|x]|] eqn:es; try reflexivity; try discriminate hp1.
  destruct (h3' l eq_refl) as (l' & ->). reflexivity.
Qed.

(** ** not awaiting stays not awaiting *)
Lemma edit_awaiting p x B o st st' : p <> [] -> benv_ok B -> life B (carefully p x) st -> is_edit o = true -> run B o st = (Ok tt, st') -> has p x (s_data st) = true -> awaiting st' = true -> awaiting st = true.
Proof.
  intros hp hB hl ho h hh ha. pose proof (life_shaped p x hp _ _ hB hl) as hsh. destruct (edit_op_spec _ _ _ _ _ ho h) as [(_ & ->)|(f & hf)]; [exact ha|].
  apply edit_spec in hf as [(hx & _)|(st1 & m & o1 & hd & hc & _ & ->)]; [congruence|].
  apply dirty_spec in hd as [(h1 & -> & _)|[(_ & _ & h2 & _)|(h1 & _ & st2 & _ & [(c & hi & _ & ->)|(_ & h3 & _)])]].
  - unfold awaiting in *. cbn [s_state set_conf s_conf] in ha. rewrite h1, hc in *. exact ha.
  - discriminate h2.
  - exfalso. cbn [set_conf s_conf] in hc. subst c. pose proof (i1_cfg _ _ (life_inv1 _ _ hB (carefully_tame _ _ _ _ hl))) as hcf.
    assert (hw : wf (s_data st) = true) by (unfold s_data, s_msg; destruct (s_conf st); apply hcf).
    destruct (increment_regular p x hp _ _ _ hcf hi (life_inv10 p x hp _ _ hB hl)) as (_ & m' & e1 & e2). injection e1 as <- ->.
    change (m_data (c_msg (s_conf st))) with (s_data st) in e2. rewrite <- (has_prune p x _ hp hw hsh), <- e2 in hh.
    unfold awaiting in ha. cbn [s_state set_conf s_conf set_data m_lagged] in ha. destruct (s_state st2); try discriminate. apply andb_true_iff in ha as [ha _]. destruct (m_data m); [|discriminate]. rewrite has_nil in hh by exact hp. discriminate.
  - exfalso. destruct (increment (b_env B) (s_conf st)) as [c| | | |]; discriminate.
Qed.
(** ** storing a record *)
(** what the record class may put where: its own set, or whatever at other places *)
Definition item_ok (s : bytes) (q : bytes * option value) : Prop :=
  match snd q with Some v => full_v v = true /\ (fst q = s -> exists l, v = VSet l) | None => True end.
Section Store.
Variables (k id s : bytes) (x : scalar) (B : benv) (hB : benv_ok B).
Notation p := [k; id; s].
Hypothesis hp : p <> [].
Lemma apart3 id' f : apart p [k; id'; f] = true <-> ~ (id = id' /\ s = f).
Proof.
  cbn [apart]. rewrite eqb_refl. destruct (eqb id id') eqn:e1.
  - apply eqb_eq in e1. subst. destruct (eqb s f) eqn:e2; [apply eqb_eq in e2; subst; split; [discriminate|intros h; exfalso; apply h; auto]|]. split; [intros _ [_ ->]; rewrite eqb_refl in e2; discriminate|reflexivity].
  - split; [intros _ [-> _]; rewrite eqb_refl in e1; discriminate|reflexivity].
Qed.
(** one entry of the script.  The record is there with a name, or the field is not there. *)
Lemma item_step id' f ov st st' : life B (carefully p x) st -> writes (op_at [k; id'] (f, ov)) -> item_ok s (f, ov) -> run B (op_at [k; id'] (f, ov)) st = (Ok tt, st') -> sendable (s_data st') ->
  (get_path [k; id'; f] (s_data st) = None \/ ov <> None \/ exists nm v, nm <> f /\ get_path [k; id'; nm] (s_data st) = Some v /\ full_v v = true) ->
  (id = id' -> s = f -> ov = None -> get_path [k; id'; f] (s_data st) = None) ->
  (id = id' -> s = f -> awaiting st = true -> has p x (s_data st) = true -> forall v, ov = Some v -> exists l, v = VSet l /\ mem x l = true) ->
  step B (carefully p x B) st (op_at [k; id'] (f, ov)) st' /\ s_data st' = edited (op_at [k; id'] (f, ov)) (s_data st).
Proof.
  intros hl hwr hit h hsd hanch hdel haw. destruct hwr as [h1 h1'].
  pose proof (life_usable _ _ hB (carefully_tame _ _ _ _ hl)) as hu. destruct (run_usable _ _ _ _ hu (conj h1 h1') h) as [hd hu'].
  pose proof (life_shaped p x hp _ _ hB hl) as hsh. destruct hu as [hw _]. destruct hu' as [hw' _].
  split; [|exact hd].
  assert (hnoop : ov = None -> get_path [k; id'; f] (s_data st) = None -> s_data st' = s_data st).
  { intros -> hn. rewrite hd. cbn [op_at snd fst edited]. unfold erase_field. apply mod_field_id; [exact hw|]. intros v hv. unfold field in hv. cbn [app] in hv. congruence. }
  assert (hsh' : set_shaped p (s_data st') = true).
  { rewrite hd. destruct ov as [v|]; cbn [op_at snd fst edited]; [|apply set_shaped_del; assumption]. destruct (empty_container v); [apply set_shaped_del; assumption|].
    apply set_shaped_upd; [exact hw| |exact hsh]. unfold fits_set. cbn [app]. destruct (apart p [k; id'; f]) eqn:ea; [left; reflexivity|right].
    destruct (eqb id id') eqn:e1; [|cbn [apart] in ea; rewrite eqb_refl, e1 in ea; discriminate]. apply eqb_eq in e1. destruct (eqb s f) eqn:e2; [|cbn [apart] in ea; rewrite eqb_refl in ea; subst; rewrite eqb_refl, e2 in ea; discriminate]. apply eqb_eq in e2. subst. split; [reflexivity|apply hit; reflexivity]. }
  assert (hep : edit_path (op_at [k; id'] (f, ov)) = [k; id'; f]) by (destruct ov; reflexivity).
  assert (hread : get_path [k; id'; f] (s_data st') = ov).
  { rewrite hd, <- hep, edited_read by assumption. destruct ov as [v|]; [|reflexivity]. cbn [op_at snd fst new_value]. destruct hit as [hf _]. destruct v as [y|[|y l]|[|y d]]; try reflexivity; discriminate hf. }
  assert (hother : forall q, apart q [k; id'; f] = true -> get_path q (s_data st') = get_path q (s_data st)).
  { intros q hq. rewrite hd. apply edited_other; [exact h1|exact hw|rewrite hep; exact hq]. }
  assert (hhas : ~ (id = id' /\ s = f) -> has p x (s_data st') = has p x (s_data st)).
  { intros hn. unfold has. rewrite hother; [reflexivity|]. apply apart3, hn. }
  assert (hdec : (id = id' /\ s = f) \/ ~ (id = id' /\ s = f)) by (destruct (apart p [k; id'; f]) eqn:ea; [right; apply apart3, ea|left]; destruct (eqb id id') eqn:e1; [|cbn [apart] in ea; rewrite eqb_refl, e1 in ea; discriminate]; apply eqb_eq in e1; destruct (eqb s f) eqn:e2; [|cbn [apart] in ea; rewrite eqb_refl in ea; subst; rewrite eqb_refl, e2 in ea; discriminate]; apply eqb_eq in e2; auto).
  apply step_run with (x := Ok tt); [exact h|split; discriminate|]. split; [|split].
  - split; [|destruct ov; exact I]. split; [|exact hsd]. destruct ov as [v|]; [exact h1'|exact I].
  - intros _. split; [exact hsh'|]. split.
    + unfold tidied. assert (hanch' : s_data st' = s_data st \/ exists nm v, get_path [k; id'; nm] (s_data st') = Some v /\ full_v v = true).
      { destruct hanch as [hn|[hn|(nm & v & hn & hv & hf)]].
        - destruct ov as [v|]; [right; exists f, v; split; [exact hread|apply hit]|left; apply hnoop; auto].
        - destruct ov as [v|]; [right; exists f, v; split; [exact hread|apply hit]|congruence].
        - right. exists nm, v. split; [|exact hf]. rewrite hother; [exact hv|]. exact (apart_diff [k; id'] nm f hn). }
      destruct hanch' as [->|(nm & v & hv & hf)]; [apply remains_refl|]. eapply remains3; try eassumption.
      * destruct (eqb id id') eqn:e1; [left; apply eqb_eq, e1|right]. apply hother. cbn [apart]. rewrite eqb_refl, e1. reflexivity.
      * intros l hl0 hne. destruct hdec as [[-> ->]|hn]; [|exists l; split; [|exact hne]; rewrite hother; [exact hl0|apply apart3, hn]].
        destruct ov as [v0|]; [|rewrite hdel in hl0 by reflexivity; discriminate]. destruct hit as [hf0 hs0]. destruct (hs0 eq_refl) as (l' & ->). exists l'. split; [exact hread|]. destruct l'; [discriminate hf0|discriminate].
    + intros ha hh. destruct hdec as [[-> ->]|hn]; [|rewrite hhas by exact hn; exact hh]. unfold has. rewrite hread. destruct ov as [v|].
      * destruct (haw eq_refl eq_refl ha hh v eq_refl) as (l & -> & hm). exact hm.
      * unfold has in hh. rewrite hdel in hh by reflexivity. discriminate.
  - destruct ov; exact I.
Qed.
Lemma script_careful id' S : forall st st', life B (carefully p x) st -> script_ok S -> Forall (item_ok s) S -> NoDup (map fst S) -> run_ops B (map (op_at [k; id']) S) st = (Ok tt, st') ->
  (forall n st1, run_ops B (firstn n (map (op_at [k; id']) S)) st = (Ok tt, st1) -> sendable (s_data st1)) ->
  ((forall f, In f (map fst S) -> get_path [k; id'; f] (s_data st) = None) \/ exists nm v, get_path [k; id'; nm] (s_data st) = Some v /\ full_v v = true /\ ~ In (nm, None) S) ->
  (id = id' -> In (s, None) S -> get_path p (s_data st) = None) ->
  (id = id' -> awaiting st = true -> has p x (s_data st) = true -> forall v, In (s, Some v) S -> exists l, v = VSet l /\ mem x l = true) ->
  steps B (carefully p x B) st (map (op_at [k; id']) S) st'.
Proof.
  induction S as [|[f ov] S IH]; intros st st' hl hok hit hnd h hs hanch hdel haw; cbn [map run_ops] in h; [injection h as <-; apply steps_nil|].
  pose proof (script_writes [k; id'] _ hok) as hwr. cbn [map] in hwr. pose proof (Forall_inv hwr) as hw1. pose proof (Forall_inv hit) as hi1. cbn [map fst] in hnd. apply NoDup_cons_iff in hnd as [hnin hnd].
  destruct (run B (op_at [k; id'] (f, ov)) st) as [[[]| | | |] st1] eqn:e; try discriminate.
  assert (hsd : sendable (s_data st1)) by (apply (hs 1); cbn [map firstn run_ops]; rewrite e; destruct S; reflexivity).
  assert (hsame : forall v, In (s, v) S -> s <> f) by (intros v hv ->; apply hnin, (in_map fst _ _ hv)).
  destruct (item_step id' f ov st st1 hl hw1 hi1 e hsd) as [hst hd].
  - destruct hanch as [ha|(nm & v & h1 & h2 & h3)]; [left; apply ha; left; reflexivity|right]. destruct (eqb nm f) eqn:en; [apply eqb_eq in en; subst nm; left; intros ->; apply h3; left; reflexivity|right].
    exists nm, v. split; [intros ->; rewrite eqb_refl in en; discriminate|auto].
  - intros hid -> ->. rewrite <- hid. apply hdel; [exact hid|left; reflexivity].
  - intros hid -> ha hh v ->. apply (haw hid ha hh). left. reflexivity.
  - assert (hed : is_edit (op_at [k; id'] (f, ov)) = true) by apply hw1.
    pose proof (life_usable _ _ hB (carefully_tame _ _ _ _ hl)) as [hw _].
    assert (hep : edit_path (op_at [k; id'] (f, ov)) = [k; id'; f]) by (destruct ov; reflexivity).
    assert (hother : forall g, g <> f -> get_path [k; id'; g] (s_data st1) = get_path [k; id'; g] (s_data st)).
    { intros g hg. rewrite hd. apply edited_other; [exact hed|exact hw|rewrite hep; exact (apart_diff [k; id'] g f hg)]. }
    eapply steps_cons; [exact hst|]. apply IH; auto.
    + eapply life_step; eassumption.
    + inversion hok; assumption.
    + inversion hit; assumption.
    + intros n st2 h3. apply (hs (Datatypes.S n)). cbn [map firstn run_ops]. rewrite e. exact h3.
    + destruct hanch as [ha|(nm & v & h1 & h2 & h3)].
      * left. intros g hg. rewrite hother; [apply ha; right; exact hg|intros ->; contradiction].
      * right. destruct (eqb nm f) eqn:en.
        -- apply eqb_eq in en. subst nm. destruct ov as [v'|]; [|exfalso; apply h3; left; reflexivity]. exists f, v'. split; [|split; [apply hi1|intros hn; apply h3; right; exact hn]].
           rewrite hd, <- hep, edited_read by (assumption || apply hw). cbn [op_at snd fst new_value]. destruct hi1 as [hf _]. cbn [snd] in hf. destruct v' as [y|[|y l]|[|y d]]; try reflexivity; discriminate hf.
        -- exists nm, v. split; [rewrite hother; [exact h1|intros ->; rewrite eqb_refl in en; discriminate]|]. split; [exact h2|intros hn; apply h3; right; exact hn].
    + intros -> hn. rewrite hother; [apply hdel; [reflexivity|right; exact hn]|]. exact (hsame _ hn).
    + intros -> ha hh v hv. pose proof (hsame _ hv) as hne. assert (hh0 : has [k; id'; s] x (s_data st) = true) by (unfold has in *; rewrite <- (hother s hne); exact hh).
      apply (haw eq_refl); [|exact hh0|right; exact hv]. exact (edit_awaiting _ x B _ _ _ hp hB hl hed e hh0 ha).
Qed.
End Store.
(** ** legacy groups *)
Lemma full_scal y : full_v (VScal y) = true. Proof. reflexivity. Qed.
Lemma legacy_items s g : s = b "m" \/ s = b "a" -> Forall (item_ok s) (legacy_script g).
Proof.
  intros hs. unfold legacy_script, gbase_script, set_ids, set_pair_if, set_nonempty_str, set_flag, set_nonzero_int, set_positive_int.
  assert (h1 : forall f ov, f <> b "m" -> f <> b "a" -> match ov with Some v => full_v v = true | None => True end -> item_ok s (f, ov)).
  { intros f ov hm ha hv. unfold item_ok. cbn [fst snd]. destruct ov; [|exact I]. split; [exact hv|]. intros ->. destruct hs; contradiction. }
  assert (h2 : forall f l, item_ok s (f, if is_nil l then None else Some (VSet l))).
  { intros f l. unfold item_ok. cbn [fst snd]. destruct l; [exact I|]. split; [reflexivity|]. intros _. eexists. reflexivity. }
  repeat (apply Forall_app; split); repeat (apply Forall_cons || apply Forall_nil); try apply h2; try (apply h1; [discriminate|discriminate|]); repeat match goal with |- match (if ?c then _ else _) with _ => _ end => destruct c end; try exact I; try reflexivity.
  destruct (two_keys _ _); repeat (apply Forall_cons || apply Forall_nil); (apply h1; [discriminate|discriminate|exact I || reflexivity]).
Qed.
Lemma legacy_keys g : map fst (legacy_script g) = [b "+"; b "j"; b "@"; b "!"; b "i"; b "n"; b "k"; b "K"; b "m"; b "a"; b "E"].
Proof. unfold legacy_script, gbase_script, set_ids, set_pair_if. destruct (two_keys _ _); reflexivity. Qed.
Lemma legacy_nodup g : NoDup (map fst (legacy_script g)).
Proof. rewrite legacy_keys. repeat constructor; cbn [In]; intros hin; repeat (destruct hin as [hin|hin]; [discriminate hin|]); exact hin. Qed.
(** the stored set of the members with this role *)
Definition role_key (admin : bool) : bytes := if admin then b "a" else b "m".
Lemma legacy_item g admin ov : In (role_key admin, ov) (legacy_script g) -> ov = if is_nil (stored_ids admin (lg_members g)) then None else Some (VSet (stored_ids admin (lg_members g))).
Proof.
  unfold legacy_script, gbase_script, set_ids, set_pair_if, set_nonempty_str, set_flag, set_nonzero_int, set_positive_int. intros h.
  repeat (apply in_app_iff in h as [h|h]); destruct admin; cbn [role_key] in h; try (destruct (two_keys _ _)); cbn [In] in h; repeat (destruct h as [h|h]; [first [discriminate h|injection h as <-; reflexivity]|]); contradiction.
Qed.
Lemma role_cases admin : role_key admin = b "m" \/ role_key admin = b "a". Proof. destruct admin; auto. Qed.
Lemma legacy_careful B sid pk' g id admin x st st' : benv_ok B -> life B (carefully [b "C"; id; role_key admin] x) st -> session_id_to_bytes sid (b "05") = Ok pk' -> gbase_fits (lg_base g) -> int64_ok (lg_timer g) = true ->
  (forall n st1, run_ops B (firstn n (map (op_at [b "C"; pk']) (legacy_script g))) st = (Ok tt, st1) -> sendable (s_data st1)) ->
  (get_path [b "C"; pk'] (s_data st) = None \/ exists v, get_path [b "C"; pk'; b "n"] (s_data st) = Some (VScal v)) ->
  (id = pk' -> get_path [b "C"; id; role_key admin] (s_data st) <> None -> stored_ids admin (lg_members g) <> []) ->
  (id = pk' -> awaiting st = true -> holds [b "C"; id; role_key admin] x st = true -> In x (stored_ids admin (lg_members g))) ->
  legacy_set B sid g st = (Ok tt, st') -> steps B (carefully [b "C"; id; role_key admin] x B) st (map (op_at [b "C"; pk']) (legacy_script g)) st' /\ forallb is_edit (map (op_at [b "C"; pk']) (legacy_script g)) = true.
Proof.
  intros hB hl hpk hb ht hs hrec hne haw h. unfold legacy_set in h. rewrite hpk in h. pose proof (legacy_script_ok g hb ht) as hok.
  split; [|rewrite forallb_forall; pose proof (script_writes [b "C"; pk'] _ hok) as hw; rewrite Forall_forall in hw; intros o ho; apply hw, ho].
  apply script_careful; auto.
  - discriminate.
  - apply legacy_items, role_cases.
  - apply legacy_nodup.
  - destruct hrec as [hn|(v & hv)]; [left; intros f _; rewrite path3, hn; reflexivity|right]. exists (b "n"), (VScal v). split; [exact hv|]. split; [reflexivity|].
    unfold legacy_script, gbase_script, set_ids, set_pair_if, set_nonempty_str, set_flag, set_nonzero_int, set_positive_int. intros hin. repeat (apply in_app_iff in hin as [hin|hin]); try (destruct (two_keys _ _)); cbn [In] in hin; repeat (destruct hin as [hin|hin]; [discriminate hin|]); contradiction.
  - intros hid hin. apply legacy_item in hin. destruct (get_path [b "C"; id; role_key admin] (s_data st)) eqn:e; [|reflexivity]. exfalso. destruct (stored_ids admin (lg_members g)) eqn:es; [apply (hne hid); [congruence|reflexivity]|discriminate].
  - intros hid ha hh v hin. apply legacy_item in hin. specialize (haw hid ha hh). destruct (stored_ids admin (lg_members g)) as [|y r] eqn:es; [discriminate|]. injection hin as ->. eexists. split; [reflexivity|]. apply mem_In. exact haw.
Qed.
(** reading the roles *)
Lemma member_role st sid pk g h : session_id_to_bytes sid (b "05") = Ok pk -> session_id_ok (to_hex h) (b "05") = true -> legacy_get st sid = Ok (Some g) ->
  lookup (to_hex h) (lg_members g) = if holds [b "C"; pk; role_key false] (SStr h) st then Some false else if holds [b "C"; pk; role_key true] (SStr h) st then Some true else None.
Proof.
  intros hpk hh hg. unfold legacy_get in hg. rewrite hpk in hg. cbn [bind] in hg. unfold dict_at, field in hg. cbn [app] in hg. unfold holds, has. rewrite !path3.
  destruct (get_path [b "C"; pk] (s_data st)) as [[| |d]|]; try discriminate. apply (f_equal (fun r => match r with Ok (Some y) => y | _ => g end)) in hg. subst g. cbn [load_legacy lg_members]. unfold load_members.
  assert (hl : forall l, listed l (to_hex h) <-> In (SStr h) l).
  { intros l. split; [intros (k & h1 & _ & h2); apply to_hex_inj in h2; subst; exact h1|intros h1; exists h; auto]. }
  assert (hs : forall k, maybe_set d k = match lookup k d with Some (VSet l) => Some l | _ => None end) by (intros k; reflexivity).
  destruct (add_stored_lookup false (or_else (maybe_set d (b "m")) []) (to_hex h) [] msorted_nil) as [_ hm]. destruct (hm eq_refl) as [m1 m2].
  destruct (add_stored_lookup true (or_else (maybe_set d (b "a")) []) (to_hex h) _ (add_stored_sorted false (or_else (maybe_set d (b "m")) []) [] msorted_nil)) as [a0 a1].
  assert (hmem : forall k, match lookup k d with Some (VSet l) => mem (SStr h) l | _ => false end = true <-> listed (or_else (maybe_set d k) []) (to_hex h)).
  { intros k. rewrite hl, hs. destruct (lookup k d) as [[|l|]|]; cbn [or_else]; try (split; [discriminate|intros []]). apply mem_In. }
  cbn [role_key]. destruct (match lookup (b "m") d with Some (VSet l) => mem (SStr h) l | _ => false end) eqn:em.
  - apply a0, m1, hmem, em.
  - assert (hn : ~ listed (or_else (maybe_set d (b "m")) []) (to_hex h)) by (rewrite <- hmem; rewrite em; discriminate). destruct (a1 (m2 hn)) as [b1 b2].
    destruct (match lookup (b "a") d with Some (VSet l) => mem (SStr h) l | _ => false end) eqn:ea; [apply b1, hmem, ea|apply b2]. rewrite <- hmem, ea. discriminate.
Qed.
