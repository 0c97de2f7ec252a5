(** Proofs of C95, part 5: the edits of the typed classes keep the shape of every record field. *)
From Verif Require Import Bytes Maps FieldSpec Records Contacts Members Data_facts Base_facts Life_facts Life2_facts Life4_facts Conf5_facts Records_facts Contacts_facts Members_facts Field2_facts.
From Coq Require Import Lia.

(** an edit that puts a scalar at the field or elsewhere, or removes something *)
Definition gentle (p : list bytes) (o : op) : Prop :=
  match o with
  | OpAssign i l (VScal _) => p = i ++ [l] \/ apart p (i ++ [l]) = true
  | OpErase _ _ => True
  | _ => False
  end.
Lemma shaped_upd s last inter : forall p d, wf d = true -> (p = inter ++ [last] \/ apart p (inter ++ [last]) = true) -> shaped p d = true -> shaped p (upd_field inter last (fun _ => VScal s) d) = true.
Proof.
  induction inter as [|k r IH]; intros p d hw hp hs; cbn [upd_field app] in *; (destruct p as [|k' p]; [reflexivity|]); cbn [shaped] in *; rewrite lookup_insert by (apply wf_sorted; exact hw).
  - destruct (eqb k' last) eqn:e; [|exact hs]. destruct hp as [hp|hp]; [injection hp as _ ->; reflexivity|]. cbn [apart] in hp. rewrite e in hp. destruct p; discriminate.
  - destruct (eqb k' k) eqn:e; [|exact hs]. apply eqb_eq in e as ->.
    assert (hp' : p = r ++ [last] \/ apart p (r ++ [last]) = true) by (destruct hp as [hp|hp]; [left; congruence|right; cbn [apart] in hp; rewrite eqb_refl in hp; exact hp]).
    assert (hn : is_nil p = false) by (destruct p as [|]; [destruct hp' as [h|h]; [destruct r; discriminate|discriminate]|reflexivity]). rewrite hn. cbn [negb andb].
    apply IH; [apply wf_as_dict; destruct (lookup k d) as [v|] eqn:el; [exact (Base_facts.wf_lookup _ _ _ hw el)|exact I]|exact hp'|].
    destruct (lookup k d) as [[x|x|sub]|]; cbn [as_dict].
    + rewrite hn in hs. discriminate.
    + discriminate.
    + apply andb_true_iff in hs. apply hs.
    + destruct p; reflexivity.
Qed.
Lemma shaped_del last inter : forall p d, wf d = true -> shaped p d = true -> shaped p (mod_field inter last (fun _ => None) d) = true.
Proof.
  induction inter as [|k r IH]; intros p d hw hs; cbn [mod_field]; (destruct p as [|k' p]; [reflexivity|]).
  - destruct (lookup last d); [|exact hs]. cbn [shaped] in *. rewrite lookup_erase. destruct (eqb k' last); [reflexivity|exact hs].
  - destruct (lookup k d) as [[x|x|sub]|] eqn:el; try exact hs. cbn [shaped] in *. rewrite lookup_insert by (apply wf_sorted; exact hw). destruct (eqb k' k) eqn:e; [|exact hs]. apply eqb_eq in e as ->. rewrite el in hs.
    apply andb_true_iff in hs as [h1 h2]. rewrite h1. cbn [andb]. apply IH; [exact (Base_facts.wf_lookup _ _ _ hw el)|exact h2].
Qed.
Lemma shaped_edited p o d : wf d = true -> gentle p o -> shaped p d = true -> shaped p (edited o d) = true.
Proof.
  destruct o; cbn [gentle edited]; try contradiction; intros hw hg hs.
  - match goal with v : value |- _ => destruct v; try contradiction end. apply shaped_upd; assumption.
  - apply shaped_del; assumption.
Qed.
(** the edits do not make the data too large to be sent *)
Lemma typed_steps p B ops : p <> [] -> benv_ok B -> forall st st', life B (steadily p) st -> Forall (fun o => writes o /\ gentle p o) ops -> run_ops B ops st = (Ok tt, st') ->
  (forall n st1, run_ops B (firstn n ops) st = (Ok tt, st1) -> sendable (s_data st1)) -> steps B (steadily p B) st ops st'.
Proof.
  intros hp hB. induction ops as [|o l IH]; intros st st' hl hw h hs; cbn [run_ops] in h; [injection h as <-; apply steps_nil|]. inversion hw as [|x y [[h1 h1'] hg] h2]; subst.
  destruct (run B o st) as [[[]| | | |] st1] eqn:e; try discriminate.
  pose proof (life_usable _ _ hB (steadily_tame _ _ _ hl)) as hu. destruct (run_usable _ _ _ _ hu (conj h1 h1') e) as [hd _].
  assert (hst : step B (steadily p B) st o st1).
  { apply step_run with (x := Ok tt); [exact e|split; discriminate|].
    assert (hsd : sendable (s_data st1)) by (apply (hs 1); cbn [firstn run_ops]; rewrite e; destruct l; reflexivity).
    assert (hop : op_ok B o st) by (destruct o; try discriminate; try exact I; exact h1').
    split; [split; [split; assumption|destruct o; try discriminate; exact I]|]. split; [|destruct o; try discriminate; exact I].
    intros _. rewrite hd. apply shaped_edited; [apply hu|exact hg|].
    pose proof (life_inv9 p hp _ _ hB hl) as h9. unfold inv9 in h9. unfold s_data, s_msg. destruct (s_conf st) as [m|m o']; apply h9. }
  eapply steps_cons; [exact hst|]. apply IH; [eapply life_step; eassumption|exact h2|exact h|].
  intros n st2 h3. apply (hs (S n)). cbn [firstn run_ops]. rewrite e. exact h3.
Qed.
(** every field of a record set by the class is a scalar *)
Definition scalars (s : script) : Prop := Forall (fun q => match snd q with Some (VScal _) => True | Some _ => False | None => True end) s.
Lemma scalars_app s t : scalars s -> scalars t -> scalars (s ++ t).
Proof. intros h1 h2. apply Forall_app. auto. Qed.
Lemma script_gentle k id f k' id' s : k' = k -> script_ok s -> scalars s -> Forall (fun o => writes o /\ gentle [k; id; f] o) (map (op_at [k'; id']) s).
Proof.
  intros -> hok hs. pose proof (script_writes [k; id'] s hok) as hw. rewrite Forall_map in *. unfold scalars in hs. rewrite Forall_forall in *. intros [x v] hin. split; [exact (hw _ hin)|]. specialize (hs _ hin). cbn [snd] in hs. unfold op_at. cbn [fst snd].
  destruct v as [[s0| |]|]; try contradiction; [|exact I]. cbn [gentle app apart]. rewrite eqb_refl. destruct (eqb id id') eqn:e1; [|right; reflexivity]. apply eqb_eq in e1 as ->. destruct (eqb f x) eqn:e2; [apply eqb_eq in e2 as ->; left; reflexivity|right; reflexivity].
Qed.
Ltac scal := repeat (apply scalars_app || (apply Forall_cons; [cbn [snd]; repeat match goal with |- match (if ?c then _ else _) with _ => _ end => destruct c end; exact I|]) || apply Forall_nil).
Lemma contact_scalars c : scalars (contact_script c).
Proof. unfold contact_script, set_pic, set_pair_if, set_nonempty_str, set_flag, set_nonzero_int, set_positive_int. scal; try (match goal with |- context [if ?c then _ else _] => destruct c end; scal). Qed.
Lemma member_scalars m : scalars (member_script m).
Proof. unfold member_script, set_pic, set_pair_if, set_nonempty_str, set_flag, set_nonzero_int, set_positive_int. scal; try (match goal with |- context [if ?c then _ else _] => destruct c end; scal). Qed.
Lemma script_edits pre s : script_ok s -> forallb is_edit (map (op_at pre) s) = true.
Proof. intros h. apply (script_writes pre) in h. rewrite forallb_forall. rewrite Forall_forall in h. intros o ho. apply h, ho. Qed.
Lemma erase_steps p B i l st st' : benv_ok B -> p <> [] -> life B (steadily p) st -> sendable (s_data st') -> run B (OpErase i l) st = (Ok tt, st') -> steps B (steadily p B) st [OpErase i l] st'.
Proof.
  intros hB hp hl hs h. apply typed_steps; auto.
  - constructor; [|constructor]. split; [split; [reflexivity|exact I]|exact I].
  - cbn [run_ops]. rewrite h. reflexivity.
  - intros [|n] st1 h1; cbn [firstn run_ops] in h1.
    + injection h1 as <-. pose proof (i1_cfg _ _ (life_inv1 _ _ hB (steadily_tame _ _ _ hl))) as hcf. unfold s_data, s_msg. destruct (s_conf st) as [m|m o]; apply hcf.
    + rewrite h in h1. destruct n; cbn in h1; injection h1 as <-; exact hs.
Qed.
