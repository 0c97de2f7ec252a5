(** Nothing appears on any device that no device wrote.  Proofs for C98. *)
From Coq Require Import Lia.
From Verif Require Import NetSpec Maps Data_facts Diff_facts Parse_facts Message_facts Wire_facts Round_facts Reach_facts Redeliver_facts Merge_facts Resolve_facts Conflict_facts Overflow_facts Replay_facts Merge2_facts Adopt_facts Crypt_facts Base_facts Dump_facts Life_facts Life2_facts Life3_facts Life4_facts Fields_facts Conf_facts Conf2_facts Conf3_facts Conf4_facts Conf5_facts Conf6_facts Converge_facts Plain_facts Net_facts.

(** the value [x] is at [p] below [v] *)
Fixpoint leaf (e : bool) (p : list bytes) (x : scalar) (v : value) : Prop :=
  match p with
  | [] => match v with VScal y => e = false /\ y = x | VSet l => e = true /\ In x l | VDict _ => False end
  | k :: r => match v with VDict d => match lookup k d with Some w => leaf e r x w | None => False end | _ => False end
  end.
Lemma shows_leaf e x : forall p d, shows e p x d <-> leaf e p x (VDict d).
Proof.
  unfold shows. induction p as [|k p IH]; intros d; [reflexivity|]. destruct p as [|k2 p2].
  - cbn [get_path leaf]. destruct (lookup k d) as [[y|l|d']|]; reflexivity.
  - rewrite get_path_cons by discriminate. cbn [leaf]. destruct (lookup k d) as [[y|l|d']|]; try reflexivity. apply IH.
Qed.
(** the change set adds [x] to the set at [p] *)
Fixpoint adds (p : list bytes) (x : scalar) (e : bt) : Prop :=
  match p with
  | [] => match e with BList (BList add :: BList rem :: _) => exists l, scalars_of_bt add = Some l /\ In x l | _ => False end
  | k :: r => match e with BDict df => exists e', In (k, e') df /\ adds r x e' | _ => False end
  end.
Definition oleaf (e : bool) (p : list bytes) (x : scalar) (o : option value) : Prop := match o with Some v => leaf e p x v | None => False end.
Lemma oleaf_as_dict e k p x o : oleaf e p x (lookup k (as_dict o)) -> oleaf e (k :: p) x o.
Proof. destruct o as [[y|l|d]|]; cbn [as_dict oleaf leaf]; try (cbn; tauto). Qed.
Lemma leaf_cons e k p x d : leaf e (k :: p) x (VDict d) <-> oleaf e p x (lookup k d).
Proof. reflexivity. Qed.
Lemma apply_list_leaf (df : btdict) : (forall k f, In (k, f) df -> forall tgt src v e p x, opt_wf tgt -> opt_wf src -> apply1 f tgt src = Some (Some v) -> leaf e p x v -> oleaf e p x tgt \/ oleaf e p x src \/ (e = true /\ adds p x f)) ->
  forall src data d', wf src = true -> wf data = true -> apply_diff df src data = Some d' -> forall e p x, leaf e p x (VDict d') -> leaf e p x (VDict data) \/ leaf e p x (VDict src) \/ (e = true /\ adds p x (BDict df)).
Proof.
  induction df as [|[k f] r IH]; intros h src data d' hws hwd ha e p x hl; cbn [apply_diff] in ha; [injection ha as <-; auto|].
  assert (hr : forall k0 f0, In (k0, f0) r -> forall tgt src0 v e0 p0 x0, opt_wf tgt -> opt_wf src0 -> apply1 f0 tgt src0 = Some (Some v) -> leaf e0 p0 x0 v -> oleaf e0 p0 x0 tgt \/ oleaf e0 p0 x0 src0 \/ (e0 = true /\ adds p0 x0 f0)) by (intros k0 f0 hin; apply (h k0); right; exact hin).
  assert (hadd : forall q, adds q x (BDict r) -> adds q x (BDict ((k, f) :: r))) by (intros [|k0 q]; [intros []|]; intros (f0 & h1 & h2); exists f0; split; [right; exact h1|exact h2]).
  destruct (apply1 f (lookup k data) (lookup k src)) as [[v|]|] eqn:e1; try discriminate.
  - assert (hwv : wf_v v = true) by (exact (apply1_wf _ _ _ _ (wf_opt _ k hwd) (wf_opt _ k hws) e1)).
    destruct (IH hr src _ d' hws (wf_insert _ _ _ hwd hwv) ha e p x hl) as [g|[g|(g1 & g2)]]; [|auto|auto 6].
    destruct p as [|k0 p]; [destruct g|]. rewrite leaf_cons, lookup_insert in g by (apply wf_sorted; exact hwd). destruct (eqb k0 k) eqn:ek; [|left; exact g]. apply eqb_eq in ek. subst k0. cbn [oleaf] in g.
    destruct (h k f (or_introl eq_refl) _ _ v e p x (wf_opt _ k hwd) (wf_opt _ k hws) e1 g) as [g1|[g1|(-> & g1)]]; [left; exact g1|right; left; exact g1|]. right. right. split; [reflexivity|]. exists f. split; [left; reflexivity|exact g1].
  - destruct (IH hr src _ d' hws (wf_erase _ k hwd) ha e p x hl) as [g|[g|(g1 & g2)]]; [|auto|auto 6].
    destruct p as [|k0 p]; [destruct g|]. rewrite leaf_cons, lookup_erase in g. destruct (eqb k0 k); [destruct g|left; exact g].
Qed.
Lemma apply1_leaf f : forall tgt src v e p x, opt_wf tgt -> opt_wf src -> apply1 f tgt src = Some (Some v) -> leaf e p x v -> oleaf e p x tgt \/ oleaf e p x src \/ (e = true /\ adds p x f).
Proof.
  induction f as [z|m|l IH|df IH] using bt_ind'; intros tgt src v e p x ht hs ha hl.
  - destruct src; discriminate.
  - destruct src as [[s|sl|sd]|]; cbn [apply1] in ha; try discriminate. destruct (eqb m (b "-")); [discriminate|]. destruct (eqb m (b "")); [|discriminate]. injection ha as <-. right. left. exact hl.
  - destruct src as [[s|sl|sd]|]; cbn [apply1] in ha; try (destruct l as [|[] [|[] ?]]; discriminate). destruct l as [|[| |add|] [|[| |rem|] rest]]; try discriminate.
    destruct (scalars_of_bt add) as [a|] eqn:ea; [|discriminate]. destruct (scalars_of_bt rem) as [r|] eqn:er; [|discriminate]. injection ha as <-.
    destruct p as [|k p]; [|destruct hl]. cbn [leaf] in hl. destruct hl as [-> hl]. apply In_fold_sdel in hl as [_ hl]. apply In_fold_sadd in hl as [hl|hl].
    + right. right. split; [reflexivity|]. exists a. auto.
    + left. destruct tgt as [[s|tl|td]|]; cbn [as_set] in hl; try (destruct hl; fail). cbn. auto.
  - destruct src as [[s|sl|sd]|]; try (cbn [apply1] in ha; discriminate). rewrite apply1_dict in ha. destruct (apply_diff df sd (as_dict tgt)) as [d'|] eqn:ed; [|discriminate]. injection ha as <-.
    assert (hdf : forall k f, In (k, f) df -> forall tgt src v e p x, opt_wf tgt -> opt_wf src -> apply1 f tgt src = Some (Some v) -> leaf e p x v -> oleaf e p x tgt \/ oleaf e p x src \/ (e = true /\ adds p x f)).
    { intros k f hin. rewrite Forall_forall in IH. exact (IH (k, f) hin). }
    destruct (apply_list_leaf df hdf sd _ _ hs (as_dict_wf _ ht) ed e p x hl) as [g|[g|g]]; [|right; left; exact g|auto].
    left. destruct p as [|k p]; [destruct g|]. apply oleaf_as_dict. exact g.
Qed.
Lemma apply_diff_leaf df src data d' e p x : wf src = true -> wf data = true -> apply_diff df src data = Some d' -> leaf e p x (VDict d') -> leaf e p x (VDict data) \/ leaf e p x (VDict src) \/ (e = true /\ adds p x (BDict df)).
Proof. intros h1 h2 h3. eapply apply_list_leaf; [|exact h1|exact h2|exact h3]. intros k f _ tgt s v e0 p0 x0. apply apply1_leaf. Qed.

(** ** change sets add what is in the new data *)
Lemma diff_set_adds o n f x p : wf_v (VSet o) = true -> wf_v (VSet n) = true -> diff_set o n = Some f -> adds p x f -> leaf true p x (VSet n).
Proof.
  intros ho hn. apply wf_v_set in ho as [ho1 ho2]. apply wf_v_set in hn as [hn1 hn2]. unfold diff_set. destruct (set_walk o n) as [a r] eqn:E. destruct (set_walk_spec _ _ _ _ ho1 hn1 E) as (h1 & h2 & h3 & h4).
  destruct (is_nil a && is_nil r); [discriminate|]. intros h. injection h as <-. destruct p as [|k p]; [|intros []]. cbn [adds leaf]. rewrite forallb_forall in hn2.
  rewrite scalars_of_bt_of by (apply forallb_forall; intros y hy; apply hn2, h3, hy). intros (l & e & hin). injection e as <-. split; [reflexivity|]. apply h3, hin.
Qed.
Lemma diff_only_adds added v : forall f x p, wf_v v = true -> diff_only added v = Some f -> adds p x f -> added = true /\ leaf true p x v.
Proof.
  induction v as [s|l|d IH] using value_ind'; intros f x p hw h ha.
  - cbn [diff_only] in h. injection h as <-. destruct p as [|k p]; destruct ha.
  - cbn [diff_only] in h. assert (hnil : wf_v (VSet []) = true) by reflexivity. destruct added; [split; [reflexivity|]; exact (diff_set_adds _ _ _ _ _ hnil hw h ha)|].
    exfalso. pose proof (diff_set_adds _ _ _ _ _ hw hnil h ha) as g. destruct p as [|k p]; [destruct g as [_ []]|destruct g].
  - rewrite diff_only_dict in h. apply wf_v_dict in hw as [hs hw2].
    assert (hl : forall df, only_list added d = Some df -> forall k e, In (k, e) df -> exists w, In (k, w) d /\ diff_only added w = Some e).
    { clear - d. induction d as [|[k w] r IHr]; cbn [only_list]; intros df hd; [injection hd as <-; intros k e []|]. apply opt_cons_Some in hd as (e1 & r' & he & hr & ->).
      intros k0 e0 [hin|hin]; [injection hin as <- <-; exists w; split; [left; reflexivity|exact he]|]. destruct (IHr _ hr _ _ hin) as (w0 & h1 & h2). exists w0. split; [right; exact h1|exact h2]. }
    destruct (only_list added d) as [df|] eqn:E; [|discriminate]. specialize (hl _ eq_refl). destruct df as [|q df0]; [discriminate|]. injection h as <-.
    destruct p as [|k p]; [destruct ha|]. destruct ha as (e' & hin & ha). destruct (hl _ _ hin) as (w & hw & hd). rewrite Forall_forall in IH.
    destruct (IH (k, w) hw e' x p (hw2 _ _ hw) hd ha) as [-> g]. split; [reflexivity|]. rewrite leaf_cons, (In_lookup _ _ _ hs hw). exact g.
Qed.
Lemma walk_adds od nd df x p : wf od = true -> wf nd = true ->
  (forall k o n f x p, lookup k od = Some o -> lookup k nd = Some n -> diff_v o n = Some (Some f) -> adds p x f -> leaf true p x n) ->
  walk od nd = Some df -> adds p x (BDict df) -> leaf true p x (VDict nd).
Proof.
  intros ho hn hv hw ha. pose proof (wf_sorted _ ho) as hos. pose proof (wf_sorted _ hn) as hns. destruct (walk_spec _ _ _ hos hns hw) as [h1 h2].
  destruct p as [|k p]; [destruct ha|]. destruct ha as (f & hin & ha). apply In_lookup in hin; [|exact h1]. specialize (h2 k). rewrite hin in h2. rewrite leaf_cons.
  destruct (lookup k od) as [o|] eqn:Eo, (lookup k nd) as [n|] eqn:En; cbn [diff_entry] in h2.
  - exact (hv k o n f x p Eo En h2 ha).
  - destruct (diff_only false o) eqn:E; [|discriminate]. injection h2 as ->. destruct (diff_only_adds false o f x p (wf_lookup od k o ho Eo) E ha). discriminate.
  - destruct (diff_only true n) eqn:E; [|discriminate]. injection h2 as ->. exact (proj2 (diff_only_adds true n f x p (wf_lookup nd k n hn En) E ha)).
  - discriminate.
Qed.
Lemma diff_v_adds o : forall n f x p, wf_v o = true -> wf_v n = true -> diff_v o n = Some (Some f) -> adds p x f -> leaf true p x n.
Proof.
  induction o as [s|l|d IH] using value_ind'; intros n f x p ho hn h ha.
  1,2: destruct n as [s2|l2|d2];
    try (cbn [diff_v] in h; destruct (diff_only true _) eqn:E in h; [|discriminate]; injection h as <-; exact (proj2 (diff_only_adds true _ _ _ _ hn E ha))).
  - cbn [diff_v] in h. destruct (eqb s s2); [discriminate|]. injection h as <-. destruct p; destruct ha.
  - cbn [diff_v] in h. injection h as h. exact (diff_set_adds l l2 f x p ho hn h ha).
  - destruct n as [s2|l2|d2];
      try (cbn [diff_v] in h; destruct (diff_only true _) eqn:E in h; [|discriminate]; injection h as <-; exact (proj2 (diff_only_adds true _ _ _ _ hn E ha))).
    rewrite diff_v_dict in h. destruct (walk d d2) as [df|] eqn:E; [|discriminate]. destruct df as [|q df]; [discriminate|].
    injection h as <-. apply (walk_adds d d2 (q :: df)); auto. intros k o n' f' x' p' hl1 hl2 hd ha'. rewrite Forall_forall in IH.
    eapply (IH (k, o)); [apply lookup_In; exact hl1| | |exact hd|exact ha'].
    + exact (wf_lookup d _ _ ho hl1).
    + exact (wf_lookup d2 _ _ hn hl2).
Qed.
Lemma diff_adds old new df x p : wf old = true -> wf new = true -> diff old new = Some df -> adds p x (BDict df) -> leaf true p x (VDict new).
Proof.
  intros ho hn h. rewrite diff_walk in h. apply (walk_adds old new df x p); auto. intros k o n f x' p' hl1 hl2 hd ha.
  eapply diff_v_adds; [exact (wf_lookup old _ _ ho hl1)|exact (wf_lookup new _ _ hn hl2)|exact hd|exact ha].
Qed.
Lemma prune_leaf d e p x : wf d = true -> leaf e p x (VDict (fst (prune d))) -> leaf e p x (VDict d).
Proof.
  intros hw. rewrite <- !shows_leaf. unfold shows. destruct p as [|k p]; [cbn; tauto|]. rewrite get_path_prune by (discriminate || exact hw).
  destruct (get_path (k :: p) d) as [v|]; [|tauto]. destruct (prune_v v) as [v' [[] ?]] eqn:E; [tauto|]. destruct v as [s|l|d0].
  - cbn in E. injection E as <- _. tauto.
  - rewrite prune_v_set in E. injection E as <- _ _. tauto.
  - destruct v' as [s'|l'|d'']; cbn [prune_v] in E; [| |tauto]; match type of E with context [let '(a, c) := ?t in _] => destruct t as [? ?]; discriminate end.
Qed.

(** ** edits *)
Lemma leaf_below e x : forall i l r d, leaf e (i ++ l :: r) x (VDict d) <-> oleaf e r x (field i l d).
Proof.
  induction i as [|k i IH]; intros l r d; cbn [app]; [reflexivity|]. rewrite leaf_cons, field_cons. destruct (lookup k d) as [[y|s|d']|]; cbn [oleaf].
  - destruct i; reflexivity.
  - destruct i; reflexivity.
  - apply IH.
  - reflexivity.
Qed.
Lemma upd_leaf e x f : forall i l d p, wf d = true -> leaf e p x (VDict (upd_field i l f d)) -> leaf e p x (VDict d) \/ exists r, p = i ++ l :: r /\ leaf e r x (f (field i l d)).
Proof.
  induction i as [|k i IH]; intros l d p hw h; cbn [upd_field] in h; (destruct p as [|k0 p]; [destruct h|]); rewrite leaf_cons, lookup_insert in h by (apply wf_sorted; exact hw).
  - destruct (eqb k0 l) eqn:ek; [|left; exact h]. apply eqb_eq in ek. subst k0. right. exists p. split; [reflexivity|exact h].
  - destruct (eqb k0 k) eqn:ek; [|left; exact h]. apply eqb_eq in ek. subst k0. cbn [oleaf] in h. destruct (IH l _ p (wf_sub _ k hw) h) as [g|(r & -> & g)].
    + left. rewrite leaf_cons. destruct (lookup k d) as [[y|s|d']|]; cbn [as_dict] in g; try exact g; destruct p; destruct g.
    + right. exists r. split; [reflexivity|]. rewrite field_as_dict. exact g.
Qed.
Lemma mod_leaf e x f : forall i l d p, wf d = true -> leaf e p x (VDict (mod_field i l f d)) -> leaf e p x (VDict d) \/ exists r v v', p = i ++ l :: r /\ field i l d = Some v /\ f v = Some v' /\ leaf e r x v'.
Proof.
  induction i as [|k i IH]; intros l d p hw h; cbn [mod_field] in h.
  - destruct (lookup l d) as [v|] eqn:el; [|left; exact h]. destruct p as [|k0 p]; [destruct (f v); destruct h|]. destruct (f v) as [v'|] eqn:ef; rewrite leaf_cons in h.
    + rewrite lookup_insert in h by (apply wf_sorted; exact hw). destruct (eqb k0 l) eqn:ek; [|left; exact h]. apply eqb_eq in ek. subst k0. right. exists p, v, v'. auto.
    + rewrite lookup_erase in h. destruct (eqb k0 l); [destruct h|left; exact h].
  - destruct (lookup k d) as [[y|s|d']|] eqn:el; try (left; exact h). destruct p as [|k0 p]; [destruct h|]. rewrite leaf_cons, lookup_insert in h by (apply wf_sorted; exact hw).
    destruct (eqb k0 k) eqn:ek; [|left; exact h]. apply eqb_eq in ek. subst k0. cbn [oleaf] in h. pose proof (wf_lookup _ _ _ hw el) as hw'. destruct (IH l d' p hw' h) as [g|(r & v & v' & -> & g)].
    + left. rewrite leaf_cons, el. exact g.
    + right. exists r, v, v'. split; [reflexivity|]. rewrite field_cons, el. exact g.
Qed.
Lemma edited_leaf o d e p x : is_edit o = true -> wf d = true -> shows e p x (edited o d) -> shows e p x d \/ shows e p x (edited o []).
Proof.
  intros ho hw. assert (hn : wf [] = true) by reflexivity. rewrite !shows_leaf. destruct o as [i l v|i l|i l y|i l y| | | | | | | |]; try discriminate; cbn [edited].
  - destruct (empty_container v).
    + intros h. apply mod_leaf in h as [h|(r & w & w' & _ & _ & h & _)]; [auto|discriminate|exact hw].
    + intros h. apply upd_leaf in h as [h|(r & -> & h)]; [auto| |exact hw]. right. unfold set_field. apply leaf_below. rewrite upd_field_get by exact hn. exact h.
  - intros h. apply mod_leaf in h as [h|(r & w & w' & _ & _ & h & _)]; [auto|discriminate|exact hw].
  - intros h. apply upd_leaf in h as [h|(r & -> & h)]; [auto| |exact hw]. destruct r as [|k r]; [|destruct h]. cbn [leaf] in h. destruct h as [-> h]. apply In_sadd in h as [->|h].
    + right. unfold insert_elem. apply leaf_below. rewrite upd_field_get by exact hn. cbn [oleaf leaf]. split; [reflexivity|]. apply In_sadd. auto.
    + left. apply leaf_below. destruct (field i l d) as [[s|sl|sd]|]; cbn [as_set] in h; try (destruct h; fail). cbn. auto.
  - intros h. apply mod_leaf in h as [h|(r & w & w' & -> & hf & h & hl)]; [auto| |exact hw]. injection h as <-. destruct r as [|k r]; [|destruct hl]. cbn [leaf] in hl. destruct hl as [-> hl].
    left. apply leaf_below. rewrite hf. destruct w as [s|sl|sd]; try (destruct hl; fail). apply In_sdel in hl as [_ hl]. cbn. auto.
Qed.

(** ** the invariant: [W] holds of all content *)
Definition wset := bool -> list bytes -> scalar -> Prop.
Definition data_in (W : wset) (d : dict) : Prop := forall e p x, leaf e p x (VDict d) -> W e p x.
Definition diff_in (W : wset) (df : btdict) : Prop := forall p x, adds p x (BDict df) -> W true p x.
Definition sourced (W : wset) (m : msg) : Prop := data_in W (m_data m) /\ diff_in W (m_diff m) /\ forall h df, In (h, df) (m_lagged m) -> diff_in W df.
Definition sourced_conf (W : wset) (c : config) : Prop :=
  match c with Plain m => sourced W m | Mut m _ => data_in W (m_data m) /\ forall h df, In (h, df) (m_lagged m) -> diff_in W df end.
Lemma sourced_conf_msg W c : sourced W (c_msg c) -> sourced_conf W c.
Proof. destruct c as [m|m o]; [auto|intros (h1 & _ & h2); split; assumption]. Qed.
Lemma sourced_data W c : sourced_conf W c -> data_in W (m_data (c_msg c)).
Proof. destruct c as [m|m o]; intros h; apply h. Qed.
Lemma sourced_mono (W W' : wset) m : (forall e p x, W e p x -> W' e p x) -> sourced W m -> sourced W' m.
Proof. intros h (h1 & h2 & h3). split; [|split]; [intros e p x g; auto|intros p x g; apply h, h2, g|intros k df hin p x g; apply h; eapply h3; eassumption]. Qed.
Lemma sourced_conf_mono (W W' : wset) c : (forall e p x, W e p x -> W' e p x) -> sourced_conf W c -> sourced_conf W' c.
Proof. intros h. destruct c as [m|m o]; [apply sourced_mono, h|]. intros (h1 & h3). split; [intros e p x g; auto|intros k df hin p x g; apply h; eapply h3; eassumption]. Qed.
Lemma refresh_sourced W E c c' : cfg_ok E c -> sourced_conf W c -> refresh c = Ok c' -> sourced W (c_msg c').
Proof.
  destruct c as [m|m o]; cbn [refresh sourced_conf cfg_ok]; [intros _ h e; injection e as <-; exact h|]. intros (hf & ho & _) (h1 & h2).
  destruct (diff o (fst (prune (m_data m)))) as [df|] eqn:ed; [|discriminate]. intros e. injection e as <-. cbn [c_msg].
  assert (hd : data_in W (fst (prune (m_data m)))) by (intros e0 p x g; apply h1; apply prune_leaf in g; [exact g|apply hf]).
  split; [exact hd|]. split; [|exact h2]. cbn [m_diff]. intros p x g. apply hd. eapply diff_adds; [exact ho|apply prune_wf, hf|exact ed|exact g].
Qed.
Lemma same_sourced W E m m' : same_content E m m' -> sourced W m -> sourced W m'.
Proof.
  intros (_ & h0 & h1 & _ & h2) (p0 & p1 & p2). split; [rewrite h0; exact p0|]. split; [rewrite h1; exact p1|]. rewrite h2. intros h df hin. apply (p2 h).
  unfold windowed in hin. apply filter_In in hin. apply hin.
Qed.
Lemma increment_impl_sourced W E m c : increment_impl E m = Ok c -> sourced W m -> sourced_conf W c.
Proof.
  unfold increment_impl. cbv zeta. destruct (negb _ || _); [discriminate|]. intros h (h0 & h1 & h2). injection h as <-. cbn. split; [exact h0|]. intros k df hin.
  apply emplace_In in hin as [e|hin]; [injection e as -> ->; exact h1|]. apply (h2 k). eapply drop_old_sub, drop_new_sub. exact hin.
Qed.
Lemma increment_sourced W E c c' : cfg_ok E c -> increment E c = Ok c' -> sourced_conf W c -> sourced_conf W c'.
Proof.
  intros hc h hp. destruct c as [m|m o]; cbn [increment] in h.
  - eapply increment_impl_sourced; eassumption.
  - ok_inv h. destruct a as [s c1]. eapply increment_impl_sourced; [exact h|]. exact (refresh_sourced _ _ _ _ hc hp (serialize_refresh _ _ _ _ _ ha)).
Qed.
Lemma run_replay_sourced W rp : rp_ok rp -> (forall h src df, In (h, (src, df)) rp -> data_in W src /\ diff_in W df) -> forall d d', wf d = true -> data_in W d -> run_replay rp d = Some d' -> wf d' = true /\ data_in W d'.
Proof.
  induction rp as [|[h [src df]] rp IH]; intros hr hp d d' hw hd hrun; cbn [run_replay] in hrun; [injection hrun as <-; auto|].
  apply rp_ok_cons in hr as (h1 & h2 & hr). destruct (apply_diff df src d) as [d1|] eqn:E; [|discriminate]. destruct (hp h src df (or_introl eq_refl)) as [q1 q2].
  apply (IH hr (fun h' s' df' hin => hp h' s' df' (or_intror hin)) d1 d'); [eapply apply_diff_wf; [exact hw|exact h1|exact E]| |exact hrun].
  intros e p x g. destruct (apply_diff_leaf _ _ _ _ _ _ _ h1 hw E g) as [g1|[g1|(-> & g1)]]; auto.
Qed.
Lemma replay_sourced W l : (forall m, In m l -> sourced W m) -> forall h src df, In (h, (src, df)) (replay_of l) -> data_in W src /\ diff_in W df.
Proof.
  intros hl h src df hin. apply replay_In in hin as (m & h' & df' & hm & e & hd). injection e as -> -> ->. destruct (hl m hm) as (h0 & h1 & h2). split; [exact h0|]. destruct hd as [->|hd]; eauto.
Qed.
Lemma merge_parsed_sourced W E ms m : good E ms -> merge_parsed E ms = Ok m -> (forall x, In x ms -> sourced W x) -> sourced W m.
Proof.
  intros hg h hp. destruct (m_unmerged m) as [i|] eqn:hu.
  - destruct (merge_parsed_index _ _ _ _ h hu) as (x & hx & ->). apply nth_error_In in hx. exact (hp x hx).
  - destruct (merge_parsed_conflict _ _ _ hg h hu) as (_ & _ & _ & _ & hres). pose proof (kept_curs E ms hg) as hcur. unfold resolve in hres. destruct (negb _) in hres; [discriminate|].
    destruct (sort_desc (kept E ms)) as [|top rest] eqn:Es; [discriminate|]. cbv zeta in hres. destruct (run_replay _ _) as [d|] eqn:Er; [|discriminate]. ok_inv hres. injection hres as <-.
    assert (hall : forall x, In x (top :: rest) -> sourced W x).
    { intros x hx. apply hp. assert (hk : In x (kept E ms)) by (apply sort_In; rewrite Es; exact hx). apply (kept_In E ms x hg) in hk. tauto. }
    destruct (curs_facts _ _ _ _ hcur Es) as (_ & f2 & f3 & _).
    destruct (run_replay_sourced W _ f2 (replay_sourced W _ hall) _ _ f3 (proj1 (hall top (or_introl eq_refl))) Er) as [hwd hd].
    split; [intros e p x g; cbn [m_data] in g; apply hd; apply prune_leaf in g; [exact g|exact hwd]|].
    split; [intros [|k p] x g; [destruct g|]; destruct g as (f & [] & _)|].
    cbn [m_lagged]. intros k df hin. apply in_map_iff in hin as ([h' [src df']] & e & hin). cbn [fst snd] in e. injection e as -> ->.
    exact (proj2 (replay_sourced W _ hall _ _ _ hin)).
Qed.
Lemma merge_msgs_sourced W E l m bad : no_collision E l -> merge_msgs E l = Ok (m, bad) -> (forall s x, In s l -> parse_msg E false s = Ok x -> sourced W x) -> sourced W m.
Proof.
  intros hnc h hp. apply merge_msgs_inv in h as (ms & h1 & h2). eapply merge_parsed_sourced; [eapply parsed_good; eassumption|exact h2|].
  intros x hx. apply (parse_all_spec _ _ _ _ _ h1) in hx as (s & hs & hx). eauto.
Qed.
Lemma merge_confs_sourced W B d l new bad : no_collision (b_env B) l -> merge_confs B d l = Ok (new, bad) -> (forall s x, In s l -> parse_msg (b_env B) false s = Ok x -> sourced W x) -> sourced_conf W new.
Proof.
  intros hnc h hp. unfold merge_confs in h. destruct d.
  - unfold merge_mutable in h. ok_inv h. destruct a as [m bd]. pose proof (merge_msgs_sourced _ _ _ _ _ hnc ha hp) as hm. cbn [fst snd] in *.
    destruct (m_unmerged m); [ok_inv h; injection h as <- <-; eapply increment_impl_sourced; eassumption|injection h as <- <-; split; apply hm].
  - ok_inv h. destruct a as [m bd]. injection h as <- <-. exact (merge_msgs_sourced _ _ _ _ _ hnc ha hp).
Qed.
Definition inv12 (W : wset) (st : bstate) : Prop := sourced_conf W (s_conf st).
Lemma inv12_conf W B st sg s c : inv1 B st -> inv12 W st -> serialize (b_env B) (s_conf st) sg = Ok (s, c) -> sourced W (c_msg c) /\ inv12 W (set_conf c st).
Proof. intros hi h hs. pose proof (refresh_sourced _ _ _ _ (i1_cfg _ _ hi) h (serialize_refresh _ _ _ _ _ hs)) as hp. split; [exact hp|]. apply sourced_conf_msg. exact hp. Qed.
Lemma inv12_run W B o st x st' : benv_ok B -> inv1 B st -> inv12 W st -> key_op o = false -> (is_edit o = true -> x = Ok tt -> forall e p y, shows e p y (edited o []) -> W e p y) ->
  (forall l mine inc, o = OpMerge l -> merge_sees B l st mine inc -> no_collision (b_env B) (map snd (mine ++ inc)) /\ forall s y, In s (map snd (mine ++ inc)) -> parse_msg (b_env B) false s = Ok y -> sourced W y) ->
  run B o st = (x, st') -> inv12 W st'.
Proof.
  intros hB hi h8 hk hed hmer h. pose proof (i1_cfg _ _ hi) as hcfg.
  assert (hss : forall s st0 y st2, set_state B s st0 = (y, st2) -> inv12 W st0 -> inv12 W st2).
  { intros s st0 y st2 g g3. apply set_state_spec in g as [(_ & -> & _)|(_ & g & _)]; [exact g3|]. unfold inv12. rewrite g. exact g3. }
  assert (hdi : forall st0 y st2, s_conf st0 = s_conf st -> dirty B st0 = (y, st2) -> inv12 W st2).
  { intros st0 y st2 ec g. assert (g3 : inv12 W st0) by (unfold inv12; rewrite ec; exact h8). apply dirty_spec in g as [(_ & -> & _)|[(_ & _ & _ & ->)|(_ & _ & st3 & g & g2)]]; [exact g3|exact g3|].
    destruct g2 as [(c & gc & _ & ->)|(_ & _ & ->)]; [|eapply hss; eassumption]. unfold inv12. cbn. eapply increment_sourced; [|exact gc|exact g3]. rewrite ec. exact hcfg. }
  destruct (is_edit o) eqn:eo.
  { assert (hwf : wf (s_data st) = true) by (unfold s_data, s_msg; destruct (s_conf st) as [m|m o1]; apply hcfg).
    destruct (edit_cases B o st eo hwf) as [(h1 & _)|(f & h1 & hf)]; rewrite h1 in h; [injection h as _ <-; exact h8|].
    apply edit_spec in h as [(_ & g)|(st1 & m & o1 & g & gc & hx & ->)]; [eapply hdi; [|exact g]; reflexivity|]. pose proof (hed eq_refl hx) as hW.
    pose proof (hdi _ _ _ eq_refl g) as g1. unfold inv12 in *. rewrite gc in g1. cbn [set_conf s_conf]. destruct g1 as [g1 g2]. split; [|exact g2]. cbn [m_data set_data]. rewrite hf. intros e p y hl. rewrite <- shows_leaf in hl.
    assert (hwm : wf (m_data m) = true) by (destruct (inv1_dirty _ _ _ _ hB hi g ltac:(split; discriminate)) as [q _]; pose proof (i1_cfg _ _ q) as q1; rewrite gc in q1; apply q1).
    apply edited_leaf in hl as [hl|hl]; [apply g1, shows_leaf, hl|apply hW, hl|exact eo|exact hwm]. }
  destruct o; try discriminate.
  - apply ignore_returned in h. destruct (push B st) as [y st2] eqn:e. cbn [snd] in h. subst st2.
    apply push_spec in e as [(_ & [->|(s & c & g & ->)])|(k & s & conf & c & st2 & _ & g & _ & _ & g2 & _ & ->)]; [exact h8|exact (proj2 (inv12_conf _ _ _ _ _ _ hi h8 g))|].
    pose proof (proj2 (inv12_conf _ _ _ _ _ _ hi h8 g)) as g7. destruct g2 as [(_ & g2)|(_ & ->)]; [|exact g7]. apply hss in g2; [|exact g7]. exact g2.
  - apply confirm_spec in h as [_ [(_ & ->)|(a1 & a2 & ->)]]; exact h8.
  - apply ignore_returned in h. destruct (merge B l st) as [y st2] eqn:e. cbn [snd] in h. subst st2.
    unfold merge in e. apply merge_plain_spec in e as [(_ & ->)|(mine & st1 & ho' & e)]; [exact h8|].
    assert (hs1 : inv12 W st1) by (apply own_part_spec in ho' as [(_ & ho')|(_ & s & c & hs & ho')]; injection ho' as _ ->; [exact h8|exact (proj2 (inv12_conf _ _ _ _ _ _ hi h8 hs))]).
    destruct e as [(_ & ->)|(inc & new & bad & hk' & hinc & hmc & y' & e & _)]; [exact hs1|].
    assert (hsee : merge_sees B l st mine inc) by (split; eauto). destruct (hmer l mine inc eq_refl hsee) as (hnc & hall).
    pose proof (merge_confs_sourced W _ _ _ _ _ hnc hmc hall) as hn.
    apply adopt_spec in e as [(_ & _ & ->)|[(_ & hu & e)|(hne & j & hj & [(_ & _ & _ & _ & ->)|(_ & st2 & e2 & _ & ->)])]]; try exact hs1.
    + apply hss in e; [exact e|]. unfold inv12. cbn [set_conf s_conf]. match goal with |- sourced_conf W (if ?u then _ else _) => destruct u end; [exact hn|]. destruct new as [m|m o]; [split; apply hn|exact hn].
    + apply hss in e2; [exact e2|]. exact hn.
  - apply ignore_returned in h. destruct (dump B st) as [y st2] eqn:e. cbn [snd] in h. subst st2.
    apply dump_spec in e. cbv zeta in e. destruct e as [(s & c & g & _ & ->)|(_ & ->)]; [exact (proj2 (inv12_conf _ _ _ _ _ _ hi h8 g))|].
    destruct (readonly B); exact h8.
Qed.
Lemma inv12_restore W B st d st1 ks st' : benv_ok B -> life B tame st -> inv12 W st -> dump B st = (Ok d, st1) -> (N.of_nat (length d) <= uint64_max)%N -> restore B ks d = Ok st' -> inv12 W st'.
Proof.
  intros hB hl IH h1 h2 h3. pose proof (life_inv1 _ _ hB hl) as hi. destruct (restore_spec _ _ _ _ _ _ (i1_0 _ _ hi) h1 h2 h3) as (s & c' & conf & hs & hc & ->).
  destruct (inv12_conf _ _ _ _ _ _ hi IH hs) as [hp _]. unfold inv12. cbn [s_conf].
  assert (hm : forall t m, parse_msg (store_env (b_env B)) t s = Ok m -> sourced W m).
  { intros t m hm. destruct (store_parse _ _ _ _ _ t (i1_cfg _ _ hi) hs) as (m' & p1 & p2 & _). rewrite hm in p1. injection p1 as <-. eapply same_sourced; eassumption. }
  assert (hpl : (exists m, parse_msg (store_env (b_env B)) true s = Ok m /\ conf = Plain m) -> sourced_conf W conf) by (intros (m & q & ->); exact (hm _ _ q)).
  destruct (s_state st); [exact (hpl hc)| |exact (hpl hc)].
  unfold mutable_of in hc. ok_inv hc. ok_inv hc. apply merge_parsed_single in ha0. subst a0. eapply increment_impl_sourced; [exact hc|]. exact (hm _ _ ha).
Qed.
Lemma seen_sourced {I : Type} (B : I -> benv) key (N : net I) W i s m : fleet B -> net_inv B key N -> (forall j x, past N j x -> inv12 W x) -> seen B N s -> parse_msg (b_env (B i)) false s = Ok m -> sourced W m.
Proof.
  intros hf hi h12 (j & x & hx & c & hs) hp. rewrite (fl_same _ hf i j) in *. pose proof (life_inv1 _ _ (fl_env _ hf j) (plainly_life _ _ (ni_life _ _ _ hi j x hx))) as hi1.
  eapply same_sourced; [exact (parse_own _ _ _ _ _ _ _ (i1_cfg _ _ hi1) hs hp)|]. exact (proj1 (inv12_conf _ _ _ _ _ _ hi1 (h12 j x hx) hs)).
Qed.
Lemma does_inv12 {I : Type} (B : I -> benv) key (N : net I) W i es cs st' : fleet B -> net_inv B key N -> no_clash B N -> (forall j x, past N j x -> inv12 W x) -> (forall o, In o es -> forall e p y, shows e p y (edited o []) -> W e p y) ->
  does (B i) key (sent N) (past N i) (dev N i) es cs st' -> inv12 W st'.
Proof.
  intros hf hi hnc h12 hW hd. pose proof (ni_dev _ _ _ hi i) as hp. pose proof (ni_life _ _ _ hi i _ hp) as hl. pose proof (fl_env _ hf i) as hB. pose proof (life_inv1 _ _ hB (plainly_life _ _ hl)) as hi1.
  assert (hone : forall o x, key_op o = false -> run (B i) o (dev N i) = (x, st') -> is_edit o = false -> (forall l, o <> OpMerge l) -> inv12 W st').
  { intros o x ho hr he hm. eapply (inv12_run W (B i) o (dev N i) x st'); [exact hB|exact hi1|apply (h12 i), hp|exact ho|congruence| |exact hr]. intros l mine inc e. exfalso. exact (hm l e). }
  destruct hd as [o x st' he hok hr hret|x st' hr hret|n h x st' hr hret|l x st' hs hr hret|x st' hr hret|y d st1 st' hy h1 h2 h3].
  - eapply (inv12_run W (B i) o (dev N i) x st'); [exact hB|exact hi1|apply (h12 i), hp|destruct o; try discriminate; reflexivity| | |exact hr]; [intros _ ->; apply hW; left; reflexivity|intros l mine inc ->; discriminate].
  - apply (hone OpPush (fst (ignore (x, st')))); [reflexivity|cbn [run]; rewrite hr; reflexivity|reflexivity|discriminate].
  - apply (hone (OpConfirm n h) x); [reflexivity|exact hr|reflexivity|discriminate].
  - eapply (inv12_run W (B i) (OpMerge l) (dev N i) (fst (ignore (x, st'))) st'); [exact hB|exact hi1|apply (h12 i), hp|reflexivity|discriminate| |cbn [run]; rewrite hr; reflexivity].
    intros l0 mine inc e hsee. injection e as <-. destruct (server_sees B key N hf hi i (dev N i) l (ni_keys _ _ _ hi i _ hp) hs) as (inc' & e1 & g1 & _). destruct hsee as [(a & ho) e2]. rewrite e1 in e2. injection e2 as ->.
    assert (hall : forall s, In s (map snd (mine ++ inc)) -> seen B N s).
    { intros s hin. rewrite map_app in hin. apply in_app_iff in hin as [hin|hin]; [eapply own_seen; eassumption|].
      apply in_map_iff in hin as ([h s0] & e0 & hin). cbn [snd] in e0. subst s0. destruct (g1 _ _ hin) as (c & _ & hcc). eapply carries_seen; exact hcc. }
    split; [apply (seen_apart B N); assumption|]. intros s y hin hpy. eapply seen_sourced; [exact hf|exact hi|exact h12|exact (hall s hin)|exact hpy].
  - apply (hone OpDump (fst (ignore (x, st')))); [reflexivity|cbn [run]; rewrite hr; reflexivity|reflexivity|discriminate].
  - eapply inv12_restore; [exact hB|exact (plainly_life _ _ (ni_life _ _ _ hi i _ hy))|exact (h12 i y hy)|exact h1|exact h2|exact h3].
Qed.
Lemma net_sourced {I : Type} (B : I -> benv) key (N : net I) : fleet B -> net_run B key N -> no_clash B N -> forall j x, past N j x -> inv12 (written (did N)) x.
Proof.
  intros hf h. induction h as [N h|N i es cs N' h IH hs]; intros hnc.
  - intros j x hx. apply (n0_past _ _ _ h) in hx. subst x. split; [|split]; [intros e [|k p] y g; destruct g|intros [|k p] y g; [destruct g|]; destruct g as (f & [] & _)|intros k df []].
  - destruct hs as [hd hsz ho hse hdi hca hpa].
    assert (hnc0 : no_clash B N) by (eapply no_clash_earlier; [|exact hnc]; intros j x hx; apply hpa; auto).
    specialize (IH hnc0). pose proof (net_run_inv B key N hf h hnc0) as hi.
    assert (hmono : forall e p y, written (did N) e p y -> written (did N') e p y) by (intros e p y (o & h1 & h2); exists o; split; [rewrite hdi; apply in_app_iff; auto|exact h2]).
    assert (hW : forall o, In o es -> forall e p y, shows e p y (edited o []) -> written (did N') e p y) by (intros o hin e p y g; exists o; split; [rewrite hdi; apply in_app_iff; auto|exact g]).
    assert (h12 : forall j x, past N j x -> inv12 (written (did N')) x) by (intros j x hx; eapply sourced_conf_mono; [exact hmono|exact (IH j x hx)]).
    intros j x hx. apply hpa in hx as [hx|(-> & ->)]; [exact (h12 j x hx)|]. eapply does_inv12; eassumption.
Qed.
Lemma net_written {I : Type} (B : I -> benv) key (N : net I) i st e p x : fleet B -> net_run B key N -> no_clash B N -> past N i st -> shows e p x (s_data st) -> written (did N) e p x.
Proof. intros hf hr hnc hp hs. apply (sourced_data _ _ (net_sourced B key N hf hr hnc i st hp)). apply shows_leaf, hs. Qed.
