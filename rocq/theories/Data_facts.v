(** Lemmas about Data.v. *)
From Verif Require Export Data.
From Coq Require Import ZifyBool.

#[global] Instance cmp_scalar_laws : CmpLaws scalar.
Proof.
  split; unfold cmp at 1, cmp_scalar.
  - intros [p|p] [q|q]; try (split; congruence); rewrite cmp_eq; split; congruence.
  - intros [p|p] [q|q]; cbn; try reflexivity; apply cmp_opp.
  - intros [p|p] [q|q] [r|r]; cbn; try congruence; apply cmp_lt_trans.
Qed.

Section value_induction.
  Variable P : value -> Prop.
  Hypothesis Hs : forall s, P (VScal s).
  Hypothesis Hl : forall l, P (VSet l).
  Hypothesis Hd : forall d, Forall (fun p => P (snd p)) d -> P (VDict d).
  Fixpoint value_ind' (v : value) : P v :=
    match v with
    | VScal s => Hs s
    | VSet l => Hl l
    | VDict d => Hd d ((fix go (d : list (bytes * value)) : Forall (fun p => P (snd p)) d :=
                          match d with
                          | [] => Forall_nil _
                          | p :: r => Forall_cons p (value_ind' (snd p)) (go r)
                          end) d)
    end.
End value_induction.
Section bt_induction.
  Variable P : bt -> Prop.
  Hypothesis Hi : forall z, P (BInt z).
  Hypothesis Hs : forall s, P (BStr s).
  Hypothesis Hl : forall l, Forall P l -> P (BList l).
  Hypothesis Hd : forall d, Forall (fun p => P (snd p)) d -> P (BDict d).
  Fixpoint bt_ind' (v : bt) : P v :=
    match v with
    | BInt z => Hi z
    | BStr s => Hs s
    | BList l => Hl l ((fix go (l : list bt) : Forall P l :=
                          match l with [] => Forall_nil _ | p :: r => Forall_cons p (bt_ind' p) (go r) end) l)
    | BDict d => Hd d ((fix go (d : list (bytes * bt)) : Forall (fun p => P (snd p)) d :=
                          match d with
                          | [] => Forall_nil _
                          | p :: r => Forall_cons p (bt_ind' (snd p)) (go r)
                          end) d)
    end.
End bt_induction.

(** ** wf / pruned *)
Lemma wf_v_dict d : wf_v (VDict d) = true <-> msorted d /\ forall k v, In (k, v) d -> wf_v v = true.
Proof.
  cbn [wf_v]. rewrite andb_true_iff, ssortedb_spec, forallb_forall. unfold msorted, keys.
  split; intros [h1 h2]; (split; [exact h1|]).
  - intros k v hin. apply (h2 (k, v) hin).
  - intros [k v] hin. eauto.
Qed.
Lemma wf_sorted d : wf d = true -> msorted d.
Proof. intros h. apply wf_v_dict in h. apply h. Qed.
Lemma wf_lookup d k v : wf d = true -> lookup k d = Some v -> wf_v v = true.
Proof. intros h hl. apply wf_v_dict in h as [_ h]. eapply h, lookup_In, hl. Qed.
Lemma wf_v_set l : wf_v (VSet l) = true <-> ssorted l /\ forallb scalar_ok l = true.
Proof. cbn [wf_v]. rewrite andb_true_iff, ssortedb_spec. tauto. Qed.
Lemma wf_v_wf d : wf_v (VDict d) = wf d. Proof. reflexivity. Qed.
Lemma wf_nil : wf [] = true. Proof. reflexivity. Qed.
Lemma wf_insert d k v : wf d = true -> wf_v v = true -> wf (insert k v d) = true.
Proof.
  intros h hv. apply wf_v_dict in h as [h1 h2]. apply wf_v_dict. split; [apply msorted_insert, h1|].
  intros k' v' hin. apply In_lookup in hin; [|apply msorted_insert, h1].
  rewrite lookup_insert in hin by exact h1. destruct (eqb k' k); [congruence|].
  eapply h2, lookup_In, hin.
Qed.
Lemma wf_erase d k : wf d = true -> wf (erase k d) = true.
Proof.
  intros h. apply wf_v_dict in h as [h1 h2]. apply wf_v_dict. split; [apply msorted_erase, h1|].
  intros k' v' hin. apply In_lookup in hin; [|apply msorted_erase, h1].
  rewrite lookup_erase in hin. destruct (eqb k' k); [congruence|]. eapply h2, lookup_In, hin.
Qed.
Lemma wf_ext d1 d2 : wf d1 = true -> wf d2 = true -> (forall k, lookup k d1 = lookup k d2) -> d1 = d2.
Proof. intros h1 h2. apply msorted_ext; apply wf_sorted; assumption. Qed.
Lemma wf_cons k v d : wf ((k, v) :: d) = true <-> wf_v v = true /\ wf d = true /\ Forall (lt k) (keys d).
Proof.
  unfold wf. rewrite !wf_v_dict, msorted_cons. split.
  - intros [[h1 h2] h3]. repeat split; auto; [apply (h3 k); left; reflexivity|].
    intros k' v' hin. apply (h3 k'). right. exact hin.
  - intros (h1 & [h2 h3] & h4). repeat split; auto. intros k' v' [[= <- <-]|hin]; eauto.
Qed.

Lemma is_nil_true {A} (l : list A) : is_nil l = true <-> l = [].
Proof. destruct l; cbn; split; congruence. Qed.
Lemma is_nil_false {A} (l : list A) : is_nil l = false <-> l <> [].
Proof. destruct l; cbn; split; congruence. Qed.

Lemma pruned_In d : pruned d = true <-> forall k v, In (k, v) d -> full_v v = true.
Proof.
  unfold pruned. rewrite forallb_forall. split; intros h.
  - intros k v hin. apply (h (k, v) hin).
  - intros [k v] hin. eauto.
Qed.
Lemma pruned_lookup d k v : pruned d = true -> lookup k d = Some v -> full_v v = true.
Proof. intros h hl. rewrite pruned_In in h. eapply h, lookup_In, hl. Qed.
Lemma full_v_dict d : full_v (VDict d) = true <-> d <> [] /\ pruned d = true.
Proof. cbn [full_v]. rewrite andb_true_iff, negb_true_iff, is_nil_false. reflexivity. Qed.
Lemma pruned_cons k v d : pruned ((k, v) :: d) = true <-> full_v v = true /\ pruned d = true.
Proof. unfold pruned. cbn [forallb snd]. apply andb_true_iff. Qed.

(** ** pruning *)
Fixpoint prune_list (d : dict) : dict * bool :=
  match d with
  | [] => ([], false)
  | (k, x) :: r =>
      let '(x', (rm_key, rm_subkeys)) := prune_v x in
      let '(r', removed) := prune_list r in
      (if rm_key then r' else (k, x') :: r', rm_key || rm_subkeys || removed)
  end.
Lemma prune_v_dict d :
  prune_v (VDict d) = let '(d', rm) := prune_list d in (VDict d', (is_nil d', rm)).
Proof. reflexivity. Qed.
Lemma prune_eq d : prune d = prune_list d.
Proof. unfold prune. rewrite prune_v_dict. destruct (prune_list d). reflexivity. Qed.

(** specification: [v'] is [v] with empty containers removed, [e] says whether it is itself empty *)
Lemma prune_v_spec v v' e ch : prune_v v = (v', (e, ch)) ->
  full_v v' = negb e /\ (ch = false -> v' = v) /\
  (ch = true -> v' <> v) /\ (wf_v v = true -> wf_v v' = true) /\
  (full_v v = true -> v' = v /\ e = false /\ ch = false) /\
  (forall d, v' = VDict d -> pruned d = true) /\
  (match v, v' with VScal _, VScal _ | VSet _, VSet _ | VDict _, VDict _ => True | _, _ => False end).
Proof.
  revert v' e ch; induction v as [s|l|d IH] using value_ind'; intros v' e ch hp.
  - injection hp as <- <- <-. repeat split; auto; congruence.
  - injection hp as <- <- <-. repeat split; auto; try congruence.
    cbn [full_v] in *. intros. destruct (is_nil l); cbn in *; congruence.
  - rewrite prune_v_dict in hp. destruct (prune_list d) as [d' rm] eqn:El.
    injection hp as <- <- <-.
    assert (hlen : forall d0 d1 r, prune_list d0 = (d1, r) -> length d1 <= length d0).
    { clear. induction d0 as [|[k x] r IH]; cbn [prune_list]; intros d1 rm h.
      - injection h as <- <-. auto.
      - destruct (prune_v x) as [x' [e ch]]. destruct (prune_list r) as [r' rr] eqn:E.
        injection h as <- <-. specialize (IH _ _ eq_refl). destruct e; cbn [length]; lia. }
    assert (hmain : pruned d' = true /\ (rm = false -> d' = d) /\ (rm = true -> d' <> d) /\
                    (forall k, Forall (lt k) (keys d) -> Forall (lt k) (keys d')) /\
                    (wf d = true -> wf d' = true) /\ (pruned d = true -> d' = d /\ rm = false)).
    { clear hlen. revert d' rm El.
      induction d as [|[k x] r IHr]; cbn [prune_list]; intros d' rm El.
      - injection El as <- <-. repeat split; auto; congruence.
      - inversion IH as [|? ? IHx IHrest]; subst. cbn [snd] in IHx.
        destruct (prune_v x) as [x' [e ch]] eqn:Ex. destruct (prune_list r) as [r' rr] eqn:Er.
        specialize (IHx _ _ _ eq_refl) as (hx1 & hx2 & hx2' & hx3 & hx4 & _).
        specialize (IHr IHrest _ _ eq_refl) as (hr1 & hr2 & hr2' & hr3 & hr4 & hr5).
        assert (hlen : length r' <= length r).
        { clear -Er. revert r' rr Er. induction r as [|[k x] r IH]; cbn [prune_list]; intros d1 rm h.
          - injection h as <- <-. auto.
          - destruct (prune_v x) as [x' [e ch]]. destruct (prune_list r) as [r' rr] eqn:E.
            injection h as <- <-. specialize (IH _ _ eq_refl). destruct e; cbn [length]; lia. }
        injection El as <- <-. destruct e; cbn [orb].
        + repeat split; auto; try congruence.
          * intros _ he. apply (f_equal (@length _)) in he. cbn [length] in he. lia.
          * intros k' hf. inversion hf; auto.
          * intros h. apply wf_cons in h as (h1 & h2 & h3). auto.
          * exfalso. apply pruned_cons in H as [h1 h2]. apply hx4 in h1. destruct h1 as (_ & ? & _); congruence.
          * exfalso. apply pruned_cons in H as [h1 h2]. apply hx4 in h1. destruct h1 as (_ & ? & _); congruence.
        + repeat split; auto.
          * apply pruned_cons. auto.
          * intros h. apply orb_false_iff in h as [h1 h2]. rewrite hx2, hr2 by assumption. reflexivity.
          * intros h [= h1 h2]. apply orb_true_iff in h as [h|h]; [apply hx2' in h|apply hr2' in h]; congruence.
          * intros k' hf. unfold keys in *; cbn [map fst] in *. inversion hf; subst. constructor; auto.
          * intros h. apply wf_cons in h as (h1 & h2 & h3). apply wf_cons. auto.
          * apply pruned_cons in H as [h1 h2]. apply hx4 in h1 as (-> & _ & _). apply hr5 in h2 as [-> _]. reflexivity.
          * apply pruned_cons in H as [h1 h2]. apply hx4 in h1 as (_ & _ & ->). apply hr5 in h2 as [_ ->]. reflexivity. }
    destruct hmain as (m1 & m2 & m2' & m3 & m4 & m5). repeat split; auto.
    + cbn [full_v]. destruct (is_nil d'); cbn; [reflexivity|exact m1].
    + intros h. rewrite m2; auto.
    + intros h [= h2]. apply m2' in h. congruence.
    + apply full_v_dict in H as [h1 h2]. apply m5 in h2 as [-> _]. reflexivity.
    + apply full_v_dict in H as [h1 h2]. apply m5 in h2 as [-> _]. apply is_nil_false, h1.
    + apply full_v_dict in H as [h1 h2]. apply m5 in h2 as [_ ->]. reflexivity.
    + intros d0 [= <-]. exact m1.
Qed.
Lemma prune_v_dict' d : prune_v (VDict d) = (VDict (fst (prune d)), (is_nil (fst (prune d)), snd (prune d))).
Proof. rewrite prune_v_dict, prune_eq. destruct (prune_list d). reflexivity. Qed.
Lemma prune_pruned d : pruned (fst (prune d)) = true.
Proof. pose proof (prune_v_spec _ _ _ _ (prune_v_dict' d)) as (_ & _ & _ & _ & _ & h & _). apply (h _ eq_refl). Qed.
Lemma prune_changed d : snd (prune d) = true <-> fst (prune d) <> d.
Proof.
  pose proof (prune_v_spec _ _ _ _ (prune_v_dict' d)) as (_ & h1 & h2 & _). split.
  - intros h he. apply (h2 h). rewrite he. reflexivity.
  - intros hn. destruct (snd (prune d)); [reflexivity|]. exfalso. apply hn. specialize (h1 eq_refl). congruence.
Qed.
Lemma prune_wf d : wf d = true -> wf (fst (prune d)) = true.
Proof. pose proof (prune_v_spec _ _ _ _ (prune_v_dict' d)) as (_ & _ & _ & h & _). exact h. Qed.
Lemma prune_id d : pruned d = true -> fst (prune d) = d.
Proof.
  intros h. destruct d as [|p d]; [reflexivity|].
  pose proof (prune_v_spec _ _ _ _ (prune_v_dict' (p :: d))) as (_ & _ & _ & _ & h4 & _).
  assert (hf : full_v (VDict (p :: d)) = true) by (apply full_v_dict; split; [congruence|exact h]).
  apply h4 in hf as (hf & _). congruence.
Qed.
Lemma prune_idem d : fst (prune (fst (prune d))) = fst (prune d).
Proof. apply prune_id, prune_pruned. Qed.

Lemma lookup_prune d k : wf d = true ->
  lookup k (fst (prune d)) =
  match lookup k d with
  | None => None
  | Some v => let '(v', (e, _)) := prune_v v in if e then None else Some v'
  end.
Proof.
  rewrite prune_eq. induction d as [|[k1 x] r IH]; [reflexivity|]. intros h.
  apply wf_cons in h as (h1 & h2 & h3). specialize (IH h2). cbn [prune_list lookup].
  destruct (prune_v x) as [x' [e ch]] eqn:Ex. destruct (prune_list r) as [r' rr] eqn:Er. cbn [fst] in *.
  destruct (eqb k k1) eqn:E.
  - apply eqb_eq in E; subst. rewrite Ex. destruct e; cbn [lookup].
    + rewrite IH. rewrite lookup_lt_head by exact h3. reflexivity.
    + rewrite eqb_refl. reflexivity.
  - destruct e; cbn [lookup]; [|rewrite E]; exact IH.
Qed.
