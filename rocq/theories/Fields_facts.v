(** Field access behaves like a map. *)
From Verif Require Import BaseSpec Data_facts Diff_facts Base_facts.

Lemma value_eqb_eq : forall x y, value_eqb x y = true <-> x = y.
Proof.
  assert (h : forall x, (forall y, value_eqb x y = true <-> x = y)); [|exact h].
  fix IH 1. intros x. destruct x as [a|a|a]; intros [c|c|c]; cbn [value_eqb]; try (split; discriminate).
  - rewrite eqb_eq. split; congruence.
  - rewrite eqb_eq. split; congruence.
  - revert c. induction a as [|[k v] a IHa]; intros [|[k' w] c]; try (split; [discriminate|intros h; injection h; discriminate]); [split; reflexivity|..];
      try (split; discriminate).
    rewrite !andb_true_iff, eqb_eq, (IH v w), IHa. split; [intros [[-> ->] h]; congruence|]. intros h. injection h as -> -> ->. auto.
Qed.
Lemma get_path_cons k r d : r <> [] -> get_path (k :: r) d = match lookup k d with Some (VDict d') => get_path r d' | _ => None end.
Proof. destruct r; [congruence|reflexivity]. Qed.
Lemma get_path_nil p : p <> [] -> get_path p [] = None.
Proof. destruct p as [|k [|]]; congruence || reflexivity. Qed.
Lemma field_cons k i l d : field (k :: i) l d = match lookup k d with Some (VDict d') => field i l d' | _ => None end.
Proof. unfold field. cbn [app]. apply get_path_cons. destruct i; discriminate. Qed.
Lemma field_nil l d : field [] l d = lookup l d.
Proof. reflexivity. Qed.
Lemma field_as_dict k i l d : field (k :: i) l d = field i l (as_dict (lookup k d)).
Proof. rewrite field_cons. destruct (lookup k d) as [[| |s]|]; cbn [as_dict]; try reflexivity; unfold field; symmetry; apply get_path_nil; destruct i; discriminate. Qed.
Lemma wf_sorted d : wf d = true -> msorted d.
Proof. intros h. apply wf_dict_inv in h. apply h. Qed.
Lemma wf_sub d k : wf d = true -> wf (as_dict (lookup k d)) = true.
Proof. intros h. apply wf_as_dict. destruct (lookup k d) eqn:e; [eapply wf_lookup; eassumption|exact I]. Qed.
Lemma upd_field_get i l f : forall d, wf d = true -> field i l (upd_field i l f d) = Some (f (field i l d)).
Proof.
  induction i as [|k i IH]; intros d hd; cbn [upd_field].
  - rewrite !field_nil, lookup_insert, eqb_refl by (apply wf_sorted; exact hd). reflexivity.
  - rewrite field_as_dict, lookup_insert, eqb_refl by (apply wf_sorted; exact hd). cbn [as_dict]. rewrite IH by (apply wf_sub; exact hd). rewrite <- field_as_dict. reflexivity.
Qed.
Lemma get_path_as_dict p d k : p <> [] -> get_path p (as_dict (lookup k d)) = get_path (k :: p) d.
Proof.
  intros h. rewrite get_path_cons by exact h. destruct (lookup k d) as [[| |s]|]; cbn [as_dict]; try reflexivity; apply get_path_nil; exact h.
Qed.
Lemma upd_field_other i l f : forall d p, wf d = true -> apart p (i ++ [l]) = true -> get_path p (upd_field i l f d) = get_path p d.
Proof.
  induction i as [|k i IH]; intros d p hd hp; destruct p as [|k' p]; try discriminate; cbn [app apart upd_field] in *.
  - destruct (eqb k' l) eqn:e; [destruct p; discriminate|]. destruct p; cbn [get_path]; rewrite lookup_insert, e by (apply wf_sorted; exact hd); reflexivity.
  - destruct (eqb k' k) eqn:e.
    + apply eqb_eq in e. subst k'. assert (hne : p <> []) by (intros ->; discriminate hp). rewrite !get_path_cons by exact hne.
      rewrite lookup_insert, eqb_refl by (apply wf_sorted; exact hd). rewrite IH by (try apply wf_sub; assumption). rewrite get_path_as_dict by exact hne. apply get_path_cons, hne.
    + destruct p; cbn [get_path]; rewrite lookup_insert, e by (apply wf_sorted; exact hd); reflexivity.
Qed.
Lemma mod_field_get i l f : forall d, wf d = true -> field i l (mod_field i l f d) = match field i l d with Some v => f v | None => None end.
Proof.
  induction i as [|k i IH]; intros d hd; cbn [mod_field].
  - rewrite !field_nil. destruct (lookup l d) as [v|] eqn:e; [|exact e]. destruct (f v) as [v'|].
    + rewrite lookup_insert, eqb_refl by (apply wf_sorted; exact hd). reflexivity.
    + rewrite lookup_erase, eqb_refl. reflexivity.
  - rewrite !field_cons. destruct (lookup k d) as [[| |s]|] eqn:e; try (rewrite e; reflexivity).
    rewrite lookup_insert, eqb_refl by (apply wf_sorted; exact hd). apply IH. exact (wf_lookup _ _ _ hd e).
Qed.
Lemma mod_field_other i l f : forall d p, wf d = true -> apart p (i ++ [l]) = true -> get_path p (mod_field i l f d) = get_path p d.
Proof.
  induction i as [|k i IH]; intros d p hd hp; destruct p as [|k' p]; try discriminate; cbn [app apart mod_field] in *.
  - destruct (eqb k' l) eqn:e; [destruct p; discriminate|]. destruct (lookup l d) as [v|]; [|reflexivity].
    destruct (f v); (destruct p; cbn [get_path]; rewrite ?lookup_insert, ?lookup_erase, e by (apply wf_sorted; exact hd); reflexivity).
  - destruct (lookup k d) as [[| |s]|] eqn:ek; try reflexivity. destruct (eqb k' k) eqn:e.
    + apply eqb_eq in e. subst k'. assert (hne : p <> []) by (intros ->; discriminate hp). rewrite !get_path_cons by exact hne.
      rewrite lookup_insert, eqb_refl, ek by (apply wf_sorted; exact hd). apply IH; [exact (wf_lookup _ _ _ hd ek)|exact hp].
    + destruct p; cbn [get_path]; rewrite lookup_insert, e by (apply wf_sorted; exact hd); reflexivity.
Qed.
Lemma insert_same {V} k (v : V) (d : list (bytes * V)) : msorted d -> lookup k d = Some v -> insert k v d = d.
Proof.
  intros hd hl. apply msorted_ext; [apply msorted_insert; exact hd|exact hd|]. intros k'. rewrite lookup_insert by exact hd.
  destruct (eqb k' k) eqn:e; [apply eqb_eq in e; congruence|reflexivity].
Qed.
Lemma upd_field_id i l f : forall d v, wf d = true -> field i l d = Some v -> f (Some v) = v -> upd_field i l f d = d.
Proof.
  induction i as [|k i IH]; intros d v hd hv hf; cbn [upd_field].
  - rewrite field_nil in hv. apply insert_same; [apply wf_sorted; exact hd|congruence].
  - rewrite field_cons in hv. destruct (lookup k d) as [[| |s]|] eqn:e; try discriminate. cbn [as_dict].
    rewrite (IH s v (wf_lookup _ _ _ hd e) hv hf). apply insert_same; [apply wf_sorted; exact hd|exact e].
Qed.
Lemma mod_field_id i l f : forall d, wf d = true -> (forall v, field i l d = Some v -> f v = Some v) -> mod_field i l f d = d.
Proof.
  induction i as [|k i IH]; intros d hd hf; cbn [mod_field].
  - destruct (lookup l d) as [v|] eqn:e; [|reflexivity]. rewrite (hf v) by exact e. apply insert_same; [apply wf_sorted; exact hd|exact e].
  - destruct (lookup k d) as [[| |s]|] eqn:e; try reflexivity. rewrite IH; [apply insert_same; [apply wf_sorted; exact hd|exact e]|exact (wf_lookup _ _ _ hd e)|].
    intros v hv. apply hf. rewrite field_cons, e. exact hv.
Qed.
Lemma sadd_mem {K} `{CmpLaws K} (x : K) l : ssorted l -> mem x l = true -> sadd x l = l.
Proof.
  intros hs hm. apply ssorted_ext; [apply ssorted_sadd; exact hs|exact hs|]. intros y. rewrite In_sadd. apply mem_In in hm. split; [|auto]. intros [->|h]; assumption.
Qed.
Lemma sdel_notmem {K} `{CmpLaws K} (x : K) l : ssorted l -> mem x l = false -> sdel x l = l.
Proof.
  intros hs hm. apply ssorted_ext; [apply ssorted_sdel; exact hs|exact hs|]. intros y. rewrite In_sdel. split; [tauto|]. intros hy. split; [|exact hy].
  intros ->. apply mem_In in hy. congruence.
Qed.
Lemma field_wf i l : forall d v, wf d = true -> field i l d = Some v -> wf_v v = true.
Proof.
  induction i as [|k i IH]; intros d v hd h.
  - rewrite field_nil in h. eapply wf_lookup; eassumption.
  - rewrite field_cons in h. destruct (lookup k d) as [[| |s]|] eqn:e; try discriminate. eapply IH; [exact (wf_lookup _ _ _ hd e)|exact h].
Qed.
(** An edit call does nothing only when there is nothing to do; otherwise it edits the data of a dirtied config. *)
Lemma edit_cases B o st : is_edit o = true -> wf (s_data st) = true ->
  (run B o st = (Ok tt, st) /\ is_dirty st = false /\ edited o (s_data st) = s_data st) \/
  (exists f, run B o st = edit B f st /\ (forall d, f d = edited o d)).
Proof.
  assert (hE : forall i l, wf (s_data st) = true ->
    (erase_at B i l st = (Ok tt, st) /\ is_dirty st = false /\ erase_field i l (s_data st) = s_data st) \/ erase_at B i l st = edit B (erase_field i l) st).
  { intros i l hw. unfold erase_at. destruct (is_dirty st); cbn [negb andb]; [auto|]. destruct (field i l (s_data st)) eqn:e; [auto|]. left. repeat split.
    apply mod_field_id; [exact hw|]. intros v hv. congruence. }
  destruct o; try discriminate; intros _ hw; cbn [run].
  - unfold assign_at. destruct (empty_container v) eqn:ee.
    + destruct (hE inter last hw) as [[h1 [h2 h3]]|h1]; [left|right; exists (erase_field inter last)]; cbn [edited]; rewrite ?ee; auto.
    + destruct (is_dirty st) eqn:ed; cbn [negb andb]; [right; exists (set_field inter last v); cbn [edited]; rewrite ee; auto|].
      destruct (match field inter last (s_data st) with Some w => value_eqb w v | None => false end) eqn:e; [|right; exists (set_field inter last v); cbn [edited]; rewrite ee; auto].
      left. repeat split. cbn [edited]. rewrite ee. destruct (field inter last (s_data st)) as [w|] eqn:ew; [|discriminate]. apply value_eqb_eq in e. subst w.
      eapply upd_field_id; [exact hw|exact ew|reflexivity].
  - destruct (hE inter last hw) as [h1|h1]; [left; exact h1|right; eauto].
  - unfold set_insert_at. destruct (is_dirty st) eqn:ed; cbn [negb andb]; [right; eauto|].
    destruct (field inter last (s_data st)) as [[| l |]|] eqn:ew; [right; eauto| |right; eauto..].
    destruct (mem x l) eqn:em; [|right; eauto]. left. repeat split. cbn [edited]. eapply upd_field_id; [exact hw|exact ew|].
    cbn [as_set]. f_equal. apply sadd_mem; [|exact em]. apply field_wf in ew; [|exact hw]. apply wf_v_set in ew. apply ew.
  - unfold set_erase_at. destruct (is_dirty st) eqn:ed; cbn [negb andb]; [right; eauto|].
    destruct (field inter last (s_data st)) as [[| l |]|] eqn:ew; [right; eauto| |right; eauto..].
    destruct (mem x l) eqn:em; cbn [negb]; [right; eauto|]. left. split; [reflexivity|split; [reflexivity|]]. cbn [edited]. apply mod_field_id; [exact hw|]. intros v hv. rewrite ew in hv. injection hv as <-.
    f_equal. f_equal. apply sdel_notmem; [|exact em]. apply field_wf in ew; [|exact hw]. apply wf_v_set in ew. apply ew.
Qed.
