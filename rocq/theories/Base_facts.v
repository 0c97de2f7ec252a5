(** Facts about ConfigBase: frames of the single calls, the life-long invariant. *)
From Verif Require Import BaseSpec Data_facts Diff_facts Bt_facts Message_facts Parse_facts Merge_facts Replay_facts Resolve_facts Wire_facts Reach_facts Round_facts Redeliver_facts Adopt_facts.

Lemma failed_ok {A C} (x : outcome A) (y : C) : failed x <> Ok y.
Proof. destruct x; discriminate. Qed.
Lemma failed_returned {A C} (x : outcome A) : returned (@failed A C x) -> returned x /\ (forall a, x <> Ok a).
Proof. destruct x; cbn; intros [h1 h2]; split; try (split; discriminate); congruence. Qed.

(** ** fields and well-formedness *)
Lemma wf_as_dict v : match v with Some x => wf_v x = true | None => True end -> wf (as_dict v) = true.
Proof. destruct v as [[]|]; cbn; auto. Qed.
Lemma wf_dict_inv d : wf d = true <-> msorted d /\ forall k v, In (k, v) d -> wf_v v = true.
Proof.
  unfold wf. cbn [wf_v]. rewrite andb_true_iff, forallb_forall, ssortedb_spec. split; intros [h1 h2]; split; auto.
  - intros k v hin. exact (h2 (k, v) hin).
  - intros [k v] hin. eapply h2; exact hin.
Qed.
Lemma wf_lookup d k v : wf d = true -> lookup k d = Some v -> wf_v v = true.
Proof. intros h hl. apply wf_dict_inv in h as [_ h]. eapply h, lookup_In, hl. Qed.
Lemma wf_insert d k v : wf d = true -> wf_v v = true -> wf (insert k v d) = true.
Proof.
  intros h hv. apply wf_dict_inv in h as [h1 h2]. apply wf_dict_inv. split; [apply msorted_insert; exact h1|].
  intros k' v' hin. apply In_lookup in hin; [|apply msorted_insert; exact h1]. rewrite lookup_insert in hin by exact h1.
  destruct (eqb k' k); [injection hin as <-; exact hv|]. eapply h2, lookup_In, hin.
Qed.
Lemma wf_erase d k : wf d = true -> wf (erase k d) = true.
Proof.
  intros h. apply wf_dict_inv in h as [h1 h2]. apply wf_dict_inv. split; [apply msorted_erase; exact h1|].
  intros k' v' hin. unfold erase in hin. apply filter_In in hin as [hin _]. eapply h2, hin.
Qed.
Lemma upd_field_wf inter last f : (forall o, match o with Some x => wf_v x = true | None => True end -> wf_v (f o) = true) ->
  forall d, wf d = true -> wf (upd_field inter last f d) = true.
Proof.
  intros hf. induction inter as [|k r IH]; intros d hd; cbn [upd_field].
  - apply wf_insert; [exact hd|]. apply hf. destruct (lookup last d) eqn:e; [eapply wf_lookup; eassumption|exact I].
  - apply wf_insert; [exact hd|]. apply IH. apply wf_as_dict. destruct (lookup k d) eqn:e; [eapply wf_lookup; eassumption|exact I].
Qed.
Lemma mod_field_wf inter last f : (forall v v', wf_v v = true -> f v = Some v' -> wf_v v' = true) ->
  forall d, wf d = true -> wf (mod_field inter last f d) = true.
Proof.
  intros hf. induction inter as [|k r IH]; intros d hd; cbn [mod_field].
  - destruct (lookup last d) as [v|] eqn:e; [|exact hd]. destruct (f v) as [v'|] eqn:e2; [|apply wf_erase; exact hd].
    apply wf_insert; [exact hd|]. eapply hf; [|exact e2]. eapply wf_lookup; eassumption.
  - destruct (lookup k d) as [[| |s]|] eqn:e; try exact hd. apply wf_insert; [exact hd|]. apply IH. exact (wf_lookup _ _ _ hd e).
Qed.
Lemma wf_set_ops l : wf_v (VSet l) = true <-> ssorted l /\ forallb scalar_ok l = true.
Proof. cbn [wf_v]. rewrite andb_true_iff, ssortedb_spec. reflexivity. Qed.
Lemma insert_elem_wf i l x d : scalar_ok x = true -> wf d = true -> wf (insert_elem i l x d) = true.
Proof.
  intros hx. apply upd_field_wf. intros o ho. apply wf_set_ops.
  assert (hs : wf_v (VSet (as_set o)) = true) by (destruct o as [[]|]; cbn [as_set]; try reflexivity; exact ho).
  apply wf_set_ops in hs as [h1 h2]. split; [apply ssorted_sadd; exact h1|]. rewrite forallb_forall in *. intros y hy.
  apply In_sadd in hy as [->|hy]; auto.
Qed.
Lemma erase_elem_wf i l x d : wf d = true -> wf (erase_elem i l x d) = true.
Proof.
  apply mod_field_wf. intros v v' hv h. injection h as <-. destruct v; try reflexivity. apply wf_set_ops in hv as [h1 h2].
  apply wf_set_ops. split; [apply ssorted_sdel; exact h1|]. rewrite forallb_forall in *. intros y hy. apply In_sdel in hy as [_ hy]. auto.
Qed.
Lemma erase_field_wf i l d : wf d = true -> wf (erase_field i l d) = true.
Proof. apply mod_field_wf. discriminate. Qed.
Lemma set_field_wf i l v d : wf_v v = true -> wf d = true -> wf (set_field i l v d) = true.
Proof. intros hv. apply upd_field_wf. intros _ _. exact hv. Qed.

(** ** set_state, dirty, edit *)
Lemma set_state_spec B s st x st' : set_state B s st = (x, st') ->
  (x = Throw /\ st' = st /\ s = Dirty /\ readonly B = true) \/
  (x = Ok tt /\ s_conf st' = s_conf st /\ s_state st' = s /\ s_keys st' = s_keys st /\ s_needs_dump st' = true /\
   (s = Dirty -> readonly B = false) /\
   ((s_state st = Clean /\ s_curr st <> [] /\ s_curr st' = [] /\ s_old st' = sadd (s_curr st) (s_old st)) \/
    ((s_state st <> Clean \/ s_curr st = []) /\ s_curr st' = s_curr st /\ s_old st' = s_old st))).
Proof.
  unfold set_state. destruct (match s with Dirty => readonly B | _ => false end) eqn:e; intros h; injection h as <- <-.
  - left. destruct s; try discriminate. auto.
  - right. cbn [s_conf s_state s_keys s_needs_dump s_curr s_old]. split; [reflexivity|]. split; [reflexivity|]. split; [reflexivity|].
    split; [reflexivity|]. split; [reflexivity|]. split; [destruct s; try discriminate; intros _; exact e|].
    unfold is_clean. destruct (s_state st); cbn [andb]; [|right; split; [left; discriminate|auto]|right; split; [left; discriminate|auto]].
    destruct (s_curr st); cbn [is_nil negb]; [right; auto|left]. split; [reflexivity|]. split; [discriminate|]. auto.
Qed.
Lemma dirty_spec B st x st' : dirty B st = (x, st') ->
  (s_state st = Dirty /\ st' = st /\ ((exists m o, s_conf st = Mut m o) /\ x = Ok tt \/ (exists m, s_conf st = Plain m) /\ x = Throw)) \/
  (s_state st <> Dirty /\ readonly B = true /\ x = Throw /\ st' = st) \/
  (s_state st <> Dirty /\ readonly B = false /\ exists st1, set_state B Dirty st = (Ok tt, st1) /\
     ((exists c, increment (b_env B) (s_conf st) = Ok c /\ x = Ok tt /\ st' = set_conf c st1) \/
      ((forall c, increment (b_env B) (s_conf st) <> Ok c) /\ x = failed (increment (b_env B) (s_conf st)) /\ st' = st1))).
Proof.
  unfold dirty. unfold is_dirty. destruct (s_state st) eqn:es; cbn [negb].
  2: { intros h. left. split; [reflexivity|]. destruct (s_conf st); injection h as <- <-; (split; [reflexivity|]); [right|left]; split; eauto. }
  all: destruct (set_state B Dirty st) as [y st1] eqn:e; apply set_state_spec in e as e2; intros h;
    (destruct e2 as [(-> & -> & _ & hr)|(-> & hc & _ & _ & _ & hr & _)];
     [right; left; injection h as <- <-; split; [discriminate|auto]|]);
    right; right; (split; [discriminate|]); (split; [apply hr; reflexivity|]); exists st1; (split; [reflexivity|]);
    rewrite hc in h; (destruct (increment (b_env B) (s_conf st)) eqn:ei; injection h as <- <-; [left; eauto|..]);
    right; (split; [discriminate|]); auto.
Qed.
(** a successful dirty(): the state is Dirty and the message mutable *)
Lemma dirty_ok B st st' : dirty B st = (Ok tt, st') ->
  exists m o, s_conf st' = Mut m o /\ s_state st' = Dirty /\ s_keys st' = s_keys st /\
  ((s_state st = Dirty /\ st' = st) \/ (s_state st <> Dirty /\ readonly B = false /\ increment (b_env B) (s_conf st) = Ok (Mut m o) /\ s_needs_dump st' = true)).
Proof.
  intros h. apply dirty_spec in h as [(hs & -> & [[(m & o & hc) _]|[_ hx]])|[(_ & _ & hx & _)|(hs & hr & st1 & h1 & [(c & hi & _ & ->)|(_ & hx & _)])]]; try discriminate.
  - exists m, o. auto 10.
  - apply set_state_spec in h1 as [(h & _)|(_ & h2 & h3 & h4 & h5 & _)]; [discriminate|].
    assert (hm : exists m o, c = Mut m o).
    { unfold increment, increment_impl in hi. destruct (s_conf st); [destruct (_ || _) in hi; [discriminate|]; injection hi as <-; eauto|].
      ok_inv hi. destruct a as [s c']. destruct (_ || _) in hi; [discriminate|]. injection hi as <-. eauto. }
    destruct hm as (m & o & ->). exists m, o. cbn [set_conf s_conf s_state s_keys s_needs_dump]. rewrite h3, h4, h5. auto 12.
  - symmetry in hx. apply failed_ok in hx. destruct hx.
Qed.
Lemma edit_spec B f st x st' : edit B f st = (x, st') ->
  (x <> Ok tt /\ dirty B st = (x, st')) \/
  exists st1 m o, dirty B st = (Ok tt, st1) /\ s_conf st1 = Mut m o /\ x = Ok tt /\ st' = set_conf (Mut (set_data m (f (m_data m))) o) st1.
Proof.
  unfold edit. destruct (dirty B st) as [y st1] eqn:e. destruct y as [[]| | | |]; intros h; try (injection h as <- <-; left; split; [discriminate|reflexivity]).
  apply dirty_ok in e as e2. destruct e2 as (m & o & hc & _). rewrite hc in h. injection h as <- <-. right. exists st1, m, o. auto.
Qed.
