(** Facts about loading diffs and data, and about the byte-level cursor. *)
From Verif Require Import Data_facts Diff_facts Bt_facts Message Spec.

Ltac ok_inv h := let a := fresh "a" in let ha := fresh "ha" in
  match type of h with
  | bind ?x ?f = Ok _ => destruct x as [a| | | |] eqn:ha; cbn [bind] in h; try discriminate h
  end.

(** ** norm *)
Fixpoint raw_ok (v : bt) : bool :=
  match v with
  | BInt z => btint_ok z
  | BStr s => str_ok s
  | BList l => forallb raw_ok l
  | BDict d => forallb (fun p => str_ok (fst p) && raw_ok (snd p)) d
  end.
Lemma parse_raw_ok : forall f s,
  (forall v t, parse_value f s = Some (v, t) -> raw_ok v = true) /\
  (forall l t, parse_list f s = Some (l, t) -> forallb raw_ok l = true) /\
  (forall d t, parse_entries f s = Some (d, t) -> forallb (fun p => str_ok (fst p) && raw_ok (snd p)) d = true).
Proof.
  induction f as [|f IH]; intros s; (split; [|split]); try (cbn; discriminate);
    (destruct s as [|c r]; [cbn; discriminate|]); cbn [parse_value parse_list parse_entries].
  - intros v t. destruct (IH r) as (h1 & h2 & h3).
    destruct (Ascii.eqb c "i").
    { destruct (parse_int r) as [[z t']|] eqn:E; [|discriminate]. intros [= <- <-]. exact (parse_int_ok _ _ _ E). }
    destruct (Ascii.eqb c "l").
    { destruct (parse_list f r) as [[l t']|] eqn:E; [|discriminate]. intros [= <- <-]. exact (h2 _ _ eq_refl). }
    destruct (Ascii.eqb c "d").
    { destruct (parse_entries f r) as [[l t']|] eqn:E; [|discriminate]. intros [= <- <-]. exact (h3 _ _ eq_refl). }
    destruct (parse_str (c :: r)) as [[x t']|] eqn:E; [|discriminate]. intros [= <- <-]. exact (parse_str_ok _ _ _ E).
  - intros l t. destruct (Ascii.eqb c "e"); [intros [= <- <-]; reflexivity|].
    destruct (IH (c :: r)) as (h1 & _ & _). destruct (parse_value f (c :: r)) as [[x t']|]; [|discriminate].
    destruct (IH t') as (_ & h2 & _). destruct (parse_list f t') as [[l' t2]|]; [|discriminate].
    intros [= <- <-]. cbn [forallb]. rewrite (h1 _ _ eq_refl), (h2 _ _ eq_refl). reflexivity.
  - intros d t. destruct (Ascii.eqb c "e"); [intros [= <- <-]; reflexivity|].
    destruct (parse_str (c :: r)) as [[k t']|] eqn:E; [|discriminate]. apply parse_str_ok in E.
    destruct (IH t') as (h1 & _ & _). destruct (parse_value f t') as [[x t1]|]; [|discriminate].
    destruct (IH t1) as (_ & _ & h3). destruct (parse_entries f t1) as [[l' t2]|]; [|discriminate].
    intros [= <- <-]. cbn [forallb fst snd]. rewrite E, (h1 _ _ eq_refl), (h3 _ _ eq_refl). reflexivity.
Qed.
Lemma parse1_raw_ok s v t : parse1 s = Some (v, t) -> raw_ok v = true.
Proof. apply parse_raw_ok. Qed.
Lemma bt_ok_raw v : bt_ok v = true -> raw_ok v = true.
Proof.
  induction v as [z|s|l IH|d IH] using bt_ind'; cbn [bt_ok raw_ok]; auto.
  - intros h. rewrite forallb_forall in *. intros x hx. rewrite Forall_forall in IH. auto.
  - intros h. apply andb_true_iff in h as [_ h]. rewrite forallb_forall in *. intros p hp.
    specialize (h _ hp). apply andb_true_iff in h as [-> h]. rewrite Forall_forall in IH. apply (IH _ hp), h.
Qed.

Fixpoint norm_entries (d acc : btdict) : btdict :=
  match d with [] => acc | (k, x) :: r => norm_entries r (emplace k (norm x) acc) end.
Lemma norm_dict d : norm (BDict d) = BDict (norm_entries d []).
Proof. reflexivity. Qed.

Lemma emplace_last {K V} `{CmpLaws K} (m : list (K * V)) k v : Forall (fun x => lt x k) (keys m) -> emplace k v m = m ++ [(k, v)].
Proof.
  intros h. unfold emplace.
  assert (hl : lookup k m = None).
  { apply lookup_None. intros hin. rewrite Forall_forall in h. exact (lt_irrefl _ (h _ hin)). }
  rewrite hl. clear hl. induction m as [|[k1 v1] m IH]; [reflexivity|]. cbn [insert app keys map fst] in *.
  inversion h as [|? ? h1 h2]; subst. assert (hc : cmp k k1 = Gt) by (apply cmp_gt_lt; exact h1). rewrite hc.
  rewrite IH by exact h2. reflexivity.
Qed.

Lemma norm_entries_ok d acc :
  Forall (fun p => str_ok (fst p) = true /\ bt_ok (norm (snd p)) = true) d -> bt_ok (BDict acc) = true ->
  bt_ok (BDict (norm_entries d acc)) = true.
Proof.
  revert acc; induction d as [|[k x] d IH]; intros acc hd ha; cbn [norm_entries]; [exact ha|].
  inversion hd as [|? ? [h1 h2] h3]; subst. apply IH; [exact h3|]. cbn [fst snd] in *.
  cbn [bt_ok] in *. apply andb_true_iff in ha as [hs hf]. apply ssortedb_spec in hs.
  apply andb_true_iff. split; [apply ssortedb_spec, msorted_emplace; exact hs|].
  rewrite forallb_forall in *. intros [k' v'] hin. unfold emplace in hin.
  destruct (lookup k acc); [auto|].
  assert (hs' : msorted (insert k (norm x) acc)) by (apply msorted_insert; exact hs).
  apply In_lookup in hin; [|exact hs']. rewrite lookup_insert in hin by exact hs.
  destruct (eqb k' k) eqn:E.
  - apply eqb_eq in E. subst. injection hin as <-. cbn [fst snd]. rewrite h1, h2. reflexivity.
  - apply lookup_In in hin. exact (hf _ hin).
Qed.
Lemma norm_ok v : raw_ok v = true -> bt_ok (norm v) = true.
Proof.
  induction v as [z|s|l IH|d IH] using bt_ind'; intros h; auto.
  - cbn [norm bt_ok raw_ok] in *. rewrite forallb_forall in *. rewrite Forall_forall in IH.
    intros x hx. apply in_map_iff in hx as (y & <- & hy). auto.
  - rewrite norm_dict. apply norm_entries_ok; [|reflexivity]. cbn [raw_ok] in h.
    rewrite Forall_forall in *. rewrite forallb_forall in h. intros p hp. specialize (h _ hp).
    apply andb_true_iff in h as [h1 h2]. split; [exact h1|]. apply IH; assumption.
Qed.
Lemma norm_id v : bt_ok v = true -> norm v = v.
Proof.
  induction v as [z|s|l IH|d IH] using bt_ind'; intros h; auto.
  - cbn [norm bt_ok] in *. f_equal. induction IH as [|x l hx _ IHl]; [reflexivity|].
    cbn [forallb map] in *. apply andb_true_iff in h as [h1 h2]. rewrite hx by exact h1. f_equal. auto.
  - rewrite norm_dict. f_equal. cbn [bt_ok] in h. apply andb_true_iff in h as [hs hf]. apply ssortedb_spec in hs.
    assert (haux : forall acc, ssorted (map fst (acc ++ d)) -> norm_entries d acc = acc ++ d).
    { clear hs. revert IH hf. induction d as [|[k x] d IHd]; intros IH hf acc hs; cbn [norm_entries]; [rewrite app_nil_r; reflexivity|].
      inversion IH as [|? ? hx hl]; subst. cbn [forallb fst snd] in *. apply andb_true_iff in hf as [hf1 hf2].
      apply andb_true_iff in hf1 as [_ hf1]. rewrite (hx hf1). rewrite map_app in hs. cbn [map fst] in hs.
      apply ssorted_app in hs as (hs1 & hs2 & hs3).
      rewrite emplace_last.
      - rewrite IHd; [rewrite <- app_assoc; reflexivity|exact hl|exact hf2|].
        rewrite <- app_assoc. rewrite map_app. apply ssorted_app. repeat split; auto.
      - apply Forall_forall. intros y hy. apply hs3; [exact hy|left; reflexivity]. }
    rewrite (haux []); [reflexivity|exact hs].
Qed.

(** ** load_diff *)
Fixpoint ld_list (prev : option bytes) (d : list (bytes * bt)) : outcome btdict :=
  match d with
  | [] => Ok []
  | (k, x) :: d' =>
      if match prev with Some p => leb k p | None => false end then Err
      else x' <- load_diff_v x ;; r <- ld_list (Some k) d' ;; Ok ((k, x') :: r)
  end.
Lemma load_diff_v_dict d : load_diff_v (BDict d) = (r <- ld_list None d ;; Ok (BDict r)).
Proof. reflexivity. Qed.
Lemma load_diff_eq d : load_diff d = ld_list None d.
Proof. unfold load_diff. rewrite load_diff_v_dict. destruct (ld_list None d); reflexivity. Qed.

Definition after (prev : option bytes) (d : btdict) : Prop :=
  match prev with Some p => Forall (lt p) (keys d) | None => True end.
Lemma ld_list_spec d : forall prev r,
  Forall (fun p => raw_ok (snd p) = true -> forall e', load_diff_v (snd p) = Ok e' ->
                   bt_ok e' = true /\ load_diff_v e' = Ok e') d ->
  Forall (fun p => str_ok (fst p) = true /\ raw_ok (snd p) = true) d ->
  ld_list prev d = Ok r ->
  ssorted (keys r) /\ after prev r /\ forallb (fun p => str_ok (fst p) && bt_ok (snd p)) r = true /\ ld_list prev r = Ok r.
Proof.
  induction d as [|[k x] d IH]; intros prev r h1 h2 h; cbn [ld_list] in h.
  - injection h as <-. repeat split; [constructor|destruct prev; constructor].
  - inversion h1 as [|? ? hx hl]; subst. inversion h2 as [|? ? [hk hr] hl2]; subst. cbn [fst snd] in *.
    destruct (match prev with Some p => leb k p | None => false end) eqn:E; [discriminate|].
    ok_inv h. ok_inv h. injection h as <-.
    destruct (hx hr _ eq_refl) as [hb hb2]. destruct (IH _ _ hl hl2 ha0) as (g1 & g2 & g3 & g4).
    cbn [keys map fst] in *. repeat split.
    + apply ssorted_cons. auto.
    + destruct prev as [p|]; [|exact I]. cbn [after] in *. assert (hpk : lt p k) by (apply leb_lt; exact E).
      constructor; [exact hpk|]. eapply Forall_impl; [|exact g2]. intros y hy. eapply lt_trans; eauto.
    + cbn [forallb fst snd]. rewrite hk, hb, g3. reflexivity.
    + cbn [ld_list]. rewrite E, hb2. cbn [bind]. rewrite g4. reflexivity.
Qed.
Lemma load_diff_v_spec e e' : raw_ok e = true -> load_diff_v e = Ok e' -> bt_ok e' = true /\ load_diff_v e' = Ok e'.
Proof.
  revert e'. induction e as [z|s|l IH|d IH] using bt_ind'; intros e' hr h.
  - discriminate h.
  - cbn [load_diff_v] in *. destruct (eqb s (b "") || eqb s (b "-")) eqn:E; [|discriminate]. injection h as <-.
    cbn [load_diff_v]. rewrite E. auto.
  - cbn [load_diff_v] in *. assert (hn : forallb bt_ok (map norm l) = true) by exact (norm_ok (BList l) hr).
    assert (hid : map norm (map norm l) = map norm l).
    { pose proof (norm_id (BList (map norm l)) hn) as hn'. cbn [norm] in hn'. congruence. }
    destruct (map norm l) as [|x [|y [|? ?]]]; try discriminate h.
    ok_inv h. ok_inv h. injection h as <-. split.
    + exact hn.
    + cbn [load_diff_v]. rewrite hid, ha, ha0. reflexivity.
  - rewrite load_diff_v_dict in h. ok_inv h. injection h as <-.
    cbn [raw_ok] in hr. rewrite forallb_forall in hr. rewrite Forall_forall in IH.
    eapply ld_list_spec in ha.
    + destruct ha as (h1 & _ & h3 & h4). split.
      * cbn [bt_ok]. apply andb_true_iff. split; [apply ssortedb_spec; exact h1|exact h3].
      * rewrite load_diff_v_dict, h4. reflexivity.
    + rewrite Forall_forall. intros p hp hp2 e' he. exact (IH _ hp e' hp2 he).
    + rewrite Forall_forall. intros p hp. specialize (hr _ hp). apply andb_true_iff in hr. exact hr.
Qed.
(** A diff in loaded form: loading it again changes nothing, and it can be encoded. *)
Lemma load_diff_ok d r : raw_ok (BDict d) = true -> load_diff d = Ok r -> diff_ok r.
Proof.
  intros hr h. rewrite load_diff_eq in h.
  destruct (load_diff_v_spec (BDict d) (BDict r) hr) as [h1 h2]; [rewrite load_diff_v_dict, h; reflexivity|].
  split; [exact h1|]. unfold load_diff. rewrite h2. reflexivity.
Qed.

(** ** data *)
Lemma bt_of_scalar_ok x : scalar_ok x = true -> scalar_of_bt (bt_of_scalar x) = Some x.
Proof. destruct x as [z|s]; cbn [scalar_ok bt_of_scalar scalar_of_bt]; [intros ->|]; reflexivity. Qed.
Lemma scalar_of_bt_inv v x : scalar_of_bt v = Some x -> v = bt_of_scalar x /\ scalar_ok x = true.
Proof.
  destruct v as [z|s|l|d]; cbn [scalar_of_bt]; try discriminate.
  - destruct (int64_ok z) eqn:E; [|discriminate]. intros [= <-]. cbn. auto.
  - intros [= <-]. auto.
Qed.
Lemma map_opt_scalars l : forallb scalar_ok l = true -> map_opt scalar_of_bt (map bt_of_scalar l) = Some l.
Proof.
  induction l as [|x l IH]; [reflexivity|]. cbn [forallb map map_opt]. intros h. apply andb_true_iff in h as [h1 h2].
  rewrite bt_of_scalar_ok by exact h1. rewrite IH by exact h2. reflexivity.
Qed.
Lemma map_opt_scalars_inv l xs : map_opt scalar_of_bt l = Some xs -> l = map bt_of_scalar xs /\ forallb scalar_ok xs = true.
Proof.
  revert xs; induction l as [|v l IH]; cbn [map_opt]; intros xs; [intros [= <-]; auto|].
  destruct (scalar_of_bt v) as [x|] eqn:E; [|discriminate]. destruct (map_opt scalar_of_bt l) as [ys|]; [|discriminate].
  intros [= <-]. apply scalar_of_bt_inv in E as [-> h]. destruct (IH _ eq_refl) as [-> h2]. cbn [map forallb].
  rewrite h, h2. auto.
Qed.
Definition entry_of (p : bytes * bt) : option (bytes * value) :=
  match value_of_bt (snd p) with Some y => Some (fst p, y) | None => None end.
Lemma value_of_bt_dict d :
  value_of_bt (BDict d) =
  match map_opt entry_of d with
  | Some ds => if is_nil ds then None else if ssortedb (map fst ds) then Some (VDict ds) else None
  | None => None
  end.
Proof.
  cbn [value_of_bt].
  match goal with |- match ?a with _ => _ end = match ?c with _ => _ end => assert (h : a = c) end.
  { induction d as [|[k x] d IH]; [reflexivity|]. cbn [map_opt]. rewrite <- IH. unfold entry_of at 1. cbn [fst snd].
    destruct (value_of_bt x); reflexivity. }
  rewrite h. reflexivity.
Qed.
Lemma dict_of_bt_eq d :
  dict_of_bt d = match map_opt entry_of d with Some ds => if ssortedb (map fst ds) then Some ds else None | None => None end.
Proof. reflexivity. Qed.
Lemma entries_of d :
  Forall (fun p => wf_v (snd p) = true -> full_v (snd p) = true -> value_of_bt (bt_of_value (snd p)) = Some (snd p)) d ->
  (forall k v, In (k, v) d -> wf_v v = true) -> (forall k v, In (k, v) d -> full_v v = true) ->
  map_opt entry_of (map (fun p => (fst p, bt_of_value (snd p))) d) = Some d.
Proof.
  induction 1 as [|[k x] d hx hd IH]; intros hw hf; [reflexivity|]. cbn [map map_opt fst snd].
  unfold entry_of at 1. cbn [fst snd] in *.
  rewrite hx by (first [eapply hw; left; reflexivity | eapply hf; left; reflexivity]).
  rewrite IH; [reflexivity| |]; intros k' v' h'; [eapply hw|eapply hf]; right; exact h'.
Qed.
Lemma value_of_bt_of v : wf_v v = true -> full_v v = true -> value_of_bt (bt_of_value v) = Some v.
Proof.
  induction v as [s|l|d IH] using value_ind'; intros hw hf.
  - destruct s as [z|s]; cbn [bt_of_value bt_of_scalar value_of_bt]; [|reflexivity]. cbn in hw. rewrite hw. reflexivity.
  - cbn [bt_of_value value_of_bt]. apply wf_v_set in hw as [h1 h2]. rewrite map_opt_scalars by exact h2.
    cbn [full_v] in hf. apply negb_true_iff in hf. rewrite hf. apply ssortedb_spec in h1. rewrite h1. reflexivity.
  - cbn [bt_of_value]. rewrite value_of_bt_dict. apply wf_v_dict in hw as [h1 h2]. apply full_v_dict in hf as [hf1 hf2].
    rewrite pruned_In in hf2. rewrite entries_of; [|exact IH|exact h2|exact hf2].
    apply is_nil_false in hf1. rewrite hf1. apply ssortedb_spec in h1. unfold keys in h1. rewrite h1. reflexivity.
Qed.
(** C06: decode of encode, at tree level *)
Lemma dict_of_bt_of d : wf d = true -> pruned d = true -> dict_of_bt (bt_of_dict d) = Some d.
Proof.
  intros hw hp. rewrite dict_of_bt_eq. unfold bt_of_dict. apply wf_v_dict in hw as [h1 h2]. rewrite pruned_In in hp.
  rewrite entries_of; [|apply Forall_forall; intros; apply value_of_bt_of; assumption|exact h2|exact hp].
  apply ssortedb_spec in h1. unfold keys in h1. rewrite h1. reflexivity.
Qed.
Lemma map_opt_entry_inv d ds :
  Forall (fun p => forall v, value_of_bt (snd p) = Some v -> bt_of_value v = snd p /\ wf_v v = true /\ full_v v = true) d ->
  map_opt entry_of d = Some ds ->
  map (fun p => (fst p, bt_of_value (snd p))) ds = d /\
  (forall k v, In (k, v) ds -> wf_v v = true) /\ (forall k v, In (k, v) ds -> full_v v = true).
Proof.
  revert ds; induction d as [|[k x] d IH]; intros ds h; cbn [map_opt]; [intros [= <-]; repeat split; intros ? ? []|].
  inversion h as [|? ? hx hl]; subst. unfold entry_of at 1. cbn [fst snd] in *.
  destruct (value_of_bt x) as [y|]; [|discriminate]. destruct (map_opt entry_of d) as [es|]; [|discriminate].
  intros [= <-]. destruct (hx _ eq_refl) as (h1 & h2 & h3). destruct (IH _ hl eq_refl) as (g1 & g2 & g3).
  cbn [map fst snd]. rewrite h1, g1. repeat split; intros k' v' [[= <- <-]|hi]; eauto.
Qed.
Lemma value_of_bt_inv b v : value_of_bt b = Some v -> bt_of_value v = b /\ wf_v v = true /\ full_v v = true.
Proof.
  revert v; induction b as [z|s|l IH|d IH] using bt_ind'; intros v h.
  - cbn [value_of_bt] in h. destruct (int64_ok z) eqn:E; [|discriminate]. injection h as <-. cbn. auto.
  - injection h as <-. auto.
  - cbn [value_of_bt] in h. destruct (map_opt scalar_of_bt l) as [xs|] eqn:E; [|discriminate].
    destruct (is_nil xs) eqn:En; [discriminate|]. destruct (ssortedb xs) eqn:Es; [|discriminate]. injection h as <-.
    apply map_opt_scalars_inv in E as [-> h]. cbn [bt_of_value wf_v full_v]. rewrite En, Es, h. auto.
  - rewrite value_of_bt_dict in h. destruct (map_opt entry_of d) as [ds|] eqn:E; [|discriminate].
    destruct (is_nil ds) eqn:En; [discriminate|]. destruct (ssortedb (map fst ds)) eqn:Es; [|discriminate]. injection h as <-.
    destruct (map_opt_entry_inv _ _ IH E) as (h1 & h2 & h3). cbn [bt_of_value]. rewrite h1. split; [reflexivity|].
    split; [apply wf_v_dict; split; [apply ssortedb_spec; exact Es|exact h2]|].
    apply full_v_dict. split; [apply is_nil_false; exact En|]. apply pruned_In. exact h3.
Qed.
Lemma dict_of_bt_inv l d : dict_of_bt l = Some d -> bt_of_dict d = l /\ wf d = true /\ pruned d = true.
Proof.
  rewrite dict_of_bt_eq. destruct (map_opt entry_of l) as [ds|] eqn:E; [|discriminate].
  destruct (ssortedb (map fst ds)) eqn:Es; [|discriminate]. intros [= <-].
  eapply map_opt_entry_inv in E as (h1 & h2 & h3); [|apply Forall_forall; intros p _; apply value_of_bt_inv].
  split; [exact h1|]. split; [apply wf_v_dict; split; [apply ssortedb_spec; exact Es|exact h2]|]. apply pruned_In. exact h3.
Qed.

(** ** what the diff function produces is loadable *)
Definition eok (e : bt) : Prop := bt_ok e = true /\ load_diff_v e = Ok e.
Lemma ld_list_id d : forall prev, ssorted (keys d) -> after prev d -> (forall k e, In (k, e) d -> load_diff_v e = Ok e) ->
  ld_list prev d = Ok d.
Proof.
  induction d as [|[k e] d IH]; intros prev hs ha he; [reflexivity|]. cbn [ld_list]. cbn [keys map fst] in *.
  apply ssorted_cons in hs as [h1 h2].
  assert (hp : match prev with Some p => leb k p | None => false end = false).
  { destruct prev as [p|]; [|reflexivity]. cbn [after keys map fst] in ha. inversion ha; subst. apply leb_lt. assumption. }
  rewrite hp, (he k e) by (left; reflexivity). cbn [bind]. rewrite IH; [reflexivity|exact h1|exact h2|].
  intros k' e' h'. apply (he k'). right. exact h'.
Qed.
Lemma eok_dict d : msorted d -> (forall k e, In (k, e) d -> str_ok k = true /\ eok e) -> eok (BDict d).
Proof.
  intros hs h. split.
  - cbn [bt_ok]. apply andb_true_iff. split; [apply ssortedb_spec; exact hs|]. apply forallb_forall. intros [k e] hp.
    destruct (h _ _ hp) as [h1 [h2 _]]. cbn [fst snd]. rewrite h1, h2. reflexivity.
  - rewrite load_diff_v_dict, ld_list_id; [reflexivity|exact hs|exact I|]. intros k e hp. apply (h _ _ hp).
Qed.
Lemma bt_of_scalar_btok x : match x with SInt z => btint_ok z = true | SStr s => str_ok s = true end <-> bt_ok (bt_of_scalar x) = true.
Proof. destruct x; reflexivity. Qed.
Lemma check_sublist_ok l : ssorted l -> forallb scalar_ok l = true -> check_sublist (map bt_of_scalar l) = Ok tt.
Proof.
  induction l as [|x l IH]; intros hs hk; [reflexivity|]. cbn [map]. destruct l as [|y l]; [reflexivity|].
  apply ssorted_cons in hs as [h1 h2]. cbn [forallb] in hk. apply andb_true_iff in hk as [hk1 hk2].
  cbn [map check_sublist] in *. rewrite IH; [|exact h1|exact hk2]. apply andb_true_iff in hk2 as [hk2 _].
  inversion h2 as [|? ? hlt _]; subst. unfold lt, cmp, cmp_scalar in hlt.
  assert (hc : check_scalar_order (bt_of_scalar x) (bt_of_scalar y) = Ok tt).
  { destruct x as [p|p], y as [q|q]; cbn [bt_of_scalar check_scalar_order scalar_ok] in *.
    - rewrite hk1, hk2. unfold cmp, cmp_Z in hlt. rewrite Z.compare_lt_iff in hlt.
      rewrite Z.geb_leb. destruct (Z.leb_spec q p) as [hq|hq]; [|reflexivity].
 lia.
    - rewrite hk1. reflexivity.
    - discriminate.
    - assert (hl : ltb p q = true) by (apply ltb_lt; exact hlt). rewrite hl. reflexivity. }
  rewrite hc. reflexivity.
Qed.
Lemma diff_set_eok o n e : wf_v (VSet o) = true -> wf_v (VSet n) = true -> sendable_v (VSet o) -> sendable_v (VSet n) ->
  diff_set o n = Some e -> eok e.
Proof.
  unfold sendable_v. cbn [bt_of_value bt_ok]. intros ho hn so sn. apply wf_v_set in ho as [ho1 ho2]. apply wf_v_set in hn as [hn1 hn2].
  unfold diff_set. destruct (set_walk o n) as [a r] eqn:E. destruct (set_walk_spec _ _ _ _ ho1 hn1 E) as (h1 & h2 & h3 & h4).
  destruct (is_nil a && is_nil r); [discriminate|]. intros [= <-].
  rewrite forallb_forall in so, sn, ho2, hn2.
  assert (ha : forallb bt_ok (map bt_of_scalar a) = true).
  { apply forallb_forall. intros x hx. apply in_map_iff in hx as (y & <- & hy). apply sn, in_map, h3, hy. }
  assert (hr : forallb bt_ok (map bt_of_scalar r) = true).
  { apply forallb_forall. intros x hx. apply in_map_iff in hx as (y & <- & hy). apply so, in_map, h4, hy. }
  split.
  - cbn [bt_ok forallb]. rewrite ha, hr. reflexivity.
  - cbn [load_diff_v map]. rewrite !norm_id by assumption. rewrite !check_sublist_ok; auto.
    + apply forallb_forall. intros x hx. apply ho2, h4, hx.
    + apply forallb_forall. intros x hx. apply hn2, h3, hx.
Qed.
Lemma sendable_v_dict d : sendable_v (VDict d) <-> ssorted (keys d) /\ forall k v, In (k, v) d -> str_ok k = true /\ sendable_v v.
Proof.
  unfold sendable_v. cbn [bt_of_value bt_ok]. rewrite andb_true_iff, ssortedb_spec, keys_map, forallb_forall. unfold keys.
  split; intros [h1 h2]; (split; [exact h1|]).
  - intros k v hin. apply andb_true_iff. apply (h2 (k, bt_of_value v)).
    apply (in_map (fun p => (fst p, bt_of_value (snd p))) d (k, v)) in hin. exact hin.
  - intros p hp. apply in_map_iff in hp as ([k v] & <- & hin). cbn [fst snd]. apply andb_true_iff. exact (h2 _ _ hin).
Qed.
Lemma diff_only_eok added v e : wf_v v = true -> sendable_v v -> diff_only added v = Some e -> eok e.
Proof.
  revert e; induction v as [s|l|d IH] using value_ind'; intros e hw hs.
  - cbn [diff_only]. intros [= <-]. destruct added; split; reflexivity.
  - cbn [diff_only]. assert (hnil : wf_v (VSet []) = true /\ sendable_v (VSet [])) by (split; reflexivity). destruct hnil.
    destruct added; intros h; eapply diff_set_eok in h; eauto.
  - rewrite diff_only_dict. apply wf_v_dict in hw as [hw1 hw2]. apply sendable_v_dict in hs as [hs1 hs2].
    assert (h : forall df, only_list added d = Some df -> keys df = keys d /\ forall k e, In (k, e) df -> str_ok k = true /\ eok e).
    { clear hw1 hs1. induction d as [|[k x] r IHr]; cbn [only_list]; intros df h; [injection h as <-; split; [reflexivity|intros ? ? []]|].
      apply opt_cons_Some in h as (e1 & r' & he & hr & ->). inversion IH as [|? ? hx hl]; subst. cbn [snd] in *.
      destruct (IHr hl) with (df := r') as [h1 h2]; auto.
      { intros k' v' h'. apply (hw2 k'). right. exact h'. }
      { intros k' v' h'. apply (hs2 k'). right. exact h'. }
      unfold keys in *. cbn [map fst]. rewrite h1. split; [reflexivity|].
      intros k' e' [[= <- <-]|h']; [|apply h2; exact h'].
      destruct (hs2 k x) as [g1 g2]; [left; reflexivity|]. split; [exact g1|]. apply hx; auto. apply (hw2 k). left. reflexivity. }
    destruct (only_list added d) as [df|] eqn:E; [|discriminate]. destruct (h _ eq_refl) as [h1 h2].
    destruct df; [discriminate|]. intros [= <-]. apply eok_dict; [|exact h2]. unfold msorted. rewrite h1. exact hs1.
Qed.
Lemma walk_eok od nd df :
  wf od = true -> wf nd = true -> sendable_v (VDict od) -> sendable_v (VDict nd) ->
  (forall k o n e, lookup k od = Some o -> lookup k nd = Some n -> diff_v o n = Some (Some e) -> eok e) ->
  walk od nd = Some df -> eok (BDict df).
Proof.
  intros ho hn so sn hv hw. pose proof (wf_sorted _ ho) as hos. pose proof (wf_sorted _ hn) as hns.
  destruct (walk_spec _ _ _ hos hns hw) as [h1 h2]. apply eok_dict; [exact h1|]. intros k e hin.
  apply In_lookup in hin; [|exact h1]. specialize (h2 k). rewrite hin in h2.
  apply sendable_v_dict in so as [_ so]. apply sendable_v_dict in sn as [_ sn].
  destruct (lookup k od) as [o|] eqn:Eo, (lookup k nd) as [n|] eqn:En; cbn [diff_entry] in h2.
  - split; [apply (so k o), lookup_In, Eo|]. eapply hv; eauto.
  - destruct (so k o) as [g1 g2]; [apply lookup_In, Eo|]. split; [exact g1|].
    destruct (diff_only false o) eqn:E; [|discriminate]. injection h2 as ->. eapply diff_only_eok; [exact (wf_lookup od k o ho Eo)|exact g2|exact E].
  - destruct (sn k n) as [g1 g2]; [apply lookup_In, En|]. split; [exact g1|].
    destruct (diff_only true n) eqn:E; [|discriminate]. injection h2 as ->. eapply diff_only_eok; [exact (wf_lookup nd k n hn En)|exact g2|exact E].
  - discriminate.
Qed.
Lemma diff_v_eok o n e : wf_v o = true -> wf_v n = true -> sendable_v o -> sendable_v n -> diff_v o n = Some (Some e) -> eok e.
Proof.
  revert n e; induction o as [s|l|d IH] using value_ind'; intros n e ho hn so sn h.
  1,2: destruct n as [s2|l2|d2];
    try (cbn [diff_v] in h; destruct (diff_only true _) eqn:E in h; [|discriminate]; injection h as <-; eapply diff_only_eok; eauto).
  - cbn [diff_v] in h. destruct (eqb s s2); [discriminate|]. injection h as <-. split; reflexivity.
  - cbn [diff_v] in h. injection h as h. exact (diff_set_eok l l2 e ho hn so sn h).
  - destruct n as [s2|l2|d2];
      try (cbn [diff_v] in h; destruct (diff_only true _) eqn:E in h; [|discriminate]; injection h as <-; eapply diff_only_eok; eauto).
    rewrite diff_v_dict in h. destruct (walk d d2) as [df|] eqn:E; [|discriminate]. destruct df as [|p df]; [discriminate|].
    injection h as <-. apply (walk_eok d d2); auto. intros k o n' e' hl1 hl2 hd.
    rewrite Forall_forall in IH.
    apply sendable_v_dict in so as [_ so]. apply sendable_v_dict in sn as [_ sn].
    eapply (IH (k, o)); [apply lookup_In; exact hl1| | | | |exact hd].
    + exact (wf_lookup d _ _ ho hl1).
    + exact (wf_lookup d2 _ _ hn hl2).
    + apply (so k). apply lookup_In; exact hl1.
    + apply (sn k). apply lookup_In; exact hl2.
Qed.
Lemma sendable_eq d : sendable d <-> sendable_v (VDict d).
Proof. reflexivity. Qed.
Lemma diff_diff_ok old new df :
  wf old = true -> wf new = true -> sendable old -> sendable new -> diff old new = Some df -> diff_ok df.
Proof.
  intros ho hn so sn h. rewrite diff_walk in h.
  destruct (walk_eok old new df) as [h1 h2]; auto.
  - intros k o n e hl1 hl2 hd. apply sendable_v_dict in so as [_ so]. apply sendable_v_dict in sn as [_ sn].
    eapply diff_v_eok; [| | | |exact hd].
    + exact (wf_lookup old _ _ ho hl1).
    + exact (wf_lookup new _ _ hn hl2).
    + apply (so k). apply lookup_In; exact hl1.
    + apply (sn k). apply lookup_In; exact hl2.
  - split; [exact h1|]. unfold load_diff. rewrite h2. reflexivity.
Qed.
