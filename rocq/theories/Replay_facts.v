(** What replaying change sets does to one field. *)
From Verif Require Import Data_facts Diff_facts Bt_facts Message Message_facts Parse_facts Merge Merge_facts Spec.

Lemma get_path_cons k p d : p <> [] ->
  get_path (k :: p) d = match lookup k d with Some (VDict d') => get_path p d' | _ => None end.
Proof. destruct p; [congruence|reflexivity]. Qed.
Lemma get_path_as k p d : p <> [] -> get_path (k :: p) d = get_path p (as_dict (lookup k d)).
Proof.
  intros hp. rewrite get_path_cons by exact hp. destruct (lookup k d) as [[s|l|d']|]; cbn [as_dict]; try reflexivity;
    destruct p as [|x [|y p]]; try congruence; reflexivity.
Qed.
Lemma bt_ok_dict d : bt_ok (BDict d) = true -> msorted d /\ forall k e, In (k, e) d -> str_ok k = true /\ bt_ok e = true.
Proof.
  cbn [bt_ok]. rewrite andb_true_iff, ssortedb_spec, forallb_forall. intros [h1 h2]. split; [exact h1|].
  intros k e hin. specialize (h2 _ hin). cbn [fst snd] in h2. apply andb_true_iff in h2. exact h2.
Qed.
Lemma as_dict_wf o : opt_wf o -> wf (as_dict o) = true.
Proof. destruct o as [[s|l|d]|]; cbn; auto. Qed.
Lemma wf_opt d k : wf d = true -> opt_wf (lookup k d).
Proof. intros h. destruct (lookup k d) eqn:E; cbn; [eapply wf_lookup; eauto|exact I]. Qed.

(** C03, nested: a field the change set leaves alone keeps its value *)
Lemma apply_diff_frame p : p <> [] -> forall df src data d',
  wf data = true -> bt_ok (BDict df) = true -> apply_diff df src data = Some d' ->
  leaves_alone p df src -> get_path p d' = get_path p data.
Proof.
  induction p as [|k p IH]; [congruence|]. intros _ df src data d' hw hb ha [ht hg].
  apply bt_ok_dict in hb as [hs hb]. pose proof (wf_sorted _ hw) as hm.
  cbn [touches agrees] in ht, hg. destruct (lookup k df) as [e|] eqn:Ek.
  - destruct e as [z|s|l|sub]; try discriminate. destruct p as [|k2 p2]; [discriminate|].
    destruct (lookup k src) as [[s|l|sd]|] eqn:Esrc; try discriminate.
    pose proof (apply_diff_here _ _ _ _ _ _ hm hs ha Ek) as h. rewrite Esrc, apply1_dict in h.
    destruct (apply_diff sub sd (as_dict (lookup k data))) as [d1|] eqn:E1; [|discriminate]. injection h as h.
    rewrite (get_path_as k (k2 :: p2) d'), (get_path_as k (k2 :: p2) data) by congruence. rewrite <- h. cbn [as_dict].
    apply (IH ltac:(congruence) sub sd); [apply as_dict_wf, wf_opt, hw| |exact E1|split; assumption].
    apply lookup_In in Ek. apply hb in Ek. apply Ek.
  - pose proof (apply_diff_other _ _ _ _ _ hm ha Ek) as h. destruct p as [|k2 p2]; [exact h|].
    rewrite (get_path_as k (k2 :: p2) d'), (get_path_as k (k2 :: p2) data) by congruence. rewrite h. reflexivity.
Qed.

Lemma apply_diff_assigns p : forall df src data d' s,
  wf data = true -> bt_ok (BDict df) = true -> apply_diff df src data = Some d' ->
  assigns p df src = Some s -> get_path p d' = Some (VScal s).
Proof.
  induction p as [|k p IH]; cbn [assigns]; [congruence|]. intros df src data d' s hw hb ha h.
  apply bt_ok_dict in hb as [hs hb]. pose proof (wf_sorted _ hw) as hm. destruct p as [|k2 p2].
  - destruct (lookup k df) as [[z|[|]|l|sub]|] eqn:Ek; try discriminate.
    destruct (lookup k src) as [[sc|l|sd]|] eqn:Esrc; try discriminate. injection h as ->.
    pose proof (apply_diff_here _ _ _ _ _ _ hm hs ha Ek) as h. rewrite Esrc in h. cbn in h. injection h as h. symmetry. exact h.
  - destruct (lookup k df) as [[z|[|]|l|sub]|] eqn:Ek; try discriminate.
    destruct (lookup k src) as [[sc|l|sd]|] eqn:Esrc; try discriminate.
    pose proof (apply_diff_here _ _ _ _ _ _ hm hs ha Ek) as h2. rewrite Esrc, apply1_dict in h2.
    destruct (apply_diff sub sd (as_dict (lookup k data))) as [d1|] eqn:E1; [|discriminate]. injection h2 as h2.
    rewrite get_path_as by congruence. rewrite <- h2. cbn [as_dict].
    eapply (IH sub sd); [apply as_dict_wf, wf_opt, hw| |exact E1|exact h].
    apply lookup_In in Ek. apply hb in Ek. apply Ek.
Qed.

Lemma apply_diff_removes p : forall df src data d',
  wf data = true -> bt_ok (BDict df) = true -> apply_diff df src data = Some d' ->
  removes p df src = true -> get_path p d' = None.
Proof.
  induction p as [|k p IH]; cbn [removes]; [congruence|]. intros df src data d' hw hb ha h.
  apply bt_ok_dict in hb as [hs hb]. pose proof (wf_sorted _ hw) as hm. destruct p as [|k2 p2].
  - destruct (lookup k df) as [[z|m|l|sub]|] eqn:Ek; try discriminate.
    destruct (lookup k src) as [[sc|l|sd]|] eqn:Esrc; try (destruct m as [|[[] [] [] [] [] [] [] []] [|]]; discriminate).
    pose proof (apply_diff_here _ _ _ _ _ _ hm hs ha Ek) as h2. rewrite Esrc in h2. cbn in h2. injection h2 as h2. symmetry. exact h2.
  - destruct (lookup k df) as [[z|[|]|l|sub]|] eqn:Ek; try discriminate.
    destruct (lookup k src) as [[sc|l|sd]|] eqn:Esrc; try discriminate.
    pose proof (apply_diff_here _ _ _ _ _ _ hm hs ha Ek) as h2. rewrite Esrc, apply1_dict in h2.
    destruct (apply_diff sub sd (as_dict (lookup k data))) as [d1|] eqn:E1; [|discriminate]. injection h2 as h2.
    rewrite get_path_as by congruence. rewrite <- h2. cbn [as_dict].
    eapply (IH sub sd); [apply as_dict_wf, wf_opt, hw| |exact E1|exact h].
    apply lookup_In in Ek. apply hb in Ek. apply Ek.
Qed.

(** pruning along a path *)
Lemma get_path_prune p : p <> [] -> forall d, wf d = true ->
  get_path p (fst (prune d)) =
  match get_path p d with None => None | Some v => let '(v', (e, _)) := prune_v v in if e then None else Some v' end.
Proof.
  induction p as [|k p IH]; [congruence|]. intros _ d hw. destruct p as [|k2 p2]; [apply lookup_prune, hw|].
  rewrite !get_path_cons by congruence. rewrite lookup_prune by exact hw.
  destruct (lookup k d) as [[s|l|d1]|] eqn:Ek; [reflexivity| | |reflexivity].
  - cbn [prune_v]. destruct l; reflexivity.
  - rewrite prune_v_dict'. specialize (IH ltac:(congruence) d1 (wf_lookup _ _ _ hw Ek)).
    destruct (fst (prune d1)) as [|x y] eqn:E1; cbn [is_nil]; [|exact IH].
    rewrite <- IH. destruct p2; reflexivity.
Qed.
Lemma get_path_prune_scal p d s : p <> [] -> wf d = true -> get_path p d = Some (VScal s) -> get_path p (fst (prune d)) = Some (VScal s).
Proof. intros h1 h2 h3. rewrite get_path_prune, h3 by assumption. reflexivity. Qed.
Lemma get_path_prune_none p d : p <> [] -> wf d = true -> get_path p d = None -> get_path p (fst (prune d)) = None.
Proof. intros h1 h2 h3. rewrite get_path_prune, h3 by assumption. reflexivity. Qed.

(** ** running a replay *)
Definition rp_ok (rp : replay_t) : Prop := forall k src df, In (k, (src, df)) rp -> wf src = true /\ bt_ok (BDict df) = true.
Lemma rp_ok_cons k src df r : rp_ok ((k, (src, df)) :: r) -> wf src = true /\ bt_ok (BDict df) = true /\ rp_ok r.
Proof.
  intros h. destruct (h k src df (or_introl eq_refl)) as [h1 h2]. repeat split; auto; eapply h; right; eauto.
Qed.
Lemma run_replay_wf rp : forall d d', rp_ok rp -> wf d = true -> run_replay rp d = Some d' -> wf d' = true.
Proof.
  induction rp as [|[k [src df]] r IH]; cbn [run_replay]; intros d d' hr hw h; [congruence|].
  apply rp_ok_cons in hr as (h1 & h2 & hr). destruct (apply_diff df src d) as [d1|] eqn:E; [|discriminate].
  eapply IH; [exact hr| |exact h]. eapply apply_diff_wf; [exact hw|exact h1|exact E].
Qed.
Lemma run_replay_frame p rp : p <> [] -> forall d d', rp_ok rp -> wf d = true -> run_replay rp d = Some d' ->
  (forall k src df, In (k, (src, df)) rp -> leaves_alone p df src) -> get_path p d' = get_path p d.
Proof.
  intros hp. induction rp as [|[k [src df]] r IH]; cbn [run_replay]; intros d d' hr hw h hl; [congruence|].
  apply rp_ok_cons in hr as (h1 & h2 & hr). destruct (apply_diff df src d) as [d1|] eqn:E; [|discriminate].
  rewrite (IH d1 d'); [|exact hr|eapply apply_diff_wf; [exact hw|exact h1|exact E]|exact h|intros k' src' df' hin; eapply hl; right; exact hin].
  eapply apply_diff_frame; [exact hp|exact hw|exact h2|exact E|]. eapply hl; left; reflexivity.
Qed.
Lemma run_replay_app rp1 rp2 d : run_replay (rp1 ++ rp2) d =
  match run_replay rp1 d with Some d1 => run_replay rp2 d1 | None => None end.
Proof.
  revert d; induction rp1 as [|[k [src df]] r IH]; intros d; cbn [app run_replay]; [reflexivity|].
  destruct (apply_diff df src d); [apply IH|reflexivity].
Qed.
(** the field ends as the last change set that does not leave it alone says *)
Lemma run_replay_last p rp k src df d d' (P : option value -> Prop) :
  p <> [] -> msorted rp -> rp_ok rp -> wf d = true -> run_replay rp d = Some d' -> lookup k rp = Some (src, df) ->
  (forall k' src' df', lookup k' rp = Some (src', df') -> lt k k' -> leaves_alone p df' src') ->
  (forall x x', wf x = true -> apply_diff df src x = Some x' -> P (get_path p x')) -> P (get_path p d').
Proof.
  intros hp hs hr hw h hk hl hx.
  apply lookup_In, in_split in hk as (r1 & r2 & ->). rewrite run_replay_app in h.
  destruct (run_replay r1 d) as [d1|] eqn:E1; [|discriminate]. cbn [run_replay] in h.
  destruct (apply_diff df src d1) as [d2|] eqn:E2; [|discriminate].
  assert (hr1 : rp_ok r1) by (intros a1 a2 a3 hin; eapply hr; apply in_or_app; left; exact hin).
  assert (hr2 : rp_ok ((k, (src, df)) :: r2)) by (intros a1 a2 a3 hin; eapply hr; apply in_or_app; right; exact hin).
  apply rp_ok_cons in hr2 as (hsrc & hdf & hr2).
  assert (hw1 : wf d1 = true) by (eapply run_replay_wf; [exact hr1|exact hw|exact E1]).
  assert (hw2 : wf d2 = true) by (eapply apply_diff_wf; [exact hw1|exact hsrc|exact E2]).
  assert (hf : get_path p d' = get_path p d2).
  { eapply run_replay_frame; [exact hp|exact hr2|exact hw2|exact h|].
    intros k' src' df' hin. apply (hl k').
    - apply In_lookup; [exact hs|]. apply in_or_app. right. right. exact hin.
    - unfold msorted in hs. rewrite keys_app in hs. apply ssorted_app in hs as (_ & hs & _).
      apply msorted_cons in hs as [_ hs]. rewrite Forall_forall in hs. apply hs. eapply In_keys, hin. }
  rewrite hf. eapply hx; [exact hw1|exact E2].
Qed.

(** ** the replay map *)
Definition recorded (m : msg) (k : shash) : option btdict :=
  if eqb k (m_sh m) then Some (m_diff m) else lookup k (m_lagged m).
Definition with_src (src : dict) (o : option btdict) : option (dict * btdict) := option_map (fun df => (src, df)) o.
Lemma fold_emplace_spec src (lg : lagged_t) : msorted lg -> forall (rp : replay_t), msorted rp ->
  msorted (fold_left (fun rp p => emplace (fst p) (src, snd p) rp) lg rp) /\
  forall k, lookup k (fold_left (fun rp p => emplace (fst p) (src, snd p) rp) lg rp) =
  match lookup k rp with Some x => Some x | None => with_src src (lookup k lg) end.
Proof.
  induction lg as [|[k1 df1] lg IH]; intros hl rp hs; cbn [fold_left fst snd].
  - split; [exact hs|]. intros k. cbn [lookup]. destruct (lookup k rp); reflexivity.
  - apply msorted_cons in hl as [hl hf]. destruct (IH hl (emplace k1 (src, df1) rp) (msorted_emplace _ _ _ hs)) as [h1 h2].
    split; [exact h1|]. intros k. rewrite h2. rewrite lookup_emplace by exact hs. cbn [lookup].
    destruct (lookup k rp); [reflexivity|]. destruct (eqb k k1) eqn:E; [|reflexivity].
    apply eqb_eq in E; subst. reflexivity.
Qed.
Lemma add_conf_spec rp m : msorted (m_lagged m) -> msorted rp ->
  msorted (add_conf rp m) /\
  forall k, lookup k (add_conf rp m) = match lookup k rp with Some x => Some x | None => with_src (m_data m) (recorded m k) end.
Proof.
  intros hl hs. unfold add_conf.
  destruct (fold_emplace_spec (m_data m) _ hl (emplace (m_sh m) (m_data m, m_diff m) rp) (msorted_emplace _ _ _ hs)) as [h1 h2].
  split; [exact h1|]. intros k. rewrite h2. rewrite lookup_emplace by exact hs. unfold recorded.
  destruct (lookup k rp); [reflexivity|]. destruct (eqb k (m_sh m)); reflexivity.
Qed.
Lemma replay_fold_spec confs : Forall (fun m => msorted (m_lagged m)) confs -> forall rp, msorted rp ->
  msorted (fold_left add_conf confs rp) /\
  forall k x, lookup k (fold_left add_conf confs rp) = Some x <->
    lookup k rp = Some x \/ (lookup k rp = None /\ exists c1 m c2 df, confs = c1 ++ m :: c2 /\ recorded m k = Some df /\
       x = (m_data m, df) /\ forall n, In n c1 -> recorded n k = None).
Proof.
  induction confs as [|m confs IH]; intros hf rp hs; cbn [fold_left].
  - split; [exact hs|]. intros k x. split; [left; assumption|]. intros [h|(_ & c1 & m & c2 & df & h & _)]; [exact h|].
    destruct c1; discriminate.
  - inversion hf as [|? ? hm hf']; subst. destruct (add_conf_spec rp m hm hs) as [h1 h2].
    destruct (IH hf' _ h1) as [h3 h4]. split; [exact h3|]. intros k x. rewrite h4, h2. split.
    + intros [h|(h & c1 & n & c2 & df & hc & hr & hx & hn)].
      * destruct (lookup k rp); [left; exact h|right]. split; [reflexivity|].
        unfold with_src in h. destruct (recorded m k) as [df|] eqn:Er; [|discriminate]. cbn in h. injection h as <-.
        exists [], m, confs, df. repeat split; auto. intros n [].
      * right. destruct (lookup k rp); [discriminate|]. split; [reflexivity|].
        unfold with_src in h. destruct (recorded m k) as [df0|] eqn:Er; [discriminate|].
        exists (m :: c1), n, c2, df. subst. repeat split; auto. intros n' [<-|hin]; auto.
    + intros [h|(h & c1 & n & c2 & df & hc & hr & hx & hn)].
      * left. rewrite h. reflexivity.
      * rewrite h. destruct c1 as [|m' c1]; cbn [app] in hc; injection hc as -> ->.
        -- left. rewrite hr. subst x. reflexivity.
        -- right. rewrite (hn m' (or_introl eq_refl)). cbn. split; [reflexivity|].
           exists c1, n, c2, df. repeat split; auto. intros n' hin. apply hn. right. exact hin.
Qed.
Lemma replay_spec confs : Forall (fun m => msorted (m_lagged m)) confs ->
  msorted (replay_of confs) /\
  forall k x, lookup k (replay_of confs) = Some x <->
    exists c1 m c2 df, confs = c1 ++ m :: c2 /\ recorded m k = Some df /\
       x = (m_data m, df) /\ forall n, In n c1 -> recorded n k = None.
Proof.
  intros h. destruct (replay_fold_spec confs h [] msorted_nil) as [h1 h2]. split; [exact h1|].
  intros k x. unfold replay_of. rewrite h2. cbn [lookup]. split; [intros [?|[_ ?]]; [discriminate|assumption]|auto].
Qed.
Lemma records_recorded m k df : ~ In (m_sh m) (keys (m_lagged m)) -> (records m k df <-> recorded m k = Some df).
Proof.
  intros hn. unfold records, recorded. destruct (eqb k (m_sh m)) eqn:E.
  - apply eqb_eq in E; subst. split; [intros [[_ ->]|h]; [reflexivity|]|intros [= ->]; auto].
    exfalso. apply hn. apply lookup_keys. eauto.
  - apply eqb_neq in E. split; [intros [[h _]|h]; [congruence|exact h]|auto].
Qed.

(** ** set elements *)
Lemma names_scalars x l r : scalars_of_bt l = Some r -> names x l = mem x r.
Proof.
  revert r; induction l as [|e l IH]; cbn [scalars_of_bt]; intros r h; [injection h as <-; reflexivity|].
  destruct (scalar_of_bt e) as [y|] eqn:Ey; [|discriminate]. destruct (scalars_of_bt l) as [q|]; [|discriminate].
  injection h as <-. unfold names. cbn [existsb mem]. rewrite Ey. fold (names x l). rewrite (IH q eq_refl).
  f_equal. destruct (eqb y x) eqn:E1, (eqb x y) eqn:E2; try reflexivity;
    [apply eqb_eq in E1|apply eqb_eq in E2]; subst; rewrite eqb_refl in *; congruence.
Qed.
Lemma mem_after_diff x add rem t : 
  mem x (fold_left (fun l y => sdel y l) rem (fold_left (fun l y => sadd y l) add t)) =
  if mem x rem then false else if mem x add then true else mem x t.
Proof.
  destruct (mem x rem) eqn:E1.
  - apply mem_In_false. rewrite In_fold_sdel, In_fold_sadd. apply mem_In in E1. tauto.
  - apply mem_In_false in E1. destruct (mem x add) eqn:E2.
    + apply mem_In. rewrite In_fold_sdel, In_fold_sadd. apply mem_In in E2. tauto.
    + apply mem_In_false in E2. destruct (mem x t) eqn:E3.
      * apply mem_In. rewrite In_fold_sdel, In_fold_sadd. apply mem_In in E3. tauto.
      * apply mem_In_false. rewrite In_fold_sdel, In_fold_sadd. apply mem_In_false in E3. tauto.
Qed.
Lemma has_elem_as k p x d : p <> [] -> has_elem (k :: p) x d = has_elem p x (as_dict (lookup k d)).
Proof. intros h. unfold has_elem. rewrite get_path_as by exact h. reflexivity. Qed.
Lemma apply_diff_elem p x : forall df src data d' r,
  wf data = true -> bt_ok (BDict df) = true -> apply_diff df src data = Some d' ->
  says_elem p x df src = Some r ->
  has_elem p x d' = match r with Some y => y | None => has_elem p x data end.
Proof.
  induction p as [|k p IH]; cbn [says_elem]; [congruence|]. intros df src data d' r hw hb ha h.
  apply bt_ok_dict in hb as [hs hb]. pose proof (wf_sorted _ hw) as hm.
  destruct (lookup k df) as [e|] eqn:Ek.
  2: { injection h as <-. pose proof (apply_diff_other _ _ _ _ _ hm ha Ek) as h. destruct p as [|k2 p2].
       - unfold has_elem. cbn [get_path]. rewrite h. reflexivity.
       - rewrite (has_elem_as k (k2 :: p2) x d'), (has_elem_as k (k2 :: p2) x data) by congruence. rewrite h. reflexivity. }
  pose proof (apply_diff_here _ _ _ _ _ _ hm hs ha Ek) as h1.
  destruct e as [z|s|l|sub]; try discriminate.
  - destruct l as [|[|?|add|] [|[|?|rem|] [|]]]; try discriminate. destruct p as [|k2 p2]; [|discriminate].
    destruct (lookup k src) as [[s|sl|sd]|] eqn:Esrc; try discriminate. cbn [apply1] in h1.
    destruct (scalars_of_bt add) as [add'|] eqn:Ea; [|discriminate]. destruct (scalars_of_bt rem) as [rem'|] eqn:Er; [|discriminate].
    injection h1 as h1. rewrite (names_scalars x _ _ Ea), (names_scalars x _ _ Er) in h. injection h as <-.
    unfold has_elem. cbn [get_path]. rewrite <- h1. rewrite mem_after_diff.
    destruct (mem x rem'); [reflexivity|]. destruct (mem x add'); [reflexivity|].
    destruct (lookup k data) as [[s|tl|td]|]; reflexivity.
  - destruct p as [|k2 p2]; [discriminate|]. destruct (lookup k src) as [[s|sl|sd]|] eqn:Esrc; try discriminate.
    rewrite apply1_dict in h1.
    destruct (apply_diff sub sd (as_dict (lookup k data))) as [d1|] eqn:E1; [|discriminate]. injection h1 as h1.
    rewrite (has_elem_as k (k2 :: p2) x d'), (has_elem_as k (k2 :: p2) x data) by congruence. rewrite <- h1. cbn [as_dict].
    eapply (IH sub sd); [apply as_dict_wf, wf_opt, hw| |exact E1|exact h].
    apply lookup_In in Ek. apply hb in Ek. apply Ek.
Qed.
Lemma run_replay_elem p x rp : forall d d', rp_ok rp -> wf d = true -> run_replay rp d = Some d' ->
  (forall k src df, In (k, (src, df)) rp -> says_elem p x df src = Some None) -> has_elem p x d' = has_elem p x d.
Proof.
  induction rp as [|[k [src df]] r IH]; cbn [run_replay]; intros d d' hr hw h hl; [congruence|].
  apply rp_ok_cons in hr as (h1 & h2 & hr). destruct (apply_diff df src d) as [d1|] eqn:E; [|discriminate].
  rewrite (IH d1 d'); [|exact hr|eapply apply_diff_wf; [exact hw|exact h1|exact E]|exact h|intros k' src' df' hin; eapply hl; right; exact hin].
  apply (apply_diff_elem p x df src d d1 None hw h2 E). eapply hl; left; reflexivity.
Qed.
Lemma run_replay_elem_last p x rp k src df d d' y :
  msorted rp -> rp_ok rp -> wf d = true -> run_replay rp d = Some d' -> lookup k rp = Some (src, df) ->
  (forall k' src' df', lookup k' rp = Some (src', df') -> lt k k' -> says_elem p x df' src' = Some None) ->
  says_elem p x df src = Some (Some y) -> has_elem p x d' = y.
Proof.
  intros hs hr hw h hk hl hx.
  apply lookup_In, in_split in hk as (r1 & r2 & ->). rewrite run_replay_app in h.
  destruct (run_replay r1 d) as [d1|] eqn:E1; [|discriminate]. cbn [run_replay] in h.
  destruct (apply_diff df src d1) as [d2|] eqn:E2; [|discriminate].
  assert (hr1 : rp_ok r1) by (intros a1 a2 a3 hin; eapply hr; apply in_or_app; left; exact hin).
  assert (hr2 : rp_ok ((k, (src, df)) :: r2)) by (intros a1 a2 a3 hin; eapply hr; apply in_or_app; right; exact hin).
  apply rp_ok_cons in hr2 as (hsrc & hdf & hr2).
  assert (hw1 : wf d1 = true) by (eapply run_replay_wf; [exact hr1|exact hw|exact E1]).
  assert (hw2 : wf d2 = true) by (eapply apply_diff_wf; [exact hw1|exact hsrc|exact E2]).
  rewrite (run_replay_elem p x r2 d2 d' hr2 hw2 h).
  - apply (apply_diff_elem p x df src d1 d2 (Some y) hw1 hdf E2 hx).
  - intros k' src' df' hin. apply (hl k').
    + apply In_lookup; [exact hs|]. apply in_or_app. right. right. exact hin.
    + unfold msorted in hs. rewrite keys_app in hs. apply ssorted_app in hs as (_ & hs & _).
      apply msorted_cons in hs as [_ hs]. rewrite Forall_forall in hs. apply hs. eapply In_keys, hin.
Qed.
Lemma prune_v_set l : prune_v (VSet l) = (VSet l, (is_nil l, false)). Proof. reflexivity. Qed.
Lemma has_elem_prune p x d : p <> [] -> wf d = true -> has_elem p x (fst (prune d)) = has_elem p x d.
Proof.
  intros hp hw. unfold has_elem. rewrite get_path_prune by assumption.
  destruct (get_path p d) as [[s|l|d1]|]; [reflexivity| | |reflexivity].
  - rewrite prune_v_set. destruct l; reflexivity.
  - rewrite prune_v_dict'. destruct (is_nil _); reflexivity.
Qed.

(** ** a conflict resolution, unfolded *)
Lemma resolve_inv E mx cur m : resolve E mx cur = Ok m ->
  exists top rest d s,
    sort_desc cur = top :: rest /\ run_replay (replay_of (top :: rest)) (m_data top) = Some d /\
    int64_ok (mx + 1) = true /\
    serialize_impl E (mkMsg ((mx + 1)%Z, zero_hash) (fst (prune d)) [] (map (fun p => (fst p, snd (snd p))) (replay_of (top :: rest))) [] None None) [] true = Ok s /\
    m = mkMsg ((mx + 1)%Z, e_hash E s) (fst (prune d)) [] (map (fun p => (fst p, snd (snd p))) (replay_of (top :: rest))) [] None None.
Proof.
  unfold resolve. intros h. destruct (int64_ok (mx + 1)) eqn:Ei; cbn [negb] in h; [|discriminate].
  destruct (sort_desc cur) as [|top rest] eqn:Es; [discriminate|]. cbv zeta in h.
  destruct (run_replay (replay_of (top :: rest)) (m_data top)) as [d|] eqn:Er; [|discriminate h].
  ok_inv h. injection h as <-. exists top, rest, d, a. repeat split; auto.
Qed.
(** what the messages being reconciled satisfy *)
Record curs (E : env) (cur : list msg) : Prop := {
  cu_ok : forall m, In m cur -> msg_ok E m;
  cu_nodup : NoDup (map m_sh cur);
  cu_self : forall m n, In m cur -> In n cur -> ~ In (m_sh m) (keys (m_lagged n))
}.
Lemma curs_facts E cur top rest : curs E cur -> sort_desc cur = top :: rest ->
  let rp := replay_of (top :: rest) in
  msorted rp /\ rp_ok rp /\ wf (m_data top) = true /\ pruned (m_data top) = true /\ In top cur /\
  (forall n, In n cur -> leb (m_sh n) (m_sh top) = true) /\
  (forall k x, lookup k rp = Some x -> exists n df, In n cur /\ records n k df /\ x = (m_data n, df)) /\
  (forall c k df, In c cur -> records c k df -> (forall n df', In n cur -> records n k df' -> leb (m_sh n) (m_sh c) = true) ->
     lookup k rp = Some (m_data c, df)).
Proof.
  intros [h1 h2 h3] hs rp.
  pose proof (sort_desc_perm cur) as hp. rewrite hs in hp.
  pose proof (sort_desc_sorted cur h2) as hd. rewrite hs in hd.
  assert (hin : forall n, In n (top :: rest) <-> In n cur) by (intros n; split; apply Permutation_in; [|symmetry]; exact hp).
  assert (hself : forall n, In n cur -> ~ In (m_sh n) (keys (m_lagged n))) by (intros n hn; apply h3; exact hn).
  assert (hl : Forall (fun m => msorted (m_lagged m)) (top :: rest)).
  { apply Forall_forall. intros n hn. apply hin in hn. apply (h1 n hn). }
  destruct (replay_spec _ hl) as [hrs hrl]. fold rp in hrs, hrl.
  assert (hx : forall k x, lookup k rp = Some x -> exists n df, In n cur /\ records n k df /\ x = (m_data n, df)).
  { intros k x hk. apply hrl in hk as (c1 & n & c2 & df & hc & hr & hx & _).
    assert (hn : In n cur) by (apply hin; rewrite hc; apply in_or_app; right; left; reflexivity).
    exists n, df. split; [exact hn|]. split; [apply records_recorded; auto|exact hx]. }
  split; [exact hrs|]. split.
  { intros k src df hk. apply (In_lookup _ _ _ hrs) in hk. destruct (hx _ _ hk) as (n & df' & hn & hr & he). injection he as -> ->.
    pose proof (h1 n hn) as ok. split; [apply ok|]. destruct hr as [[_ ->]|hr]; [apply ok|].
    pose proof (ok_lag _ _ ok) as hl2. rewrite Forall_forall in hl2. apply lookup_In in hr. apply hl2 in hr. apply hr. }
  assert (htop : In top cur) by (apply hin; left; reflexivity).
  pose proof (h1 top htop) as okt. split; [apply okt|]. split; [apply okt|]. split; [exact htop|]. split.
  { intros n hn. apply hin in hn as [<-|hn].
    - apply leb_nlt. apply lt_irrefl.
    - inversion hd as [|? ? _ hf]; subst. rewrite Forall_forall in hf. apply hf in hn. apply leb_nlt. apply lt_asym. exact hn. }
  split; [exact hx|].
  intros c k df hc hr hmax. apply hrl. assert (hc' := hc). apply hin in hc'. apply in_split in hc' as (c1 & c2 & hc').
  exists c1, c, c2, df. split; [exact hc'|]. split; [apply records_recorded; auto|]. split; [reflexivity|].
  intros n hn. destruct (recorded n k) as [df'|] eqn:Er; [|reflexivity]. exfalso.
  assert (hnc : In n cur) by (apply hin; rewrite hc'; apply in_or_app; left; exact hn).
  apply records_recorded in Er; [|auto]. specialize (hmax n df' hnc Er). apply leb_nlt in hmax. apply hmax.
  rewrite hc' in hd. clear - hd hn. induction c1 as [|y c1 IH]; [destruct hn|]. inversion hd as [|? ? hd' hf]; subst.
  destruct hn as [->|hn]; [|auto]. rewrite Forall_forall in hf. apply hf. apply in_or_app. right. left. reflexivity.
Qed.

Definition hi_rec (cur : list msg) (c : msg) (k : shash) : Prop :=
  forall n df', In n cur -> records n k df' -> leb (m_sh n) (m_sh c) = true.
(** C20: the highest change that does not leave the field alone decides *)
Lemma resolve_assign E mx cur m c k df p s : curs E cur -> resolve E mx cur = Ok m -> p <> [] ->
  In c cur -> records c k df -> hi_rec cur c k ->
  assigns p df (m_data c) = Some s ->
  (forall c' k' df', In c' cur -> records c' k' df' -> lt k k' -> leaves_alone p df' (m_data c')) ->
  get_path p (m_data m) = Some (VScal s).
Proof.
  intros hc hr hp hin hrec hmax has hun. apply resolve_inv in hr as (top & rest & d & s' & hs & hrun & _ & _ & ->). cbn [m_data].
  destruct (curs_facts _ _ _ _ hc hs) as (f1 & f2 & f3 & f4 & f5 & f6 & f7 & f8).
  assert (hwd : wf d = true) by (eapply run_replay_wf; [exact f2|exact f3|exact hrun]).
  apply get_path_prune_scal; [exact hp|exact hwd|].
  apply (run_replay_last p _ k (m_data c) df _ d (fun v => v = Some (VScal s)) hp f1 f2 f3 hrun).
  - apply f8; auto.
  - intros k' src' df' hk' hlt. apply f7 in hk' as (n & df2 & hn & hr2 & he). injection he as -> ->. eapply hun; eauto.
  - intros x x' hx hx'. eapply apply_diff_assigns; [exact hx| |exact hx'|exact has].
    specialize (f8 c k df hin hrec hmax). apply lookup_In in f8. apply f2 in f8. apply f8.
Qed.
Lemma resolve_remove E mx cur m c k df p : curs E cur -> resolve E mx cur = Ok m -> p <> [] ->
  In c cur -> records c k df -> hi_rec cur c k ->
  removes p df (m_data c) = true ->
  (forall c' k' df', In c' cur -> records c' k' df' -> lt k k' -> leaves_alone p df' (m_data c')) ->
  get_path p (m_data m) = None.
Proof.
  intros hc hr hp hin hrec hmax has hun. apply resolve_inv in hr as (top & rest & d & s' & hs & hrun & _ & _ & ->). cbn [m_data].
  destruct (curs_facts _ _ _ _ hc hs) as (f1 & f2 & f3 & f4 & f5 & f6 & f7 & f8).
  assert (hwd : wf d = true) by (eapply run_replay_wf; [exact f2|exact f3|exact hrun]).
  apply get_path_prune_none; [exact hp|exact hwd|].
  apply (run_replay_last p _ k (m_data c) df _ d (fun v => v = None) hp f1 f2 f3 hrun).
  - apply f8; auto.
  - intros k' src' df' hk' hlt. apply f7 in hk' as (n & df2 & hn & hr2 & he). injection he as -> ->. eapply hun; eauto.
  - intros x x' hx hx'. eapply apply_diff_removes; [exact hx| |exact hx'|exact has].
    specialize (f8 c k df hin hrec hmax). apply lookup_In in f8. apply f2 in f8. apply f8.
Qed.
Lemma get_path_full p d v : p <> [] -> pruned d = true -> get_path p d = Some v -> full_v v = true.
Proof.
  revert d; induction p as [|k p IH]; [congruence|]. intros d _ hp. destruct p as [|k2 p2]; [apply pruned_lookup, hp|].
  rewrite get_path_cons by congruence. destruct (lookup k d) as [[s|l|d1]|] eqn:Ek; try discriminate.
  apply IH; [congruence|]. pose proof (pruned_lookup _ _ _ hp Ek) as h. apply full_v_dict in h. apply h.
Qed.
Lemma resolve_untouched E mx cur m p : curs E cur -> resolve E mx cur = Ok m -> p <> [] ->
  (forall c' k' df', In c' cur -> records c' k' df' -> leaves_alone p df' (m_data c')) ->
  exists top, In top cur /\ (forall n, In n cur -> leb (m_sh n) (m_sh top) = true) /\
    get_path p (m_data m) = get_path p (m_data top).
Proof.
  intros hc hr hp hun. apply resolve_inv in hr as (top & rest & d & s' & hs & hrun & _ & _ & ->). cbn [m_data].
  destruct (curs_facts _ _ _ _ hc hs) as (f1 & f2 & f3 & f4 & f5 & f6 & f7 & f8).
  assert (hwd : wf d = true) by (eapply run_replay_wf; [exact f2|exact f3|exact hrun]).
  exists top. split; [exact f5|]. split; [exact f6|]. rewrite get_path_prune by assumption.
  rewrite (run_replay_frame p _ hp _ _ f2 f3 hrun).
  - destruct (get_path p (m_data top)) as [v|] eqn:Ev; [|reflexivity].
    pose proof (get_path_full _ _ _ hp f4 Ev) as hv. destruct (prune_v v) as [v' [e ch]] eqn:Epr.
    pose proof (prune_v_spec _ _ _ _ Epr) as (_ & _ & _ & _ & h & _). destruct (h hv) as (hv1 & hv2 & _). rewrite hv1, hv2. reflexivity.
  - intros k src df hin. apply (In_lookup _ _ _ f1) in hin. apply f7 in hin as (n & df2 & hn & hr2 & he). injection he as -> ->.
    eapply hun; eauto.
Qed.
Lemma resolve_elem E mx cur m c k df p x y : curs E cur -> resolve E mx cur = Ok m -> p <> [] ->
  In c cur -> records c k df -> hi_rec cur c k ->
  says_elem p x df (m_data c) = Some (Some y) ->
  (forall c' k' df', In c' cur -> records c' k' df' -> lt k k' -> says_elem p x df' (m_data c') = Some None) ->
  has_elem p x (m_data m) = y.
Proof.
  intros hc hr hp hin hrec hmax has hun. apply resolve_inv in hr as (top & rest & d & s' & hs & hrun & _ & _ & ->). cbn [m_data].
  destruct (curs_facts _ _ _ _ hc hs) as (f1 & f2 & f3 & f4 & f5 & f6 & f7 & f8).
  assert (hwd : wf d = true) by (eapply run_replay_wf; [exact f2|exact f3|exact hrun]).
  rewrite has_elem_prune by assumption.
  apply (run_replay_elem_last p x _ k (m_data c) df _ d y f1 f2 f3 hrun); [apply f8; auto| |exact has].
  intros k' src' df' hk' hlt. apply f7 in hk' as (n & df2 & hn & hr2 & he). injection he as -> ->. eapply hun; eauto.
Qed.

(** the kept messages are the reconciled ones *)
Lemma reconciled_kept E ms c : good E ms -> ms <> [] -> (reconciled E ms c <-> In c (kept E ms)).
Proof.
  intros hg hne. rewrite kept_In by exact hg. unfold reconciled.
  assert (h1 : included ms c = false <-> forall m2, In m2 ms -> ~ In (m_sh c) (keys (m_lagged m2))).
  { rewrite <- Bool.not_true_iff_false. rewrite included_In. split.
    - intros h m2 hm hk. apply h. eauto.
    - intros h (m2 & hm & hk). eapply h; eauto. }
  assert (h2 : too_old E ms c = false <-> forall m2, In m2 ms -> (m_seqno m2 < m_seqno c + e_lag E)%Z).
  { unfold too_old. rewrite Z.leb_gt. split.
    - intros h m2 hm. apply max_seqno_ge in hm. lia.
    - intros h. destruct (max_seqno_in ms hne) as (m2 & hm & ->); [|apply h, hm]. intros m hm. apply (g_ok _ _ hg m hm). }
  rewrite h1, h2. tauto.
Qed.
Lemma kept_curs E ms : good E ms -> curs E (kept E ms).
Proof.
  intros hg. split.
  - intros m hm. apply kept_In in hm as [hm _]; [|exact hg]. apply (g_ok _ _ hg m hm).
  - apply kept_NoDup, hg.
  - intros m n hm hn hk. apply kept_In in hm as (hm & hi & _); [|exact hg]. apply kept_In in hn as (hn & _); [|exact hg].
    assert (included ms m = true) by (apply included_In; eauto). congruence.
Qed.
(** a merge that is a real conflict resolution *)
Lemma merge_parsed_conflict E ms m : good E ms -> merge_parsed E ms = Ok m -> m_unmerged m = None ->
  read_only E = false /\ (exists a c r, kept E ms = a :: c :: r) /\ ms <> [] /\ no_overflow E ms /\
  resolve E (max_seqno ms) (kept E ms) = Ok m.
Proof.
  intros hg h hu. assert (hne : ms <> []) by (intros ->; discriminate).
  pose proof (no_overflow_ok _ _ _ hne h) as hno.
  destruct (kept E ms) as [|a [|c r]] eqn:Ek.
  - exfalso. unfold merge_parsed in h. destruct ms as [|x ms]; [congruence|].
    destruct (existsb _ (x :: ms)); [discriminate|]. unfold kept in Ek.
    apply map_eq_nil in Ek. rewrite Ek in h. discriminate.
  - destruct (merge_parsed_one _ _ _ Ek hno hne) as [i hi]. rewrite hi in h. injection h as <-. discriminate.
  - destruct (read_only E) eqn:Ero.
    + destruct (merge_parsed_ro _ _ _ _ _ Ek hno hg Ero) as (i & n & hi & _). rewrite hi in h. injection h as <-. discriminate.
    + rewrite (merge_parsed_many _ _ _ _ _ Ek hno Ero), Ek in h. repeat split; eauto.
Qed.
