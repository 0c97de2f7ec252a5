(** Proofs of C95, part 1: one field, one change set, one merge. *)
From Verif Require Import FieldSpec Maps Data_facts Diff_facts Bt_facts Parse_facts Message_facts Wire_facts Round_facts Reach_facts Redeliver_facts Merge_facts Resolve_facts Conflict_facts Overflow_facts Replay_facts Merge2_facts Adopt_facts Crypt_facts Base_facts Dump_facts Life_facts Life2_facts Life3_facts Life4_facts Fields_facts Conf_facts Conf2_facts Conf3_facts Conf4_facts Conf5_facts Conf6_facts Converge_facts Plain_facts.
From Coq Require Import Lia Permutation.

(** ** applying a change set *)
Lemma shaped_nil p : shaped p [] = true. Proof. destruct p; reflexivity. Qed.
Lemma get_path_nil p : p <> [] -> get_path p [] = None. Proof. destruct p as [|k [|k2 p]]; [congruence|reflexivity|reflexivity]. Qed.
Lemma shaped_as k p d : p <> [] -> shaped (k :: p) d = true -> shaped p (as_dict (lookup k d)) = true.
Proof.
  intros hp h. cbn [shaped] in h. destruct (lookup k d) as [[s|l|sub]|]; cbn [as_dict]; try apply shaped_nil.
  apply andb_true_iff in h. apply h.
Qed.
Lemma shaped_here k p d : p <> [] -> shaped (k :: p) d = true -> lookup k d = None \/ exists sub, lookup k d = Some (VDict sub) /\ shaped p sub = true.
Proof.
  intros hp h. cbn [shaped] in h. destruct (lookup k d) as [[s|l|sub]|]; [destruct p; [congruence|discriminate]|discriminate| |auto].
  apply andb_true_iff in h as [_ h]. eauto.
Qed.
Lemma shaped_scalar k d : shaped [k] d = true -> lookup k d = None \/ exists s, lookup k d = Some (VScal s).
Proof. cbn. destruct (lookup k d) as [[s|l|sub]|]; try discriminate; eauto. Qed.
Lemma shaped_df_here k p df : p <> [] -> shaped_df (k :: p) df = true -> lookup k df = None \/ exists sub, lookup k df = Some (BDict sub) /\ shaped_df p sub = true.
Proof.
  intros hp h. cbn [shaped_df] in h. destruct (lookup k df) as [[z|s|l|sub]|]; try discriminate; auto.
  - destruct p; [congruence|]. rewrite andb_false_r in h. discriminate.
  - apply andb_true_iff in h as [_ h]. eauto.
Qed.
Lemma shaped_df_mark k df : shaped_df [k] df = true -> lookup k df = None \/ lookup k df = Some (BStr (b "")) \/ lookup k df = Some (BStr (b "-")).
Proof.
  cbn [shaped_df is_nil negb andb]. destruct (lookup k df) as [[z|s|l|sub]|]; try discriminate; auto.
  rewrite andb_true_r. intros h. apply orb_true_iff in h as [h|h]; apply eqb_eq in h; subst s; auto.
Qed.
Lemma apply_field p : p <> [] -> forall df src data d', wf data = true -> bt_ok (BDict df) = true -> shaped_df p df = true -> shaped p src = true ->
  apply_diff df src data = Some d' ->
  get_path p d' = match mentions p df with Some true => get_path p src | Some false => None | None => if agrees p df src then get_path p data else None end /\
  (agrees p df src = false -> get_path p src = None) /\ (shaped p data = true -> shaped p d' = true).
Proof.
  induction p as [|k p IH]; [congruence|]. intros _ df src data d' hw hb hf hs ha.
  apply bt_ok_dict in hb as [hsd hb]. pose proof (wf_sorted _ hw) as hm. destruct p as [|k2 p2].
  - split; [|split; [cbn [agrees]; destruct (lookup k df) as [[| | |]|]; discriminate|]].
    + destruct (shaped_df_mark _ _ hf) as [e|[e|e]]; cbn [mentions agrees is_nil get_path]; rewrite e.
      * exact (apply_diff_other _ _ _ _ _ hm ha e).
      * pose proof (apply_diff_here _ _ _ _ _ _ hm hsd ha e) as h. destruct (shaped_scalar _ _ hs) as [e2|(s & e2)]; rewrite e2 in *; cbn in h; injection h as <-; reflexivity.
      * pose proof (apply_diff_here _ _ _ _ _ _ hm hsd ha e) as h. destruct (shaped_scalar _ _ hs) as [e2|(s & e2)]; rewrite e2 in *; cbn in h; injection h as <-; reflexivity.
    + intros hda. cbn [shaped is_nil negb andb]. destruct (shaped_df_mark _ _ hf) as [e|[e|e]].
      * rewrite (apply_diff_other _ _ _ _ _ hm ha e). exact hda.
      * pose proof (apply_diff_here _ _ _ _ _ _ hm hsd ha e) as h. destruct (shaped_scalar _ _ hs) as [e2|(s & e2)]; rewrite e2 in *; cbn in h; injection h as <-; reflexivity.
      * pose proof (apply_diff_here _ _ _ _ _ _ hm hsd ha e) as h. destruct (shaped_scalar _ _ hs) as [e2|(s & e2)]; rewrite e2 in *; cbn in h; injection h as <-; reflexivity.
  - assert (hne : k2 :: p2 <> []) by discriminate. destruct (shaped_df_here _ _ _ hne hf) as [e|(sub & e & hsub)]; remember (k2 :: p2) as q eqn:eq0; cbn [mentions agrees]; rewrite e.
    + pose proof (apply_diff_other _ _ _ _ _ hm ha e) as h. split; [rewrite (get_path_as k q d'), (get_path_as k q data) by exact hne; rewrite h; reflexivity|]. split; [discriminate|].
      intros hda. cbn [shaped]. rewrite h. exact hda.
    + assert (hbs : bt_ok (BDict sub) = true) by (apply lookup_In in e; apply (hb _ _ e)).
      pose proof (apply_diff_here _ _ _ _ _ _ hm hsd ha e) as h. rewrite (get_path_as k q d'), (get_path_as k q data), (get_path_as k q src) by exact hne.
      destruct (shaped_here _ _ _ hne hs) as [e2|(sd & e2 & hsd2)]; rewrite e2 in *.
      * cbn in h. injection h as h. rewrite <- h. cbn [as_dict]. rewrite !get_path_nil by exact hne. replace (match q with [] => true | _ => false end) with false by (rewrite eq0; reflexivity).
        split; [destruct (mentions q sub) as [[|]|]; reflexivity|]. split; [reflexivity|]. intros _. cbn [shaped]. rewrite <- h. reflexivity.
      * rewrite apply1_dict in h. destruct (apply_diff sub sd (as_dict (lookup k data))) as [d1|] eqn:E1; [|discriminate]. injection h as h. rewrite <- h. cbn [as_dict].
        replace (match q with [] => true | _ :: _ => agrees q sub sd end) with (agrees q sub sd) by (rewrite eq0; reflexivity).
        destruct (IH hne sub sd (as_dict (lookup k data)) d1 (as_dict_wf _ (wf_opt _ _ hw)) hbs hsub hsd2 E1) as (r1 & r2 & r3).
        split; [exact r1|]. split; [exact r2|]. intros hda. cbn [shaped]. rewrite <- h. rewrite (r3 (shaped_as _ _ _ hne hda)). rewrite eq0. reflexivity.
Qed.
Lemma shaped_prune p : forall d, wf d = true -> shaped p d = true -> shaped p (fst (prune d)) = true.
Proof.
  induction p as [|k p IH]; intros d hw h; [reflexivity|]. cbn [shaped] in *. rewrite lookup_prune by exact hw.
  destruct (lookup k d) as [[s|l|sub]|] eqn:e; try discriminate; [exact h| |reflexivity].
  apply andb_true_iff in h as [h1 h2]. rewrite prune_v_dict'. destruct (is_nil (fst (prune sub))); [reflexivity|]. rewrite h1. cbn [andb]. apply IH; [|exact h2].
  exact (wf_lookup _ _ _ hw e).
Qed.
Lemma shaped_get p d : p <> [] -> shaped p d = true -> get_path p d = None \/ exists s, get_path p d = Some (VScal s).
Proof.
  revert d; induction p as [|k p IH]; [congruence|]. intros d _ h. destruct p as [|k2 p2]; [exact (shaped_scalar _ _ h)|].
  rewrite get_path_as by discriminate. apply IH; [discriminate|]. apply shaped_as; [discriminate|exact h].
Qed.
Lemma get_prune p d : p <> [] -> wf d = true -> shaped p d = true -> get_path p (fst (prune d)) = get_path p d.
Proof.
  intros hp hw hs. destruct (shaped_get _ _ hp hs) as [e|(s & e)]; rewrite e; [apply get_path_prune_none|apply get_path_prune_scal]; assumption.
Qed.

(** ** the change set computed for two versions *)
Definition turned (v v' : option value) : option bool :=
  match v, v' with
  | None, None => None
  | Some (VScal x), Some (VScal y) => if eqb x y then None else Some true
  | _, Some _ => Some true
  | Some _, None => Some false
  end.
Lemma turned_None p d d' : p <> [] -> shaped p d = true -> shaped p d' = true -> (turned (get_path p d) (get_path p d') = None <-> get_path p d = get_path p d').
Proof.
  intros hp h h'. destruct (shaped_get _ _ hp h) as [->|(s & ->)], (shaped_get _ _ hp h') as [->|(s' & ->)]; cbn; try (split; congruence).
  destruct (eqb s s') eqn:e; [apply eqb_eq in e; subst; tauto|]. split; [discriminate|]. intros hx. injection hx as ->. rewrite eqb_refl in e. discriminate.
Qed.
Lemma turned_false v v' : turned v v' = Some false -> v' = None.
Proof. destruct v as [[| |]|], v' as [[| |]|]; cbn; try discriminate; auto. destruct (eqb _ _); discriminate. Qed.
Lemma keeps_nil p d : keeps p [] d = true. Proof. destruct p as [|k [|k2 p]]; reflexivity. Qed.
Lemma mentions_nil p : mentions p [] = None. Proof. destruct p; reflexivity. Qed.
Lemma walk_field p : p <> [] -> forall od nd df, wf od = true -> wf nd = true -> shaped p od = true -> shaped p nd = true -> walk od nd = Some df ->
  shaped_df p df = true /\ mentions p df = turned (get_path p od) (get_path p nd) /\ (keeps p od nd = true -> agrees p df nd = true).
Proof.
  induction p as [|k p IH]; [congruence|]. intros _ od nd df ho hn so sn h.
  destruct (walk_spec _ _ _ (wf_sorted _ ho) (wf_sorted _ hn) h) as [h1 h2]. specialize (h2 k). destruct p as [|k2 p2].
  - cbn [shaped_df mentions is_nil agrees get_path negb andb].
    destruct (shaped_scalar _ _ so) as [e|(s & e)], (shaped_scalar _ _ sn) as [e'|(s' & e')]; rewrite e, e' in *; cbn in h2; injection h2 as h2.
    + rewrite <- h2. auto.
    + rewrite <- h2. auto.
    + rewrite <- h2. auto.
    + cbn [turned]. destruct (eqb s s'); rewrite <- h2; auto.
  - assert (hne : k2 :: p2 <> []) by discriminate. rewrite (get_path_as k (k2 :: p2) od), (get_path_as k (k2 :: p2) nd) by exact hne. remember (k2 :: p2) as q eqn:eq0. cbn [shaped_df mentions agrees keeps].
    assert (hq : is_nil q = false) by (rewrite eq0; reflexivity).
    assert (go : forall od' nd' df', wf od' = true -> wf nd' = true -> shaped q od' = true -> shaped q nd' = true -> walk od' nd' = Some df' ->
      shaped_df q df' = true /\ mentions q df' = turned (get_path q od') (get_path q nd') /\ (keeps q od' nd' = true -> agrees q df' nd' = true)) by (apply IH; exact hne).
    destruct (shaped_here _ _ _ hne so) as [e|(od' & e & so')], (shaped_here _ _ _ hne sn) as [e'|(nd' & e' & sn')]; rewrite e, e' in *; cbn [as_dict].
    + cbn in h2. injection h2 as <-. rewrite !get_path_nil by exact hne. auto.
    + cbn [diff_entry] in h2. rewrite diff_only_dict, <- walk_nil_new in h2. destruct (walk [] nd') as [df'|] eqn:ew; [|discriminate].
      destruct (go [] nd' df' wf_nil (wf_lookup _ _ _ hn e') (shaped_nil _) sn' ew) as (g1 & g2 & g3). rewrite get_path_nil in * by exact hne.
      destruct df' as [|x df']; [discriminate|]. injection h2 as h2. rewrite <- h2, g1, hq. split; [reflexivity|]. split; [exact g2|]. intros _. rewrite eq0 in *. apply g3, keeps_nil.
    + cbn [diff_entry] in h2. rewrite diff_only_dict, <- walk_nil_old in h2. destruct (walk od' []) as [df'|] eqn:ew; [|discriminate].
      destruct (go od' [] df' (wf_lookup _ _ _ ho e) wf_nil so' (shaped_nil _) ew) as (g1 & g2 & g3). rewrite get_path_nil in * by exact hne.
      destruct df' as [|x df']; [discriminate|]. injection h2 as h2. rewrite <- h2, g1, hq. split; [reflexivity|]. split; [exact g2|]. rewrite eq0. discriminate.
    + cbn [diff_entry] in h2. rewrite diff_v_dict in h2. destruct (walk od' nd') as [df'|] eqn:ew; [|discriminate].
      destruct (go od' nd' df' (wf_lookup _ _ _ ho e) (wf_lookup _ _ _ hn e') so' sn' ew) as (g1 & g2 & g3).
      destruct df' as [|x df']; injection h2 as h2; rewrite <- h2.
      * rewrite <- g2, mentions_nil. auto.
      * rewrite g1, hq. split; [reflexivity|]. split; [exact g2|]. rewrite eq0 in *. exact g3.
Qed.
Lemma diff_field p od nd df : p <> [] -> wf od = true -> wf nd = true -> shaped p od = true -> shaped p nd = true -> diff od nd = Some df ->
  shaped_df p df = true /\ mentions p df = turned (get_path p od) (get_path p nd) /\ (keeps p od nd = true -> agrees p df nd = true).
Proof. intros hp h1 h2 h3 h4 h. rewrite diff_walk in h. apply (walk_field p hp od nd df); assumption. Qed.

(** ** the last word *)
Lemma last_mention_quiet p (l : lagged_t) : (forall k df, In (k, df) l -> mentions p df = None) -> last_mention p l = None.
Proof.
  induction l as [|[k df] l IH]; intros h; [reflexivity|]. cbn [last_mention]. rewrite IH by (intros k' df' hin; apply (h k'); right; exact hin). apply (h k). left. reflexivity.
Qed.
Lemma last_mention_at p (l1 l2 : lagged_t) k df x : mentions p df = Some x -> (forall k' df', In (k', df') l2 -> mentions p df' = None) -> last_mention p (l1 ++ (k, df) :: l2) = Some x.
Proof.
  intros hx hq. induction l1 as [|[k1 df1] l1 IH]; cbn [app last_mention]; [rewrite (last_mention_quiet _ _ hq); exact hx|]. rewrite IH. reflexivity.
Qed.
Lemma last_mention_sorted p (l : lagged_t) k df x : msorted l -> lookup k l = Some df -> mentions p df = Some x ->
  (forall k' df', lookup k' l = Some df' -> lt k k' -> mentions p df' = None) -> last_mention p l = Some x.
Proof.
  intros hs hl hx hq. pose proof (lookup_In _ _ _ hl) as hin. apply in_split in hin as (l1 & l2 & e). rewrite e. apply last_mention_at; [exact hx|].
  intros k' df' hin. assert (hin' : In (k', df') l) by (rewrite e; apply in_app_iff; right; right; exact hin). apply (hq k'); [apply In_lookup; [exact hs|exact hin']|].
  rewrite e in hs. clear - hs hin. induction l1 as [|[a c] l1 IH]; cbn [app] in hs; [|apply msorted_cons in hs as [hs _]; exact (IH hs)].
  apply msorted_cons in hs as [_ hf]. rewrite Forall_forall in hf. apply hf. apply in_map_iff. exists (k', df'). auto.
Qed.
Lemma filter_all {A} (f : A -> bool) l : (forall x, In x l -> f x = true) -> filter f l = l.
Proof. induction l as [|a l IH]; intros h; [reflexivity|]. cbn [filter]. rewrite (h a (or_introl eq_refl)), IH by (intros x hx; apply h; right; exact hx). reflexivity. Qed.
Lemma last_mention_tail p (f : shash * btdict -> bool) (l : lagged_t) : msorted l -> (forall a c, In a l -> In c l -> lt (fst a) (fst c) -> f a = true -> f c = true) ->
  forall x, last_mention p (filter f l) = Some x -> last_mention p l = Some x.
Proof.
  induction l as [|[k df] l IH]; intros hs hf x; [auto|]. pose proof hs as hs'. apply msorted_cons in hs as [hs hlt]. cbn [filter]. destruct (f (k, df)) eqn:ef.
  - assert (e : filter f l = l).
    { apply filter_all. intros [k' df'] hin. apply (hf (k, df)); [left; reflexivity|right; exact hin| |exact ef].
      rewrite Forall_forall in hlt. apply hlt. apply in_map_iff. exists (k', df'). auto. }
    rewrite e. auto.
  - intros hx. cbn [last_mention]. rewrite (IH hs ltac:(intros a c ha hc; apply hf; right; assumption) x hx). reflexivity.
Qed.

(** ** replaying *)
Definition shaped_rp (p : list bytes) (rp : replay_t) : Prop := forall k src df, In (k, (src, df)) rp -> shaped p src = true /\ shaped_df p df = true.
Lemma replay_quiet p rp : p <> [] -> forall data d, rp_ok rp -> shaped_rp p rp -> wf data = true -> run_replay rp data = Some d ->
  (forall k src df, In (k, (src, df)) rp -> mentions p df = None) ->
  (get_path p d = get_path p data \/ (get_path p d = None /\ exists k src df, In (k, (src, df)) rp /\ get_path p src = None)) /\
  ((forall k src df, In (k, (src, df)) rp -> agrees p df src = true) -> get_path p d = get_path p data) /\
  (shaped p data = true -> shaped p d = true).
Proof.
  intros hp. induction rp as [|[k [src df]] rp IH]; intros data d hok hsh hw hr hq; cbn [run_replay] in hr.
  - injection hr as <-. auto.
  - apply rp_ok_cons in hok as (h1 & h2 & h3). destruct (apply_diff df src data) as [d1|] eqn:e; [|discriminate].
    destruct (hsh k src df (or_introl eq_refl)) as [s1 s2].
    destruct (apply_field p hp df src data d1 hw h2 s2 s1 e) as (f1 & f2 & f3). rewrite (hq k src df (or_introl eq_refl)) in f1.
    destruct (IH d1 d h3 (fun k' s' d' hin => hsh k' s' d' (or_intror hin)) (apply_diff_wf _ _ _ _ hw h1 e) hr (fun k' s' d' hin => hq k' s' d' (or_intror hin))) as (g1 & g2 & g3).
    split; [|split].
    + destruct g1 as [g1|(g1 & k' & src' & df' & hin & hn)]; [|right; split; [exact g1|]; exists k', src', df'; split; [right; exact hin|exact hn]].
      rewrite g1, f1. destruct (agrees p df src) eqn:ea; [auto|]. right. split; [reflexivity|]. exists k, src, df. split; [left; reflexivity|auto].
    + intros ha. rewrite g2 by (intros k' s' d' hin; apply (ha k'); right; exact hin). rewrite f1, (ha k src df (or_introl eq_refl)). reflexivity.
    + auto.
Qed.
Lemma replay_split p (rp : replay_t) : (forall k src df, In (k, (src, df)) rp -> mentions p df = None) \/
  exists r1 k src df r2 x, rp = r1 ++ (k, (src, df)) :: r2 /\ mentions p df = Some x /\ forall k' s' d', In (k', (s', d')) r2 -> mentions p d' = None.
Proof.
  induction rp as [|[k [src df]] rp IH]; [left; intros k src df []|].
  destruct IH as [IH|(r1 & k1 & s1 & d1 & r2 & x & -> & h1 & h2)].
  - destruct (mentions p df) as [x|] eqn:e; [right; exists [], k, src, df, rp, x; auto|]. left. intros k' s' d' [h|h]; [injection h as <- <- <-; exact e|eauto].
  - right. exists ((k, (src, df)) :: r1), k1, s1, d1, r2, x. auto.
Qed.
Lemma replay_shaped p rp : p <> [] -> forall data d, rp_ok rp -> shaped_rp p rp -> wf data = true -> run_replay rp data = Some d -> shaped p data = true -> shaped p d = true.
Proof.
  intros hp. induction rp as [|[k [src df]] rp IH]; intros data d hok hsh hw hr hd; cbn [run_replay] in hr; [injection hr as <-; exact hd|].
  apply rp_ok_cons in hok as (h1 & h2 & h3). destruct (apply_diff df src data) as [d1|] eqn:e; [|discriminate]. destruct (hsh k src df (or_introl eq_refl)) as [s1 s2].
  destruct (apply_field p hp df src data d1 hw h2 s2 s1 e) as (_ & _ & f3).
  apply (IH d1 d h3 (fun k' s' d' hin => hsh k' s' d' (or_intror hin)) (apply_diff_wf _ _ _ _ hw h1 e) hr (f3 hd)).
Qed.
(** the last change set that mentions the field decides, unless a later one breaks a container *)
Lemma replay_last p r1 k src df r2 x data d : p <> [] -> rp_ok (r1 ++ (k, (src, df)) :: r2) -> shaped_rp p (r1 ++ (k, (src, df)) :: r2) -> wf data = true ->
  run_replay (r1 ++ (k, (src, df)) :: r2) data = Some d -> mentions p df = Some x -> (forall k' s' d', In (k', (s', d')) r2 -> mentions p d' = None) ->
  (get_path p d = (if x then get_path p src else None) \/ (get_path p d = None /\ exists k' s' d', In (k', (s', d')) r2 /\ get_path p s' = None)) /\
  ((forall k' s' d', In (k', (s', d')) r2 -> agrees p d' s' = true) -> get_path p d = (if x then get_path p src else None)).
Proof.
  intros hp hok hsh hw hr hx hq.
  assert (ok1 : rp_ok r1) by (intros k' s' d' hin; apply (hok k'); apply in_app_iff; left; exact hin).
  assert (okc : rp_ok ((k, (src, df)) :: r2)) by (intros k' s' d' hin; apply (hok k'); apply in_app_iff; right; exact hin).
  rewrite run_replay_app in hr. destruct (run_replay r1 data) as [d1|] eqn:e1; [|discriminate]. pose proof (run_replay_wf _ _ _ ok1 hw e1) as hw1.
  cbn [run_replay] in hr. destruct (apply_diff df src d1) as [d2|] eqn:e2; [|discriminate]. apply rp_ok_cons in okc as (h1 & h2 & h3).
  destruct (hsh k src df) as [s1 s2]; [apply in_app_iff; right; left; reflexivity|].
  destruct (apply_field p hp df src d1 d2 hw1 h2 s2 s1 e2) as (f1 & _ & _). rewrite hx in f1.
  destruct (replay_quiet p r2 hp d2 d h3) as (g1 & g2 & _); [intros k' s' d' hin; apply (hsh k'); apply in_app_iff; right; right; exact hin|exact (apply_diff_wf _ _ _ _ hw1 h1 e2)|exact hr|exact hq|].
  rewrite f1 in *. destruct x; auto.
Qed.

(** ** merging orderly messages *)
Lemma records_shaped p c k df : orderly p c -> records c k df -> shaped_df p df = true.
Proof. intros h [[_ ->]|hr]; [apply h|]. apply lookup_In in hr. apply (or_lag _ _ h _ _ hr). Qed.
Lemma records_seqno p c k df : orderly p c -> records c k df -> (fst k <= m_seqno c)%Z.
Proof. intros h [[-> _]|hr]; [unfold m_seqno; lia|]. apply lookup_In in hr. pose proof (proj1 (or_lag _ _ h _ _ hr)). lia. Qed.
Lemma resolve_orderly p E mx cur m : p <> [] -> curs E cur -> resolve E mx cur = Ok m -> (forall c, In c cur -> orderly p c /\ (m_seqno c <= mx)%Z) -> orderly p m.
Proof.
  intros hp hc hr ho. apply resolve_inv in hr as (top & rest & d & s' & hs & hrun & _ & _ & ->).
  destruct (curs_facts _ _ _ _ hc hs) as (f1 & f2 & f3 & f4 & f5 & f6 & f7 & f8). set (rp := replay_of (top :: rest)) in *.
  assert (hrec : forall k src df, In (k, (src, df)) rp -> exists n, In n cur /\ records n k df /\ src = m_data n).
  { intros k src df hin. apply (In_lookup _ _ _ f1) in hin. apply f7 in hin as (n & df' & hn & hr & e). injection e as -> ->. eauto. }
  assert (hsh : shaped_rp p rp).
  { intros k src df hin. destruct (hrec _ _ _ hin) as (n & hn & hr & ->). split; [apply (ho n hn)|]. eapply records_shaped; [apply (ho n hn)|exact hr]. }
  pose proof (run_replay_wf _ _ _ f2 f3 hrun) as hwd. pose proof (replay_shaped p rp hp _ _ f2 hsh f3 hrun (or_data _ _ (proj1 (ho top f5)))) as hsd.
  assert (hlast : last_mention p (map (fun q => (fst q, snd (snd q))) rp) = Some false -> get_path p d = None).
  { destruct (replay_split p rp) as [hq|(r1 & k & src & df & r2 & x & e & hx & hq)].
    - rewrite last_mention_quiet; [discriminate|]. intros k df hin. apply in_map_iff in hin as ([k' [src df']] & e & hin). injection e as -> ->. eauto.
    - rewrite e, map_app. cbn [map fst snd]. rewrite (last_mention_at p _ _ k df x hx).
      2: { intros k' df' hin. apply in_map_iff in hin as ([k2 [src2 df2]] & e2 & hin). injection e2 as -> ->. eauto. }
      intros ex. injection ex as ->. rewrite e in *. destruct (replay_last p _ _ _ _ _ _ _ _ hp f2 hsh f3 hrun hx hq) as ([h|(h & _)] & _); exact h. }
  split; cbn [m_data m_diff m_lagged].
  - apply shaped_prune; assumption.
  - destruct p; reflexivity.
  - intros k df hin. apply in_map_iff in hin as ([k' [src df']] & e & hin). injection e as -> ->. destruct (hrec _ _ _ hin) as (n & hn & hr & ->).
    split; [|apply (hsh _ _ _ hin)]. pose proof (records_seqno _ _ _ _ (proj1 (ho n hn)) hr). pose proof (proj2 (ho n hn)). unfold m_seqno at 1. cbn. lia.
  - rewrite mentions_nil. intros h. rewrite get_prune by assumption. auto.
Qed.
Lemma lt_seqno (a c : shash) : (fst a < fst c)%Z -> lt a c.
Proof. intros h. unfold lt, cmp, cmp_prod. destruct a as [a1 a2], c as [c1 c2]. cbn [fst snd] in *. unfold cmp at 1, cmp_Z. rewrite (proj2 (Z.compare_lt_iff a1 c1) h). reflexivity. Qed.
(** ** messages that all start from the same data and the same history *)
Record from_base (p : list bytes) (db : dict) (L : lagged_t) (N : Z) (c : msg) : Prop := {
  fb_shaped : shaped p (m_data c) = true;
  fb_lag : m_lagged c = L;
  fb_seqno : m_seqno c = N;
  fb_diff : diff db (m_data c) = Some (m_diff c)
}.
Lemma round_resolve p E mx cur m db L N : p <> [] -> curs E cur -> resolve E mx cur = Ok m -> wf db = true -> shaped p db = true ->
  (forall c, In c cur -> from_base p db L N c) -> (forall k df, In (k, df) L -> (fst k < N)%Z /\ shaped_df p df = true) ->
  (last_mention p L = Some false -> get_path p db = None) ->
  (exists c, In c cur /\ get_path p (m_data m) = get_path p (m_data c)) /\
  ((exists c, In c cur /\ get_path p (m_data c) <> get_path p db) ->
   (forall c, In c cur -> get_path p (m_data c) = get_path p db -> keeps p db (m_data c) = true) ->
   exists c, In c cur /\ get_path p (m_data c) <> get_path p db /\ get_path p (m_data m) = get_path p (m_data c)).
Proof.
  intros hp hc hr hwb hsb hfb hL hlm. pose proof hc as [hok hnd hself]. apply resolve_inv in hr as (top & rest & d & s' & hs & hrun & _ & _ & ->). cbn [m_data].
  destruct (curs_facts _ _ _ _ hc hs) as (f1 & f2 & f3 & f4 & f5 & f6 & f7 & f8). set (rp := replay_of (top :: rest)) in *.
  assert (hdf : forall c, In c cur -> shaped_df p (m_diff c) = true /\ mentions p (m_diff c) = turned (get_path p db) (get_path p (m_data c)) /\ (keeps p db (m_data c) = true -> agrees p (m_diff c) (m_data c) = true)).
  { intros c hin. destruct (hfb c hin) as [g1 g2 g3 g4]. apply (diff_field p db (m_data c)); auto. apply (hok c hin). }
  assert (hun : forall c, In c cur -> (mentions p (m_diff c) = None <-> get_path p (m_data c) = get_path p db)).
  { intros c hin. destruct (hdf c hin) as (_ & -> & _). rewrite turned_None; [split; congruence|exact hp|exact hsb|apply (hfb c hin)]. }
  assert (hrec : forall k src df, In (k, (src, df)) rp -> exists n, In n cur /\ src = m_data n /\ ((k = m_sh n /\ df = m_diff n) \/ lookup k L = Some df)).
  { intros k src df hin. apply (In_lookup _ _ _ f1) in hin. apply f7 in hin as (n & df' & hn & hr & e). injection e as -> ->. exists n. split; [exact hn|]. split; [reflexivity|].
    destruct hr as [hr|hr]; [auto|]. right. rewrite (fb_lag _ _ _ _ _ (hfb n hn)) in hr. exact hr. }
  assert (hown : forall c, In c cur -> lookup (m_sh c) rp = Some (m_data c, m_diff c)).
  { intros c hin. apply f8; [exact hin|left; auto|]. intros n df' hn [[e _]|e].
    - assert (n = c). { clear - hnd hn hin e. induction cur as [|a cur IH]; [destruct hn|]. cbn [map] in hnd. inversion hnd as [|x l h1 h2]; subst.
        destruct hn as [->|hn], hin as [->|hin]; auto; exfalso; apply h1; [rewrite <- e|rewrite e]; apply in_map; assumption. }
      subst n. apply leb_nlt, lt_irrefl.
    - exfalso. apply lookup_In in e. apply (hself c n hin hn). apply in_map_iff. exists (m_sh c, df'). auto. }
  assert (hlag : forall k df, lookup k L = Some df -> exists src, lookup k rp = Some (src, df)).
  { intros k df hk. exists (m_data top). apply f8; [exact f5|right; rewrite (fb_lag _ _ _ _ _ (hfb top f5)); exact hk|]. intros n df' hn _. exact (f6 n hn). }
  assert (hsh : shaped_rp p rp).
  { intros k src df hin. destruct (hrec _ _ _ hin) as (n & hn & -> & [[_ ->]|hl]); (split; [apply (hfb n hn)|]); [apply (hdf n hn)|]. apply lookup_In in hl. apply (hL _ _ hl). }
  pose proof (run_replay_wf _ _ _ f2 f3 hrun) as hwd. pose proof (replay_shaped p rp hp _ _ f2 hsh f3 hrun (fb_shaped _ _ _ _ _ (hfb top f5))) as hsd.
  rewrite get_prune by assumption.
  assert (hafter : forall r1 (k : shash) (v : dict * btdict) r2 k' v', rp = r1 ++ (k, v) :: r2 -> (In (k', v') r2 -> lt k k') /\ (In (k', v') rp -> lt k k' -> In (k', v') r2)).
  { intros r1 k v r2 k' v' e. rewrite e in f1. split.
    - clear - f1. induction r1 as [|[a a2] r1 IH]; cbn [app] in f1; [|apply msorted_cons in f1 as [f1 _]; exact (IH f1)]. apply msorted_cons in f1 as [_ hf]. rewrite Forall_forall in hf. intros hin. apply hf. apply in_map_iff. exists (k', v'). auto.
    - rewrite e. clear - f1. induction r1 as [|[a a2] r1 IH]; cbn [app] in f1; apply msorted_cons in f1 as [f1 hf]; rewrite Forall_forall in hf.
      + intros [h|h] hlt; [injection h as -> ->; exfalso; exact (lt_irrefl _ hlt)|exact h].
      + intros [h|h] hlt; [|exact (IH f1 h hlt)]. injection h as -> ->. exfalso. apply (lt_irrefl k). eapply lt_trans; [exact hlt|]. apply hf. apply in_map_iff. exists (k, v). split; [reflexivity|]. apply in_app_iff. right. left. reflexivity. }
  assert (hseq : forall a c : shash, (fst a < fst c)%Z -> lt a c).
  { exact lt_seqno. }
  assert (hcl : forall k' s' d' r1 k v r2, rp = r1 ++ (k, v) :: r2 -> In (k', (s', d')) r2 -> exists n, In n cur /\ s' = m_data n).
  { intros k' s0 d' r1 k v r2 e hin. destruct (hrec k' s0 d') as (n & hn & es & _); [rewrite e; apply in_app_iff; right; right; exact hin|]. eauto. }
  destruct (replay_split p rp) as [hq|(r1 & k & src & df & r2 & x & e & hx & hq)].
  - split.
    + destruct (replay_quiet p rp hp _ _ f2 hsh f3 hrun hq) as ([h|(h & k & src & df & hin & hn)] & _); [exists top; auto|]. destruct (hrec _ _ _ hin) as (n & hn' & -> & _). exists n. split; [exact hn'|congruence].
    + intros (c & hin & hch) _. exfalso. apply hch. apply (hun c hin). apply (hq (m_sh c) (m_data c)). apply lookup_In, hown, hin.
  - pose proof (fun q => replay_last p r1 k src df r2 x (m_data top) d hp (eq_rect _ _ f2 _ e) q f3) as hl. rewrite e in hsh, hrun. destruct (hl hsh hrun hx hq) as (l1 & l2). clear hl. rewrite <- e in hsh, hrun.
    assert (hin : In (k, (src, df)) rp) by (rewrite e; apply in_app_iff; right; left; reflexivity).
    destruct (hrec _ _ _ hin) as (n & hn & -> & hcase).
    assert (hquiet : forall c, In c cur -> lt k (m_sh c) -> mentions p (m_diff c) = None).
    { intros c hcin hlt. apply (hq (m_sh c) (m_data c)). apply (proj2 (hafter _ _ _ _ (m_sh c) (m_data c, m_diff c) e)); [apply lookup_In, hown, hcin|exact hlt]. }
    assert (hvn : k = m_sh n /\ df = m_diff n -> (if x then get_path p (m_data n) else None) = get_path p (m_data n) /\ get_path p (m_data n) <> get_path p db).
    { intros [_ ->]. split.
      - destruct x; [reflexivity|]. destruct (hdf n hn) as (_ & h & _). rewrite hx in h. symmetry in h. apply turned_false in h. congruence.
      - intros h. apply (hun n hn) in h. congruence. }
    split.
    + destruct hcase as [hcase|hcase].
      * destruct (hvn hcase) as [hv _]. rewrite hv in *. destruct l1 as [l1|(l1 & k' & s0 & d' & hin' & hno)]; [eauto|]. destruct (hcl _ _ _ _ _ _ _ e hin') as (n' & hn' & ->). exists n'. split; [exact hn'|congruence].
      * destruct x.
        -- destruct l1 as [l1|(l1 & k' & s0 & d' & hin' & hno)]; [eauto|]. destruct (hcl _ _ _ _ _ _ _ e hin') as (n' & hn' & ->). exists n'. split; [exact hn'|congruence].
        -- assert (hnone : get_path p d = None) by (destruct l1 as [l1|(l1 & _)]; exact l1). exists top. split; [exact f5|]. rewrite hnone.
           assert (hkN : (fst k < N)%Z) by (apply lookup_In in hcase; apply (hL _ _ hcase)).
           assert (hdb : get_path p db = None).
           { apply hlm. assert (hLs : msorted L) by (rewrite <- (fb_lag _ _ _ _ _ (hfb top f5)); apply (hok top f5)). apply (last_mention_sorted p L k df false hLs hcase hx).
             intros k' df' hk' hlt. destruct (hlag _ _ hk') as (src' & hrl). apply (hq k' src'). apply (proj2 (hafter _ _ _ _ k' (src', df') e)); [apply lookup_In, hrl|exact hlt]. }
           rewrite <- hdb. symmetry. apply (hun top f5). apply hquiet; [exact f5|]. apply hseq. rewrite <- (fb_seqno _ _ _ _ _ (hfb top f5)) in hkN. exact hkN.
    + intros (c & hcin & hch) hk.
      destruct hcase as [hcase|hcase].
      * destruct (hvn hcase) as [hv hne]. exists n. split; [exact hn|]. split; [exact hne|]. rewrite <- hv. apply l2. intros k' s0 d' hin'.
        destruct (hrec k' s0 d') as (n' & hn' & -> & hc'); [rewrite e; apply in_app_iff; right; right; exact hin'|]. destruct hc' as [[-> ->]|hc'].
        -- apply (hdf n' hn'). apply (hk n' hn'). apply (hun n' hn'). apply (hq (m_sh n') (m_data n')). exact hin'.
        -- exfalso. destruct hcase as [-> _]. pose proof (proj1 (hafter _ _ _ _ k' (m_data n', d') e) hin') as hlt. apply lookup_In in hc'. pose proof (proj1 (hL _ _ hc')) as hlN.
           rewrite <- (fb_seqno _ _ _ _ _ (hfb n hn)) in hlN. apply (lt_irrefl (m_sh n)). eapply lt_trans; [exact hlt|]. apply hseq. exact hlN.
      * exfalso. assert (hkN : (fst k < N)%Z) by (apply lookup_In in hcase; apply (hL _ _ hcase)). apply hch, (hun c hcin), hquiet; [exact hcin|]. apply hseq. rewrite <- (fb_seqno _ _ _ _ _ (hfb c hcin)) in hkN. exact hkN.
Qed.
