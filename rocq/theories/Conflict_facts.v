(** What a merge does with unknown fields, and what the publisher of a resolution lists as its changes. *)
From Verif Require Import Data_facts Diff_facts Bt_facts Message Message_facts Parse_facts Merge Merge_facts Spec Wire_facts Reach_facts Round_facts Redeliver_facts Replay_facts Resolve_facts Adopt_facts Merge2_facts.

Lemma resolve_empty E mx cur m : resolve E mx cur = Ok m -> m_unknown m = [] /\ m_diff m = [] /\ m_vsig m = None.
Proof.
  unfold resolve. destruct (negb _); [discriminate|]. destruct (sort_desc cur) as [|top r]; [discriminate|]. cbv zeta. destruct (run_replay _ _); [|discriminate].
  intros h. ok_inv h. injection h as <-. auto.
Qed.
Lemma conflict_empty E l m bad : merge_msgs E l = Ok (m, bad) -> m_unmerged m = None ->
  m_unknown m = [] /\ m_diff m = [] /\ m_vsig m = None /\ read_only E = false.
Proof.
  intros h hu. apply merge_msgs_inv in h as (ms & _ & h). unfold merge_parsed in h. destruct ms as [|x0 l0]; [discriminate h|]. set (k := x0 :: l0) in *.
  destruct (existsb _ k); [discriminate h|]. cbv zeta in h. destruct (filter (fun p => negb (snd p)) (marked E k)) as [|p [|q r]]; [discriminate h| |].
  - destruct (first_current 0 (marked E k)) as [[j y]|]; [|discriminate h]. injection h as <-. discriminate hu.
  - destruct (read_only E).
    + destruct (marked E k) as [|p' r']; [discriminate h|]. destruct (max_elt 1 0 p' r') as [i y]. injection h as <-. discriminate hu.
    + apply resolve_empty in h as (a1 & a2 & a3). auto.
Qed.
(** the unknown fields of the adopted message survive *)
Lemma adopted_unknown E l m i c sg s' c' : hash32 E -> (1 <= e_lag E)%Z -> no_collision E l -> merge_msgs E l = Ok (m, []) -> m_unmerged m = Some i ->
  derived E (Plain m) c -> serialize E c sg = Ok (s', c') ->
  exists s d g d' g', nth_error l i = Some s /\ parse1 s = Some (BDict d, g) /\ parse1 s' = Some (BDict d', g') /\
    forall k, unknown_key k = true -> option_map norm (lookup k d') = option_map norm (lookup k d).
Proof.
  intros h32 hlag hnc hm hu hd hs. destruct (merge_msgs_index _ _ _ _ hm hu) as (s & x & hn & hx & he).
  assert (h0 : reach E (Plain m)) by (eapply reach_merge; eassumption). pose proof (derived_reach _ _ _ h0 hd) as hr.
  destruct (store_roundtrip _ _ _ _ _ h32 hlag hr hs) as (m' & hp' & (_ & _ & _ & hq & _) & _).
  assert (hd' : derived E (Plain m) c') by (eapply derived_serialize; eassumption).
  pose proof (derived_unknown _ _ _ h32 hlag h0 hd') as hu'. cbn [c_msg] in hu'.
  destruct (parse_msg_wire _ _ _ _ hx) as (d & g & ow). destruct (parse_msg_wire _ _ _ _ hp') as (d' & g' & ow').
  exists s, d, g, d', g'. split; [exact hn|]. split; [apply ow|]. split; [apply ow'|]. intros k hk.
  rewrite <- (ow_unknown _ _ _ _ _ ow _ hk), <- (ow_unknown _ _ _ _ _ ow' _ hk). rewrite hq, hu', he. reflexivity.
Qed.
(** a resolution never has any *)
Lemma conflict_unknown E l m bad c0 c sg s' c' : hash32 E -> (1 <= e_lag E)%Z -> no_collision E l -> merge_msgs E l = Ok (m, bad) -> m_unmerged m = None ->
  In c0 [Plain m; retain (Plain m); Mut m (m_data m)] -> derived E c0 c -> serialize E c sg = Ok (s', c') ->
  exists d' g', parse1 s' = Some (BDict d', g') /\ forall k, unknown_key k = true -> lookup k d' = None.
Proof.
  intros h32 hlag hnc hm hu hc hd hs. destruct (merge_conflict_reach _ _ _ _ _ hnc hm hu hc) as [h0 hcm]. pose proof (derived_reach _ _ _ h0 hd) as hr.
  destruct (store_roundtrip _ _ _ _ _ h32 hlag hr hs) as (m' & hp' & (_ & _ & _ & hq & _) & _).
  assert (hd' : derived E c0 c') by (eapply derived_serialize; eassumption).
  pose proof (derived_unknown _ _ _ h32 hlag h0 hd') as hu'. destruct (conflict_empty _ _ _ _ hm hu) as (he & _).
  destruct (parse_msg_wire _ _ _ _ hp') as (d' & g' & ow'). exists d', g'. split; [apply ow'|]. intros k hk.
  pose proof (ow_unknown _ _ _ _ _ ow' _ hk) as ho. rewrite hq, hu', hcm, he in ho. destruct (lookup k d'); [discriminate ho|reflexivity].
Qed.

(** ** the change set a resolver publishes *)
Lemma only_list_keys d : pruned d = true -> exists df, only_list true d = Some df /\ keys df = keys d.
Proof.
  induction d as [|[k x] r IH]; intros hp; [exists []; auto|]. apply pruned_cons in hp as [h1 h2].
  destruct (diff_only_Some true x h1) as [e he]. destruct (IH h2) as (df & hdf & hk). exists ((k, e) :: df). cbn [only_list]. rewrite he, hdf.
  split; [reflexivity|]. unfold keys in *. cbn [map fst]. rewrite hk. reflexivity.
Qed.
Lemma clean_changes E l m bad s c' : hash32 E -> (1 <= e_lag E)%Z -> signer_ok E -> no_collision E l -> merge_msgs E l = Ok (m, bad) -> m_unmerged m = None ->
  serialize E (retain (Plain m)) true = Ok (s, c') ->
  exists m', parse_msg E false s = Ok m' /\ m_data m' = m_data m /\ keys (m_diff m') = keys (m_data m).
Proof.
  intros h32 hlag hsg hnc hm hu hs. destruct (merge_conflict_reach E l m bad (retain (Plain m)) hnc hm hu) as [h0 _]; [cbn; tauto|].
  destruct (conflict_empty _ _ _ _ hm hu) as (_ & _ & _ & hro). destruct (merge_msgs_frame _ _ _ _ h32 hlag hnc hm) as [hf hp].
  assert (hc' : exists df, diff [] (m_data m) = Some df /\ c' = Mut (mkMsg (m_sh m) (m_data m) df (m_lagged m) (m_unknown m) None (m_unmerged m)) []).
  { unfold serialize, retain in hs. cbn [refresh] in hs. rewrite (prune_id _ hp) in hs. destruct (diff [] (m_data m)) as [df|]; [|discriminate hs]. cbn [bind] in hs.
    ok_inv hs. injection hs as _ <-. exists df. auto. }
  destruct hc' as (df & hdf & ->). destruct (publish_roundtrip _ _ _ _ h32 hlag hsg hro h0 hs eq_refl) as (m' & h1 & (_ & h2 & h3 & _) & _).
  exists m'. split; [exact h1|]. split; [exact h2|]. rewrite h3. cbn [c_msg m_diff]. rewrite diff_walk, walk_nil_new in hdf. destruct (only_list_keys _ hp) as (df' & e1 & e2). congruence.
Qed.
Lemma increment_unmerged E m c : increment_impl E m = Ok c -> m_unmerged (c_msg c) = m_unmerged m.
Proof. unfold increment_impl. cbv zeta. destruct (negb _ || _); [discriminate|]. intros h. injection h as <-. reflexivity. Qed.
Lemma dirty_changes E l c0 bad s c' : hash32 E -> (1 <= e_lag E)%Z -> signer_ok E -> no_collision E l -> merge_mutable E l = Ok (c0, bad) -> m_unmerged (c_msg c0) = None ->
  serialize E c0 true = Ok (s, c') ->
  exists m', parse_msg E false s = Ok m' /\ m_data m' = m_data (c_msg c0) /\ m_diff m' = [].
Proof.
  intros h32 hlag hsg hnc hm hu hs. pose proof (reach_merge_mutable E l c0 bad hnc hm) as h0. unfold merge_mutable in hm. ok_inv hm. destruct a as [m bd].
  assert (hc0 : c0 = Mut m (m_data m) /\ m_unmerged m = None).
  { destruct (m_unmerged m) as [i|] eqn:em; [|injection hm as <- <-; auto]. exfalso. ok_inv hm. injection hm as <- <-. apply increment_unmerged in ha0. congruence. }
  destruct hc0 as [-> hum]. clear hm hu. cbn [c_msg].
  destruct (conflict_empty _ _ _ _ ha hum) as (_ & _ & _ & hro). destruct (merge_msgs_frame _ _ _ _ h32 hlag hnc ha) as [hf hp].
  assert (hc' : c' = Mut (mkMsg (m_sh m) (m_data m) [] (m_lagged m) (m_unknown m) None (m_unmerged m)) (m_data m)).
  { unfold serialize in hs. cbn [refresh] in hs. rewrite (prune_id _ hp) in hs. rewrite (proj2 (diff_nil_iff _ _ (fr_wf _ _ hf) (fr_wf _ _ hf)) eq_refl) in hs. cbn [bind] in hs.
    ok_inv hs. injection hs as _ <-. reflexivity. }
  subst c'. destruct (publish_roundtrip _ _ _ _ h32 hlag hsg hro h0 hs eq_refl) as (m' & h1 & (_ & h2 & h3 & _) & _). exists m'. auto.
Qed.
