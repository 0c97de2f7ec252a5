(** Re-delivery of messages that a published conflict resolution already includes. *)
From Verif Require Import Data_facts Diff_facts Bt_facts Message Message_facts Parse_facts Merge Merge_facts Spec Replay_facts Resolve_facts Wire_facts Reach_facts Round_facts.

Lemma increment_impl_seqno E m c : increment_impl E m = Ok c -> m_seqno (c_msg c) = (m_seqno m + 1)%Z /\ m_vsig (c_msg c) = m_vsig m.
Proof. unfold increment_impl. destruct (_ || _); [discriminate|]. intros h. injection h as <-. split; reflexivity. Qed.
Lemma refresh_frame c c' : refresh c = Ok c' -> m_sh (c_msg c') = m_sh (c_msg c) /\ m_lagged (c_msg c') = m_lagged (c_msg c) /\
  m_unknown (c_msg c') = m_unknown (c_msg c) /\ (m_vsig (c_msg c) = None -> m_vsig (c_msg c') = None).
Proof.
  destruct c as [m|m o]; cbn [refresh]; [intros h; injection h as <-; auto|]. destruct (diff o _); [|discriminate].
  intros h; injection h as <-. auto.
Qed.
Lemma serialize_refresh E c sg s c' : serialize E c sg = Ok (s, c') -> refresh c = Ok c'.
Proof. unfold serialize. intros h. ok_inv h. ok_inv h. injection h as <- <-. reflexivity. Qed.
Lemma derived_frame E c0 c : derived E c0 c ->
  (m_seqno (c_msg c0) <= m_seqno (c_msg c))%Z /\ (m_seqno (c_msg c) = m_seqno (c_msg c0) -> m_lagged (c_msg c) = m_lagged (c_msg c0)) /\
  (m_vsig (c_msg c0) = None -> m_vsig (c_msg c) = None).
Proof.
  intros h. induction h.
  - split; [lia|auto].
  - assert (hi : m_seqno (c_msg c') = (m_seqno (c_msg c) + 1)%Z /\ (m_vsig (c_msg c) = None -> m_vsig (c_msg c') = None)).
    { destruct c as [m|m o]; cbn [increment] in H.
      - apply increment_impl_seqno in H as [h1 h2]. cbn [c_msg]. split; [exact h1|congruence].
      - ok_inv H. destruct a as [s c1]. apply increment_impl_seqno in H as [h1 h2]. apply serialize_refresh in ha.
        apply refresh_frame in ha as (h3 & h4 & _ & h5). cbn [c_msg m_seqno m_sh fst m_vsig] in *. unfold m_seqno in *.
        split; [cbn [fst] in h1; congruence|]. intros hv. rewrite h2. auto. }
    destruct hi as [hi hv]. destruct IHh as (i1 & i2 & i3). split; [lia|]. split; [lia|auto].
  - destruct c; exact IHh.
  - exact IHh.
  - apply serialize_refresh, refresh_frame in H as (h1 & h2 & _ & h3). unfold m_seqno in *. rewrite h1, h2. intuition.
Qed.

Lemma merge_conflict_reach E l m bad c0 : no_collision E l -> merge_msgs E l = Ok (m, bad) -> m_unmerged m = None ->
  In c0 [Plain m; retain (Plain m); Mut m (m_data m)] -> reach E c0 /\ c_msg c0 = m.
Proof.
  intros hc h hu [<-|[<-|[<-|[]]]]; (split; [|reflexivity]).
  - eapply reach_merge; eassumption.
  - apply reach_retain. eapply reach_merge; eassumption.
  - eapply reach_merge_mutable; [exact hc|]. unfold merge_mutable. rewrite h. cbn [bind]. rewrite hu. reflexivity.
Qed.
Lemma parse_all_total E l l' i : (forall s, In s l' -> In s l \/ exists m, parse_msg E false s = Ok m) ->
  (exists r, parse_all E i l = Ok r) -> exists r, parse_all E i l' = Ok r.
Proof.
  intros hi h. apply parse_all_ok. intros s hs. destruct (hi s hs) as [hl|hm]; [|auto]. revert s hl hs. 
  intros s hl _. revert s hl. apply (parse_all_ok E l i). exact h.
Qed.
Lemma no_collision_incl E l l' : no_collision E l -> incl l' l -> no_collision E l'.
Proof. intros h hi s t hs ht. apply h; apply hi; assumption. Qed.

Lemma conflict_seqno E l m bad ms : no_collision E l -> merge_msgs E l = Ok (m, bad) -> m_unmerged m = None -> parse_all E 0 l = Ok (ms, bad) ->
  (forall x, In x ms -> (m_seqno x < m_seqno m)%Z) /\ exists x, In x ms /\ m_seqno m = (m_seqno x + 1)%Z.
Proof.
  intros hc h hu hp. apply merge_msgs_inv in h as (ms' & h1 & h2). rewrite hp in h1. injection h1 as <-.
  pose proof (parsed_good _ _ _ _ _ hc hp) as hg. destruct (merge_parsed_conflict _ _ _ hg h2 hu) as (_ & _ & hne & _ & hres).
  destruct (resolve_serialized _ _ _ _ hres) as (s2 & _ & hsh & _).
  assert (hmq : m_seqno m = (max_seqno ms + 1)%Z) by (unfold m_seqno; rewrite hsh; reflexivity). split.
  - intros x hx. apply max_seqno_ge in hx. lia.
  - destruct (max_seqno_in ms hne) as (x & hx & e); [intros y hy; apply (g_ok _ _ hg y hy)|]. exists x. split; [exact hx|lia].
Qed.
Lemma redelivery E l m bad ms c0 c s c' l' :
  hash32 E -> (1 <= e_lag E)%Z -> signer_ok E -> no_collision E (s :: l) ->
  merge_msgs E l = Ok (m, bad) -> m_unmerged m = None -> parse_all E 0 l = Ok (ms, bad) -> consistent E ms ->
  int64_ok (m_seqno m + e_lag E) = true ->
  In c0 [Plain m; retain (Plain m); Mut m (m_data m)] -> derived E c0 c -> m_seqno (c_msg c) = m_seqno m ->
  serialize E c true = Ok (s, c') ->
  In s l' -> incl l' (s :: l) ->
  exists M i bad', parse_msg E false s = Ok M /\ same_content E (c_msg c') M /\ merge_msgs E l' = Ok (set_unmerged (Some i) M, bad').
Proof.
  intros h32 hlag hsg hnc hm hu hp hcons hov hc0 hd hq hser hs hl'.
  assert (hncl : no_collision E l) by (eapply no_collision_incl; [exact hnc|intros x hx; right; exact hx]).
  destruct (merge_conflict_reach _ _ _ _ _ hncl hm hu hc0) as [hr0 hcm].
  pose proof (derived_reach _ _ _ hr0 hd) as hr. destruct (derived_frame _ _ _ hd) as (_ & f2 & f3). rewrite hcm in *.
  pose proof hm as hm2. apply merge_msgs_inv in hm2 as (ms' & h1 & h2). rewrite hp in h1. injection h1 as <-.
  pose proof (parsed_good _ _ _ _ _ hncl hp) as hg. destruct (merge_parsed_conflict _ _ _ hg h2 hu) as (hro & _ & hne & _ & hres).
  destruct (resolve_serialized _ _ _ _ hres) as (s2 & _ & hsh & _ & hvs & _).
  pose proof (serialize_refresh _ _ _ _ _ hser) as href. apply refresh_frame in href as (r1 & r2 & _ & r3).
  destruct (publish_roundtrip _ _ _ _ h32 hlag hsg hro hr hser (r3 (f3 hvs))) as (M & hpM & hsc & _).
  exists M.
  destruct (parse_all_total E l l' 0) as [[msl badl] hpl].
  { intros x hx. destruct (hl' x hx) as [<-|hx']; [right; eauto|auto]. }
  { eauto. }
  pose proof (no_collision_incl _ _ _ hnc hl') as hncl'.
  pose proof (parsed_good _ _ _ _ _ hncl' hpl) as hgl.
  assert (hMs : m_seqno M = m_seqno m).
  { destruct hsc as (e & _). rewrite e. unfold m_seqno in *. rewrite r1. exact hq. }
  assert (hMl : m_lagged M = windowed E m).
  { destruct hsc as (_ & _ & _ & _ & e). rewrite e. unfold windowed. rewrite r2. rewrite (f2 hq).
    assert (e2 : m_seqno (c_msg c') = m_seqno m) by (unfold m_seqno in *; rewrite r1; exact hq). rewrite e2. reflexivity. }
  assert (hMin : In M msl) by (apply (parse_all_spec _ _ _ _ _ hpl); eauto).
  assert (hsub : forall x, In x msl -> x <> M -> In x ms).
  { intros x hx hne'. apply (parse_all_spec _ _ _ _ _ hpl) in hx as (t & ht & hxt). destruct (hl' t ht) as [<-|ht']; [congruence|].
    apply (parse_all_spec _ _ _ _ _ hp). eauto. }
  destruct (resolved_supersedes E ms m M msl hg h2 hu hlag hov hMs hMl hgl hMin hsub) as [i hi].
  { intros x hx hne'. destruct (consistent_current E ms x hg hne hcons (hsub x hx hne')) as [h|[h|(m2 & h & h')]]; eauto 6. }
  exists i, badl. split; [exact hpM|]. split; [exact hsc|]. apply merge_msgs_inv. eauto.
Qed.
