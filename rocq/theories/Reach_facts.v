(** Invariant of message objects; round trips through serialise and parse. *)
From Verif Require Import Data_facts Diff_facts Bt_facts Message Message_facts Parse_facts Merge Merge_facts Spec Replay_facts Resolve_facts Wire_facts.

Record frame_ok (E : env) (m : msg) : Prop := {
  fr_seqno : int64_ok (m_seqno m) = true;
  fr_hash : length (snd (m_sh m)) = 32;
  fr_wf : wf (m_data m) = true;
  fr_send : sendable (m_data m);
  fr_diff : diff_ok (m_diff m);
  fr_lag_sorted : msorted (m_lagged m);
  fr_lag : Forall lag_ok (m_lagged m);
  fr_unk_sorted : msorted (m_unknown m);
  fr_unk : Forall (fun p => unknown_key (fst p) = true /\ str_ok (fst p) = true /\ bt_ok (snd p) = true) (m_unknown m);
  fr_sig : forall s, m_vsig m = Some s -> length s = 64
}.
Definition cfg_ok (E : env) (c : config) : Prop :=
  match c with
  | Plain m => frame_ok E m /\ pruned (m_data m) = true
  | Mut m orig => frame_ok E m /\ wf orig = true /\ pruned orig = true /\ sendable orig
  end.
Lemma frame_of_ok E m : msg_ok E m -> length (snd (m_sh m)) = 32 -> frame_ok E m.
Proof. intros [] h. split; assumption. Qed.
Lemma ok_of_frame E m : frame_ok E m -> pruned (m_data m) = true -> (m_lagged m <> [] -> int64_ok (m_seqno m - e_lag E) = true) -> msg_ok E m.
Proof. intros [] h1 h2. split; assumption. Qed.
Lemma serialize_range E m df sg s : serialize_impl E m df sg = Ok s -> m_lagged m <> [] -> int64_ok (m_seqno m - e_lag E) = true.
Proof.
  unfold serialize_impl. intros h hne. destruct (m_lagged m); [congruence|]. cbn [is_nil negb andb] in h.
  destruct (int64_ok (m_seqno m - e_lag E)); [reflexivity|discriminate].
Qed.

Lemma refresh_ok E c c' : cfg_ok E c -> refresh c = Ok c' ->
  cfg_ok E c' /\ frame_ok E (c_msg c') /\ pruned (m_data (c_msg c')) = true /\ m_sh (c_msg c') = m_sh (c_msg c) /\
  m_lagged (c_msg c') = m_lagged (c_msg c) /\ m_unknown (c_msg c') = m_unknown (c_msg c) /\
  m_data (c_msg c') = fst (prune (m_data (c_msg c))).
Proof.
  destruct c as [m|m orig]; cbn [refresh cfg_ok].
  - intros [h1 h2] h. injection h as <-. cbn [c_msg cfg_ok]. rewrite prune_id by exact h2. auto 10.
  - intros (h1 & h2 & h3 & h4). destruct (diff orig (fst (prune (m_data m)))) as [df|] eqn:Ed; [|discriminate].
    intros h. injection h as <-. cbn [c_msg cfg_ok m_sh m_lagged m_unknown m_data].
    assert (hf : frame_ok E (mkMsg (m_sh m) (fst (prune (m_data m))) df (m_lagged m) (m_unknown m) None (m_unmerged m))).
    { destruct h1. split; cbn [m_sh m_data m_diff m_lagged m_unknown m_vsig]; auto.
      - apply prune_wf; assumption.
      - apply prune_send; assumption.
      - apply (diff_diff_ok orig (fst (prune (m_data m)))); auto; [apply prune_wf; assumption|apply prune_send; assumption].
      - discriminate. }
    split; [auto|]. split; [exact hf|]. split; [apply prune_pruned|]. auto.
Qed.
Lemma refresh_no_ub E c : cfg_ok E c -> exists c', refresh c = Ok c'.
Proof.
  destruct c as [m|m orig]; cbn [refresh cfg_ok]; [eauto|]. intros (h1 & h2 & h3 & h4).
  destruct (diff_Some orig (fst (prune (m_data m))) h3 (prune_pruned _)) as [df ->]. eauto.
Qed.
Lemma serialize_ok E c sg s c' : cfg_ok E c -> serialize E c sg = Ok (s, c') ->
  cfg_ok E c' /\ msg_ok E (c_msg c') /\ refresh c = Ok c' /\ serialize_impl E (c_msg c') (m_diff (c_msg c')) sg = Ok s.
Proof.
  intros hc h. unfold serialize in h. ok_inv h. ok_inv h. injection h as <- <-.
  destruct (refresh_ok _ _ _ hc ha) as (h1 & h2 & h3 & _). split; [exact h1|]. split; [|auto].
  apply ok_of_frame; [exact h2|exact h3|]. eapply serialize_range; exact ha0.
Qed.

Lemma drop_old_suffix bound l : exists p, l = p ++ drop_old bound l.
Proof.
  induction l as [|[s d] l [p IH]]; [exists []; reflexivity|]. cbn [drop_old]. destruct (fst s <=? bound)%Z; [|exists []; reflexivity].
  exists ((s, d) :: p). cbn [app]. f_equal. exact IH.
Qed.
Lemma drop_new_prefix bound l : exists q, l = drop_new bound l ++ q.
Proof.
  induction l as [|[s d] l [q IH]]; [exists []; reflexivity|]. cbn [drop_new]. destruct (drop_new bound l) as [|x r] eqn:E.
  - destruct (fst s >=? bound)%Z; [exists ((s, d) :: l); reflexivity|exists l; reflexivity].
  - exists q. cbn [app]. f_equal. exact IH.
Qed.
Lemma Forall_emplace {K V} `{CmpLaws K} (P : K * V -> Prop) k v m : msorted m -> Forall P m -> P (k, v) -> Forall P (emplace k v m).
Proof.
  intros hs hf hp. apply Forall_forall. intros [k' v'] hin. apply (In_lookup _ _ _ (msorted_emplace _ _ _ hs)) in hin.
  rewrite lookup_emplace in hin by exact hs. rewrite Forall_forall in hf.
  destruct (lookup k' m) eqn:E; [injection hin as ->; apply hf, lookup_In, E|].
  destruct (eqb k' k) eqn:Ek; [|discriminate]. apply eqb_eq in Ek. injection hin as <-. subst. exact hp.
Qed.
Lemma dropped_ok m bound1 bound2 : msorted m -> Forall lag_ok m ->
  msorted (drop_new bound2 (drop_old bound1 m)) /\ Forall lag_ok (drop_new bound2 (drop_old bound1 m)) /\
  (forall p, In p (drop_new bound2 (drop_old bound1 m)) -> In p m).
Proof.
  intros h1 h2. destruct (drop_old_suffix bound1 m) as [p hp]. destruct (drop_new_prefix bound2 (drop_old bound1 m)) as [q hq].
  unfold msorted in *. rewrite hp, keys_app in h1. apply ssorted_app in h1 as (_ & h1 & _). rewrite hq, keys_app in h1. apply ssorted_app in h1 as (h1 & _).
  split; [exact h1|]. assert (hin : forall x, In x (drop_new bound2 (drop_old bound1 m)) -> In x m).
  { intros x hx. rewrite hp. apply in_or_app. right. rewrite hq. apply in_or_app. left. exact hx. }
  split; [|exact hin]. apply Forall_forall. intros x hx. rewrite Forall_forall in h2. auto.
Qed.
Lemma increment_impl_ok E m c : frame_ok E m -> pruned (m_data m) = true -> increment_impl E m = Ok c ->
  cfg_ok E c /\ m_seqno (c_msg c) = (m_seqno m + 1)%Z /\ m_unknown (c_msg c) = m_unknown m /\ m_data (c_msg c) = m_data m /\
  exists m' , c = Mut m' (m_data m).
Proof.
  intros hf hp. unfold increment_impl. destruct (int64_ok (m_seqno m + 1)) eqn:Ei; cbn [negb orb]; [|discriminate].
  destruct (negb (is_nil (m_lagged m)) && negb (int64_ok (m_seqno m - e_lag E))); [discriminate|]. intros h. injection h as <-.
  destruct hf. cbn [c_msg cfg_ok m_seqno m_sh fst m_unknown m_data]. 
  destruct (dropped_ok (m_lagged m) (m_seqno m - e_lag E) (m_seqno m) fr_lag_sorted0 fr_lag0) as (d1 & d2 & _).
  split; [|eauto 10]. split; [|auto]. split; cbn [m_seqno m_sh fst snd m_data m_diff m_lagged m_unknown m_vsig]; auto.
  - apply diff_ok_nil.
  - apply msorted_emplace, d1.
  - apply Forall_emplace; [exact d1|exact d2|]. split; [exact fr_seqno0|]. split; assumption.
Qed.
Lemma increment_ok E c c' : hash32 E -> cfg_ok E c -> increment E c = Ok c' ->
  cfg_ok E c' /\ m_seqno (c_msg c') = (m_seqno (c_msg c) + 1)%Z /\ m_unknown (c_msg c') = m_unknown (c_msg c) /\
  m_data (c_msg c') = fst (prune (m_data (c_msg c))) /\ exists m', c' = Mut m' (fst (prune (m_data (c_msg c)))).
Proof.
  intros h32 hc. destruct c as [m|m orig]; cbn [increment].
  - destruct hc as [h1 h2]. intros h. destruct (increment_impl_ok _ _ _ h1 h2 h) as (a1 & a2 & a3 & a4 & a5). cbn [c_msg].
    rewrite prune_id by exact h2. auto.
  - intros h. ok_inv h. destruct a as [s c1].
    destruct (serialize_ok _ _ _ _ _ hc ha) as (h1 & h2 & h3 & h4). destruct (refresh_ok _ _ _ hc h3) as (_ & h5 & h6 & h7 & h8 & h9 & h10).
    apply increment_impl_ok in h as (a1 & a2 & a3 & a4 & a5); cycle 1.
    { destruct h5. split; cbn [m_seqno m_sh fst snd m_data m_diff m_lagged m_unknown m_vsig]; auto. }
    { exact h6. }
    cbn [m_seqno m_sh fst m_unknown m_data] in *. rewrite <- h10, <- h9. unfold m_seqno in *. rewrite <- h7. auto 10.
Qed.

Lemma parse_frame E trust s m : hash32 E -> parse_msg E trust s = Ok m -> frame_ok E m /\ pruned (m_data m) = true.
Proof.
  intros h32 h. apply parse_msg_spec in h as (ok & _ & hh & _). split; [|apply ok]. apply frame_of_ok; [exact ok|]. rewrite hh. apply h32.
Qed.
Lemma frame_unmerged E i m : frame_ok E m -> frame_ok E (set_unmerged i m).
Proof. intros []. split; assumption. Qed.
Lemma merge_parsed_frame E ms m : hash32 E -> good E ms -> (forall c, In c ms -> length (snd (m_sh c)) = 32) -> (1 <= e_lag E)%Z ->
  merge_parsed E ms = Ok m -> frame_ok E m /\ pruned (m_data m) = true.
Proof.
  intros hE hg h32 hlag h. assert (hne : ms <> []) by (intros ->; discriminate).
  pose proof (no_overflow_ok _ _ _ hne h) as hno.
  assert (hin : forall c i, In c ms -> frame_ok E (set_unmerged i c) /\ pruned (m_data (set_unmerged i c)) = true).
  { intros c i hc. pose proof (g_ok _ _ hg c hc) as ok. split; [apply frame_unmerged, frame_of_ok; auto|apply ok]. }
  destruct (kept E ms) as [|a [|c r]] eqn:Ek.
  - exfalso. apply (kept_nonempty E ms hg hlag hne). exact Ek.
  - destruct (merge_parsed_one _ _ _ Ek hno hne) as [i hi]. rewrite hi in h. injection h as <-. apply hin.
    assert (In a (kept E ms)) as ha by (rewrite Ek; left; reflexivity). apply kept_In in ha; [apply ha|exact hg].
  - destruct (read_only E) eqn:Ero.
    + destruct (merge_parsed_ro _ _ _ _ _ Ek hno hg Ero) as (i & n & hi & hk & _). rewrite hi in h. injection h as <-. apply hin.
      apply kept_In in hk; [apply hk|exact hg].
    + rewrite (merge_parsed_many _ _ _ _ _ Ek hno Ero) in h.
      assert (ok : msg_ok E m).
      { eapply resolve_ok; [apply kept_curs, hg|exact h|]. intros c' hc'. apply kept_In in hc'; [|exact hg]. apply h32, hc'. }
      pose proof (resolve_serialized _ _ _ _ h) as (s & _ & hsh & _). split; [|apply ok]. apply frame_of_ok; [exact ok|].
      rewrite hsh. apply hE.
Qed.

Lemma merge_msgs_frame E l m bad : hash32 E -> (1 <= e_lag E)%Z -> no_collision E l -> merge_msgs E l = Ok (m, bad) ->
  frame_ok E m /\ pruned (m_data m) = true.
Proof.
  intros h32 hlag hnc h. apply merge_msgs_inv in h as (ms & h1 & h2). apply (merge_parsed_frame E ms m); auto.
  - eapply parsed_good; eassumption.
  - intros c hc. apply (parse_all_spec _ _ _ _ _ h1) in hc as (s & _ & hs).
    apply parse_msg_spec in hs as (_ & _ & -> & _). apply h32.
Qed.
Lemma reach_ok E c : hash32 E -> (1 <= e_lag E)%Z -> reach E c -> cfg_ok E c.
Proof.
  intros h32 hlag h. induction h.
  - split; [|reflexivity]. split; cbn; try reflexivity; try apply h32; try constructor; try discriminate; reflexivity.
  - eapply parse_frame; eassumption.
  - eapply merge_msgs_frame; eassumption.
  - unfold merge_mutable in H0. ok_inv H0. destruct a as [m b0]. destruct (merge_msgs_frame _ _ _ _ h32 hlag H ha) as [f1 f2].
    destruct (m_unmerged m).
    + ok_inv H0. injection H0 as <- <-. apply increment_impl_ok in ha0 as (a1 & _); auto.
    + injection H0 as <- <-. split; [exact f1|]. destruct f1. auto.
  - unfold mutable_of in H. ok_inv H. ok_inv H. destruct (parse_frame _ _ _ _ h32 ha) as [f1 f2].
    assert (hg : good E [a]).
    { split.
      - intros c' [<-|[]]. apply parse_msg_spec in ha. apply ha.
      - intros c' k [<-|[]] hk. apply parse_msg_spec in ha as (_ & hw & _). rewrite <- hw in hk. unfold windowed, keys in hk.
        apply in_map_iff in hk as (p & <- & hk). apply filter_In in hk as [_ hk]. apply in_window_spec in hk. apply hk.
      - intros c1 c2 [<-|[]] [<-|[]]. reflexivity. }
    destruct (merge_parsed_frame E [a] a0 h32 hg) as [g1 g2]; auto.
    { intros c' [<-|[]]. apply f1. }
    apply increment_impl_ok in H as (a1 & _); auto.
  - eapply increment_ok; eassumption.
  - destruct c as [m|m o]; [|exact IHh]. destruct IHh as [f1 f2]. repeat split; try reflexivity; apply f1.
  - destruct IHh as (f1 & f2). split; [|exact f2]. destruct f1. split; assumption.
  - eapply serialize_ok; eassumption.
Qed.
