(** Small corollaries used by the property files. *)
From Verif Require Import Spec Data_facts Diff_facts Bt_facts Message_facts Parse_facts Merge_facts Replay_facts Resolve_facts Wire_facts Reach_facts Round_facts.

Lemma serialize_mut E m orig sg s c' : serialize E (Mut m orig) sg = Ok (s, c') ->
  exists df m', c' = Mut m' orig /\ diff orig (fst (prune (m_data m))) = Some df /\ m_data m' = fst (prune (m_data m)) /\ m_diff m' = df.
Proof.
  unfold serialize. cbn [refresh]. destruct (diff orig (fst (prune (m_data m)))) as [df|] eqn:Ed; [|discriminate]. cbn [bind].
  intros h. ok_inv h. injection h as <- <-. eexists. eexists. repeat split.
Qed.
Lemma published_diff_roundtrip E m orig sg s c' :
  hash32 E -> (1 <= e_lag E)%Z -> reach E (Mut m orig) -> serialize E (Mut m orig) sg = Ok (s, c') ->
  apply_diff (m_diff (c_msg c')) (m_data (c_msg c')) orig = Some (m_data (c_msg c')).
Proof.
  intros h32 hlag hr hs. apply (reach_ok _ _ h32 hlag) in hr as (h1 & h2 & _). apply serialize_mut in hs as (df & m' & -> & hd & e1 & e2).
  cbn [c_msg]. rewrite e1, e2. apply apply_diff_roundtrip; [exact h2|apply prune_wf, h1|exact hd].
Qed.
Lemma published_diff_empty E m orig sg s c' :
  hash32 E -> (1 <= e_lag E)%Z -> reach E (Mut m orig) -> serialize E (Mut m orig) sg = Ok (s, c') ->
  (m_diff (c_msg c') = [] <-> m_data (c_msg c') = orig).
Proof.
  intros h32 hlag hr hs. apply (reach_ok _ _ h32 hlag) in hr as (h1 & h2 & _). apply serialize_mut in hs as (df & m' & -> & hd & e1 & e2).
  cbn [c_msg]. rewrite e1, e2. pose proof (diff_nil_iff orig (fst (prune (m_data m))) h2 (prune_wf _ (fr_wf _ _ h1))) as hi. rewrite hd in hi.
  split; intros h.
  - symmetry. apply hi. rewrite h. reflexivity.
  - symmetry in h. apply hi in h. injection h as h. exact h.
Qed.
Lemma prune_exact d : wf d = true ->
  let d' := fst (prune d) in
  wf d' = true /\
  (forall p, p <> [] -> get_path p d' <> Some (VSet []) /\ get_path p d' <> Some (VDict [])) /\
  (forall p s, p <> [] -> get_path p d' = Some (VScal s) <-> get_path p d = Some (VScal s)) /\
  (forall p x, p <> [] -> has_elem p x d' = has_elem p x d) /\
  (forall p, p <> [] -> get_path p d = None -> get_path p d' = None) /\
  fst (prune d') = d' /\
  (snd (prune d) = true <-> d' <> d).
Proof.
  intros hw d'. split; [apply prune_wf, hw|]. split.
  { intros p hp. split; intros h; apply get_path_full in h; try discriminate; auto; apply prune_pruned. }
  split.
  { intros p s hp. split; [|apply get_path_prune_scal; assumption]. unfold d'. rewrite get_path_prune by assumption.
    destruct (get_path p d) as [[s0|l|d1]|]; [auto| | |discriminate].
    - rewrite prune_v_set. destruct l; discriminate.
    - rewrite prune_v_dict'. destruct (is_nil _); discriminate. }
  split; [intros; apply has_elem_prune; assumption|]. split; [intros; apply get_path_prune_none; assumption|].
  split; [apply prune_idem|apply prune_changed].
Qed.
Lemma data_roundtrip d : wf d = true -> pruned d = true -> sendable d ->
  exists l, parse1 (enc (BDict (bt_of_dict d))) = Some (BDict l, []) /\ dict_of_bt l = Some d.
Proof.
  intros h1 h2 h3. exists (bt_of_dict d). split; [|apply dict_of_bt_of; assumption].
  rewrite <- (app_nil_r (enc _)). apply parse1_enc. exact h3.
Qed.
Lemma data_enc_inj d d' : wf d = true -> pruned d = true -> sendable d -> wf d' = true -> pruned d' = true -> sendable d' ->
  enc (BDict (bt_of_dict d)) = enc (BDict (bt_of_dict d')) -> d = d'.
Proof.
  intros h1 h2 h3 h4 h5 h6 he. destruct (data_roundtrip d h1 h2 h3) as (l & e1 & e2). destruct (data_roundtrip d' h4 h5 h6) as (l' & e3 & e4).
  rewrite he, e3 in e1. injection e1 as <-. congruence.
Qed.

Lemma parse_canonical E t s m : parse_msg E t s = Ok m ->
  int64_ok (m_seqno m) = true /\
  wf (m_data m) = true /\
  (forall p, p <> [] -> get_path p (m_data m) <> Some (VSet []) /\ get_path p (m_data m) <> Some (VDict [])) /\
  msorted (m_lagged m) /\
  (forall k df, In (k, df) (m_lagged m) -> (m_seqno m - e_lag E < fst k < m_seqno m)%Z /\ length (snd k) = 32 /\ load_diff df = Ok df) /\
  load_diff (m_diff m) = Ok (m_diff m) /\
  exists d g, on_wire E s m d g.
Proof.
  intros h. pose proof (parse_msg_spec _ _ _ _ h) as (ok & hw & _). split; [apply ok|]. split; [apply ok|]. split.
  { intros p hp. split; intros h'; apply get_path_full in h'; try discriminate; auto; apply ok. }
  split; [apply ok|]. split.
  { intros k df hin. split.
    - rewrite <- hw in hin. unfold windowed in hin. apply filter_In in hin as [_ hin]. apply in_window_spec in hin. exact hin.
    - pose proof (ok_lag _ _ ok) as hl. rewrite Forall_forall in hl. destruct (hl _ hin) as (_ & h2 & _ & h3). auto. }
  split; [apply ok|]. exact (parse_msg_wire _ _ _ _ h).
Qed.
Lemma accepted_signed E t s m v : parse_msg E t s = Ok m -> e_verifier E = Some v ->
  exists pre c c1 sig g, s = pre ++ c /\ parse_str c = Some (b "~", c1) /\ parse_str c1 = Some (sig, b "e" ++ g) /\
    length sig = 64 /\ v pre sig = true /\ m_vsig m = Some sig.
Proof.
  intros h hv. destruct (parse_msg_wire _ _ _ _ h) as (d & g & ow). destruct (ow_verified _ _ _ _ _ ow v hv) as (sig & h1 & _ & pre & c & c1 & h2 & h3 & h4 & h5 & h6).
  exists pre, c, c1, sig, g. auto 10.
Qed.
Lemma signed_verifies E E' v c s c' g : hash32 E -> (1 <= e_lag E)%Z -> reach E c ->
  e_signer E = Some g -> serialize E c true = Ok (s, c') -> m_vsig (c_msg c') = None ->
  e_lag E' = e_lag E -> e_verifier E' = Some v -> (forall x, v x (g x) = true) ->
  (exists m', parse_msg E' false s = Ok m' /\ same_content E (c_msg c') m' /\ snd (m_sh m') = e_hash E' s) /\
  exists content, s = content ++ b "1:~64:" ++ g content ++ b "e" /\ length (g content) = 64.
Proof.
  intros h32 hlag hr hg hs hv hl' hv' hvg. split; [|eapply publish_signed; eassumption].
  apply (reach_ok _ _ h32 hlag) in hr. destruct (serialize_ok _ _ _ _ _ hr hs) as (_ & hok & _ & hser).
  destruct (serialize_impl_wire_any _ _ _ _ _ hser) as (sig & hw & hsig). rewrite hv, hg in hsig. destruct hsig as [-> hlen].
  pose proof (parse_wire E E' false (c_msg c') (Some (g (body E (c_msg c') (m_diff (c_msg c'))))) [] hok hl' hlen (fun _ _ => I)) as hp. rewrite <- hw in hp.
  unfold check_sig in hp. rewrite hv', hvg in hp. cbn [bind] in hp. eexists. split; [exact hp|]. split; [|reflexivity]. repeat split.
Qed.
Lemma mutable_unsigned E m o sg s c' : serialize E (Mut m o) sg = Ok (s, c') -> m_vsig (c_msg c') = None.
Proof.
  unfold serialize. cbn [refresh]. destruct (diff o _); [|discriminate]. cbn [bind]. intros h. ok_inv h. injection h as <- <-. reflexivity.
Qed.
