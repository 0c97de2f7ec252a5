(** Proofs for C97 and C99: the calls that always work, and conflicts resolved once. *)
From Verif Require Import NetSpec Maps Data_facts Diff_facts Parse_facts Message_facts Wire_facts Round_facts Reach_facts Redeliver_facts Merge_facts Resolve_facts Conflict_facts Overflow_facts Replay_facts Merge2_facts Adopt_facts Crypt_facts Base_facts Dump_facts Life_facts Life2_facts Life3_facts Life4_facts Fields_facts Conf_facts Conf2_facts Conf3_facts Conf4_facts Conf5_facts Conf6_facts Converge_facts Plain_facts Net_facts Hist_facts CInfo_facts.
Lemma net_edit_total {I : Type} (B : I -> benv) key (N : net I) i o : fleet B -> net_run B key N -> no_clash B N -> few_calls B N -> is_edit o = true -> exists st', run (B i) o (dev N i) = (Ok tt, st').
Proof.
  intros hf hr hnc hc ho. pose proof (net_run_inv B key N hf hr hnc) as hi. pose proof (ni_dev _ _ _ hi i) as hp. pose proof (few_room B key N hf hi hc i i _ hp) as hq. pose proof (fl_env _ hf i) as hB.
  pose proof (plainly_life _ _ (ni_life _ _ _ hi i _ hp)) as hl. pose proof (life_inv1 _ _ hB hl) as hi1. pose proof (i1_nonneg _ _ hi1) as hn. pose proof (bo_lag _ hB) as hlag.
  destruct (run_total (B i) o (dev N i) ho) as (st' & e & _); [|eauto].
  apply life_editable; [exact hB|unfold int64_max; lia|exact hl|]. split; [apply (fl_write _ hf)|right; unfold int64_max; lia].
Qed.
Lemma net_restart_total {I : Type} (B : I -> benv) key (N : net I) i y : fleet B -> net_run B key N -> no_clash B N -> few_calls B N -> past N i y ->
  exists d st1, dump (B i) y = (Ok d, st1) /\ ((N.of_nat (length d) <= uint64_max)%N -> exists st', restore (B i) [key] d = Ok st').
Proof.
  intros hf hr hnc hc hp. pose proof (net_run_inv B key N hf hr hnc) as hi. pose proof (few_room B key N hf hi hc i i _ hp) as hq. pose proof (fl_env _ hf i) as hB.
  pose proof (life_inv1 _ _ hB (plainly_life _ _ (ni_life _ _ _ hi i _ hp))) as hi1. pose proof (i1_nonneg _ _ hi1) as hn. pose proof (bo_lag _ hB) as hlag.
  destruct (dump_total (B i) y hi1) as (d & st1 & e & _); [unfold int64_max; lia|]. exists d, st1. split; [exact e|]. intros hd.
  apply (restore_total (B i) y d st1 [key] hi1 hlag e hd). intros _. unfold int64_ok, int64_min, int64_max. apply andb_true_intro. split; apply Z.leb_le; lia.
Qed.
Lemma net_resolved_once {I : Type} (B : I -> benv) key (N : net I) i l m bad c0 c s c' l' : fleet B -> unsigned_fleet B -> net_run B key N -> no_clash B N ->
  (forall s0, In s0 l -> seen B N s0) -> no_collision (b_env (B i)) (s :: l) -> merge_msgs (b_env (B i)) l = Ok (m, bad) -> m_unmerged m = None -> int64_ok (m_seqno m + e_lag (b_env (B i))) = true ->
  In c0 [Plain m; retain (Plain m); Mut m (m_data m)] -> derived (b_env (B i)) c0 c -> m_seqno (c_msg c) = m_seqno m -> serialize (b_env (B i)) c true = Ok (s, c') ->
  In s l' -> incl l' (s :: l) ->
  exists M k bad', parse_msg (b_env (B i)) false s = Ok M /\ same_content (b_env (B i)) (c_msg c') M /\ merge_msgs (b_env (B i)) l' = Ok (set_unmerged (Some k) M, bad').
Proof.
  intros hf hu hr hnc hl hc hm hn h64 hc0 hd hq hs hin hincl. pose proof (fl_env _ hf i) as hB. pose proof hm as hm0. apply merge_msgs_inv in hm0 as (ms & hp & _).
  apply (redelivery (b_env (B i)) l m bad ms c0 c s c' l' (bo_hash _ hB) (bo_lag _ hB) (bo_signer _ hB) hc hm hn hp); try assumption.
  apply (net_consistent B key N i ms hf hu hr hnc). intros x hx. apply (parse_all_spec _ _ _ _ _ hp) in hx as (s0 & h0 & h1). eauto.
Qed.
