(** Message-list versions of the merge facts, as used by Properties_merge. *)
From Verif Require Import Spec Data_facts Diff_facts Bt_facts Message_facts Parse_facts Merge_facts Replay_facts Resolve_facts Wire_facts Reach_facts Round_facts Redeliver_facts Adopt_facts Overflow_facts.

Lemma same_result_serialize E m m' sg s : same_result m m' -> serialize E (Plain m) sg = Ok (s, Plain m) -> serialize E (Plain m') sg = Ok (s, Plain m').
Proof.
  intros [h _]. destruct m as [sh d df lg u vs un], m' as [sh' d' df' lg' u' vs' un']. unfold index_free, set_unmerged in h. cbn in h. injection h as -> -> -> -> -> ->.
  unfold serialize. cbn [refresh bind c_msg m_diff]. intros h. ok_inv h. injection h as <-.
  assert (e : serialize_impl E (mkMsg sh' d' df' lg' u' vs' un') df' sg = serialize_impl E (mkMsg sh' d' df' lg' u' vs' un) df' sg) by reflexivity.
  rewrite e, ha. reflexivity.
Qed.
Lemma merge_order_free E l l' m bad :
  (1 <= e_lag E)%Z -> no_collision E l -> (forall s, In s l <-> In s l') -> merge_msgs E l = Ok (m, bad) ->
  exists m' bad', merge_msgs E l' = Ok (m', bad') /\ same_result m m' /\
    forall sg s, serialize E (Plain m) sg = Ok (s, Plain m) -> serialize E (Plain m') sg = Ok (s, Plain m').
Proof.
  intros h1 h2 h3 h4. destruct (merge_msgs_set _ _ _ _ _ h1 h2 h3 h4) as (m' & b' & h5 & h6). exists m', b'. split; [exact h5|]. split; [exact h6|].
  intros sg s. apply same_result_serialize, h6.
Qed.
(** a stale message *)
Lemma parse_all_app E l1 l2 i ms bad : parse_all E i (l1 ++ l2) = Ok (ms, bad) ->
  exists ms1 ms2 b1 b2, parse_all E i l1 = Ok (ms1, b1) /\ parse_all E (i + length l1) l2 = Ok (ms2, b2) /\ ms = ms1 ++ ms2 /\ bad = b1 ++ b2.
Proof.
  revert i ms bad; induction l1 as [|s l1 IH]; intros i ms bad h; cbn [app parse_all length] in *.
  - exists [], ms, [], bad. rewrite Nat.add_0_r. auto.
  - destruct (parse_msg E false s); try discriminate h.
    + ok_inv h. destruct a0 as [ms' b']. injection h as <- <-. apply IH in ha as (ms1 & ms2 & b1 & b2 & h1 & h2 & -> & ->). rewrite h1.
      replace (i + S (length l1)) with (S i + length l1) by lia. rewrite h2. cbn [bind].
      exists (a :: ms1), ms2, b1, b2. auto.
    + ok_inv h. destruct a as [ms' b']. injection h as <- <-. apply IH in ha as (ms1 & ms2 & b1 & b2 & h1 & h2 & -> & ->). rewrite h1.
      replace (i + S (length l1)) with (S i + length l1) by lia. rewrite h2. cbn [bind].
      exists ms1, ms2, (i :: b1), b2. auto.
Qed.
Lemma parse_all_app_ok E l1 l2 i j ms1 b1 ms2 b2 : parse_all E i l1 = Ok (ms1, b1) -> parse_all E j l2 = Ok (ms2, b2) ->
  exists b, parse_all E i (l1 ++ l2) = Ok (ms1 ++ ms2, b).
Proof.
  assert (hshift : forall l i j ms bad, parse_all E i l = Ok (ms, bad) -> exists bad', parse_all E j l = Ok (ms, bad')).
  { induction l as [|t l IH]; intros i0 j0 ms bad h; cbn [parse_all] in *; [injection h as <- <-; eauto|].
    destruct (parse_msg E false t); try discriminate h.
    - ok_inv h. destruct a0 as [ms' b']. injection h as <- <-. destruct (IH _ (S j0) _ _ ha) as [b3 ->]. cbn [bind]. eauto.
    - ok_inv h. destruct a as [ms' b']. injection h as <- <-. destruct (IH _ (S j0) _ _ ha) as [b3 ->]. cbn [bind]. eauto. }
  revert i ms1 b1; induction l1 as [|s l1 IH]; intros i ms1 b1 h h2; cbn [app parse_all] in *.
  - injection h as <- <-. apply (hshift _ _ i) in h2. exact h2.
  - destruct (parse_msg E false s); try discriminate h.
    + ok_inv h. destruct a0 as [ms' b']. injection h as <- <-. destruct (IH _ _ _ ha h2) as [b3 ->]. cbn [bind app]. eauto.
    + ok_inv h. destruct a as [ms' b']. injection h as <- <-. destruct (IH _ _ _ ha h2) as [b3 ->]. cbn [bind app]. eauto.
Qed.
Lemma merge_stale E l1 s l2 m bad x t y :
  (1 <= e_lag E)%Z -> no_collision E (l1 ++ s :: l2) -> parse_msg E false s = Ok x ->
  In t (l1 ++ l2) -> parse_msg E false t = Ok y -> (m_seqno x + e_lag E <= m_seqno y)%Z ->
  merge_msgs E (l1 ++ s :: l2) = Ok (m, bad) ->
  exists m' bad', merge_msgs E (l1 ++ l2) = Ok (m', bad') /\ same_result m m' /\
    forall sg r, serialize E (Plain m) sg = Ok (r, Plain m) -> serialize E (Plain m') sg = Ok (r, Plain m').
Proof.
  intros hlag hnc hx ht hy hs h. apply merge_msgs_inv in h as (ms & hp & hm). pose proof (parsed_good _ _ _ _ _ hnc hp) as hg.
  pose proof hp as hp2. apply parse_all_app in hp2 as (ms1 & ms2' & b1 & b2 & h1 & h2 & -> & ->). cbn [parse_all] in h2. rewrite hx in h2. ok_inv h2.
  destruct a as [ms2 b2']. injection h2 as <- <-.
  assert (hy2 : In y (ms1 ++ x :: ms2)).
  { apply (parse_all_spec _ _ _ _ _ hp). exists t. split; [|exact hy]. apply in_app_iff in ht. apply in_app_iff. cbn [In]. tauto. }
  assert (hto : too_old E (ms1 ++ x :: ms2) x = true).
  { unfold too_old. apply max_seqno_ge in hy2. apply Z.leb_le. lia. }
  destruct (merge_parsed_stale _ _ _ _ _ hg hlag hto hm) as (m' & h3 & h4).
  destruct (parse_all_app_ok _ _ _ _ _ _ _ _ _ h1 ha) as [b3 h5]. exists m', b3. split; [apply merge_msgs_inv; eauto|]. split; [exact h4|].
  intros sg r. apply same_result_serialize, h4.
Qed.

(** ** who wins *)
Lemma conflict_facts E l m bad ms : no_collision E l -> parse_all E 0 l = Ok (ms, bad) -> merge_msgs E l = Ok (m, bad) -> m_unmerged m = None ->
  good E ms /\ ms <> [] /\ curs E (kept E ms) /\ resolve E (max_seqno ms) (kept E ms) = Ok m.
Proof.
  intros hc hp h hu. apply merge_msgs_inv in h as (ms' & h1 & h2). rewrite hp in h1. injection h1 as <-.
  pose proof (parsed_good _ _ _ _ _ hc hp) as hg. destruct (merge_parsed_conflict _ _ _ hg h2 hu) as (_ & _ & hne & _ & hres).
  split; [exact hg|]. split; [exact hne|]. split; [apply kept_curs, hg|exact hres].
Qed.
Lemma own_hi E ms c : good E ms -> reconciled E ms c -> forall n df', reconciled E ms n -> records n (m_sh c) df' -> n = c.
Proof.
  intros hg (h1 & h2 & _) n df' (h3 & _) [[e _]|hl]; [apply (g_fun _ _ hg); auto|]. exfalso. apply (h2 n h3). apply lookup_keys. eauto.
Qed.
Lemma conflict_assign E l m bad ms c k df p s :
  no_collision E l -> parse_all E 0 l = Ok (ms, bad) -> merge_msgs E l = Ok (m, bad) -> m_unmerged m = None -> p <> [] ->
  reconciled E ms c -> records c k df -> (forall n df', reconciled E ms n -> records n k df' -> leb (m_sh n) (m_sh c) = true) ->
  assigns p df (m_data c) = Some s -> unchallenged E ms k p -> get_path p (m_data m) = Some (VScal s).
Proof.
  intros hc hp h hu hpp hr hrec hhi has hun. destruct (conflict_facts _ _ _ _ _ hc hp h hu) as (hg & hne & hcu & hres).
  apply (resolve_assign E _ _ m c k df p s hcu hres hpp); auto.
  - apply reconciled_kept; auto.
  - intros n df' hn. apply hhi. apply reconciled_kept; auto.
  - intros c' k' df' hc' hr' hlt. apply (hun c' k' df'); auto. apply reconciled_kept; auto.
Qed.
Lemma conflict_remove E l m bad ms c k df p :
  no_collision E l -> parse_all E 0 l = Ok (ms, bad) -> merge_msgs E l = Ok (m, bad) -> m_unmerged m = None -> p <> [] ->
  reconciled E ms c -> records c k df -> (forall n df', reconciled E ms n -> records n k df' -> leb (m_sh n) (m_sh c) = true) ->
  removes p df (m_data c) = true -> unchallenged E ms k p -> get_path p (m_data m) = None.
Proof.
  intros hc hp h hu hpp hr hrec hhi has hun. destruct (conflict_facts _ _ _ _ _ hc hp h hu) as (hg & hne & hcu & hres).
  apply (resolve_remove E _ _ m c k df p hcu hres hpp); auto.
  - apply reconciled_kept; auto.
  - intros n df' hn. apply hhi. apply reconciled_kept; auto.
  - intros c' k' df' hc' hr' hlt. apply (hun c' k' df'); auto. apply reconciled_kept; auto.
Qed.
Lemma conflict_elem E l m bad ms c k df p x y :
  no_collision E l -> parse_all E 0 l = Ok (ms, bad) -> merge_msgs E l = Ok (m, bad) -> m_unmerged m = None -> p <> [] ->
  reconciled E ms c -> records c k df -> (forall n df', reconciled E ms n -> records n k df' -> leb (m_sh n) (m_sh c) = true) ->
  says_elem p x df (m_data c) = Some (Some y) ->
  (forall c' k' df', reconciled E ms c' -> records c' k' df' -> lt k k' -> says_elem p x df' (m_data c') = Some None) ->
  has_elem p x (m_data m) = y.
Proof.
  intros hc hp h hu hpp hr hrec hhi has hun. destruct (conflict_facts _ _ _ _ _ hc hp h hu) as (hg & hne & hcu & hres).
  apply (resolve_elem E _ _ m c k df p x y hcu hres hpp); auto.
  - apply reconciled_kept; auto.
  - intros n df' hn. apply hhi. apply reconciled_kept; auto.
  - intros c' k' df' hc' hr' hlt. apply (hun c' k' df'); auto. apply reconciled_kept; auto.
Qed.
Lemma conflict_untouched E l m bad ms p :
  no_collision E l -> parse_all E 0 l = Ok (ms, bad) -> merge_msgs E l = Ok (m, bad) -> m_unmerged m = None -> p <> [] ->
  (forall c k df, reconciled E ms c -> records c k df -> leaves_alone p df (m_data c)) ->
  exists top, reconciled E ms top /\ (forall n, reconciled E ms n -> leb (m_sh n) (m_sh top) = true) /\
    get_path p (m_data m) = get_path p (m_data top).
Proof.
  intros hc hp h hu hpp hun. destruct (conflict_facts _ _ _ _ _ hc hp h hu) as (hg & hne & hcu & hres).
  destruct (resolve_untouched E _ _ m p hcu hres hpp) as (top & h1 & h2 & h3).
  { intros c k df hc'. apply hun. apply reconciled_kept; auto. }
  exists top. split; [apply reconciled_kept; auto|]. split; [|exact h3]. intros n hn. apply h2. apply reconciled_kept; auto.
Qed.
(** the own change of one of the messages *)
Lemma own_wins E l bad ms c : no_collision E l -> parse_all E 0 l = Ok (ms, bad) -> reconciled E ms c ->
  records c (m_sh c) (m_diff c) /\ forall n df', reconciled E ms n -> records n (m_sh c) df' -> leb (m_sh n) (m_sh c) = true.
Proof.
  intros hc hp hr. pose proof (parsed_good _ _ _ _ _ hc hp) as hg. split; [left; auto|]. intros n df' hn hrec. rewrite (own_hi E ms c hg hr n df' hn hrec).
  apply leb_nlt, lt_irrefl.
Qed.
