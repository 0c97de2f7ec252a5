(** Which message a merge adopts, its reported index, and messages that do not parse. *)
From Verif Require Import Data_facts Diff_facts Bt_facts Message Message_facts Parse_facts Merge Merge_facts Spec Replay_facts Resolve_facts.

Lemma first_current_nth cs : forall i j m, first_current i cs = Some (j, m) -> exists n red, j = i + n /\ nth_error cs n = Some (m, red).
Proof.
  induction cs as [|[m0 red] cs IH]; intros i j m h; cbn [first_current] in h; [discriminate|]. destruct red.
  - apply IH in h as (n & red & -> & h). exists (S n), red. split; [lia|exact h].
  - injection h as <- <-. exists 0, false. split; [lia|reflexivity].
Qed.
Lemma max_elt_nth cs : forall i bi bst j m, max_elt i bi bst cs = (j, m) ->
  (j = bi /\ m = fst bst) \/ exists n red, j = i + n /\ nth_error cs n = Some (m, red).
Proof.
  induction cs as [|p cs IH]; intros i bi bst j m h; cbn [max_elt] in h.
  - injection h as <- <-. auto.
  - destruct (rank_lt bst p).
    + apply IH in h as [[-> ->]|(n & red & -> & h)].
      * right. exists 0, (snd p). split; [lia|]. cbn. destruct p; reflexivity.
      * right. exists (S n), red. split; [lia|exact h].
    + apply IH in h as [h|(n & red & -> & h)]; [auto|]. right. exists (S n), red. split; [lia|exact h].
Qed.
Lemma marked_nth E l n m red : nth_error (marked E l) n = Some (m, red) -> nth_error l n = Some m.
Proof. intros h. rewrite <- (marked_fst E l) at 1. rewrite nth_error_map, h. reflexivity. Qed.

(** the reported index designates the adopted message among the accepted ones *)
Lemma merge_parsed_index E l m i : merge_parsed E l = Ok m -> m_unmerged m = Some i ->
  exists x, nth_error l i = Some x /\ m = set_unmerged (Some i) x.
Proof.
  unfold merge_parsed. destruct l as [|x0 l0]; [discriminate|]. set (l := x0 :: l0). destruct (existsb _ l); [discriminate|].
  destruct (filter (fun p => negb (snd p)) (marked E l)) as [|p [|q r]]; [discriminate| |].
  - destruct (first_current 0 (marked E l)) as [[j y]|] eqn:Ef; [|discriminate]. intros h. injection h as <-. cbn [m_unmerged set_unmerged].
    intros h. injection h as <-. apply first_current_nth in Ef as (n & red & -> & h). cbn [plus]. exists y. split; [|reflexivity].
    apply marked_nth in h. exact h.
  - destruct (read_only E).
    + destruct (marked E l) as [|p0 r0] eqn:Em; [discriminate|]. destruct (max_elt 1 0 p0 r0) as [j y] eqn:Ex. intros h. injection h as <-.
      cbn [m_unmerged set_unmerged]. intros h. injection h as <-. exists y. split; [|reflexivity].
      apply max_elt_nth in Ex as [[-> ->]|(n & red & -> & h)].
      * apply (marked_nth E l 0 _ (snd p0)). rewrite Em. destruct p0; reflexivity.
      * apply (marked_nth E l (1 + n) _ red). rewrite Em. exact h.
    + intros h hu. apply resolve_unmerged in h. congruence.
Qed.
Lemma parse_all_nobad E l : forall i ms, parse_all E i l = Ok (ms, []) -> Forall2 (fun s m => parse_msg E false s = Ok m) l ms.
Proof.
  induction l as [|s l IH]; intros i ms h; cbn [parse_all] in h; [injection h as <-; constructor|].
  destruct (parse_msg E false s) eqn:Ep; try discriminate h; ok_inv h; destruct a0 as [ms' bad'] || destruct a as [ms' bad']; injection h as h1 h2; subst; try discriminate.
  constructor; [exact Ep|]. eapply IH. exact ha.
Qed.
Lemma Forall2_nth_r {A B} (R : A -> B -> Prop) l l' : Forall2 R l l' -> forall n y, nth_error l' n = Some y -> exists x, nth_error l n = Some x /\ R x y.
Proof. induction 1; intros [|n] z h; try discriminate; cbn in *; [injection h as <-; eauto|eauto]. Qed.
Lemma merge_msgs_index E l m i : merge_msgs E l = Ok (m, []) -> m_unmerged m = Some i ->
  exists s x, nth_error l i = Some s /\ parse_msg E false s = Ok x /\ m = set_unmerged (Some i) x.
Proof.
  intros h hu. apply merge_msgs_inv in h as (ms & h1 & h2). apply parse_all_nobad in h1.
  destruct (merge_parsed_index _ _ _ _ h2 hu) as (x & h3 & h4). destruct (Forall2_nth_r _ _ _ h1 _ _ h3) as (s & h5 & h6). eauto.
Qed.

(** exactly one current message: it is adopted *)
Lemma merge_msgs_single E l ms bad s x : no_collision E l -> (1 <= e_lag E)%Z -> parse_all E 0 l = Ok (ms, bad) ->
  (forall m, In m ms -> int64_ok (m_seqno m + e_lag E) = true) ->
  In s l -> parse_msg E false s = Ok x -> (forall y, reconciled E ms y -> y = x) ->
  exists i, merge_msgs E l = Ok (set_unmerged (Some i) x, bad) /\ nth_error ms i = Some x.
Proof.
  intros hnc hlag hp hov hs hx hone. pose proof (parsed_good _ _ _ _ _ hnc hp) as hg.
  assert (hin : In x ms) by (apply (parse_all_spec _ _ _ _ _ hp); eauto).
  assert (hne : ms <> []) by (intros ->; destruct hin).
  assert (hk : kept E ms = [x]).
  { pose proof (kept_nonempty E ms hg hlag hne) as h1. pose proof (kept_NoDup E ms hg) as h2.
    assert (h3 : forall y, In y (kept E ms) -> y = x) by (intros y hy; apply hone, reconciled_kept; auto).
    destruct (kept E ms) as [|a [|c r]]; [congruence|rewrite (h3 a) by (left; reflexivity); reflexivity|].
    rewrite (h3 a), (h3 c) in h2 by (cbn; auto). inversion h2 as [|? ? hni _]; subst. exfalso. apply hni. left. reflexivity. }
  destruct (merge_parsed_one _ _ _ hk hov hne) as [i hi]. exists i.
  destruct (merge_parsed_index _ _ _ i hi eq_refl) as (y & h1 & h2). split; [apply merge_msgs_inv; eauto|].
  rewrite h1. f_equal. 
  assert (hyin : In y ms) by (eapply nth_error_In; exact h1).
  apply (g_fun _ _ hg y x hyin hin). injection h2 as -> _. congruence.
Qed.
(** no conflict resolution unless two different messages are current *)
Lemma merge_msgs_adopts E l m bad ms i : no_collision E l -> parse_all E 0 l = Ok (ms, bad) -> merge_msgs E l = Ok (m, bad) ->
  m_unmerged m = Some i -> exists s x, In s l /\ parse_msg E false s = Ok x /\ m = set_unmerged (Some i) x /\ nth_error ms i = Some x /\ reconciled E ms x /\
    (read_only E = false -> forall y, reconciled E ms y -> y = x).
Proof.
  intros hnc hp h hu. apply merge_msgs_inv in h as (ms' & h1 & h2). rewrite hp in h1. injection h1 as <-.
  pose proof (parsed_good _ _ _ _ _ hnc hp) as hg. destruct (merge_parsed_index _ _ _ _ h2 hu) as (x & h3 & h4).
  assert (hin : In x ms) by (eapply nth_error_In; exact h3).
  pose proof hin as hin'. apply (parse_all_spec _ _ _ _ _ hp) in hin' as (s & hs & hx). exists s, x.
  assert (hne : ms <> []) by (intros ->; destruct hin).
  pose proof (no_overflow_ok _ _ _ hne h2) as hno.
  assert (hsame : forall y j, merge_parsed E ms = Ok (set_unmerged (Some j) y) -> In y ms -> y = x).
  { intros y j hy hyin. rewrite h2 in hy. injection hy as hy. apply (g_fun _ _ hg y x hyin hin). rewrite h4 in hy. apply (f_equal m_sh) in hy. symmetry. exact hy. }
  assert (hfin : reconciled E ms x /\ (read_only E = false -> forall y, reconciled E ms y -> y = x)); [|intuition].
  destruct (kept E ms) as [|a [|c r]] eqn:Ek.
  - exfalso. clear - h2 Ek hne. unfold merge_parsed in h2. destruct ms as [|y ms]; [congruence|].
    destruct (existsb _ (y :: ms)); [discriminate|]. unfold kept in Ek. apply map_eq_nil in Ek. rewrite Ek in h2. discriminate.
  - destruct (merge_parsed_one _ _ _ Ek hno hne) as [j hj].
    assert (ha : In a (kept E ms)) by (rewrite Ek; left; reflexivity).
    rewrite <- (hsame a j hj ltac:(apply kept_In in ha; [apply ha|exact hg])). split.
    + apply reconciled_kept; auto.
    + intros _ y hy. apply reconciled_kept in hy; auto. rewrite Ek in hy. destruct hy as [->|[]]. reflexivity.
  - destruct (read_only E) eqn:Ero.
    + destruct (merge_parsed_ro _ _ _ _ _ Ek hno hg Ero) as (j & n & hi & hk & _).
      rewrite <- (hsame n j hi ltac:(apply kept_In in hk; [apply hk|exact hg])). split; [|discriminate]. apply reconciled_kept; auto.
    + rewrite (merge_parsed_many _ _ _ _ _ Ek hno Ero) in h2. apply resolve_unmerged in h2. congruence.
Qed.
(** a client that cannot sign *)
Lemma merge_msgs_ro E l m bad ms : no_collision E l -> (1 <= e_lag E)%Z -> read_only E = true -> parse_all E 0 l = Ok (ms, bad) -> merge_msgs E l = Ok (m, bad) ->
  exists s x i, In s l /\ parse_msg E false s = Ok x /\ m = set_unmerged (Some i) x /\ nth_error ms i = Some x /\ reconciled E ms x /\
    forall y, reconciled E ms y -> leb (m_sh y) (m_sh x) = true.
Proof.
  intros hnc hlag hro hp h. destruct (m_unmerged m) as [i|] eqn:hu.
  - destruct (merge_msgs_adopts _ _ _ _ _ _ hnc hp h hu) as (s & x & h1 & h2 & h3 & h4 & h5 & _).
    exists s, x, i. repeat (split; [assumption|]). apply merge_msgs_inv in h as (ms' & e & h). rewrite hp in e. injection e as <-.
    pose proof (parsed_good _ _ _ _ _ hnc hp) as hg. assert (hne : ms <> []) by (intros ->; discriminate).
    pose proof (no_overflow_ok _ _ _ hne h) as hno. intros y hy. apply reconciled_kept in hy; auto.
    destruct (kept E ms) as [|a [|c r]] eqn:Ek; [destruct hy| |].
    + apply reconciled_kept in h5; auto. rewrite Ek in h5. destruct h5 as [<-|[]], hy as [<-|[]]. apply leb_nlt, lt_irrefl.
    + destruct (merge_parsed_ro _ _ _ _ _ Ek hno hg hro) as (j & n & hi & hk & hmax). rewrite h in hi. injection hi as hi.
      rewrite Ek in hmax. replace (m_sh x) with (m_sh n) by (rewrite h3 in hi; apply (f_equal m_sh) in hi; symmetry; exact hi). apply hmax. exact hy.
  - exfalso. apply merge_msgs_inv in h as (ms' & e & h). rewrite hp in e. injection e as <-.
    pose proof (parsed_good _ _ _ _ _ hnc hp) as hg. destruct (merge_parsed_conflict _ _ _ hg h hu) as (hr & _). congruence.
Qed.

(** ** messages that do not parse *)
Lemma parse_all_err E s : parse_msg E false s = Err -> forall l1 l2 i j ms bad, parse_all E i (l1 ++ l2) = Ok (ms, bad) ->
  exists bad', parse_all E j (l1 ++ s :: l2) = Ok (ms, bad') /\ In (j + length l1) bad'.
Proof.
  intros hs. assert (hshift : forall l i j ms bad, parse_all E i l = Ok (ms, bad) -> exists bad', parse_all E j l = Ok (ms, bad')).
  { induction l as [|t l IH]; intros i j ms bad h; cbn [parse_all] in *; [injection h as <- <-; eauto|].
    destruct (parse_msg E false t); try discriminate h.
    - ok_inv h. destruct a0 as [ms' b']. injection h as <- <-. destruct (IH _ (S j) _ _ ha) as [b2 ->]. cbn [bind]. eauto.
    - ok_inv h. destruct a as [ms' b']. injection h as <- <-. destruct (IH _ (S j) _ _ ha) as [b2 ->]. cbn [bind]. eauto. }
  induction l1 as [|t l1 IH]; intros l2 i j ms bad h; cbn [app parse_all length] in *.
  - rewrite hs. destruct (hshift _ _ (S j) _ _ h) as [b2 ->]. cbn [bind]. eexists. split; [reflexivity|]. left. lia.
  - destruct (parse_msg E false t); try discriminate h.
    + ok_inv h. destruct a0 as [ms' b']. injection h as <- <-. destruct (IH _ _ (S j) _ _ ha) as (b2 & -> & hin). cbn [bind].
      eexists. split; [reflexivity|]. replace (j + S (length l1)) with (S j + length l1) by lia. exact hin.
    + ok_inv h. destruct a as [ms' b']. injection h as <- <-. destruct (IH _ _ (S j) _ _ ha) as (b2 & -> & hin). cbn [bind].
      eexists. split; [reflexivity|]. right. replace (j + S (length l1)) with (S j + length l1) by lia. exact hin.
Qed.
Lemma merge_msgs_err E s l1 l2 m bad : parse_msg E false s = Err -> merge_msgs E (l1 ++ l2) = Ok (m, bad) ->
  exists bad', merge_msgs E (l1 ++ s :: l2) = Ok (m, bad') /\ In (length l1) bad'.
Proof.
  intros hs h. apply merge_msgs_inv in h as (ms & h1 & h2). destruct (parse_all_err E s hs l1 l2 0 0 _ _ h1) as (b' & h3 & h4).
  exists b'. split; [apply merge_msgs_inv; eauto|exact h4].
Qed.
(** the reported bad indices are exactly the messages that do not parse *)
Lemma parse_all_bad E l : forall i ms bad, parse_all E i l = Ok (ms, bad) ->
  forall n, In n bad <-> exists k s, n = i + k /\ nth_error l k = Some s /\ parse_msg E false s = Err.
Proof.
  induction l as [|t l IH]; intros i ms bad h n; cbn [parse_all] in h.
  - injection h as <- <-. split; [intros []|]. intros (k & s & _ & hk & _). destruct k; discriminate.
  - destruct (parse_msg E false t) eqn:Et; try discriminate h.
    + ok_inv h. destruct a0 as [ms' b']. injection h as <- <-. rewrite (IH _ _ _ ha n). split.
      * intros (k & s & -> & h1 & h2). exists (S k), s. split; [lia|auto].
      * intros (k & s & -> & h1 & h2). destruct k as [|k]; [cbn in h1; congruence|]. exists k, s. split; [lia|auto].
    + ok_inv h. destruct a as [ms' b']. injection h as <- <-. cbn [In]. rewrite (IH _ _ _ ha n). split.
      * intros [<-|(k & s & -> & h1 & h2)]; [exists 0, t; split; [lia|auto]|]. exists (S k), s. split; [lia|auto].
      * intros (k & s & -> & h1 & h2). destruct k as [|k]; [left; lia|]. right. exists k, s. split; [lia|auto].
Qed.
