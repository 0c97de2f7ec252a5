(** Facts about conflict resolution: which messages are current, and independence of arrival order. *)
From Verif Require Import Data_facts Diff_facts Bt_facts Message Message_facts Parse_facts Merge Spec.

(** ** sorting *)
Definition desc (l : list msg) : Prop := StronglySorted (fun m n => lt (m_sh n) (m_sh m)) l.
Lemma insert_desc_perm m l : Permutation (insert_desc m l) (m :: l).
Proof.
  induction l as [|x l IH]; cbn [insert_desc]; [reflexivity|]. destruct (ltb (m_sh m) (m_sh x)); [|reflexivity].
  rewrite IH. apply perm_swap.
Qed.
Lemma sort_desc_perm l : Permutation (sort_desc l) l.
Proof. induction l as [|m l IH]; cbn; [reflexivity|]. rewrite insert_desc_perm, IH. reflexivity. Qed.
Lemma insert_desc_sorted m l : desc l -> ~ In (m_sh m) (map m_sh l) -> desc (insert_desc m l).
Proof.
  induction l as [|x l IH]; intros hd hn; cbn [insert_desc]; [constructor; constructor|].
  inversion hd as [|? ? h1 h2]; subst. destruct (ltb (m_sh m) (m_sh x)) eqn:E.
  - apply ltb_lt in E. constructor.
    + apply IH; [exact h1|]. intros h. apply hn. right. exact h.
    + apply Forall_forall. intros y hy. apply (Permutation_in _ (insert_desc_perm m l)) in hy as [<-|hy]; [exact E|].
      rewrite Forall_forall in h2. auto.
  - apply ltb_nlt in E. assert (hx : lt (m_sh x) (m_sh m)).
    { destruct (lt_total (m_sh m) (m_sh x)) as [?|[h|?]]; [tauto| |assumption]. exfalso. apply hn. left. symmetry. exact h. }
    constructor; [exact hd|]. constructor; [exact hx|]. eapply Forall_impl; [|exact h2]. intros y hy. cbn in hy. eapply lt_trans; eauto.
Qed.
Lemma sort_desc_sorted l : NoDup (map m_sh l) -> desc (sort_desc l).
Proof.
  induction l as [|m l IH]; cbn [map sort_desc fold_right]; intros h; [constructor|]. inversion h as [|? ? h1 h2]; subst.
  apply insert_desc_sorted; [apply IH; exact h2|]. intros hin. apply h1.
  apply (Permutation_in _ (Permutation_map m_sh (sort_desc_perm l))). exact hin.
Qed.
Lemma desc_ext l1 l2 : desc l1 -> desc l2 -> Permutation l1 l2 -> l1 = l2.
Proof.
  revert l2; induction l1 as [|x l1 IH]; intros l2 h1 h2 hp; [apply Permutation_nil in hp; congruence|].
  destruct l2 as [|y l2]; [apply Permutation_sym, Permutation_nil in hp; discriminate|].
  inversion h1 as [|? ? a1 a2]; subst. inversion h2 as [|? ? c1 c2]; subst. rewrite Forall_forall in a2, c2.
  assert (x = y).
  { assert (hx : In x (y :: l2)) by (apply (Permutation_in _ hp); left; reflexivity).
    assert (hy : In y (x :: l1)) by (apply (Permutation_in _ (Permutation_sym hp)); left; reflexivity).
    destruct hx as [hx|hx]; [congruence|]. destruct hy as [hy|hy]; [congruence|].
    exfalso. exact (lt_asym _ _ (a2 _ hy) (c2 _ hx)). }
  subst y. f_equal. apply IH; auto. eapply Permutation_cons_inv; eauto.
Qed.
Lemma sort_desc_ext l1 l2 : NoDup (map m_sh l1) -> Permutation l1 l2 -> sort_desc l1 = sort_desc l2.
Proof.
  intros hn hp. apply desc_ext.
  - apply sort_desc_sorted, hn.
  - apply sort_desc_sorted. eapply Permutation_NoDup; [|exact hn]. apply Permutation_map, hp.
  - rewrite !sort_desc_perm. exact hp.
Qed.

(** ** the maximum *)
Lemma max_seqno_fold l x : (forall m, In m l -> (m_seqno m <= fold_left (fun x m => if (m_seqno m >? x)%Z then m_seqno m else x) l x)%Z)
  /\ (x <= fold_left (fun x m => if (m_seqno m >? x)%Z then m_seqno m else x) l x)%Z
  /\ (fold_left (fun x m => if (m_seqno m >? x)%Z then m_seqno m else x) l x = x \/
      exists m, In m l /\ fold_left (fun x m => if (m_seqno m >? x)%Z then m_seqno m else x) l x = m_seqno m).
Proof.
  revert x; induction l as [|m l IH]; intros x; cbn [fold_left]; [repeat split; [intros ? []|lia|auto]|].
  destruct (IH (if (m_seqno m >? x)%Z then m_seqno m else x)) as (h1 & h2 & h3).
  set (f := fold_left _ l _) in *. destruct (Z.gtb_spec (m_seqno m) x); repeat split.
  - intros m' [<-|h']; auto.
  - lia.
  - destruct h3 as [h3|(m' & h3 & h4)]; right; [exists m|exists m']; split; auto; [left; reflexivity|right; exact h3].
  - intros m' [<-|h']; auto. lia.
  - lia.
  - destruct h3 as [h3|(m' & h3 & h4)]; [left; auto|right; exists m'; split; [right; exact h3|exact h4]].
Qed.
Lemma max_seqno_ge l m : In m l -> (m_seqno m <= max_seqno l)%Z.
Proof. apply max_seqno_fold. Qed.
Lemma max_seqno_in l : l <> [] -> (forall m, In m l -> int64_ok (m_seqno m) = true) -> exists m, In m l /\ max_seqno l = m_seqno m.
Proof.
  intros hn hr. destruct (max_seqno_fold l int64_min) as (h1 & _ & [h3|h3]); [|exact h3].
  destruct l as [|m l]; [congruence|]. exists m. split; [left; reflexivity|].
  assert (hm : int64_ok (m_seqno m) = true) by (apply hr; left; reflexivity).
  specialize (h1 m (or_introl eq_refl)). unfold max_seqno. fold (max_seqno (m :: l)) in *.
  unfold int64_ok in hm. rewrite h3 in *. lia.
Qed.
Lemma max_seqno_set l l' : (forall m, In m l <-> In m l') -> (forall m, In m l -> int64_ok (m_seqno m) = true) ->
  max_seqno l = max_seqno l'.
Proof.
  intros hi hr. destruct l as [|m l].
  - destruct l' as [|m' l']; [reflexivity|]. exfalso. apply (proj2 (hi m')). left. reflexivity.
  - destruct (max_seqno_in (m :: l)) as (a & ha & ea); [discriminate|exact hr|].
    destruct (max_seqno_in l') as (c & hc & ec).
    + intros ->. apply (proj1 (hi m)). left. reflexivity.
    + intros x hx. apply hr, hi, hx.
    + apply hi in ha. apply hi in hc. apply max_seqno_ge in ha. apply max_seqno_ge in hc. lia.
Qed.

(** ** which messages are current *)
(** included in (a lagged diff of) some message of the list *)
Definition included (l : list msg) (m : msg) : bool := existsb (fun m2 => has_key (m_sh m) (m_lagged m2)) l.
Definition too_old (E : env) (l : list msg) (m : msg) : bool := (m_seqno m + e_lag E <=? max_seqno l)%Z.
Definition kept (E : env) (l : list msg) : list msg := map fst (filter (fun p => negb (snd p)) (marked E l)).

(** What every list of parsed messages satisfies (see [parsed_good]): 64-bit seqnos, lagged diffs older than the
    message, and messages with equal (seqno, hash) equal. *)
Record good (E : env) (l : list msg) : Prop := {
  g_ok : forall m, In m l -> msg_ok E m;
  g_old : forall m k, In m l -> In k (keys (m_lagged m)) -> (fst k < m_seqno m)%Z;
  g_fun : forall m n, In m l -> In n l -> m_sh m = m_sh n -> m = n
}.
Lemma good_incl E l l' : good E l -> (forall m, In m l' -> In m l) -> good E l'.
Proof. intros [h1 h2 h3] hi. split; eauto. Qed.

Lemma has_key_In k l : has_key k l = true <-> In k (keys l).
Proof.
  unfold has_key. rewrite lookup_keys. destruct (lookup k l); split; intros h; eauto; try discriminate.
  destruct h; discriminate.
Qed.
Lemma included_In l m : included l m = true <-> exists m2, In m2 l /\ In (m_sh m) (keys (m_lagged m2)).
Proof.
  unfold included. rewrite existsb_exists. split; intros (m2 & h1 & h2); exists m2; (split; [exact h1|]); apply has_key_In; exact h2.
Qed.
Lemma not_self_included E l m : good E l -> In m l -> ~ In (m_sh m) (keys (m_lagged m)).
Proof. intros hg hm h. apply (g_old _ _ hg) in h; [|exact hm]. unfold m_seqno in h. lia. Qed.

Definition kept_from (E : env) (mx : Z) (before after : list msg) : list msg :=
  map fst (filter (fun p => negb (snd p)) (mark_old (e_lag E) mx (mark before after))).
Lemma kept_from_cons E mx before m r :
  kept_from E mx before (m :: r) =
  if superseded before m r || (m_seqno m + e_lag E <=? mx)%Z then kept_from E mx (before ++ [m]) r
  else m :: kept_from E mx (before ++ [m]) r.
Proof.
  unfold kept_from. cbn [mark mark_old map filter fst snd].
  destruct (superseded before m r || (m_seqno m + e_lag E <=? mx)%Z); reflexivity.
Qed.
Lemma kept_from_In E mx l : good E l -> forall after before m, l = before ++ after ->
  (In m (kept_from E mx before after) <->
   In m after /\ ~ In m before /\ included l m = false /\ (mx < m_seqno m + e_lag E)%Z).
Proof.
  intros hg. induction after as [|x r IH]; intros before m hl.
  - cbn. tauto.
  - rewrite kept_from_cons. specialize (IH (before ++ [x]) m). rewrite <- app_assoc in IH. specialize (IH hl).
    assert (hx : In x l) by (rewrite hl; apply in_app_iff; right; left; reflexivity).
    assert (hsup : superseded before x r = included l x || existsb (fun m2 => eqb (m_sh m2) (m_sh x)) before).
    { unfold superseded. f_equal. unfold included. rewrite hl, !existsb_app. cbn [existsb].
      assert (hself : has_key (m_sh x) (m_lagged x) = false).
      { destruct (has_key (m_sh x) (m_lagged x)) eqn:E1; [|reflexivity]. exfalso. apply has_key_In in E1.
        exact (not_self_included _ _ _ hg hx E1). }
      rewrite hself. reflexivity. }
    assert (hdup : existsb (fun m2 => eqb (m_sh m2) (m_sh x)) before = true <-> In x before).
    { rewrite existsb_exists. split.
      - intros (y & hy & he). apply eqb_eq in he. replace x with y; [exact hy|]. apply (g_fun _ _ hg); auto. rewrite hl. apply in_app_iff. auto.
      - intros h. exists x. split; [exact h|apply eqb_refl]. }
    rewrite hsup. rewrite in_app_iff in IH. cbn [In] in *.
    destruct (included l x) eqn:Ei; cbn [orb].
    { rewrite IH. split; [intros (h1 & h2 & h3); tauto|]. intros ([<-|h1] & h2 & h3 & h4); [congruence|].
      repeat split; auto. intros [h|[<-|[]]]; [tauto|congruence]. }
    destruct (existsb _ before) eqn:Ed; cbn [orb].
    { apply proj1 in hdup. specialize (hdup eq_refl). rewrite IH. split; [intros (h1 & h2 & h3); tauto|].
      intros ([<-|h1] & h2 & h3); [tauto|]. repeat split; try tauto. intros [h|[<-|[]]]; tauto. }
    assert (hnb : ~ In x before) by (intros h; apply hdup in h; congruence).
    destruct (Z.leb_spec (m_seqno x + e_lag E) mx) as [hle|hlt].
    { rewrite IH. split; [intros (h1 & h2 & h3); tauto|]. intros ([<-|h1] & h2 & h3 & h4); [lia|].
      repeat split; auto. intros [h|[<-|[]]]; [tauto|lia]. }
    cbn [In]. rewrite IH. split.
    + intros [<-|(h1 & h2 & h3)]; [tauto|]. tauto.
    + intros ([<-|h1] & h2 & h3 & h4); [left; reflexivity|].
      assert (hd : {m = x} + {m <> x}).
      { destruct (eq_dec_cmp (m_sh m) (m_sh x)) as [h|h]; [left|right; intros ->; apply h; reflexivity].
        apply (g_fun _ _ hg); auto. rewrite hl. apply in_app_iff. right. right. exact h1. }
      destruct hd as [->|hd]; [left; reflexivity|right]. repeat split; auto. intros [h|[<-|[]]]; tauto.
Qed.
Lemma kept_In E l m : good E l -> (In m (kept E l) <-> In m l /\ included l m = false /\ too_old E l m = false).
Proof.
  intros hg. unfold kept, marked. fold (kept_from E (max_seqno l) [] l).
  rewrite (kept_from_In _ _ _ hg l [] m eq_refl). unfold too_old. cbn [In]. rewrite Z.leb_gt. tauto.
Qed.
Lemma kept_NoDup E l : good E l -> NoDup (map m_sh (kept E l)).
Proof.
  intros hg. unfold kept, marked. fold (kept_from E (max_seqno l) [] l).
  assert (h : forall after before, l = before ++ after -> NoDup (map m_sh (kept_from E (max_seqno l) before after))).
  { induction after as [|x r IH]; intros before hl; [constructor|]. rewrite kept_from_cons.
    assert (IH' : NoDup (map m_sh (kept_from E (max_seqno l) (before ++ [x]) r))) by (apply IH; rewrite <- app_assoc; exact hl).
    destruct (superseded before x r || _); [exact IH'|]. cbn [map]. constructor; [|exact IH'].
    intros hin. apply in_map_iff in hin as (y & hy & hin). 
    apply (kept_from_In _ _ _ hg) in hin; [|rewrite <- app_assoc; exact hl]. destruct hin as (h1 & h2 & _). apply h2. apply in_app_iff. right.
    left. apply (g_fun _ _ hg); [rewrite hl; apply in_app_iff; right; left; reflexivity|rewrite hl; apply in_app_iff; right; right; exact h1|].
    symmetry. exact hy. }
  apply (h l [] eq_refl).
Qed.
Lemma NoDup_map_inv' {A B} (f : A -> B) l : NoDup (map f l) -> NoDup l.
Proof. apply NoDup_map_inv. Qed.
(** the current messages depend only on the set of messages *)
Lemma kept_set E l l' : good E l -> (forall m, In m l <-> In m l') -> Permutation (kept E l) (kept E l').
Proof.
  intros hg hi. assert (hg' : good E l') by (eapply good_incl; [exact hg|intros m; apply hi]).
  assert (hmx : max_seqno l = max_seqno l') by (apply max_seqno_set; [exact hi|intros m hm; apply (ok_seqno _ _ (g_ok _ _ hg m hm))]).
  apply NoDup_Permutation; [eapply NoDup_map_inv', kept_NoDup; eauto|eapply NoDup_map_inv', kept_NoDup; eauto|].
  intros m. rewrite !kept_In by assumption. unfold too_old. rewrite hmx.
  assert (he : included l m = included l' m).
  { apply eq_true_iff_eq. rewrite !included_In. split; intros (m2 & h1 & h2); exists m2; (split; [apply hi; exact h1|exact h2]). }
  rewrite he, hi. reflexivity.
Qed.
Lemma kept_nonempty E l : good E l -> (1 <= e_lag E)%Z -> l <> [] -> kept E l <> [].
Proof.
  intros hg hlag hn.
  destruct (max_seqno_in l hn) as (m & hm & hmx); [intros m hm; apply (ok_seqno _ _ (g_ok _ _ hg m hm))|].
  intros hk. assert (h : In m (kept E l)); [|rewrite hk in h; exact h].
  apply kept_In; [exact hg|]. split; [exact hm|]. split.
  - destruct (included l m) eqn:Ei; [|reflexivity]. apply included_In in Ei as (m2 & h1 & h2).
    apply (g_old _ _ hg) in h2; [|exact h1]. apply max_seqno_ge in h1. unfold m_seqno at 1 in hmx. unfold m_seqno in *. lia.
  - unfold too_old. apply Z.leb_gt. lia.
Qed.

(** ** the result of a merge *)
Lemma first_current_spec cs : forall i m0, map fst (filter (fun p : msg * bool => negb (snd p)) cs) = [m0] ->
  exists j, first_current i cs = Some (j, m0).
Proof.
  induction cs as [|[m red] cs IH]; intros i m0 h; cbn [filter map snd] in h; [discriminate|].
  cbn [first_current]. destruct red; cbn [negb] in h.
  - apply IH. exact h.
  - cbn [map fst] in h. injection h as -> _. eauto.
Qed.
Lemma max_elt_spec cs : forall i bi bst j m, max_elt i bi bst cs = (j, m) ->
  exists p, In p (bst :: cs) /\ m = fst p /\ forall q, In q (bst :: cs) -> rank_lt p q = false.
Proof.
  assert (rt : forall p q r, rank_lt p q = false -> rank_lt q r = false -> rank_lt p r = false).
  { intros [m1 r1] [m2 r2] [m3 r3]. unfold rank_lt. cbn [fst snd].
    destruct r1, r2, r3; cbn [Bool.eqb]; intros h1 h2; try discriminate; try reflexivity;
      apply ltb_nlt in h1; apply ltb_nlt in h2; apply ltb_nlt; intros h3;
      destruct (lt_total (m_sh m2) (m_sh m1)) as [h|[h|h]]; try tauto; try (rewrite h in *; tauto);
      apply h2; eapply lt_trans; eauto. }
  assert (rr : forall p, rank_lt p p = false).
  { intros [m r]. unfold rank_lt. cbn [fst snd]. rewrite Bool.eqb_reflx. apply ltb_nlt, lt_irrefl. }
  assert (ra : forall p q, rank_lt p q = true -> rank_lt q p = false).
  { intros [m1 r1] [m2 r2]. unfold rank_lt. cbn [fst snd]. destruct r1, r2; cbn [Bool.eqb]; intros h; try discriminate; try reflexivity;
      apply ltb_lt in h; apply ltb_nlt, lt_asym, h. }
  induction cs as [|p cs IH]; intros i bi bst j m h; cbn [max_elt] in h.
  - injection h as <- <-. exists bst. split; [left; reflexivity|]. split; [reflexivity|]. intros q [<-|[]]. apply rr.
  - destruct (rank_lt bst p) eqn:E; apply IH in h as (q & h1 & h2 & h3); exists q.
    + split; [right; exact h1|]. split; [exact h2|]. intros r [<-|hr]; [|auto].
      eapply rt; [apply h3; left; reflexivity|apply ra, E].
    + split; [destruct h1 as [h1|h1]; [left|right; right]; auto|]. split; [exact h2|]. intros r [<-|[<-|hr]].
      * apply h3. left. reflexivity.
      * eapply rt; [apply h3; left; reflexivity|exact E].
      * apply h3. right. exact hr.
Qed.
Lemma marked_fst E l : map fst (marked E l) = l.
Proof.
  unfold marked, mark_old. rewrite map_map. cbn [fst].
  assert (h : forall after before, map (fun x => fst x) (mark before after) = after).
  { induction after as [|m r IH]; intros before; [reflexivity|]. cbn [mark map fst]. rewrite IH. reflexivity. }
  apply h.
Qed.
Lemma kept_marked E l m : In m (kept E l) <-> In (m, false) (marked E l).
Proof.
  unfold kept. rewrite in_map_iff. split.
  - intros ([m' r] & <- & h). apply filter_In in h as [h1 h2]. cbn [fst snd] in *. destruct r; [discriminate|]. exact h1.
  - intros h. exists (m, false). split; [reflexivity|]. apply filter_In. auto.
Qed.

(** The outcome of [merge_parsed], spelled out without positions. *)
Definition no_overflow (E : env) (l : list msg) : Prop := forall m, In m l -> int64_ok (m_seqno m + e_lag E) = true.
Lemma merge_parsed_one E l m : kept E l = [m] -> no_overflow E l -> l <> [] ->
  exists i, merge_parsed E l = Ok (set_unmerged (Some i) m).
Proof.
  intros hk ho hn. unfold merge_parsed. destruct l as [|x l']; [congruence|]. set (l := x :: l') in *.
  assert (he : existsb (fun m => negb (int64_ok (m_seqno m + e_lag E))) l = false).
  { destruct (existsb _ l) eqn:Ee; [|reflexivity]. apply existsb_exists in Ee as (y & hy & he). rewrite ho in he by exact hy. discriminate. }
  rewrite he. destruct (first_current_spec _ 0 _ hk) as [j hj].
  unfold kept in hk. destruct (filter _ (marked E l)) as [|p [|q r]]; try discriminate hk. rewrite hj. eauto.
Qed.
Lemma merge_parsed_ro E l m1 m2 r : kept E l = m1 :: m2 :: r -> no_overflow E l -> good E l -> read_only E = true ->
  exists i m, merge_parsed E l = Ok (set_unmerged (Some i) m) /\ In m (kept E l) /\ forall n, In n (kept E l) -> leb (m_sh n) (m_sh m) = true.
Proof.
  intros hk ho hg hro. unfold merge_parsed. destruct l as [|x l']; [discriminate hk|]. set (l := x :: l') in *.
  assert (he : existsb (fun m => negb (int64_ok (m_seqno m + e_lag E))) l = false).
  { destruct (existsb _ l) eqn:Ee; [|reflexivity]. apply existsb_exists in Ee as (y & hy & he). rewrite ho in he by exact hy. discriminate. }
  rewrite he, hro. pose proof hk as hk'. unfold kept in hk. destruct (filter _ (marked E l)) as [|p [|q r']] eqn:Ef; try discriminate hk.
  destruct (marked E l) as [|p0 cs] eqn:Em; [discriminate Ef|]. destruct (max_elt 1 0 p0 cs) as [j m] eqn:Ex.
  apply max_elt_spec in Ex as (p' & h1 & h2 & h3). exists j, m. split; [reflexivity|].
  assert (hin : forall n, In n (kept E l) -> In (n, false) (p0 :: cs)) by (intros n hn; apply kept_marked in hn; rewrite Em in hn; exact hn).
  assert (hr : snd p' = false).
  { specialize (h3 (m1, false) (hin m1 ltac:(rewrite hk'; left; reflexivity))). unfold rank_lt in h3. cbn [fst snd] in h3.
    destruct (snd p'); [discriminate|reflexivity]. }
  split.
  - apply kept_marked. rewrite Em, h2, <- hr. destruct p'; exact h1.
  - intros n hn. specialize (h3 _ (hin n hn)). unfold rank_lt in h3. cbn [fst snd] in h3. rewrite hr in h3. cbn [Bool.eqb] in h3.
    rewrite <- h2 in h3. apply leb_nlt. apply ltb_nlt in h3. exact h3.
Qed.
Lemma merge_parsed_many E l m1 m2 r : kept E l = m1 :: m2 :: r -> no_overflow E l -> read_only E = false ->
  merge_parsed E l = resolve E (max_seqno l) (kept E l).
Proof.
  intros hk ho hro. unfold merge_parsed. destruct l as [|x l']; [discriminate hk|]. set (l := x :: l') in *.
  assert (he : existsb (fun m => negb (int64_ok (m_seqno m + e_lag E))) l = false).
  { destruct (existsb _ l) eqn:Ee; [|reflexivity]. apply existsb_exists in Ee as (y & hy & he). rewrite ho in he by exact hy. discriminate. }
  rewrite he, hro. unfold kept in *. destruct (filter _ (marked E l)) as [|p [|q r']] eqn:Ef; try discriminate hk. reflexivity.
Qed.
Lemma merge_parsed_overflow E l : l <> [] -> ~ no_overflow E l -> merge_parsed E l = UB.
Proof.
  intros hn ho. unfold merge_parsed. destruct l as [|x l']; [congruence|]. set (l := x :: l') in *.
  destruct (existsb (fun m => negb (int64_ok (m_seqno m + e_lag E))) l) eqn:Ee; [reflexivity|]. exfalso. apply ho. intros m hm.
  destruct (int64_ok (m_seqno m + e_lag E)) eqn:Ei; [reflexivity|].
  assert (hc : existsb (fun m => negb (int64_ok (m_seqno m + e_lag E))) l = true); [|congruence].
  apply existsb_exists. exists m. rewrite Ei. auto.
Qed.
Lemma no_overflow_dec E l : {no_overflow E l} + {~ no_overflow E l}.
Proof.
  destruct (forallb (fun m => int64_ok (m_seqno m + e_lag E)) l) eqn:Ef.
  - left. rewrite forallb_forall in Ef. exact Ef.
  - right. intros h. assert (hc : forallb (fun m => int64_ok (m_seqno m + e_lag E)) l = true) by (apply forallb_forall; exact h). congruence.
Qed.

Lemma resolve_ext E mx l l' : NoDup (map m_sh l) -> Permutation l l' -> resolve E mx l = resolve E mx l'.
Proof. intros hn hp. unfold resolve. rewrite (sort_desc_ext _ _ hn hp). reflexivity. Qed.
Lemma resolve_unmerged E mx l m : resolve E mx l = Ok m -> m_unmerged m = None.
Proof.
  unfold resolve. destruct (negb _); [discriminate|]. destruct (sort_desc l) as [|top r]; [discriminate|].
  destruct (run_replay _ _); [|discriminate]. intros h. ok_inv h. injection h as <-. reflexivity.
Qed.
Lemma index_free_set i m : index_free (set_unmerged i m) = index_free m.
Proof. reflexivity. Qed.
Lemma same_result_refl m : same_result m m.
Proof. split; [reflexivity|tauto]. Qed.

(** C13, C16, C17 all come from this: the result depends only on the current messages and the highest seqno. *)
Lemma merge_parsed_ext E l l' m :
  good E l -> good E l' -> (1 <= e_lag E)%Z -> no_overflow E l' -> l' <> [] ->
  max_seqno l = max_seqno l' -> Permutation (kept E l) (kept E l') ->
  merge_parsed E l = Ok m -> exists m', merge_parsed E l' = Ok m' /\ same_result m m'.
Proof.
  intros hg hg' hlag ho' hn' hmx hp h.
  assert (hn : l <> []) by (intros ->; discriminate h).
  assert (ho : no_overflow E l).
  { destruct (no_overflow_dec E l) as [ho|ho]; [exact ho|]. rewrite merge_parsed_overflow in h by assumption. discriminate. }
  destruct (kept E l) as [|m1 [|m2 r]] eqn:Ek.
  - exfalso. exact (kept_nonempty _ _ hg hlag hn Ek).
  - apply Permutation_length_1_inv in hp. destruct (merge_parsed_one _ _ _ Ek ho hn) as [i hi]. destruct (merge_parsed_one _ _ _ hp ho' hn') as [i' hi'].
    rewrite hi in h. injection h as <-. eexists. split; [exact hi'|]. split; [reflexivity|]. cbn. split; discriminate.
  - assert (hk' : exists n1 n2 r', kept E l' = n1 :: n2 :: r').
    { pose proof (Permutation_length hp) as hlen. destruct (kept E l') as [|n1 [|n2 r']]; try discriminate hlen. eauto. }
    destruct hk' as (n1 & n2 & r' & hk').
    destruct (read_only E) eqn:Er.
    + destruct (merge_parsed_ro _ _ _ _ _ Ek ho hg Er) as (i & a & h1 & h2 & h3).
      destruct (merge_parsed_ro _ _ _ _ _ hk' ho' hg' Er) as (i' & a' & h1' & h2' & h3').
      rewrite h1 in h. injection h as <-. eexists. split; [exact h1'|].
      assert (a = a'); [|subst a'; split; [reflexivity|cbn; split; discriminate]].
      rewrite <- Ek in hp.
      assert (hl1 : leb (m_sh a) (m_sh a') = true) by (apply h3', (Permutation_in _ hp), h2).
      assert (hl2 : leb (m_sh a') (m_sh a) = true) by (apply h3, (Permutation_in _ (Permutation_sym hp)), h2').
      apply leb_nlt in hl1. apply leb_nlt in hl2. apply (g_fun _ _ hg).
      * apply (kept_In _ _ _ hg) in h2. tauto.
      * apply (Permutation_in _ (Permutation_sym hp)), (kept_In _ _ _ hg) in h2'. tauto.
      * destruct (lt_total (m_sh a) (m_sh a')) as [?|[?|?]]; tauto.
    + rewrite (merge_parsed_many _ _ _ _ _ Ek ho Er) in h. rewrite <- Ek in *.
      rewrite (merge_parsed_many _ _ _ _ _ hk' ho' Er).
      rewrite <- hmx, <- (resolve_ext _ _ _ _ (kept_NoDup _ _ hg) hp). rewrite h. eexists. split; [reflexivity|apply same_result_refl].
Qed.
Lemma no_overflow_ok E l m : l <> [] -> merge_parsed E l = Ok m -> no_overflow E l.
Proof.
  intros hn h. destruct (no_overflow_dec E l) as [ho|ho]; [exact ho|]. rewrite merge_parsed_overflow in h by assumption. discriminate.
Qed.

(** C13 / C17: only the set of messages matters *)
Lemma merge_parsed_set E l l' m :
  good E l -> (1 <= e_lag E)%Z -> (forall x, In x l <-> In x l') ->
  merge_parsed E l = Ok m -> exists m', merge_parsed E l' = Ok m' /\ same_result m m'.
Proof.
  intros hg hlag hi h. assert (hn : l <> []) by (intros ->; discriminate h).
  assert (hg' : good E l') by (eapply good_incl; [exact hg|intros x; apply hi]).
  pose proof (no_overflow_ok _ _ _ hn h) as ho.
  apply (merge_parsed_ext E l l' m); auto.
  - intros x hx. apply ho, hi, hx.
  - intros ->. destruct l as [|x l]; [congruence|]. apply (proj1 (hi x)). left. reflexivity.
  - apply max_seqno_set; [exact hi|intros x hx; apply (ok_seqno _ _ (g_ok _ _ hg x hx))].
  - apply kept_set; assumption.
Qed.
(** C16: a stale message is ignored *)
Lemma merge_parsed_stale E l1 x l2 m :
  good E (l1 ++ x :: l2) -> (1 <= e_lag E)%Z -> too_old E (l1 ++ x :: l2) x = true ->
  merge_parsed E (l1 ++ x :: l2) = Ok m -> exists m', merge_parsed E (l1 ++ l2) = Ok m' /\ same_result m m'.
Proof.
  intros hg hlag ht h. set (l := l1 ++ x :: l2) in *. set (l' := l1 ++ l2).
  assert (hsub : forall y, In y l' -> In y l) by (intros y; unfold l, l'; rewrite !in_app_iff; cbn [In]; tauto).
  assert (hg' : good E l') by (eapply good_incl; eauto).
  assert (hn : l <> []) by (unfold l; destruct l1; discriminate).
  assert (hr : forall y, In y l -> int64_ok (m_seqno y) = true) by (intros y hy; apply (ok_seqno _ _ (g_ok _ _ hg y hy))).
  unfold too_old in ht. apply Z.leb_le in ht.
  destruct (max_seqno_in l hn hr) as (t & ht1 & ht2).
  assert (htx : t <> x) by (intros ->; lia).
  assert (ht3 : In t l') by (unfold l, l' in *; rewrite in_app_iff in *; cbn [In] in ht1; destruct ht1 as [?|[?|?]]; [tauto|congruence|tauto]).
  assert (hn' : l' <> []) by (intros h0; rewrite h0 in ht3; exact ht3).
  assert (hmx : max_seqno l = max_seqno l').
  { destruct (max_seqno_in l' hn') as (t' & h1 & h2); [intros y hy; apply hr, hsub, hy|].
    apply max_seqno_ge in ht3. apply hsub, max_seqno_ge in h1. lia. }
  apply (merge_parsed_ext E l l' m); auto.
  - intros y hy. apply (no_overflow_ok _ _ _ hn h), hsub, hy.
  - apply NoDup_Permutation; [eapply NoDup_map_inv', kept_NoDup; eauto|eapply NoDup_map_inv', kept_NoDup; eauto|].
    intros y. rewrite !kept_In by assumption. unfold too_old. rewrite <- hmx. rewrite !Z.leb_gt.
    split; intros (h1 & h2 & h3).
    + repeat split; [|destruct (included l' y) eqn:Ei; [|reflexivity]|exact h3].
      * unfold l, l' in *. rewrite in_app_iff in *. cbn [In] in h1. destruct h1 as [?|[<-|?]]; [tauto|lia|tauto].
      * apply included_In in Ei as (z & hz1 & hz2). assert (hc : included l y = true); [|congruence].
        apply included_In. exists z. auto.
    + repeat split; [apply hsub; exact h1| |exact h3]. destruct (included l y) eqn:Ei; [|reflexivity].
      apply included_In in Ei as (z & hz1 & hz2). assert (hc : In z l' \/ z = x).
      { unfold l, l' in *. rewrite in_app_iff in *. cbn [In] in hz1. destruct hz1 as [?|[<-|?]]; tauto. }
      destruct hc as [hz| ->].
      * assert (hc : included l' y = true); [|congruence]. apply included_In. exists z. auto.
      * apply (g_old _ _ hg) in hz2; [|exact hz1]. unfold m_seqno in *. lia.
Qed.

(** ** from bytes to parsed messages *)
Lemma parse_all_spec E l : forall i ms bad, parse_all E i l = Ok (ms, bad) ->
  forall m, In m ms <-> exists s, In s l /\ parse_msg E false s = Ok m.
Proof.
  induction l as [|s l IH]; intros i ms bad h m; cbn [parse_all] in h.
  - injection h as <- <-. cbn. split; [tauto|intros (? & [] & _)].
  - destruct (parse_msg E false s) as [m0| | | |] eqn:Ep; try discriminate h.
    + ok_inv h. destruct a as [ms' bad']. injection h as <- <-. cbn [In]. rewrite (IH _ _ _ ha). split.
      * intros [<- | (s' & h1 & h2)]; [exists s; auto|exists s'; auto].
      * intros (s' & [<-|h1] & h2); [left; congruence|right; exists s'; auto].
    + ok_inv h. destruct a as [ms' bad']. injection h as <- <-. rewrite (IH _ _ _ ha). split.
      * intros (s' & h1 & h2). exists s'. split; [right; exact h1|exact h2].
      * intros (s' & [<-|h1] & h2); [congruence|exists s'; auto].
Qed.
Lemma parse_all_ok E l i : (forall s, In s l -> parse_msg E false s = Err \/ exists m, parse_msg E false s = Ok m) <->
  exists r, parse_all E i l = Ok r.
Proof.
  revert i; induction l as [|s l IH]; intros i.
  - split; [eexists; reflexivity|intros _ s []].
  - cbn [parse_all]. split.
    + intros h. assert (hr : exists r, parse_all E (S i) l = Ok r) by (apply IH; intros s' hs'; apply h; right; exact hs').
      destruct hr as [[ms bad] hr]. destruct (h s (or_introl eq_refl)) as [-> | [m ->]]; rewrite hr; cbn [bind]; eauto.
    + intros [r h] s' [<-|hs'].
      * destruct (parse_msg E false s); try discriminate; eauto.
      * assert (hr : exists r, parse_all E (S i) l = Ok r).
        { destruct (parse_msg E false s); try discriminate h; ok_inv h; eauto. }
        exact (proj2 (IH (S i)) hr s' hs').
Qed.
Lemma parse_all_nil E i l : (forall s, In s l -> parse_msg E false s = Err) -> exists bad, parse_all E i l = Ok ([], bad).
Proof.
  revert i; induction l as [|s l IH]; intros i h; [eexists; reflexivity|]. cbn [parse_all]. rewrite (h s (or_introl eq_refl)).
  destruct (IH (S i)) as [bad hb]; [intros s' hs'; apply h; right; exact hs'|]. rewrite hb. cbn [bind]. eauto.
Qed.
Lemma parsed_good E l i ms bad : no_collision E l -> parse_all E i l = Ok (ms, bad) -> good E ms.
Proof.
  intros hc h. pose proof (parse_all_spec _ _ _ _ _ h) as hs. split.
  - intros m hm. apply hs in hm as (s & _ & hp). apply parse_msg_spec in hp. tauto.
  - intros m k hm hk. apply hs in hm as (s & _ & hp). apply parse_msg_spec in hp as (h1 & h2 & _).
    rewrite <- h2 in hk. unfold windowed, keys in hk. apply in_map_iff in hk as (p & <- & hp). apply filter_In in hp as [_ hp].
    apply in_window_spec in hp. apply hp.
  - intros m n hm hn he. apply hs in hm as (s & h1 & h2). apply hs in hn as (t & h3 & h4).
    pose proof (parse_msg_spec _ _ _ _ h2) as (_ & _ & e1 & _). pose proof (parse_msg_spec _ _ _ _ h4) as (_ & _ & e2 & _).
    assert (s = t); [|congruence]. apply hc; auto. congruence.
Qed.
Lemma merge_msgs_inv E l m bad : merge_msgs E l = Ok (m, bad) <->
  exists ms, parse_all E 0 l = Ok (ms, bad) /\ merge_parsed E ms = Ok m.
Proof.
  unfold merge_msgs. split.
  - intros h. ok_inv h. destruct a as [ms b']. ok_inv h. injection h as <- <-. eauto.
  - intros (ms & -> & h). cbn [bind]. rewrite h. reflexivity.
Qed.
(** C13/C17 for bytes *)
Lemma merge_msgs_set E l l' m bad :
  (1 <= e_lag E)%Z -> no_collision E l -> (forall s, In s l <-> In s l') ->
  merge_msgs E l = Ok (m, bad) -> exists m' bad', merge_msgs E l' = Ok (m', bad') /\ same_result m m'.
Proof.
  intros hlag hc hi h. apply merge_msgs_inv in h as (ms & h1 & h2).
  assert (hp : exists r, parse_all E 0 l' = Ok r).
  { apply parse_all_ok. intros s hs. apply hi in hs. revert s hs. apply (parse_all_ok E l 0). eauto. }
  destruct hp as [[ms' bad'] hp].
  assert (hset : forall x, In x ms <-> In x ms').
  { intros x. rewrite (parse_all_spec _ _ _ _ _ h1), (parse_all_spec _ _ _ _ _ hp).
    split; intros (s & a1 & a2); exists s; (split; [apply hi; exact a1|exact a2]). }
  destruct (merge_parsed_set _ _ _ _ (parsed_good _ _ _ _ _ hc h1) hlag hset h2) as (m' & h3 & h4).
  exists m', bad'. split; [|exact h4]. apply merge_msgs_inv. eauto.
Qed.
