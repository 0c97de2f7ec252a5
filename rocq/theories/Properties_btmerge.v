(** C56: the merging helpers.  Statements only; the proofs are in BtMerge_facts.v. *)
From Verif Require Import BtMerge Maps BtMerge_facts.
From Coq Require Import Permutation Sorted Lia.

(** The merged dict is sorted; a key's value is [a]'s if it has one, else that of the other. *)
Theorem C56_dict a c : msorted a -> msorted c -> msorted (bt_merge a c) /\
  forall k, lookup k (bt_merge a c) = match lookup k a with Some v => Some v | None => lookup k c end.
Proof. intros ha hc. destruct (merge_loop_spec a c [] ha hc msorted_nil) as [h1 h2]. split; [exact h1|]. intros k. unfold bt_merge. rewrite h2. cbn [lookup either]. unfold either. destruct (lookup k a); reflexivity. Qed.
Print Assumptions C56_dict.
Example ex_C56_dict : let x := [(b "a", BInt 1); (b "b", BInt 2); (b "c", BInt 3)] in let y := [(b "Z", BInt 4); (b "a", BInt 42); (b "b", BInt (-123)); (b "x", BInt 12)] in
  msorted x /\ msorted y /\ bt_merge x y = [(b "Z", BInt 4); (b "a", BInt 1); (b "b", BInt 2); (b "c", BInt 3); (b "x", BInt 12)] /\ bt_merge [] y = y /\ bt_merge y [] = y.
Proof. split; [apply ssortedb_spec; reflexivity|]. split; [apply ssortedb_spec; reflexivity|]. repeat split. Qed.

(** For a comparison that is a strict weak order (what std::sort asks for) and lists in order: the result is in order and
    consists of the elements of both, each as often as in the two together; without [duplicates] the elements of the second
    list that compare equal to one of the first are left out. *)
Theorem C56_list {T} (less : T -> T -> bool) a c duplicates : weak_order less -> in_order less a -> in_order less c ->
  in_order less (merge_sorted less a c duplicates) /\
  Permutation (merge_sorted less a c duplicates) (a ++ if duplicates then c else filter (fun y => negb (existsb (fun x => negb (less x y) && negb (less y x)) a)) c).
Proof. intros ho ha hc. destruct duplicates; [exact (dups_spec less ho a c ha hc)|exact (nodups_spec less ho a c ha hc)]. Qed.
Print Assumptions C56_list.
(** If no two elements of the same list compare equal, none of the result do. *)
Theorem C56_list_set {T} (less : T -> T -> bool) a c : weak_order less -> StronglySorted (fun x y => less x y = true) a -> StronglySorted (fun x y => less x y = true) c ->
  StronglySorted (fun x y => less x y = true) (merge_sorted less a c false).
Proof.
  intros ho ha hc. assert (hw : forall l, StronglySorted (fun x y => less x y = true) l -> in_order less l).
  { induction l as [|x l IH]; intros h; inversion h as [|x0 l0 h1 h2]; subst; constructor; [exact (IH h1)|]. eapply Forall_impl; [|exact h2]. intros z hz. exact (less_asym less ho _ _ hz). }
  unfold merge_sorted. revert c ha hc. induction a as [|x a IHa]; intros c ha hc; [destruct c; exact hc|]. induction c as [|y c IHc]; [exact ha|].
  inversion ha as [|x0 a0 ha' hx]; subst. inversion hc as [|y0 b0 hc' hy]; subst. pose proof (nodups_spec less ho) as hn. cbn [merge_nodups]. fold (merge_nodups less).
  change ((fix go (b2 : list T) : list T := match b2 with [] => x :: a | y :: b' => if less y x then y :: go b' else if less x y then x :: merge_nodups less a b2 else go b' end) c) with (merge_nodups less (x :: a) c).
  pose proof ho as (h1 & h2 & h3). destruct (less y x) eqn:e1; [|destruct (less x y) eqn:e2].
  - constructor; [apply IHc, hc'|]. destruct (hn (x :: a) c (hw _ ha) (hw _ hc')) as [_ i]. apply (Permutation_Forall (Permutation_sym i)). apply Forall_app. split.
    + constructor; [exact e1|]. eapply Forall_impl; [|exact hx]. intros z hz. exact (h2 _ _ _ e1 hz).
    + apply Forall_forall. intros z hz. apply filter_In in hz as [hz _]. rewrite Forall_forall in hy. exact (hy z hz).
  - constructor; [apply IHa; assumption|]. destruct (hn a (y :: c) (hw _ ha') (hw _ hc)) as [_ i]. apply (Permutation_Forall (Permutation_sym i)). apply Forall_app. split; [exact hx|].
    apply Forall_forall. intros z hz. apply filter_In in hz as [hz _]. destruct hz as [<-|hz]; [exact e2|]. rewrite Forall_forall in hy. exact (h2 _ _ _ e2 (hy z hz)).
  - apply IHc, hc'.
Qed.
Print Assumptions C56_list_set.
Example ex_C56_list : weak_order Z.ltb /\ in_order Z.ltb [1; 2; 2; 5; 8]%Z /\ merge_sorted Z.ltb [1; 2; 2; 5; 8]%Z [2; 4; 4; 8; 16]%Z false = [1; 2; 2; 4; 4; 5; 8; 16]%Z /\
  merge_sorted Z.ltb [1; 2; 5]%Z [2; 4]%Z true = [1; 2; 2; 4; 5]%Z.
Proof.
  split; [|split; [|split; reflexivity]].
  - split; [exact Z.ltb_irrefl|]. split; [intros x y z; rewrite !Z.ltb_lt; lia|intros x y z; rewrite !Z.ltb_ge; lia].
  - repeat constructor.
Qed.
