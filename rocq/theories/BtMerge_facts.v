(** Proofs of C56. *)
From Verif Require Import BtMerge Maps.
From Coq Require Import Lia Permutation Sorted.

Definition either {A} (x y : option A) : option A := match x with Some _ => x | None => y end.
Lemma sorted_head {V} (x : bytes * V) m : msorted (x :: m) -> msorted m /\ Forall (lt (fst x)) (keys m).
Proof. destruct x as [k v]. apply msorted_cons. Qed.
Lemma head_none {V} (x : bytes * V) m k : msorted (x :: m) -> lt k (fst x) -> lookup k (x :: m) = None.
Proof.
  intros hs hl. apply sorted_head in hs as [_ hf]. destruct (lookup k (x :: m)) as [v|] eqn:e; [|reflexivity]. exfalso. apply lookup_In in e. 
  destruct e as [e|e]; [subst x; cbn [fst] in hl; exact (lt_irrefl _ hl)|]. rewrite Forall_forall in hf. assert (hk : In k (keys m)) by (apply in_map_iff; exists (k, v); auto). specialize (hf _ hk).
  exact (lt_irrefl _ (lt_trans _ _ _ hl hf)).
Qed.
Lemma head_rest {V} (x : bytes * V) m : msorted (x :: m) -> lookup (fst x) m = None.
Proof.
  intros hs. apply sorted_head in hs as [_ hf]. destruct (lookup (fst x) m) as [v|] eqn:e; [|reflexivity]. exfalso. apply lookup_In in e. rewrite Forall_forall in hf. 
  assert (hk : In (fst x) (keys m)) by (apply in_map_iff; exists (fst x, v); auto). exact (lt_irrefl _ (hf _ hk)).
Qed.
Lemma put_read (x : bytes * bt) res k (rest : option bt) : msorted res -> 
  either (lookup k (emplace (fst x) (snd x) res)) rest = either (lookup k res) (if eqb k (fst x) then Some (snd x) else rest).
Proof.
  intros hr. rewrite (lookup_emplace _ _ _ _ hr). destruct (eqb k (fst x)) eqn:e; [|destruct (lookup k res); reflexivity]. apply eqb_eq in e. subst k. destruct (lookup (fst x) res); reflexivity.
Qed.
Lemma merge_loop_spec a : forall b2 res, msorted a -> msorted b2 -> msorted res ->
  msorted (merge_loop a b2 res) /\ forall k, lookup k (merge_loop a b2 res) = either (lookup k res) (either (lookup k a) (lookup k b2)).
Proof.
  induction a as [|x a IHa]; intros b2; induction b2 as [|y b2 IHb]; intros res ha hb hr.
  - cbn. split; [exact hr|]. intros k. destruct (lookup k res); reflexivity.
  - change (merge_loop [] (y :: b2) res) with (merge_loop [] b2 (emplace (fst y) (snd y) res)). destruct (sorted_head _ _ hb) as [hb' _].
    destruct (IHb (emplace (fst y) (snd y) res) ha hb' (msorted_emplace _ _ _ hr)) as [h1 h2]. split; [exact h1|]. intros k. rewrite h2, put_read by exact hr.
    destruct y as [ky vy]. cbn [fst snd lookup either]. destruct (eqb k ky); reflexivity.
  - cbn [merge_loop]. destruct (sorted_head _ _ ha) as [ha' _]. destruct (IHa [] (emplace (fst x) (snd x) res) ha' hb (msorted_emplace _ _ _ hr)) as [h1 h2]. split; [exact h1|]. intros k. rewrite h2, put_read by exact hr.
    destruct x as [kx vx]. cbn [fst snd lookup]. destruct (eqb k kx); reflexivity.
  - destruct (sorted_head _ _ ha) as [ha' _], (sorted_head _ _ hb) as [hb' _]. cbn [merge_loop]. destruct (cmp (fst x) (fst y)) eqn:ec.
    + destruct (IHa b2 (emplace (fst x) (snd x) res) ha' hb' (msorted_emplace _ _ _ hr)) as [h1 h2]. split; [exact h1|]. intros k. rewrite h2, put_read by exact hr.
      apply cmp_eq in ec. destruct x as [kx vx], y as [ky vy]. cbn [fst snd lookup] in *. subst ky. destruct (eqb k kx) eqn:e; reflexivity.
    + destruct (IHa (y :: b2) (emplace (fst x) (snd x) res) ha' hb (msorted_emplace _ _ _ hr)) as [h1 h2]. split; [exact h1|]. intros k. rewrite h2, put_read by exact hr.
      destruct x as [kx vx]. cbn [fst snd lookup] in *. destruct (eqb k kx) eqn:e; reflexivity.
    + destruct (IHb (emplace (fst y) (snd y) res) ha hb' (msorted_emplace _ _ _ hr)) as [h1 h2]. split; [exact h1|]. intros k. change (either (lookup k res) (either (lookup k (x :: a)) (lookup k (y :: b2)))) with (either (lookup k res) (either (lookup k (x :: a)) (lookup k (y :: b2)))).
      rewrite h2, put_read by exact hr. destruct (eqb k (fst y)) eqn:e.
      * apply eqb_eq in e. subst k. assert (hn : lookup (fst y) (x :: a) = None). { apply (head_none x a _ ha). apply cmp_gt_lt, ec. }
        rewrite hn. cbn [either]. destruct y as [ky vy]. cbn [fst snd lookup]. rewrite eqb_refl. reflexivity.
      * destruct y as [ky vy]. cbn [fst snd] in *. cbn [lookup]. rewrite e. reflexivity.
Qed.

Section lists.
  Context {T : Type} (less : T -> T -> bool).
  Definition weak_order : Prop := (forall x, less x x = false) /\ (forall x y z, less x y = true -> less y z = true -> less x z = true) /\
    (forall x y z, less x y = false -> less y z = false -> less x z = false).
  Definition in_order : list T -> Prop := StronglySorted (fun x y => less y x = false).
  Definition same (x y : T) : bool := negb (less x y) && negb (less y x).
  Hypothesis ho : weak_order.
  Lemma less_asym x y : less x y = true -> less y x = false.
  Proof. destruct ho as (h1 & h2 & _). intros h. destruct (less y x) eqn:e; [|reflexivity]. specialize (h2 _ _ _ h e). rewrite h1 in h2. discriminate. Qed.
  Lemma below_all x y l : less y x = false -> Forall (fun z => less z y = false) l -> Forall (fun z => less z x = false) l.
  Proof. destruct ho as (_ & _ & h3). intros h hf. eapply Forall_impl; [|exact hf]. intros z hz. exact (h3 _ _ _ hz h). Qed.
  Lemma less_le x y z : less x y = true -> less z y = false -> less x z = true.
  Proof. destruct ho as (_ & _ & h3). intros h1 h2. destruct (less x z) eqn:e; [reflexivity|]. rewrite (h3 _ _ _ e h2) in h1. discriminate. Qed.
  Lemma dups_spec a : forall b2, in_order a -> in_order b2 -> in_order (merge_dups less a b2) /\ Permutation (merge_dups less a b2) (a ++ b2).
  Proof.
    induction a as [|x a IHa]; intros b2 ha hb; [destruct b2; cbn; split; auto|]. induction b2 as [|y b2 IHb]; [cbn; rewrite app_nil_r; split; auto|].
    inversion ha as [|x0 a0 ha' hx]; subst. inversion hb as [|y0 b0 hb' hy]; subst. cbn [merge_dups]. fold (merge_dups less). destruct (less x y) eqn:e; cbn [negb].
    - destruct (IHa (y :: b2) ha' hb) as [i1 i2]. split; [|cbn [app]; apply perm_skip, i2]. constructor; [exact i1|]. 
      apply (Permutation_Forall (Permutation_sym i2)). apply Forall_app. split; [exact hx|]. pose proof (less_asym _ _ e) as e'. constructor; [exact e'|]. exact (below_all _ _ _ e' hy).
    - destruct (IHb hb') as [i1 i2]. change ((fix go (b2 : list T) : list T := match b2 with [] => x :: a | y :: b' => if negb (less x y) then y :: go b' else x :: merge_dups less a b2 end) b2) with (merge_dups less (x :: a) b2).
      split; [|apply (Permutation_trans (l' := y :: (x :: a) ++ b2)); [apply perm_skip, i2|]; apply Permutation_cons_app; reflexivity]. constructor; [exact i1|].
      apply (Permutation_Forall (Permutation_sym i2)). apply Forall_app. split; [|exact hy]. constructor; [exact e|]. exact (below_all _ _ _ e hx).
  Qed.
  Definition absent (a : list T) (y : T) : bool := negb (existsb (fun x => same x y) a).
  Lemma absent_cons x a y : absent (x :: a) y = negb (same x y) && absent a y.
  Proof. unfold absent. cbn [existsb]. apply negb_orb. Qed.
  Lemma nodups_spec a : forall b2, in_order a -> in_order b2 -> in_order (merge_nodups less a b2) /\ Permutation (merge_nodups less a b2) (a ++ filter (absent a) b2).
  Proof.
    induction a as [|x a IHa]; intros b2 ha hb.
    - assert (e : filter (absent []) b2 = b2) by (induction b2 as [|y b2 IH]; [reflexivity|]; cbn; inversion hb; subst; rewrite IH by assumption; reflexivity). rewrite e. destruct b2; cbn; split; auto.
    - induction b2 as [|y b2 IHb]; [cbn; rewrite app_nil_r; split; auto|]. inversion ha as [|x0 a0 ha' hx]; subst. inversion hb as [|y0 b0 hb' hy]; subst. cbn [merge_nodups]. fold (merge_nodups less).
      change ((fix go (b2 : list T) : list T := match b2 with [] => x :: a | y :: b' => if less y x then y :: go b' else if less x y then x :: merge_nodups less a b2 else go b' end) b2) with (merge_nodups less (x :: a) b2).
      destruct (less y x) eqn:e1; [|destruct (less x y) eqn:e2].
      + destruct (IHb hb') as [i1 i2].
        assert (hab : absent (x :: a) y = true).
        { unfold absent. apply negb_true_iff. apply Bool.not_true_iff_false. intros h. apply existsb_exists in h as (z & hz & hs). unfold same in hs. apply andb_prop in hs as [_ hs].
          apply negb_true_iff in hs. destruct hz as [<-|hz]; [congruence|]. rewrite Forall_forall in hx. specialize (hx z hz). rewrite (less_le _ _ _ e1 hx) in hs. discriminate. }
        cbn [filter]. rewrite hab. split; [|apply (Permutation_trans (l' := y :: (x :: a) ++ filter (absent (x :: a)) b2)); [apply perm_skip, i2|]; apply Permutation_cons_app; reflexivity].
        constructor; [exact i1|]. apply (Permutation_Forall (Permutation_sym i2)). apply Forall_app. pose proof (less_asym _ _ e1) as e'. split; [constructor; [exact e'|exact (below_all _ _ _ e' hx)]|].
        apply Forall_forall. intros z hz. apply filter_In in hz as [hz _]. rewrite Forall_forall in hy. exact (hy z hz).
      + destruct (IHa (y :: b2) ha' hb) as [i1 i2].
        assert (hsame : filter (absent (x :: a)) (y :: b2) = filter (absent a) (y :: b2)).
        { apply filter_ext_in. intros z hz. rewrite absent_cons. assert (hl : less x z = true). { destruct hz as [<-|hz]; [exact e2|]. rewrite Forall_forall in hy. exact (less_le _ _ _ e2 (hy z hz)). }
          unfold same. rewrite hl. reflexivity. }
        rewrite hsame. split; [|cbn [app]; apply perm_skip, i2]. constructor; [exact i1|]. apply (Permutation_Forall (Permutation_sym i2)). apply Forall_app. split; [exact hx|].
        apply Forall_forall. intros z hz. apply filter_In in hz as [hz _]. pose proof (below_all _ _ _ (less_asym _ _ e2) hy) as hy'. destruct hz as [<-|hz]; [exact (less_asym _ _ e2)|]. rewrite Forall_forall in hy'. exact (hy' z hz).
      + destruct (IHb hb') as [i1 i2]. split; [exact i1|]. cbn [filter]. rewrite absent_cons. unfold same. rewrite e1, e2. cbn [negb andb]. exact i2.
  Qed.
End lists.
