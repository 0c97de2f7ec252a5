(** `std::map` and `std::set` as strictly sorted lists.  Equal containers are equal terms. *)
From Verif Require Export Bytes.

Section ops.
  Context {K : Type} `{Cmp K}.

  (** strictly increasing *)
  Definition ssorted (l : list K) : Prop := StronglySorted lt l.
  Fixpoint ssortedb (l : list K) : bool :=
    match l with
    | [] => true
    | x :: r => match r with [] => true | y :: _ => ltb x y && ssortedb r end
    end.

  (** std::set *)
  Fixpoint mem (x : K) (l : list K) : bool :=
    match l with [] => false | y :: r => eqb x y || mem x r end.
  Fixpoint sadd (x : K) (l : list K) : list K :=
    match l with
    | [] => [x]
    | y :: r => match cmp x y with Lt => x :: l | Eq => l | Gt => y :: sadd x r end
    end.
  Definition sdel (x : K) (l : list K) : list K := filter (fun y => negb (eqb x y)) l.

  Context {V : Type}.
  (** std::map *)
  Definition keys (m : list (K * V)) : list K := map fst m.
  Definition msorted (m : list (K * V)) : Prop := ssorted (keys m).
  Fixpoint lookup (k : K) (m : list (K * V)) : option V :=
    match m with [] => None | (k', v) :: r => if eqb k k' then Some v else lookup k r end.
  (** operator[]= / insert_or_assign *)
  Fixpoint insert (k : K) (v : V) (m : list (K * V)) : list (K * V) :=
    match m with
    | [] => [(k, v)]
    | (k', v') :: r =>
        match cmp k k' with Lt => (k, v) :: m | Eq => (k, v) :: r | Gt => (k', v') :: insert k v r end
    end.
  Definition erase (k : K) (m : list (K * V)) : list (K * V) :=
    filter (fun p => negb (eqb k (fst p))) m.
  (** emplace: keeps an existing value *)
  Definition emplace (k : K) (v : V) (m : list (K * V)) : list (K * V) :=
    match lookup k m with Some _ => m | None => insert k v m end.
End ops.

Section facts.
  Context {K : Type} `{HL : CmpLaws K}.

  Lemma ssortedb_spec (l : list K) : ssortedb l = true <-> ssorted l.
  Proof.
    unfold ssorted. split.
    - induction l as [|x [|y r] IH]; intros h; [constructor | repeat constructor |].
      change (ltb x y && ssortedb (y :: r) = true) in h. apply andb_true_iff in h as [h1 h2]. apply ltb_lt in h1.
      specialize (IH h2). constructor; [exact IH|].
      inversion IH as [|? ? hs hf]; subst. constructor; [exact h1|].
      eapply Forall_impl; [|exact hf]. intros a ha. eapply lt_trans; eauto.
    - induction 1 as [|x r hs IH hf]; [reflexivity|].
      destruct r as [|y r]; [reflexivity|]. change (ltb x y && ssortedb (y :: r) = true). rewrite IH, andb_true_r.
      apply ltb_lt. inversion hf; assumption.
  Qed.

  Lemma ssorted_nil : ssorted (@nil K). Proof. constructor. Qed.
  Lemma ssorted_cons (x : K) l : ssorted (x :: l) <-> ssorted l /\ Forall (lt x) l.
  Proof. split; [intros h; inversion h; auto | intros [h1 h2]; constructor; auto]. Qed.
  Lemma ssorted_NoDup (l : list K) : ssorted l -> NoDup l.
  Proof.
    induction l as [|x l IH]; intros h; constructor; apply ssorted_cons in h as [h1 h2]; [|auto].
    intros hin. rewrite Forall_forall in h2. apply (lt_irrefl x), h2, hin.
  Qed.
  Lemma ssorted_filter (f : K -> bool) l : ssorted l -> ssorted (filter f l).
  Proof.
    induction l as [|x l IH]; intros h; cbn [filter]; [constructor|].
    apply ssorted_cons in h as [h1 h2]. destruct (f x); [|auto].
    apply ssorted_cons; split; [auto|]. rewrite Forall_forall in *. intros y hy.
    apply filter_In in hy as [hy _]. auto.
  Qed.
  Lemma ssorted_app (l1 l2 : list K) :
    ssorted (l1 ++ l2) <-> ssorted l1 /\ ssorted l2 /\ (forall x y, In x l1 -> In y l2 -> lt x y).
  Proof.
    induction l1 as [|a l1 IH]; cbn [app].
    - split; [intros h; split; [constructor|split; [exact h|intros ? ? []]] | intros (_ & h & _); exact h].
    - rewrite !ssorted_cons, IH, Forall_app, !Forall_forall. split.
      + intros ((h1 & h2 & h3) & h4 & h5). repeat split; auto. intros x y [<-|hx] hy; auto.
      + intros ((h1 & h2) & h3 & h4). repeat split; auto.
        * intros x y hx hy. apply h4; [right; exact hx|exact hy].
        * intros y hy. apply h4; [left; reflexivity|exact hy].
  Qed.

  Lemma mem_In (x : K) l : mem x l = true <-> In x l.
  Proof.
    induction l as [|y l IH]; cbn [mem In]; [split; [congruence|tauto]|].
    rewrite orb_true_iff, eqb_eq, IH. split; intros [h|h]; auto.
  Qed.
  Lemma mem_In_false (x : K) l : mem x l = false <-> ~ In x l.
  Proof. rewrite <- mem_In. destruct (mem x l); split; congruence. Qed.

  (** two sorted lists with the same elements are equal *)
  Lemma ssorted_ext (l1 l2 : list K) :
    ssorted l1 -> ssorted l2 -> (forall x, In x l1 <-> In x l2) -> l1 = l2.
  Proof.
    revert l2; induction l1 as [|a l1 IH]; intros [|c l2] h1 h2 hx; [reflexivity| | |].
    - exfalso. apply (hx c); left; reflexivity.
    - exfalso. apply (hx a); left; reflexivity.
    - apply ssorted_cons in h1 as [h1 f1], h2 as [h2 f2]. rewrite Forall_forall in f1, f2.
      assert (a = c) as <-.
      { destruct (proj1 (hx a) (or_introl eq_refl)) as [->|hin]; [reflexivity|].
        destruct (proj2 (hx c) (or_introl eq_refl)) as [->|hin2]; [reflexivity|].
        exfalso. apply (lt_asym a c); auto. }
      f_equal. apply IH; auto. intros x. specialize (hx x). cbn [In] in hx. split; intros hin.
      + destruct (proj1 hx (or_intror hin)) as [<-|]; [|assumption]. exfalso; apply (lt_irrefl a); auto.
      + destruct (proj2 hx (or_intror hin)) as [<-|]; [|assumption]. exfalso; apply (lt_irrefl a); auto.
  Qed.

  Lemma In_sadd (x y : K) l : In y (sadd x l) <-> y = x \/ In y l.
  Proof.
    induction l as [|z l IH]; cbn [sadd In]; [intuition|].
    destruct (cmp x z) eqn:E; cbn [In].
    - apply cmp_eq in E; subst. intuition.
    - intuition.
    - rewrite IH. intuition.
  Qed.
  Lemma ssorted_sadd (x : K) l : ssorted l -> ssorted (sadd x l).
  Proof.
    induction l as [|z l IH]; cbn [sadd]; intros h; [repeat constructor|].
    destruct (cmp x z) eqn:E; [exact h| |]; apply ssorted_cons in h as [h1 h2]; rewrite Forall_forall in h2.
    - apply ssorted_cons; split; [apply ssorted_cons; split; [auto|rewrite Forall_forall; auto]|].
      rewrite Forall_forall. intros y [<-|hy]; [exact E|eapply lt_trans; [exact E|auto]].
    - apply ssorted_cons; split; [auto|]. rewrite Forall_forall. intros y hy.
      apply In_sadd in hy as [->|hy]; [apply cmp_gt_lt; exact E|auto].
  Qed.
  Lemma In_sdel (x y : K) l : In y (sdel x l) <-> y <> x /\ In y l.
  Proof.
    unfold sdel. rewrite filter_In, negb_true_iff, eqb_neq. intuition.
  Qed.
  Lemma ssorted_sdel (x : K) l : ssorted l -> ssorted (sdel x l).
  Proof. apply ssorted_filter. Qed.

  Context {V : Type}.
  Implicit Types m : list (K * V).

  Lemma msorted_nil : msorted (@nil (K * V)). Proof. constructor. Qed.
  Lemma lookup_In k v m : lookup k m = Some v -> In (k, v) m.
  Proof.
    induction m as [|[k' v'] m IH]; cbn [lookup]; [congruence|].
    destruct (eqb k k') eqn:E; [apply eqb_eq in E; intros [= ->]; subst; left; reflexivity|right; auto].
  Qed.
  Lemma In_keys k v m : In (k, v) m -> In k (keys m).
  Proof. intros h. apply in_map_iff. exists (k, v); auto. Qed.
  Lemma lookup_None k m : lookup k m = None <-> ~ In k (keys m).
  Proof.
    induction m as [|[k' v'] m IH]; cbn [lookup keys map fst In]; [tauto|].
    destruct (eqb k k') eqn:E.
    - apply eqb_eq in E; subst. split; [congruence|intros h; exfalso; apply h; left; reflexivity].
    - apply eqb_neq in E. rewrite IH. unfold keys. split; [intros h [hx|hx]; congruence||auto|auto].
  Qed.
  Lemma lookup_keys k m : In k (keys m) <-> exists v, lookup k m = Some v.
  Proof.
    destruct (lookup k m) eqn:E.
    - split; [eauto|]. intros _. apply lookup_In in E. eapply In_keys; eauto.
    - apply lookup_None in E. split; [tauto|intros [v hv]; congruence].
  Qed.
  Lemma msorted_cons k v m : msorted ((k, v) :: m) <-> msorted m /\ Forall (lt k) (keys m).
  Proof. apply ssorted_cons. Qed.
  Lemma In_lookup k v m : msorted m -> In (k, v) m -> lookup k m = Some v.
  Proof.
    induction m as [|[k' v'] m IH]; [intros _ []|]. intros hs hin.
    apply msorted_cons in hs as [hs hf]. cbn [lookup]. destruct hin as [[= -> ->]|hin].
    - rewrite eqb_refl. reflexivity.
    - destruct (eqb k k') eqn:E; [|auto]. apply eqb_eq in E; subst. exfalso.
      rewrite Forall_forall in hf. apply (lt_irrefl k'), hf. eapply In_keys; eauto.
  Qed.
  Lemma lookup_lt_head k m : Forall (lt k) (keys m) -> lookup k m = None.
  Proof.
    intros hf. apply lookup_None. intros hin. rewrite Forall_forall in hf. apply (lt_irrefl k); auto.
  Qed.

  Lemma msorted_ext m1 m2 : msorted m1 -> msorted m2 -> (forall k, lookup k m1 = lookup k m2) -> m1 = m2.
  Proof.
    revert m2; induction m1 as [|[k1 v1] m1 IH]; intros [|[k2 v2] m2] h1 h2 hx; [reflexivity| | |].
    - specialize (hx k2). cbn [lookup] in hx. rewrite eqb_refl in hx. congruence.
    - specialize (hx k1). cbn [lookup] in hx. rewrite eqb_refl in hx. congruence.
    - apply msorted_cons in h1 as [h1 f1], h2 as [h2 f2].
      assert (k1 = k2) as <-.
      { destruct (lt_total k1 k2) as [hl|[he|hl]]; [|exact he|]; exfalso.
        - specialize (hx k1). cbn [lookup] in hx. rewrite eqb_refl in hx.
          replace (eqb k1 k2) with false in hx
            by (symmetry; apply eqb_neq; intros ->; apply (lt_irrefl k2); auto).
          rewrite lookup_lt_head in hx; [congruence|]. eapply Forall_impl; [|exact f2].
          intros a ha. eapply lt_trans; eauto.
        - specialize (hx k2). cbn [lookup] in hx. rewrite eqb_refl in hx.
          replace (eqb k2 k1) with false in hx
            by (symmetry; apply eqb_neq; intros ->; apply (lt_irrefl k1); auto).
          rewrite lookup_lt_head in hx; [congruence|]. eapply Forall_impl; [|exact f1].
          intros a ha. eapply lt_trans; eauto. }
      assert (v1 = v2) as <-.
      { specialize (hx k1). cbn [lookup] in hx. rewrite eqb_refl in hx. congruence. }
      f_equal. apply IH; auto. intros k. specialize (hx k). cbn [lookup] in hx.
      destruct (eqb k k1) eqn:E; [|exact hx]. apply eqb_eq in E; subst.
      rewrite !lookup_lt_head by assumption. reflexivity.
  Qed.

  Lemma lookup_insert k v m k' : msorted m ->
    lookup k' (insert k v m) = if eqb k' k then Some v else lookup k' m.
  Proof.
    induction m as [|[k1 v1] m IH]; cbn [insert lookup]; intros hs; [reflexivity|].
    apply msorted_cons in hs as [hs hf].
    destruct (cmp k k1) eqn:E; cbn [lookup].
    - apply cmp_eq in E; subst. destruct (eqb k' k1); reflexivity.
    - destruct (eqb k' k) eqn:E2; [reflexivity|reflexivity].
    - rewrite IH by exact hs. destruct (eqb k' k1) eqn:E2; [|reflexivity].
      apply eqb_eq in E2; subst. destruct (eqb k1 k) eqn:E3; [|reflexivity].
      apply eqb_eq in E3; subst. rewrite cmp_refl in E; congruence.
  Qed.
  Lemma In_keys_insert k v m k' : In k' (keys (insert k v m)) <-> k' = k \/ In k' (keys m).
  Proof.
    induction m as [|[k1 v1] m IH]; cbn [insert keys map fst In]; [intuition|].
    destruct (cmp k k1) eqn:E; cbn [map fst In].
    - apply cmp_eq in E; subst. intuition.
    - intuition.
    - unfold keys in IH. rewrite IH. intuition.
  Qed.
  Lemma msorted_insert k v m : msorted m -> msorted (insert k v m).
  Proof.
    induction m as [|[k1 v1] m IH]; cbn [insert]; intros hs; [repeat constructor|].
    destruct (cmp k k1) eqn:E; apply msorted_cons in hs as [hs hf]; rewrite Forall_forall in hf.
    - apply cmp_eq in E; subst. apply msorted_cons; split; [auto|rewrite Forall_forall; auto].
    - apply msorted_cons; split; [apply msorted_cons; split; [auto|rewrite Forall_forall; auto]|].
      rewrite Forall_forall. intros y [<-|hy]; [exact E|eapply lt_trans; [exact E|auto]].
    - apply msorted_cons; split; [auto|]. rewrite Forall_forall. intros y hy.
      apply In_keys_insert in hy as [->|hy]; [apply cmp_gt_lt; exact E|auto].
  Qed.
  Lemma lookup_erase k m k' : lookup k' (erase k m) = if eqb k' k then None else lookup k' m.
  Proof.
    induction m as [|[k1 v1] m IH]; cbn [erase filter lookup fst]; [destruct (eqb k' k); reflexivity|].
    destruct (eqb k k1) eqn:E; cbn [negb lookup].
    - apply eqb_eq in E; subst. unfold erase in IH. rewrite IH. destruct (eqb k' k1); reflexivity.
    - unfold erase in IH. rewrite IH. destruct (eqb k' k1) eqn:E2; [|reflexivity].
      apply eqb_eq in E2; subst. destruct (eqb k1 k) eqn:E3; [|reflexivity].
      apply eqb_eq in E3; subst. rewrite eqb_refl in E; congruence.
  Qed.
  Lemma keys_erase k m : keys (erase k m) = filter (fun x => negb (eqb k x)) (keys m).
  Proof.
    induction m as [|[k1 v1] m IH]; cbn; [reflexivity|].
    destruct (eqb k k1); cbn; [exact IH|]. unfold keys, erase in IH. rewrite IH. reflexivity.
  Qed.
  Lemma msorted_erase k m : msorted m -> msorted (erase k m).
  Proof. unfold msorted. rewrite keys_erase. apply ssorted_filter. Qed.

  Lemma msorted_filter (f : K * V -> bool) m : msorted m -> msorted (filter f m).
  Proof.
    induction m as [|[k v] m IH]; intros hs; cbn [filter]; [constructor|].
    apply msorted_cons in hs as [hs hf]. destruct (f (k, v)); [|auto].
    apply msorted_cons; split; [auto|]. rewrite Forall_forall in *. intros y hy.
    apply in_map_iff in hy as ([y' w] & <- & hy). apply filter_In in hy as [hy _].
    apply hf. eapply In_keys; eauto.
  Qed.
  Lemma lookup_filter (f : K * V -> bool) m k : msorted m ->
    lookup k (filter f m) = match lookup k m with Some v => if f (k, v) then Some v else None | None => None end.
  Proof.
    induction m as [|[k1 v1] m IH]; intros hs; [reflexivity|].
    apply msorted_cons in hs as [hs hf]. cbn [filter lookup].
    destruct (eqb k k1) eqn:E.
    - apply eqb_eq in E; subst. destruct (f (k1, v1)) eqn:Ef; cbn [lookup].
      + rewrite eqb_refl. reflexivity.
      + apply lookup_lt_head. rewrite Forall_forall in *. intros y hy.
        apply in_map_iff in hy as ([y' w] & <- & hy). apply filter_In in hy as [hy _].
        apply hf. eapply In_keys; eauto.
    - destruct (f (k1, v1)); cbn [lookup]; [rewrite E|]; auto.
  Qed.

  Lemma lookup_emplace k v m k' : msorted m ->
    lookup k' (emplace k v m) =
    match lookup k' m with Some w => Some w | None => if eqb k' k then Some v else None end.
  Proof.
    intros hs. unfold emplace. destruct (lookup k m) eqn:E.
    - destruct (lookup k' m) eqn:E2; [reflexivity|]. destruct (eqb k' k) eqn:E3; [|reflexivity].
      apply eqb_eq in E3; subst. congruence.
    - rewrite lookup_insert by exact hs. destruct (eqb k' k) eqn:E3.
      + apply eqb_eq in E3; subst. rewrite E. reflexivity.
      + destruct (lookup k' m); reflexivity.
  Qed.
  Lemma msorted_emplace k v m : msorted m -> msorted (emplace k v m).
  Proof. intros hs. unfold emplace. destruct (lookup k m); [exact hs|]. apply msorted_insert, hs. Qed.

  Lemma erase_notin k m : ~ In k (keys m) -> erase k m = m.
  Proof.
    induction m as [|[k1 v1] m IH]; intros h; [reflexivity|]. cbn [erase filter fst].
    destruct (eqb k k1) eqn:E.
    - apply eqb_eq in E; subst. exfalso. apply h. left. reflexivity.
    - cbn [negb]. f_equal. apply IH. intros hin. apply h. right. exact hin.
  Qed.
  Lemma insert_same k v m : msorted m -> lookup k m = Some v -> insert k v m = m.
  Proof.
    intros hs hl. apply msorted_ext; [apply msorted_insert, hs|exact hs|].
    intros k'. rewrite lookup_insert by exact hs. destruct (eqb k' k) eqn:E; [|reflexivity].
    apply eqb_eq in E; subst. congruence.
  Qed.

  Lemma lookup_app k m1 m2 :
    lookup k (m1 ++ m2) = match lookup k m1 with Some v => Some v | None => lookup k m2 end.
  Proof.
    induction m1 as [|[k1 v1] m1 IH]; cbn [app lookup]; [reflexivity|]. destruct (eqb k k1); auto.
  Qed.
  Lemma keys_app m1 m2 : keys (m1 ++ m2) = keys m1 ++ keys m2.
  Proof. apply map_app. Qed.
End facts.

(** The generic code never needs the laws to compute, so keep it reducible. *)
Lemma lookup_map {K V W} `{Cmp K} (f : V -> W) (m : list (K * V)) k :
  lookup k (map (fun p => (fst p, f (snd p))) m) = option_map f (lookup k m).
Proof.
  induction m as [|[k1 v1] m IH]; cbn [map lookup fst snd]; [reflexivity|].
  destruct (eqb k k1); [reflexivity|exact IH].
Qed.
Lemma keys_map {K V W} (f : V -> W) (m : list (K * V)) :
  map fst (map (fun p => (fst p, f (snd p))) m) = map fst m.
Proof. induction m as [|[k1 v1] m IH]; cbn; [reflexivity|]. rewrite IH. reflexivity. Qed.
