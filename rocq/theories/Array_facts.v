(** Lemmas for C104. *)
From Verif Require Import ArraySpec.
From Coq Require Import Lia Permutation.

Lemma in_at {V} p (l : list (nat * V)) v : at_ p l = Some v -> In (p, v) l.
Proof. induction l as [|[q w] r IH]; cbn; [discriminate|]. destruct (Nat.eqb p q) eqn:e; [apply Nat.eqb_eq in e as <-; intros [= ->]; left; reflexivity|auto]. Qed.
Lemma at_in {V} p (l : list (nat * V)) v : NoDup (map fst l) -> In (p, v) l -> at_ p l = Some v.
Proof.
  induction l as [|[q w] r IH]; cbn; [tauto|]. intros hn hi. inversion hn as [|? ? n1 n2]; subst. destruct hi as [[= -> ->]|hi]; [rewrite Nat.eqb_refl; reflexivity|].
  destruct (Nat.eqb p q) eqn:e; [|auto]. apply Nat.eqb_eq in e as <-. destruct n1. apply in_map_iff. exists (p, v). auto.
Qed.
Lemma at_none {V} p (l : list (nat * V)) : at_ p l = None <-> ~ In p (map fst l).
Proof.
  induction l as [|[q w] r IH]; cbn; [tauto|]. destruct (Nat.eqb p q) eqn:e; [apply Nat.eqb_eq in e as <-; split; [discriminate|tauto]|].
  apply Nat.eqb_neq in e. rewrite IH. intuition congruence.
Qed.
Lemma at_some_in {V} p (l : list (nat * V)) v : at_ p l = Some v -> In p (map fst l).
Proof. intros h. apply in_map_iff. exists (p, v). split; [reflexivity|apply in_at, h]. Qed.
Lemma at_drop {V} p q (l : list (nat * V)) : at_ p (drop_at q l) = if Nat.eqb p q then None else at_ p l.
Proof.
  induction l as [|[z w] r IH]; cbn; [destruct (Nat.eqb p q); reflexivity|]. fold (drop_at q r). destruct (Nat.eqb q z) eqn:e1; cbn.
  - apply Nat.eqb_eq in e1 as <-. rewrite IH. destruct (Nat.eqb p q) eqn:e2; reflexivity.
  - rewrite IH. destruct (Nat.eqb p z) eqn:e2; [|reflexivity]. apply Nat.eqb_eq in e2 as <-. destruct (Nat.eqb p q) eqn:e3; [apply Nat.eqb_eq in e3 as <-; rewrite Nat.eqb_refl in e1; discriminate|reflexivity].
Qed.
Lemma keys_drop {V} p (l : list (nat * V)) : map fst (drop_at p l) = filter (fun q => negb (Nat.eqb p q)) (map fst l).
Proof. induction l as [|[z w] r IH]; cbn; [reflexivity|]. fold (drop_at p r). destruct (Nat.eqb p z); cbn; rewrite IH; reflexivity. Qed.
Lemma nodup_drop {V} p (l : list (nat * V)) : NoDup (map fst l) -> NoDup (map fst (drop_at p l)).
Proof. intros h. rewrite keys_drop. apply NoDup_filter, h. Qed.
Lemma filter_out (p : nat) l : ~ In p l -> filter (fun q => negb (Nat.eqb p q)) l = l.
Proof. induction l as [|q r IH]; cbn; [reflexivity|]. intros h. destruct (Nat.eqb p q) eqn:e; [apply Nat.eqb_eq in e as <-; tauto|cbn; f_equal; apply IH; tauto]. Qed.
Lemma perm_out (p : nat) l : NoDup l -> In p l -> Permutation l (p :: filter (fun q => negb (Nat.eqb p q)) l).
Proof.
  induction l as [|q r IH]; cbn; [tauto|]. intros hn hi. inversion hn as [|? ? n1 n2]; subst. destruct (Nat.eqb p q) eqn:e; cbn.
  - apply Nat.eqb_eq in e as <-. rewrite filter_out by exact n1. reflexivity.
  - apply Nat.eqb_neq in e. destruct hi as [->|hi]; [congruence|]. rewrite perm_swap. constructor. apply IH; assumption.
Qed.
Lemma at_set p q v (l : list (nat * bytes)) : at_ p (set_at q v l) = if Nat.eqb p q then match at_ p l with Some _ => Some v | None => None end else at_ p l.
Proof.
  induction l as [|[z w] r IH]; cbn; [destruct (Nat.eqb p q); reflexivity|]. destruct (Nat.eqb q z) eqn:e1; cbn.
  - apply Nat.eqb_eq in e1 as <-. destruct (Nat.eqb p q) eqn:e2; reflexivity.
  - rewrite IH. destruct (Nat.eqb p z) eqn:e2; [|reflexivity]. apply Nat.eqb_eq in e2 as <-. destruct (Nat.eqb p q) eqn:e3; [apply Nat.eqb_eq in e3 as <-; rewrite Nat.eqb_refl in e1; discriminate|reflexivity].
Qed.
Lemma keys_set q v l : map fst (set_at q v l) = map fst l.
Proof. induction l as [|[z w] r IH]; cbn; [reflexivity|]. destruct (Nat.eqb q z) eqn:e; cbn; [apply Nat.eqb_eq in e as <-; reflexivity|f_equal; exact IH]. Qed.

Definition obuf (a : arr) : list nat := match a_buf a with Some p => [p] | None => [] end.
Definition holding (a : arr) (h : pool) (v : bytes) : Prop :=
  match a_buf a with None => v = [] /\ a_len a = 0%nat | Some p => at_ p (pl_live h) = Some v /\ a_len a = length v /\ v <> [] end.
Definition pool_ok (h : pool) : Prop := NoDup (map fst (pl_live h)) /\ Forall (fun p => p < pl_next h)%nat (map fst (pl_live h)).
(** the array owns what others do not *)
Definition owns (a : arr) (rest : list nat) (h : pool) : Prop := pool_ok h /\ Permutation (obuf a ++ rest) (map fst (pl_live h)).
Definition kept (rest : list nat) (h h' : pool) : Prop := forall p, In p rest -> at_ p (pl_live h') = at_ p (pl_live h).
(** what a call on an array does, seen from outside *)
Definition good_call (r : acall) (rest : list nat) (h : pool) (x : outcome unit) (v' : bytes) : Prop :=
  let '(y, a', h') := r in y = x /\ owns a' rest h' /\ holding a' h' v' /\ kept rest h h'.

Lemma kept_trans rest h1 h2 h3 : kept rest h1 h2 -> kept rest h2 h3 -> kept rest h1 h3.
Proof. intros a c p hp. rewrite (c p hp). apply a, hp. Qed.
Lemma owns_apart a rest h p : owns a rest h -> a_buf a = Some p -> ~ In p rest.
Proof.
  intros [[hn _] hp] e hi. unfold obuf in hp. rewrite e in hp. apply (Permutation_NoDup (Permutation_sym hp)) in hn. inversion hn; subst. auto.
Qed.

Lemma reset_good a rest h v : owns a rest h -> holding a h v -> good_call (arr_reset a h) rest h (Ok tt) [].
Proof.
  intros ho hh. assert (hap := fun p => owns_apart a rest h p ho). destruct ho as [[hn hl] hp]. unfold arr_reset, pool_free, holding, obuf in *. destruct (a_buf a) as [p|] eqn:e.
  - destruct hh as (e1 & e2 & e3). rewrite e1. cbn. split; [reflexivity|]. split; [split; [split|]|split].
    + apply nodup_drop, hn.
    + cbn. rewrite keys_drop. apply Forall_forall. intros q hq. apply filter_In in hq as [hq _]. rewrite Forall_forall in hl. apply hl, hq.
    + cbn. rewrite keys_drop. pose proof (perm_out p _ hn (at_some_in _ _ _ e1)) as h1. rewrite <- hp in h1 at 1. cbn in h1. apply Permutation_cons_inv in h1. exact h1.
    + split; reflexivity.
    + intros q hq. cbn. rewrite at_drop. destruct (Nat.eqb q p) eqn:e4; [|reflexivity]. apply Nat.eqb_eq in e4 as ->. destruct (hap p eq_refl). exact hq.
  - cbn. repeat split; try assumption; intros q hq; reflexivity.
Qed.

Lemma write_ok p i x h v : at_ p (pl_live h) = Some v -> (i + length x <= length v)%nat ->
  exists h', pool_write p i x h = Ok h' /\ pl_next h' = pl_next h /\ map fst (pl_live h') = map fst (pl_live h) /\ at_ p (pl_live h') = Some (firstn i v ++ x ++ skipn (i + length x) v) /\ forall q, q <> p -> at_ q (pl_live h') = at_ q (pl_live h).
Proof.
  intros e hl. unfold pool_write. rewrite e. destruct (Nat.leb_spec (i + length x) (length v)); [|lia]. eexists. split; [reflexivity|]. cbn. split; [reflexivity|]. split; [apply keys_set|]. split.
  - rewrite at_set, Nat.eqb_refl, e. reflexivity.
  - intros q hq. rewrite at_set. apply Nat.eqb_neq in hq. rewrite hq. reflexivity.
Qed.

Section Calls.
Variable room : nat -> nat -> bool.
Variable junk : nat -> nat -> bytes.

Lemma get_good rest h : pool_ok h -> Permutation rest (map fst (pl_live h)) ->
  let h1 := mkPool (S (pl_next h)) (pl_live h) in pool_ok h1 /\ kept rest h h1.
Proof. intros [hn hl] hp. cbn. split; [split; [exact hn|]|intros p _; reflexivity]. cbn. eapply Forall_impl; [|exact hl]. cbn. intros; lia. Qed.

(** the outcome, and whether there was enough memory *)
Definition enough (n : nat) (h : pool) : bool := Nat.eqb n 0 || room (pl_next h) n.
Definition outc (x : bool) : outcome unit := if x then Ok tt else Throw.

Lemma make_good n rest h : owns empty_arr rest h -> good_call (arr_make room junk n h) rest h (outc (enough n h)) (if enough n h then repeat NUL n else []).
Proof.
  intros [hk hp]. cbn in hp. unfold arr_make, enough. destruct (Nat.eqb n 0) eqn:e0.
  - apply Nat.eqb_eq in e0 as ->. cbn. repeat split; try assumption; try apply hk; intros q hq; reflexivity.
  - apply Nat.eqb_neq in e0. unfold pool_get. cbn [orb]. destruct (room (pl_next h) n) eqn:er.
    + set (h1 := mkPool (S (pl_next h)) ((pl_next h, firstn n (junk (pl_next h) n ++ repeat NUL n)) :: pl_live h)).
      assert (e1 : at_ (pl_next h) (pl_live h1) = Some (firstn n (junk (pl_next h) n ++ repeat NUL n))) by (cbn; rewrite Nat.eqb_refl; reflexivity).
      assert (ln : length (firstn n (junk (pl_next h) n ++ repeat NUL n)) = n) by (rewrite firstn_length, app_length, repeat_length; lia).
      destruct (write_ok _ 0 (repeat NUL n) _ _ e1) as (h2 & w1 & w2 & w3 & w4 & w5); [rewrite repeat_length; lia|]. rewrite w1. cbn.
      rewrite repeat_length in w4. cbn [firstn app plus] in w4. rewrite skipn_all2, app_nil_r in w4 by lia.
      destruct hk as [hn hl]. assert (hf : ~ In (pl_next h) (map fst (pl_live h))).
      { intros hi. rewrite Forall_forall in hl. specialize (hl _ hi). cbn in hl. lia. }
      split; [reflexivity|]. split; [split; [split|]|split].
      * rewrite w3. cbn. constructor; assumption.
      * rewrite w3, w2. cbn. constructor; [lia|]. eapply Forall_impl; [|exact hl]. cbn. intros; lia.
      * rewrite w3. cbn. constructor. exact hp.
      * unfold holding. cbn. split; [exact w4|]. split; [rewrite repeat_length; reflexivity|]. destruct n; [congruence|discriminate].
      * intros q hq. assert (q <> pl_next h) by (intros ->; apply hf; rewrite <- hp; exact hq). rewrite w5 by assumption. cbn. apply Nat.eqb_neq in H. rewrite H. reflexivity.
    + cbn. destruct (get_good rest h hk hp) as [g1 g2]. repeat split; try assumption; apply g1.
Qed.
Lemma reset_n_good n a rest h v : owns a rest h -> holding a h v ->
  exists b, (n = 0%nat \/ (forall p k, room p k = true) -> b = true) /\ good_call (arr_reset_n room junk n a h) rest h (outc b) (if b then repeat NUL n else []).
Proof.
  intros ho hh. pose proof (reset_good a rest h v ho hh) as h1. unfold arr_reset_n. unfold good_call in *. destruct (arr_reset a h) as [[y a1] h1'] eqn:e. destruct h1 as (-> & o1 & k1 & f1).
  assert (ha : a1 = empty_arr). { unfold arr_reset in e. destruct (pool_free (a_buf a) h); [|discriminate e..]. injection e as <- <-. reflexivity. } subst a1.
  pose proof (make_good n rest h1' o1) as h2. exists (enough n h1'). split; [intros [->|hr]; [reflexivity|unfold enough; rewrite hr; apply Bool.orb_true_r]|]. unfold good_call in h2. destruct (arr_make room junk n h1') as [[y a2] h2']. destruct h2 as (-> & o2 & k2 & f2).
  repeat split; try assumption; try apply o2. exact (kept_trans _ _ _ _ f1 f2).
Qed.
Lemma load_good d a rest h v : owns a rest h -> holding a h v ->
  exists b, (d = [] \/ (forall p k, room p k = true) -> b = true) /\ good_call (arr_load room junk d a h) rest h (outc b) (if b then d else []).
Proof.
  intros ho hh. destruct (reset_n_good (length d) a rest h v ho hh) as (b & hb & h1). exists b. split; [intros [->|hr]; apply hb; [left; reflexivity|right; exact hr]|].
  unfold arr_load. unfold good_call in *. destruct (arr_reset_n room junk (length d) a h) as [[y a1] h1']. destruct h1 as (-> & o1 & k1 & f1). destruct b; cbn [outc] in *; [|auto].
  destruct d as [|c r].
  - cbn in k1. repeat split; try assumption; apply o1.
  - unfold holding in k1. destruct (a_buf a1) as [p|] eqn:e; [|destruct k1 as [k1 _]; discriminate].
    destruct k1 as (k1 & k2 & k3). destruct (write_ok p 0 (c :: r) h1' _ k1) as (h2 & w1 & w2 & w3 & w4 & w5); [rewrite repeat_length; lia|]. rewrite w1.
    rewrite skipn_all2, app_nil_r in w4 by (rewrite repeat_length; lia). cbn [firstn app] in w4.
    assert (hap := owns_apart a1 rest h1' p o1 e). destruct o1 as [[n1 l1] p1].
    split; [reflexivity|]. split; [split; [split|]|split].
    + rewrite w3. exact n1.
    + rewrite w3, w2. exact l1.
    + rewrite w3. exact p1.
    + unfold holding. rewrite e. split; [exact w4|]. split; [rewrite k2, repeat_length; reflexivity|discriminate].
    + intros q hq. rewrite w5; [apply f1, hq|]. intros ->. auto.
Qed.
End Calls.

(** ** the whole program *)
Definition owned (l : list (nat * arr)) : list nat := flat_map (fun x => obuf (snd x)) l.
Definition sound (s : astate) : Prop :=
  NoDup (map fst (as_vars s)) /\ pool_ok (as_pool s) /\ Permutation (owned (as_vars s)) (map fst (pl_live (as_pool s))) /\
  forall x a, at_ x (as_vars s) = Some a -> exists v, holding a (as_pool s) v.
Lemma drop_out {V} x (l : list (nat * V)) : ~ In x (map fst l) -> drop_at x l = l.
Proof. induction l as [|[z w] r IH]; cbn; [reflexivity|]. intros h. destruct (Nat.eqb x z) eqn:e; [apply Nat.eqb_eq in e as <-; tauto|cbn; f_equal; apply IH; tauto]. Qed.
Lemma owned_take x l a : NoDup (map fst l) -> at_ x l = Some a -> Permutation (owned l) (obuf a ++ owned (drop_at x l)).
Proof.
  induction l as [|[z w] r IH]; [discriminate|]. intros hn he. cbn in hn, he. inversion hn as [|? ? n1 n2]; subst. destruct (Nat.eqb x z) eqn:e.
  - apply Nat.eqb_eq in e as <-. injection he as ->. assert (h : drop_at x ((x, a) :: r) = r) by (unfold drop_at; cbn; rewrite Nat.eqb_refl; cbn; apply (drop_out x r n1)). rewrite h. reflexivity.
  - assert (h : drop_at x ((z, w) :: r) = (z, w) :: drop_at x r) by (unfold drop_at; cbn; rewrite e; reflexivity). rewrite h. change (Permutation (obuf w ++ owned r) (obuf a ++ obuf w ++ owned (drop_at x r))).
    rewrite (IH n2 he). rewrite !app_assoc. apply Permutation_app_tail, Permutation_app_comm.
Qed.
Lemma in_owned x l a p : at_ x l = Some a -> a_buf a = Some p -> In p (owned l).
Proof. intros h e. apply in_flat_map. exists (x, a). split; [apply in_at, h|]. unfold obuf. cbn. rewrite e. left. reflexivity. Qed.
Lemma holding_kept a h h' v : (forall p, a_buf a = Some p -> at_ p (pl_live h') = at_ p (pl_live h)) -> holding a h v -> holding a h' v.
Proof. unfold holding. destruct (a_buf a) as [p|]; [|auto]. intros h1. rewrite (h1 p eq_refl). auto. Qed.
Lemma holding_fun a h v v' : holding a h v -> holding a h v' -> v = v'.
Proof. unfold holding. destruct (a_buf a); [|intuition congruence]. intros (h1 & _) (h2 & _). congruence. Qed.

(** the contents, as the invariant sees them *)
Definition has (s : astate) (w : contents) : Prop :=
  forall x, match at_ x (as_vars s), w x with None, None => True | Some a, Some v => holding a (as_pool s) v | _, _ => False end.
Lemma has_shows s w : has s w -> shows s w.
Proof.
  intros h x. specialize (h x). destruct (at_ x (as_vars s)) as [a|]; destruct (w x) as [v|]; try exact h. unfold holding, arr_view, arr_get in *.
  destruct (a_buf a) as [p|] eqn:e.
  - destruct h as (h1 & h2 & h3). rewrite h1, h2. rewrite Nat.leb_refl, firstn_all. split; [reflexivity|]. split; [reflexivity|]. intros i hi.
    destruct (nth_error v i) as [c|] eqn:en; [exists c; split; reflexivity|]. apply nth_error_None in en. lia.
  - destruct h as (-> & ->). cbn. split; [reflexivity|]. split; [reflexivity|]. intros i hi. cbn in hi. lia.
Qed.
Lemma shows_has s w : sound s -> shows s w -> has s w.
Proof.
  intros hs h x. specialize (h x). destruct hs as (_ & _ & _ & hs). specialize (hs x). destruct (at_ x (as_vars s)) as [a|]; destruct (w x) as [v|]; try exact h.
  destruct (hs a eq_refl) as (v' & hv). destruct h as (h1 & h2 & _). unfold holding, arr_view in *. destruct (a_buf a) as [p|] eqn:e.
  - destruct hv as (e1 & e2 & e3). rewrite e1, e2, Nat.leb_refl, firstn_all in h1. injection h1 as <-. auto.
  - destruct hv as (-> & e2). rewrite e2 in *. cbn in h1. injection h1 as <-. auto.
Qed.
Lemma sound_has s : sound s -> exists w, has s w.
Proof.
  intros (_ & _ & _ & hs). exists (fun x => match at_ x (as_vars s) with Some a => Some (match a_buf a with Some p => match at_ p (pl_live (as_pool s)) with Some v => v | None => [] end | None => [] end) | None => None end).
  intros x. specialize (hs x). destruct (at_ x (as_vars s)) as [a|]; [|exact I]. destruct (hs a eq_refl) as (v & hv). pose proof hv as hv'. unfold holding in hv. destruct (a_buf a) as [p|] eqn:e.
  - destruct hv as (-> & _). exact hv'.
  - destruct hv as (-> & _). exact hv'.
Qed.

(** replacing one array, and removing one *)
Lemma after_call x s a h' a' v' w : sound s -> has s w -> at_ x (as_vars s) = Some a ->
  owns a' (owned (drop_at x (as_vars s))) h' -> holding a' h' v' -> kept (owned (drop_at x (as_vars s))) (as_pool s) h' ->
  sound (mkA (bind_name x a' (as_vars s)) h') /\ has (mkA (bind_name x a' (as_vars s)) h') (holds_now x (Some v') w).
Proof.
  intros hs hw hx [ok hp] hv hk.
  assert (H : has (mkA (bind_name x a' (as_vars s)) h') (holds_now x (Some v') w)).
  { intros y. cbn. unfold holds_now. rewrite at_drop. destruct (Nat.eqb y x) eqn:e; [exact hv|]. specialize (hw y). destruct (at_ y (as_vars s)) as [c|] eqn:ec; destruct (w y); try exact hw.
    apply (holding_kept c (as_pool s)); [|exact hw]. intros p ep. apply hk. apply (in_owned y _ c); [|exact ep]. rewrite at_drop, e. exact ec. }
  split; [|exact H]. destruct hs as (h1 & h2 & h3 & h4). split; [|split; [exact ok|split; [exact hp|]]].
  - cbn. constructor; [|apply nodup_drop, h1]. apply at_none. rewrite at_drop, Nat.eqb_refl. reflexivity.
  - intros y c hc. specialize (H y). rewrite hc in H. destruct (holds_now x (Some v') w y) as [v|]; [exists v; exact H|contradiction].
Qed.
Lemma at_call x s a w : sound s -> has s w -> at_ x (as_vars s) = Some a -> exists v, w x = Some v /\ owns a (owned (drop_at x (as_vars s))) (as_pool s) /\ holding a (as_pool s) v.
Proof.
  intros hs hw hx. specialize (hw x). rewrite hx in hw. destruct (w x) as [v|]; [|contradiction]. exists v. split; [reflexivity|]. split; [|exact hw].
  destruct hs as (h1 & h2 & h3 & h4). split; [exact h2|]. rewrite <- h3. symmetry. apply owned_take; assumption.
Qed.
Lemma new_call x s a' h' v' w : sound s -> has s w -> at_ x (as_vars s) = None ->
  owns a' (owned (as_vars s)) h' -> holding a' h' v' -> kept (owned (as_vars s)) (as_pool s) h' ->
  sound (mkA (bind_name x a' (as_vars s)) h') /\ has (mkA (bind_name x a' (as_vars s)) h') (holds_now x (Some v') w).
Proof.
  intros hs hw hx [ok hp] hv hk. pose proof (proj1 (at_none _ _) hx) as hx'. rewrite <- (drop_out x (as_vars s) hx') in hp, hk.
  assert (H : has (mkA (bind_name x a' (as_vars s)) h') (holds_now x (Some v') w)).
  { intros y. cbn. unfold holds_now. rewrite at_drop. destruct (Nat.eqb y x) eqn:e; [exact hv|]. specialize (hw y). destruct (at_ y (as_vars s)) as [c|] eqn:ec; destruct (w y); try exact hw.
    apply (holding_kept c (as_pool s)); [|exact hw]. intros p ep. apply hk. apply (in_owned y _ c); [|exact ep]. rewrite at_drop, e. exact ec. }
  split; [|exact H]. destruct hs as (h1 & h2 & h3 & h4). split; [|split; [exact ok|split; [exact hp|]]].
  - cbn. constructor; [|apply nodup_drop, h1]. apply at_none. rewrite at_drop, Nat.eqb_refl. reflexivity.
  - intros y c hc. specialize (H y). rewrite hc in H. destruct (holds_now x (Some v') w y) as [v|]; [exists v; exact H|contradiction].
Qed.
Lemma has_ext s w w' : (forall x, w x = w' x) -> has s w -> has s w'.
Proof. intros e h x. rewrite <- e. apply h. Qed.

Section Steps.
Variable room : nat -> nat -> bool.
Variable junk : nat -> nat -> bytes.

Lemma on_good x f s w r s' : sound s -> has s w -> on_arr x f s = Some (r, s') ->
  (forall a v, at_ x (as_vars s) = Some a -> w x = Some v -> owns a (owned (drop_at x (as_vars s))) (as_pool s) -> holding a (as_pool s) v ->
     exists b v', good_call (f a (as_pool s)) (owned (drop_at x (as_vars s))) (as_pool s) (outc b) v') ->
  exists a v b v', at_ x (as_vars s) = Some a /\ w x = Some v /\ owns a (owned (drop_at x (as_vars s))) (as_pool s) /\ holding a (as_pool s) v /\
    good_call (f a (as_pool s)) (owned (drop_at x (as_vars s))) (as_pool s) (outc b) v' /\ r = outc b /\ sound s' /\ has s' (holds_now x (Some v') w).
Proof.
  intros hs hw h hf. unfold on_arr in h. destruct (at_ x (as_vars s)) as [a|] eqn:ea; [|discriminate]. destruct (at_call _ _ _ _ hs hw ea) as (v & h1 & h2 & h3).
  destruct (hf a v eq_refl h1 h2 h3) as (b & v' & hg). exists a, v, b, v'. pose proof hg as hg'. unfold good_call in hg'. destruct (f a (as_pool s)) as [[y a'] h'] eqn:ef. injection h as <- <-. destruct hg' as (-> & g1 & g2 & g3).
  destruct (after_call x s a h' a' v' w hs hw ea g1 g2 g3) as [c1 c2]. rewrite <- ef in hg. rewrite ef in hg. repeat split; auto; try apply h2; try apply c1.
Qed.

Lemma step_good o s w r s' : sound s -> has s w -> astep room junk o s = Some (r, s') -> ~ undefined_use o w ->
  exists b, r = outc b /\ (allocates o = false \/ (forall p k, room p k = true) -> b = true) /\ sound s' /\ has s' (effect o b w).
Proof.
  intros hs hw h hu. destruct o as [x|x n|x y|x|x n|x d|x i c|x y|x]; cbn [astep effect allocates undefined_use] in *.
  - unfold new_arr in h. destruct (at_ x (as_vars s)) eqn:ea; [discriminate|]. injection h as <- <-. exists true. split; [reflexivity|]. split; [reflexivity|].
    apply new_call; try assumption.
    + split; [apply hs|]. cbn. apply hs.
    + split; reflexivity.
    + intros p hp; reflexivity.
  - unfold new_arr in h. destruct (at_ x (as_vars s)) eqn:ea; [discriminate|].
    assert (ho : owns empty_arr (owned (as_vars s)) (as_pool s)) by (split; [apply hs|cbn; apply hs]).
    pose proof (make_good room junk n _ _ ho) as hg. unfold good_call in hg. destruct (arr_make room junk n (as_pool s)) as [[z a'] h'] eqn:em. destruct hg as (-> & g1 & g2 & g3).
    exists (enough room n (as_pool s)). split; [destruct (enough room n (as_pool s)); injection h as <- <-; reflexivity|]. split.
    { unfold enough. intros [e|e]; [destruct (Nat.eqb n 0); [reflexivity|discriminate]|rewrite e; apply Bool.orb_true_r]. }
    destruct (enough room n (as_pool s)) eqn:ee; cbn in h; injection h as <- <-; [apply new_call; assumption|].
    assert (ha : a' = empty_arr).
    { unfold enough in ee. unfold arr_make, pool_get in em. destruct (Nat.eqb n 0); [discriminate|]. cbn in ee. rewrite ee in em. injection em as <- <-. reflexivity. } subst a'.
    assert (H : has (mkA (as_vars s) h') w).
    { intros q. specialize (hw q). cbn. destruct (at_ q (as_vars s)) as [c|] eqn:ec; destruct (w q); try exact hw.
      apply (holding_kept c (as_pool s)); [|exact hw]. intros p ep. apply g3. apply (in_owned q _ c); assumption. }
    split; [|exact H]. destruct hs as (h1 & h2 & h3 & h4). destruct g1 as [o1 o2]. split; [exact h1|split; [exact o1|split; [exact o2|]]].
    intros q c hc. specialize (H q). rewrite hc in H. destruct (w q) as [v|]; [exists v; exact H|contradiction].
  - destruct (at_ x (as_vars s)) eqn:ex; [discriminate|]. destruct (at_ y (as_vars s)) as [a|] eqn:ey; [|discriminate]. cbn in h. injection h as <- <-. exists true. split; [reflexivity|]. split; [reflexivity|].
    pose proof (proj1 (at_none _ _) ex) as hnx. assert (hxy : x <> y) by congruence.
    pose proof (hw y) as hy. rewrite ey in hy. destruct (w y) as [v|] eqn:ew; [|contradiction].
    set (vars' := bind_name x (mkArr (a_buf a) (a_len a)) (bind_name y empty_arr (as_vars s))).
    assert (ha : mkArr (a_buf a) (a_len a) = a) by (destruct a; reflexivity).
    assert (H : has (mkA vars' (as_pool s)) (holds_now x (Some v) (holds_now y (Some []) w))).
    { intros z. subst vars'. unfold bind_name. cbn [as_vars as_pool]. unfold holds_now. cbn [at_]. destruct (Nat.eqb z x) eqn:e1; [rewrite ha; exact hy|].
      rewrite at_drop, e1. cbn [at_]. destruct (Nat.eqb z y) eqn:e2; [split; reflexivity|]. rewrite at_drop, e2. exact (hw z). }
    split; [|exact H].
    destruct hs as (h1 & h2 & h3 & h4). split; [|split; [exact h2|split]].
    + subst vars'. unfold bind_name. cbn [as_vars]. cbn [map fst]. constructor; [apply at_none; rewrite at_drop, Nat.eqb_refl; reflexivity|]. apply nodup_drop. cbn. constructor; [apply at_none; rewrite at_drop, Nat.eqb_refl; reflexivity|apply nodup_drop, h1].
    + rewrite <- h3. rewrite (owned_take y _ a h1 ey). subst vars'. unfold bind_name. cbn [as_vars as_pool]. cbn [owned flat_map snd]. rewrite ha. apply Permutation_app_head.
      rewrite drop_out; [reflexivity|]. cbn. rewrite keys_drop. intros [hi|hi]; [congruence|]. apply filter_In in hi as [hi _]. auto.
    + intros z c hc. specialize (H z). rewrite hc in H. destruct (holds_now x (Some v) (holds_now y (Some []) w) z) as [u|]; [exists u; exact H|contradiction].
  - destruct (on_good x _ s w r s' hs hw h) as (a & v & b & v' & p1 & p2 & p3 & p4 & p5 & p6 & p7 & p8).
    { intros a v q1 q2 q3 q4. exists true, []. apply (reset_good a _ _ v); assumption. }
    pose proof (reset_good a _ _ v p3 p4) as hg. unfold good_call in hg, p5. destruct (arr_reset a (as_pool s)) as [[z a'] h']. destruct p5 as (u1 & u2 & u3 & u4). destruct hg as (t1 & t2 & t3 & t4).
    rewrite (holding_fun _ _ _ _ u3 t3) in p8. exists true. rewrite u1 in t1. rewrite p6. split; [exact t1|]. split; [reflexivity|]. split; [exact p7|exact p8].
  - destruct (on_good x _ s w r s' hs hw h) as (a & v & b & v' & p1 & p2 & p3 & p4 & p5 & p6 & p7 & p8).
    { intros a v q1 q2 q3 q4. destruct (reset_n_good room junk n a _ _ v q3 q4) as (b & _ & hb). eauto. }
    destruct (reset_n_good room junk n a _ _ v p3 p4) as (b' & hb' & hg). unfold good_call in hg, p5. destruct (arr_reset_n room junk n a (as_pool s)) as [[z a'] h']. destruct p5 as (u1 & u2 & u3 & u4). destruct hg as (t1 & t2 & t3 & t4).
    rewrite (holding_fun _ _ _ _ u3 t3) in p8. exists b'. rewrite u1 in t1. rewrite p6. split; [exact t1|]. split; [|split; [exact p7|exact p8]].
    intros [e|e]; apply hb'; [left; destruct (Nat.eqb_spec n 0); [assumption|discriminate]|right; exact e].
  - destruct (on_good x _ s w r s' hs hw h) as (a & v & b & v' & p1 & p2 & p3 & p4 & p5 & p6 & p7 & p8).
    { intros a v q1 q2 q3 q4. destruct (load_good room junk d a _ _ v q3 q4) as (b & _ & hb). eauto. }
    destruct (load_good room junk d a _ _ v p3 p4) as (b' & hb' & hg). unfold good_call in hg, p5. destruct (arr_load room junk d a (as_pool s)) as [[z a'] h']. destruct p5 as (u1 & u2 & u3 & u4). destruct hg as (t1 & t2 & t3 & t4).
    rewrite (holding_fun _ _ _ _ u3 t3) in p8. exists b'. rewrite u1 in t1. rewrite p6. split; [exact t1|]. split; [|split; [exact p7|exact p8]].
    intros [e|e]; apply hb'; [left; destruct d; [reflexivity|discriminate]|right; exact e].
  - destruct (on_good x _ s w r s' hs hw h) as (a & v & b & v' & p1 & p2 & p3 & p4 & p5 & p6 & p7 & p8).
    { intros a v q1 q2 q3 q4. rewrite q2 in hu. exists true, (firstn i v ++ [c] ++ skipn (S i) v). unfold arr_put. pose proof q4 as q5. unfold holding in q4. destruct (a_buf a) as [p|] eqn:e.
      - destruct q4 as (k1 & k2 & k3). destruct (write_ok p i [c] (as_pool s) v k1) as (h2 & w1 & w2 & w3 & w4 & w5); [cbn; lia|]. rewrite w1. cbn.
        assert (hap := owns_apart a _ _ p q3 e). destruct q3 as [[n1 l1] p1']. split; [reflexivity|]. split; [split; [split|]|split].
        + rewrite w3. exact n1.
        + rewrite w3, w2. exact l1.
        + rewrite w3. exact p1'.
        + unfold holding. rewrite e. rewrite w4. cbn [length app]. rewrite Nat.add_1_r. split; [reflexivity|]. split.
          * rewrite k2, app_length, firstn_length. cbn [length]. pose proof (skipn_length (S i) v) as hk. cbn [skipn] in hk. clear - hk hu. lia.
          * destruct (firstn i v); discriminate.
        + intros q hq. rewrite w5; [reflexivity|]. intros ->. auto.
      - destruct q4 as (-> & _). cbn in hu. lia. }
    rewrite p2 in hu |- *. exists true.
    assert (hi : (i < length v)%nat) by lia. unfold holding in p4. destruct (a_buf a) as [p|] eqn:e; [|destruct p4 as (-> & _); cbn in hi; lia].
    destruct p4 as (k1 & k2 & k3). destruct (write_ok p i [c] (as_pool s) v k1) as (h2 & w1 & w2 & w3 & w4 & w5); [cbn; lia|]. unfold arr_put in p5. rewrite e, w1 in p5. cbn in p5. destruct p5 as (u1 & u2 & u3 & u4).
    unfold holding in u3. rewrite e, w4 in u3. destruct u3 as ([= <-] & _). cbn [app] in p8. rewrite Nat.add_1_r in p8. split; [rewrite p6; symmetry; exact u1|]. split; [reflexivity|]. split; [exact p7|exact p8].
  - tauto.
  - destruct (at_ x (as_vars s)) as [a|] eqn:ea; [|discriminate]. destruct (at_call _ _ _ _ hs hw ea) as (v & h1 & h2 & h3).
    pose proof (reset_good a _ _ v h2 h3) as hg. unfold good_call in hg. destruct (arr_reset a (as_pool s)) as [[z a'] h'] eqn:er. destruct hg as (-> & g1 & g2 & g3). injection h as <- <-.
    assert (ha : a' = empty_arr). { unfold arr_reset in er. destruct (pool_free (a_buf a) (as_pool s)); [|discriminate er..]. injection er as <- <-. reflexivity. } subst a'.
    exists true. split; [reflexivity|]. split; [reflexivity|].
    assert (H : has (mkA (drop_at x (as_vars s)) h') (holds_now x None w)).
    { intros q. cbn. unfold holds_now. rewrite at_drop. destruct (Nat.eqb q x) eqn:e; [exact I|]. specialize (hw q). destruct (at_ q (as_vars s)) as [c|] eqn:ec; destruct (w q); try exact hw.
      apply (holding_kept c (as_pool s)); [|exact hw]. intros p ep. apply g3. apply (in_owned q _ c); [|exact ep]. rewrite at_drop, e. exact ec. }
    split; [|exact H]. destruct hs as (k1 & k2 & k3 & k4). destruct g1 as [o1 o2]. split; [cbn; apply nodup_drop, k1|split; [exact o1|split; [exact o2|]]].
    intros q c hc. specialize (H q). rewrite hc in H. destruct (holds_now x None w q) as [u|]; [exists u; exact H|contradiction].
Qed.
Lemma undefined_ub o s w r s' : sound s -> has s w -> astep room junk o s = Some (r, s') -> undefined_use o w -> r = UB.
Proof.
  intros hs hw h hu. destruct o as [x|x n|x y|x|x n|x d|x i c|x y|x]; cbn in hu; try contradiction; cbn [astep] in h.
  - unfold on_arr in h. destruct (at_ x (as_vars s)) as [a|] eqn:ea; [|discriminate]. destruct (at_call _ _ _ _ hs hw ea) as (v & h1 & h2 & h3). rewrite h1 in hu. unfold arr_put, pool_write in h. unfold holding in h3. destruct (a_buf a) as [p|] eqn:e.
    + destruct h3 as (k1 & k2 & k3). rewrite k1 in h. destruct (Nat.leb_spec (i + length [c]) (length v)) as [hc|hc]; [cbn in hc; lia|]. cbn in h. injection h as <- _. reflexivity.
    + cbn in h. injection h as <- _. reflexivity.
  - destruct (at_ x (as_vars s)) as [a|] eqn:ea; [|discriminate]. destruct (at_ y (as_vars s)) as [c|] eqn:ec; [|discriminate]. destruct (at_call _ _ _ _ hs hw ea) as (v & h1 & h2 & h3).
    unfold arr_assign in h. unfold pool_free in h. unfold holding in h3. destruct (a_buf a) as [p|]; [destruct h3 as (k1 & _); rewrite k1 in h|]; injection h as <- _; reflexivity.
Qed.
Lemma run_sound l s : arun room junk l s -> sound s.
Proof.
  induction 1 as [|l s o r s' hr IH hs hok].
  - split; [constructor|]. split; [split; constructor|]. split; [constructor|]. intros x a h. discriminate.
  - destruct (sound_has s IH) as (w & hw). destruct o as [x|x n|x y|x|x n|x d|x i c|x y|x];
      try (edestruct (step_good _ s w r s' IH hw hs) as (? & ? & ? & h & _); [cbn; tauto|exact h]).
    + destruct (w x) as [v|] eqn:e.
      * destruct (Nat.le_gt_cases (length v) i) as [hle|hlt].
        -- assert (hu : r = UB) by (eapply undefined_ub; [exact IH|exact hw|exact hs|cbn; rewrite e; exact hle]). subst r. destruct hok; discriminate.
        -- edestruct (step_good _ s w r s' IH hw hs) as (? & ? & ? & h & _); [cbn; rewrite e; lia|exact h].
      * edestruct (step_good _ s w r s' IH hw hs) as (? & ? & ? & h & _); [cbn; rewrite e; tauto|exact h].
    + assert (hu : r = UB) by (eapply undefined_ub; [exact IH|exact hw|exact hs|exact I]). subst r. destruct hok; discriminate.
Qed.
Lemma live_count s : sound s -> length (pl_live (as_pool s)) = length (nonempty s).
Proof.
  intros (h1 & h2 & h3 & h4). rewrite <- (map_length fst), <- (Permutation_length h3). unfold nonempty. rewrite map_length.
  assert (H : forall l, (forall x a, In (x, a) l -> exists v, holding a (as_pool s) v) -> length (owned l) = length (filter (fun x : nat * arr => negb (Nat.eqb (a_len (snd x)) 0)) l)).
  { induction l as [|[x a] r IH]; intros hl; [reflexivity|]. change (owned ((x, a) :: r)) with (obuf a ++ owned r). cbn [filter snd]. rewrite app_length, IH by (intros y c hc; apply (hl y c); right; exact hc). destruct (hl x a (or_introl eq_refl)) as (v & hv).
    unfold obuf. unfold holding in hv. destruct (a_buf a).
    - destruct hv as (_ & e2 & e3). rewrite e2. destruct v as [|c0 v0]; [congruence|]. reflexivity.
    - destruct hv as (_ & ->). reflexivity. }
  apply H. intros x a hi. apply (h4 x a). apply at_in; assumption.
Qed.
End Steps.

(** ** string helpers *)
Definition all_ascii : list Ascii.ascii := map (fun n => Ascii.ascii_of_nat n) (seq 0 256).
Lemma all_ascii_in c : In c all_ascii.
Proof. apply in_map_iff. exists (Ascii.nat_of_ascii c). split; [apply Ascii.ascii_nat_embedding|]. apply in_seq. pose proof (Ascii.nat_ascii_bounded c). lia. Qed.
(** the other case of a letter *)
Definition swap (c : Ascii.ascii) : Ascii.ascii :=
  let n := Ascii.N_of_ascii c in if (65 <=? n)%N && (n <=? 90)%N then Ascii.ascii_of_N (n + 32) else if (97 <=? n)%N && (n <=? 122)%N then Ascii.ascii_of_N (n - 32) else c.
Lemma lower_same c d : lower c = lower d <-> d = c \/ d = swap c.
Proof.
  assert (H : forallb (fun c => forallb (fun d => Bool.eqb (Ascii.eqb (lower c) (lower d)) (Ascii.eqb d c || Ascii.eqb d (swap c))) all_ascii) all_ascii = true) by (vm_compute; reflexivity).
  rewrite forallb_forall in H. specialize (H c (all_ascii_in c)). rewrite forallb_forall in H. specialize (H d (all_ascii_in d)). apply Bool.eqb_prop in H.
  rewrite <- (Ascii.eqb_eq (lower c)), H, Bool.orb_true_iff, !Ascii.eqb_eq. tauto.
Qed.
Lemma swap_same c : same_letter c (swap c).
Proof.
  unfold swap. destruct ((65 <=? Ascii.N_of_ascii c)%N && (Ascii.N_of_ascii c <=? 90)%N) eqn:e1; [|destruct ((97 <=? Ascii.N_of_ascii c)%N && (Ascii.N_of_ascii c <=? 122)%N) eqn:e2; [|left; reflexivity]].
  - apply Bool.andb_true_iff in e1 as [h1 h2]. apply N.leb_le in h1, h2. right. exists (Ascii.N_of_ascii c - 65)%N. split; [lia|]. left. replace (65 + (Ascii.N_of_ascii c - 65))%N with (Ascii.N_of_ascii c) by lia. rewrite Ascii.ascii_N_embedding. split; [reflexivity|f_equal; lia].
  - apply Bool.andb_true_iff in e2 as [h1 h2]. apply N.leb_le in h1, h2. right. exists (Ascii.N_of_ascii c - 97)%N. split; [lia|]. right. replace (97 + (Ascii.N_of_ascii c - 97))%N with (Ascii.N_of_ascii c) by lia. rewrite Ascii.ascii_N_embedding. split; [reflexivity|f_equal; lia].
Qed.
Lemma same_lower c d : same_letter c d -> lower c = lower d.
Proof.
  intros [-> |(n & hn & [[-> ->]|[-> ->]])]; [reflexivity|..]; unfold lower; rewrite !Ascii.N_ascii_embedding by lia;
    repeat match goal with |- context [(?a <=? ?c)%N] => destruct (N.leb_spec a c); try lia end; cbn [andb]; try reflexivity; f_equal; lia.
Qed.
Lemma same_letter_lower c d : same_letter c d <-> lower c = lower d.
Proof. split; [apply same_lower|]. intros h. apply lower_same in h as [-> | ->]; [left; reflexivity|apply swap_same]. Qed.
Lemma iequal_iff x y : make_lc x = make_lc y <-> Forall2 same_letter x y.
Proof.
  revert y. induction x as [|c r IH]; intros [|d t]; cbn.
  - split; [constructor|reflexivity].
  - split; [discriminate|intros h; inversion h].
  - split; [discriminate|intros h; inversion h].
  - split.
    + intros [= h1 h2]. constructor; [apply same_letter_lower, h1|apply IH, h2].
    + intros h. inversion h as [|? ? ? ? h1 h2]; subst. f_equal; [apply same_letter_lower, h1|apply IH, h2].
Qed.
