(** The list of group keys: order, expiry, insertion. *)
From Verif Require Import KeysSpec.

Lemma k_lt x y : lt x y <-> (k_gen x < k_gen y)%Z \/ k_gen x = k_gen y /\ ((k_ts x < k_ts y)%Z \/ k_ts x = k_ts y /\ lt (k_key x) (k_key y)).
Proof.
  destruct x as (g & t & k), y as (g' & t' & k'). unfold k_gen, k_ts, k_key. cbn [fst snd]. unfold lt, cmp, cmp_prod, cmp, cmp_prod. cbn [fst snd].
  change (cmp_Z g g') with (g ?= g')%Z. change (cmp_Z t t') with (t ?= t')%Z. destruct (Z.compare_spec g g') as [->|h|h].
  - destruct (Z.compare_spec t t') as [->|h|h].
    + split; [intros h; right; split; [reflexivity|]; right; split; [reflexivity|exact h]|].
      intros [h|(_ & [h|(_ & h)])]; [lia|lia|exact h].
    + split; [intros _; right; split; [reflexivity|]; left; exact h|reflexivity].
    + split; [discriminate|]. intros [h'|(_ & [h'|(h' & _)])]; lia.
  - split; [intros _; left; exact h|reflexivity].
  - split; [discriminate|]. intros [h'|(h' & _)]; lia.
Qed.
Lemma lt_gen x y : lt x y -> (k_gen x <= k_gen y)%Z.
Proof. intros h. apply k_lt in h. lia. Qed.
Lemma gen_lt (x y : key_info) : (k_gen x < k_gen y)%Z -> lt x y.
Proof. intros h. apply k_lt. left. exact h. Qed.
Lemma key_info_eq x y : k_gen x = k_gen y -> k_ts x = k_ts y -> k_key x = k_key y -> x = y.
Proof. destruct x as (? & ? & ?), y as (? & ? & ?). cbn. intros -> -> ->. reflexivity. Qed.
Lemma same_key_spec x y : same_key x y = true <-> k_gen x = k_gen y /\ k_key x = k_key y.
Proof. unfold same_key. rewrite andb_true_iff, Z.eqb_eq, eqb_eq. reflexivity. Qed.

Lemma place_sadd (x : key_info) l : ssorted l -> ~ In x l -> place x l = sadd x l.
Proof.
  induction l as [|y r IH]; intros hs hn; [reflexivity|]. apply ssorted_cons in hs as [hs hf]. cbn [place sadd].
  destruct (ltb y x) eqn:E.
  - apply ltb_lt in E. rewrite IH by (auto; intros h; apply hn; right; exact h).
    unfold lt in E. rewrite (cmp_opp y x) by idtac. rewrite E. reflexivity.
  - apply ltb_nlt in E. destruct (lt_total x y) as [h|[h|h]].
    + unfold lt in h. rewrite h. reflexivity.
    + destruct hn. left. auto.
    + contradiction.
Qed.

(** ** one generation *)
Lemma skip_gen_spec g l : exists same, l = same ++ skip_gen g l /\ Forall (fun k => k_gen k = g) same /\
  match skip_gen g l with n :: _ => k_gen n <> g | [] => True end.
Proof.
  induction l as [|k r IH]; [exists []; repeat split; constructor|]. cbn [skip_gen]. destruct (k_gen k =? g)%Z eqn:E.
  - destruct IH as (same & h1 & h2 & h3). exists (k :: same). cbn [app]. rewrite <- h1. repeat split; auto. constructor; [lia|exact h2].
  - exists []. repeat split; [constructor|lia].
Qed.
(** the first key of the second generation *)
Definition second_gen (l : list key_info) : option key_info :=
  match l with k :: r => match skip_gen (k_gen k) r with n :: _ => Some n | [] => None end | [] => None end.
Lemma unexpired_spec fuel newest : forall l, ssorted l -> length l <= fuel ->
  exists d, l = d ++ unexpired fuel newest l /\ (l <> [] -> unexpired fuel newest l <> []) /\
    (forall f r, unexpired fuel newest l = f :: r -> forall k, In k d -> (k_gen k < k_gen f)%Z /\ expired newest f) /\
    (forall n, second_gen (unexpired fuel newest l) = Some n -> ~ expired newest n).
Proof.
  induction fuel as [|fuel IH]; intros l hs hl.
  - destruct l; [|cbn in hl; lia]. exists []. cbn. repeat split; auto; [contradiction|contradiction|discriminate].
  - destruct l as [|k r]; [exists []; cbn; repeat split; auto; [contradiction|contradiction|discriminate]|].
    cbn [unexpired]. destruct (skip_gen_spec (k_gen k) r) as (same & h1 & h2 & h3).
    destruct (skip_gen (k_gen k) r) as [|n r'] eqn:Es.
    { exists []. repeat split; auto; [contradiction|contradiction|]. cbn [second_gen]. rewrite Es. discriminate. }
    destruct (k_ts n + KEY_EXPIRY <? newest)%Z eqn:E.
    + assert (hs' : ssorted ((k :: same) ++ n :: r')) by (cbn [app]; rewrite <- h1; exact hs).
      apply ssorted_app in hs' as (hs1 & hs2 & hs3).
      destruct (IH (n :: r') hs2) as (d & d1 & d2 & d3 & d4). { rewrite h1 in hl. cbn [length] in *. rewrite app_length in hl. cbn [length] in hl. lia. }
      exists ((k :: same) ++ d). split; [|split; [|split; [|exact d4]]].
      * rewrite <- app_assoc, <- d1. cbn [app]. rewrite <- h1. reflexivity.
      * intros _. apply d2. discriminate.
      * intros f r0 hu k0 hk. apply in_app_or in hk as [hk|hk]; [|exact (d3 f r0 hu k0 hk)].
        assert (hg : k_gen k0 = k_gen k) by (destruct hk as [<-|hk]; [reflexivity|rewrite Forall_forall in h2; auto]).
        assert (hn : (k_gen k < k_gen n)%Z).
        { assert (hkn : lt k n) by (apply hs3; [left; reflexivity|left; reflexivity]). apply lt_gen in hkn. lia. }
        rewrite hu in d1. destruct d as [|d0 d]; cbn [app] in d1.
        -- injection d1 as <- <-. split; [lia|]. unfold expired. lia.
        -- injection d1 as <- ->. destruct (d3 f r0 hu n (or_introl eq_refl)) as [d5 d6]. split; [lia|exact d6].
    + exists []. split; [reflexivity|]. split; [discriminate|]. split; [contradiction|]. cbn [second_gen]. rewrite Es. intros n0 [= <-]. unfold expired. lia.
Qed.
Lemma newest_app d l : l <> [] -> newest_ts (d ++ l) = newest_ts l.
Proof.
  intros h. unfold newest_ts. rewrite rev_app_distr. destruct (rev l) eqn:E; [|reflexivity].
  destruct h. rewrite <- (rev_involutive l), E. reflexivity.
Qed.
Lemma newest_last l k : newest_ts (l ++ [k]) = k_ts k.
Proof. unfold newest_ts. rewrite rev_app_distr. reflexivity. Qed.
Lemma expire_spec l : ssorted l ->
  exists d, l = d ++ expire_keys l /\ (l <> [] -> expire_keys l <> []) /\
    (forall f r, expire_keys l = f :: r -> forall k, In k d -> (k_gen k < k_gen f)%Z /\ expired (newest_ts l) f) /\
    (forall n, second_gen (expire_keys l) = Some n -> ~ expired (newest_ts l) n).
Proof.
  intros hs. unfold expire_keys. destruct l as [|k [|k' r]].
  - exists []. cbn. repeat split; auto; [contradiction|contradiction|discriminate].
  - exists []. cbn. repeat split; auto; [contradiction|contradiction|discriminate].
  - apply unexpired_spec; auto.
Qed.
Lemma newest_expire l : ssorted l -> newest_ts (expire_keys l) = newest_ts l.
Proof.
  intros hs. destruct (expire_spec l hs) as (d & h1 & h2 & _). destruct l as [|k r]; [reflexivity|].
  rewrite h1 at 2. symmetry. apply newest_app. apply h2. discriminate.
Qed.
Lemma ssorted_expire l : ssorted l -> ssorted (expire_keys l).
Proof. intros hs. destruct (expire_spec l hs) as (d & h1 & _). rewrite h1 in hs. apply ssorted_app in hs as (_ & hs & _). exact hs. Qed.
Lemma incl_expire l : ssorted l -> incl (expire_keys l) l.
Proof. intros hs k hk. destruct (expire_spec l hs) as (d & h1 & _). rewrite h1. apply in_or_app. right. exact hk. Qed.
Lemma front_least (f : key_info) r k : ssorted (f :: r) -> In k (f :: r) -> (k_gen f <= k_gen k)%Z.
Proof. intros hs [<-|hk]; [lia|]. apply ssorted_cons in hs as [_ hf]. rewrite Forall_forall in hf. apply lt_gen. auto. Qed.
Lemma expire_stop l : (forall n, second_gen l = Some n -> ~ expired (newest_ts l) n) -> expire_keys l = l.
Proof.
  intros h. unfold expire_keys. destruct l as [|k [|k' r]]; [reflexivity|reflexivity|]. cbn [length unexpired]. cbn [second_gen] in h.
  destruct (skip_gen (k_gen k) (k' :: r)) as [|n n'] eqn:Es; [reflexivity|]. specialize (h n eq_refl). unfold expired in h.
  destruct (k_ts n + KEY_EXPIRY <? _)%Z eqn:E; [lia|reflexivity].
Qed.
Lemma expire_idem l : ssorted l -> expire_keys (expire_keys l) = expire_keys l.
Proof.
  intros hs. destruct (expire_spec l hs) as (d & h1 & h2 & h3 & h4). apply expire_stop. rewrite newest_expire by exact hs. exact h4.
Qed.

Definition outdated (l : list key_info) (k : key_info) : Prop := exists k', In k' l /\ (k_gen k < k_gen k')%Z /\ expired (newest_ts l) k'.
Lemma newest_max l k : ssorted l -> in_step (fun x => In x l) -> In k l -> (k_ts k <= newest_ts l)%Z.
Proof.
  intros hs hm hk. destruct (rev l) as [|z r] eqn:E.
  { assert (l = []) by (rewrite <- (rev_involutive l), E; reflexivity). subst. destruct hk. }
  assert (hl : l = rev r ++ [z]) by (rewrite <- (rev_involutive l), E; reflexivity). clear E. subst l. rewrite newest_last.
  apply ssorted_app in hs as (_ & _ & hs). apply in_app_or in hk as [hk|[<-|[]]]; [|lia].
  assert (hlt : lt k z) by (apply hs; [exact hk|left; reflexivity]). apply k_lt in hlt as [hlt|hlt]; [|lia].
  apply hm; [apply in_or_app; auto|apply in_or_app; right; left; reflexivity|exact hlt].
Qed.
Lemma newest_in l : l <> [] -> exists k, In k l /\ newest_ts l = k_ts k.
Proof.
  intros h. unfold newest_ts. destruct (rev l) as [|z r] eqn:E.
  - destruct h. rewrite <- (rev_involutive l), E. reflexivity.
  - exists z. split; [|reflexivity]. apply in_rev. rewrite E. left. reflexivity.
Qed.
Lemma KEY_EXPIRY_pos : (0 < KEY_EXPIRY)%Z. Proof. reflexivity. Qed.
Lemma second_gen_least f r k : ssorted (f :: r) -> In k (f :: r) -> (k_gen f < k_gen k)%Z ->
  exists n, second_gen (f :: r) = Some n /\ In n (f :: r) /\ (n = k \/ lt n k).
Proof.
  intros hs hk hg. cbn [second_gen]. destruct (skip_gen_spec (k_gen f) r) as (same & h1 & h2 & h3).
  assert (hk' : In k (skip_gen (k_gen f) r)).
  { destruct hk as [<-|hk]; [lia|]. rewrite h1 in hk. apply in_app_or in hk as [hk|hk]; [|exact hk].
    rewrite Forall_forall in h2. specialize (h2 k hk). lia. }
  destruct (skip_gen (k_gen f) r) as [|n n'] eqn:E; [destruct hk'|]. exists n. split; [reflexivity|]. split.
  - right. rewrite h1. apply in_or_app. right. left. reflexivity.
  - destruct hk' as [h|h]; [left; exact h|]. right. apply ssorted_cons in hs as [hs _]. rewrite h1 in hs.
    apply ssorted_app in hs as (_ & hs & _). apply ssorted_cons in hs as [_ hs]. rewrite Forall_forall in hs. auto.
Qed.
Lemma lt_step_ts S x y : in_step S -> S x -> S y -> lt x y -> (k_ts x <= k_ts y)%Z.
Proof. intros hm hx hy h. apply k_lt in h as [h|h]; [apply hm; auto|lia]. Qed.
(** exactly the outdated keys go *)
Lemma expire_in l k : ssorted l -> in_step (fun x => In x l) -> In k (expire_keys l) <-> In k l /\ ~ outdated l k.
Proof.
  intros hs hm. destruct (expire_spec l hs) as (d & h1 & h2 & h3 & h4). pose proof (ssorted_expire l hs) as hs'.
  pose proof (incl_expire l hs) as hi. destruct (expire_keys l) as [|f r] eqn:E.
  { split; [intros []|]. intros [h _]. destruct l; [destruct h|]. destruct h2; [discriminate|reflexivity]. }
  specialize (h3 f r eq_refl). split.
  - intros hk. split; [auto|]. intros (k' & e1 & e2 & e3).
    assert (hk' : In k' (f :: r)).
    { rewrite h1 in e1. apply in_app_or in e1 as [e1|e1]; [|exact e1]. apply h3 in e1 as [e1 _].
      pose proof (front_least f r k hs' hk). lia. }
    destruct (second_gen_least f r k' hs' hk') as (n & n1 & n2 & n3). { pose proof (front_least f r k hs' hk). lia. }
    apply (h4 n n1). unfold expired in *. enough (k_ts n <= k_ts k')%Z by lia. destruct n3 as [-> | n3]; [lia|].
    exact (lt_step_ts _ n k' hm (hi _ n2) e1 n3).
  - intros [hk ho]. rewrite h1 in hk. apply in_app_or in hk as [hk|hk]; [|exact hk]. exfalso. apply ho. exists f.
    destruct (h3 k hk) as [h5 h6]. repeat split; auto. apply hi. left. reflexivity.
Qed.

(** ** inserting *)
(** what [insert_key] does to the list *)
Definition learn (x : key_info) (l : list key_info) : list key_info :=
  if existsb (fun y => same_key y x) l then l else if stale x l then l else expire_keys (place x l).
Lemma insert_key_keys h x o : ko_keys (insert_key h x o) = learn x (ko_keys o).
Proof. unfold insert_key, learn. destruct (existsb _ _); [reflexivity|]. destruct (stale _ _); reflexivity. Qed.
Lemma in_step_incl (S T : key_info -> Prop) : (forall x, S x -> T x) -> in_step T -> in_step S.
Proof. intros h hm x y hx hy. apply hm; auto. Qed.
Lemma top_expired n : forall l : list key_info, (exists k, In k l /\ expired n k) ->
  exists k, In k l /\ expired n k /\ forall k', In k' l -> expired n k' -> (k_gen k' <= k_gen k)%Z.
Proof.
  assert (hd : forall k, {expired n k} + {~ expired n k}) by (intros k; unfold expired; apply Z_lt_dec).
  induction l as [|x l IH]; intros (k & h1 & h2); [destruct h1|]. destruct (hd x) as [hx|hx].
  - assert (hcase : (exists k, In k l /\ expired n k) \/ forall k, In k l -> ~ expired n k).
    { clear -hd. induction l as [|y l IH]; [right; intros k []|]. destruct (hd y); [left; exists y; split; [left; reflexivity|auto]|].
      destruct IH as [(k & ? & ?)|IH]; [left; exists k; split; [right; auto|auto]|right; intros k [<-|hk]; auto]. }
    destruct hcase as [hc|hc].
    + destruct (IH hc) as (m & m1 & m2 & m3). destruct (Z_le_dec (k_gen x) (k_gen m)) as [h|h].
      * exists m. split; [right; exact m1|]. split; [exact m2|]. intros k' [<-|hk]; [auto|apply m3; auto].
      * exists x. split; [left; reflexivity|]. split; [exact hx|]. intros k' [<-|hk] he; [lia|]. specialize (m3 k' hk he). lia.
    + exists x. split; [left; reflexivity|]. split; [exact hx|]. intros k' [<-|hk] he; [lia|]. destruct (hc k' hk he).
  - destruct h1 as [<-|h1]; [contradiction|]. destruct IH as (m & m1 & m2 & m3); [exists k; auto|].
    exists m. split; [right; exact m1|]. split; [exact m2|]. intros k' [<-|hk] he; [contradiction|auto].
Qed.
(** if anything at all is expired, the front of what is left is, and nothing older than the front can come back *)
Lemma front_expired T f r : ssorted T -> in_step (fun x => In x T) -> expire_keys T = f :: r ->
  (exists k, In k T /\ expired (newest_ts T) k) -> expired (newest_ts T) f.
Proof.
  intros hs hm hK hex. destruct (top_expired (newest_ts T) T hex) as (m & m1 & m2 & m3).
  assert (hmK : In m (expire_keys T)).
  { apply expire_in; auto. split; [exact m1|]. intros (k' & e1 & e2 & e3). specialize (m3 k' e1 e3). lia. }
  rewrite hK in hmK. pose proof (ssorted_expire T hs) as hs'. rewrite hK in hs'.
  assert (hle : (k_ts f <= k_ts m)%Z); [|unfold expired in *; lia].
  destruct hmK as [->|hmK]; [lia|]. apply (lt_step_ts (fun x => In x T)); auto.
  - apply (incl_expire T hs). rewrite hK. left. reflexivity.
  - apply ssorted_cons in hs' as [_ hs']. rewrite Forall_forall in hs'. auto.
Qed.
Lemma stale_spec x f r : stale x (f :: r) = true <-> (k_gen x < k_gen f)%Z /\ expired (newest_ts (f :: r)) f.
Proof.
  unfold expired. destruct r as [|g r].
  - cbn [stale]. split; [discriminate|]. unfold newest_ts. cbn [rev app]. pose proof KEY_EXPIRY_pos. lia.
  - set (N := newest_ts (f :: g :: r)). cbn [stale]. fold N. split.
    + rewrite !andb_true_iff. intros ((_ & h1) & h2). lia.
    + intros [h1 h2]. rewrite !andb_true_iff. split; [split|]; [|lia|lia].
      apply negb_true_iff. apply ltb_nlt. intros h. apply lt_gen in h. lia.
Qed.
Lemma learn_set x T : ssorted T -> in_step (fun y => y = x \/ In y T) -> one_time (fun y => y = x \/ In y T) ->
  learn x (expire_keys T) = expire_keys (sadd x T).
Proof.
  intros hs hm ho. pose proof (ssorted_expire T hs) as hs'. pose proof (incl_expire T hs) as hi.
  pose proof (ssorted_sadd x T hs) as hsx.
  assert (hmT : in_step (fun y => In y T)) by (refine (in_step_incl _ _ _ hm); auto).
  assert (hmx : in_step (fun y => In y (sadd x T))) by (refine (in_step_incl _ _ _ hm); intros y hy; apply In_sadd in hy; exact hy).
  assert (hsame : In x T -> sadd x T = T).
  { intros hx. apply ssorted_ext; auto. intros y. rewrite In_sadd. split; [intros [->|h]; auto|auto]. }
  unfold learn. destruct (existsb _ _) eqn:Ed.
  { apply existsb_exists in Ed as (y & hy & hk). apply same_key_spec in hk as [hg hk].
    assert (y = x) by (apply key_info_eq; auto; apply ho; auto). subst y. rewrite hsame; auto. }
  assert (hxK : ~ In x (expire_keys T)).
  { intros h. rewrite <- not_true_iff_false in Ed. apply Ed. apply existsb_exists. exists x. split; [exact h|]. apply same_key_spec. auto. }
  destruct (expire_keys T) as [|f r] eqn:EK.
  { assert (T = []). { destruct T; [reflexivity|]. destruct (expire_spec _ hs) as (d & _ & h2 & _). destruct h2; [discriminate|exact EK]. }
    subst T. reflexivity. }
  assert (hfT : In f T) by (apply hi; left; reflexivity).
  assert (hN : newest_ts (f :: r) = newest_ts T) by (rewrite <- EK; apply newest_expire; exact hs).
  destruct (stale x (f :: r)) eqn:Es.
  - apply stale_spec in Es as [s1 s2]. rewrite hN in s2.
    assert (hNx : newest_ts (sadd x T) = newest_ts T).
    { assert (hxN : (k_ts x <= newest_ts T)%Z).
      { transitivity (k_ts f); [apply hm; auto|apply newest_max; auto]. }
      destruct (newest_in T) as (z & z1 & z2); [intros ->; destruct hfT|].
      destruct (newest_in (sadd x T)) as (w & w1 & w2). { intros h. assert (In x (sadd x T)) by (apply In_sadd; auto). rewrite h in H. destruct H. }
      assert (k_ts z <= newest_ts (sadd x T))%Z by (apply newest_max; auto; apply In_sadd; auto).
      apply In_sadd in w1 as [-> | w1]; [lia|]. pose proof (newest_max T w hs hmT w1). lia. }
    apply ssorted_ext; [exact hs'|apply ssorted_expire; exact hsx|]. intros k. rewrite <- EK. rewrite !expire_in by auto. rewrite In_sadd.
    split.
    + intros [k1 k2]. split; [auto|]. intros (k' & e1 & e2 & e3). apply k2. rewrite hNx in e3. apply In_sadd in e1 as [-> | e1].
      * exists f. repeat split; auto. lia.
      * exists k'. auto.
    + intros [[->|k1] k2].
      * destruct k2. exists f. rewrite hNx. split; [apply In_sadd; auto|]. auto.
      * split; [exact k1|]. intros (k' & e1 & e2 & e3). apply k2. exists k'. rewrite hNx. split; [apply In_sadd; auto|auto].
  - assert (hstale : In x T -> False).
    { intros hx. assert (hout : ~ ~ outdated T x). { intros h. apply hxK. rewrite <- EK. apply expire_in; auto. }
      apply hout. intros (k' & e1 & e2 & e3). apply not_true_iff_false in Es. apply Es. apply stale_spec. rewrite hN.
      assert (hf : expired (newest_ts T) f) by (eapply front_expired; eauto). split; [|exact hf].
      destruct (Z_lt_dec (k_gen x) (k_gen f)) as [h|h]; [exact h|]. exfalso.
      assert (hfK : In f (expire_keys T)) by (rewrite EK; left; reflexivity). apply expire_in in hfK as [_ hfK]; auto.
      apply hfK. exists k'. repeat split; auto. lia. }
    rewrite place_sadd by auto. pose proof (ssorted_sadd x _ hs') as hsK.
    assert (hmK : in_step (fun y => In y (sadd x (f :: r)))).
    { refine (in_step_incl _ _ _ hm). intros y hy. apply In_sadd in hy as [-> | hy]; auto. }
    assert (hNx : newest_ts (sadd x (f :: r)) = newest_ts (sadd x T)).
    { destruct (newest_in T) as (z & z1 & z2); [intros ->; destruct hfT|].
      destruct (newest_in (f :: r)) as (v & v1 & v2); [discriminate|].
      assert (hv : forall l, (exists k, In k (sadd x l)) -> exists w, In w (sadd x l) /\ newest_ts (sadd x l) = k_ts w).
      { intros l (k & hk). apply newest_in. intros h. rewrite h in hk. destruct hk. }
      destruct (hv T) as (w & w1 & w2). { exists x. apply In_sadd. auto. }
      destruct (hv (f :: r)) as (u & u1 & u2). { exists x. apply In_sadd. auto. }
      assert (i1 : (k_ts u <= newest_ts (sadd x T))%Z).
      { apply newest_max; auto. apply In_sadd. apply In_sadd in u1 as [-> | u1]; auto. }
      assert (i2 : (k_ts w <= newest_ts (sadd x (f :: r)))%Z).
      { apply In_sadd in w1 as [-> | w1]; [apply newest_max; auto; apply In_sadd; auto|].
        pose proof (newest_max T w hs hmT w1). assert (k_ts v <= newest_ts (sadd x (f :: r)))%Z by (apply newest_max; auto; apply In_sadd; auto). lia. }
      lia. }
    assert (hNT : (newest_ts T <= newest_ts (sadd x T))%Z).
    { destruct (newest_in T) as (z & z1 & z2); [intros ->; destruct hfT|]. rewrite z2. apply newest_max; auto. apply In_sadd. auto. }
    apply ssorted_ext; [apply ssorted_expire; exact hsK|apply ssorted_expire; exact hsx|]. intros k. rewrite !expire_in by auto. rewrite !In_sadd.
    assert (hout : outdated (sadd x (f :: r)) k <-> outdated (sadd x T) k).
    { unfold outdated. rewrite hNx. split; intros (k' & e1 & e2 & e3).
      - exists k'. split; [|auto]. apply In_sadd. apply In_sadd in e1 as [-> | e1]; auto.
      - apply In_sadd in e1 as [-> | e1]; [exists x; split; [apply In_sadd; auto|auto]|].
        assert (hcase : In k' (f :: r) \/ ~ In k' (f :: r)) by (rewrite <- !mem_In; destruct (mem k' (f :: r)); auto).
        destruct hcase as [hin|hin]; [exists k'; split; [apply In_sadd; auto|auto]|].
        assert (hcf : (k_gen k' < k_gen f)%Z /\ expired (newest_ts T) f).
        { destruct (expire_spec T hs) as (d & h1 & _ & h3 & _). rewrite EK in h1. rewrite h1 in e1. apply in_app_or in e1 as [e1|e1]; [|contradiction].
          exact (h3 f r EK k' e1). }
        destruct hcf as [c1 c2]. exists f. split; [apply In_sadd; right; left; reflexivity|]. split; [lia|]. unfold expired in *. lia. }
    rewrite hout. split.
    + intros [[k1|k1] k2]; split; auto.
    + intros [[k1|k1] k2]; split; auto. right. rewrite <- EK. apply expire_in; auto. split; [exact k1|]. intros (k' & e1 & e2 & e3). apply k2.
      exists k'. split; [apply In_sadd; auto|]. split; [exact e2|]. unfold expired in *. lia.
Qed.
