(** Group keys: the order of the messages does not matter. *)
From Verif Require Import KeysSpec KeyList_facts Keys_facts Keys2_facts.

Definition known (P : list (bytes * key_info)) (k : key_info) : Prop := exists h, In (h, k) P.
Record tracked (P : list (bytes * key_info)) (o : kobj) : Prop := {
  tr_keys : exists T, ssorted T /\ (forall k, In k T <-> known P k) /\ ko_keys o = expire_keys T;
  tr_tbl : tbl_ok (ko_active o);
  tr_act : forall g h, has_hash (ko_active o) g h <-> (exists k, In (h, k) P /\ k_gen k = g) /\ exists f r, ko_keys o = f :: r /\ (k_gen f <= g)%Z
}.
Lemma tracked_nil o : ko_keys o = [] -> ko_active o = [] -> tracked [] o.
Proof.
  intros h1 h2. split.
  - exists []. split; [constructor|]. split; [|exact h1]. intros k. split; [intros []|intros (h & [])].
  - rewrite h2. apply tbl_nil.
  - intros g h. rewrite h2. split; [intros (l & ? & _); discriminate|]. intros ((k & [] & _) & _).
Qed.
Lemma tracked_insert P o h x : tracked P o -> in_step (fun y => y = x \/ known P y) -> one_time (fun y => y = x \/ known P y) ->
  tracked ((h, x) :: P) (insert_key h x o).
Proof.
  intros [(T & t1 & t2 & t3) t4 t5] hm ho.
  assert (hm' : in_step (fun y => y = x \/ In y T)) by (refine (in_step_incl _ _ _ hm); intros y [hy|hy]; [auto|right; apply t2; exact hy]).
  assert (ho' : one_time (fun y => y = x \/ In y T)).
  { intros a c ha hc. apply ho; [destruct ha|destruct hc]; auto; right; apply t2; assumption. }
  assert (hmT : in_step (fun y => In y T)) by (refine (in_step_incl _ _ _ hm'); auto).
  pose proof (learn_set x T t1 hm' ho') as hl. rewrite <- t3 in hl.
  assert (hkn : forall k, In k (sadd x T) <-> known ((h, x) :: P) k).
  { intros k. rewrite In_sadd, t2. split.
    - intros [-> | (h' & h1)]; [exists h; left; reflexivity|exists h'; right; exact h1].
    - intros (h' & [[= _ <-]|h1]); [auto|right; exists h'; exact h1]. }
  assert (hex : forall g h', (exists k, In (h', k) ((h, x) :: P) /\ k_gen k = g) <-> (exists k, In (h', k) P /\ k_gen k = g) \/ g = k_gen x /\ h' = h).
  { intros g h'. split.
    - intros (k & [[= <- <-]|h1] & h2); [right; auto|left; eauto].
    - intros [(k & h1 & h2)|[-> ->]]; [exists k; split; [right; exact h1|exact h2]|exists x; split; [left; reflexivity|reflexivity]]. }
  split.
  - exists (sadd x T). split; [apply ssorted_sadd; exact t1|]. split; [exact hkn|]. rewrite insert_key_keys. exact hl.
  - unfold insert_key. destruct (existsb _ _); [apply tbl_add; exact t4|]. destruct (stale _ _); [exact t4|]. cbv zeta. apply tbl_expire, tbl_add. exact t4.
  - intros g h'. rewrite hex. rewrite insert_key_keys, hl. unfold learn in hl. unfold insert_key. destruct (existsb _ _) eqn:Ed.
    + cbn [with_keys ko_active]. rewrite has_add by apply t4. rewrite t5, <- hl. apply existsb_exists in Ed as (y & y1 & y2). apply same_key_spec in y2 as [y2 _].
      split; [|intros ([h1|h1] & h2); auto]. intros [[h1 h2]|[-> ->]]; [auto|]. split; [auto|].
      pose proof (ssorted_expire T t1) as hs. rewrite <- t3 in hs. destruct (ko_keys o) as [|f r] eqn:Ek; [destruct y1|]. exists f, r. split; [reflexivity|].
      rewrite <- y2. exact (front_least f r y hs y1).
    + destruct (stale x (ko_keys o)) eqn:Es.
      * rewrite t5, <- hl. split; [intros [h1 h2]; auto|]. intros [[h1|[-> ->]] h2]; [auto|]. destruct h2 as (f & r & h2 & h3). rewrite h2 in Es. apply stale_spec in Es as [Es _]. lia.
      * cbv zeta. unfold remove_expired. cbn [with_keys ko_keys ko_active]. rewrite hl.
        assert (hne : sadd x T <> []). { intros hn. assert (hi : In x (sadd x T)) by (apply In_sadd; auto). rewrite hn in hi. destruct hi. }
        pose proof (ssorted_sadd x T t1) as hsx.
        destruct (expire_spec _ hsx) as (d & _ & hne' & _). specialize (hne' hne). destruct (expire_keys (sadd x T)) as [|f r] eqn:Ef; [contradiction|].
        rewrite has_expire by (apply tbl_add; exact t4). rewrite has_add by apply t4. rewrite t5. split.
        -- intros [[[h1 _]|h1] h2]; (split; [auto|exists f, r; auto]).
        -- intros [h1 (f' & r' & [= <- <-] & h2)]. split; [|exact h2]. destruct h1 as [(k & k1 & k2)|h1]; [|auto]. left. split; [eauto|].
           assert (hkT : In k T) by (apply t2; exists h'; exact k1).
           destruct (ko_keys o) as [|f0 r0] eqn:Ek.
           { destruct (expire_spec T t1) as (? & _ & hn & _). destruct hn; [intros ->; destruct hkT|auto]. }
           exists f0, r0. split; [reflexivity|]. destruct (Z_le_dec (k_gen f0) g) as [hle|hgt]; [exact hle|]. exfalso.
           assert (hmx : in_step (fun y => In y (sadd x T))) by (refine (in_step_incl _ _ _ hm'); intros y hy; apply In_sadd in hy; exact hy).
           assert (hfx : In f (expire_keys (sadd x T))) by (rewrite Ef; left; reflexivity). apply expire_in in hfx as [_ hfx]; auto.
           assert (hc : (k_gen k < k_gen f0)%Z /\ expired (newest_ts T) f0).
           { destruct (expire_spec T t1) as (dd & e1 & _ & e3 & _). rewrite <- t3 in e1, e3. rewrite e1 in hkT. apply in_app_or in hkT as [hkT|hkT]; [exact (e3 f0 r0 eq_refl k hkT)|].
             pose proof (ssorted_expire T t1) as hs0. rewrite <- t3 in hs0. pose proof (front_least f0 r0 k hs0 hkT). lia. }
           destruct hc as [c1 c2].
           assert (hf0T : In f0 T) by (apply (incl_expire T t1); rewrite <- t3; left; reflexivity).
           apply hfx. exists f0. split; [apply In_sadd; auto|]. split; [lia|]. unfold expired in *.
           destruct (newest_in T) as (z & z1 & z2); [intros ->; destruct hf0T|].
           assert (k_ts z <= newest_ts (sadd x T))%Z by (apply newest_max; auto; apply In_sadd; auto). lia.
Qed.
Lemma tracked_inserts h ks : forall P o, tracked P o -> in_step (fun y => In y ks \/ known P y) -> one_time (fun y => In y ks \/ known P y) ->
  tracked (map (fun k => (h, k)) (rev ks) ++ P) (fold_left (fun o k => insert_key h k o) ks o).
Proof.
  induction ks as [|k ks IH]; intros P o hP hm ho; [exact hP|]. cbn [fold_left rev]. rewrite map_app, <- app_assoc. cbn [map app].
  assert (hsub : forall y, In y ks \/ known ((h, k) :: P) y -> In y (k :: ks) \/ known P y).
  { intros y [hy|(h' & [[= _ <-]|hy])]; [left; right; exact hy|left; left; reflexivity|right; exists h'; exact hy]. }
  apply IH.
  - apply tracked_insert; auto; [refine (in_step_incl _ _ _ hm)|intros y z hy hz; apply ho; [destruct hy as [-> | hy]|destruct hz as [-> | hz]]]; auto; try (left; left; reflexivity).
    intros y [-> | hy]; [left; left; reflexivity|auto].
  - refine (in_step_incl _ _ _ hm). exact hsub.
  - intros y z hy hz. apply ho; apply hsub; assumption.
Qed.
Lemma tracked_keys P o o' : ko_keys o' = ko_keys o -> ko_active o' = ko_active o -> tracked P o -> tracked P o'.
Proof. intros h1 h2 [t1 t2 t3]. split; rewrite ?h1, ?h2; auto. Qed.
Lemma tracked_same P P' o o' : (forall p, In p P <-> In p P') -> tracked P o -> tracked P' o' -> ko_keys o = ko_keys o' /\ ko_active o = ko_active o'.
Proof.
  intros hp [(T & t1 & t2 & t3) t4 t5] [(T' & u1 & u2 & u3) u4 u5].
  assert (hT : T = T').
  { apply ssorted_ext; auto. intros k. rewrite t2, u2. split; intros (h & hk); exists h; apply hp; exact hk. }
  assert (hk : ko_keys o = ko_keys o') by congruence. split; [exact hk|]. apply tbl_ext; auto. intros g h. rewrite t5, u5, hk.
  split; intros [(k & h1 & h2) h3]; (split; [exists k; split; [apply hp; exact h1|exact h2]|exact h3]).
Qed.

(** ** whole messages *)
Definition same_reader (o o' : kobj) : Prop := ko_user o' = ko_user o /\ ko_pk o' = ko_pk o /\ ko_sk o' = ko_sk o.
Lemma read_message_ext G o o' data ts : same_reader o o' -> read_message G o' data ts = read_message G o data ts.
Proof. destruct o, o'. unfold same_reader. cbn. intros (-> & -> & ->). reflexivity. Qed.
Lemma contents_ext G o o' m : same_reader o o' -> contents G o' m = contents G o m.
Proof. intros h. unfold contents. rewrite (read_message_ext G o o') by exact h. destruct h as (_ & -> & _). reflexivity. Qed.
Lemma receive_contents G o m : receive G o m =
  match read_message G o (snd (fst m)) (snd m) with
  | Ok (ks, gen, s) => match verify_sig (sig_env G (ko_pk o)) false (snd (fst m)) s with Ok _ => take_in (fst (fst m)) ks gen o | _ => o end
  | _ => o
  end.
Proof.
  unfold receive. destruct (load_key_message _ _ _ _ o) as [[r o']| | | |] eqn:E.
  - apply load_inv in E as (ks & gen & s & sig & h1 & h2 & h3 & _). rewrite h1, h2. auto.
  - destruct (read_message _ _ _ _) as [[[ks gen] s]| | | |] eqn:E1; auto. destruct (verify_sig _ _ _ _) eqn:E2; auto. rewrite (load_ok G _ _ _ _ _ _ _ _ E1 E2) in E. discriminate.
  - destruct (read_message _ _ _ _) as [[[ks gen] s]| | | |] eqn:E1; auto. destruct (verify_sig _ _ _ _) eqn:E2; auto. rewrite (load_ok G _ _ _ _ _ _ _ _ E1 E2) in E. discriminate.
  - destruct (read_message _ _ _ _) as [[[ks gen] s]| | | |] eqn:E1; auto. destruct (verify_sig _ _ _ _) eqn:E2; auto. rewrite (load_ok G _ _ _ _ _ _ _ _ E1 E2) in E. discriminate.
  - destruct (read_message _ _ _ _) as [[[ks gen] s]| | | |] eqn:E1; auto. destruct (verify_sig _ _ _ _) eqn:E2; auto. rewrite (load_ok G _ _ _ _ _ _ _ _ E1 E2) in E. discriminate.
Qed.
Definition pairs (G : gcrypt) (o : kobj) (ms : list kmsg) : list (bytes * key_info) :=
  flat_map (fun m => match contents G o m with Some ks => map (fun k => (fst (fst m), k)) ks | None => [] end) ms.
Lemma drop_pending_keys ks o : ko_keys (drop_pending ks o) = ko_keys o /\ ko_active (drop_pending ks o) = ko_active o.
Proof. unfold drop_pending. destruct ks; [auto|]. destruct (_ && _); auto. Qed.
Lemma same_reader_refl o : same_reader o o. Proof. repeat split. Qed.
Lemma receive_reader G o m : same_reader o (receive G o m).
Proof.
  rewrite receive_contents. destruct (read_message _ _ _ _) as [[[ks gen] s]| | | |]; try apply same_reader_refl. destruct (verify_sig _ _ _ _); try apply same_reader_refl. apply take_id.
Qed.
Lemma in_pairs G o ms p : In p (pairs G o ms) <-> exists m ks, In m ms /\ contents G o m = Some ks /\ fst p = fst (fst m) /\ In (snd p) ks.
Proof.
  unfold pairs. rewrite in_flat_map. split.
  - intros (m & h1 & h2). destruct (contents G o m) as [ks|] eqn:E; [|destruct h2]. apply in_map_iff in h2 as (k & <- & h2). exists m, ks. auto.
  - intros (m & ks & h1 & h2 & h3 & h4). exists m. split; [exact h1|]. rewrite h2. apply in_map_iff. exists (snd p). rewrite <- h3. destruct p; auto.
Qed.
Lemma tracked_all G o0 ms : forall P o, same_reader o0 o -> tracked P o -> readable G o0 ms ->
  in_step (fun y => known (pairs G o0 ms) y \/ known P y) -> one_time (fun y => known (pairs G o0 ms) y \/ known P y) ->
  exists P', tracked P' (receive_all G ms o) /\ forall p, In p P' <-> In p (pairs G o0 ms) \/ In p P.
Proof.
  induction ms as [|m ms IH]; intros P o hr hP hrd hm ho; [exists P; split; [exact hP|]; cbn; tauto|].
  change (receive_all G (m :: ms) o) with (receive_all G ms (receive G o m)).
  assert (hrd' : readable G o0 ms) by (intros m' hm'; apply hrd; right; exact hm').
  assert (hr' : same_reader o0 (receive G o m)).
  { pose proof (receive_reader G o m) as (q1 & q2 & q3). destruct hr as (r1 & r2 & r3). unfold same_reader. rewrite q1, q2, q3. auto. }
  pose proof (receive_contents G o m) as hc. pose proof (contents_ext G o0 o m hr) as he. unfold contents at 1 in he.
  assert (hcase : (contents G o0 m = None /\ receive G o m = o) \/ exists ks gen, contents G o0 m = Some ks /\ ks <> [] /\ receive G o m = take_in (fst (fst m)) ks gen o).
  { destruct (read_message G o _ _) as [[[ks gen] s]| | | |]; try (left; split; auto; fail). destruct (verify_sig _ _ _ _); try (left; split; auto; fail).
    right. exists ks, gen. split; [auto|]. split; [|exact hc]. intros ->. apply (hrd m); [left; reflexivity|auto]. }
  destruct hcase as [[h1 h2]|(ks & gen & h1 & h2 & h3)].
  - destruct (IH P (receive G o m)) as (P' & p1 & p2); auto.
    + rewrite h2. exact hP.
    + refine (in_step_incl _ _ _ hm). intros y [(h & hy)|hy]; [left; exists h|auto]. unfold pairs. cbn [flat_map]. apply in_or_app. right. exact hy.
    + intros y z hy hz. apply ho; [destruct hy as [(h & hy)|hy]|destruct hz as [(h & hz)|hz]]; auto; left; exists h; unfold pairs; cbn [flat_map]; apply in_or_app; right; assumption.
    + exists P'. split; [exact p1|]. intros p. rewrite p2. unfold pairs at 2. cbn [flat_map]. rewrite h1. reflexivity.
  - assert (hpm : forall p, In p (pairs G o0 (m :: ms)) <-> In p (map (fun k => (fst (fst m), k)) ks) \/ In p (pairs G o0 ms)).
    { intros p. unfold pairs at 1. cbn [flat_map]. rewrite h1. rewrite in_app_iff. reflexivity. }
    assert (hk : forall y, In y ks -> known (pairs G o0 (m :: ms)) y).
    { intros y hy. exists (fst (fst m)). apply hpm. left. apply in_map_iff. eauto. }
    assert (hk' : forall y, known (pairs G o0 ms) y -> known (pairs G o0 (m :: ms)) y).
    { intros y (h & hy). exists h. apply hpm. right. exact hy. }
    set (P1 := map (fun k => (fst (fst m), k)) (rev ks) ++ P).
    assert (hP1 : forall y, known P1 y -> In y ks \/ known P y).
    { intros y (h & hy). unfold P1 in hy. apply in_app_or in hy as [hy|hy]; [|right; exists h; exact hy]. apply in_map_iff in hy as (k & [= _ <-] & hy). left. apply in_rev. exact hy. }
    assert (htr : tracked P1 (receive G o m)).
    { rewrite h3. unfold take_in. destruct ks as [|k ks]; [contradiction|]. apply tracked_inserts.
      - destruct (drop_pending_keys (k :: ks) o) as [q1 q2]. apply (tracked_keys P o); auto.
      - refine (in_step_incl _ _ _ hm). intros y [hy|hy]; auto.
      - intros y z hy hz. apply ho; [destruct hy|destruct hz]; auto. }
    destruct (IH P1 (receive G o m)) as (P' & p1 & p2); auto.
    + refine (in_step_incl _ _ _ hm). intros y [hy|hy]; [auto|]. apply hP1 in hy as [hy|hy]; auto.
    + intros y z hy hz. apply ho; [destruct hy as [hy|hy]|destruct hz as [hz|hz]]; auto; [apply hP1 in hy as [hy|hy]|apply hP1 in hz as [hz|hz]]; auto.
    + exists P'. split; [exact p1|]. intros p. rewrite p2, hpm. unfold P1. rewrite in_app_iff, !in_map_iff.
      assert (hrev : (exists x, (fst (fst m), x) = p /\ In x (rev ks)) <-> exists x, (fst (fst m), x) = p /\ In x ks) by (split; intros (x & x1 & x2); exists x; split; auto; apply in_rev; auto; rewrite rev_involutive; auto).
      rewrite hrev. tauto.
Qed.
Lemma known_offered G o ms k : known (pairs G o ms) k <-> offered G o ms k.
Proof.
  split.
  - intros (h & hk). apply in_pairs in hk as (m & ks & h1 & h2 & _ & h3). exists m, ks. auto.
  - intros (m & ks & h1 & h2 & h3). exists (fst (fst m)). apply in_pairs. exists m, ks. auto.
Qed.
Lemma order_free G o ms ms' : ko_keys o = [] -> ko_active o = [] -> (forall m, In m ms <-> In m ms') -> readable G o ms ->
  in_step (offered G o ms) -> one_time (offered G o ms) ->
  ko_keys (receive_all G ms o) = ko_keys (receive_all G ms' o) /\ ko_active (receive_all G ms o) = ko_active (receive_all G ms' o).
Proof.
  intros h1 h2 hms hrd hm ho.
  assert (hoff : forall l, (forall m, In m ms <-> In m l) -> forall y, known (pairs G o l) y \/ known [] y -> offered G o ms y).
  { intros l hl y [hy|(h & [])]. apply known_offered in hy as (m & ks & m1 & m2 & m3). exists m, ks. split; [apply hl; exact m1|auto]. }
  assert (hrun : forall l, (forall m, In m ms <-> In m l) -> exists P', tracked P' (receive_all G l o) /\ forall p, In p P' <-> In p (pairs G o l) \/ In p []).
  { intros l hl. apply tracked_all.
    - apply same_reader_refl.
    - apply tracked_nil; auto.
    - intros m hi. apply hrd. apply hl. exact hi.
    - refine (in_step_incl _ _ _ hm). apply hoff. exact hl.
    - intros y z hy hz. apply ho; apply (hoff l hl); assumption. }
  destruct (hrun ms) as (P & p1 & p2); [reflexivity|]. destruct (hrun ms' hms) as (P' & q1 & q2). apply (tracked_same P P'); auto.
  intros p. rewrite p2, q2. rewrite !in_pairs. split; (intros [(m & ks & m1 & m2)|[]]; left; exists m, ks; split; [apply hms; exact m1|exact m2]).
Qed.
