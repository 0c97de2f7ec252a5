(** Proofs for C101: devices that take turns. *)
From Coq Require Import Lia.
From Verif Require Import TurnSpec Maps Data_facts Diff_facts Parse_facts Message_facts Wire_facts Round_facts Reach_facts Redeliver_facts Merge_facts Resolve_facts Conflict_facts Overflow_facts Replay_facts Merge2_facts Adopt_facts Crypt_facts Base_facts Dump_facts Life_facts Life2_facts Life3_facts Life4_facts Fields_facts Conf_facts Conf2_facts Conf3_facts Conf4_facts Conf5_facts Conf6_facts Converge_facts Plain_facts Net_facts Hist_facts Quiet_facts CInfo_facts Source_facts Records_facts Net2_facts Solo_facts.

(** ** edits see only what is shown *)
Lemma upd_leaf_iff e x f : forall i l d p, wf d = true -> leaf e p x (VDict (upd_field i l f d)) <-> (exists r, p = i ++ l :: r /\ leaf e r x (f (field i l d))) \/ (apart p (i ++ [l]) = true /\ leaf e p x (VDict d)).
Proof.
  induction i as [|k i IH]; intros l d p hw; cbn [upd_field app].
  - destruct p as [|k0 p]; [cbn; split; [tauto|intros [(r & h & _)|[h _]]; discriminate]|]. rewrite leaf_cons, lookup_insert by (apply wf_sorted; exact hw). cbn [apart]. destruct (eqb k0 l) eqn:ek.
    + apply eqb_eq in ek. subst k0. cbn [oleaf]. split; [intros h; left; exists p; auto|]. intros [(r & h & g)|[h _]]; [injection h as ->; exact g|destruct p; discriminate h].
    + split; [intros h; right; auto|]. intros [(r & h & _)|[_ h]]; [|exact h]. injection h as -> _. rewrite eqb_refl in ek. discriminate.
  - destruct p as [|k0 p]; [cbn; split; [tauto|intros [(r & h & _)|[h _]]; discriminate]|]. rewrite leaf_cons, lookup_insert by (apply wf_sorted; exact hw). cbn [apart]. destruct (eqb k0 k) eqn:ek.
    + apply eqb_eq in ek. subst k0. cbn [oleaf]. rewrite (IH l _ p (wf_sub _ k hw)), field_as_dict. split.
      * intros [(r & -> & h)|[h1 h2]]; [left; exists r; auto|right]. split; [exact h1|]. rewrite leaf_cons. destruct (lookup k d) as [[y|s|d']|]; cbn [as_dict] in h2; try exact h2; destruct p; destruct h2.
      * intros [(r & h & g)|[h1 h2]]; [left; injection h as ->; exists r; auto|right]. split; [exact h1|]. rewrite leaf_cons in h2. destruct (lookup k d) as [[y|s|d']|]; cbn [as_dict oleaf] in *; try exact h2; destruct p; try discriminate h1; destruct h2.
    + split; [intros h; right; auto|]. intros [(r & h & _)|[_ h]]; [|exact h]. injection h as -> _. rewrite eqb_refl in ek. discriminate.
Qed.
Lemma mod_leaf_iff e x f : forall i l d p, wf d = true -> leaf e p x (VDict (mod_field i l f d)) <-> (exists r v v', p = i ++ l :: r /\ field i l d = Some v /\ f v = Some v' /\ leaf e r x v') \/ ((forall r, p <> i ++ l :: r) /\ leaf e p x (VDict d)).
Proof.
  induction i as [|k i IH]; intros l d p hw; cbn [mod_field app].
  - change (field [] l d) with (lookup l d). destruct (lookup l d) as [v|] eqn:el.
    + destruct p as [|k0 p]; [destruct (f v) as [vv|]; cbn; (split; [tauto|intros [(r & v0 & v' & h & _)|[_ h]]; [discriminate|exact h]])|].
      destruct (eqb k0 l) eqn:ek.
      * apply eqb_eq in ek. subst k0. destruct (f v) as [v'|] eqn:ef; rewrite leaf_cons.
        -- rewrite lookup_insert, eqb_refl by (apply wf_sorted; exact hw). cbn [oleaf]. split; [intros h; left; exists p, v, v'; auto|]. intros [(r & v0 & v1 & h1 & h2 & h3 & h4)|[h _]]; [|exfalso; exact (h p eq_refl)]. injection h1 as ->. congruence.
        -- rewrite lookup_erase, eqb_refl. cbn [oleaf]. split; [tauto|]. intros [(r & v0 & v1 & _ & h2 & h3 & _)|[h _]]; [congruence|exact (h p eq_refl)].
      * assert (ne : forall r, k0 :: p <> l :: r) by (intros r h; injection h as -> _; rewrite eqb_refl in ek; discriminate).
        assert (hs : leaf e (k0 :: p) x (VDict (match f v with Some v' => insert l v' d | None => erase l d end)) <-> leaf e (k0 :: p) x (VDict d)).
        { destruct (f v) as [v'|]; rewrite !leaf_cons; [rewrite lookup_insert by (apply wf_sorted; exact hw)|rewrite lookup_erase]; rewrite ek; reflexivity. }
        rewrite hs. split; [intros h; right; auto|]. intros [(r & v0 & v' & h & _)|[_ h]]; [destruct (ne r h)|exact h].
    + split; [|intros [(r & v0 & v' & _ & h & _)|[_ h]]; [discriminate|exact h]]. intros h. right. split; [|exact h]. intros r ->. rewrite leaf_cons, el in h. exact h.
  - destruct (lookup k d) as [[y|s|d']|] eqn:el.
    3: { destruct p as [|k0 p]; [cbn; split; [tauto|intros [(r & v0 & v' & h & _)|[_ h]]; [discriminate|exact h]]|]. rewrite leaf_cons, lookup_insert by (apply wf_sorted; exact hw). destruct (eqb k0 k) eqn:ek.
      - apply eqb_eq in ek. subst k0. cbn [oleaf]. pose proof (wf_lookup _ _ _ hw el) as hw'. rewrite (IH l d' p hw'). rewrite field_cons, el, leaf_cons, el. cbn [oleaf]. split.
        + intros [(r & v & v' & -> & h)|[h1 h2]]; [left; exists r, v, v'; auto|right; split; [intros r h; injection h as h; exact (h1 r h)|exact h2]].
        + intros [(r & v & v' & h1 & h)|[h1 h2]]; [left; injection h1 as ->; exists r, v, v'; auto|right; split; [intros r ->; exact (h1 r eq_refl)|exact h2]].
      - assert (ne : forall r, k0 :: p <> k :: i ++ l :: r) by (intros r h; injection h as -> _; rewrite eqb_refl in ek; discriminate).
        split; [intros h; right; auto|]. intros [(r & v0 & v' & h & _)|[_ h]]; [destruct (ne r h)|exact h]. }
    all: assert (hfn : field (k :: i) l d = None) by (rewrite field_cons, el; destruct i; reflexivity); rewrite hfn.
    all: split; [|intros [(r & v0 & v' & _ & h & _)|[_ h]]; [discriminate|exact h]]; intros h; right; (split; [|exact h]); intros r ->; rewrite leaf_cons, el in h; cbn [oleaf] in h; destruct i; destruct h.
Qed.
Lemma in_as_set i l d y : In y (as_set (field i l d)) <-> leaf true (i ++ [l]) y (VDict d).
Proof. rewrite leaf_below. destruct (field i l d) as [[s|sl|sd]|]; cbn; try tauto. split; [intros []|intros [h _]; discriminate]. Qed.
Lemma edited_same o d d' : is_edit o = true -> wf d = true -> wf d' = true -> same_shows d d' -> same_shows (edited o d) (edited o d').
Proof.
  intros ho hw hw' hsame. assert (h0 : forall e p x, leaf e p x (VDict d) <-> leaf e p x (VDict d')) by (intros e p x; rewrite <- !shows_leaf; apply hsame). clear hsame.
  assert (her : forall i l e p x, leaf e p x (VDict (erase_field i l d)) <-> leaf e p x (VDict (erase_field i l d'))).
  { intros i l e p x. unfold erase_field. rewrite !mod_leaf_iff by assumption. rewrite h0. split; (intros [(r & v & v' & _ & _ & h & _)|h]; [discriminate|right; exact h]). }
  intros e p x. rewrite !shows_leaf. destruct o as [i l v|i l|i l y|i l y| | | | | | | |]; try discriminate; cbn [edited].
  - destruct (empty_container v); [apply her|]. unfold set_field. rewrite !upd_leaf_iff by assumption. rewrite h0. reflexivity.
  - apply her.
  - unfold insert_elem. rewrite !upd_leaf_iff by assumption. rewrite h0.
    assert (hr : forall r, leaf e r x (VSet (sadd y (as_set (field i l d)))) <-> leaf e r x (VSet (sadd y (as_set (field i l d'))))).
    { intros r. destruct r as [|k r]; [|reflexivity]. cbn [leaf]. rewrite !In_sadd, !in_as_set, h0. reflexivity. }
    split; (intros [(r & -> & h)|h]; [left; exists r; split; [reflexivity|apply hr; exact h]|right; exact h]).
  - unfold erase_elem. rewrite !mod_leaf_iff by assumption. rewrite h0.
    assert (hr : forall d1 r, (exists v v', field i l d1 = Some v /\ Some (VSet (match v with VSet s => sdel y s | _ => [] end)) = Some v' /\ leaf e r x v') <-> (r = [] /\ e = true /\ x <> y /\ leaf true (i ++ [l]) x (VDict d1))).
    { intros d1 r. rewrite <- in_as_set. split.
      - intros (v & v' & h1 & h2 & h3). injection h2 as <-. destruct r as [|k r]; [|destruct h3]. cbn [leaf] in h3. destruct h3 as [-> h3]. rewrite h1. destruct v as [s|s|s]; cbn in *; try tauto. apply In_sdel in h3 as [h3 h4]. auto.
      - intros (-> & -> & h1 & h2). destruct (field i l d1) as [[s|s|s]|]; cbn [as_set] in h2; try destruct h2 as []. all: eexists; eexists; (split; [reflexivity|]); (split; [reflexivity|]); cbn [leaf]; (split; [reflexivity|]); apply In_sdel; auto. }
    split; (intros [(r & v & v' & -> & h)|h]; [left|right; exact h]).
    + destruct (proj1 (hr d r) (ex_intro _ v (ex_intro _ v' h))) as (g1 & g2 & g3 & g4). apply h0 in g4. destruct (proj2 (hr d' r) (conj g1 (conj g2 (conj g3 g4)))) as (v1 & v2 & q). exists r, v1, v2. auto.
    + destruct (proj1 (hr d' r) (ex_intro _ v (ex_intro _ v' h))) as (g1 & g2 & g3 & g4). apply h0 in g4. destruct (proj2 (hr d r) (conj g1 (conj g2 (conj g3 g4)))) as (v1 & v2 & q). exists r, v1, v2. auto.
Qed.
Lemma same_shows_trans d1 d2 d3 : same_shows d1 d2 -> same_shows d2 d3 -> same_shows d1 d3.
Proof. intros h1 h2 e p x. rewrite (h1 e p x). apply h2. Qed.
Lemma same_shows_sym d1 d2 : same_shows d1 d2 -> same_shows d2 d1.
Proof. intros h e p x. symmetry. apply h. Qed.
Lemma dirty_dec (st : bstate) : s_state st = Dirty \/ s_state st <> Dirty.
Proof. destruct (s_state st); [right; discriminate|left; reflexivity|right; discriminate]. Qed.
Lemma listens_weaken B key (Sv : bytes -> Prop) (H H' : bstate -> Prop) st cs st' : (forall y, H y -> H' y) -> listens B key Sv H st cs st' -> listens B key Sv H' st cs st'.
Proof.
  intros hH hl. destruct hl as [x st' e hr|n h x st' e hr|l x st' hs e hr|x st' e hr|y d st1 st' hy e1 e2 e3].
  - eapply listens_push; eassumption.
  - eapply listens_confirm; eassumption.
  - eapply listens_merge; eassumption.
  - eapply listens_dump; eassumption.
  - eapply listens_restart; [apply hH; exact hy|eassumption..].
Qed.
Lemma over_antisym E M x s t : (1 <= e_lag E)%Z -> parse_msg E false s = Ok M -> parse_msg E false t = Ok x -> over E M x -> over E x M -> x = M.
Proof. intros hl h1 h2 o1 o2. destruct (over_seqno _ _ _ _ hl h1 o1) as [e|h]; [exact e|]. destruct (over_seqno _ _ _ _ hl h2 o2) as [e|g]; [congruence|lia]. Qed.
(** ** the invariant *)
Section turns.
Context {I : Type} (B : I -> benv) (key : bytes) (w : I).
Hypothesis hf : fleet B.
Hypothesis hu : unsigned_fleet B.
Notation E := (b_env (B w)).
Notation kn := (known B key w).
Record turn_inv (N : net I) : Prop := {
  ti_total : total B key w N;
  ti_clean : forall j y, past N j y -> s_state y <> Dirty -> follower B key w N j y;
  ti_dirty : forall j s M t x, s_state (dev N j) = Dirty -> publishes (B j) (dev N j) s -> parse_msg E false s = Ok M -> kn N t -> parse_msg E false t = Ok x -> over E M x /\ (m_seqno x < m_seqno M)%Z;
  ti_one : forall i j, s_state (dev N i) = Dirty -> s_state (dev N j) = Dirty -> i = j;
  ti_wf : wf (replayed (did N)) = true;
  ti_past : forall j y, past N j y -> exists l1 l2, did N = l1 ++ l2 /\ same_shows (s_data y) (replayed l2);
  ti_now : forall j, s_state (dev N j) = Dirty -> same_shows (s_data (dev N j)) (replayed (did N));
  ti_top : (forall j, s_state (dev N j) <> Dirty) -> forall s M, kn N s -> parse_msg E false s = Ok M -> (forall t x, kn N t -> parse_msg E false t = Ok x -> over E M x) -> same_shows (m_data M) (replayed (did N))
}.
Lemma same_env i : b_env (B i) = E.
Proof. apply (fl_same _ hf). Qed.
Lemma known_any (N : net I) i t : known B key i N t <-> kn N t.
Proof. split; (intros [h|h]; [left; exact h|right; rewrite fresh_publishes; [exact h|exact hf]]). Qed.
Lemma turn_net (N : net I) : turn_run B key N -> net_run B key N.
Proof. intros h. induction h as [N h|N i o x N' h IH _ _ _ _ _ _ hs|N i cs N' h IH _ hs]; [apply run_start; exact h|eapply run_more; eassumption..]. Qed.
Lemma state_shows (N : net I) i y s M : net_run B key N -> no_clash B N -> past N i y -> publishes (B i) y s -> parse_msg E false s = Ok M -> same_shows (m_data M) (s_data y).
Proof.
  intros hr hnc hy h1 h2 e p x. pose proof (net_run_inv B key N hf hr hnc) as hi. apply (published_shows (B i) y s); [apply (fl_env _ hf)| |exact h1|rewrite same_env; exact h2].
  apply life_inv1; [apply (fl_env _ hf)|apply plainly_life, (ni_life _ _ _ hi i _ hy)].
Qed.
(** a known message holds an earlier state of the log *)
Lemma known_prefix (N : net I) s M : net_run B key N -> no_clash B N -> few_calls B N -> turn_inv N -> kn N s -> parse_msg E false s = Ok M -> exists l1 l2, did N = l1 ++ l2 /\ same_shows (m_data M) (replayed l2).
Proof.
  intros hr hnc hc ht hk hp. destruct (known_read B key w hf N s hr hnc hc hk) as ((j & y & hy & hpub) & _). destruct (ti_past _ ht j y hy) as (l1 & l2 & e & h). exists l1, l2. split; [exact e|].
  eapply same_shows_trans; [|exact h]. exact (state_shows N j y s M hr hnc hy hpub hp).
Qed.
(** the newest version is on top *)
Lemma newest_top (N : net I) i s M t x : net_run B key N -> no_clash B N -> few_calls B N -> turn_inv N -> s_state (dev N i) <> Dirty -> newest B N i -> publishes (B i) (dev N i) s -> parse_msg E false s = Ok M ->
  kn N t -> parse_msg E false t = Ok x -> over E M x.
Proof.
  intros hr hnc hc hti hnd hnew hpub hpM ht hx. pose proof (net_run_inv B key N hf hr hnc) as hi. pose proof (ni_dev _ _ _ hi i) as hp. pose proof (fl_env _ hf i) as hB. pose proof (bo_lag _ (fl_env _ hf w)) as hlag.
  destruct (ti_clean _ hti i _ hp hnd) as (_ & s0 & M0 & k1 & k2 & k3 & k4). assert (s0 = s) by exact (publishes_one B i _ _ _ hpub k2). subst s0. clear M0 k3 k4 k2.
  destruct (ti_total _ hti s M t x k1 hpM ht hx) as [h|h]; [exact h|]. destruct (over_seqno _ _ _ _ hlag hx h) as [<-|hlt]; [left; reflexivity|]. exfalso.
  destruct (known_read B key w hf N s hr hnc hc k1) as (_ & M1 & q1 & q2 & q3 & q4). assert (M1 = M) by congruence. subst M1.
  destruct (known_read B key w hf N t hr hnc hc ht) as (_ & x1 & p1 & p2 & p3 & p4). assert (x1 = x) by congruence. subst x1.
  destruct (state_publishes B key w hf N i _ hr hnc hc hp) as (s1 & M1 & r1 & r2 & _ & r4). assert (s1 = s) by exact (publishes_one B i _ _ _ hpub r1). subst s1. assert (M1 = M) by congruence. subst M1.
  destruct ht as [(c & hc1 & hc2)|hfr].
  2: { assert (hz : m_seqno x = 0%Z). { assert (hi1 : inv1 (B w) (fresh (B w) [key])) by (apply life_inv1; [apply (fl_env _ hf)|apply life_fresh]). destruct (published_content _ _ _ _ hi1 hfr hx) as (_ & _ & -> & _). reflexivity. } lia. }
  assert (hsrv : from_server (sent N) (B i) (dev N i) [(@nil Ascii.ascii, c)]) by (intros h0 y [e|[]]; left; assert (y = c) by congruence; subst y; exact hc1).
  destruct (merge_gets B key w hf N i (dev N i) _ hi (ni_keys _ _ _ hi i _ hp) hsrv) as (inc & hinc & hkn & hall). specialize (hall _ _ _ (or_introl eq_refl) hc2).
  assert (hincs : forall y, In y (map snd inc) -> kn N y) by (intros y hy; apply in_map_iff in hy as ([h' y0] & ey & hy); cbn [snd] in ey; subst y0; exact (hkn _ _ hy)).
  assert (hinct : forall y, In y (map snd inc) -> y = t).
  { intros y hy. destruct (server_sees B key N hf hi i (dev N i) _ (ni_keys _ _ _ hi i _ hp) hsrv) as (inc2 & e2 & g2 & _). rewrite hinc in e2. injection e2 as <-.
    apply in_map_iff in hy as ([h' y0] & ey & hy). cbn [snd] in ey. subst y0. destruct (g2 _ _ hy) as (c' & [hcc|[]] & hcar). assert (c' = c) by congruence. subst c'. exact (carries_unique B key N c y t hf hi hcar hc2). }
  destruct (own_part (B i) (dev N i)) as [[mine a]| | | |] eqn:ho; try (unfold own_part in ho; destruct (_ || _) in ho; [|discriminate]; destruct hpub as (c0 & e0); rewrite e0 in ho; discriminate).
  assert (hmine : forall y, In y (map snd mine) -> y = s).
  { intros y hy. apply own_part_spec in ho as [(_ & ho)|(_ & s1 & c1 & e1 & ho)]; injection ho as -> ->; [destruct hy|]. destruct hy as [<-|[]]. destruct hpub as (c0 & e0). cbn [snd]. congruence. }
  assert (hst : forall y, In y (map snd (mine ++ inc)) -> y = s \/ y = t) by (intros y hy; rewrite map_app in hy; apply in_app_iff in hy as [hy|hy]; auto).
  assert (htk : kn N t) by (left; eauto).
  assert (hncl : no_collision (b_env (B i)) (map snd (mine ++ inc))) by (apply (seen_apart B N i _ hf hnc); intros y hy; destruct (hst y hy) as [-> | ->]; apply (known_read B key w hf N _ hr hnc hc); assumption).
  destruct (merge (B i) [(@nil Ascii.ascii, c)] (dev N i)) as [r st'] eqn:hm. specialize (hnew _ _ _ hsrv hm).
  destruct (merge_clean (B i) (dev N i) [(@nil Ascii.ascii, c)] mine a inc r st' t x hB (plainly_life _ _ (ni_life _ _ _ hi i _ hp)) (fl_write _ hf i) hnd) as (_ & r3); try assumption; try (rewrite same_env; assumption).
  { rewrite (ni_keys _ _ _ hi i _ hp). discriminate. }
  { rewrite map_app. apply in_app_iff. right. apply in_map_iff. exists ([], t). split; [reflexivity|exact hall]. }
  { rewrite same_env. intros y hy. destruct (hst y hy) as [-> | ->]; [exists M|exists x]; (split; [assumption|]); (split; [assumption|]); [exact h|left; reflexivity]. }
  destruct r3 as [(_ & g1 & g2)|(_ & g & _)]; lia.
Qed.
(** ** the steps *)
Lemma wf_past (N : net I) i y : net_run B key N -> no_clash B N -> past N i y -> wf (s_data y) = true.
Proof. intros hr hnc hy. apply (life_wf (B i)); [apply (fl_env _ hf)|apply plainly_life, (ni_life _ _ _ (net_run_inv B key N hf hr hnc) i _ hy)]. Qed.
Lemma edit_args_ok Bi o st : is_edit o = true -> op_ok Bi o st -> match o with OpAssign _ _ v => wf_v v = true | OpSetInsert _ _ x => scalar_ok x = true | _ => True end.
Proof. destruct o; try discriminate; intros _ h; exact h. Qed.
(** what the one that may edit holds is the log *)
Lemma turn_data (N : net I) i : net_run B key N -> no_clash B N -> few_calls B N -> turn_inv N -> (forall j, s_state (dev N j) = Dirty -> j = i) -> s_state (dev N i) = Dirty \/ newest B N i -> same_shows (s_data (dev N i)) (replayed (did N)).
Proof.
  intros hr hnc hc ht h1 h2. destruct (dirty_dec (dev N i)) as [hd|hnd]; [exact (ti_now _ ht i hd)|]. destruct h2 as [h2|h2]; [contradiction|].
  pose proof (net_run_inv B key N hf hr hnc) as hi. destruct (ti_clean _ ht i _ (ni_dev _ _ _ hi i) hnd) as (_ & s & M & k1 & k2 & k3 & k4). rewrite <- k4.
  apply (ti_top _ ht) with (s := s); [intros j hj; apply hnd; rewrite <- (h1 j hj) at 1; exact hj|exact k1|exact k3|]. intros t x g1 g2. exact (newest_top N i s M t x hr hnc hc ht hnd h2 k2 k3 g1 g2).
Qed.
Lemma turn_over (N : net I) i s M t x : net_run B key N -> no_clash B N -> few_calls B N -> turn_inv N -> s_state (dev N i) = Dirty \/ newest B N i -> publishes (B i) (dev N i) s -> parse_msg E false s = Ok M -> kn N t -> parse_msg E false t = Ok x ->
  over E M x /\ (s_state (dev N i) = Dirty -> (m_seqno x < m_seqno M)%Z).
Proof.
  intros hr hnc hc ht h2 h3 h4 h5 h6. destruct (dirty_dec (dev N i)) as [hd|hnd].
  - destruct (ti_dirty _ ht i s M t x hd h3 h4 h5 h6) as [g1 g2]. auto.
  - destruct h2 as [h2|h2]; [contradiction|]. split; [|contradiction]. exact (newest_top N i s M t x hr hnc hc ht hnd h2 h3 h4 h5 h6).
Qed.
(** the device has something new to push *)
Lemma turn_dirty (N N' : net I) i es : net_run B key N -> no_clash B N -> net_run B key N' -> no_clash B N' -> turn_inv N -> net_step B key N N' i es [] -> (forall j, s_state (dev N j) = Dirty -> j = i) -> s_state (dev N' i) = Dirty ->
  wf (replayed (did N')) = true -> same_shows (s_data (dev N' i)) (replayed (did N')) ->
  (forall t x, kn N t -> parse_msg E false t = Ok x -> (m_seqno x < s_seqno (dev N' i))%Z /\ carries_on E (s_msg (dev N' i)) x) -> turn_inv N'.
Proof.
  intros hr hnc hr' hnc' ht hs h1 hd hw hsh hc. pose proof (net_run_inv B key N hf hr hnc) as hi. pose proof (net_run_inv B key N' hf hr' hnc') as hi'. pose proof (ns_past _ _ _ _ _ _ _ hs) as hpa.
  assert (hk : forall t, kn N' t -> kn N t) by (intros t g; destruct (known_new B key w hf N N' i es [] t hi hi' hs g) as [h|(c & [] & _)]; exact h).
  assert (hone : forall j, s_state (dev N' j) = Dirty -> j = i) by (intros j hj; destruct (ns_other _ _ _ _ _ _ _ hs j) as [e|e]; [exact e|apply h1; rewrite <- e; exact hj]).
  assert (hi1 : inv1 (B i) (dev N' i)) by (apply life_inv1; [apply (fl_env _ hf)|apply plainly_life, (ni_life _ _ _ hi' i _ (ni_dev _ _ _ hi' i))]).
  split.
  - intros s M t x q1 q2 q3 q4. exact (ti_total _ ht s M t x (hk s q1) q2 (hk t q3) q4).
  - intros j y hy hnd. apply hpa in hy as [hy|(_ & ->)]; [|contradiction]. destruct (ti_clean _ ht j y hy hnd) as (_ & s & M & q1 & q2). split; [exact hnd|]. exists s, M. split; [exact (known_mono B key w N N' i es [] s hs q1)|exact q2].
  - intros j s M t x hj hp hq g1 g2. rewrite (hone j hj) in *. destruct (hc t x (hk t g1) g2) as [q1 q2]. rewrite <- (same_env i) in hq, q2 |- *. split; [exact (over_of (B i) _ s M x hi1 hp hq q1 q2)|].
    destruct (published_content _ _ _ _ hi1 hp hq) as (_ & _ & -> & _). exact q1.
  - intros j k hj hkk. rewrite (hone j hj), (hone k hkk). reflexivity.
  - exact hw.
  - intros j y hy. apply hpa in hy as [hy|(-> & ->)]; [|exists [], (did N'); auto]. destruct (ti_past _ ht j y hy) as (l1 & l2 & e & g). exists (es ++ l1), l2. split; [rewrite (ns_did _ _ _ _ _ _ _ hs), e; apply app_assoc|exact g].
  - intros j hj. rewrite (hone j hj). exact hsh.
  - intros hno. destruct (hno i hd).
Qed.
(** the device has nothing (new) to push, and nothing new is known *)
Lemma turn_quiet (N N' : net I) i es cs : net_run B key N -> no_clash B N -> few_calls B N -> turn_inv N -> net_step B key N N' i es cs -> s_state (dev N i) <> Dirty -> follower B key w N i (dev N' i) -> (forall t, kn N' t -> kn N t) ->
  wf (replayed (did N')) = true -> same_shows (replayed (did N')) (replayed (did N)) -> turn_inv N'.
Proof.
  intros hr hnc hc ht hs hnd hfo hk hw hsh. pose proof (ns_past _ _ _ _ _ _ _ hs) as hpa. pose proof (proj1 hfo) as hnd'.
  assert (hfm : forall j y, follower B key w N j y -> follower B key w N' j y) by (intros j y (g & s & M & q1 & q2); split; [exact g|]; exists s, M; split; [exact (known_mono B key w N N' i es cs s hs q1)|exact q2]).
  assert (hst : forall j, s_state (dev N' j) = Dirty -> s_state (dev N j) = Dirty /\ dev N' j = dev N j) by (intros j hj; destruct (ns_other _ _ _ _ _ _ _ hs j) as [-> |e]; [contradiction|split; [rewrite <- e; exact hj|exact e]]).
  split.
  - intros s M t x q1 q2 q3 q4. exact (ti_total _ ht s M t x (hk s q1) q2 (hk t q3) q4).
  - intros j y hy g. apply hpa in hy as [hy|(-> & ->)]; apply hfm; [exact (ti_clean _ ht j y hy g)|exact hfo].
  - intros j s M t x hj hp hq1 g1 g2. destruct (hst j hj) as [h1 h2]. rewrite h2 in hp. exact (ti_dirty _ ht j s M t x h1 hp hq1 (hk t g1) g2).
  - intros j k hj hkk. exact (ti_one _ ht j k (proj1 (hst j hj)) (proj1 (hst k hkk))).
  - exact hw.
  - rewrite (ns_did _ _ _ _ _ _ _ hs). intros j y hy. apply hpa in hy as [hy|(-> & ->)].
    + destruct (ti_past _ ht j y hy) as (l1 & l2 & e & g). exists (es ++ l1), l2. split; [rewrite e; apply app_assoc|exact g].
    + destruct hfo as (_ & s & M & q1 & _ & q3 & <-). destruct (known_prefix N s M hr hnc hc ht q1 q3) as (l1 & l2 & e & g). exists (es ++ l1), l2. split; [rewrite e; apply app_assoc|exact g].
  - intros j hj. destruct (hst j hj) as [h1 h2]. rewrite h2. eapply same_shows_trans; [exact (ti_now _ ht j h1)|apply same_shows_sym; exact hsh].
  - intros hno s M q1 q2 q3. assert (hno' : forall j, s_state (dev N j) <> Dirty) by (intros j; destruct (ns_other _ _ _ _ _ _ _ hs j) as [-> |e]; [exact hnd|rewrite <- e; apply hno]).
    eapply same_shows_trans; [|apply same_shows_sym; exact hsh]. apply (ti_top _ ht hno' s M (hk s q1) q2). intros t x g1 g2. apply (q3 t x); [exact (known_mono B key w N N' i es cs t hs g1)|exact g2].
Qed.
(** the device pushes its edits *)
Lemma turn_pushed (N N' : net I) i cs s M : net_run B key N -> no_clash B N -> few_calls B N -> net_run B key N' -> no_clash B N' -> turn_inv N -> net_step B key N N' i [] cs -> s_state (dev N i) = Dirty -> publishes (B i) (dev N i) s -> parse_msg E false s = Ok M ->
  cs <> [] -> (forall c, In c cs -> exists n o, push (B i) (dev N i) = (Ok (n, c, o), dev N' i)) -> (forall z, publishes (B i) (dev N' i) z <-> publishes (B i) (dev N i) z) -> s_state (dev N' i) <> Dirty -> s_data (dev N' i) = m_data M -> turn_inv N'.
Proof.
  intros hr hnc hc hr' hnc' ht hs hd hpub hpM hne hpush hsame hnd' hdat. pose proof (net_run_inv B key N hf hr hnc) as hi. pose proof (net_run_inv B key N' hf hr' hnc') as hi'. pose proof (ns_past _ _ _ _ _ _ _ hs) as hpa. pose proof (bo_lag _ (fl_env _ hf w)) as hlag.
  assert (hks : kn N' s).
  { destruct cs as [|c cs]; [congruence|]. destruct (hpush c (or_introl eq_refl)) as (n & o & hp). left. exists c. split; [apply (ns_sent _ _ _ _ _ _ _ hs); left; left; reflexivity|]. exists i, (dev N i), n, o, (dev N' i). split; [apply hpa; left; apply (ni_dev _ _ _ hi)|]. split; [exact hp|exact hpub]. }
  assert (hk : forall t, kn N' t -> kn N t \/ t = s).
  { intros t g. destruct (known_new B key w hf N N' i [] cs t hi hi' hs g) as [h|(c & hin & hcar)]; [left; exact h|right]. destruct (hpush c hin) as (n & o & hp). apply (publishes_one B i (dev N i)); [exact hpub|]. exact (pushed_carries B key hf N N' i [] cs n c o _ t hi hi' hs hp hcar). }
  assert (hov : forall t x, kn N t -> parse_msg E false t = Ok x -> over E M x /\ (m_seqno x < m_seqno M)%Z) by (intros t x g1 g2; exact (ti_dirty _ ht i s M t x hd hpub hpM g1 g2)).
  assert (hno : forall j, s_state (dev N' j) <> Dirty) by (intros j hj; destruct (ns_other _ _ _ _ _ _ _ hs j) as [-> |e]; [contradiction|]; rewrite e in hj; pose proof (ti_one _ ht j i hj hd) as ej; subst j; congruence).
  assert (hsh : same_shows (m_data M) (replayed (did N))) by (eapply same_shows_trans; [exact (state_shows N i _ s M hr hnc (ni_dev _ _ _ hi i) hpub hpM)|exact (ti_now _ ht i hd)]).
  assert (ed : did N' = did N) by (rewrite (ns_did _ _ _ _ _ _ _ hs); reflexivity).
  split.
  - intros s1 M1 t x q1 q2 q3 q4. destruct (hk s1 q1) as [h1| ->], (hk t q3) as [h2| ->].
    + exact (ti_total _ ht s1 M1 t x h1 q2 h2 q4).
    + assert (x = M) by congruence. subst x. right. apply (hov s1); assumption.
    + assert (M1 = M) by congruence. subst M1. left. apply (hov t); assumption.
    + left. left. congruence.
  - intros j y hy g. apply hpa in hy as [hy|(-> & ->)].
    + destruct (ti_clean _ ht j y hy g) as (_ & s1 & M1 & q1 & q2). split; [exact g|]. exists s1, M1. split; [exact (known_mono B key w N N' i [] cs s1 hs q1)|exact q2].
    + split; [exact g|]. exists s, M. split; [exact hks|]. split; [apply hsame; exact hpub|]. split; [exact hpM|]. symmetry. exact hdat.
  - intros j s1 M1 t x hj. destruct (hno j hj).
  - intros j k hj. destruct (hno j hj).
  - rewrite ed. exact (ti_wf _ ht).
  - rewrite ed. intros j y hy. apply hpa in hy as [hy|(-> & ->)]; [exact (ti_past _ ht j y hy)|]. exists [], (did N). split; [reflexivity|]. rewrite hdat. exact hsh.
  - intros j hj. destruct (hno j hj).
  - rewrite ed. intros _ s1 M1 q1 q2 q3. destruct (hk s1 q1) as [h1| ->]; [|assert (M1 = M) by congruence; subst M1; exact hsh].
    destruct (hov s1 M1 h1 q2) as [_ h2]. destruct (over_seqno _ _ _ _ hlag q2 (q3 s M hks hpM)) as [<-|h3]; [exact hsh|lia].
Qed.
Lemma turn_inv_run (N : net I) : turn_run B key N -> no_clash B N -> few_calls B N -> turn_inv N.
Proof.
  intros h. induction h as [N h|N i o x N' h IH h1 h2 hed hok hru hret hs|N i cs N' h IH hli hs]; intros hnc' hc'.
  - assert (hr : net_run B key N) by (apply run_start; exact h). pose proof (net_run_inv B key N hf hr hnc') as hi.
    assert (hk : forall t, kn N t -> publishes (B w) (fresh (B w) [key]) t) by (intros t [(c & hc & _)|g]; [exfalso; exact (n0_sent _ _ _ h c hc)|exact g]).
    assert (hdat : forall s M, publishes (B w) (fresh (B w) [key]) s -> parse_msg E false s = Ok M -> m_data M = []).
    { intros s M g1 g2. assert (hi1 : inv1 (B w) (fresh (B w) [key])) by (apply life_inv1; [apply (fl_env _ hf)|apply life_fresh]). destruct (published_content _ _ _ _ hi1 g1 g2) as (c & e1 & _ & e2 & _). rewrite e2.
      pose proof (serialize_refresh _ _ _ _ _ e1) as hrf. unfold fresh in hrf. cbn [s_conf refresh] in hrf. injection hrf as <-. reflexivity. }
    assert (hno : forall j, s_state (dev N j) <> Dirty) by (intros j; rewrite (n0_dev _ _ _ h); discriminate).
    split.
    + intros s M t y hks hq ht hy. left. left. apply hk in hks, ht. assert (t = s) by exact (publishes_one B w _ _ _ hks ht). subst t. congruence.
    + intros j y hy _. apply (n0_past _ _ _ h) in hy. subst y. split; [discriminate|]. destruct (state_publishes B key w hf N w (dev N w) hr hnc' hc' (ni_dev _ _ _ hi w)) as (s & M & g1 & g2 & _ & _). rewrite (n0_dev _ _ _ h) in g1. exists s, M. split; [right; exact g1|]. split; [apply (fresh_publishes B key hf j w), g1|]. split; [exact g2|].
      exact (hdat s M g1 g2).
    + intros j s M t x hj. destruct (hno j hj).
    + intros j k hj. destruct (hno j hj).
    + rewrite (n0_did _ _ _ h). reflexivity.
    + intros j y hy. apply (n0_past _ _ _ h) in hy. subst y. exists [], []. rewrite (n0_did _ _ _ h). split; [reflexivity|]. intros e p x. reflexivity.
    + intros j hj. destruct (hno j hj).
    + intros _ s M q1 q2 _. rewrite (hdat s M (hk s q1) q2), (n0_did _ _ _ h). intros e p x. reflexivity.
  - pose proof (step_clash B key _ _ _ _ _ hs hnc') as hnc. pose proof (few_calls_earlier B key _ _ _ _ _ hs hc') as hc. specialize (IH hnc hc). pose proof (turn_net N h) as hr. assert (hr' : net_run B key N') by (eapply run_more; eassumption).
    pose proof (net_run_inv B key N hf hr hnc) as hi. pose proof (net_run_inv B key N' hf hr' hnc') as hi'. pose proof (fl_env _ hf i) as hB. pose proof (ni_dev _ _ _ hi i) as hp. pose proof (ni_life _ _ _ hi i _ hp) as hl.
    pose proof (life_inv1 _ _ hB (plainly_life _ _ hl)) as hi1. destruct (state_publishes B key w hf N i _ hr hnc hc hp) as (s & M & g1 & g2 & _ & g4). pose proof (few_room B key N hf hi hc i i _ hp) as hro. pose proof (i1_nonneg _ _ hi1) as hnn. pose proof (bo_lag _ hB) as hlag.
    destruct (net_edit_total B key N i o hf hr hnc hc hed) as (st' & ex). rewrite ex in hru. injection hru as <- est. rewrite est in ex.
    pose proof (edit_data (B i) o _ _ hB (plainly_life _ _ hl) hed hok ex) as hdat. pose proof (turn_data N i hr hnc hc IH h1 h2) as hsh. pose proof (edit_args_ok _ _ _ hed hok) as harg.
    assert (ed : did N' = o :: did N) by (rewrite (ns_did _ _ _ _ _ _ _ hs); reflexivity).
    assert (hw' : wf (replayed (did N')) = true) by (rewrite ed; apply (edited_wf o (replayed (did N)) hed harg (ti_wf _ IH))).
    assert (hsh' : same_shows (s_data (dev N' i)) (replayed (did N'))) by (rewrite hdat, ed; apply (edited_same o (s_data (dev N i)) (replayed (did N)) hed (wf_past N i _ hr hnc hp) (ti_wf _ IH) hsh)).
    assert (hov : forall t y, kn N t -> parse_msg E false t = Ok y -> over E M y /\ (s_state (dev N i) = Dirty -> (m_seqno y < m_seqno M)%Z)) by (intros t y q1 q2; exact (turn_over N i s M t y hr hnc hc IH h2 g1 g2 q1 q2)).
    pose proof (same_env i) as eE. assert (hcar : s_state (dev N i) = Dirty -> forall t y, kn N t -> parse_msg E false t = Ok y -> (m_seqno y < s_seqno (dev N i))%Z /\ carries_on E (s_msg (dev N i)) y).
    { intros est2 t y q1 q2. destruct (hov t y q1 q2) as [o1 o2]. specialize (o2 est2). assert (hlt : (m_seqno y < s_seqno (dev N i))%Z) by lia. split; [exact hlt|]. rewrite <- eE in g2, o1 |- *. exact (over_to (B i) _ s M y hi1 g1 g2 hlt o1). }
    assert (g2' := g2). rewrite <- eE in g2'.
    destruct (edit_over (B i) o (dev N i) (Ok tt) (dev N' i) s M hB hi1 (proj2 (net_run_inv11 B key N hf hu hr hnc i _ hp)) (fl_write _ hf i) g1 g2') as [e|(e1 & e2 & e3)]; try assumption; try (unfold int64_max; lia).
    + destruct (dirty_dec (dev N i)) as [hd|hnd].
      * apply (turn_dirty N N' i _ hr hnc hr' hnc' IH hs h1); [rewrite e; exact hd|exact hw'|exact hsh'|]. rewrite e. exact (hcar hd).
      * apply (turn_quiet N N' i _ _ hr hnc hc IH hs hnd); [rewrite e; exact (ti_clean _ IH i _ hp hnd)| |exact hw'|].
        -- intros t g. destruct (known_new B key w hf N N' i _ [] t hi hi' hs g) as [q|(c & [] & _)]; exact q.
        -- eapply same_shows_trans; [apply same_shows_sym; exact hsh'|]. rewrite e. exact hsh.
    + apply (turn_dirty N N' i _ hr hnc hr' hnc' IH hs h1 e1 hw' hsh'). intros t y ht hy. destruct (dirty_dec (dev N i)) as [hd|hnd].
      * destruct (e2 hd) as [q1 q2]. destruct (hcar hd t y ht hy) as [c1 c2]. rewrite q1. split; [exact c1|]. unfold carries_on in *. rewrite q2. change (m_seqno (s_msg (dev N' i))) with (s_seqno (dev N' i)). rewrite q1. exact c2.
      * destruct (e3 hnd) as [q1 q2]. destruct (hov t y ht hy) as [o1 _]. rewrite q1. split; [destruct (over_seqno _ _ _ _ (bo_lag _ (fl_env _ hf w)) g2 o1) as [->|hlt]; lia|]. rewrite <- eE. apply q2. rewrite eE. exact o1.
  - pose proof (step_clash B key _ _ _ _ _ hs hnc') as hnc. pose proof (few_calls_earlier B key _ _ _ _ _ hs hc') as hc. specialize (IH hnc hc). pose proof (turn_net N h) as hr. assert (hr' : net_run B key N') by (eapply run_more; eassumption).
    pose proof (net_run_inv B key N hf hr hnc) as hi. pose proof (net_run_inv B key N' hf hr' hnc') as hi'. pose proof (fl_env _ hf i) as hB. pose proof (ni_dev _ _ _ hi i) as hp.
    assert (ed : did N' = did N) by (rewrite (ns_did _ _ _ _ _ _ _ hs); reflexivity).
    destruct (dirty_dec (dev N i)) as [hd|hnd].
    + assert (hli' : listens (B i) key (sent N) (fun y => y = dev N i) (dev N i) cs (dev N' i)) by (eapply listens_weaken; [|exact hli]; intros y [e|[g _]]; [exact e|contradiction]).
      destruct (state_publishes B key i hf N i _ hr hnc hc hp) as (s & M & g1 & g2 & _ & _). pose proof (same_env i) as eE. assert (g2' := g2). rewrite eE in g2'.
      assert (h1 : forall j, s_state (dev N j) = Dirty -> j = i) by (intros j hj; exact (ti_one _ IH j i hj hd)).
      assert (hov : forall t y, known B key i N t -> parse_msg (b_env (B i)) false t = Ok y -> over (b_env (B i)) M y /\ (s_state (dev N i) = Dirty -> (m_seqno y < m_seqno M)%Z)).
      { rewrite eE. intros t y q1 q2. apply known_any in q1. destruct (ti_dirty _ IH i s M t y hd g1 g2' q1 q2). auto. }
      assert (hcar : s_state (dev N i) = Dirty -> forall t y, kn N t -> parse_msg E false t = Ok y -> over E M y) by (intros _ t y q1 q2; exact (proj1 (ti_dirty _ IH i s M t y hd g1 g2' q1 q2))).
      pose proof (state_shows N i _ s M hr hnc hp g1 g2') as hms. pose proof (ti_now _ IH i hd) as hsh.
      destruct (own_call B key i hf hu N cs _ s M hr hnc hc hov g1 g2 hli') as [(a1 & a2 & a3 & a4 & a5)|(b1 & b2 & -> & b3 & b4 & b5)].
      * destruct cs as [|c cs].
        -- specialize (a5 hd eq_refl). apply (turn_dirty N N' i _ hr hnc hr' hnc' IH hs h1 a5); [rewrite ed; exact (ti_wf _ IH)| |].
           ++ rewrite ed. destruct a4 as [-> | ->]; [exact hsh|eapply same_shows_trans; [exact hms|exact hsh]].
           ++ assert (hi1' : inv1 (B i) (dev N' i)) by (apply life_inv1; [exact hB|apply plainly_life, (ni_life _ _ _ hi' i _ (ni_dev _ _ _ hi' i))]). assert (g1' : publishes (B i) (dev N' i) s) by (apply a1; exact g1).
              intros t y q1 q2. destruct (ti_dirty _ IH i s M t y hd g1 g2' q1 q2) as [o1 o2]. destruct (published_content _ _ _ _ hi1' g1' g2) as (_ & _ & esq & _). rewrite esq in o2. split; [exact o2|]. rewrite <- eE in o1 |- *. exact (over_to (B i) _ s M y hi1' g1' g2 o2 o1).
        -- assert (hne : c :: cs <> []) by discriminate. destruct (a3 hne) as [c1 c2]. apply (turn_pushed N N' i (c :: cs) s M hr hnc hc hr' hnc' IH hs hd g1 g2' hne); try assumption. intros c0 hin. exact (listens_sent B key i _ _ _ _ _ c0 hli' hin).
      * apply (turn_dirty N N' i _ hr hnc hr' hnc' IH hs h1 b1); [rewrite ed; exact (ti_wf _ IH)|rewrite ed, b5; eapply same_shows_trans; [exact hms|exact hsh]|].
        intros t y q1 q2. destruct (ti_dirty _ IH i s M t y hd g1 g2' q1 q2) as [o1 o2]. rewrite b3. split; [lia|]. rewrite <- eE. apply b4. rewrite eE. exact o1.
    + assert (hfo : follower B key w N i (dev N i)) by exact (ti_clean _ IH i _ hp hnd).
      pose proof (clean_call B key w hf hu N i _ cs (dev N' i) hr hnc hc (ti_total _ IH) (fun y hy => match hy with or_introl e => eq_ind_r (fun y => past N i y /\ follower B key w N i y) (conj hp hfo) e | or_intror (conj _ (conj g1 g2)) => conj g1 (ti_clean _ IH i y g1 g2) end) hfo hli) as hfo'.
      apply (turn_quiet N N' i [] cs hr hnc hc IH hs hnd hfo'); [|rewrite ed; exact (ti_wf _ IH)|rewrite ed; intros e p x; reflexivity].
      intros t g. destruct (known_new B key w hf N N' i [] cs t hi hi' hs g) as [q|(c & hin & hcar)]; [exact q|]. destruct (listens_sent B key i _ _ _ _ _ c hli hin) as (n & o & hpu). pose proof (pushed_carries B key hf N N' i [] cs n c o _ t hi hi' hs hpu hcar) as hpt.
      destruct hfo as (_ & s1 & M1 & q1 & q2 & _). rewrite (publishes_one B i _ _ _ q2 hpt). exact q1.
Qed.
(** ** what a device with nothing to push has after a fetch *)
Lemma follower_merge (N : net I) i l x st' s0 M0 : net_run B key N -> no_clash B N -> few_calls B N -> total B key w N -> s_state (dev N i) <> Dirty -> kn N s0 -> publishes (B i) (dev N i) s0 -> parse_msg E false s0 = Ok M0 -> m_data M0 = s_data (dev N i) ->
  from_server (sent N) (B i) (dev N i) l -> merge (B i) l (dev N i) = (x, st') ->
  s_state st' <> Dirty /\ exists s M, kn N s /\ (forall z, publishes (B i) st' z <-> z = s) /\ parse_msg E false s = Ok M /\ m_data M = s_data st' /\ m_seqno M = s_seqno st' /\ over E M M0 /\
    forall h c t T, In (h, c) l -> carries B N c t -> parse_msg E false t = Ok T -> over E M T.
Proof.
  intros hr hnc hc hto hnd hk hpub hpM hdat hs e. pose proof (net_run_inv B key N hf hr hnc) as hi. pose proof (ni_dev _ _ _ hi i) as hp. pose proof (fl_env _ hf i) as hB. pose proof (same_env i) as eE. pose proof (ni_life _ _ _ hi i _ hp) as hl. pose proof (bo_lag _ (fl_env _ hf w)) as hlag.
  assert (hseq : m_seqno M0 = s_seqno (dev N i)) by (destruct (state_publishes B key w hf N i _ hr hnc hc hp) as (s1 & M1 & r1 & r2 & _ & r4); assert (s1 = s0) by exact (publishes_one B i _ _ _ hpub r1); subst s1; congruence).
  assert (hone : forall st2, s_conf st2 = s_conf (dev N i) -> (forall z, publishes (B i) st2 z <-> z = s0) /\ m_data M0 = s_data st2 /\ m_seqno M0 = s_seqno st2).
  { intros st2 g. unfold publishes, s_data, s_seqno, s_msg in *. rewrite g. split; [|auto]. intros z. split; [intros hz; exact (publishes_one B i _ _ _ hpub hz)|intros ->; exact hpub]. }
  destruct (merge_gets B key w hf N i (dev N i) l hi (ni_keys _ _ _ hi i _ hp) hs) as (inc & hinc & hin & hgot).
  destruct (own_part (B i) (dev N i)) as [[mine a]| | | |] eqn:ho; try (unfold own_part in ho; destruct (_ || _) in ho; [|discriminate]; destruct hpub as (c0 & e0); rewrite e0 in ho; discriminate).
  assert (hown : (s_seqno (dev N i) = 0%Z /\ mine = [] /\ a = dev N i) \/ In s0 (map snd mine)).
  { apply own_part_spec in ho as [(hc0 & ho)|(_ & s1 & c1 & e1 & ho)]; injection ho as -> ->.
    - left. apply andb_true_iff in hc0 as [hc0 _]. apply Z.eqb_eq in hc0. auto.
    - right. destruct hpub as (c0 & e0). left. cbn [snd]. congruence. }
  assert (hmine : forall y, In y (map snd mine) -> y = s0).
  { intros y hy. apply own_part_spec in ho as [(_ & ho)|(_ & s1 & c1 & e1 & ho)]; injection ho as -> ->; [destruct hy|]. destruct hy as [<-|[]]. destruct hpub as (c0 & e0). cbn [snd]. congruence. }
  assert (hall : forall y, In y (map snd (mine ++ inc)) -> kn N y).
  { intros y hy. rewrite map_app in hy. apply in_app_iff in hy as [hy|hy]; [rewrite (hmine y hy); exact hk|]. apply in_map_iff in hy as ([h y0] & ey & hy). cbn [snd] in ey. subst y0. exact (hin _ _ hy). }
  destruct (known_read B key w hf N s0 hr hnc hc hk) as (_ & M0' & p1 & p2 & p3 & _). assert (M0' = M0) by congruence. subst M0'.
  destruct (map snd (mine ++ inc)) as [|y0 r0] eqn:em.
  - assert (hmi : mine = [] /\ inc = []) by (apply map_eq_nil in em; apply app_eq_nil in em; exact em). destruct hmi as [-> ->].
    assert (ea : a = dev N i) by (destruct hown as [(_ & _ & h)|[]]; exact h). subst a.
    assert (est : st' = dev N i).
    { unfold merge, merge_plain in e. rewrite (ni_keys _ _ _ hi i _ hp) in e, hinc. rewrite ho, hinc in e. cbn [app map] in e.
      assert (ed : is_dirty (dev N i) = false) by (unfold is_dirty; destruct (s_state (dev N i)); congruence). rewrite ed in e. cbn in e. congruence. }
    subst st'. split; [exact hnd|]. exists s0, M0. destruct (hone _ eq_refl) as (g1 & g2 & g3). split; [exact hk|]. split; [exact g1|]. split; [exact hpM|]. split; [exact g2|]. split; [exact g3|]. split; [left; reflexivity|].
    intros h c t T h1 h2 _. destruct (hgot h c t h1 h2).
  - rewrite <- em in hall. assert (hne : map snd (mine ++ inc) <> []) by (rewrite em; discriminate).
    destruct (top_exists E (kn N) (map snd (mine ++ inc)) hlag hne hall) as (t & T & ht & hpT & htop).
    { intros y hy. destruct (known_read B key w hf N y hr hnc hc hy) as (_ & m & q & _). eauto. }
    { intros a1 a2 a3 a4 g1 g2 g3 g4. exact (hto a1 a2 a3 a4 g1 g2 g3 g4). }
    destruct (known_read B key w hf N t hr hnc hc (hall t ht)) as (_ & T' & q1 & q2 & q3 & _). assert (T' = T) by congruence. subst T'.
    assert (hov : over E T M0).
    { destruct hown as [(hz & _)|hin0]; [|apply (htop s0); [rewrite map_app; apply in_app_iff; left; exact hin0|exact hpM]].
      destruct (hto t T s0 M0 (hall t ht) hpT hk hpM) as [h|h]; [exact h|]. destruct (over_seqno _ _ _ _ hlag hpM h) as [->|hlt]; [left; reflexivity|lia]. }
    assert (hgot' : forall h c t0 T0, In (h, c) l -> carries B N c t0 -> parse_msg E false t0 = Ok T0 -> over E T T0).
    { intros h c t0 T0 h1 h2 h3. apply (htop t0); [|exact h3]. rewrite map_app. apply in_app_iff. right. apply in_map_iff. exists (h, t0). split; [reflexivity|exact (hgot h c t0 h1 h2)]. }
    assert (hncl : no_collision (b_env (B i)) (map snd (mine ++ inc))) by (apply (seen_apart B N i _ hf hnc); intros y hy; apply (known_read B key w hf N y hr hnc hc (hall y hy))).
    destruct (merge_clean (B i) (dev N i) l mine a inc x st' t T hB (plainly_life _ _ hl) (fl_write _ hf i) hnd) as (k1 & k2); try assumption; try (rewrite eE; assumption).
    { rewrite (ni_keys _ _ _ hi i _ hp). discriminate. }
    { rewrite eE. intros y hy. destruct (known_read B key w hf N y hr hnc hc (hall y hy)) as (_ & m & g1 & _ & _ & g4). exists m. split; [exact g1|]. split; [exact g4|exact (htop y m hy g1)]. }
    split; [exact k1|]. destruct k2 as [(k2 & k3 & k4)|(k2 & k3 & k4)].
    + exists s0, M0. assert (eT : T = M0) by (destruct (over_seqno _ _ _ _ hlag hpT hov) as [->|hlt]; [reflexivity|lia]). subst T. destruct (hone _ k2) as (g1 & g2 & g3).
      split; [exact hk|]. split; [exact g1|]. split; [exact hpM|]. split; [exact g2|]. split; [exact g3|]. split; [exact hov|exact hgot'].
    + exists t, T. split; [exact (hall t ht)|]. split; [exact k4|]. split; [exact hpT|]. split; [symmetry; exact k2|]. split; [symmetry; exact k3|]. split; [exact hov|exact hgot'].
Qed.
(** a device with the message that is on top has the newest version *)
Lemma top_newest (N : net I) i s M : net_run B key N -> no_clash B N -> few_calls B N -> total B key w N -> s_state (dev N i) <> Dirty -> kn N s -> publishes (B i) (dev N i) s -> parse_msg E false s = Ok M -> m_data M = s_data (dev N i) ->
  (forall t x, kn N t -> parse_msg E false t = Ok x -> over E M x) -> newest B N i.
Proof.
  intros hr hnc hc hto hnd hk hpub hpM hdat hov l x st' hs e. pose proof (net_run_inv B key N hf hr hnc) as hi. pose proof (ni_dev _ _ _ hi i) as hp.
  destruct (follower_merge N i l x st' s M hr hnc hc hto hnd hk hpub hpM hdat hs e) as (_ & s1 & M1 & k1 & _ & k3 & _ & k5 & k6 & _).
  assert (eM : M1 = M) by exact (over_antisym E M M1 s s1 (bo_lag _ (fl_env _ hf w)) hpM k3 (hov s1 M1 k1 k3) k6). subst M1. rewrite <- k5.
  destruct (state_publishes B key w hf N i _ hr hnc hc hp) as (s2 & M2 & r1 & r2 & _ & r4). assert (s2 = s) by exact (publishes_one B i _ _ _ hpub r1). subst s2. congruence.
Qed.
End turns.
(** ** the theorems *)
Lemma turn_sequential {I : Type} (B : I -> benv) key (N : net I) i : fleet B -> unsigned_fleet B -> turn_run B key N -> no_clash B N -> few_calls B N -> s_state (dev N i) = Dirty \/ ((forall j, s_state (dev N j) <> Dirty) /\ newest B N i) ->
  same_shows (s_data (dev N i)) (replayed (did N)).
Proof.
  intros hf hu hr hnc hc h. pose proof (turn_inv_run B key i hf hu N hr hnc hc) as ht. apply (turn_data B key i hf N i (turn_net B key N hr) hnc hc ht).
  - intros j hj. destruct h as [h|[h _]]; [exact (ti_one _ _ _ _ ht j i hj h)|destruct (h j hj)].
  - destruct h as [h|[_ h]]; auto.
Qed.
Lemma turn_prefix {I : Type} (B : I -> benv) key (N : net I) i y : fleet B -> unsigned_fleet B -> turn_run B key N -> no_clash B N -> few_calls B N -> past N i y -> exists l1 l2, did N = l1 ++ l2 /\ same_shows (s_data y) (replayed l2).
Proof. intros hf hu hr hnc hc hy. exact (ti_past _ _ _ _ (turn_inv_run B key i hf hu N hr hnc hc) i y hy). Qed.
(** the turn passes *)
Lemma turn_pushed_newest {I : Type} (B : I -> benv) key (N N' : net I) i n c o : fleet B -> unsigned_fleet B -> turn_run B key N -> s_state (dev N i) = Dirty -> push (B i) (dev N i) = (Ok (n, c, o), dev N' i) -> net_step B key N N' i [] [c] -> no_clash B N' -> few_calls B N' ->
  turn_run B key N' /\ (forall j, s_state (dev N' j) <> Dirty) /\ newest B N' i.
Proof.
  intros hf hu hr hd hpu hs hnc' hc'. pose proof (step_clash B key _ _ _ _ _ hs hnc') as hnc. pose proof (few_calls_earlier B key _ _ _ _ _ hs hc') as hc. pose proof (turn_inv_run B key i hf hu N hr hnc hc) as ht. pose proof (turn_net B key N hr) as hn.
  assert (hr' : turn_run B key N').
  { apply (turn_call B key N i [c] N' hr); [|exact hs]. apply (listens_push (B i) key (sent N) _ (dev N i) (Ok (n, c, o)) _ hpu). split; discriminate. }
  split; [exact hr'|]. pose proof (turn_inv_run B key i hf hu N' hr' hnc' hc') as ht'. pose proof (turn_net B key N' hr') as hn'. pose proof (net_run_inv B key N hf hn hnc) as hi. pose proof (net_run_inv B key N' hf hn' hnc') as hi'.
  destruct (state_publishes B key i hf N i _ hn hnc hc (ni_dev _ _ _ hi i)) as (s & M & g1 & g2 & _ & _).
  assert (hli : listens (B i) key (sent N) (fun y => y = dev N i) (dev N i) [c] (dev N' i)) by (apply (listens_push (B i) key (sent N) _ (dev N i) (Ok (n, c, o)) _ hpu); split; discriminate).
  destruct (own_call B key i hf hu N [c] _ s M hn hnc hc (fun t y q1 q2 => let h := ti_dirty _ _ _ _ ht i s M t y hd g1 g2 q1 q2 in conj (proj1 h) (fun _ => proj2 h)) g1 g2 hli) as [(a1 & _ & a3 & _ & _)|(_ & _ & b3 & _)]; [|discriminate b3].
  destruct (a3 ltac:(discriminate)) as [c1 c2].
  assert (hno : forall j, s_state (dev N' j) <> Dirty).
  { intros j hj. destruct (ns_other _ _ _ _ _ _ _ hs j) as [-> |e]; [contradiction|]. rewrite e in hj. pose proof (ti_one _ _ _ _ ht j i hj hd) as ej. subst j. congruence. }
  split; [exact hno|]. destruct (ti_clean _ _ _ _ ht' i _ (ni_dev _ _ _ hi' i) c1) as (_ & s1 & M1 & k1 & k2 & k3 & k4). assert (s1 = s) by (apply (publishes_one B i (dev N i)); [exact g1|apply a1; exact k2]). subst s1. assert (M1 = M) by congruence. subst M1.
  apply (top_newest B key i hf N' i s M hn' hnc' hc' (ti_total _ _ _ _ ht') c1 k1 k2 k3 k4). intros t x q1 q2.
  destruct (known_new B key i hf N N' i [] [c] t hi hi' hs q1) as [h|(c0 & [<-|[]] & hcar)]; [exact (proj1 (ti_dirty _ _ _ _ ht i s M t x hd g1 g2 h q2))|].
  pose proof (pushed_carries B key hf N N' i [] [c] n c o _ t hi hi' hs hpu hcar) as hpt. rewrite (publishes_one B i _ _ _ g1 hpt) in q2. left. congruence.
Qed.
Lemma turn_follows {I : Type} (B : I -> benv) key (N : net I) i j n c o st1 l : fleet B -> unsigned_fleet B -> turn_run B key N -> no_clash B N -> few_calls B N -> (forall k, s_state (dev N k) <> Dirty) -> newest B N i ->
  push (B i) (dev N i) = (Ok (n, c, o), st1) -> from_server (sent N) (B j) (dev N j) l -> sent N c -> In c (map snd l) ->
  exists hs st2, merge (B j) l (dev N j) = (Ok hs, st2) /\ s_state st2 <> Dirty /\ same_shows (s_data st2) (replayed (did N)) /\
    forall N', net_step B key N N' j [] [] -> dev N' j = st2 -> no_clash B N' -> few_calls B N' -> turn_run B key N' /\ (forall k, s_state (dev N' k) <> Dirty) /\ newest B N' j.
Proof.
  intros hf hu hr hnc hc hno hnew hpush hsrv hsent hin. pose proof (turn_inv_run B key i hf hu N hr hnc hc) as ht. pose proof (turn_net B key N hr) as hn. pose proof (net_run_inv B key N hf hn hnc) as hi.
  pose proof (ni_dev _ _ _ hi i) as hpi. pose proof (ni_dev _ _ _ hi j) as hpj. apply in_map_iff in hin as ([h c'] & ec & hin). cbn [snd] in ec. subst c'.
  destruct (net_merge_total B key N j l hf hi hnc hc hsrv) as (hs & st2 & hm); [right; right; eauto|]. exists hs, st2. split; [exact hm|].
  destruct (ti_clean _ _ _ _ ht i _ hpi (hno i)) as (_ & s & M & k1 & k2 & k3 & k4). destruct (ti_clean _ _ _ _ ht j _ hpj (hno j)) as (_ & s0 & M0 & j1 & j2 & j3 & j4).
  pose proof (fun t x => newest_top B key i hf N i s M t x hn hnc hc ht (hno i) hnew k2 k3) as htop.
  destruct (follower_merge B key i hf N j l (Ok hs) st2 s0 M0 hn hnc hc (ti_total _ _ _ _ ht) (hno j) j1 j2 j3 j4 hsrv hm) as (r1 & s1 & M1 & r2 & r3 & r4 & r5 & r6 & r7 & r8).
  assert (hcar : carries B N c s) by (exists i, (dev N i), n, o, st1; auto).
  assert (eM : M1 = M) by exact (over_antisym _ M M1 s s1 (bo_lag _ (fl_env _ hf i)) k3 r4 (htop s1 M1 r2 r4) (r8 h c s M hin hcar k3)). subst M1.
  split; [exact r1|]. split; [rewrite <- r5, k4; apply (turn_sequential B key N i hf hu hr hnc hc); auto|].
  intros N' hst ed hnc' hc'.
  assert (hr' : turn_run B key N'). { apply (turn_call B key N j [] N' hr); [|exact hst]. rewrite ed. apply (listens_merge (B j) key (sent N) _ (dev N j) l (Ok hs) _ hsrv hm). split; discriminate. }
  split; [exact hr'|]. assert (hno' : forall k, s_state (dev N' k) <> Dirty) by (intros k; destruct (ns_other _ _ _ _ _ _ _ hst k) as [-> |e]; [rewrite ed; exact r1|rewrite e; apply hno]). split; [exact hno'|].
  pose proof (turn_inv_run B key i hf hu N' hr' hnc' hc') as ht'. pose proof (turn_net B key N' hr') as hn'. pose proof (net_run_inv B key N' hf hn' hnc') as hi'.
  apply (top_newest B key i hf N' j s1 M hn' hnc' hc' (ti_total _ _ _ _ ht') (hno' j)); [exact (known_mono B key i N N' j [] [] s1 hst r2)|rewrite ed; apply r3; reflexivity|exact r4|rewrite ed; exact r5|].
  intros t x q1 q2. destruct (known_new B key i hf N N' j [] [] t hi hi' hst q1) as [q|(c0 & [] & _)]. exact (htop t x q q2).
Qed.
Lemma turn_first {I : Type} (B : I -> benv) key (N : net I) i : fleet B -> unsigned_fleet B -> net_start B key N -> no_clash B N -> few_calls B N -> newest B N i.
Proof.
  intros hf hu h hnc hc. pose proof (turn_start B key N h) as hr. pose proof (turn_inv_run B key i hf hu N hr hnc hc) as ht. pose proof (turn_net B key N hr) as hn. pose proof (net_run_inv B key N hf hn hnc) as hi.
  assert (hnd : s_state (dev N i) <> Dirty) by (rewrite (n0_dev _ _ _ h); discriminate). destruct (ti_clean _ _ _ _ ht i _ (ni_dev _ _ _ hi i) hnd) as (_ & s & M & k1 & k2 & k3 & k4).
  apply (top_newest B key i hf N i s M hn hnc hc (ti_total _ _ _ _ ht) hnd k1 k2 k3 k4). intros t x [(c & hs & _)|q1] q2; [destruct (n0_sent _ _ _ h c hs)|]. rewrite (n0_dev _ _ _ h) in k2. rewrite (publishes_one B i _ _ _ k2 q1) in q2. left. congruence.
Qed.
