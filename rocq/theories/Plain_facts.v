(** Proofs of C92. *)
From Verif Require Import ConvergeSpec Maps Data_facts Diff_facts Parse_facts Message_facts Wire_facts Round_facts Reach_facts Redeliver_facts Merge_facts Resolve_facts Conflict_facts Overflow_facts Replay_facts Merge2_facts Adopt_facts Crypt_facts Base_facts Dump_facts Life_facts Life2_facts Life3_facts Life4_facts Fields_facts Conf_facts Conf2_facts Conf3_facts Conf4_facts Conf5_facts Conf6_facts Converge_facts.
From Coq Require Import Lia Permutation.

(** ** such a change set can always be applied *)
Lemma plain_scalars l : forallb plain_elem l = true -> exists x, scalars_of_bt l = Some x.
Proof.
  induction l as [|e l IH]; cbn [forallb scalars_of_bt]; [eauto|]. intros h. apply andb_true_iff in h as [h1 h2]. destruct (IH h2) as [x ->].
  destruct e; cbn [plain_elem scalar_of_bt] in *; try discriminate; [rewrite h1|]; eauto.
Qed.
Lemma plain_apply_list (df : list (bytes * bt)) : (forall k e, In (k, e) df -> forall t s, exists v, apply1 e t s = Some v) ->
  forall src data, exists d, apply_diff df src data = Some d.
Proof.
  induction df as [|[k e] r IH]; intros h src data; cbn [apply_diff]; [eauto|].
  destruct (h k e (or_introl eq_refl) (lookup k data) (lookup k src)) as [v ->]. destruct v as [v|]; apply IH; intros k' e' hin; apply (h k'); right; exact hin.
Qed.
Lemma plain_apply1 e : plain_change e = true -> forall t s, exists v, apply1 e t s = Some v.
Proof.
  induction e as [z|x|l IH|d IH] using bt_ind'; intros h t s.
  - discriminate.
  - cbn [plain_change] in h. destruct s as [[s| |]|]; cbn [apply1]; try (eauto; fail). apply orb_true_iff in h as [h|h].
    + apply eqb_eq in h. subst x. cbn. eauto.
    + rewrite h. eauto.
  - cbn [plain_change] in h. destruct l as [|[| |a|] [|[| |r|] [|]]]; try discriminate. apply andb_true_iff in h as [h1 h2].
    destruct (plain_scalars _ h1) as [x hx], (plain_scalars _ h2) as [y hy]. destruct s as [[| |]|]; cbn [apply1]; try (eauto; fail). rewrite hx, hy. eauto.
  - cbn [plain_change] in h. rewrite forallb_forall in h. destruct s as [[| |sd]|]; try (cbn [apply1]; eauto; fail).
    rewrite apply1_dict. destruct (plain_apply_list d) with (src := sd) (data := as_dict t) as [v ->]; [|eauto].
    intros k e hin. rewrite Forall_forall in IH. apply (IH (k, e) hin). apply (h (k, e) hin).
Qed.
Lemma plain_apply df src data : plain_change (BDict df) = true -> exists d, apply_diff df src data = Some d.
Proof.
  intros h. apply plain_apply_list. intros k e hin. apply plain_apply1. cbn [plain_change] in h. rewrite forallb_forall in h. apply (h (k, e) hin).
Qed.
Lemma run_replay_total rp : (forall h src df, In (h, (src, df)) rp -> plain_change (BDict df) = true) -> forall data, exists d, run_replay rp data = Some d.
Proof.
  induction rp as [|[h [src df]] rp IH]; intros hp data; cbn [run_replay]; [eauto|].
  destruct (plain_apply df src data) as [d ->]; [eapply hp; left; reflexivity|]. apply IH. intros h' s' d' hin. eapply hp. right. exact hin.
Qed.

(** ** change sets computed by the library are of this form *)
Lemma plain_of_scalars l : forallb scalar_ok l = true -> forallb plain_elem (map bt_of_scalar l) = true.
Proof. induction l as [|[z|s] l IH]; cbn; [reflexivity|rewrite andb_true_iff; intros [-> h]; exact (IH h)|exact IH]. Qed.
Lemma diff_set_plain o n e : wf_v (VSet o) = true -> wf_v (VSet n) = true -> diff_set o n = Some e -> plain_change e = true.
Proof.
  intros ho hn. apply wf_v_set in ho as [ho1 ho2]. apply wf_v_set in hn as [hn1 hn2].
  unfold diff_set. destruct (set_walk o n) as [a r] eqn:E. destruct (set_walk_spec _ _ _ _ ho1 hn1 E) as (h1 & h2 & h3 & h4).
  destruct (is_nil a && is_nil r); [discriminate|]. intros h. injection h as <-. rewrite forallb_forall in ho2, hn2. cbn [plain_change].
  apply andb_true_iff. split; apply plain_of_scalars, forallb_forall; intros x hx; [apply hn2, h3, hx|apply ho2, h4, hx].
Qed.
Lemma diff_only_plain added v e : wf_v v = true -> diff_only added v = Some e -> plain_change e = true.
Proof.
  revert e; induction v as [s|l|d IH] using value_ind'; intros e hw.
  - cbn [diff_only]. intros h. injection h as <-. destruct added; reflexivity.
  - cbn [diff_only]. assert (hnil : wf_v (VSet []) = true) by reflexivity. destruct added; intros h; eapply diff_set_plain in h; eauto.
  - rewrite diff_only_dict. apply wf_v_dict in hw as [_ hw2].
    assert (h : forall df, only_list added d = Some df -> forallb (fun p => plain_change (snd p)) df = true).
    { induction d as [|[k x] r IHr]; cbn [only_list]; intros df h; [injection h as <-; reflexivity|].
      apply opt_cons_Some in h as (e1 & r' & he & hr & ->). inversion IH as [|? ? hx hl]; subst. cbn [snd forallb] in *.
      rewrite (hx _ (hw2 k x (or_introl eq_refl)) he). apply IHr; [exact hl| |exact hr]. intros k' v' h'. apply (hw2 k'). right. exact h'. }
    destruct (only_list added d) as [df|] eqn:E; [|discriminate]. specialize (h _ eq_refl). destruct df; [discriminate|]. intros h'. injection h' as <-. exact h.
Qed.
Lemma walk_plain od nd df : wf od = true -> wf nd = true ->
  (forall k o n e, lookup k od = Some o -> lookup k nd = Some n -> diff_v o n = Some (Some e) -> plain_change e = true) ->
  walk od nd = Some df -> plain_change (BDict df) = true.
Proof.
  intros ho hn hv hw. pose proof (wf_sorted _ ho) as hos. pose proof (wf_sorted _ hn) as hns.
  destruct (walk_spec _ _ _ hos hns hw) as [h1 h2]. cbn [plain_change]. apply forallb_forall. intros [k e] hin. cbn [snd].
  apply In_lookup in hin; [|exact h1]. specialize (h2 k). rewrite hin in h2.
  destruct (lookup k od) as [o|] eqn:Eo, (lookup k nd) as [n|] eqn:En; cbn [diff_entry] in h2.
  - eapply hv; eauto.
  - destruct (diff_only false o) eqn:E; [|discriminate]. injection h2 as ->. eapply diff_only_plain; [exact (wf_lookup od k o ho Eo)|exact E].
  - destruct (diff_only true n) eqn:E; [|discriminate]. injection h2 as ->. eapply diff_only_plain; [exact (wf_lookup nd k n hn En)|exact E].
  - discriminate.
Qed.
Lemma diff_v_plain o n e : wf_v o = true -> wf_v n = true -> diff_v o n = Some (Some e) -> plain_change e = true.
Proof.
  revert n e; induction o as [s|l|d IH] using value_ind'; intros n e ho hn h.
  1,2: destruct n as [s2|l2|d2];
    try (cbn [diff_v] in h; destruct (diff_only true _) eqn:E in h; [|discriminate]; injection h as <-; eapply diff_only_plain; eauto).
  - cbn [diff_v] in h. destruct (eqb s s2); [discriminate|]. injection h as <-. reflexivity.
  - cbn [diff_v] in h. injection h as h. exact (diff_set_plain l l2 e ho hn h).
  - destruct n as [s2|l2|d2];
      try (cbn [diff_v] in h; destruct (diff_only true _) eqn:E in h; [|discriminate]; injection h as <-; eapply diff_only_plain; eauto).
    rewrite diff_v_dict in h. destruct (walk d d2) as [df|] eqn:E; [|discriminate]. destruct df as [|p df]; [discriminate|].
    injection h as <-. apply (walk_plain d d2); auto. intros k o n' e' hl1 hl2 hd. rewrite Forall_forall in IH.
    eapply (IH (k, o)); [apply lookup_In; exact hl1| | |exact hd].
    + exact (wf_lookup d _ _ ho hl1).
    + exact (wf_lookup d2 _ _ hn hl2).
Qed.
Lemma diff_plain old new df : wf old = true -> wf new = true -> diff old new = Some df -> plain_change (BDict df) = true.
Proof.
  intros ho hn h. rewrite diff_walk in h. apply (walk_plain old new df); auto. intros k o n e hl1 hl2 hd.
  eapply diff_v_plain; [exact (wf_lookup old _ _ ho hl1)|exact (wf_lookup new _ _ hn hl2)|exact hd].
Qed.

(** ** where the change sets of a conflict resolution come from *)
Lemma emplace_In {V} (k : shash) (v : V) m p : In p (emplace k v m) -> p = (k, v) \/ In p m.
Proof.
  unfold emplace. destruct (lookup k m); [auto|]. induction m as [|[k' v'] m IH]; cbn [insert]; [intros [<-|[]]; auto|].
  destruct (cmp k k'); cbn [In]; intros [<-|h]; auto. destruct (IH h) as [->|h']; auto.
Qed.
Lemma add_conf_In rp m p : In p (add_conf rp m) -> In p rp \/ (exists h df, p = (h, (m_data m, df)) /\ (df = m_diff m \/ In (h, df) (m_lagged m))).
Proof.
  unfold add_conf. assert (hg : forall l rp0, In p (fold_left (fun rp p => emplace (fst p) (m_data m, snd p) rp) l rp0) -> In p rp0 \/ exists h df, p = (h, (m_data m, df)) /\ In (h, df) l).
  { induction l as [|[h df] l IH]; intros rp0 hin; cbn [fold_left] in hin; [auto|]. apply IH in hin as [hin|(h' & df' & -> & hin)]; [|right; exists h', df'; split; [reflexivity|right; exact hin]].
    apply emplace_In in hin as [->|hin]; [|auto]. right. exists h, df. split; [reflexivity|left; reflexivity]. }
  intros h. apply hg in h as [h|(k & df & -> & h)]; [|right; eauto]. apply emplace_In in h as [->|h]; [|auto]. right. eauto 6.
Qed.
Lemma replay_In l p : In p (replay_of l) -> exists m h df, In m l /\ p = (h, (m_data m, df)) /\ (df = m_diff m \/ In (h, df) (m_lagged m)).
Proof.
  unfold replay_of. assert (hg : forall l rp0, In p (fold_left add_conf l rp0) -> In p rp0 \/ exists m h df, In m l /\ p = (h, (m_data m, df)) /\ (df = m_diff m \/ In (h, df) (m_lagged m))).
  { clear l. induction l as [|m l IH]; intros rp0 hin; cbn [fold_left] in hin; [auto|]. apply IH in hin as [hin|(m' & h' & df' & q1 & q2)]; [|right; exists m', h', df'; split; [right; exact q1|exact q2]].
    apply add_conf_In in hin as [hin|(h & df & q)]; [auto|]. right. exists m, h, df. split; [left; reflexivity|exact q]. }
  intros h. apply hg in h as [[]|h]. exact h.
Qed.
Lemma replay_plain l : (forall m, In m l -> plain_msg m) -> forall h src df, In (h, (src, df)) (replay_of l) -> plain_change (BDict df) = true.
Proof.
  intros hl h src df hin. apply replay_In in hin as (m & h' & df' & hm & e & hd). injection e as -> -> ->. destruct (hl m hm) as [h1 h2]. destruct hd as [->|hd]; eauto.
Qed.
Lemma sort_In l x : In x (sort_desc l) -> In x l.
Proof. intros h. eapply Permutation_in; [|exact h]. apply Permutation_sym, sort_desc_perm || apply sort_desc_perm. Qed.

(** ** merging such messages *)

Lemma merge_parsed_total E ms : good E ms -> (1 <= e_lag E)%Z -> (forall g x, e_signer E = Some g -> length (g x) = 64) -> ms <> [] ->
  (forall m, In m ms -> room E (m_seqno m)) -> (forall m, In m ms -> plain_msg m) -> exists m, merge_parsed E ms = Ok m /\ plain_msg m.
Proof.
  intros hg hlag hsg hne hr hp. pose proof (merge_parsed_no_ub E ms hg hlag hr) as hub.
  assert (hno : no_overflow E ms). { intros m hm. apply int64_ok_spec. destruct (hr m hm). lia. }
  assert (hsub : forall m, In m (kept E ms) -> In m ms) by (intros m h; apply (kept_In E ms m hg) in h; tauto).
  assert (hset : forall m i, plain_msg m -> plain_msg (set_unmerged i m)) by (intros m i h; exact h).
  destruct (kept E ms) as [|a [|c r]] eqn:Ek.
  - exfalso. apply (kept_nonempty E ms hg hlag hne Ek).
  - destruct (merge_parsed_one _ _ _ Ek hno hne) as [i hi]. rewrite hi. eexists. split; [reflexivity|]. apply hset, hp, hsub. left. reflexivity.
  - destruct (read_only E) eqn:Ero.
    + destruct (merge_parsed_ro _ _ _ _ _ Ek hno hg Ero) as (i & n & hi & hn & _). rewrite hi. eexists. split; [reflexivity|]. apply hset, hp, hsub. rewrite <- Ek. exact hn.
    + rewrite (merge_parsed_many _ _ _ _ _ Ek hno Ero) in *. unfold resolve in *.
      destruct (negb (int64_ok (max_seqno ms + 1))); [congruence|]. destruct (sort_desc (kept E ms)) as [|top rest] eqn:Es; [congruence|]. cbv zeta in *.
      assert (hpl : forall m, In m (top :: rest) -> plain_msg m) by (intros m hm; apply hp, hsub; rewrite <- Ek; apply sort_In; rewrite Es; exact hm).
      destruct (run_replay_total (replay_of (top :: rest)) (replay_plain _ hpl) (m_data top)) as [d hd]. rewrite hd in *.
      match goal with hub : bind ?x _ <> UB |- _ => destruct x as [s| | | |] eqn:eser end.
      1: { cbn [bind]. eexists. split; [reflexivity|]. split; [reflexivity|]. cbn [m_lagged]. intros h df hin. apply in_map_iff in hin as ([h' [src df']] & e & hin). cbn [fst snd] in e. injection e as -> ->. exact (replay_plain _ hpl _ _ _ hin). }
      all: exfalso; cbn [bind] in hub.
      4: congruence.
      all: unfold serialize_impl in eser; destruct (negb _ && _) in eser; [discriminate|];
        cbn [m_vsig] in eser; destruct (e_signer E) as [g|] eqn:eg; try discriminate; rewrite (hsg g _ eq_refl) in eser; discriminate.
Qed.
Lemma merge_parsed_plain E ms m : good E ms -> merge_parsed E ms = Ok m -> (forall x, In x ms -> plain_msg x) -> plain_msg m.
Proof.
  intros hg h hp. destruct (m_unmerged m) as [i|] eqn:hu.
  - destruct (merge_parsed_index _ _ _ _ h hu) as (x & hx & ->). apply nth_error_In in hx. exact (hp x hx).
  - destruct (merge_parsed_conflict _ _ _ hg h hu) as (_ & _ & _ & _ & hres). unfold resolve in hres. destruct (negb _) in hres; [discriminate|].
    destruct (sort_desc (kept E ms)) as [|top rest] eqn:Es; [discriminate|]. cbv zeta in hres. destruct (run_replay _ _); [|discriminate]. ok_inv hres. injection hres as <-.
    split; [reflexivity|]. cbn [m_lagged]. intros k df hin. apply in_map_iff in hin as ([h' [src df']] & e & hin). cbn [fst snd] in e. injection e as -> ->.
    eapply (replay_plain (top :: rest)); [|exact hin]. intros x hx. apply hp. assert (hk : In x (kept E ms)) by (apply sort_In; rewrite Es; exact hx). apply (kept_In E ms x hg) in hk. tauto.
Qed.
Lemma merge_msgs_plain E l m bad : no_collision E l -> merge_msgs E l = Ok (m, bad) -> (forall s x, In s l -> parse_msg E false s = Ok x -> plain_msg x) -> plain_msg m.
Proof.
  intros hnc h hp. apply merge_msgs_inv in h as (ms & h1 & h2). eapply merge_parsed_plain; [eapply parsed_good; eassumption|exact h2|].
  intros x hx. apply (parse_all_spec _ _ _ _ _ h1) in hx as (s & hs & hx). eauto.
Qed.

(** ** the config of a client that only received such messages *)
Definition plain_conf (c : config) : Prop :=
  match c with Plain m => plain_msg m | Mut m _ => forall h df, In (h, df) (m_lagged m) -> plain_change (BDict df) = true end.
Lemma plain_conf_msg c : plain_msg (c_msg c) -> plain_conf c.
Proof. destruct c as [m|m o]; [auto|intros [_ h]; exact h]. Qed.
Lemma refresh_plain_conf E c c' : cfg_ok E c -> plain_conf c -> refresh c = Ok c' -> plain_msg (c_msg c').
Proof.
  destruct c as [m|m o]; cbn [refresh plain_conf cfg_ok]; [intros _ h e; injection e as <-; exact h|]. intros (hf & ho & _) h.
  destruct (diff o (fst (prune (m_data m)))) as [df|] eqn:ed; [|discriminate]. intros e. injection e as <-. split; [|exact h]. cbn [c_msg m_diff].
  eapply diff_plain; [exact ho|apply prune_wf, hf|exact ed].
Qed.
Lemma same_plain E m m' : same_content E m m' -> plain_msg m -> plain_msg m'.
Proof.
  intros (_ & _ & h1 & _ & h2) [p1 p2]. split; [rewrite h1; exact p1|]. rewrite h2. intros h df hin. apply (p2 h).
  unfold windowed in hin. apply filter_In in hin. apply hin.
Qed.

Lemma parse_own E c sg s c' t m0 : cfg_ok E c -> serialize E c sg = Ok (s, c') -> parse_msg E t s = Ok m0 -> same_content E (c_msg c') m0.
Proof.
  intros hc hs hp. destruct (serialize_ok _ _ _ _ _ hc hs) as (_ & hok & _ & hser). destruct (serialize_impl_wire_any _ _ _ _ _ hser) as (sig & hw & hsig).
  assert (hl : match sig with Some x => length x = 64 | None => True end).
  { destruct (m_vsig (c_msg c')) as [x|] eqn:Ev.
    - subst sig. apply (ok_sig _ _ hok _ Ev).
    - destruct (if sg then e_signer E else None); [destruct hsig as [-> h]; exact h|subst; exact I]. }
  pose proof (parse_wire E E t (c_msg c') sig [] hok eq_refl hl (fun _ _ => I)) as hp'. rewrite <- hw, hp in hp'. symmetry in hp'. ok_inv hp'. injection hp' as <-. repeat split.
Qed.
Lemma drop_old_sub z l p : In p (drop_old z l) -> In p l.
Proof. induction l as [|[s d] l IH]; cbn [drop_old]; [auto|]. destruct (_ <=? _)%Z; [right; auto|auto]. Qed.
Lemma drop_new_sub z l p : In p (drop_new z l) -> In p l.
Proof. induction l as [|[s d] l IH]; cbn [drop_new]; [auto|]. destruct (drop_new z l) as [|q r] eqn:e; [destruct (_ >=? _)%Z; [intros []|intros [<-|[]]; left; reflexivity]|]. intros [<-|h]; [left; reflexivity|right; auto]. Qed.
Definition inv8 (st : bstate) : Prop := plain_conf (s_conf st).
Lemma increment_impl_plain E m c : increment_impl E m = Ok c -> plain_msg m -> plain_conf c.
Proof.
  unfold increment_impl. cbv zeta. destruct (negb _ || _); [discriminate|]. intros h [h1 h2]. injection h as <-. cbn. intros k df hin.
  apply emplace_In in hin as [e|hin]; [injection e as -> ->; exact h1|]. apply (h2 k). eapply drop_old_sub, drop_new_sub. exact hin.
Qed.
Lemma increment_plain E c c' : cfg_ok E c -> increment E c = Ok c' -> plain_conf c -> plain_conf c'.
Proof.
  intros hc h hp. destruct c as [m|m o]; cbn [increment] in h.
  - eapply increment_impl_plain; eassumption.
  - ok_inv h. destruct a as [s c1]. eapply increment_impl_plain; [exact h|]. exact (refresh_plain_conf _ _ _ hc hp (serialize_refresh _ _ _ _ _ ha)).
Qed.
Lemma merge_confs_plain B d l new bad : no_collision (b_env B) l -> merge_confs B d l = Ok (new, bad) -> (forall s x, In s l -> parse_msg (b_env B) false s = Ok x -> plain_msg x) -> plain_conf new.
Proof.
  intros hnc h hp. unfold merge_confs in h. destruct d.
  - unfold merge_mutable in h. ok_inv h. destruct a as [m bd]. pose proof (merge_msgs_plain _ _ _ _ hnc ha hp) as hm. cbn [fst snd] in *.
    destruct (m_unmerged m); [ok_inv h; injection h as <- <-; eapply increment_impl_plain; eassumption|injection h as <- <-; exact (proj2 hm)].
  - ok_inv h. destruct a as [m bd]. injection h as <- <-. exact (merge_msgs_plain _ _ _ _ hnc ha hp).
Qed.
Lemma inv8_conf B st sg s c : inv1 B st -> inv8 st -> serialize (b_env B) (s_conf st) sg = Ok (s, c) -> plain_msg (c_msg c) /\ inv8 (set_conf c st).
Proof. intros hi h hs. pose proof (refresh_plain_conf _ _ _ (i1_cfg _ _ hi) h (serialize_refresh _ _ _ _ _ hs)) as hp. split; [exact hp|]. apply plain_conf_msg. exact hp. Qed.
Lemma own_plain B st mine a : inv1 B st -> inv8 st -> own_part B st = Ok (mine, a) -> inv8 a /\ forall s x, In s (map snd mine) -> parse_msg (b_env B) false s = Ok x -> plain_msg x.
Proof.
  intros hi h8 ho. apply own_part_spec in ho as [(_ & e1)|(_ & s & c' & hs & e1)]; injection e1 as -> ->; [split; [exact h8|intros s x []]|].
  destruct (inv8_conf _ _ _ _ _ hi h8 hs) as [h1 h2]. split; [exact h2|]. cbn. intros s' x [<-|[]] hp. eapply same_plain; [eapply parse_own; [apply (i1_cfg _ _ hi)|exact hs|exact hp]|exact h1].
Qed.
Lemma inv8_run B o st x st' : inv1 B st -> inv8 st -> plainly B o st st' -> run B o st = (x, st') -> inv8 st'.
Proof.
  intros hi h8 [[hok _] hpl] h. pose proof (i1_cfg _ _ hi) as hcfg.
  assert (hss : forall s st0 y st2, set_state B s st0 = (y, st2) -> inv8 st0 -> inv8 st2).
  { intros s st0 y st2 g g3. apply set_state_spec in g as [(_ & -> & _)|(_ & g & _)]; [exact g3|]. unfold inv8. rewrite g. exact g3. }
  assert (hdi : forall st0 y st2, s_conf st0 = s_conf st -> dirty B st0 = (y, st2) -> inv8 st2).
  { intros st0 y st2 ec g. assert (g3 : inv8 st0) by (unfold inv8; rewrite ec; exact h8). apply dirty_spec in g as [(_ & -> & _)|[(_ & _ & _ & ->)|(_ & _ & st3 & g & g2)]]; [exact g3|exact g3|].
    destruct g2 as [(c & gc & _ & ->)|(_ & _ & ->)]; [|eapply hss; eassumption]. unfold inv8. cbn. eapply increment_plain; [|exact gc|exact g3]. rewrite ec. exact hcfg. }
  assert (hke : is_key_op o = true -> inv8 st').
  { intros ho. destruct (key_op_spec _ _ _ _ _ ho h) as [->|(ks & [->|(y & g)])]; [exact h8|exact h8|]. eapply hdi; [|exact g]. reflexivity. }
  destruct o; cbn [is_key_op] in hke; auto;
    try (apply edit_op_spec in h; [|reflexivity]; destruct h as [(_ & ->)|(f & g)]; [exact h8|];
         apply edit_spec in g as [(_ & g)|(st1 & m & o1 & g & gc & _ & ->)]; [eapply hdi; [|exact g]; reflexivity|]; apply hdi in g; [|reflexivity]; unfold inv8 in *; rewrite gc in g; exact g).
  - apply ignore_returned in h. destruct (push B st) as [y st2] eqn:e. cbn [snd] in h. subst st2.
    apply push_spec in e as [(_ & [->|(s & c & g & ->)])|(k & s & conf & c & st2 & _ & g & _ & _ & g2 & _ & ->)]; [exact h8|exact (proj2 (inv8_conf _ _ _ _ _ hi h8 g))|].
    pose proof (proj2 (inv8_conf _ _ _ _ _ hi h8 g)) as g7. destruct g2 as [(_ & g2)|(_ & ->)]; [|exact g7]. apply hss in g2; [|exact g7]. exact g2.
  - apply confirm_spec in h as [_ [(_ & ->)|(a1 & a2 & ->)]]; exact h8.
  - apply ignore_returned in h. destruct (merge B l st) as [y st2] eqn:e. cbn [snd] in h. subst st2.
    unfold merge in e. apply merge_plain_spec in e as [(_ & ->)|(mine & st1 & ho' & e)]; [exact h8|].
    destruct (own_plain _ _ _ _ hi h8 ho') as [hs1 hown].
    destruct e as [(_ & ->)|(inc & new & bad & hk & hinc & hmc & y' & e & _)]; [exact hs1|].
    assert (hsee : merge_sees B l st mine inc) by (split; eauto). destruct (hok mine inc hsee) as (hnc & _).
    assert (hn : plain_conf new).
    { eapply merge_confs_plain; [exact hnc|exact hmc|]. intros s x0 hx hp. rewrite map_app in hx. apply in_app_iff in hx as [hx|hx]; [eauto|]. apply in_map_iff in hx as ([h0 s0] & e0 & hx). cbn in e0. subst s0. eapply hpl; eauto. }
    apply adopt_spec in e as [(_ & _ & ->)|[(_ & hu & e)|(hne & j & hj & [(_ & _ & _ & _ & ->)|(_ & st2 & e2 & _ & ->)])]]; try exact hs1.
    + apply hss in e; [exact e|]. unfold inv8. cbn [set_conf s_conf]. match goal with |- plain_conf (if ?u then _ else _) => destruct u end; [exact hn|]. destruct new as [m|m o]; [exact (proj2 hn)|exact hn].
    + apply hss in e2; [exact e2|]. exact hn.
  - apply ignore_returned in h. destruct (dump B st) as [y st2] eqn:e. cbn [snd] in h. subst st2.
    apply dump_spec in e. cbv zeta in e. destruct e as [(s & c & g & _ & ->)|(_ & ->)]; [exact (proj2 (inv8_conf _ _ _ _ _ hi h8 g))|].
    destruct (readonly B); exact h8.
Qed.
Lemma plainly_life B st : life B plainly st -> life B tame st.
Proof. apply life_mono. intros B0 o a a' [h _]. exact h. Qed.
Lemma life_inv8 B st : benv_ok B -> life B plainly st -> inv8 st.
Proof.
  intros hB h. induction h as [B ks|B st o st' hl IH h|B st d st1 ks st' hl IH h1 h2 h3|B A g st _ IH hro e];
    [|specialize (IH hB)..|exact (IH (benv_ok_promote _ _ _ e hro hB))].
  - split; [reflexivity|]. intros h df [].
  - destruct h as [o x st' h _ hok]. eapply inv8_run; [exact (life_inv1 _ _ hB (plainly_life _ _ hl))|exact IH|exact hok|exact h].
  - pose proof (life_inv1 _ _ hB (plainly_life _ _ hl)) as hi. destruct (restore_spec _ _ _ _ _ _ (i1_0 _ _ hi) h1 h2 h3) as (s & c' & conf & hs & hc & ->).
    destruct (inv8_conf _ _ _ _ _ hi IH hs) as [hp _]. unfold inv8. cbn [s_conf].
    assert (hm : forall t m, parse_msg (store_env (b_env B)) t s = Ok m -> plain_msg m).
    { intros t m hm. destruct (store_parse _ _ _ _ _ t (i1_cfg _ _ hi) hs) as (m' & p1 & p2 & _). rewrite hm in p1. injection p1 as <-. eapply same_plain; eassumption. }
    assert (hpl : (exists m, parse_msg (store_env (b_env B)) true s = Ok m /\ conf = Plain m) -> plain_conf conf) by (intros (m & q & ->); exact (hm _ _ q)).
    destruct (s_state st); [exact (hpl hc)| |exact (hpl hc)].
    unfold mutable_of in hc. ok_inv hc. ok_inv hc. apply merge_parsed_single in ha0. subst a0. eapply increment_impl_plain; [exact hc|]. exact (hm _ _ ha).
Qed.

(** ** merging such messages succeeds *)
Lemma parse_all_total E l : (forall s, In s l -> parse_msg E false s = Err \/ exists m, parse_msg E false s = Ok m) -> forall i, exists ms bad, parse_all E i l = Ok (ms, bad).
Proof.
  induction l as [|s l IH]; intros h i; cbn [parse_all]; [eauto|]. destruct (IH (fun x hx => h x (or_intror hx)) (S i)) as (ms & bad & ->).
  destruct (h s (or_introl eq_refl)) as [->|[m ->]]; cbn [bind]; eauto.
Qed.
Lemma merge_msgs_total E l : no_collision E l -> (1 <= e_lag E)%Z -> (forall g x, e_signer E = Some g -> length (g x) = 64) -> (forall s, In s l -> decent E s) ->
  (exists s m, In s l /\ parse_msg E false s = Ok m) -> exists m bad, merge_msgs E l = Ok (m, bad).
Proof.
  intros hnc hlag hsg hd (s0 & m0 & hs0 & hp0). destruct (parse_all_total E l) with (i := 0) as (ms & bad & hpa); [intros s hs; destruct (hd s hs) as [h|(m & h & _)]; eauto|].
  assert (hms : forall m, In m ms -> plain_msg m /\ room E (m_seqno m)).
  { intros m hm. apply (parse_all_spec _ _ _ _ _ hpa) in hm as (s & hs & hm). destruct (hd s hs) as [h|(m' & h & h1 & h2)]; [congruence|]. rewrite hm in h. injection h as <-. auto. }
  destruct (merge_parsed_total E ms) as (m & hm & _); [eapply parsed_good; eassumption|exact hlag|exact hsg| |intros m hm; apply hms, hm|intros m hm; apply hms, hm|].
  { intros ->. assert (h : In m0 []) by (apply (parse_all_spec _ _ _ _ _ hpa); eauto). exact h. }
  exists m, bad. unfold merge_msgs. rewrite hpa. cbn [bind]. rewrite hm. reflexivity.
Qed.
Lemma own_decent B st mine a : benv_ok B -> inv1 B st -> inv8 st -> (s_seqno st + e_lag (b_env B) < 2 ^ 63)%Z -> own_part B st = Ok (mine, a) ->
  (forall s, In s (map snd mine) -> exists m, parse_msg (b_env B) false s = Ok m /\ plain_msg m /\ m_seqno m = s_seqno st /\ room (b_env B) (m_seqno m)) /\ s_state a = s_state st /\ ((s_seqno st <> 0)%Z \/ s_state st = Dirty -> mine <> []).
Proof.
  intros hB hi h8 hq ho. pose proof (own_plain _ _ _ _ hi h8 ho) as [_ hpl]. apply own_part_spec in ho as [(hz & e1)|(hz & s & c' & hs & e1)]; injection e1 as -> ->.
  - split; [intros s []|]. split; [reflexivity|]. intros hc. exfalso. apply andb_true_iff in hz as [z1 z2]. apply Z.eqb_eq in z1. unfold is_dirty in z2. destruct hc as [hc|hc]; [congruence|]. rewrite hc in z2. discriminate.
  - split; [|split; [reflexivity|discriminate]]. cbn in *. intros s' [<-|[]]. destruct (own_parses _ _ _ _ hB hi hs hz) as (m0 & q1 & q2). exists m0. split; [exact q1|]. split; [apply (hpl s m0); [left; reflexivity|exact q1]|]. split; [exact q2|].
    rewrite q2. pose proof (i1_nonneg _ _ hi). pose proof (bo_lag _ hB). unfold room. lia.
Qed.
Lemma merge_total B l st mine inc : benv_ok B -> life B plainly st -> s_keys st <> [] -> merge_sees B l st mine inc -> no_collision (b_env B) (map snd (mine ++ inc)) ->
  (s_seqno st + e_lag (b_env B) < 2 ^ 63)%Z -> (forall h s, In (h, s) inc -> decent (b_env B) s) ->
  (exists s m, In s (map snd (mine ++ inc)) /\ parse_msg (b_env B) false s = Ok m) -> exists hs st', merge B l st = (Ok hs, st').
Proof.
  intros hB hl hk [(a & ho) hinc] hnc hq hd hex. pose proof (life_inv1 _ _ hB (plainly_life _ _ hl)) as hi. pose proof (life_inv8 _ _ hB hl) as h8.
  destruct (own_decent _ _ _ _ hB hi h8 hq ho) as (hown & hst & _).
  assert (hall : forall s, In s (map snd (mine ++ inc)) -> decent (b_env B) s).
  { intros s hs. rewrite map_app in hs. apply in_app_iff in hs as [hs|hs]; [destruct (hown s hs) as (m & q1 & q2 & _ & q3); right; eauto|]. apply in_map_iff in hs as ([h s0] & e & hs). cbn in e. subst s0. eauto. }
  destruct (merge_msgs_total _ _ hnc (bo_lag _ hB) (bo_sig64 _ hB) hall hex) as (m & bad & hm).
  assert (hmc : exists new, merge_confs B (is_dirty st) (map snd (mine ++ inc)) = Ok (new, bad)).
  { unfold merge_confs, merge_mutable. rewrite hm. cbn [bind fst snd]. destruct (is_dirty st); [|eauto]. destruct (m_unmerged m) as [i|] eqn:hu; [|eauto].
    destruct (merge_msgs_origin _ _ _ _ hnc hm) as [(s & x & j & hs & hp & ->)|(hu' & _)]; [|congruence].
    assert (hr : room (b_env B) (m_seqno x)) by (destruct (hall s hs) as [h|(m' & h & _ & h2)]; [congruence|]; rewrite hp in h; injection h as <-; exact h2).
    destruct hr as [r1 r2]. pose proof (bo_lag _ hB). unfold increment_impl. change (m_seqno (set_unmerged (Some j) x)) with (m_seqno x). cbv zeta.
    rewrite (proj2 (int64_ok_spec (m_seqno x + 1))) by lia. rewrite (proj2 (int64_ok_spec (m_seqno x - e_lag (b_env B)))) by lia. cbn [negb orb]. rewrite andb_false_r. cbn [bind]. eauto. }
  destruct hmc as [new hmc]. unfold merge, merge_plain. destruct (s_keys st) as [|k0 ks] eqn:ek; [congruence|]. rewrite ho, hinc, hmc. cbn [fst snd].
  match goal with |- context [adopt ?a1 ?a2 ?a3 ?a4 ?a5] => destruct (adopt a1 a2 a3 a4 a5) as [y st'] eqn:had end.
  assert (hy : y = Ok tt).
  { apply adopt_spec in had as [(_ & -> & _)|[(_ & hu & had)|(_ & j & hj & [(_ & _ & _ & -> & _)|(_ & st2 & _ & -> & _)])]]; try reflexivity.
    apply set_state_spec in had as [(_ & _ & _ & hro)|(-> & _)]; [|reflexivity]. exfalso.
    destruct (i0_ro _ _ (i1_0 _ _ hi) hro) as [hcl _]. destruct (merge_confs_ro B (is_dirty st) _ new bad hro ltac:(unfold is_dirty; rewrite hcl; reflexivity) hmc) as (m1 & i1 & -> & e1). cbn [c_msg] in hu. congruence. }
  subst y. eauto.
Qed.
(** what a client publishes is decent *)
Lemma published_plain B st s m : benv_ok B -> life B plainly st -> publishes B st s -> parse_msg (b_env B) false s = Ok m -> plain_msg m.
Proof.
  intros hB hl (c & hs) hp. pose proof (life_inv1 _ _ hB (plainly_life _ _ hl)) as hi. destruct (inv8_conf _ _ _ _ _ hi (life_inv8 _ _ hB hl) hs) as [h _].
  eapply same_plain; [eapply parse_own; [apply (i1_cfg _ _ hi)|exact hs|exact hp]|exact h].
Qed.

(** ** a group of devices *)
Lemma writer_parses B st s c' : benv_ok B -> inv1 B st -> readonly B = false -> serialize (b_env B) (s_conf st) true = Ok (s, c') ->
  exists m0, parse_msg (b_env B) false s = Ok m0 /\ m_seqno m0 = s_seqno st.
Proof.
  intros hB [h0 hc hd ho hn] ero hs. pose proof (serialize_refresh _ _ _ _ _ hs) as hr. destruct (refresh_ok _ _ _ hc hr) as (_ & _ & _ & hsh & _).
  assert (hq : m_seqno (c_msg c') = s_seqno st) by (unfold s_seqno, s_msg, m_seqno; rewrite hsh; reflexivity).
  destruct (m_vsig (c_msg c')) as [sig|] eqn:ev.
  - destruct (s_conf st) as [m|m o] eqn:ec.
    + apply refresh_plain in hr. subst c'. cbn [c_msg] in *. unfold own_ok in ho. rewrite ev in ho. destruct ho as (s1 & m0 & h1 & h2 & h3).
      unfold serialize in hs. cbn [refresh bind c_msg] in hs. rewrite h1 in hs. injection hs as ->. exists m0. split; [exact h2|congruence].
    + cbn [refresh] in hr. destruct (diff _ _); [|discriminate]. injection hr as <-. discriminate.
  - destruct (publish_roundtrip_ok _ _ _ _ (bo_signer _ hB) ero hc hs ev) as (m' & h1 & h2 & _). exists m'. split; [exact h1|]. destruct h2 as (h2 & _). congruence.
Qed.
Lemma sent_plain {I : Type} (B : I -> benv) st c st1 : plain_group B st -> all_push B st c st1 -> forall i, life (B i) plainly (st1 i).
Proof.
  intros [hg hl _] hp i. destruct (hp i) as (n & o & s1 & hpi & hst). pose proof (pushed_state _ _ _ _ _ _ (gp_env _ _ hg i) (gp_life _ _ hg i) (gp_write _ _ hg i) hpi) as (q1 & _).
  assert (hs : forall a, life (B i) tame a -> sendable (s_data a)).
  { intros a ha. pose proof (i1_cfg _ _ (life_inv1 _ _ (gp_env _ _ hg i) ha)) as hcf. unfold s_data, s_msg. destruct (s_conf a) as [m|m o0]; apply hcf. }
  assert (hl1 : life (B i) plainly s1).
  { apply (life_step _ _ (st i) OpPush); [apply hl|]. apply step_run with (x := Ok tt); [cbn [run]; rewrite hpi; reflexivity|split; discriminate|]. split; [|exact Logic.I]. split; [exact Logic.I|]. apply hs, q1. }
  destruct hst as [->|(h & hc)]; [exact hl1|]. destruct (confirmed_state _ _ _ _ _ (gp_env _ _ hg i) q1 hc) as (r1 & _).
  apply (life_step _ _ s1 (OpConfirm n h)); [exact hl1|]. apply step_run with (x := Ok tt); [exact hc|split; discriminate|]. split; [|exact Logic.I]. split; [exact Logic.I|]. apply hs, r1.
Qed.
(** what the devices of a group publish *)
Lemma group_publish {I : Type} (B : I -> benv) st : plain_group B st -> forall i j s, publishes (B j) (st j) s ->
  exists m, parse_msg (b_env (B i)) false s = Ok m /\ plain_msg m /\ m_seqno m = s_seqno (st j) /\ (0 <= m_seqno m)%Z /\ room (b_env (B i)) (m_seqno m) /\
    serialize (b_env (B i)) (Plain m) true = Ok (s, Plain m).
Proof.
  intros [hg hl hr] i j s hs. pose proof hs as (c & hs'). pose proof (life_inv1 _ _ (gp_env _ _ hg j) (gp_life _ _ hg j)) as hi.
  destruct (writer_parses _ _ _ _ (gp_env _ _ hg j) hi (gp_write _ _ hg j) hs') as (m & q1 & q2). rewrite (gp_same _ _ hg i j). exists m. split; [exact q1|].
  split; [eapply published_plain; [apply (gp_env _ _ hg j)|apply hl|exact hs|exact q1]|]. split; [exact q2|]. pose proof (i1_nonneg _ _ hi). pose proof (hr j). pose proof (bo_lag _ (gp_env _ _ hg j)). rewrite q2. unfold room.
  split; [lia|]. split; [lia|]. eapply (republish _ _ _ _ _ (bo_signer _ (gp_env _ _ hg j)) (gp_write _ _ hg j) (i1_cfg _ _ hi) hs' q1).
  intros hv. eapply refresh_vsig; [eapply serialize_refresh; exact hs'|]. exact (life_inv7 _ _ (gp_env _ _ hg j) (gp_life _ _ hg j) hv).
Qed.
Lemma group_apart {I : Type} (B : I -> benv) st i l : group B st -> (forall x, In x l -> exists j, publishes (B j) (st j) x) -> no_collision (b_env (B i)) l.
Proof.
  intros hg hl x x' hx hx' e. apply hl in hx as (j & c1 & hx). apply hl in hx' as (j' & c1' & hx').
  rewrite (gp_same _ _ hg i j') in e. eapply (gp_apart _ _ hg j j'); [exact hx|exact hx'|right; left; reflexivity|left; reflexivity|exact e].
Qed.
Lemma group_total {I : Type} (B : I -> benv) st c st1 l : plain_group B st -> all_push B st c st1 -> all_fetch B st c st1 l ->
  forall i, exists hs st2, merge (B i) (l i) (st1 i) = (Ok hs, st2).
Proof.
  intros hpg hp hf i. pose proof (pg_group _ _ hpg) as hg. destruct (group_sees _ _ _ _ _ hg hp hf i) as (mine & inc & hsee & hset).
  destruct (sent_state _ _ _ _ hg hp i) as (hsw & hq & _ & s & conf & hs & _).
  eapply (merge_total (B i) (l i) (st1 i) mine inc); [apply hsw|exact (sent_plain _ _ _ _ hpg hp i)|apply hsw|exact hsee|apply (group_apart B st); [exact hg|intros x hx; apply hset, hx]|rewrite hq; apply (pg_room _ _ hpg)| |].
  - intros h x hx. assert (hin : In x (map snd (mine ++ inc))) by (rewrite map_app; apply in_app_iff; right; apply in_map_iff; exists (h, x); auto).
    apply hset in hin as (j & hj). destruct (group_publish _ _ hpg i j x hj) as (m & q1 & q2 & _ & _ & q3 & _). right. eauto.
  - destruct (group_publish _ _ hpg i i s) as (m & q1 & _); [exists conf; exact hs|]. exists s, m. split; [apply hset; exists i, conf; exact hs|exact q1].
Qed.
Lemma group_exchange {I : Type} (B : I -> benv) st c st1 l : plain_group B st -> (exists i, 0 < s_seqno (st i))%Z -> all_push B st c st1 -> all_fetch B st c st1 l ->
  forall i, exists hs st2, merge (B i) (l i) (st1 i) = (Ok hs, st2) /\ forall j, exists hs' st2', merge (B j) (l j) (st1 j) = (Ok hs', st2') /\ agree (B i) st2 (B j) st2'.
Proof.
  intros hpg hpos hp hf i. destruct (group_total _ _ _ _ _ hpg hp hf i) as (hs & st2 & hm). exists hs, st2. split; [exact hm|]. exact (exchange _ _ _ _ _ _ _ _ (pg_group _ _ hpg) hp hf hpos hm).
Qed.
(** after it the devices are again such a group *)
Lemma group_after {I : Type} (B : I -> benv) st c st1 l st2 : plain_group B st -> (forall i, s_seqno (st i) + 1 + e_lag (b_env (B i)) < 2 ^ 63)%Z -> (exists i, 0 < s_seqno (st i))%Z ->
  all_push B st c st1 -> all_fetch B st c st1 l -> all_merge B l st1 st2 ->
  plain_group B st2 /\ (forall i j, agree (B i) (st2 i) (B j) (st2 j)) /\ (forall i, 0 < s_seqno (st2 i))%Z /\ (forall i, pruned (s_data (st2 i)) = true).
Proof.
  intros hpg hroom hpos hp hf hm. pose proof (pg_group _ _ hpg) as hg.
  assert (hag : forall i j, agree (B i) (st2 i) (B j) (st2 j)).
  { intros i j. destruct (hm i) as (hs & hmi). destruct (exchange _ _ _ _ _ _ _ _ hg hp hf hpos hmi j) as (hs' & st2' & hmj & ha). destruct (hm j) as (hs2 & hmj'). rewrite hmj in hmj'. injection hmj' as _ <-. exact ha. }
  assert (hone : forall i, exists m bad mine inc, merge_sees (B i) (l i) (st1 i) mine inc /\ (forall x, In x (map snd (mine ++ inc)) <-> exists j, publishes (B j) (st j) x) /\
     merge_msgs (b_env (B i)) (map snd (mine ++ inc)) = Ok (m, bad) /\ s_data (st2 i) = m_data m /\ s_seqno (st2 i) = m_seqno m /\ (0 < m_seqno m)%Z).
  { intros i. destruct (group_sees _ _ _ _ _ hg hp hf i) as (mine & inc & hsee & hset). destruct (sent_state _ _ _ _ hg hp i) as (hsw & _).
    pose proof hsee as [(a & ho) hinc]. pose proof (group_apart B st i (map snd (mine ++ inc)) hg (fun x hx => proj1 (hset x) hx)) as hnc.
    destruct (merge_msgs_total (b_env (B i)) (map snd (mine ++ inc)) hnc (bo_lag _ (gp_env _ _ hg i)) (bo_sig64 _ (gp_env _ _ hg i))) as (m & bad & hmm).
    { intros x hx. apply hset in hx as (j & hj). destruct (group_publish _ _ hpg i j x hj) as (m & q1 & q2 & _ & _ & q3 & _). right. eauto. }
    { destruct (sent_state _ _ _ _ hg hp i) as (_ & _ & _ & s & conf & hs & _). destruct (group_publish _ _ hpg i i s) as (m & q1 & _); [exists conf; exact hs|]. exists s, m. split; [apply hset; exists i, conf; exact hs|exact q1]. }
    assert (hgt : (0 < m_seqno m)%Z).
    { destruct hpos as (ip & hip). destruct (sent_state _ _ _ _ hg hp ip) as (_ & _ & _ & s & conf & hs & _). destruct (group_publish _ _ hpg i ip s) as (mx & q1 & _ & q2 & _); [exists conf; exact hs|].
      assert (hin : In s (map snd (mine ++ inc))) by (apply hset; exists ip, conf; exact hs). pose proof (merge_msgs_ge _ _ _ _ _ _ hnc (bo_lag _ (gp_env _ _ hg i)) hmm hin q1). lia. }
    assert (hnz : m_seqno m <> 0%Z) by lia.
    destruct hsw as [w1 w2 w3 w4 w5].
    destruct (merge_outcome (B i) (st1 i) (l i) mine a inc m bad w1 (life_inv1 _ _ w1 w2) (life_inv2 _ _ w1 w2) (life_inv7 _ _ w1 w2) w3 w4 w5 ho hinc hnc hmm hnz) as (st3 & k1 & k2 & k3 & _).
    destruct (hm i) as (hs & hmi). rewrite hmi in k1. injection k1 as _ <-. exists m, bad, mine, inc. auto 10. }
  assert (hpr : forall i, pruned (s_data (st2 i)) = true).
  { intros i. destruct (hone i) as (m & bad & mine & inc & _ & hset & hmm & e & _). rewrite e. eapply merge_msgs_frame; [apply (bo_hash _ (gp_env _ _ hg i))|apply (bo_lag _ (gp_env _ _ hg i))|apply (group_apart B st); [exact hg|intros x hx; apply hset, hx]|exact hmm]. }
  assert (hq2 : forall i, (0 < s_seqno (st2 i))%Z) by (intros i; destruct (hone i) as (m & bad & mine & inc & _ & _ & _ & _ & e & h); lia).
  assert (hlife : forall i, life (B i) plainly (st2 i)).
  { intros i. destruct (hone i) as (m & bad & mine & inc & hsee & hset & hmm & e1 & e2 & _). destruct (hm i) as (hs & hmi).
    apply (life_step _ _ (st1 i) (OpMerge (l i))); [exact (sent_plain _ _ _ _ hpg hp i)|]. apply step_run with (x := Ok tt); [cbn [run]; rewrite hmi; reflexivity|split; discriminate|].
    pose proof (group_apart B st i (map snd (mine ++ inc)) hg (fun x hx => proj1 (hset x) hx)) as hnc.
    assert (hfun : forall mine' inc', merge_sees (B i) (l i) (st1 i) mine' inc' -> mine' = mine /\ inc' = inc).
    { intros mine' inc' [(a' & o') i']. destruct hsee as [(a & o) ii]. split; congruence. }
    assert (hpub : forall h s, In (h, s) inc -> exists j, publishes (B j) (st j) s).
    { intros h s hin. apply hset. rewrite map_app. apply in_app_iff. right. apply in_map_iff. exists (h, s). auto. }
    split; [split|].
    - intros mine' inc' hsee'. apply hfun in hsee' as [-> ->]. split; [exact hnc|]. split.
      + intros h s x hin hx. destruct (hpub h s hin) as (j & hj). destruct (group_publish _ _ hpg i j s hj) as (m' & q1 & _ & _ & q2 & _). congruence.
      + intros _ h s hin x hx. destruct (hpub h s hin) as (j & hj). destruct (group_publish _ _ hpg i j s hj) as (m' & q1 & _ & _ & _ & _ & q3). rewrite hx in q1. injection q1 as <-. eauto.
    - rewrite e1. apply (merge_msgs_frame _ _ _ _ (bo_hash _ (gp_env _ _ hg i)) (bo_lag _ (gp_env _ _ hg i)) hnc hmm).
    - intros mine' inc' hsee' h s x hin hx. apply hfun in hsee' as [-> ->]. destruct (hpub h s hin) as (j & hj). destruct (group_publish _ _ hpg i j s hj) as (m' & q1 & q2 & _). congruence. }
  assert (hroom2 : forall i, (s_seqno (st2 i) + e_lag (b_env (B i)) < 2 ^ 63)%Z).
  { intros i. destruct (hone i) as (m & bad & mine & inc & _ & hset & hmm & _ & -> & _).
    pose proof (group_apart B st i (map snd (mine ++ inc)) hg (fun x hx => proj1 (hset x) hx)) as hnc.
    assert (hx : exists s x, In s (map snd (mine ++ inc)) /\ parse_msg (b_env (B i)) false s = Ok x /\ (m_seqno m <= m_seqno x + 1)%Z).
    { destruct (merge_msgs_origin _ _ _ _ hnc hmm) as [(s & x & k & h1 & h2 & ->)|(_ & _ & _ & s & x & h1 & h2 & h3)]; exists s, x; (split; [exact h1|]); (split; [exact h2|]); [unfold m_seqno; cbn; lia|lia]. }
    destruct hx as (s & x & h1 & h2 & h3). apply hset in h1 as (j & hj). destruct (group_publish _ _ hpg i j s hj) as (m' & q1 & _ & q2 & _). rewrite h2 in q1. injection q1 as <-.
    pose proof (hroom j) as hj'. rewrite (gp_same _ _ hg j i) in hj'. lia. }
  split; [|auto]. split; [|exact hlife|exact hroom2]. destruct hg as [g1 g2 g3 g4 g5 g6 g7]. split; auto.
  - intros i. apply plainly_life, hlife.
  - intros i j s c1 s0 c0 h1 h2. destruct (hag i j) as (_ & _ & _ & hz). assert (e : s0 = s).
    { assert (h3 : publishes (B j) (st2 j) s) by (apply hz; exists c1; exact h1). destruct h3 as (c3 & h3). congruence. }
    subst s0. intros x x' hx hx' _. cbn in hx, hx'. destruct hx as [<-|[<-|[]]], hx' as [<-|[<-|[]]]; reflexivity.
Qed.
(** when all already agree, an exchange changes nothing *)
Lemma group_settles {I : Type} (B : I -> benv) st c st1 l : plain_group B st -> (forall i, 0 < s_seqno (st i))%Z -> (forall i j, agree (B i) (st i) (B j) (st j)) ->
  all_push B st c st1 -> all_fetch B st c st1 l ->
  forall i, exists hs st2, merge (B i) (l i) (st1 i) = (Ok hs, st2) /\ s_data st2 = fst (prune (s_data (st i))) /\ s_seqno st2 = s_seqno (st i) /\ s_state st2 <> Dirty /\ forall z, publishes (B i) st2 z <-> publishes (B i) (st i) z.
Proof.
  intros hpg hpos hag hp hf i. pose proof (pg_group _ _ hpg) as hg.
  destruct (group_sees _ _ _ _ _ hg hp hf i) as (mine & inc & hsee & hset). destruct (sent_state _ _ _ _ hg hp i) as ([w1 w2 w3 w4 w5] & hsq & _ & s & conf & hs & hc1 & hs1).
  pose proof (group_apart B st i (map snd (mine ++ inc)) hg (fun x hx => proj1 (hset x) hx)) as hnc. pose proof hsee as [(a & ho) hinc].
  assert (hall : forall x, In x [s] <-> In x (map snd (mine ++ inc))).
  { intros x. rewrite hset. split; [intros [<-|[]]; exists i, conf; exact hs|]. intros (j & hj). left. destruct (hag i j) as (_ & _ & _ & hz). apply hz in hj as (c2 & hj). congruence. }
  destruct (group_publish _ _ hpg i i s) as (m0 & q1 & _ & q2 & _ & q3 & q4); [exists conf; exact hs|].
  assert (hnc1 : no_collision (b_env (B i)) [s]) by (intros x x' hx hx'; apply hnc; apply hall; assumption).
  assert (hm1 : exists m1, merge_msgs (b_env (B i)) [s] = Ok (m1, []) /\ m1 = set_unmerged (Some 0) m0).
  { destruct (merge_msgs_total (b_env (B i)) [s] hnc1 (bo_lag _ w1) (bo_sig64 _ w1)) as (m & bad & hmm).
    - intros x [<-|[]]. destruct (group_publish _ _ hpg i i s) as (m & p1 & p2 & _ & _ & p3 & _); [exists conf; exact hs|]. right. eauto.
    - exists s, m0. split; [left; reflexivity|exact q1].
    - pose proof hmm as hmm'. unfold merge_msgs in hmm'. cbn [parse_all] in hmm'. rewrite q1 in hmm'. cbn [bind] in hmm'. ok_inv hmm'. injection hmm' as -> ->. apply merge_parsed_single in ha. eauto. }
  destruct hm1 as (m1 & hm1 & e1).
  destruct (merge_order_free _ _ _ _ _ (bo_lag _ w1) hnc1 hall hm1) as (m & bad & hmm & hsame & hpub).
  assert (hda : m_data m = m_data m0 /\ m_seqno m = m_seqno m0 /\ m_unmerged m <> None).
  { subst m1. destruct hsame as [hx hy]. split; [|split]; [| |intros e; apply hy in e; discriminate]; destruct m0, m; unfold index_free, set_unmerged in hx; cbn in hx; injection hx as -> -> -> -> -> ->; reflexivity. }
  destruct hda as (d1 & d2 & d3). assert (hnz : m_seqno m <> 0%Z) by (specialize (hpos i); lia).
  destruct (merge_outcome (B i) (st1 i) (l i) mine a inc m bad w1 (life_inv1 _ _ w1 w2) (life_inv2 _ _ w1 w2) (life_inv7 _ _ w1 w2) w3 w4 w5 ho hinc hnc hmm hnz) as (st3 & k1 & k2 & k3 & k4).
  destruct (m_unmerged m) as [iu|]; [|congruence]. destruct k4 as [k4 k5].
  eexists. exists st3. split; [exact k1|]. pose proof (life_inv1 _ _ (gp_env _ _ hg i) (gp_life _ _ hg i)) as hi.
  destruct (refresh_ok _ _ _ (i1_cfg _ _ hi) (serialize_refresh _ _ _ _ _ hs)) as (_ & _ & _ & _ & _ & _ & hdat).
  pose proof (parse_own _ _ _ _ _ _ _ (i1_cfg _ _ hi) hs q1) as (_ & hsd & _).
  split; [unfold s_data at 2; unfold s_msg; congruence|]. split; [congruence|]. split; [exact k4|].
  assert (hpm : serialize (b_env (B i)) (Plain m) true = Ok (s, Plain m)) by (apply hpub; subst m1; apply serialize_set_unmerged; exact q4).
  intros z. unfold publishes. rewrite k5, hpm, hs. split; [intros e; exists conf; congruence|intros (c2 & e); congruence].
Qed.
Lemma two_rounds {I : Type} (B : I -> benv) st c st1 l st2 c' st3 l' st4 : plain_group B st -> (forall i, s_seqno (st i) + 1 + e_lag (b_env (B i)) < 2 ^ 63)%Z -> (exists i, 0 < s_seqno (st i))%Z ->
  all_push B st c st1 -> all_fetch B st c st1 l -> all_merge B l st1 st2 -> all_push B st2 c' st3 -> all_fetch B st2 c' st3 l' -> all_merge B l' st3 st4 ->
  forall i j, s_data (st4 i) = s_data (st2 j) /\ s_seqno (st4 i) = s_seqno (st2 j) /\ s_state (st4 i) <> Dirty /\ forall z, publishes (B i) (st4 i) z <-> publishes (B j) (st2 j) z.
Proof.
  intros hpg hr hpos p1 f1 m1 p2 f2 m2 i j. destruct (group_after _ _ _ _ _ _ hpg hr hpos p1 f1 m1) as (hg2 & hag & hq & hpr).
  destruct (group_settles _ _ _ _ _ hg2 hq hag p2 f2 i) as (hs & st5 & k1 & k2 & k3 & k4 & k5). destruct (m2 i) as (hs' & hm2). rewrite hm2 in k1. injection k1 as _ <-.
  destruct (hag i j) as (a1 & a2 & _ & a4). rewrite prune_id in k2 by apply hpr. split; [congruence|]. split; [congruence|]. split; [exact k4|]. intros z. rewrite k5. symmetry. apply a4.
Qed.
