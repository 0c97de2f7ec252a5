(** The invariant of a well-behaved life, and the growth of the seqno. *)
From Verif Require Import BaseSpec Data_facts Diff_facts Bt_facts Message_facts Parse_facts Merge_facts Replay_facts Resolve_facts Wire_facts Reach_facts Round_facts Redeliver_facts Adopt_facts Base_facts Dump_facts Life_facts.

(** ** messages *)
Lemma parse_unverified E s m : parse_msg E false s = Ok m -> e_verifier E = None -> m_vsig m = None.
Proof.
  intros h hv. apply parse_msg_spec in h as (_ & _ & _ & _ & c & _ & h). unfold verify_sig in h. rewrite hv in h.
  destruct (next_key c) as [[[k r]|]|]; [|injection h as <-; reflexivity|discriminate].
  destruct (eqb k (b "~")); [|discriminate]. destruct (consume c) as [[[k' v] t]| | | |]; try discriminate. destruct v; try discriminate.
  destruct (negb _) in h; [discriminate|]. destruct (next_key t) as [[|]|]; try discriminate. injection h as <-. reflexivity.
Qed.
Lemma parse_verified E t s m : parse_msg E t s = Ok m -> e_verifier E <> None -> m_vsig m <> None.
Proof.
  intros h hv. destruct (parse_msg_wire _ _ _ _ h) as (d & g & ow). destruct (e_verifier E) as [v|] eqn:e; [|congruence].
  destruct (ow_verified _ _ _ _ _ ow v e) as (sig & -> & _). discriminate.
Qed.
Lemma store_parse E c sg s c' trust : cfg_ok E c -> serialize E c sg = Ok (s, c') ->
  exists m', parse_msg (store_env E) trust s = Ok m' /\ same_content E (c_msg c') m' /\ (trust = false -> m_vsig m' = None) /\ (trust = true -> sg = false -> m_vsig m' = m_vsig (c_msg c')).
Proof.
  intros hr hs. destruct (serialize_ok _ _ _ _ _ hr hs) as (_ & hok & _ & hser).
  destruct (serialize_impl_wire_any _ _ _ _ _ hser) as (sig & hw & hsig).
  assert (hl : match sig with Some x => length x = 64 | None => True end).
  { destruct (m_vsig (c_msg c')) as [x|] eqn:Ev.
    - subst sig. apply (ok_sig _ _ hok _ Ev).
    - destruct (if sg then e_signer E else None); [destruct hsig as [-> h]; exact h|subst; exact I]. }
  pose proof (parse_wire E (store_env E) trust (c_msg c') sig [] hok eq_refl hl (fun _ _ => I)) as hp. rewrite <- hw in hp.
  unfold check_sig in hp. cbn [e_verifier store_env] in hp.
  destruct sig as [x|]; cbn [bind] in hp; (eexists; split; [exact hp|]; split; [repeat split|]); cbn [m_vsig]; (split; intros; subst; [reflexivity|]).
  - destruct (m_vsig (c_msg c')); [congruence|discriminate].
  - destruct (m_vsig (c_msg c')); [congruence|reflexivity].
Qed.
Lemma refresh_idem c c' : refresh c = Ok c' -> refresh c' = Ok c'.
Proof.
  destruct c as [m|m o]; cbn [refresh]; [intros h; injection h as <-; reflexivity|]. destruct (diff _ _) eqn:e; [|discriminate].
  intros h. injection h as <-. cbn [refresh m_data m_sh m_lagged m_unknown m_unmerged]. rewrite prune_id by apply prune_pruned. rewrite e. reflexivity.
Qed.
Lemma serialize_again E c sg s c' sg' s' c2 : serialize E c sg = Ok (s, c') -> serialize E c' sg' = Ok (s', c2) -> c2 = c'.
Proof. intros h1 h2. apply serialize_refresh in h1. apply serialize_refresh in h2. apply refresh_idem in h1. congruence. Qed.

(** ** the result of a merge is at least as high as everything merged *)
Lemma merge_parsed_ge E ms m x : good E ms -> (1 <= e_lag E)%Z -> merge_parsed E ms = Ok m -> In x ms -> (m_seqno x <= m_seqno m)%Z.
Proof.
  intros hg hlag h hx. assert (hne : ms <> []) by (intros ->; destruct hx). pose proof (no_overflow_ok _ _ _ hne h) as hno.
  destruct (max_seqno_in ms hne) as (t & ht & hmx); [intros y hy; apply (ok_seqno _ _ (g_ok _ _ hg y hy))|].
  assert (hk : In t (kept E ms)).
  { apply kept_In; [exact hg|]. split; [exact ht|]. split.
    - destruct (included ms t) eqn:Ei; [|reflexivity]. apply included_In in Ei as (m2 & h1 & h2).
      apply (g_old _ _ hg) in h2; [|exact h1]. apply max_seqno_ge in h1. unfold m_seqno in *. lia.
    - unfold too_old. apply Z.leb_gt. lia. }
  apply max_seqno_ge in hx. destruct (kept E ms) as [|a [|c r]] eqn:Ek; [destruct hk| |].
  - destruct hk as [->|[]]. destruct (merge_parsed_one _ _ _ Ek hno hne) as [i hi]. rewrite h in hi. injection hi as ->. cbn. unfold m_seqno in *. cbn. lia.
  - destruct (read_only E) eqn:Ero.
    + destruct (merge_parsed_ro _ _ _ _ _ Ek hno hg Ero) as (i & n & hi & _ & hmax). rewrite h in hi. injection hi as ->.
      rewrite Ek in hmax. specialize (hmax t hk). cbn. unfold m_seqno in *. cbn.
      assert (fst (m_sh t) <= fst (m_sh n))%Z; [|lia]. apply leb_nlt in hmax. destruct (m_sh t) as [a1 b1], (m_sh n) as [a2 b2]. cbn [fst].
      destruct (Z.le_gt_cases a1 a2) as [hle|hgt]; [exact hle|]. exfalso. apply hmax. unfold lt, cmp, cmp_prod, cmp, cmp_Z. cbn [fst snd]. destruct (Z.compare_spec a2 a1); try lia. reflexivity.
    + rewrite (merge_parsed_many _ _ _ _ _ Ek hno Ero) in h. destruct (resolve_serialized _ _ _ _ h) as (s2 & _ & hsh & _).
      unfold m_seqno in *. rewrite hsh. cbn [fst]. lia.
Qed.
Lemma merge_msgs_ge E l m bad s x : no_collision E l -> (1 <= e_lag E)%Z -> merge_msgs E l = Ok (m, bad) -> In s l -> parse_msg E false s = Ok x ->
  (m_seqno x <= m_seqno m)%Z.
Proof.
  intros hnc hlag h hs hx. apply merge_msgs_inv in h as (ms & h1 & h2). eapply merge_parsed_ge; [eapply parsed_good; eassumption|exact hlag|exact h2|].
  apply (parse_all_spec _ _ _ _ _ h1). eauto.
Qed.
(** the result is one of the messages, or a resolution just above the highest one *)
Lemma merge_msgs_origin E l m bad : no_collision E l -> merge_msgs E l = Ok (m, bad) ->
  (exists s x i, In s l /\ parse_msg E false s = Ok x /\ m = set_unmerged (Some i) x) \/
  (m_unmerged m = None /\ m_vsig m = None /\ read_only E = false /\ exists s x, In s l /\ parse_msg E false s = Ok x /\ m_seqno m = (m_seqno x + 1)%Z).
Proof.
  intros hnc h. destruct (m_unmerged m) as [i|] eqn:hu.
  - left. pose proof h as h0. apply merge_msgs_inv in h0 as (ms & h1 & h2). destruct (merge_msgs_adopts _ _ _ _ _ _ hnc h1 h hu) as (s & x & a & e & ex & _). eauto 8.
  - right. pose proof h as h0. apply merge_msgs_inv in h0 as (ms & h1 & h2). pose proof (parsed_good _ _ _ _ _ hnc h1) as hg.
    destruct (merge_parsed_conflict _ _ _ hg h2 hu) as (hr & _ & _ & _ & hres). destruct (resolve_serialized _ _ _ _ hres) as (_ & _ & _ & _ & hv & _).
    destruct (conflict_seqno _ _ _ _ _ hnc h hu h1) as (_ & x & hx & hq). apply (parse_all_spec _ _ _ _ _ h1) in hx as (s & hs & hp). eauto 10.
Qed.

(** ** the invariant *)
Definition own_ok (E : env) (c : config) : Prop :=
  match c with
  | Mut _ _ => True
  | Plain m =>
      match m_vsig m with
      | None => read_only E = true -> m_seqno m = 0%Z
      | Some _ => exists s m0, serialize_impl E m (m_diff m) true = Ok s /\ parse_msg E false s = Ok m0 /\ m_seqno m0 = m_seqno m
      end
  end.
Record inv1 (B : benv) (st : bstate) : Prop := {
  i1_0 : inv0 B st;
  i1_cfg : cfg_ok (b_env B) (s_conf st);
  i1_dirty : s_state st = Dirty -> exists m o, s_conf st = Mut m o;
  i1_own : own_ok (b_env B) (s_conf st);
  i1_nonneg : (0 <= s_seqno st)%Z
}.
Lemma own_parses B st s c' : benv_ok B -> inv1 B st -> serialize (b_env B) (s_conf st) true = Ok (s, c') ->
  (s_seqno st =? 0)%Z && negb (is_dirty st) = false -> exists m0, parse_msg (b_env B) false s = Ok m0 /\ m_seqno m0 = s_seqno st.
Proof.
  intros hB [h0 hc hd ho hn] hs hz. pose proof (serialize_refresh _ _ _ _ _ hs) as hr. destruct (refresh_ok _ _ _ hc hr) as (_ & _ & _ & hsh & _).
  assert (hq : m_seqno (c_msg c') = s_seqno st) by (unfold s_seqno, s_msg, m_seqno; rewrite hsh; reflexivity).
  destruct (m_vsig (c_msg c')) as [sig|] eqn:ev.
  - destruct (s_conf st) as [m|m o] eqn:ec.
    + apply refresh_plain in hr. subst c'. cbn [c_msg] in *. unfold own_ok in ho. rewrite ev in ho. destruct ho as (s1 & m0 & h1 & h2 & h3).
      unfold serialize in hs. cbn [refresh bind c_msg] in hs. rewrite h1 in hs. injection hs as ->. exists m0. split; [exact h2|congruence].
    + cbn [refresh] in hr. destruct (diff _ _); [|discriminate]. injection hr as <-. discriminate.
  - destruct (read_only (b_env B)) eqn:ero.
    + exfalso. destruct (i0_ro _ _ h0 ero) as (hcl & m & em). rewrite em in *. apply refresh_plain in hr. subst c'. cbn [c_msg] in *.
      unfold own_ok in ho. rewrite ev in ho. specialize (ho ero). unfold is_dirty in hz. rewrite hcl in hz. rewrite <- hq, ho in hz. discriminate.
    + destruct (publish_roundtrip_ok _ _ _ _ (bo_signer _ hB) ero hc hs ev) as (m' & h1 & h2 & _). exists m'. split; [exact h1|]. destruct h2 as (h2 & _). congruence.
Qed.
Lemma increment_dec E c : (forall g x, e_signer E = Some g -> length (g x) = 64) -> cfg_ok E c -> (exists c', increment E c = Ok c') \/ increment E c = UB.
Proof.
  intros hg hc. destruct c as [m|m o]; cbn [increment].
  - unfold increment_impl. destruct (_ || _); [auto|eauto].
  - unfold serialize. destruct (refresh_no_ub _ _ hc) as [c' ->]. cbn [bind]. unfold serialize_impl.
    destruct (negb _ && _); [right; reflexivity|]. destruct (m_vsig (c_msg c')).
    { cbn [bind]. unfold increment_impl. destruct (_ || _); [auto|eauto]. }
    destruct (e_signer E) as [g|] eqn:eg.
    + rewrite (hg g _ eq_refl). cbn [Nat.eqb bind]. unfold increment_impl. destruct (_ || _); [auto|eauto].
    + cbn [bind]. unfold increment_impl. destruct (_ || _); [auto|eauto].
Qed.
Lemma inv1_conf B c st : inv1 B st -> inv0 B (set_conf c st) -> cfg_ok (b_env B) c -> (s_state st = Dirty -> exists m o, c = Mut m o) -> own_ok (b_env B) c ->
  (0 <= m_seqno (c_msg c))%Z -> inv1 B (set_conf c st).
Proof. intros [h0 h1 h2 h3 h4] a0 a1 a2 a3 a4. split; auto. Qed.
Lemma inv1_serialize B sg s c st : inv1 B st -> serialize (b_env B) (s_conf st) sg = Ok (s, c) -> inv1 B (set_conf c st) /\ m_sh (c_msg c) = m_sh (s_msg st).
Proof.
  intros hi h. destruct (serialize_ok _ _ _ _ _ (i1_cfg _ _ hi) h) as (h1 & _ & hr & _). destruct (refresh_ok _ _ _ (i1_cfg _ _ hi) hr) as (_ & _ & _ & hsh & _).
  split; [|exact hsh]. apply inv1_conf; auto.
  - eapply inv0_serialize; [apply hi|exact h].
  - intros hd. destruct (i1_dirty _ _ hi hd) as (m & o & e). apply serialize_kind in h as [_ h]. destruct (h _ _ e) as [m' ->]. eauto.
  - destruct (s_conf st) as [m|m o] eqn:e; [apply refresh_plain in hr; subst; rewrite <- e; apply hi|]. cbn [refresh] in hr. destruct (diff _ _); [|discriminate]. injection hr as <-. exact I.
  - pose proof (i1_nonneg _ _ hi) as hn. unfold s_seqno, s_msg, m_seqno in *. rewrite hsh. exact hn.
Qed.
Lemma inv1_same B st st' : inv1 B st -> inv0 B st' -> s_conf st' = s_conf st -> (s_state st' = Dirty -> s_state st = Dirty \/ exists m o, s_conf st = Mut m o) -> inv1 B st'.
Proof.
  intros [h0 h1 h2 h3 h4] a0 a1 a2. split; auto; unfold s_seqno, s_msg; rewrite ?a1; auto. intros hd. destruct (a2 hd); auto.
Qed.
Lemma inv1_keys B st ks : inv1 B st -> inv1 B (set_keys ks st).
Proof. intros h. eapply inv1_same; [exact h|apply inv0_keys, h|reflexivity|auto]. Qed.
Lemma inv1_dirty B st x st' : benv_ok B -> inv1 B st -> dirty B st = (x, st') -> returned x ->
  inv1 B st' /\ (st' = st \/ (s_state st <> Dirty /\ readonly B = false /\ x = Ok tt /\ s_seqno st' = (s_seqno st + 1)%Z /\ s_data st' = fst (prune (s_data st)))).
Proof.
  intros hB hi h hret. pose proof (inv0_dirty _ _ _ _ (i1_0 _ _ hi) h) as h0.
  apply dirty_spec in h as [(_ & -> & _)|[(_ & _ & _ & ->)|(hnd & hr & st1 & h1 & [(c & hc & hx & ->)|(hf & hx & ->)])]]; [auto|auto| |].
  - apply set_state_spec in h1 as [(h1 & _)|(_ & e1 & e2 & _)]; [discriminate|].
    destruct (increment_ok _ _ _ (bo_hash _ hB) (i1_cfg _ _ hi) hc) as (a1 & a2 & _ & a4 & m' & ->).
    split; [split; auto|].
    + cbn. eauto.
    + cbn [s_conf set_conf own_ok]. exact I.
    + unfold s_seqno, s_msg. cbn [s_conf set_conf]. rewrite a2. pose proof (i1_nonneg _ _ hi) as hn. unfold s_seqno, s_msg in hn. lia.
    + right. split; [exact hnd|]. split; [exact hr|]. split; [exact hx|]. auto.
  - exfalso. destruct (increment_dec (b_env B) (s_conf st) (bo_sig64 _ hB) (i1_cfg _ _ hi)) as [[c hc]|hc]; [exact (hf _ hc)|].
    rewrite hc in hx. subst x. destruct hret as [hret _]. apply hret. reflexivity.
Qed.
Lemma inv1_edit B f st x st' : benv_ok B -> inv1 B st -> edit B f st = (x, st') -> returned x -> (forall d, wf d = true -> wf (f d) = true) -> sendable (s_data st') ->
  inv1 B st' /\ (st' = st \/ (s_state st' = Dirty /\ readonly B = false /\ x = Ok tt /\ 
    ((s_state st = Dirty /\ s_seqno st' = s_seqno st /\ s_data st' = f (s_data st)) \/
     (s_state st <> Dirty /\ s_seqno st' = (s_seqno st + 1)%Z /\ s_data st' = f (fst (prune (s_data st))))))).
Proof.
  intros hB hi h hret hf hsend. pose proof (inv0_edit _ _ _ _ _ (i1_0 _ _ hi) h) as h0.
  apply edit_spec in h as [(hx & h)|(st1 & m & o & h & hc & -> & ->)].
  - destruct (inv1_dirty _ _ _ _ hB hi h hret) as [h1 [h2|(_ & _ & h2 & _)]]; [auto|congruence].
  - destruct (inv1_dirty _ _ _ _ hB hi h ltac:(split; discriminate)) as [h1 h2].
    destruct (dirty_ok _ _ _ h) as (m1 & o1 & hm1 & hst1 & _). rewrite hc in hm1. injection hm1 as <- <-.
    pose proof (i1_cfg _ _ h1) as g. rewrite hc in g. destruct g as (g1 & g2 & g3 & g4). split.
    + apply inv1_conf; auto.
      * split; [|auto]. destruct g1. split; auto. cbn [m_data set_data]. apply hf. assumption.
      * cbn. eauto.
      * exact I.
      * pose proof (i1_nonneg _ _ h1) as hn. unfold s_seqno, s_msg in hn. rewrite hc in hn. exact hn.
    + right. split; [exact hst1|]. assert (hro : readonly B = false).
      { destruct (readonly B) eqn:e; [|reflexivity]. destruct (i0_ro _ _ h0 e) as (_ & m0 & e0). discriminate e0. }
      split; [exact hro|]. split; [reflexivity|]. destruct h2 as [->|(a1 & _ & _ & a4 & a5)].
      * left. split; [exact hst1|]. unfold s_seqno, s_data, s_msg. cbn [set_conf s_conf c_msg]. rewrite hc. cbn. auto.
      * right. split; [exact a1|]. unfold s_seqno, s_data, s_msg in *. cbn [set_conf s_conf c_msg]. rewrite hc in a4, a5. cbn [c_msg] in *. cbn. rewrite <- a5. auto.
Qed.
