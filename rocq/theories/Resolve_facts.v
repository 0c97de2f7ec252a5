(** The result of a conflict resolution is a well-formed message that supersedes its inputs. *)
From Verif Require Import Data_facts Diff_facts Bt_facts Message Message_facts Parse_facts Merge Merge_facts Spec Replay_facts.

Definition opt_send (o : option value) : Prop := match o with Some v => sendable_v v | None => True end.
Lemma send_lookup d k : sendable_v (VDict d) -> opt_send (lookup k d).
Proof.
  intros h. apply sendable_v_dict in h as [_ h]. destruct (lookup k d) eqn:E; [|exact I]. apply lookup_In in E. apply (h _ _ E).
Qed.
Lemma send_insert d k v : sendable_v (VDict d) -> str_ok k = true -> sendable_v v -> sendable_v (VDict (insert k v d)).
Proof.
  intros h hk hv. apply sendable_v_dict in h as [h1 h2]. apply sendable_v_dict. split; [apply msorted_insert, h1|].
  intros k' v' hin. apply In_lookup in hin; [|apply msorted_insert, h1]. rewrite lookup_insert in hin by exact h1.
  destruct (eqb k' k) eqn:E; [apply eqb_eq in E; injection hin as <-; subst; auto|]. apply lookup_In in hin. apply (h2 _ _ hin).
Qed.
Lemma send_erase d k : sendable_v (VDict d) -> sendable_v (VDict (erase k d)).
Proof.
  intros h. apply sendable_v_dict in h as [h1 h2]. apply sendable_v_dict. split; [apply msorted_erase, h1|].
  intros k' v' hin. apply filter_In in hin as [hin _]. apply (h2 _ _ hin).
Qed.
Lemma send_set l : sendable_v (VSet l) <-> forall x, In x l -> bt_ok (bt_of_scalar x) = true.
Proof.
  unfold sendable_v. cbn [bt_of_value bt_ok]. rewrite forallb_forall. split.
  - intros h x hx. apply h, in_map, hx.
  - intros h y hy. apply in_map_iff in hy as (x & <- & hx). auto.
Qed.
Lemma scalars_of_bt_In l r x : scalars_of_bt l = Some r -> In x r -> In (bt_of_scalar x) l.
Proof.
  revert r; induction l as [|e l IH]; cbn [scalars_of_bt]; intros r h hx; [injection h as <-; destruct hx|].
  destruct (scalar_of_bt e) as [y|] eqn:Ey; [|discriminate]. destruct (scalars_of_bt l) as [q|]; [|discriminate]. injection h as <-.
  destruct hx as [->|hx]; [left|right; eauto]. apply scalar_of_bt_inv in Ey. apply Ey.
Qed.
Lemma apply1_send e tgt src r : bt_ok e = true -> opt_send tgt -> opt_send src -> apply1 e tgt src = Some r -> opt_send r.
Proof.
  revert tgt src r; induction e as [z|s|l IH|d IH] using bt_ind'; intros tgt src r he ht hs.
  - destruct src; cbn; [congruence|intros [= <-]; exact I].
  - destruct src as [[sc|sl|sd]|]; cbn [apply1]; try (intros [= <-]; exact I).
    destruct (eqb s (b "-")); [intros [= <-]; exact I|]. destruct (eqb s (b "")); [intros [= <-]; exact hs|congruence].
  - destruct src as [[sc|sl|sd]|]; cbn [apply1]; try (intros [= <-]; exact I).
    destruct l as [|[| |la|] [|[| |lr|] l]]; try congruence.
    destruct (scalars_of_bt la) as [a|] eqn:Ea; [|congruence].
    destruct (scalars_of_bt lr) as [q|] eqn:Eq; [|congruence]. intros [= <-]. cbn [opt_send].
    apply send_set. intros x hx. apply In_fold_sdel in hx as [_ hx]. apply In_fold_sadd in hx as [hx|hx].
    + apply (scalars_of_bt_In _ _ _ Ea) in hx. cbn [bt_ok forallb] in he. apply andb_true_iff in he as [he _].
      rewrite forallb_forall in he. apply he, hx.
    + destruct tgt as [[| |]|]; try destruct hx. revert x hx. apply send_set. exact ht.
  - destruct src as [[sc|sl|sd]|]; try (cbn [apply1]; intros [= <-]; exact I).
    rewrite apply1_dict. destruct (apply_diff d sd (as_dict tgt)) as [d'|] eqn:Ea; [|congruence].
    intros [= <-]. cbn [opt_send].
    assert (hd : sendable_v (VDict (as_dict tgt))). { destruct tgt as [[| |]|]; try reflexivity. exact ht. }
    apply bt_ok_dict in he as [_ he].
    revert Ea hd. generalize (as_dict tgt). clear ht. induction d as [|[k e] df IHd]; intros data; cbn [apply_diff].
    + intros [= <-]. auto.
    + inversion IH as [|? ? he2 hr]; subst. destruct (he k e (or_introl eq_refl)) as [hk hbe].
      assert (he' : forall k0 e0, In (k0, e0) df -> str_ok k0 = true /\ bt_ok e0 = true) by (intros k0 e0 h0; apply he; right; exact h0).
      destruct (apply1 e (lookup k data) (lookup k sd)) as [[v|]|] eqn:Ea; [| |congruence]; intros h hd.
      * eapply IHd; [exact hr|exact he'|exact h|]. apply send_insert; [exact hd|exact hk|].
        apply (he2 (lookup k data) (lookup k sd) (Some v)); [exact hbe|apply send_lookup, hd|apply (send_lookup sd), hs|exact Ea].
      * eapply IHd; [exact hr|exact he'|exact h|]. apply send_erase, hd.
Qed.
Lemma apply_diff_send df src data d' : bt_ok (BDict df) = true ->
  sendable data -> sendable src -> apply_diff df src data = Some d' -> sendable d'.
Proof.
  rewrite !sendable_eq. intros h0 h1 h2 h3. pose proof (apply1_dict df (Some (VDict data)) src) as he. cbn [as_dict] in he.
  rewrite h3 in he. apply apply1_send in he; [exact he|exact h0|exact h1|exact h2].
Qed.
Lemma prune_v_send v v' e ch : wf_v v = true -> prune_v v = (v', (e, ch)) -> sendable_v v -> sendable_v v'.
Proof.
  revert v' e ch; induction v as [s|l|d IH] using value_ind'; intros v' e ch hw hp hs; [injection hp as <- _ _; exact hs|injection hp as <- _ _; exact hs|].
  rewrite prune_v_dict' in hp. injection hp as <- _ _. apply sendable_v_dict in hs as [h1 h2]. apply sendable_v_dict.
  pose proof (prune_wf d hw) as hw'. split; [apply wf_sorted, hw'|].
  intros k v hin. apply (In_lookup _ _ _ (wf_sorted _ hw')) in hin. rewrite lookup_prune in hin by exact hw.
  destruct (lookup k d) as [w|] eqn:Ek; [|discriminate]. destruct (prune_v w) as [w' [e' ch']] eqn:Ew.
  destruct e'; [discriminate|]. injection hin as <-. pose proof (wf_lookup _ _ _ hw Ek) as hww. apply lookup_In in Ek. destruct (h2 _ _ Ek) as [h3 h4].
  split; [exact h3|]. rewrite Forall_forall in IH. apply (IH (k, w) Ek _ _ _ hww Ew h4).
Qed.
Lemma prune_send d : wf d = true -> sendable d -> sendable (fst (prune d)).
Proof.
  rewrite !sendable_eq. intros h1 h2. eapply prune_v_send; [exact h1|apply prune_v_dict'|exact h2].
Qed.
Lemma run_replay_send rp : forall d d', rp_ok rp -> (forall k src df, In (k, (src, df)) rp -> sendable src) -> sendable d ->
  run_replay rp d = Some d' -> sendable d'.
Proof.
  induction rp as [|[k [src df]] r IH]; cbn [run_replay]; intros d d' hr hs hd h; [congruence|].
  apply rp_ok_cons in hr as (h1 & h2 & hr). destruct (apply_diff df src d) as [d1|] eqn:E; [|discriminate].
  eapply IH; [exact hr|intros k' s' df' hin; eapply hs; right; exact hin| |exact h].
  eapply apply_diff_send; [exact h2|exact hd|eapply hs; left; reflexivity|exact E].
Qed.

Lemma diff_ok_nil : diff_ok []. Proof. split; reflexivity. Qed.
Lemma resolve_ok E mx cur m : curs E cur -> resolve E mx cur = Ok m -> (forall c, In c cur -> length (snd (m_sh c)) = 32) ->
  msg_ok E m.
Proof.
  intros hc hr h32. apply resolve_inv in hr as (top & rest & d & s' & hs & hrun & hi & hser & ->).
  destruct (curs_facts _ _ _ _ hc hs) as (f1 & f2 & f3 & f4 & f5 & f6 & f7 & f8).
  assert (hwd : wf d = true) by (eapply run_replay_wf; [exact f2|exact f3|exact hrun]).
  assert (hlag : Forall lag_ok (map (fun p => (fst p, snd (snd p))) (replay_of (top :: rest)))).
  { apply Forall_forall. intros p hp. apply in_map_iff in hp as ([k [src df]] & <- & hin). cbn [fst snd].
    apply (In_lookup _ _ _ f1) in hin. apply f7 in hin as (n & df' & hn & hrec & he). injection he as -> ->.
    pose proof (cu_ok _ _ hc n hn) as ok. destruct hrec as [[-> ->]|hrec].
    - repeat split; [apply ok|apply h32, hn|apply ok|apply ok].
    - pose proof (ok_lag _ _ ok) as hl. rewrite Forall_forall in hl. apply lookup_In in hrec. apply (hl _ hrec). }
  split; cbn [m_seqno m_sh m_data m_diff m_lagged m_unknown m_vsig fst snd].
  - exact hi.
  - apply prune_wf, hwd.
  - apply prune_pruned.
  - apply prune_send; [exact hwd|]. eapply run_replay_send; [exact f2| |apply (cu_ok _ _ hc top f5)|exact hrun].
    intros k src df hin. apply (In_lookup _ _ _ f1) in hin. apply f7 in hin as (n & df' & hn & _ & he). injection he as -> _.
    apply (cu_ok _ _ hc n hn).
  - apply diff_ok_nil.
  - unfold msorted, keys. rewrite keys_map. exact f1.
  - exact hlag.
  - intros hne. unfold serialize_impl in hser. cbn [m_lagged m_seqno m_sh fst] in hser.
    destruct (map _ (replay_of (top :: rest))) as [|x y] eqn:Em; [congruence|]. cbn [is_nil negb andb] in hser.
    destruct (int64_ok (mx + 1 - e_lag E)) eqn:Ei; [reflexivity|]. cbn [negb] in hser. discriminate.
  - constructor.
  - constructor.
  - intros s hx. discriminate.
Qed.

(** serialising depends on the seqno but not on the hash *)
Lemma serialize_impl_hash E z h h' d df lg u vs un dd sg :
  serialize_impl E (mkMsg (z, h) d df lg u vs un) dd sg = serialize_impl E (mkMsg (z, h') d df lg u vs un) dd sg.
Proof. reflexivity. Qed.
Lemma resolve_serialized E mx cur m : resolve E mx cur = Ok m ->
  exists s, serialize_impl E m [] true = Ok s /\ m_sh m = ((mx + 1)%Z, e_hash E s) /\ m_diff m = [] /\ m_vsig m = None /\ m_unknown m = [] /\ m_unmerged m = None.
Proof.
  intros hr. apply resolve_inv in hr as (top & rest & d & s & hs & hrun & hi & hser & ->). exists s.
  rewrite <- hser. repeat split.
Qed.

(** C12-like: what our own signature does at the receiver *)
Lemma serialize_impl_wire E m df s : serialize_impl E m df true = Ok s ->
  exists sig, s = wire (body_entries E m df) sig [] /\
    match m_vsig m with
    | Some x => sig = Some x
    | None => match e_signer E with Some g => sig = Some (g (body E m df)) /\ length (g (body E m df)) = 64 | None => sig = None end
    end.
Proof.
  unfold serialize_impl. destruct (negb (is_nil (m_lagged m)) && _); [discriminate|].
  destruct (m_vsig m) as [x|]; [intros h; injection h as <-; exists (Some x); split; [apply wire_signed|reflexivity]|].
  destruct (e_signer E) as [g|].
  - destruct (Nat.eqb (length (g (body E m df))) 64) eqn:El; [|discriminate]. intros h; injection h as <-.
    apply Nat.eqb_eq in El. exists (Some (g (body E m df))). split; [apply wire_signed|auto].
  - intros h; injection h as <-. exists None. split; [apply wire_unsigned|reflexivity].
Qed.
(** parsing back what was serialised for publishing *)
Lemma parse_published E m s : msg_ok E m -> m_vsig m = None -> read_only E = false -> signer_ok E ->
  serialize_impl E m (m_diff m) true = Ok s ->
  exists vs, parse_msg E false s = Ok (mkMsg (m_seqno m, e_hash E s) (m_data m) (m_diff m) (windowed E m) (m_unknown m) vs None)
    /\ (e_verifier E <> None -> vs <> None).
Proof.
  intros hok hv hro hsg hs. apply serialize_impl_wire in hs as (sig & -> & hsig). rewrite hv in hsig.
  assert (hl : match sig with Some x => length x = 64 | None => True end).
  { destruct (e_signer E); [destruct hsig as [-> h]; exact h|subst; exact I]. }
  rewrite (parse_wire E E false m sig [] hok eq_refl hl (fun _ _ => I)). unfold read_only in hro. unfold check_sig.
  destruct (e_signer E) as [g|] eqn:Eg.
  - destruct hsig as [-> h]. destruct (e_verifier E) as [v|] eqn:Ev.
    + rewrite (hsg v g _ Ev Eg). cbn [bind]. eexists. split; [reflexivity|]. congruence.
    + cbn [bind]. eexists. split; [reflexivity|]. congruence.
  - subst sig. destruct (e_verifier E) as [v|]; [discriminate|]. cbn [bind]. eexists. split; [reflexivity|]. congruence.
Qed.

(** ** re-delivery *)
Lemma kept_one E l m : good E l -> In m l -> included l m = false -> too_old E l m = false ->
  (forall x, In x l -> x <> m -> included l x = true \/ too_old E l x = true) -> kept E l = [m].
Proof.
  intros hg hm h1 h2 hx. pose proof (NoDup_map_inv' _ _ (kept_NoDup E l hg)) as hn.
  assert (hin : forall x, In x (kept E l) <-> x = m).
  { intros x. rewrite kept_In by exact hg. split; [|intros ->; auto]. intros (i1 & i2 & i3).
    destruct (included l x) eqn:Ei; [discriminate|].
    destruct (eq_dec_cmp (m_sh x) (m_sh m)) as [e|ne]; [apply (g_fun _ _ hg); auto|].
    destruct (hx x i1 ltac:(congruence)); congruence. }
  destruct (kept E l) as [|a [|c r]]; [exfalso; apply (hin m); reflexivity| |].
  - f_equal. apply hin. left. reflexivity.
  - exfalso. assert (a = m) by (apply hin; left; reflexivity). assert (c = m) by (apply hin; right; left; reflexivity). subst.
    inversion hn as [|? ? h _]; subst. apply h. left. reflexivity.
Qed.
Lemma max_seqno_eq l m : In m l -> (forall x, In x l -> (m_seqno x <= m_seqno m)%Z) -> int64_ok (m_seqno m) = true -> max_seqno l = m_seqno m.
Proof.
  intros hm hx hi. pose proof (max_seqno_ge l m hm). pose proof (max_seqno_fold l int64_min) as (_ & _ & [h|(n & hn & h)]).
  - fold (max_seqno l) in h. unfold int64_ok in hi. lia.
  - fold (max_seqno l) in h. specialize (hx n hn). lia.
Qed.
(** any message with the seqno of the resolution that lists what the resolution lists supersedes its inputs *)
Lemma resolved_supersedes E ms m M l :
  good E ms -> merge_parsed E ms = Ok m -> m_unmerged m = None -> (1 <= e_lag E)%Z ->
  int64_ok (m_seqno m + e_lag E) = true -> m_seqno M = m_seqno m -> m_lagged M = windowed E m ->
  good E l -> In M l -> (forall x, In x l -> x <> M -> In x ms) ->
  (forall x, In x l -> x <> M -> reconciled E ms x \/ stale_in E ms x \/ exists m2, listed x m2 /\ (reconciled E ms m2 \/ In m2 l)) ->
  exists i, merge_parsed E l = Ok (set_unmerged (Some i) M).
Proof.
  intros hg hm hu hlag hov hMm hMl hgl hM hsub hx.
  destruct (merge_parsed_conflict _ _ _ hg hm hu) as (hro & _ & hne & hno & hres).
  pose proof (kept_curs _ _ hg) as hcu.
  destruct (resolve_serialized _ _ _ _ hres) as (s2 & _ & hsh & _).
  assert (hmq : m_seqno m = (max_seqno ms + 1)%Z) by (unfold m_seqno; rewrite hsh; reflexivity).
  assert (hMq : m_seqno M = (max_seqno ms + 1)%Z) by congruence.
  assert (hle : forall x, In x l -> (m_seqno x <= m_seqno M)%Z).
  { intros x hin. destruct (eq_dec_cmp (m_sh x) (m_sh M)) as [e|ne]; [unfold m_seqno; rewrite e; lia|].
    assert (x <> M) as hxm by congruence. specialize (hsub x hin hxm). apply max_seqno_ge in hsub. lia. }
  assert (hokM : msg_ok E M) by (apply (g_ok _ _ hgl M hM)).
  assert (hmx : max_seqno l = m_seqno M) by (apply max_seqno_eq; [exact hM|exact hle|apply hokM]).
  assert (hk : kept E l = [M]).
  { apply kept_one; [exact hgl|exact hM| | |].
    - apply not_true_iff_false. rewrite included_In. intros (m2 & hm2 & hk). pose proof (g_old _ _ hgl _ _ hm2 hk) as ho.
      specialize (hle m2 hm2). unfold m_seqno in hle, ho. lia.
    - unfold too_old. rewrite hmx. lia.
    - intros x hin hxm.
      (* a key of the replay is listed by M or out of its window *)
      assert (hrep : forall m2 k, reconciled E ms m2 -> (k = m_sh m2 \/ In k (keys (m_lagged m2))) -> (fst k < m_seqno M)%Z ->
                 In k (keys (m_lagged M)) \/ (fst k + e_lag E <= m_seqno M)%Z).
      { intros m2 k hr hkk hlt. apply (reconciled_kept _ _ _ hg hne) in hr.
        assert (hrec : exists df, records m2 k df).
        { destruct hkk as [->|hkk]; [exists (m_diff m2); left; auto|]. apply lookup_keys in hkk as [df hkk]. exists df. right. exact hkk. }
        destruct hrec as [df hrec].
        pose proof hres as hres2. apply resolve_inv in hres2 as (top & rest & d & s' & hs & hrun & _ & _ & hm0).
        destruct (curs_facts _ _ _ _ hcu hs) as (f1 & f2 & f3 & f4 & f5 & f6 & f7 & f8).
        assert (hkr : In k (keys (replay_of (top :: rest)))).
        { assert (hlm : Forall (fun m => msorted (m_lagged m)) (top :: rest)).
          { apply Forall_forall. intros n hn. rewrite <- hs in hn. apply (Permutation_in _ (sort_desc_perm _)) in hn. apply (cu_ok _ _ hcu n hn). }
          destruct (lookup k (replay_of (top :: rest))) as [x0|] eqn:El; [apply lookup_keys; eauto|]. exfalso.
          assert (hin2 : In m2 (top :: rest)) by (rewrite <- hs; apply (Permutation_in _ (Permutation_sym (sort_desc_perm _))); exact hr).
          clear - hin2 hrec El hlm hcu hr.
          assert (hself : ~ In (m_sh m2) (keys (m_lagged m2))) by (apply (cu_self _ _ hcu m2 m2 hr hr)).
          apply (records_recorded _ _ _ hself) in hrec.
          destruct (replay_spec _ hlm) as [_ hsp].
          assert (hex : exists c1 n c2 df2, top :: rest = c1 ++ n :: c2 /\ recorded n k = Some df2 /\ forall n', In n' c1 -> recorded n' k = None).
          { clear - hin2 hrec. revert hin2 hrec. generalize (top :: rest). intros L. induction L as [|y L IH]; intros hin hrec; [destruct hin|].
            destruct (recorded y k) as [df2|] eqn:Ey.
            - exists [], y, L, df2. repeat split; auto. intros n' [].
            - destruct hin as [->|hin]; [congruence|]. destruct (IH hin hrec) as (c1 & n & c2 & df2 & e1 & e2 & e3).
              exists (y :: c1), n, c2, df2. subst. repeat split; auto. intros n' [<-|hn']; auto. }
          destruct hex as (c1 & n & c2 & df2 & e1 & e2 & e3).
          assert (lookup k (replay_of (top :: rest)) = Some (m_data n, df2)).
          { apply hsp. exists c1, n, c2, df2. auto. } congruence. }
        rewrite hMl. unfold windowed, keys.
        destruct (Z.leb (fst k + e_lag E) (m_seqno M)) eqn:Ew; [right; lia|left]. apply Z.leb_gt in Ew.
        apply in_map_iff in hkr as ([k0 [src df0]] & e & hkr). cbn [fst] in e. subst k0.
        apply in_map_iff. exists (k, df0). split; [reflexivity|]. apply filter_In. split.
        - rewrite hm0. cbn [m_lagged]. apply in_map_iff. exists (k, (src, df0)). auto.
        - cbn [fst]. apply in_window_spec. rewrite hmq, <- hMq. lia. }
      specialize (hsub x hin hxm). pose proof (max_seqno_ge _ _ hsub) as hxq.
      assert (hxlt : (m_seqno x < m_seqno M)%Z) by lia.
      assert (hfin : In (m_sh x) (keys (m_lagged M)) \/ (m_seqno x + e_lag E <= m_seqno M)%Z -> included l x = true \/ too_old E l x = true).
      { intros [h|h]; [left; apply included_In; eauto|right; unfold too_old; rewrite hmx; lia]. }
      destruct (hx x hin hxm) as [hr|[(m2 & hm2 & hst)|(m2 & hli & [hr|hin2])]].
      + apply hfin. apply (hrep x); auto.
      + apply hfin. right. apply max_seqno_ge in hm2. lia.
      + apply hfin. apply (hrep m2); auto.
      + left. apply included_In. eauto. }
  apply merge_parsed_one; [exact hk| |intros ->; destruct hM].
  intros x hin. destruct (eq_dec_cmp (m_sh x) (m_sh M)) as [e|ne].
  - unfold m_seqno. rewrite e. fold (m_seqno M). rewrite hMm. exact hov.
  - apply hno. apply hsub; [exact hin|congruence].
Qed.

Lemma consistent_current E ms x : good E ms -> ms <> [] -> consistent E ms -> In x ms ->
  reconciled E ms x \/ stale_in E ms x \/ exists m2, listed x m2 /\ reconciled E ms m2.
Proof.
  intros hg hne hc hx.
  assert (hd : forall y, In y ms -> reconciled E ms y \/ stale_in E ms y \/ exists m2, In m2 ms /\ listed y m2).
  { intros y hy. destruct (included ms y) eqn:Ei.
    - apply included_In in Ei as (m2 & h1 & h2). right; right. exists m2. auto.
    - destruct (too_old E ms y) eqn:Eo.
      + right; left. unfold too_old in Eo. destruct (max_seqno_in ms hne) as (m2 & h1 & h2); [intros n hn; apply (g_ok _ _ hg n hn)|].
        exists m2. split; [exact h1|lia].
      + left. apply reconciled_kept; auto. apply kept_In; auto. }
  destruct (hd x hx) as [h|[h|(m2 & h1 & h2)]]; [auto|auto|].
  (* climb from m2 *)
  assert (hclimb : forall n y, In y ms -> listed x y -> (max_seqno ms - m_seqno y <= Z.of_nat n)%Z ->
            stale_in E ms x \/ exists m2, listed x m2 /\ reconciled E ms m2).
  { induction n as [|n IH]; intros y hy hl hn.
    - destruct (hd y hy) as [h|[(z & hz & hs)|(z & hz & hz2)]]; [eauto| |].
      + left. exists z. split; [exact hz|]. pose proof (g_old _ _ hg y _ hy hl) as ho. unfold m_seqno in *. lia.
      + exfalso. pose proof (g_old _ _ hg z _ hz hz2) as ho. apply max_seqno_ge in hz. unfold m_seqno in *. lia.
    - destruct (hd y hy) as [h|[(z & hz & hs)|(z & hz & hz2)]]; [eauto| |].
      + left. exists z. split; [exact hz|]. pose proof (g_old _ _ hg y _ hy hl) as ho. unfold m_seqno in *. lia.
      + pose proof (g_old _ _ hg z _ hz hz2) as ho. destruct (hc x y z hx hy hz hl hz2) as [hlz|hs].
        * apply (IH z hz hlz). unfold m_seqno in *. lia.
        * left. exists z. auto. }
  right. apply (hclimb (Z.to_nat (max_seqno ms - m_seqno m2)) m2 h1 h2). lia.
Qed.
