(** Proofs about making config objects (C93). *)
From Verif Require Import OpenSpec Spec Parse_facts Keys7_facts Overflow_facts Merge_facts Message_facts Base_facts Life_facts Life4_facts Conf_facts Conf2_facts Conf3_facts Conf5_facts Converge_facts Plain_facts CStruct COut Sig GroupKeys.
From Coq Require Import Lia.

Lemma add_first B k st : length k = 32 -> s_keys st = [] -> add_key B k true false st = (Ok tt, set_keys [k] st).
Proof. intros h1 h2. unfold add_key. rewrite h1, h2. cbn [Nat.eqb negb andb]. reflexivity. Qed.
Lemma restore_keys B d st : forall ks, restore B [] d = Ok st -> restore B ks d = Ok (set_keys ks st) /\ s_keys st = [].
Proof.
  intros ks. unfold restore, skip_extra.
  repeat match goal with
  | |- (match ?x with _ => _ end = _) -> _ => destruct x; try discriminate
  | |- (bind ?x _ = _) -> _ => destruct x; cbn [bind]; try discriminate
  end.
  all: cbn [bind]; intros [= <-]; split; reflexivity.
Qed.
Lemma restore_keys_inv B d ks st : restore B ks d = Ok st -> exists st0, restore B [] d = Ok st0 /\ st = set_keys ks st0.
Proof.
  unfold restore, skip_extra.
  repeat match goal with
  | |- (match ?x with _ => _ end = _) -> _ => destruct x; try discriminate
  | |- (bind ?x _ = _) -> _ => destruct x; cbn [bind]; try discriminate
  end.
  all: cbn [bind]; intros [= <-]; eexists; split; reflexivity.
Qed.
Lemma restore_fails_same B d ks : (forall st, restore B ks d <> Ok st) -> restore B [] d = failed (restore B ks d).
Proof.
  unfold restore, skip_extra.
  repeat match goal with
  | |- (forall st, match ?x with _ => _ end <> _) -> _ => destruct x; try reflexivity
  | |- (forall st, bind ?x _ <> _) -> _ => destruct x; cbn [bind]; try reflexivity
  end.
  all: cbn [bind]; intros h; exfalso; eapply h; reflexivity.
Qed.
Lemma key32 (sk : bytes) : length sk = 32 \/ length sk = 64 -> length (firstn 32 sk) = 32.
Proof. intros h. rewrite firstn_length. unfold bytes in *. lia. Qed.

Lemma size_ok (sk : bytes) : negb (Nat.eqb (length sk) 64 || Nat.eqb (length sk) 32) = false <-> length sk = 32 \/ length sk = 64.
Proof. rewrite negb_false_iff, orb_true_iff, !Nat.eqb_eq. tauto. Qed.
Lemma open_user_spec B sk d st : open_user B sk d = Ok st <->
  (length sk = 32 \/ length sk = 64) /\ match d with None => st = fresh B [firstn 32 sk] | Some d => restore B [firstn 32 sk] d = Ok st end.
Proof.
  unfold open_user, base_new, load_key. cbn [init_sig_keys bind].
  destruct d as [d|].
  - split.
    + intros h. ok_inv h. destruct a as [s st0]. ok_inv ha. injection ha as <- <-. cbn [snd] in h.
      destruct (negb _) eqn:en; [discriminate|]. apply size_ok in en. split; [exact en|]. destruct (restore_keys B d a [firstn 32 sk] ha0) as [h1 h2].
      rewrite (add_first B _ a (key32 sk en) h2) in h. injection h as <-. exact h1.
    + intros [en h]. apply restore_keys_inv in h as (st0 & h & ->). rewrite h. cbn [bind snd]. destruct (restore_keys B d st0 [] h) as [_ h2].
      destruct (negb _) eqn:en2; [apply size_ok in en; congruence|]. rewrite (add_first B _ st0 (key32 sk en) h2). reflexivity.
  - cbn [bind snd]. split.
    + intros h. destruct (negb _) eqn:en; [discriminate|]. apply size_ok in en. split; [exact en|]. rewrite (add_first B _ (fresh B []) (key32 sk en) eq_refl) in h. injection h as <-. reflexivity.
    + intros [en ->]. destruct (negb _) eqn:en2; [apply size_ok in en; congruence|]. rewrite (add_first B _ (fresh B []) (key32 sk en) eq_refl). reflexivity.
Qed.
Lemma device_life R B seed st : device R B seed st -> life B R st /\ s_keys st = [seed].
Proof.
  intros h. induction h as [sk st h1 h2|st o st' h1 [IH1 IH2] h2 h3|st d st1 sk st' h1 [IH1 IH2] h2 h3 h4 h5].
  - apply open_user_spec in h2 as [_ ->]. rewrite h1. split; [constructor|reflexivity].
  - split; [eapply life_step; eassumption|]. destruct h3 as [o x st' g1 g2 g3]. rewrite (other_op_keys B o st x st' h2 g1). exact IH2.
  - apply open_user_spec in h5 as [_ h5]. rewrite h4 in h5. split; [eapply life_restore; eassumption|].
    apply restore_keys_inv in h5 as (st0 & _ & ->). reflexivity.
Qed.
Lemma all_push_keys {I : Type} (B : I -> benv) st c st1 : all_push B st c st1 -> forall i, s_keys (st1 i) = s_keys (st i).
Proof.
  intros h i. destruct (h i) as (n & o & s1 & h1 & [->|(hh & h2)]).
  - apply (other_op_keys (B i) OpPush (st i) (Ok tt) s1 eq_refl). cbn [run]. unfold ignore. rewrite h1. reflexivity.
  - rewrite (other_op_keys (B i) (OpConfirm n hh) s1 (Ok tt) (st1 i) eq_refl h2). apply (other_op_keys (B i) OpPush (st i) (Ok tt) s1 eq_refl). cbn [run]. unfold ignore. rewrite h1. reflexivity.
Qed.
Lemma account_group {I : Type} (B : I -> benv) st seed : account B st seed -> plain_group B st.
Proof.
  intros [a1 a2 a3 a4 a5 a6 a7 a8]. split; [split; try assumption| |exact a8].
  - intros i. destruct (a3 i) as [e1 e2]. unfold readonly, read_only. rewrite e1. reflexivity.
  - intros i. apply plainly_life. destruct (device_life _ _ _ _ (a6 i)) as [h _]. exact h.
  - intros i. destruct (device_life _ _ _ _ (a6 i)) as [h _]. exact h.
Qed.
Lemma account_fetch {I : Type} (B : I -> benv) st seed c st1 l : account B st seed -> all_push B st c st1 -> fetched st c l -> all_fetch B st c st1 l.
Proof.
  intros ha hp [h1 h2]. split; [exact h1|exact h2|]. intros i j k rest hk.
  destruct (device_life _ _ _ _ (ac_device _ _ _ ha i)) as [_ e]. rewrite e in hk. injection hk as <- _.
  pose proof (all_push_keys B st c st1 hp j) as ej. destruct (device_life _ _ _ _ (ac_device _ _ _ ha j)) as [_ e']. rewrite e' in ej.
  exists [], []. rewrite ej. split; [reflexivity|]. split; [reflexivity|intros k' []].
Qed.

(** ** any dump *)
Lemma bind_hang' {A B} (x : outcome A) (f : A -> outcome B) : bind x f = Hang -> x = Hang \/ exists a, x = Ok a /\ f a = Hang.
Proof. destruct x; cbn; try discriminate; eauto. Qed.
Lemma single_total E m : (1 <= e_lag E)%Z -> room E (m_seqno m) -> merge_parsed E [m] = Ok (set_unmerged (Some 0) m).
Proof.
  intros hlag [h1 h2]. unfold merge_parsed. cbn [existsb]. assert (e : int64_ok (m_seqno m + e_lag E) = true) by (apply int64_ok_spec; lia). rewrite e. cbn [negb orb].
  unfold marked. cbn [mark superseded existsb app mark_old map fst snd orb].
  assert (hx : (m_seqno m + e_lag E <=? max_seqno [m])%Z = false).
  { apply Z.leb_gt. unfold max_seqno. cbn [fold_left]. destruct (m_seqno m >? int64_min)%Z eqn:eg; [lia|]. rewrite Z.gtb_ltb in eg. apply Z.ltb_ge in eg. unfold int64_min in *. lia. }
  rewrite hx. reflexivity.
Qed.
Lemma skip_extra_returned s st : returned (skip_extra s st).
Proof.
  unfold skip_extra. destruct (skip_until _ _ _) as [[[] s']|]; try (split; discriminate).
  destruct (consume s') as [[[k v] t]| | | |] eqn:e; cbn [bind]; try (split; discriminate); try (destruct v; split; discriminate).
  all: exfalso; apply consume_tame in e; exact e.
Qed.
Lemma skip_until_key fuel k : forall s t, skip_until fuel k s = Some (true, t) -> exists r, next_key t = Some (Some (k, r)).
Proof.
  induction fuel as [|f IH]; intros s t h; cbn [skip_until] in h; [discriminate|].
  destruct (next_key s) as [[[k' r]|]|] eqn:en; try discriminate. destruct (ltb k' k).
  - destruct (parse1 r) as [[v t']|]; [|discriminate]. exact (IH _ _ h).
  - injection h as he <-. apply eqb_eq in he. subst k'. eauto.
Qed.
(** what the message inside of a dump must be like for the dump to be read *)
Definition readable (E : env) (data : bytes) : Prop :=
  (forall x, field_in data (b "=") (BDict x) -> stray_int (BDict x) = false) /\
  (forall l, field_in data (b "<") (BList l) -> forall e, In e l -> stray_lag e = false) /\
  (forall z, seqno_field data z -> room E z).
Lemma parse_readable E t s : (1 <= e_lag E)%Z -> readable E s -> returned (parse_msg E t s).
Proof.
  intros hlag (h1 & h2 & h3). split; [|exact (parse_terminates E t s h1 h2)]. intros h. apply parse_msg_ub in h as (s0 & z & s1 & g1 & g2 & g3 & g4).
  destruct (h3 z) as [r1 r2]; [exists s0, s1; auto|]. assert (int64_ok (z - e_lag E) = true); [|congruence]. apply int64_ok_spec. apply int64_ok_spec in g3. lia.
Qed.
Lemma mutable_readable E s : (1 <= e_lag E)%Z -> readable E s -> returned (mutable_of E s).
Proof.
  intros hlag hr. unfold mutable_of. pose proof (parse_readable E false s hlag hr) as [p1 p2]. destruct (parse_msg E false s) as [m| | | |] eqn:ep; cbn [bind]; try (split; discriminate); try congruence.
  destruct hr as (_ & _ & h3). pose proof (h3 _ (parse_seqno _ _ _ _ ep)) as hm. rewrite (single_total E m hlag hm). cbn [bind]. unfold increment_impl. destruct (_ || _) eqn:eo; [|split; discriminate].
  exfalso. destruct hm as [r1 r2]. change (m_seqno (set_unmerged (Some 0) m)) with (m_seqno m) in eo.
  assert (e1 : int64_ok (m_seqno m + 1) = true) by (apply int64_ok_spec; lia). assert (e2 : int64_ok (m_seqno m - e_lag E) = true) by (apply int64_ok_spec; lia).
  rewrite e1, e2 in eo. rewrite andb_false_r in eo. discriminate.
Qed.
Lemma restore_returned B ks d : (1 <= e_lag (b_env B))%Z -> (forall data, field_in d (b "$") (BStr data) -> readable (b_env B) data) -> returned (restore B ks d).
Proof.
  intros hlag hr. unfold restore. destruct d as [|c s0]; [split; discriminate|]. destruct c as [[] [] [] [] [] [] [] []]; try (split; discriminate).
  assert (hb : forall (A : Type) s (f : bytes * bt * bytes -> outcome A), (forall k v t, consume s = Ok (k, v, t) -> returned (f (k, v, t))) -> returned (bind (consume s) f)).
  { intros A s f h. pose proof (consume_tame s) as [t1 t2]. destruct (consume s) as [[[k v] t]| | | |] eqn:e; cbn [bind]; try (split; discriminate); try congruence. exact (h _ _ _ eq_refl). }
  destruct (skip_until _ (b "!") s0) as [[[] s1]|] eqn:e1; try (split; discriminate). apply skip_until_suffix in e1.
  apply hb. intros k v s2 c2. destruct v as [z| | |]; try (split; discriminate). apply consume_spec in c2 as (_ & _ & c2).
  destruct (if (z =? 0)%Z then _ else _) as [st| | | |] eqn:ez; cbn [bind]; try (split; discriminate); try (exfalso; destruct (z =? 0)%Z, (z =? 1)%Z, (z =? 2)%Z; discriminate).
  destruct (skip_until _ (b "$") s2) as [[[] s3]|] eqn:e3; try (split; discriminate). destruct (skip_until_key _ _ _ _ e3) as [r3 n3]. apply skip_until_suffix in e3.
  apply hb. intros k' v s4 c4. destruct v as [|data| |]; try (split; discriminate).
  assert (hk : k' = b "$") by (unfold consume in c4; rewrite n3 in c4; destruct (parse1 r3) as [[v0 t0]|]; [congruence|discriminate]). subst k'.
  assert (hd : readable (b_env B) data).
  { apply hr. exists s3, s4. split; [|exact c4]. exact (suffix_trans _ _ _ e3 (suffix_trans _ _ _ c2 (suffix_trans _ _ _ e1 (suffix_cons _ _)))). }
  set (E := mkEnv _ _ _ _). assert (hE : readable E data) by exact hd. assert (hlE : (1 <= e_lag E)%Z) by exact hlag.
  match goal with |- returned (bind ?x _) => assert (hx : returned x); [|destruct x as [conf| | | |] eqn:ex; cbn [bind]; try (split; discriminate); try (exfalso; destruct hx; congruence)] end.
  { destruct st; [|apply mutable_readable; assumption|]; pose proof (parse_readable E true data hlE hE) as [p1 p2]; destruct (parse_msg E true data); cbn [bind]; try (split; discriminate); try congruence. }
  destruct (skip_until _ (b "(") s4) as [[[] s5]|] eqn:e5; try (split; discriminate); [|apply skip_extra_returned].
  apply hb. intros k' v s6 c6. destruct v as [|curr| |]; try (split; discriminate).
  destruct (skip_until _ (b ")") s6) as [[[] s7]|] eqn:e7; try (split; discriminate).
  apply hb. intros k'' v s8 c8. destruct v as [| |l|]; try (split; discriminate). destruct (str_list l); [apply skip_extra_returned|split; discriminate].
Qed.
Lemma open_user_returned B sk d : (1 <= e_lag (b_env B))%Z -> (forall data, field_in d (b "$") (BStr data) -> readable (b_env B) data) -> returned (open_user B sk (Some d)).
Proof.
  intros hlag hr. unfold open_user, base_new. cbn [init_sig_keys bind]. pose proof (restore_returned B [] d hlag hr) as [h1 h2].
  destruct (restore B [] d) as [st| | | |] eqn:er; cbn [bind snd]; try (split; discriminate); try congruence.
  unfold load_key. destruct (negb _) eqn:en; [split; discriminate|]. destruct (restore_keys B d st [] er) as [_ hk].
  rewrite add_first; [split; discriminate| |exact hk]. apply key32. apply negb_false_iff, orb_true_iff in en as [en|en]; apply Nat.eqb_eq in en; auto.
Qed.

(** ** C key functions *)
Lemma view_ok n m : n <= length m -> view n m = Ok (firstn n m).
Proof. intros h. unfold view. apply Nat.leb_le in h. unfold bytes in *. rewrite h. reflexivity. Qed.
Lemma filter_shorter (k : bytes) l : In k l -> length (filter (fun x => negb (eqb k x)) l) < length l.
Proof.
  induction l as [|y l IH]; intros h; [destruct h|]. cbn [filter length]. destruct (eqb k y) eqn:ey; cbn [negb length].
  - assert (hle : length (filter (fun x => negb (eqb k x)) l) <= length l) by (clear; induction l as [|z l IH]; [reflexivity|]; cbn [filter]; destruct (negb (eqb k z)); cbn [length]; lia). lia.
  - destruct h as [->|h]; [rewrite eqb_refl in ey; discriminate|]. specialize (IH h). lia.
Qed.
Lemma filter_same (k : bytes) l : ~ In k l -> filter (fun x => negb (eqb k x)) l = l.
Proof.
  induction l as [|y l IH]; intros h; [reflexivity|]. cbn [filter]. destruct (eqb k y) eqn:ey; cbn [negb].
  - apply eqb_eq in ey. exfalso. apply h. left. symmetry. exact ey.
  - f_equal. apply IH. intros hi. apply h. right. exact hi.
Qed.
Lemma c_key_call_spec B c st : c_arg_ok c -> NoDup (s_keys st) -> exists r, c_key_call B c st = (Ok r, set_keys (c_keys_after c (s_keys st)) st) /\
  r = match c with CRemoveKey m => if mem (firstn 32 m) (s_keys st) then 1%Z else 0%Z | CClearKeys => Z.of_nat (length (s_keys st)) | _ => 0%Z end.
Proof.
  intros ha hn. destruct c as [m|m|m|]; cbn [c_arg_ok c_key_call c_keys_after] in *; rewrite ?(view_ok 32 m ha).
  - assert (hl : length (firstn 32 m) = 32) by (rewrite firstn_length; unfold bytes in *; lia). set (k := firstn 32 m) in *.
    destruct (add_key B k true false st) as [x st'] eqn:e. pose proof (add_key_keys _ _ _ _ _ _ _ e hl hn) as hk.
    assert (hx : x = Ok tt /\ exists ks, st' = set_keys ks st).
    { clear hk. revert e. unfold add_key. rewrite hl. cbn [Nat.eqb negb andb]. destruct (match s_keys st with f :: _ => eqb f k | [] => false end); intros [= <- <-].
      - split; [reflexivity|]. exists (s_keys st). destruct st; reflexivity.
      - split; [reflexivity|]. eexists. reflexivity. }
    destruct hx as [-> [ks ->]]. cbn [s_keys set_keys] in hk. eexists. split; [|reflexivity]. cbn [keys_after] in hk. rewrite hk. reflexivity.
  - assert (hl : length (firstn 32 m) = 32) by (rewrite firstn_length; unfold bytes in *; lia). set (k := firstn 32 m) in *.
    destruct (add_key B k false false st) as [x st'] eqn:e. pose proof (add_key_keys _ _ _ _ _ _ _ e hl hn) as hk.
    assert (hx : x = Ok tt /\ exists ks, st' = set_keys ks st).
    { clear hk. revert e. unfold add_key. rewrite hl. cbn [Nat.eqb negb andb]. destruct (match s_keys st with f :: _ => eqb f k | [] => false end); cbn [andb]; [intros [= <- <-]|cbv zeta; match goal with |- (if ?c then _ else _) = _ -> _ => destruct c end; intros [= <- <-]].
      - split; [reflexivity|]. exists (s_keys st). destruct st; reflexivity.
      - split; [reflexivity|]. exists (s_keys st). destruct st; reflexivity.
      - split; [reflexivity|]. eexists. reflexivity. }
    destruct hx as [-> [ks ->]]. cbn [s_keys set_keys] in hk. eexists. split; [|reflexivity]. cbn [keys_after] in hk. rewrite hk. reflexivity.
  - assert (hl : length (firstn 32 m) = 32) by (rewrite firstn_length; unfold bytes in *; lia). set (k := firstn 32 m) in *.
    unfold remove_key. destruct (s_keys st) as [|f r] eqn:es.
    + cbn [length Nat.leb]. eexists. split; [|reflexivity]. cbn [without filter]. destruct st as [a1 a2 a3 a4 a5 a6]; cbn [s_keys] in es; subst a6; reflexivity.
    + cbn [length Nat.leb]. rewrite hl. cbn [Nat.ltb Nat.leb andb]. replace (firstn 32 k) with k by (symmetry; apply firstn_all2; unfold bytes in *; lia). change (firstn 0 (f :: r)) with (@nil bytes). change (skipn 0 (f :: r)) with (f :: r). cbn [app].
      set (q := Nat.ltb (length (filter (fun x => negb (eqb k x)) (f :: r))) (S (length r))). exists (if q then 1 else 0)%Z. split; [reflexivity|].
      assert (hq : q = mem k (f :: r)).
      { unfold q. destruct (mem k (f :: r)) eqn:em.
        - apply Nat.ltb_lt. apply mem_In in em. clear -em. exact (filter_shorter k (f :: r) em).
        - apply Nat.ltb_ge. apply mem_In_false in em. pose proof (filter_same k (f :: r) em) as ef. unfold bytes in *. rewrite ef. cbn [length]. lia. }
      rewrite hq. reflexivity.
  - unfold clear_keys. cbn [andb]. eexists. split; reflexivity.
Qed.
Lemma c_keys_NoDup c ks : NoDup ks -> NoDup (c_keys_after c ks).
Proof.
  intros h. destruct c as [m|m|m|]; cbn [c_keys_after].
  - constructor; [|apply NoDup_filter; exact h]. intros hin. apply filter_In in hin as [_ hin]. rewrite eqb_refl in hin. discriminate.
  - destruct (mem (firstn 32 m) ks) eqn:e; [exact h|]. apply (Permutation.Permutation_NoDup (Permutation.Permutation_cons_append ks (firstn 32 m))). constructor; [|exact h].
    apply mem_In_false in e. exact e.
  - apply NoDup_filter. exact h.
  - constructor.
Qed.
