(** Invariants over the life of a ConfigBase object. *)
From Verif Require Import BaseSpec Data_facts Diff_facts Bt_facts Message_facts Parse_facts Merge_facts Replay_facts Resolve_facts Wire_facts Reach_facts Round_facts Redeliver_facts Adopt_facts Base_facts Dump_facts.

Lemma fold_sadd_In {K} `{CmpLaws K} add : forall (l : list K) x, In x (fold_left (fun l x => sadd x l) add l) <-> In x add \/ In x l.
Proof. induction add as [|y add IH]; intros l x; cbn [fold_left In]; [tauto|]. rewrite IH, In_sadd. intuition. Qed.
Lemma fold_sadd_ssorted {K} `{CmpLaws K} add : forall l : list K, ssorted l -> ssorted (fold_left (fun l x => sadd x l) add l).
Proof. induction add as [|y add IH]; intros l h; cbn [fold_left]; [exact h|]. apply IH, ssorted_sadd, h. Qed.
(** ** spec of the single calls *)
Lemma own_part_spec B st x : own_part B st = Ok x ->
  ((s_seqno st =? 0)%Z && negb (is_dirty st) = true /\ x = ([], st)) \/
  ((s_seqno st =? 0)%Z && negb (is_dirty st) = false /\ exists s c', serialize (b_env B) (s_conf st) true = Ok (s, c') /\ x = ([(s_curr st, s)], set_conf c' st)).
Proof.
  unfold own_part. destruct (s_seqno st =? 0)%Z, (is_dirty st); cbn [negb orb andb]; intros h; try (injection h as <-; auto);
    right; (split; [reflexivity|]); ok_inv h; destruct a as [s c']; injection h as <-; exists s, c'; auto.
Qed.
Lemma is_dirty_set_conf c st : is_dirty (set_conf c st) = is_dirty st.
Proof. reflexivity. Qed.
(** a merge: nothing happens, the own message is refreshed, or its result goes to [adopt] *)
Lemma merge_plain_spec B l st x st' : merge_plain B l st = (x, st') ->
  ((forall y, x <> Ok y) /\ st' = st) \/
  exists mine st1, own_part B st = Ok (mine, st1) /\
    (((forall y, x <> Ok y) /\ st' = st1) \/
     exists inc new bad, s_keys st <> [] /\ incoming B (s_keys st) l = Ok inc /\
       merge_confs B (is_dirty st) (map snd (mine ++ inc)) = Ok (new, bad) /\
       let hashes := map fst (mine ++ inc) in
       let st2 := set_old (fold_left (fun l h => sadd h l) (obsolete 0 (m_unmerged (c_msg new)) bad hashes) (s_old st1)) st1 in
       exists y, adopt B (s_seqno st) new hashes st2 = (y, st') /\
         match y with Ok _ => x = Ok (good_hashes (length mine) bad (map fst inc)) | _ => x = failed y end).
Proof.
  unfold merge_plain. destruct (s_keys st) as [|k0 ks] eqn:ek; [intros h; injection h as <- <-; left; split; [discriminate|reflexivity]|].
  destruct (own_part B st) as [[mine st1]| | | |] eqn:eo; try (intros h; injection h as <- <-; left; split; [discriminate|reflexivity]).
  intros h. right. exists mine, st1. split; [reflexivity|].
  destruct (incoming B (k0 :: ks) l) as [inc| | | |] eqn:ei; try (injection h as <- <-; left; split; [discriminate|reflexivity]).
  destruct (merge_confs B (is_dirty st) (map snd (mine ++ inc))) as [[new bad]| | | |] eqn:em; try (injection h as <- <-; left; split; [discriminate|reflexivity]).
  right. exists inc, new, bad. split; [discriminate|]. split; [reflexivity|]. split; [exact em|]. cbv zeta.
  destruct (adopt B (s_seqno st) new (map fst (mine ++ inc)) _) as [y st3] eqn:ea.
  exists y. destruct y as [[]| | | |]; injection h as <- <-; auto.
Qed.
Lemma adopt_spec B n new hashes st y st' : adopt B n new hashes st = (y, st') ->
  (m_seqno (c_msg new) = n /\ y = Ok tt /\ st' = st) \/
  (m_seqno (c_msg new) <> n /\ m_unmerged (c_msg new) = None /\
     set_state B Dirty (set_conf (if is_dirty st then new else retain new) st) = (y, st')) \/
  (m_seqno (c_msg new) <> n /\ exists i, m_unmerged (c_msg new) = Some i /\
     ((is_dirty st = true /\ i = 0 /\ m_seqno (c_msg new) = (n + 1)%Z /\ y = Ok tt /\ st' = st) \/
      (~ (is_dirty st = true /\ i = 0 /\ m_seqno (c_msg new) = (n + 1)%Z) /\ exists st1, set_state B Clean (set_conf new st) = (Ok tt, st1) /\ y = Ok tt /\
         st' = mkBase (s_conf st1) (s_state st1) (nth i hashes []) (s_old st1) (s_needs_dump st1) (s_keys st1)))).
Proof.
  unfold adopt. destruct (Z.eqb_spec (m_seqno (c_msg new)) n) as [e|e]; [intros h; injection h as <- <-; auto|].
  destruct (m_unmerged (c_msg new)) as [i|]; [|auto 6]. intros h. right. right. split; [exact e|]. exists i. split; [reflexivity|].
  destruct (is_dirty st && Nat.eqb i 0 && (m_seqno (c_msg new) =? n + 1)%Z) eqn:ec.
  - apply andb_true_iff in ec as [ec e3]. apply andb_true_iff in ec as [e1 e2]. apply Nat.eqb_eq in e2. apply Z.eqb_eq in e3.
    injection h as <- <-. left. auto 6.
  - right. split.
    + intros (e1 & -> & e3). rewrite e1, e3, Z.eqb_refl in ec. discriminate.
    + destruct (set_state B Clean (set_conf new st)) as [z st1] eqn:es. apply set_state_spec in es as e2.
      destruct e2 as [(_ & _ & h1 & _)|(-> & _)]; [discriminate|]. injection h as <- <-. eauto.
Qed.
Lemma push_spec B st x st' : push B st = (x, st') ->
  ((forall y, x <> Ok y) /\ (st' = st \/ exists s c, serialize (b_env B) (s_conf st) true = Ok (s, c) /\ st' = set_conf c st)) \/
  (exists k s conf c st2, (exists r, s_keys st = k :: r) /\ serialize (b_env B) (s_conf st) true = Ok (s, conf) /\
     encrypt (b_aead B) (pad_message (compress_message (b_zstd B) (b_level B) s) OVERHEAD) k (b_domain B) = Ok c /\
     let c' := if b_proto B then b_wrap B k (s_seqno st) c else c in
     ((N.of_nat (length c') <= MAX_MESSAGE_SIZE)%N /\
     ((is_dirty st = true /\ set_state B Waiting (set_conf conf st) = (Ok tt, st2)) \/ (is_dirty st = false /\ st2 = set_conf conf st)) /\
     x = Ok (s_seqno st, c', if readonly B then [] else s_old st2) /\ st' = set_old [] st2)).
Proof.
  unfold push. cbv zeta. destruct (s_keys st) as [|k r]; [intros h; injection h as <- <-; left; split; [discriminate|auto]|].
  destruct (serialize (b_env B) (s_conf st) true) as [[s conf]| | | |] eqn:es; try (intros h; injection h as <- <-; left; split; [discriminate|auto]).
  destruct (encrypt _ _ _ _) as [c| | | |] eqn:ee; try (intros h; injection h as <- <-; left; split; [discriminate|eauto]).
  match goal with |- (if ?q then _ else _) = _ -> _ => destruct q eqn:el end;
    [intros h; injection h as <- <-; left; split; [discriminate|eauto]|]. apply N.ltb_ge in el.
  rewrite is_dirty_set_conf. destruct (is_dirty st) eqn:ed.
  - destruct (set_state B Waiting (set_conf conf st)) as [z st2] eqn:e2. apply set_state_spec in e2 as e3.
    destruct e3 as [(_ & _ & h1 & _)|(-> & _)]; [discriminate|]. intros h. injection h as <- <-. right.
    exists k, s, conf, c, st2. eauto 12.
  - intros h. injection h as <- <-. right. exists k, s, conf, c, (set_conf conf st). eauto 12.
Qed.
Lemma confirm_spec B n h st x st' : confirm_pushed B n h st = (x, st') ->
  x = Ok tt /\ ((~ (s_state st = Waiting /\ n = s_seqno st) /\ st' = st) \/
    (s_state st = Waiting /\ n = s_seqno st /\ st' = mkBase (s_conf st) Clean h (s_old st) true (s_keys st))).
Proof.
  unfold confirm_pushed. destruct (s_state st) eqn:es; try (intros e; injection e as <- <-; split; [reflexivity|left; split; [intros [? _]; discriminate|reflexivity]]).
  destruct (Z.eqb_spec n (s_seqno st)) as [->|hn].
  - unfold set_state, is_clean. rewrite es. cbn [andb s_conf s_state s_curr s_old s_needs_dump s_keys].
    intros e. injection e as <- <-. split; [reflexivity|]. right. auto.
  - intros e. injection e as <- <-. split; [reflexivity|]. left. split; [tauto|reflexivity].
Qed.

(** ** what always holds *)
Record inv0 (B : benv) (st : bstate) : Prop := {
  i0_old : ssorted (s_old st);
  i0_curr : s_state st <> Clean -> s_curr st = [];
  i0_ro : readonly B = true -> s_state st = Clean /\ exists m, s_conf st = Plain m
}.
Lemma refresh_plain m c : refresh (Plain m) = Ok c -> c = Plain m.
Proof. cbn. congruence. Qed.
Lemma serialize_kind E c sg s c' : serialize E c sg = Ok (s, c') -> (forall m, c = Plain m -> c' = Plain m) /\ (forall m o, c = Mut m o -> exists m', c' = Mut m' o).
Proof.
  intros h. apply serialize_refresh in h. split; intros; subst c; cbn [refresh] in h; [congruence|]. destruct (diff _ _); [|discriminate]. injection h as <-. eauto.
Qed.
Lemma inv0_conf B c st : inv0 B st -> (forall m, s_conf st = Plain m -> exists m', c = Plain m') -> inv0 B (set_conf c st).
Proof. intros [h1 h2 h3] hc. split; cbn [set_conf s_old s_state s_curr s_conf]; auto. intros hr. destruct (h3 hr) as (a & m & e). split; [exact a|]. apply (hc m e). Qed.
Lemma inv0_serialize B sg s c st : inv0 B st -> serialize (b_env B) (s_conf st) sg = Ok (s, c) -> inv0 B (set_conf c st).
Proof. intros hi h. apply inv0_conf; [exact hi|]. intros m e. apply serialize_kind in h as [h _]. eauto. Qed.
Lemma inv0_old B st l : inv0 B st -> ssorted l -> inv0 B (set_old l st).
Proof. intros [h1 h2 h3] h. split; assumption. Qed.
Lemma inv0_keys B st ks : inv0 B st -> inv0 B (set_keys ks st).
Proof. intros [h1 h2 h3]. split; assumption. Qed.
Lemma inv0_set_state B s st x st' : inv0 B st -> set_state B s st = (x, st') -> s <> Waiting \/ readonly B = false -> inv0 B st'.
Proof.
  intros [h1 h2 h3] h hw. apply set_state_spec in h as [(_ & -> & _)|(_ & hc & hs & _ & _ & hr & hm)]; [split; assumption|]. split.
  - destruct hm as [(_ & _ & _ & ->)|(_ & _ & ->)]; [apply ssorted_sadd|]; exact h1.
  - intros hn. destruct hm as [(_ & _ & -> & _)|(ho & -> & _)]; [reflexivity|]. destruct ho as [ho|ho]; auto.
  - intros hro. rewrite hs, hc. destruct (h3 hro) as (_ & h4). split; [|exact h4]. destruct s; auto; [specialize (hr eq_refl); congruence|].
    destruct hw; congruence.
Qed.
Lemma inv0_dirty B st x st' : inv0 B st -> dirty B st = (x, st') -> inv0 B st'.
Proof.
  intros hi h. apply dirty_spec in h as [(_ & -> & _)|[(_ & _ & _ & ->)|(_ & hr & st1 & h1 & [(c & _ & _ & ->)|(_ & _ & ->)])]]; auto.
  - apply inv0_set_state in h1; auto. destruct h1. split; auto. cbn [set_conf]. intros. congruence.
  - apply inv0_set_state in h1; auto.
Qed.
Lemma inv0_edit B f st x st' : inv0 B st -> edit B f st = (x, st') -> inv0 B st'.
Proof.
  intros hi h. apply edit_spec in h as [(_ & h)|(st1 & m & o & h & hc & _ & ->)]; [eapply inv0_dirty; eassumption|].
  apply inv0_dirty in h; [|exact hi]. apply inv0_conf; [exact h|]. intros m0. rewrite hc. discriminate.
Qed.
Lemma merge_confs_ro B dirty l new bad : readonly B = true -> dirty = false -> merge_confs B dirty l = Ok (new, bad) -> exists m i, new = Plain m /\ m_unmerged m = Some i.
Proof.
  intros hr -> h. unfold merge_confs in h. ok_inv h. destruct a as [m bd]. injection h as <- <-. cbn [fst]. exists m.
  apply merge_msgs_inv in ha as (ms & _ & h). destruct (m_unmerged m) as [i|] eqn:e; [eauto|]. exfalso.
  unfold merge_parsed in h. destruct ms as [|y ms]; [discriminate|]. destruct (existsb _ (y :: ms)); [discriminate|].
  destruct (filter _ (marked (b_env B) (y :: ms))) as [|p [|q r]]; [discriminate| |].
  - destruct (first_current 0 _) as [[i z]|]; [|discriminate]. injection h as <-. discriminate.
  - unfold readonly in hr. rewrite hr in h. destruct (marked (b_env B) (y :: ms)); [discriminate|]. destruct (max_elt 1 0 _ _). injection h as <-. discriminate.
Qed.
Lemma inv0_merge B l st x st' : inv0 B st -> merge_plain B l st = (x, st') -> inv0 B st'.
Proof.
  intros hi h. apply merge_plain_spec in h as [(_ & ->)|(mine & st1 & ho & h)]; [exact hi|].
  assert (h1 : inv0 B st1 /\ s_state st1 = s_state st).
  { apply own_part_spec in ho as [(_ & ho)|(_ & s & c & hs & ho)]; injection ho as _ ->; [auto|].
    split; [eapply inv0_serialize; eassumption|reflexivity]. }
  destruct h1 as [h1 hst]. destruct h as [(_ & ->)|(inc & new & bad & _ & _ & hm & y & ha & _)]; [exact h1|]. cbv zeta in ha.
  set (st2 := set_old _ st1) in ha. assert (h2 : inv0 B st2) by (apply inv0_old; [exact h1|]; apply fold_sadd_ssorted, h1).
  assert (hd : is_dirty st2 = is_dirty st) by (unfold st2, is_dirty; cbn; rewrite hst; reflexivity).
  assert (hro : readonly B = true -> is_dirty st = false /\ exists m i, new = Plain m /\ m_unmerged m = Some i).
  { intros hr. destruct (i0_ro _ _ hi hr) as (a & _). assert (e : is_dirty st = false) by (unfold is_dirty; rewrite a; reflexivity).
    split; [exact e|]. eapply merge_confs_ro; eassumption. }
  assert (hcf : forall c, readonly B = false -> inv0 B (set_conf c st2)).
  { intros c hr. destruct h2. split; auto. intros. congruence. }
  apply adopt_spec in ha as [(_ & _ & ->)|[(_ & hu & ha)|(_ & i & hu & [(_ & _ & _ & _ & ->)|(_ & st3 & ha & _ & ->)])]]; try exact h2.
  - destruct (readonly B) eqn:er.
    + destruct (hro eq_refl) as (_ & m & i & -> & hi2). cbn [c_msg] in hu. congruence.
    + eapply inv0_set_state; [apply hcf; reflexivity|exact ha|left; discriminate].
  - assert (h3 : inv0 B st3).
    { destruct (readonly B) eqn:er.
      - destruct (hro eq_refl) as (_ & m & j & -> & _). eapply inv0_set_state; [|exact ha|left; discriminate]. apply inv0_conf; [exact h2|eauto].
      - eapply inv0_set_state; [apply hcf; reflexivity|exact ha|left; discriminate]. }
    apply set_state_spec in ha as [(_ & _ & hx & _)|(_ & _ & hs & _)]; [discriminate|].
    destruct h3 as [a1 a2 a3]. split; auto. cbn [s_state s_curr]. rewrite hs. congruence.
Qed.
Lemma inv0_push B st x st' : inv0 B st -> push B st = (x, st') -> inv0 B st'.
Proof.
  intros hi h. apply push_spec in h as [(_ & [->|(s & c & hs & ->)])|(k & s & conf & c & st2 & _ & hs & _ & _ & h2 & _ & ->)]; [exact hi| |].
  - eapply inv0_serialize; eassumption.
  - apply inv0_old; [|constructor]. assert (h3 : inv0 B (set_conf conf st)) by (eapply inv0_serialize; eassumption).
    destruct h2 as [(hd & h2)|(_ & ->)]; [|exact h3].
    eapply inv0_set_state; [exact h3|exact h2|]. right. destruct (readonly B) eqn:er; [|reflexivity].
    destruct (i0_ro _ _ hi er) as (a & _). unfold is_dirty in hd. rewrite a in hd. discriminate.
Qed.
Lemma inv0_confirm B n h st x st' : inv0 B st -> confirm_pushed B n h st = (x, st') -> inv0 B st'.
Proof.
  intros hi e. apply confirm_spec in e as (_ & [(_ & ->)|(_ & _ & ->)]); [exact hi|]. destruct hi as [a1 a2 a3]. split; cbn; auto; [congruence|].
  intros hr. split; [reflexivity|]. apply a3, hr.
Qed.
Lemma inv0_dump B st x st' : inv0 B st -> dump B st = (x, st') -> inv0 B st'.
Proof.
  intros hi h. apply dump_spec in h. cbv zeta in h.
  assert (h0 : inv0 B (if readonly B then set_old [] st else st)) by (destruct (readonly B); [apply inv0_old; [exact hi|constructor]|exact hi]).
  destruct h as [(s & c' & hs & _ & ->)|(_ & ->)]; [|exact h0]. apply (inv0_serialize B false s c' st hi) in hs.
  destruct hs as [a1 a2 a3]. split; auto. cbn [s_old]. apply h0.
Qed.
Definition key_call (B : benv) (o : op) (st : bstate) (x : outcome unit) (st' : bstate) : Prop :=
  st' = st \/ exists ks, (st' = set_keys ks st) \/ (dirty B (set_keys ks st) = (x, st')).
Lemma add_key_call B k h d st x st' : add_key B k h d st = (x, st') ->
  st' = st \/ exists ks, st' = set_keys ks st \/ dirty B (set_keys ks st) = (x, st').
Proof.
  unfold add_key. intros e. cbv zeta in e. repeat match type of e with (if ?q then _ else _) = _ => destruct q end;
    try (injection e as <- <-; eauto); eauto.
Qed.
Lemma add_key_quiet B k h st : exists ks, snd (add_key B k h false st) = set_keys ks st.
Proof.
  unfold add_key. assert (e : st = set_keys (s_keys st) st) by (destruct st; reflexivity).
  destruct (negb _); [exists (s_keys st); exact e|]. destruct (match s_keys st with [] => false | f :: _ => eqb f k end); [exists (s_keys st); exact e|].
  destruct (negb h && _); [exists (s_keys st); exact e|]. eexists. reflexivity.
Qed.
Lemma fold_add_keys B l : forall st, exists ks, fold_left (fun st k => snd (add_key B k false false st)) l st = set_keys ks st.
Proof.
  induction l as [|k l IH]; intros st; cbn [fold_left]; [exists (s_keys st); destruct st; reflexivity|].
  destruct (add_key_quiet B k false st) as [ks ->]. destruct (IH (set_keys ks st)) as [ks' ->]. exists ks'. reflexivity.
Qed.
Definition is_key_op (o : op) : bool := match o with OpAddKey _ _ _ | OpRemoveKey _ _ _ | OpClearKeys _ | OpReplaceKeys _ _ => true | _ => false end.
Lemma key_op_spec B o st x st' : is_key_op o = true -> run B o st = (x, st') ->
  st' = st \/ exists ks, st' = set_keys ks st \/ exists y, dirty B (set_keys ks st) = (y, st').
Proof.
  destruct o; try discriminate; intros _ h; cbn [run] in h.
  - apply add_key_call in h as [h|(ks & [h|h])]; eauto 6.
  - unfold remove_key in h. destruct (Nat.leb _ from); [injection h as _ <-; auto|]. destruct (Nat.ltb (length k) 32); [injection h as _ <-; auto|].
    cbv zeta in h. destruct (_ && _ && _) in h; [|injection h as _ <-; eauto]. right. eexists. right.
    destruct (dirty B (set_keys _ st)) as [[]] eqn:e; injection h as _ <-; rewrite e; eauto.
  - unfold clear_keys in h. cbv zeta in h. destruct (_ && _ && _) in h; [|injection h as _ <-; eauto]. right. exists []. right.
    destruct (dirty B (set_keys _ st)) as [[]] eqn:e; injection h as _ <-; eauto.
  - unfold replace_keys in h. destruct ks as [|f r].
    + destruct (s_keys st) eqn:ek; [injection h as _ <-; auto|]. unfold clear_keys in h. cbv zeta in h.
      destruct (_ && _ && _) in h; [|injection h as _ <-; eauto]. right. exists []. right.
      destruct (dirty B (set_keys _ st)) as [[]] eqn:e; injection h as _ <-; eauto.
    + destruct (negb _) in h; [injection h as _ <-; auto|]. cbv zeta in h. destruct (fold_add_keys B (f :: r) (set_keys [] st)) as [ks e]. rewrite e in h.
      change (set_keys ks (set_keys [] st)) with (set_keys ks st) in h.
      destruct (_ && _ && _) in h; [eauto|injection h as _ <-; eauto].
Qed.
Lemma edit_op_spec B o st x st' : is_edit o = true -> run B o st = (x, st') -> (x = Ok tt /\ st' = st) \/ exists f, edit B f st = (x, st').
Proof.
  destruct o; try discriminate; intros _ h; cbn [run] in h.
  - unfold assign_at in h. destruct (empty_container v).
    + unfold erase_at in h. destruct (_ && _) in h; [injection h as <- <-; auto|eauto].
    + destruct (_ && _) in h; [injection h as <- <-; auto|eauto].
  - unfold erase_at in h. destruct (_ && _) in h; [injection h as <- <-; auto|eauto].
  - unfold set_insert_at in h. destruct (_ && _) in h; [injection h as <- <-; auto|eauto].
  - unfold set_erase_at in h. destruct (_ && _) in h; [injection h as <- <-; auto|eauto].
Qed.
Lemma inv0_run B o st x st' : inv0 B st -> run B o st = (x, st') -> inv0 B st'.
Proof.
  intros hi h. destruct (is_edit o) eqn:ee.
  - apply edit_op_spec in h as [(_ & ->)|(f & h)]; auto. eapply inv0_edit; eassumption.
  - destruct (is_key_op o) eqn:ek.
    + apply key_op_spec in h as [->|(ks & [->|(y & h)])]; auto using inv0_keys. eapply inv0_dirty; [|exact h]. apply inv0_keys, hi.
    + destruct o; try discriminate; cbn [run] in h; unfold ignore in h.
      * destruct (push B st) eqn:e. injection h as _ <-. eapply inv0_push; eassumption.
      * eapply inv0_confirm; eassumption.
      * destruct (merge B l st) eqn:e. injection h as _ <-. eapply inv0_merge; eassumption.
      * destruct (dump B st) eqn:e. injection h as _ <-. eapply inv0_dump; eassumption.
Qed.
Lemma fold_sadd_sorted {K} `{CmpLaws K} (l : list K) : ssorted l -> fold_left (fun l h => sadd h l) l [] = l.
Proof.
  intros h. apply ssorted_ext; [apply fold_sadd_ssorted; constructor|exact h|]. intros y. rewrite fold_sadd_In. cbn [In]. tauto.
Qed.
(** what a restored object looks like *)
Lemma restore_spec B st d st1 ks st' : inv0 B st -> dump B st = (Ok d, st1) -> (N.of_nat (length d) <= uint64_max)%N -> restore B ks d = Ok st' ->
  exists s c' conf, serialize (b_env B) (s_conf st) false = Ok (s, c') /\
    match s_state st with Dirty => mutable_of (store_env (b_env B)) s = Ok conf | _ => exists m, parse_msg (store_env (b_env B)) true s = Ok m /\ conf = Plain m end /\
    st' = mkBase conf (s_state st) (s_curr st) (if readonly B then [] else s_old st) false ks.
Proof.
  intros hi h hlen hr. apply dump_spec in h as [(s & c' & hs & h & _)|(h & _)]; [|exfalso; apply (h d); reflexivity].
  injection h as ->. rewrite restore_bytes in hr by exact hlen. ok_inv hr. injection hr as <-. rewrite fold_sadd_sorted.
  2: { destruct (readonly B); [constructor|apply hi]. }
  exists s, c', a. split; [exact hs|]. split; [|destruct (readonly B); reflexivity]. destruct (s_state st); [ok_inv ha; injection ha as <-; eauto|exact ha|ok_inv ha; injection ha as <-; eauto].
Qed.
Lemma inv0_restore B st d st1 ks st' : inv0 B st -> dump B st = (Ok d, st1) -> (N.of_nat (length d) <= uint64_max)%N -> restore B ks d = Ok st' -> inv0 B st'.
Proof.
  intros hi h hl hr. destruct (restore_spec _ _ _ _ _ _ hi h hl hr) as (s & c' & conf & _ & hc & ->). split; cbn [s_old s_state s_curr s_conf].
  - destruct (readonly B); [constructor|apply hi].
  - apply hi.
  - intros hro. destruct (i0_ro _ _ hi hro) as (a & _). rewrite a in *. split; [reflexivity|]. destruct hc as (m & _ & ->). eauto.
Qed.
Lemma inv0_promote A B g st : B = with_signer g A -> inv0 A st -> inv0 B st.
Proof. intros -> [h1 h2 h3]. split; [exact h1|exact h2|]. unfold readonly, read_only. cbn [with_signer b_env e_signer e_verifier]. destruct (e_verifier (b_env A)); discriminate. Qed.
Lemma life_inv0 B R st : life B R st -> inv0 B st.
Proof.
  induction 1 as [B ks|B st o st' _ IH h|B st d st1 ks st' _ IH h1 h2 h3|B A g st _ IH hro e].
  - split; cbn; [constructor|congruence|]. intros _. split; [reflexivity|]. eauto.
  - destruct h as [o x st' h _ _]. eapply inv0_run; eassumption.
  - eapply inv0_restore; eassumption.
  - eapply inv0_promote; eassumption.
Qed.
