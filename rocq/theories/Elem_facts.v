(** Proofs of C96, part 1: one element, one change set, one merge. *)
From Verif Require Import ElemSpec Maps Data_facts Diff_facts Bt_facts Parse_facts Message_facts Wire_facts Round_facts Reach_facts Redeliver_facts Merge_facts Resolve_facts Conflict_facts Overflow_facts Replay_facts Merge2_facts Adopt_facts Crypt_facts Base_facts Dump_facts Life_facts Life2_facts Life3_facts Life4_facts Fields_facts Conf_facts Conf2_facts Conf3_facts Conf4_facts Conf5_facts Conf6_facts Converge_facts Plain_facts Field_facts.
From Coq Require Import Lia Permutation.

(** ** shapes *)
Lemma set_shaped_nil p : set_shaped p [] = true. Proof. destruct p; reflexivity. Qed.
Lemma set_shaped_df_nil p : set_shaped_df p [] = true. Proof. destruct p; reflexivity. Qed.
Lemma says_nil p x : says p x [] = None. Proof. destruct p; reflexivity. Qed.
Lemma backed_nil p d : backed p [] d = true. Proof. destruct p; reflexivity. Qed.
Lemma remains_nil p d : remains p [] d = true. Proof. destruct p; reflexivity. Qed.
Lemma has_nil p x : p <> [] -> has p x [] = false. Proof. intros hp. unfold has. rewrite get_path_nil by exact hp. reflexivity. Qed.
Lemma has_as k p x d : p <> [] -> has (k :: p) x d = has p x (as_dict (lookup k d)).
Proof. intros hp. unfold has. rewrite get_path_as by exact hp. reflexivity. Qed.
Lemma has_one k x d : has [k] x d = mem x (as_set (lookup k d)).
Proof. unfold has. cbn. destruct (lookup k d) as [[s|l|sub]|]; reflexivity. Qed.
Lemma set_shaped_here k p d : p <> [] -> set_shaped (k :: p) d = true -> lookup k d = None \/ exists sub, lookup k d = Some (VDict sub) /\ set_shaped p sub = true.
Proof.
  intros hp h. cbn [set_shaped] in h. destruct (lookup k d) as [[s|l|sub]|]; [discriminate|destruct p; [congruence|discriminate]| |auto].
  apply andb_true_iff in h as [_ h]. eauto.
Qed.
Lemma set_shaped_as k p d : p <> [] -> set_shaped (k :: p) d = true -> set_shaped p (as_dict (lookup k d)) = true.
Proof. intros hp h. destruct (set_shaped_here _ _ _ hp h) as [->|(sub & -> & hs)]; [apply set_shaped_nil|exact hs]. Qed.
Lemma set_shaped_one k d : set_shaped [k] d = true -> lookup k d = None \/ exists l, lookup k d = Some (VSet l).
Proof. cbn. destruct (lookup k d) as [[s|l|sub]|]; try discriminate; eauto. Qed.
Lemma set_shaped_df_here k p df : p <> [] -> set_shaped_df (k :: p) df = true -> lookup k df = None \/ exists sub, lookup k df = Some (BDict sub) /\ set_shaped_df p sub = true.
Proof.
  intros hp h. cbn [set_shaped_df] in h. destruct (lookup k df) as [[z|s|l|sub]|]; try discriminate; auto.
  - destruct l as [|[| |a|] [|[| |r|] l]]; try discriminate. destruct p; [congruence|discriminate].
  - apply andb_true_iff in h as [_ h]. eauto.
Qed.
Lemma set_shaped_df_one k df : set_shaped_df [k] df = true -> lookup k df = None \/ exists a r l, lookup k df = Some (BList (BList a :: BList r :: l)).
Proof.
  cbn [set_shaped_df is_nil negb andb]. destruct (lookup k df) as [[z|s|l|sub]|]; try discriminate; auto.
  destruct l as [|[| |a|] [|[| |r|] l]]; try discriminate. eauto.
Qed.
Lemma remains_refl p d : remains p d d = true.
Proof. revert d; induction p as [|k p IH]; intros d; [reflexivity|]. cbn [remains]. destruct (lookup k d) as [[s|l|sub]|]; auto. Qed.
Lemma remains_trans p a c d : remains p a c = true -> remains p c d = true -> remains p a d = true.
Proof.
  revert a c d; induction p as [|k p IH]; intros a c d; [auto|]. cbn [remains]. destruct (lookup k a) as [[s|l|sub]|]; auto.
  - destruct (lookup k c) as [[s|l'|sub]|]; try discriminate. auto.
  - destruct (lookup k c) as [[s|l'|sub']|]; try discriminate. destruct (lookup k d) as [[s|l'|sub'']|]; try discriminate. apply IH.
Qed.
Lemma backed_remains p df d d' : backed p df d = true -> remains p d d' = true -> backed p df d' = true.
Proof.
  revert df d d'; induction p as [|k p IH]; intros df d d'; [auto|]. cbn [backed remains]. destruct (lookup k df) as [[z|s|l|sub]|]; try discriminate; auto.
  - destruct (lookup k d) as [[s|l'|sd]|]; try discriminate. destruct (lookup k d') as [[s|l''|sd']|]; auto.
  - destruct (lookup k d) as [[s|l'|sd]|]; try discriminate. destruct (lookup k d') as [[s|l''|sd']|]; try discriminate. apply IH.
Qed.

(** ** applying a change set *)
Lemma mem_bool (x : scalar) l v : (v = true <-> In x l) -> mem x l = v.
Proof. intros h. destruct v; [apply mem_In, h; reflexivity|]. apply mem_In_false. intros hin. apply h in hin. discriminate. Qed.
Lemma apply_elem p x : p <> [] -> forall df src data d', wf data = true -> bt_ok (BDict df) = true -> set_shaped_df p df = true -> set_shaped p src = true -> backed p df src = true ->
  apply_diff df src data = Some d' ->
  has p x d' = match says p x df with Some v => v | None => has p x data end /\ (set_shaped p data = true -> set_shaped p d' = true).
Proof.
  induction p as [|k p IH]; [congruence|]. intros _ df src data d' hw hb hf hs hbk ha.
  apply bt_ok_dict in hb as [hsd hb]. pose proof (wf_sorted _ hw) as hm. destruct p as [|k2 p2].
  - rewrite !has_one. cbn [backed] in hbk. destruct (set_shaped_df_one _ _ hf) as [e|(a & r & l & e)]; cbn [says set_shaped is_nil]; rewrite e in *.
    + rewrite (apply_diff_other _ _ _ _ _ hm ha e). auto.
    + pose proof (apply_diff_here _ _ _ _ _ _ hm hsd ha e) as h. destruct (lookup k src) as [[|ls|]|]; try discriminate. cbn [apply1] in h. unfold listed.
      destruct (scalars_of_bt a) as [a'|]; [|discriminate]. destruct (scalars_of_bt r) as [r'|]; [|discriminate]. injection h as <-. cbn [as_set]. split; [|reflexivity].
      apply mem_bool. rewrite In_fold_sdel, In_fold_sadd, <- !mem_In. destruct (mem x r') eqn:e1, (mem x a') eqn:e2, (mem x (as_set (lookup k data))) eqn:e3; intuition congruence.
  - assert (hne : k2 :: p2 <> []) by discriminate. rewrite (has_as k (k2 :: p2) x d'), (has_as k (k2 :: p2) x data) by exact hne. remember (k2 :: p2) as q eqn:eq0. cbn [says backed set_shaped] in *. destruct (set_shaped_df_here _ _ _ hne hf) as [e|(sub & e & hsub)]; rewrite e in *.
    + rewrite (apply_diff_other _ _ _ _ _ hm ha e). auto.
    + assert (hbs : bt_ok (BDict sub) = true) by (apply lookup_In in e; apply (hb _ _ e)).
      pose proof (apply_diff_here _ _ _ _ _ _ hm hsd ha e) as h. destruct (lookup k src) as [[|ls|sd]|] eqn:e2; try discriminate. apply andb_true_iff in hs as [hq hs].
      rewrite apply1_dict in h. destruct (apply_diff sub sd (as_dict (lookup k data))) as [d1|] eqn:E1; [|discriminate]. injection h as h. rewrite <- h. cbn [as_dict].
      destruct (IH hne sub sd (as_dict (lookup k data)) d1 (as_dict_wf _ (wf_opt _ _ hw)) hbs hsub hs hbk E1) as (r1 & r3).
      split; [exact r1|]. intros hda. rewrite hq. apply r3. apply set_shaped_as; [exact hne|]. cbn [set_shaped]. exact hda.
Qed.
Lemma set_shaped_prune p : forall d, wf d = true -> set_shaped p d = true -> set_shaped p (fst (prune d)) = true.
Proof.
  induction p as [|k p IH]; intros d hw h; [reflexivity|]. cbn [set_shaped] in *. rewrite lookup_prune by exact hw.
  destruct (lookup k d) as [[s|l|sub]|] eqn:e; try discriminate; [|  |reflexivity].
  - cbn [prune_v]. destruct (is_nil l); [reflexivity|exact h].
  - apply andb_true_iff in h as [h1 h2]. rewrite prune_v_dict'. destruct (is_nil (fst (prune sub))); [reflexivity|]. rewrite h1. cbn [andb]. apply IH; [|exact h2].
    exact (wf_lookup _ _ _ hw e).
Qed.
Lemma has_prune p x d : p <> [] -> wf d = true -> set_shaped p d = true -> has p x (fst (prune d)) = has p x d.
Proof.
  intros hp hw hs. unfold has. rewrite get_path_prune by assumption. clear hw.
  assert (hg : get_path p d = None \/ exists l, get_path p d = Some (VSet l)).
  { revert d hs. induction p as [|k p IH]; [congruence|]. intros d hs. destruct p as [|k2 p2]; [exact (set_shaped_one _ _ hs)|].
    rewrite get_path_as by discriminate. apply IH; [discriminate|]. apply set_shaped_as; [discriminate|exact hs]. }
  destruct hg as [->|(l & ->)]; [reflexivity|]. cbn [prune_v]. destruct l; reflexivity.
Qed.

(** ** the change set computed for two versions *)
Definition moved (v v' : bool) : option bool := if Bool.eqb v v' then None else Some v'.
Lemma moved_None v v' : moved v v' = None <-> v = v'.
Proof. destruct v, v'; cbn; split; congruence. Qed.
Lemma moved_Some v v' w : moved v v' = Some w -> v' = w /\ v = negb w.
Proof. destruct v, v'; cbn; intros h; try discriminate; injection h as <-; auto. Qed.
Lemma listed_of l x : forallb scalar_ok l = true -> listed x (map bt_of_scalar l) = mem x l.
Proof. intros h. unfold listed. rewrite scalars_of_bt_of by exact h. reflexivity. Qed.
Lemma diff_set_elem old new e x : ssorted old -> ssorted new -> forallb scalar_ok old = true -> forallb scalar_ok new = true -> diff_set old new = e ->
  match e with
  | None => mem x old = mem x new
  | Some e => exists a r, e = BList [BList a; BList r] /\ (if listed x r then Some false else if listed x a then Some true else None) = moved (mem x old) (mem x new)
  end.
Proof.
  intros ho hn so sn <-. destruct (diff_set old new) as [e|] eqn:ed; [|apply diff_set_None in ed; [congruence|assumption|assumption]].
  unfold diff_set in ed. destruct (set_walk old new) as [a r] eqn:ew. destruct (is_nil a && is_nil r); [discriminate|]. injection ed as <-.
  destruct (set_walk_spec _ _ _ _ ho hn ew) as (_ & _ & h3 & h4). rewrite forallb_forall in so, sn.
  exists (map bt_of_scalar a), (map bt_of_scalar r). split; [reflexivity|].
  rewrite !listed_of by (apply forallb_forall; intros y hy; first [apply h3 in hy as [hy _]|apply h4 in hy as [hy _]]; auto).
  specialize (h3 x). specialize (h4 x). rewrite <- !mem_In in h3, h4. unfold moved.
  destruct (mem x a), (mem x r), (mem x old), (mem x new); cbn; try reflexivity; intuition congruence.
Qed.
Lemma walk_elem p x : p <> [] -> forall od nd df, wf od = true -> wf nd = true -> set_shaped p od = true -> set_shaped p nd = true -> walk od nd = Some df ->
  set_shaped_df p df = true /\ says p x df = moved (has p x od) (has p x nd) /\ (remains p od nd = true -> backed p df nd = true).
Proof.
  induction p as [|k p IH]; [congruence|]. intros _ od nd df ho hn so sn h.
  destruct (walk_spec _ _ _ (wf_sorted _ ho) (wf_sorted _ hn) h) as [h1 h2]. specialize (h2 k). destruct p as [|k2 p2].
  - rewrite !has_one. cbn [set_shaped_df says is_nil backed remains].
    assert (hset : forall d l, wf d = true -> lookup k d = Some (VSet l) -> ssorted l /\ forallb scalar_ok l = true).
    { intros d l hw e. apply wf_v_set. exact (wf_lookup _ _ _ hw e). }
    assert (hno : ssorted (@nil scalar)) by constructor.
    destruct (set_shaped_one _ _ so) as [e|(l & e)], (set_shaped_one _ _ sn) as [e'|(l' & e')]; rewrite e, e' in *; cbn [as_set diff_entry diff_only diff_v] in *.
    + injection h2 as <-. auto.
    + destruct (hset _ _ hn e') as [g1 g2]. pose proof (diff_set_elem [] l' _ x hno g1 eq_refl g2 eq_refl) as hd. destruct (diff_set [] l') as [y|]; [|discriminate]. injection h2 as <-. destruct hd as (a & r & -> & hd). auto.
    + destruct (hset _ _ ho e) as [g1 g2]. pose proof (diff_set_elem l [] _ x g1 hno g2 eq_refl eq_refl) as hd. destruct (diff_set l []) as [y|]; [|discriminate]. injection h2 as <-. destruct hd as (a & r & -> & hd). split; [reflexivity|]. split; [exact hd|discriminate].
    + destruct (hset _ _ ho e) as [g1 g2]. destruct (hset _ _ hn e') as [g3 g4]. pose proof (diff_set_elem l l' _ x g1 g3 g2 g4 eq_refl) as hd. injection h2 as <-. destruct (diff_set l l') as [y|].
      * destruct hd as (a & r & -> & hd). auto.
      * rewrite (proj2 (moved_None _ _) hd). auto.
  - assert (hne : k2 :: p2 <> []) by discriminate. rewrite (has_as k (k2 :: p2) x od), (has_as k (k2 :: p2) x nd) by exact hne. remember (k2 :: p2) as q eqn:eq0. cbn [set_shaped_df says backed remains].
    assert (hq : is_nil q = false) by (rewrite eq0; reflexivity).
    assert (go : forall od' nd' df', wf od' = true -> wf nd' = true -> set_shaped q od' = true -> set_shaped q nd' = true -> walk od' nd' = Some df' ->
      set_shaped_df q df' = true /\ says q x df' = moved (has q x od') (has q x nd') /\ (remains q od' nd' = true -> backed q df' nd' = true)) by (apply IH; exact hne).
    destruct (set_shaped_here _ _ _ hne so) as [e|(od' & e & so')], (set_shaped_here _ _ _ hne sn) as [e'|(nd' & e' & sn')]; rewrite e, e' in *; cbn [as_dict].
    + cbn in h2. injection h2 as <-. rewrite !has_nil by exact hne. auto.
    + cbn [diff_entry] in h2. rewrite diff_only_dict, <- walk_nil_new in h2. destruct (walk [] nd') as [df'|] eqn:ew; [|discriminate].
      destruct (go [] nd' df' wf_nil (wf_lookup _ _ _ hn e') (set_shaped_nil _) sn' ew) as (g1 & g2 & g3).
      destruct df' as [|y df']; [discriminate|]. injection h2 as h2. rewrite <- h2, g1, hq. split; [reflexivity|]. split; [exact g2|]. intros _. apply g3, remains_nil.
    + cbn [diff_entry] in h2. rewrite diff_only_dict, <- walk_nil_old in h2. destruct (walk od' []) as [df'|] eqn:ew; [|discriminate].
      destruct (go od' [] df' (wf_lookup _ _ _ ho e) wf_nil so' (set_shaped_nil _) ew) as (g1 & g2 & g3).
      destruct df' as [|y df']; [discriminate|]. injection h2 as h2. rewrite <- h2, g1, hq. split; [reflexivity|]. split; [exact g2|discriminate].
    + cbn [diff_entry] in h2. rewrite diff_v_dict in h2. destruct (walk od' nd') as [df'|] eqn:ew; [|discriminate].
      destruct (go od' nd' df' (wf_lookup _ _ _ ho e) (wf_lookup _ _ _ hn e') so' sn' ew) as (g1 & g2 & g3).
      destruct df' as [|y df']; injection h2 as h2; rewrite <- h2.
      * rewrite <- g2, says_nil. auto.
      * rewrite g1, hq. split; [reflexivity|]. split; [exact g2|exact g3].
Qed.
Lemma diff_elem p x od nd df : p <> [] -> wf od = true -> wf nd = true -> set_shaped p od = true -> set_shaped p nd = true -> diff od nd = Some df ->
  set_shaped_df p df = true /\ says p x df = moved (has p x od) (has p x nd) /\ (remains p od nd = true -> backed p df nd = true).
Proof. intros hp h1 h2 h3 h4 h. rewrite diff_walk in h. apply (walk_elem p x hp od nd df); assumption. Qed.

(** ** the last word *)
Lemma last_says_quiet p x (l : lagged_t) : (forall k df, In (k, df) l -> says p x df = None) -> last_says p x l = None.
Proof.
  induction l as [|[k df] l IH]; intros h; [reflexivity|]. cbn [last_says]. rewrite IH by (intros k' df' hin; apply (h k'); right; exact hin). apply (h k). left. reflexivity.
Qed.
Lemma last_says_app p x (l1 l2 : lagged_t) : last_says p x (l1 ++ l2) = match last_says p x l2 with Some v => Some v | None => last_says p x l1 end.
Proof. induction l1 as [|[k df] l1 IH]; cbn [app last_says]; [destruct (last_says p x l2); reflexivity|]. rewrite IH. destruct (last_says p x l2); reflexivity. Qed.
Lemma last_says_at p x (l1 l2 : lagged_t) k df v : says p x df = Some v -> (forall k' df', In (k', df') l2 -> says p x df' = None) -> last_says p x (l1 ++ (k, df) :: l2) = Some v.
Proof. intros hx hq. rewrite last_says_app. cbn [last_says]. rewrite (last_says_quiet _ _ _ hq), hx. reflexivity. Qed.
Lemma last_says_sorted p x (l : lagged_t) k df v : msorted l -> lookup k l = Some df -> says p x df = Some v ->
  (forall k' df', lookup k' l = Some df' -> lt k k' -> says p x df' = None) -> last_says p x l = Some v.
Proof.
  intros hs hl hx hq. pose proof (lookup_In _ _ _ hl) as hin. apply in_split in hin as (l1 & l2 & e). rewrite e. apply last_says_at; [exact hx|].
  intros k' df' hin. assert (hin' : In (k', df') l) by (rewrite e; apply in_app_iff; right; right; exact hin). apply (hq k'); [apply In_lookup; [exact hs|exact hin']|].
  rewrite e in hs. clear - hs hin. induction l1 as [|[a c] l1 IH]; cbn [app] in hs; [|apply msorted_cons in hs as [hs _]; exact (IH hs)].
  apply msorted_cons in hs as [_ hf]. rewrite Forall_forall in hf. apply hf. apply in_map_iff. exists (k', df'). auto.
Qed.
Lemma last_says_tail p x (f : shash * btdict -> bool) (l : lagged_t) : msorted l -> (forall a c, In a l -> In c l -> lt (fst a) (fst c) -> f a = true -> f c = true) ->
  forall v, last_says p x (filter f l) = Some v -> last_says p x l = Some v.
Proof.
  induction l as [|[k df] l IH]; intros hs hf v; [auto|]. pose proof hs as hs'. apply msorted_cons in hs as [hs hlt]. cbn [filter]. destruct (f (k, df)) eqn:ef.
  - assert (e : filter f l = l).
    { apply filter_all. intros [k' df'] hin. apply (hf (k, df)); [left; reflexivity|right; exact hin| |exact ef].
      rewrite Forall_forall in hlt. apply hlt. apply in_map_iff. exists (k', df'). auto. }
    rewrite e. auto.
  - intros hx. cbn [last_says]. rewrite (IH hs ltac:(intros a c ha hc; apply hf; right; assumption) v hx). reflexivity.
Qed.
Lemma last_says_some p x (l : lagged_t) v : last_says p x l = Some v -> existsb (fun q => negb (is_nil (snd q))) l = true.
Proof.
  induction l as [|[k df] l IH]; cbn [last_says existsb snd]; [discriminate|]. destruct (last_says p x l) as [w|]; [intros h; rewrite IH by exact h; apply orb_true_r|].
  destruct df; [rewrite says_nil; discriminate|reflexivity].
Qed.

(** ** replaying *)
Definition sound_rp (p : list bytes) (rp : replay_t) : Prop := forall k src df, In (k, (src, df)) rp -> set_shaped p src = true /\ set_shaped_df p df = true /\ backed p df src = true.
Definition rp_says (p : list bytes) (x : scalar) (rp : replay_t) : option bool := last_says p x (map (fun q => (fst q, snd (snd q))) rp).
Lemma replay_elem p x rp : p <> [] -> forall data d, rp_ok rp -> sound_rp p rp -> wf data = true -> run_replay rp data = Some d ->
  has p x d = match rp_says p x rp with Some v => v | None => has p x data end /\ (set_shaped p data = true -> set_shaped p d = true).
Proof.
  intros hp. unfold rp_says. induction rp as [|[k [src df]] rp IH]; intros data d hok hsh hw hr; cbn [run_replay] in hr.
  - injection hr as <-. auto.
  - apply rp_ok_cons in hok as (h1 & h2 & h3). destruct (apply_diff df src data) as [d1|] eqn:e; [|discriminate].
    destruct (hsh k src df (or_introl eq_refl)) as (s1 & s2 & s3).
    destruct (apply_elem p x hp df src data d1 hw h2 s2 s1 s3 e) as (f1 & f2).
    destruct (IH d1 d h3 (fun k' s' d' hin => hsh k' s' d' (or_intror hin)) (apply_diff_wf _ _ _ _ hw h1 e) hr) as (g1 & g2).
    cbn [map fst snd last_says]. split; [|auto]. rewrite g1. destruct (last_says p x _); [reflexivity|exact f1].
Qed.

(** ** merging regular messages *)
Lemma records_regular p x c k df : regular p x c -> records c k df -> set_shaped_df p df = true /\ backed p df (m_data c) = true /\ (fst k <= m_seqno c)%Z.
Proof.
  intros h [[-> ->]|hr]; [pose proof (rg_diff _ _ _ h); unfold m_seqno; intuition lia|]. apply lookup_In in hr. destruct (rg_lag _ _ _ h _ _ hr) as (a1 & a2 & a3). intuition lia.
Qed.
Lemma resolve_regular p x E mx cur m : p <> [] -> curs E cur -> resolve E mx cur = Ok m -> (forall c, In c cur -> regular p x c /\ (m_seqno c <= mx)%Z) ->
  (forall c, In c cur -> remains p (m_data c) (m_data m) = true) -> regular p x m.
Proof.
  intros hp hc hr ho hkp. apply resolve_inv in hr as (top & rest & d & s' & hs & hrun & _ & _ & ->).
  destruct (curs_facts _ _ _ _ hc hs) as (f1 & f2 & f3 & f4 & f5 & f6 & f7 & f8). set (rp := replay_of (top :: rest)) in *.
  assert (hrec : forall k src df, In (k, (src, df)) rp -> exists n, In n cur /\ records n k df /\ src = m_data n).
  { intros k src df hin. apply (In_lookup _ _ _ f1) in hin. apply f7 in hin as (n & df' & hn & hr & e). injection e as -> ->. eauto. }
  assert (hsh : sound_rp p rp).
  { intros k src df hin. destruct (hrec _ _ _ hin) as (n & hn & hr & ->). split; [apply (ho n hn)|]. destruct (records_regular p x _ _ _ (proj1 (ho n hn)) hr) as (a1 & a2 & _). auto. }
  pose proof (run_replay_wf _ _ _ f2 f3 hrun) as hwd. destruct (replay_elem p x rp hp _ _ f2 hsh f3 hrun) as (h1 & h2). specialize (h2 (rg_data _ _ _ (proj1 (ho top f5)))).
  cbn [m_data] in hkp. split; cbn [m_data m_diff m_lagged].
  - apply prune_idem.
  - apply set_shaped_prune; assumption.
  - split; [apply set_shaped_df_nil|apply backed_nil].
  - intros k df hin. apply in_map_iff in hin as ([k' [src df']] & e & hin). injection e as -> ->. destruct (hrec _ _ _ hin) as (n & hn & hr & ->).
    destruct (records_regular p x _ _ _ (proj1 (ho n hn)) hr) as (a1 & a2 & a3). pose proof (proj2 (ho n hn)). split; [unfold m_seqno at 1; cbn; lia|]. split; [exact a1|].
    exact (backed_remains _ _ _ _ a2 (hkp n hn)).
  - rewrite says_nil. intros v hv. rewrite has_prune by assumption. rewrite h1. unfold rp_says. rewrite hv. reflexivity.
Qed.

(** ** messages that all start from the same data and the same history *)
Record from_set (p : list bytes) (db : dict) (L : lagged_t) (N : Z) (c : msg) : Prop := {
  fs_shaped : set_shaped p (m_data c) = true;
  fs_remains : remains p db (m_data c) = true;
  fs_lag : m_lagged c = L;
  fs_seqno : m_seqno c = N;
  fs_diff : diff db (m_data c) = Some (m_diff c)
}.
Lemma set_resolve p x E mx cur m db L N : p <> [] -> curs E cur -> resolve E mx cur = Ok m -> wf db = true -> set_shaped p db = true ->
  (forall c, In c cur -> from_set p db L N c) -> (forall k df, In (k, df) L -> (fst k < N)%Z /\ set_shaped_df p df = true /\ backed p df db = true) ->
  (forall v, last_says p x L = Some v -> has p x db = v) ->
  ((forall c, In c cur -> has p x (m_data c) = has p x db) -> has p x (m_data m) = has p x db) /\
  ((exists c, In c cur /\ has p x (m_data c) <> has p x db) -> has p x (m_data m) = negb (has p x db)).
Proof.
  intros hp hc hr hwb hsb hfb hL hlm. pose proof hc as [hok hnd hself]. apply resolve_inv in hr as (top & rest & d & s' & hs & hrun & _ & _ & ->). cbn [m_data].
  destruct (curs_facts _ _ _ _ hc hs) as (f1 & f2 & f3 & f4 & f5 & f6 & f7 & f8). set (rp := replay_of (top :: rest)) in *.
  assert (hdf : forall c, In c cur -> set_shaped_df p (m_diff c) = true /\ says p x (m_diff c) = moved (has p x db) (has p x (m_data c)) /\ backed p (m_diff c) (m_data c) = true).
  { intros c hin. destruct (hfb c hin) as [g1 g2 g3 g4 g5]. destruct (diff_elem p x db (m_data c) (m_diff c)) as (a1 & a2 & a3); auto. apply (hok c hin). }
  assert (hrec : forall k src df, In (k, (src, df)) rp -> exists n, In n cur /\ src = m_data n /\ ((k = m_sh n /\ df = m_diff n) \/ lookup k L = Some df)).
  { intros k src df hin. apply (In_lookup _ _ _ f1) in hin. apply f7 in hin as (n & df' & hn & hr & e). injection e as -> ->. exists n. split; [exact hn|]. split; [reflexivity|].
    destruct hr as [hr|hr]; [auto|]. right. rewrite (fs_lag _ _ _ _ _ (hfb n hn)) in hr. exact hr. }
  assert (hown : forall c, In c cur -> lookup (m_sh c) rp = Some (m_data c, m_diff c)).
  { intros c hin. apply f8; [exact hin|left; auto|]. intros n df' hn [[e _]|e].
    - assert (n = c). { clear - hnd hn hin e. induction cur as [|a cur IH]; [destruct hn|]. cbn [map] in hnd. inversion hnd as [|y l h1 h2]; subst.
        destruct hn as [->|hn], hin as [->|hin]; auto; exfalso; apply h1; [rewrite <- e|rewrite e]; apply in_map; assumption. }
      subst n. apply leb_nlt, lt_irrefl.
    - exfalso. apply lookup_In in e. apply (hself c n hin hn). apply in_map_iff. exists (m_sh c, df'). auto. }
  assert (hlag : forall k df, lookup k L = Some df -> exists src, lookup k rp = Some (src, df)).
  { intros k df hk. exists (m_data top). apply f8; [exact f5|right; rewrite (fs_lag _ _ _ _ _ (hfb top f5)); exact hk|]. intros n df' hn _. exact (f6 n hn). }
  assert (hsh : sound_rp p rp).
  { intros k src df hin. destruct (hrec _ _ _ hin) as (n & hn & -> & [[_ ->]|hl]); (split; [apply (hfb n hn)|]); [destruct (hdf n hn) as (a1 & _ & a3); auto|].
    apply lookup_In in hl. destruct (hL _ _ hl) as (_ & a2 & a3). split; [exact a2|]. exact (backed_remains _ _ _ _ a3 (fs_remains _ _ _ _ _ (hfb n hn))). }
  pose proof (run_replay_wf _ _ _ f2 f3 hrun) as hwd. destruct (replay_elem p x rp hp _ _ f2 hsh f3 hrun) as (h1 & h2). specialize (h2 (fs_shaped _ _ _ _ _ (hfb top f5))).
  rewrite has_prune by assumption. rewrite h1. clear h1 h2.
  (* the history as a sorted list *)
  set (H := map (fun q : shash * (dict * btdict) => (fst q, snd (snd q))) rp).
  assert (hHs : msorted H). { unfold H. clear - f1. induction rp as [|[k [s df]] rp IH]; [constructor|]. apply msorted_cons in f1 as [f1 hf]. cbn [map fst snd]. apply msorted_cons. split; [exact (IH f1)|].
    rewrite Forall_forall in *. intros y hy. apply hf. apply in_map_iff in hy as ([k1 d1] & <- & hy). apply in_map_iff in hy as ([k2 [s2 d2]] & e & hy). injection e as <- <-. apply in_map_iff. exists (k2, (s2, d2)). auto. }
  assert (hHl : forall k df, lookup k H = Some df <-> exists src, lookup k rp = Some (src, df)).
  { intros k df. split.
    - intros e. apply lookup_In in e. unfold H in e. apply in_map_iff in e as ([k2 [s2 d2]] & e & hin). injection e as <- <-. exists s2. apply In_lookup; assumption.
    - intros (src & e). apply lookup_In in e. apply In_lookup; [exact hHs|]. unfold H. apply in_map_iff. exists (k, (src, df)). auto. }
  change (rp_says p x rp) with (last_says p x H).
  assert (hchg : forall c, In c cur -> has p x (m_data c) <> has p x db -> last_says p x H = Some (negb (has p x db))).
  { intros c hin hne.
    (* the last own change set that mentions the element *)
    assert (hmax : exists c', In c' cur /\ has p x (m_data c') <> has p x db /\ forall n, In n cur -> has p x (m_data n) <> has p x db -> lt (m_sh c') (m_sh n) -> False).
    { clear - hin hne. revert c hin hne. induction cur as [|a cur IH]; intros c hin hne; [destruct hin|].
      assert (hdec : (exists c, In c cur /\ has p x (m_data c) <> has p x db) \/ forall n, In n cur -> has p x (m_data n) = has p x db).
      { clear. induction cur as [|a cur IH]; [right; intros n []|]. destruct IH as [(c & h1 & h2)|h]; [left; exists c; split; [right; exact h1|exact h2]|].
        destruct (Bool.bool_dec (has p x (m_data a)) (has p x db)) as [e|e]; [right; intros n [<-|hn]; auto|left; exists a; split; [left; reflexivity|exact e]]. }
      destruct hdec as [(c1 & q1 & q2)|hno].
      - destruct (IH c1 q1 q2) as (c2 & r1 & r2 & r3). destruct (Bool.bool_dec (has p x (m_data a)) (has p x db)) as [e|e].
        + exists c2. split; [right; exact r1|]. split; [exact r2|]. intros n [<-|hn]; [congruence|apply r3; exact hn].
        + destruct (cmp (m_sh c2) (m_sh a)) eqn:ec.
          * exists c2. split; [right; exact r1|]. split; [exact r2|]. intros n [<-|hn]; [|apply r3; exact hn]. intros _ hl. unfold lt in hl. congruence.
          * exists a. split; [left; reflexivity|]. split; [exact e|]. intros n [<-|hn]; [intros _; apply lt_irrefl|]. intros hn1 hn2. apply (r3 n hn hn1). eapply lt_trans; [exact ec|exact hn2].
          * exists c2. split; [right; exact r1|]. split; [exact r2|]. intros n [<-|hn]; [|apply r3; exact hn]. intros _ hl. unfold lt in hl. congruence.
      - destruct hin as [<-|hin]; [|exfalso; exact (hne (hno c hin))]. exists a. split; [left; reflexivity|]. split; [exact hne|]. intros n [<-|hn]; [intros _; apply lt_irrefl|]. intros hn1. exfalso. exact (hn1 (hno n hn)). }
    destruct hmax as (c' & hin' & hne' & hmx). destruct (hdf c' hin') as (_ & hsay & _).
    assert (hv : says p x (m_diff c') = Some (negb (has p x db))).
    { rewrite hsay. unfold moved. destruct (has p x db), (has p x (m_data c')); cbn; congruence. }
    apply (last_says_sorted p x H (m_sh c') (m_diff c')); [exact hHs|apply hHl; eexists; apply hown, hin'|exact hv|].
    intros k' df' hk' hlt. apply hHl in hk' as (src & hk'). apply lookup_In in hk'. destruct (hrec _ _ _ hk') as (n & hn & -> & [[-> ->]|hl]).
    - destruct (hdf n hn) as (_ & -> & _). apply moved_None. destruct (Bool.bool_dec (has p x (m_data n)) (has p x db)) as [e|e]; [congruence|]. exfalso. exact (hmx n hn e hlt).
    - exfalso. apply lookup_In in hl. pose proof (proj1 (hL _ _ hl)) as hlN. rewrite <- (fs_seqno _ _ _ _ _ (hfb c' hin')) in hlN.
      apply (lt_irrefl (m_sh c')). eapply lt_trans; [exact hlt|]. apply lt_seqno. exact hlN. }
  split; [|intros (c & h1 & h2); rewrite (hchg c h1 h2); reflexivity].
  intros hno.
  assert (hquiet : forall c, In c cur -> says p x (m_diff c) = None) by (intros c hin; destruct (hdf c hin) as (_ & -> & _); apply moved_None; symmetry; auto).
  destruct (last_says p x H) as [v|] eqn:ev; [|apply hno, f5]. symmetry. apply hlm.
  (* the last word is in L *)
  assert (hLs : msorted L) by (rewrite <- (fs_lag _ _ _ _ _ (hfb top f5)); apply (hok top f5)).
  assert (hspl : exists l1 k df l2, H = l1 ++ (k, df) :: l2 /\ says p x df = Some v /\ forall k' df', In (k', df') l2 -> says p x df' = None).
  { clear - ev. revert ev. generalize H. intros l. induction l as [|[k df] l IH]; cbn [last_says]; [discriminate|]. destruct (last_says p x l) as [w|] eqn:el.
    - intros h. destruct (IH h) as (l1 & k' & df' & l2 & -> & q1 & q2). exists ((k, df) :: l1), k', df', l2. auto.
    - intros h. exists [], k, df, l. split; [reflexivity|]. split; [exact h|]. clear - el. induction l as [|[k2 d2] l IH]; [intros k' df' []|]. cbn [last_says] in el. destruct (last_says p x l); [discriminate|].
      intros k' df' [h|h]; [injection h as <- <-; exact el|apply (IH eq_refl k' df' h)]. }
  destruct hspl as (l1 & k & df & l2 & eH & hx & hq).
  assert (hk : lookup k H = Some df) by (apply In_lookup; [exact hHs|rewrite eH; apply in_app_iff; right; left; reflexivity]).
  pose proof hk as hk'. apply hHl in hk' as (src & hk'). apply lookup_In in hk'. destruct (hrec _ _ _ hk') as (n & hn & -> & [[-> ->]|hl]); [rewrite (hquiet n hn) in hx; discriminate|].
  apply (last_says_sorted p x L k df v hLs hl hx). intros k2 df2 hk2 hlt. destruct (hlag _ _ hk2) as (src2 & hk3). assert (hin2 : lookup k2 H = Some df2) by (apply hHl; eauto). apply lookup_In in hin2.
  apply (hq k2). rewrite eH in hin2, hHs. clear - hin2 hHs hlt. induction l1 as [|[a1 a2] l1 IH]; cbn [app] in *; apply msorted_cons in hHs as [hHs hf]; rewrite Forall_forall in hf.
  - destruct hin2 as [h|h]; [injection h as -> ->; exfalso; exact (lt_irrefl _ hlt)|exact h].
  - destruct hin2 as [h|h]; [|exact (IH hHs h)]. injection h as -> ->. exfalso. apply (lt_irrefl k). eapply lt_trans; [exact hlt|]. apply hf. apply in_map_iff. exists (k, df). split; [reflexivity|]. apply in_app_iff. right. left. reflexivity.
Qed.
