(** Proofs of C31, C32, C33. *)
From Verif Require Import BaseSpec Data_facts Diff_facts Parse_facts Message_facts Reach_facts Merge_facts Adopt_facts Base_facts Dump_facts Life_facts Life2_facts Life3_facts Life4_facts Fields_facts Conf_facts.

(** ** outside of the dirty state there are no empty containers *)
Definition inv2 (st : bstate) : Prop := s_state st <> Dirty -> pruned (s_data st) = true.
Lemma inv2_plain B st m : inv1 B st -> s_conf st = Plain m -> inv2 st.
Proof. intros hi e _. pose proof (i1_cfg _ _ hi) as h. unfold s_data, s_msg. rewrite e in *. apply h. Qed.
Lemma inv2_refresh B st sg s c : inv1 B st -> serialize (b_env B) (s_conf st) sg = Ok (s, c) -> pruned (m_data (c_msg c)) = true.
Proof. intros hi h. destruct (serialize_ok _ _ _ _ _ (i1_cfg _ _ hi) h) as (_ & _ & hr & _). apply (refresh_ok _ _ _ (i1_cfg _ _ hi) hr). Qed.
Lemma inv2_merge B l st x st' : benv_ok B -> inv1 B st -> inv2 st -> op_ok B (OpMerge l) st -> merge B l st = (x, st') -> inv2 st'.
Proof.
  intros hB hi h2 hok h. destruct (merge_move _ _ _ _ _ hB hi hok h) as [hi' _].
  unfold merge in h. apply merge_plain_spec in h as [(_ & ->)|(mine & st1 & ho & e)]; [exact h2|].
  assert (hs1 : inv2 st1).
  { apply own_part_spec in ho as [(_ & e1)|(_ & s & c' & hs & e1)]; injection e1 as _ ->; [exact h2|]. intros _. exact (inv2_refresh _ _ _ _ _ hi hs). }
  destruct e as [(_ & ->)|(inc & new & bad & hk & hinc & hmc & y' & e & _)]; [exact hs1|].
  apply adopt_spec in e as [(_ & _ & ->)|[(_ & hu & e)|(hne & j & hj & [(_ & _ & _ & _ & ->)|(_ & st2 & e2 & _ & ->)])]].
  - exact hs1.
  - apply set_state_spec in e as [(_ & -> & _ & hro)|(_ & _ & e & _)].
    + exfalso. destruct (i0_ro _ _ (i1_0 _ _ hi) hro) as [hc _].
      assert (hd : is_dirty st = false) by (unfold is_dirty; rewrite hc; reflexivity). rewrite hd in hmc.
      destruct (merge_confs_ro _ _ _ _ _ hro eq_refl hmc) as (m & i & -> & hu'). cbn in hu. congruence.
    + intros g. congruence.
  - exact hs1.
  - apply set_state_spec in e2 as [(e2 & _)|(_ & e1 & _)]; [discriminate|]. cbn [set_conf s_conf] in e1. intros _.
    pose proof (i1_cfg _ _ hi') as hc. unfold s_data, s_msg in *. cbn [s_conf] in *. rewrite e1 in *. destruct new as [m|m o]; [apply hc|].
    unfold merge_confs in hmc. destruct (is_dirty st); [|ok_inv hmc; discriminate]. unfold merge_mutable in hmc. ok_inv hmc. destruct a as [m0 bad0].
    destruct (m_unmerged m0) eqn:eu; [|injection hmc as <- <- <-; cbn in hj; congruence]. ok_inv hmc. injection hmc as -> <-.
    unfold increment_impl in ha0. destruct (_ || _); [discriminate|]. injection ha0 as <- <-. cbn [c_msg m_data]. apply hc.
Qed.
Lemma inv2_dirty B st x st' : benv_ok B -> inv1 B st -> inv2 st -> dirty B st = (x, st') -> inv2 st'.
Proof.
  intros hB hi h2 h. apply dirty_spec in h as [(_ & -> & _)|[(_ & _ & _ & ->)|(_ & _ & st2 & g & g2)]]; [exact h2|exact h2|].
  apply set_state_spec in g as [(g & _)|(_ & _ & g & _)]; [discriminate|]. destruct g2 as [(c & _ & _ & ->)|(_ & _ & ->)]; intros hd; cbn in hd; congruence.
Qed.
Lemma inv2_edit B f st x st' : benv_ok B -> inv1 B st -> inv2 st -> edit B f st = (x, st') -> inv2 st'.
Proof.
  intros hB hi h2 h. apply edit_spec in h as [(_ & h)|(st1 & m & o & h & _ & _ & ->)]; [eapply inv2_dirty; eauto|].
  apply dirty_ok in h as (? & ? & _ & h & _). intros hd. cbn in hd. congruence.
Qed.
Lemma inv2_step B st o st' : benv_ok B -> inv1 B st -> inv2 st -> step B (tame B) st o st' -> inv2 st'.
Proof.
  intros hB hi h2 hs. destruct hs as [o x st' h hret [hok _]].
  assert (hke : is_key_op o = true -> inv2 st').
  { intros ho. destruct (key_op_spec _ _ _ _ _ ho h) as [->|(ks & [->|(y & g)])]; [exact h2|exact h2|]. eapply (inv2_dirty B (set_keys ks st)); [exact hB|apply inv1_keys, hi|exact h2|exact g]. }
  destruct o; cbn [is_key_op] in hke; auto;
    try (apply edit_op_spec in h; [|reflexivity]; destruct h as [(_ & ->)|(f & g)]; [exact h2|eapply inv2_edit; eauto]).
  - apply ignore_returned in h. destruct (push B st) as [y st2] eqn:e. cbn [snd] in h. subst st2.
    apply push_spec in e as [(_ & [->|(s & c & g & ->)])|(k & s & conf & c & st2 & _ & g & _ & _ & g2 & _ & ->)]; [exact h2|intros _; exact (inv2_refresh _ _ _ _ _ hi g)|].
    intros _. destruct g2 as [(_ & g2)|(_ & ->)]; [|exact (inv2_refresh _ _ _ _ _ hi g)].
    apply set_state_spec in g2 as [(g2 & _)|(_ & e1 & _)]; [discriminate|]. unfold s_data, s_msg. cbn in *. rewrite e1. exact (inv2_refresh _ _ _ _ _ hi g).
  - apply confirm_spec in h as [_ [(_ & ->)|(a1 & a2 & ->)]]; [exact h2|]. intros _. unfold s_data, s_msg in *. cbn. apply h2. congruence.
  - apply ignore_returned in h. destruct (merge B l st) as [y st2] eqn:e. cbn [snd] in h. subst st2. eapply inv2_merge; eauto.
  - apply ignore_returned in h. destruct (dump B st) as [y st2] eqn:e. cbn [snd] in h. subst st2.
    apply dump_spec in e. cbv zeta in e. destruct e as [(s & c & g & _ & ->)|(_ & ->)]; [intros _; exact (inv2_refresh _ _ _ _ _ hi g)|].
    destruct (readonly B); exact h2.
Qed.
Lemma life_inv2 B st : benv_ok B -> life B tame st -> inv2 st.
Proof.
  intros hB h. induction h as [B ks|B st o st' hl IH h|B st d st1 ks st' hl IH h1 h2 h3|B A g st _ IH hro e];
    [|specialize (IH hB)..|exact (IH (benv_ok_promote _ _ _ e hro hB))].
  - intros _. reflexivity.
  - eapply inv2_step; eauto. apply life_inv1; auto.
  - destruct (restore_move _ _ _ _ _ _ hB (life_inv1 _ _ hB hl) h1 h2 h3) as (_ & _ & _ & _ & hdat & _). unfold inv2. rewrite hdat. clear hdat.
    apply dump_spec in h1 as [(s & c & g & _ & ->)|(h1 & _)]; [|exfalso; apply (h1 d); reflexivity].
    intros _. exact (inv2_refresh _ _ _ _ _ (life_inv1 _ _ hB hl) g).
Qed.

(** ** C33: what an edit does to the data *)
Lemma edit_data B o st st' : benv_ok B -> life B tame st -> is_edit o = true -> op_ok B o st -> run B o st = (Ok tt, st') ->
  s_data st' = edited o (s_data st).
Proof.
  intros hB hl ho hok h. pose proof (life_inv1 _ _ hB hl) as hi. pose proof (life_inv2 _ _ hB hl) as h2.
  destruct (edit_cases B o st ho (life_wf _ _ hB hl)) as [(h1 & _ & he)|(f & h1 & hf)]; rewrite h1 in h.
  - injection h as <-. congruence.
  - apply edit_spec in h as [(h & _)|(st1 & m & o1 & h & hc & _ & ->)]; [congruence|]. unfold s_data at 1, s_msg. cbn. rewrite hf. f_equal.
    destruct (inv1_dirty _ _ _ _ hB hi h ltac:(split; discriminate)) as [_ [->|(hnd & _ & _ & _ & hd)]]; unfold s_data, s_msg in *; rewrite hc in *; cbn in *; [reflexivity|].
    rewrite hd. apply prune_id. apply h2. exact hnd.
Qed.
Lemma empty_container_pruned v : empty_container v = true -> v = VSet [] \/ v = VDict [].
Proof. destruct v as [|[|]|[|]]; try discriminate; auto. Qed.
(** reading the edited field *)
Definition new_value (o : op) (old : option value) : option value :=
  match o with
  | OpAssign _ _ v => if empty_container v then None else Some v
  | OpErase _ _ => None
  | OpSetInsert _ _ x => Some (VSet (sadd x (as_set old)))
  | OpSetErase _ _ x => match old with Some (VSet l) => Some (VSet (sdel x l)) | Some _ => Some (VSet []) | None => None end
  | _ => old
  end.
Lemma split_path o : is_edit o = true -> exists i l, edit_path o = i ++ [l] /\ forall d, get_path (edit_path o) d = field i l d.
Proof. destruct o; try discriminate; intros _; exists inter, last; split; reflexivity. Qed.
Lemma edited_read o d : is_edit o = true -> wf d = true -> get_path (edit_path o) (edited o d) = new_value o (get_path (edit_path o) d).
Proof.
  intros ho hw. destruct o; try discriminate; cbn [edit_path edited new_value]; change (get_path (inter ++ [last])) with (field inter last).
  - destruct (empty_container v).
    + unfold erase_field. rewrite mod_field_get by exact hw. destruct (field inter last d); reflexivity.
    + unfold set_field. rewrite upd_field_get by exact hw. reflexivity.
  - unfold erase_field. rewrite mod_field_get by exact hw. destruct (field inter last d); reflexivity.
  - unfold insert_elem. rewrite upd_field_get by exact hw. reflexivity.
  - unfold erase_elem. rewrite mod_field_get by exact hw. destruct (field inter last d) as [[| |]|]; reflexivity.
Qed.
Lemma edited_other o d p : is_edit o = true -> wf d = true -> apart p (edit_path o) = true -> get_path p (edited o d) = get_path p d.
Proof.
  intros ho hw hp. destruct o; try discriminate; cbn [edit_path edited] in *.
  - destruct (empty_container v); [apply mod_field_other|apply upd_field_other]; assumption.
  - apply mod_field_other; assumption.
  - apply upd_field_other; assumption.
  - apply mod_field_other; assumption.
Qed.

(** ** C31 *)
Lemma without_In k l x : In x (without k l) <-> In x l /\ x <> k.
Proof. unfold without. rewrite filter_In, negb_true_iff. split; intros [h1 h2]; (split; [exact h1|]). - intros ->. rewrite eqb_refl in h2. discriminate. - destruct (eqb k x) eqn:e; [apply eqb_eq in e; congruence|reflexivity]. Qed.
Lemma without_id k l : ~ In k l -> without k l = l.
Proof.
  unfold without. induction l as [|x l IH]; intros h; [reflexivity|]. cbn [filter]. destruct (eqb k x) eqn:e; [apply eqb_eq in e; exfalso; apply h; left; congruence|].
  cbn [negb]. f_equal. apply IH. intros g. apply h. right. exact g.
Qed.
Lemma NoDup_without k l : NoDup l -> NoDup (without k l).
Proof. apply NoDup_filter. Qed.
Lemma nub_In l x : In x (nub l) <-> In x l.
Proof.
  induction l as [|k l IH]; [reflexivity|]. cbn [nub In]. rewrite without_In, IH. split; [tauto|]. intros [h|h]; [auto|].
  destruct (eqb k x) eqn:e; [apply eqb_eq in e; auto|]. right. split; [exact h|]. intros ->. rewrite eqb_refl in e. discriminate.
Qed.
Lemma nub_NoDup l : NoDup (nub l).
Proof. induction l as [|k l IH]; [constructor|]. cbn [nub]. constructor; [|apply NoDup_without, IH]. rewrite without_In. tauto. Qed.
Lemma without_app k l l' : without k (l ++ l') = without k l ++ without k l'.
Proof. apply filter_app. Qed.
Lemma nub_snoc l k : nub (l ++ [k]) = if mem k l then nub l else nub l ++ [k].
Proof.
  induction l as [|x l IH]; [reflexivity|]. cbn [nub app]. rewrite IH. cbn [mem existsb].
  change (existsb (eqb k) l) with (mem k l). destruct (eqb k x) eqn:e; cbn [orb].
  - apply eqb_eq in e. subst x. destruct (mem k l); [reflexivity|]. rewrite without_app. cbn [without filter]. rewrite eqb_refl. cbn. rewrite app_nil_r. reflexivity.
  - destruct (mem k l); [reflexivity|]. rewrite without_app. cbn [without filter].
    destruct (eqb x k) eqn:e2; [apply eqb_eq in e2; subst; rewrite eqb_refl in e; discriminate|]. reflexivity.
Qed.
Lemma add_key_keys B k h d st x st' : add_key B k h d st = (x, st') -> length k = 32 -> NoDup (s_keys st) ->
  s_keys st' = keys_after (OpAddKey k h d) (s_keys st).
Proof.
  intros e hk hn. unfold add_key in e. rewrite hk in e. cbn [Nat.eqb negb] in e.
  assert (hd : forall st1 y st2, dirty B st1 = (y, st2) -> s_keys st2 = s_keys st1).
  { intros st1 y st2 g. apply dirty_spec in g as [(_ & -> & _)|[(_ & _ & _ & ->)|(_ & _ & st3 & g & g2)]]; [reflexivity|reflexivity|].
    apply set_state_spec in g as [(g & _)|(_ & _ & _ & g & _)]; [discriminate|]. destruct g2 as [(c & _ & _ & ->)|(_ & _ & ->)]; cbn; exact g. }
  cbn [keys_after]. destruct (s_keys st) as [|f r] eqn:ek.
  - cbn [mem existsb] in e. rewrite andb_false_r in e.
    match type of e with (if ?q then _ else _) = _ => destruct q end; [apply hd in e|injection e as _ <-]; cbn in *; destruct h; rewrite ?e; reflexivity.
  - destruct (eqb f k) eqn:ef.
    + apply eqb_eq in ef. subst f. injection e as _ <-. rewrite ek. inversion hn; subst. destruct h.
      * cbn [without filter]. rewrite eqb_refl. cbn [negb]. change (filter _ r) with (without k r). rewrite without_id by assumption. reflexivity.
      * cbn [mem existsb]. rewrite eqb_refl. reflexivity.
    + assert (ekf : eqb k f = false) by (destruct (eqb k f) eqn:g; [apply eqb_eq in g; subst; rewrite eqb_refl in ef; discriminate|reflexivity]).
      destruct h; cbn [negb andb] in e.
      * cbn [without filter]. rewrite ekf. cbn [negb].
        match type of e with (if ?q then _ else _) = _ => destruct q end; [apply hd in e|injection e as _ <-]; cbn in *; rewrite ?e; reflexivity.
      * destruct (mem k (f :: r)) eqn:em; [injection e as _ <-; exact ek|].
        match type of e with (if ?q then _ else _) = _ => destruct q end; [apply hd in e|injection e as _ <-]; cbn in *; rewrite ?e; reflexivity.
Qed.
Lemma dirty_keys B st y st' : dirty B st = (y, st') -> s_keys st' = s_keys st.
Proof.
  intros g. apply dirty_spec in g as [(_ & -> & _)|[(_ & _ & _ & ->)|(_ & _ & st3 & g & g2)]]; [reflexivity|reflexivity|].
  apply set_state_spec in g as [(g & _)|(_ & _ & _ & g & _)]; [discriminate|]. destruct g2 as [(c & _ & _ & ->)|(_ & _ & ->)]; cbn; exact g.
Qed.
Lemma fold_keys B : forall (new : list bytes) st (l : list bytes), (forall k : bytes, In k new -> length k = 32) -> s_keys st = nub l ->
  s_keys (fold_left (fun st k => snd (add_key B k false false st)) new st) = nub (l ++ new).
Proof.
  induction new as [|k new IH]; intros st l hk hl; cbn [fold_left]; [rewrite app_nil_r; exact hl|].
  rewrite (IH _ (l ++ [k])).
  - rewrite <- app_assoc. reflexivity.
  - intros k' h. apply hk. right. exact h.
  - destruct (add_key B k false false st) as [x st'] eqn:e. cbn [snd]. rewrite (add_key_keys _ _ _ _ _ _ _ e).
    + cbn [keys_after]. rewrite hl, nub_snoc.
      assert (hm : mem k (nub l) = mem k l).
      { destruct (mem k l) eqn:em; [apply mem_In, nub_In, mem_In; exact em|]. apply mem_In_false in em. apply mem_In_false. rewrite nub_In. exact em. }
      rewrite hm. reflexivity.
    + apply hk. left. reflexivity.
    + rewrite hl. apply nub_NoDup.
Qed.
(** every call leaves the documented key list *)
Lemma key_op_keys B o st x st' : key_op o = true -> keys_arg_ok o -> NoDup (s_keys st) -> run B o st = (x, st') -> s_keys st' = keys_after o (s_keys st).
Proof.
  intros ho hk hn h. destruct o; try discriminate; cbn [run keys_arg_ok] in *.
  - eapply add_key_keys; eassumption.
  - apply ignore_returned in h. cbn [keys_after]. unfold remove_key in h. destruct (Nat.leb (length (s_keys st)) from) eqn:el.
    + apply Nat.leb_le in el. cbn in h. subst st'. rewrite firstn_all2, skipn_all2 by lia. cbn. rewrite app_nil_r. reflexivity.
    + rewrite hk in h. cbn [Nat.ltb Nat.leb] in h. cbv zeta in h. rewrite firstn_all2 in h by lia. fold (without k (skipn from (s_keys st))) in h.
      match type of h with context [if ?q then _ else _] => destruct q end; [|subst st'; reflexivity].
      destruct (dirty B _) as [y st2] eqn:e. apply dirty_keys in e. destruct y; subst st'; cbn; rewrite e; reflexivity.
  - apply ignore_returned in h. cbn [keys_after]. unfold clear_keys in h. cbv zeta in h.
    match type of h with context [if ?q then _ else _] => destruct q end; [|subst st'; reflexivity].
    destruct (dirty B _) as [y st2] eqn:e. apply dirty_keys in e. destruct y; subst st'; cbn; rewrite e; reflexivity.
  - cbn [keys_after]. unfold replace_keys in h. destruct ks as [|f r].
    + destruct (s_keys st) as [|k0 r0] eqn:ek; [injection h as _ <-; rewrite ek; reflexivity|].
      unfold clear_keys in h. cbv zeta in h. rewrite ek in h.
      match type of h with context [if ?q then _ else _] => destruct q end; [|injection h as _ <-; reflexivity].
      destruct (dirty B _) as [y st2] eqn:e. apply dirty_keys in e. destruct y; injection h as _ <-; rewrite e; reflexivity.
    + assert (hall : forallb (fun k => Nat.eqb (length k) 32) (f :: r) = true) by (apply forallb_forall; intros k hin; apply Nat.eqb_eq, hk, hin).
      rewrite hall in h. cbn [negb] in h. cbv zeta in h.
      pose proof (fold_keys B (f :: r) (set_keys [] st) [] hk eq_refl) as hf. cbn [app] in hf.
      match type of h with (if ?q then _ else _) = _ => destruct q end; [apply dirty_keys in h; rewrite h; exact hf|injection h as _ <-; exact hf].
Qed.
Lemma NoDup_snoc (k : bytes) l : NoDup l -> ~ In k l -> NoDup (l ++ [k]).
Proof.
  induction l as [|x l IH]; intros h1 h2; [repeat constructor; tauto|]. inversion h1; subst. cbn [app]. constructor.
  - rewrite in_app_iff. cbn [In]. intros [h|[h|[]]]; [tauto|]. subst. apply h2. left. reflexivity.
  - apply IH; [assumption|]. intros h. apply h2. right. exact h.
Qed.
Lemma NoDup_app_without (k : bytes) l l' : NoDup (l ++ l') -> NoDup (l ++ without k l').
Proof.
  induction l as [|x l IH]; intros h; [apply NoDup_without, h|]. cbn [app] in *. inversion h; subst. constructor; [|apply IH; assumption].
  rewrite in_app_iff, without_In in *. tauto.
Qed.
Lemma keys_after_NoDup o ks : NoDup ks -> NoDup (keys_after o ks).
Proof.
  intros hn. destruct o; cbn [keys_after]; try exact hn; [| |constructor|apply nub_NoDup].
  - destruct high_priority.
    + constructor; [rewrite without_In; tauto|apply NoDup_without, hn].
    + destruct (mem k ks) eqn:em; [exact hn|]. apply mem_In_false in em. apply NoDup_snoc; assumption.
  - apply NoDup_app_without. rewrite firstn_skipn. exact hn.
Qed.
Lemma other_op_keys B o st x st' : key_op o = false -> run B o st = (x, st') -> s_keys st' = s_keys st.
Proof.
  intros ho h.
  assert (hed : forall f y st2, edit B f st = (y, st2) -> s_keys st2 = s_keys st).
  { intros f y st2 g. apply edit_spec in g as [(_ & g)|(st1 & m & o1 & g & _ & _ & ->)]; [eapply dirty_keys; eauto|]. cbn. eapply dirty_keys; eauto. }
  assert (hss : forall s st0 y st2, set_state B s st0 = (y, st2) -> s_keys st2 = s_keys st0).
  { intros s st0 y st2 g. apply set_state_spec in g as [(_ & -> & _)|(_ & _ & _ & g & _)]; [reflexivity|exact g]. }
  destruct o; try discriminate ho;
    try (apply edit_op_spec in h; [|reflexivity]; destruct h as [(_ & ->)|(f & g)]; [reflexivity|exact (hed _ _ _ g)]).
  - apply ignore_returned in h. destruct (push B st) as [y st2] eqn:e. cbn [snd] in h. subst st2.
    apply push_spec in e as [(_ & [->|(s & c & g & ->)])|(k & s & conf & c & st2 & _ & g & _ & _ & g2 & _ & ->)]; [reflexivity|reflexivity|].
    destruct g2 as [(_ & g2)|(_ & ->)]; [|reflexivity]. apply hss in g2. exact g2.
  - apply confirm_spec in h as [_ [(_ & ->)|(a1 & a2 & ->)]]; reflexivity.
  - apply ignore_returned in h. destruct (merge B l st) as [y st2] eqn:e. cbn [snd] in h. subst st2.
    unfold merge in e. apply merge_plain_spec in e as [(_ & ->)|(mine & st1 & ho' & e)]; [reflexivity|].
    assert (hs1 : s_keys st1 = s_keys st).
    { apply own_part_spec in ho' as [(_ & e1)|(_ & s & c' & hs & e1)]; injection e1 as _ ->; reflexivity. }
    destruct e as [(_ & ->)|(inc & new & bad & hk & hinc & hmc & y' & e & _)]; [exact hs1|].
    apply adopt_spec in e as [(_ & _ & ->)|[(_ & hu & e)|(hne & j & hj & [(_ & _ & _ & _ & ->)|(_ & st2 & e2 & _ & ->)])]]; try exact hs1.
    + apply hss in e. cbn in e. congruence.
    + apply hss in e2. cbn in *. congruence.
  - apply ignore_returned in h. destruct (dump B st) as [y st2] eqn:e. cbn [snd] in h. subst st2.
    apply dump_spec in e. cbv zeta in e. destruct e as [(s & c & g & _ & ->)|(_ & ->)]; [reflexivity|]. destruct (readonly B); reflexivity.
Qed.
Lemma keys_NoDup B o st x st' : run B o st = (x, st') -> NoDup (s_keys st) -> NoDup (s_keys st').
Proof.
  intros h hn. destruct (key_op o) eqn:ho; [|rewrite (other_op_keys _ _ _ _ _ ho h); exact hn].
  assert (hgo : keys_arg_ok o -> NoDup (s_keys st')) by (intros hk; rewrite (key_op_keys _ _ _ _ _ ho hk hn h); apply keys_after_NoDup, hn).
  destruct o; try discriminate ho; cbn [run keys_arg_ok] in *; auto.
  - unfold add_key in h. destruct (Nat.eqb (length k) 32) eqn:el; [apply hgo, Nat.eqb_eq, el|]. cbn [negb] in h. injection h as _ <-. exact hn.
  - destruct (Nat.ltb (length k) 32) eqn:el.
    + apply ignore_returned in h. unfold remove_key in h. rewrite el in h. destruct (Nat.leb _ _); cbn in h; subst; exact hn.
    + apply Nat.ltb_ge in el. assert (hk32 : length (firstn 32 k) = 32) by (rewrite firstn_length; lia).
      assert (e : remove_key B k from dirty_config st = remove_key B (firstn 32 k) from dirty_config st).
      { unfold remove_key. rewrite hk32. assert (e2 : Nat.ltb (length k) 32 = false) by (apply Nat.ltb_ge; lia). change (Nat.ltb 32 32) with false.
        rewrite e2. rewrite firstn_firstn. reflexivity. }
      rewrite e in h. rewrite (key_op_keys B (OpRemoveKey (firstn 32 k) from dirty_config) st x st' eq_refl hk32 hn h). apply keys_after_NoDup, hn.
  - unfold replace_keys in h. destruct ks as [|f r]; [apply hgo; intros k []|].
    destruct (forallb (fun k => Nat.eqb (length k) 32) (f :: r)) eqn:ef; [|injection h as _ <-; exact hn].
    apply hgo. intros k hin. rewrite forallb_forall in ef. apply Nat.eqb_eq. exact (ef k hin).
Qed.
(** the first key changed *)
Definition head_changes (o : op) (ks : list bytes) : bool :=
  match ks, keys_after o ks with [], [] => false | k :: _, k' :: _ => negb (eqb k k') | _, _ => true end.
Lemma dirty_ok_state B st st' : dirty B st = (Ok tt, st') -> s_state st' = Dirty.
Proof. intros h. apply dirty_ok in h as (? & ? & _ & h & _). exact h. Qed.
Lemma nub_head f r : exists r', nub (f :: r) = f :: r'.
Proof. eexists. reflexivity. Qed.
Lemma eqb_sym' (x y : bytes) : eqb x y = eqb y x.
Proof. destruct (eqb x y) eqn:e1, (eqb y x) eqn:e2; auto; [apply eqb_eq in e1|apply eqb_eq in e2]; subst; rewrite eqb_refl in *; discriminate. Qed.
Lemma fold_add_keys_core B l : forall st, let st' := fold_left (fun st k => snd (add_key B k false false st)) l st in s_conf st' = s_conf st /\ s_state st' = s_state st.
Proof. intros st. cbv zeta. destruct (fold_add_keys B l st) as [ks ->]. auto. Qed.
Lemma key_op_dirties B o st st' : key_op o = true -> keys_arg_ok o -> NoDup (s_keys st) -> match o with OpRemoveKey _ from _ => from = 0 | _ => True end ->
  run B o st = (Ok tt, st') ->
  if wants_dirty o && negb (readonly B) && head_changes o (s_keys st) then s_state st' = Dirty else s_conf st' = s_conf st /\ s_state st' = s_state st.
Proof.
  intros ho hk hn hf h. destruct o; try discriminate ho; cbn [run keys_arg_ok wants_dirty] in *; unfold head_changes; cbn [keys_after].
  - unfold add_key in h. rewrite hk in h. cbn [Nat.eqb negb] in h. destruct (s_keys st) as [|f r] eqn:ek.
    + cbn [mem existsb] in h. rewrite andb_false_r in h. assert (e1 : (if high_priority then [k] else [] ++ [k]) = [k]) by (destruct high_priority; reflexivity).
      rewrite e1 in h. cbn [length Nat.eqb orb] in h. rewrite andb_true_r in h.
      assert (e2 : match (if high_priority then k :: without k [] else if mem k [] then [] else [] ++ [k]) with [] => false | _ :: _ => true end = true) by (destruct high_priority; reflexivity).
      rewrite e2, andb_true_r. destruct (dirty_config && negb (readonly B)); [eapply dirty_ok_state; eauto|injection h as <-; auto].
    + destruct (eqb f k) eqn:ef.
      * injection h as <-. apply eqb_eq in ef. subst f. destruct high_priority.
        -- rewrite eqb_refl. cbn [negb]. rewrite andb_false_r. auto.
        -- cbn [mem existsb]. rewrite eqb_refl. cbn [orb]. rewrite eqb_refl. cbn [negb]. rewrite andb_false_r. auto.
      * destruct high_priority; cbn [negb andb] in h.
        -- rewrite ef. cbn [negb]. rewrite andb_true_r. rewrite orb_true_r, andb_true_r in h. destruct (dirty_config && negb (readonly B)); [eapply dirty_ok_state; eauto|injection h as <-; auto].
        -- destruct (mem k (f :: r)) eqn:em; [injection h as <-; rewrite eqb_refl; cbn [negb]; rewrite andb_false_r; auto|].
           cbn [app length] in h. rewrite app_length in h. cbn [length] in h. cbn [app]. rewrite eqb_refl. cbn [negb]. rewrite andb_false_r.
           assert (e3 : Nat.eqb (S (length r + 1)) 1 = false) by (apply Nat.eqb_neq; lia). rewrite e3 in h. cbn [orb] in h. rewrite andb_false_r in h. injection h as <-. auto.
  - subst from. unfold ignore, remove_key in h. destruct (s_keys st) as [|f r] eqn:ek.
    + cbn in h. injection h as <-. cbn. rewrite andb_false_r. auto.
    + cbn [length Nat.leb] in h. rewrite hk in h. cbn [Nat.ltb Nat.leb] in h. cbv zeta in h. rewrite firstn_all2 in h by lia. cbn [firstn app skipn] in h. cbn [firstn app skipn].
      destruct (eqb k f) eqn:ef.
      * apply eqb_eq in ef. subst f. inversion hn; subst. cbn [without filter]. rewrite eqb_refl. cbn [negb]. change (filter _ r) with (without k r). rewrite without_id by assumption.
        assert (e4 : match r with [] => true | k' :: _ => negb (eqb k k') end = true).
        { destruct r as [|k' r']; [reflexivity|]. apply negb_true_iff. destruct (eqb k k') eqn:g; [apply eqb_eq in g; subst; exfalso; apply H1; left; reflexivity|reflexivity]. }
        rewrite e4, andb_true_r. rewrite eqb_refl, andb_true_r in h. destruct (dirty_config && negb (readonly B)).
        -- destruct (dirty B _) as [y st2] eqn:e. destruct y as [[]| | | |]; cbn in h; try discriminate. injection h as <-. eapply dirty_ok_state; eauto.
        -- cbn in h. injection h as <-. auto.
      * match type of h with context [if _ && ?q then _ else _] => assert (ef2 : q = false) by exact ef; rewrite ef2 in h end. cbn [without filter]. rewrite ef. cbn [negb]. rewrite eqb_refl. cbn [negb]. rewrite andb_false_r in *. cbn in h. injection h as <-. auto.
  - unfold ignore, clear_keys in h. cbv zeta in h. destruct (s_keys st) as [|f r] eqn:ek.
    + cbn in h. rewrite andb_false_r in *. cbn in h. injection h as <-. auto.
    + cbn in h. rewrite ?andb_true_r in *. destruct (dirty_config && negb (readonly B)).
      * destruct (dirty B _) as [y st2] eqn:e. destruct y as [[]| | | |]; cbn in h; try discriminate. injection h as <-. eapply dirty_ok_state; eauto.
      * cbn in h. injection h as <-. auto.
  - unfold replace_keys in h. destruct ks as [|f r].
    + cbn [nub]. unfold clear_keys in h. cbv zeta in h. destruct (s_keys st) as [|f r] eqn:ek.
      * injection h as <-. rewrite andb_false_r. auto.
      * cbn in h. rewrite ?andb_true_r in *. destruct (dirty_config && negb (readonly B)).
        -- destruct (dirty B _) as [y st2] eqn:e. destruct y as [[]| | | |]; cbn in h; try discriminate. injection h as <-. eapply dirty_ok_state; eauto.
        -- cbn in h. injection h as <-. auto.
    + assert (hall : forallb (fun k => Nat.eqb (length k) 32) (f :: r) = true) by (apply forallb_forall; intros k hin; apply Nat.eqb_eq, hk, hin).
      rewrite hall in h. cbn [negb] in h. cbv zeta in h. destruct (nub_head f r) as [r' ->].
      pose proof (fold_add_keys_core B (f :: r) (set_keys [] st)) as hc. cbv zeta in hc.
      destruct (s_keys st) as [|g0 gr] eqn:ek;
        (match type of h with (if ?q then _ else _) = _ => destruct q end; [eapply dirty_ok_state; eauto|injection h as <-; exact hc]).
Qed.

(** ** C32 *)
Lemma not_dirty st : s_state st <> Dirty -> is_dirty st = false.
Proof. unfold is_dirty. destruct (s_state st); congruence. Qed.
Lemma assign_same B i l v st : s_state st <> Dirty -> field i l (s_data st) = Some v -> empty_container v = false -> run B (OpAssign i l v) st = (Ok tt, st).
Proof.
  intros hd hf he. cbn [run]. unfold assign_at. rewrite he, (not_dirty _ hd), hf. assert (e : value_eqb v v = true) by (apply value_eqb_eq; reflexivity). rewrite e. reflexivity.
Qed.
Lemma erase_missing B i l st : s_state st <> Dirty -> field i l (s_data st) = None -> run B (OpErase i l) st = (Ok tt, st).
Proof. intros hd hf. cbn [run]. unfold erase_at. rewrite (not_dirty _ hd), hf. reflexivity. Qed.
Lemma assign_empty_missing B i l v st : s_state st <> Dirty -> field i l (s_data st) = None -> v = VSet [] \/ v = VDict [] -> run B (OpAssign i l v) st = (Ok tt, st).
Proof. intros hd hf hv. cbn [run]. unfold assign_at. assert (e : empty_container v = true) by (destruct hv; subst; reflexivity). rewrite e. apply (erase_missing B i l st hd hf). Qed.
Lemma insert_present B i l x xs st : s_state st <> Dirty -> field i l (s_data st) = Some (VSet xs) -> In x xs -> run B (OpSetInsert i l x) st = (Ok tt, st).
Proof. intros hd hf hx. cbn [run]. unfold set_insert_at. apply mem_In in hx. rewrite (not_dirty _ hd), hf, hx. reflexivity. Qed.
Lemma erase_absent B i l x xs st : s_state st <> Dirty -> field i l (s_data st) = Some (VSet xs) -> ~ In x xs -> run B (OpSetErase i l x) st = (Ok tt, st).
Proof. intros hd hf hx. cbn [run]. unfold set_erase_at. apply mem_In_false in hx. rewrite (not_dirty _ hd), hf, hx. reflexivity. Qed.
(** ** C28 *)
Lemma restore_same B st d st1 ks st' : benv_ok B -> life B tame st -> dump B st = (Ok d, st1) -> (N.of_nat (length d) < 2 ^ 64)%N -> restore B ks d = Ok st' ->
  s_data st' = fst (prune (s_data st)) /\ s_state st' = s_state st /\ s_curr st' = s_curr st /\ s_keys st' = ks /\ s_needs_dump st' = false /\
  s_old st' = (if readonly B then [] else s_old st) /\ s_seqno st' = (s_seqno st + (if is_dirty st then 1 else 0))%Z.
Proof.
  intros hB hl h hlen hr. assert (hlen2 : (N.of_nat (length d) <= uint64_max)%N) by (apply N.lt_succ_r; exact hlen).
  destruct (restore_move _ _ _ _ _ _ hB (life_inv1 _ _ hB hl) h hlen2 hr) as (_ & h1 & h2 & h3 & h4 & h5 & h6 & h7).
  apply dump_spec in h. cbv zeta in h. destruct h as [(s & c & g & _ & ->)|(h & _)]; [|exfalso; apply (h d); reflexivity].
  destruct (serialize_ok _ _ _ _ _ (i1_cfg _ _ (life_inv1 _ _ hB hl)) g) as (_ & _ & hrf & _).
  destruct (refresh_ok _ _ _ (i1_cfg _ _ (life_inv1 _ _ hB hl)) hrf) as (_ & _ & _ & _ & _ & _ & hda).
  repeat split; try assumption; cbn in *; [rewrite h4; exact hda|]. rewrite h3. destruct (readonly B); reflexivity.
Qed.
