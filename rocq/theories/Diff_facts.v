(** Lemmas about diff and apply_diff. *)
From Verif Require Export Data_facts.
From Coq Require Import ZifyBool.

(** ** set diff *)
Lemma set_walk_unfold old new :
  set_walk old new =
  match old, new with
  | [], [] => ([], [])
  | [], n :: new' => let '(a, r) := set_walk [] new' in (n :: a, r)
  | o :: old', [] => let '(a, r) := set_walk old' [] in (a, o :: r)
  | o :: old', n :: new' =>
      match cmp n o with
      | Lt => let '(a, r) := set_walk old new' in (n :: a, r)
      | Gt => let '(a, r) := set_walk old' new in (a, o :: r)
      | Eq => set_walk old' new'
      end
  end.
Proof. destruct old, new; reflexivity. Qed.

Lemma set_walk_spec old new a r :
  ssorted old -> ssorted new -> set_walk old new = (a, r) ->
  ssorted a /\ ssorted r /\
  (forall x, In x a <-> In x new /\ ~ In x old) /\ (forall x, In x r <-> In x old /\ ~ In x new).
Proof.
  remember (length old + length new) as n eqn:En. revert old new a r En.
  induction n as [n IH] using (well_founded_induction Wf_nat.lt_wf). intros old new a r En ho hn hw.
  rewrite set_walk_unfold in hw. destruct old as [|o old], new as [|m new].
  - injection hw as <- <-. repeat split; try constructor; cbn in *; tauto.
  - destruct (set_walk [] new) as [a' r'] eqn:E. injection hw as <- <-.
    apply ssorted_cons in hn as [hn hf]. rewrite Forall_forall in hf.
    edestruct (IH (length new)) as (h1 & h2 & h3 & h4); [..|exact E|]; [cbn in En; lia|reflexivity|constructor|auto|].
    split; [|split; [auto|split]].
    + apply ssorted_cons; split; [auto|]. rewrite Forall_forall. intros x hx. apply hf, h3, hx.
    + intros x. cbn [In]. rewrite h3. cbn [In]. intuition.
    + intros x. rewrite h4. cbn [In]. intuition.
  - destruct (set_walk old []) as [a' r'] eqn:E. injection hw as <- <-.
    apply ssorted_cons in ho as [ho hf]. rewrite Forall_forall in hf.
    edestruct (IH (length old)) as (h1 & h2 & h3 & h4); [..|exact E|]; [cbn in En; lia|cbn; lia|auto|constructor|].
    split; [auto|split; [|split]].
    + apply ssorted_cons; split; [auto|]. rewrite Forall_forall. intros x hx. apply hf, h4, hx.
    + intros x. rewrite h3. cbn [In]. intuition.
    + intros x. cbn [In]. rewrite h4. cbn [In]. intuition.
  - pose proof ho as ho'. pose proof hn as hn'.
    apply ssorted_cons in ho as [ho fo], hn as [hn fn]. rewrite Forall_forall in fo, fn.
    cbn [length] in En. destruct (cmp m o) eqn:Ec.
    + apply cmp_eq in Ec; subst o.
      edestruct (IH (length old + length new)) as (h1 & h2 & h3 & h4); [..|exact hw|]; [lia|reflexivity|auto|auto|].
      split; [auto|split; [auto|split]]; intros x; [rewrite h3|rewrite h4]; cbn [In].
      * split; [intros [h5 h6]; split; [right; auto|intros [<-|h]; [apply (lt_irrefl m); auto|auto]]|].
        intros [[<-|h5] h6]; [exfalso; apply h6; auto|]. split; auto.
      * split; [intros [h5 h6]; split; [right; auto|intros [<-|h]; [apply (lt_irrefl m); auto|auto]]|].
        intros [[<-|h5] h6]; [exfalso; apply h6; auto|]. split; auto.
    + destruct (set_walk (o :: old) new) as [a' r'] eqn:E. injection hw as <- <-.
      edestruct (IH (length (o :: old) + length new)) as (h1 & h2 & h3 & h4); [..|exact E|];
        [cbn; lia|reflexivity|auto|auto|].
      assert (hmo : ~ In m (o :: old)).
      { intros [<-|h]; [apply (lt_irrefl o); exact Ec|]. apply (lt_irrefl m).
        eapply lt_trans; [exact Ec|auto]. }
      split; [|split; [auto|split]].
      * apply ssorted_cons; split; [auto|]. rewrite Forall_forall. intros x hx. apply fn, h3, hx.
      * intros x. cbn [In]. rewrite h3. cbn [In] in *. split.
        -- intros [<-|[h5 h6]]; [split; [auto|exact hmo]|split; auto].
        -- intros [[<-|h5] h6]; auto.
      * intros x. rewrite h4. cbn [In] in *. split.
        -- intros [h5 h6]. split; [auto|]. intros [<-|h]; [apply hmo, h5|auto].
        -- intros [h5 h6]. split; [auto|]. intros h. apply h6; auto.
    + destruct (set_walk old (m :: new)) as [a' r'] eqn:E. injection hw as <- <-.
      apply cmp_gt_lt in Ec.
      edestruct (IH (length old + length (m :: new))) as (h1 & h2 & h3 & h4); [..|exact E|];
        [cbn; lia|reflexivity|auto|auto|].
      assert (hom : ~ In o (m :: new)).
      { intros [<-|h]; [apply (lt_irrefl m); exact Ec|]. apply (lt_irrefl o).
        eapply lt_trans; [exact Ec|auto]. }
      split; [auto|split; [|split]].
      * apply ssorted_cons; split; [auto|]. rewrite Forall_forall. intros x hx. apply fo, h4, hx.
      * intros x. rewrite h3. cbn [In] in *. split.
        -- intros [h5 h6]. split; [auto|]. intros [<-|h]; [apply hom, h5|auto].
        -- intros [h5 h6]. split; [auto|]. intros h. apply h6; auto.
      * intros x. cbn [In]. rewrite h4. cbn [In] in *. split.
        -- intros [<-|[h5 h6]]; [split; [auto|exact hom]|split; auto].
        -- intros [[<-|h5] h6]; auto.
Qed.

Lemma scalars_of_bt_of l : forallb scalar_ok l = true -> scalars_of_bt (map bt_of_scalar l) = Some l.
Proof.
  induction l as [|x l IH]; [reflexivity|]. cbn [forallb map scalars_of_bt]. intros h.
  apply andb_true_iff in h as [h1 h2]. rewrite (IH h2).
  destruct x as [z|s]; cbn [bt_of_scalar scalar_of_bt scalar_ok] in *; [rewrite h1|]; reflexivity.
Qed.

Lemma In_fold_sadd add l x : In x (fold_left (fun l x => sadd x l) add l) <-> In x add \/ In x l.
Proof.
  revert l; induction add as [|y add IH]; intros l; cbn [fold_left In]; [tauto|].
  rewrite IH, In_sadd. intuition.
Qed.
Lemma In_fold_sdel rem l x : In x (fold_left (fun l x => sdel x l) rem l) <-> ~ In x rem /\ In x l.
Proof.
  revert l; induction rem as [|y rem IH]; intros l; cbn [fold_left In]; [tauto|].
  rewrite IH, In_sdel. intuition.
Qed.
Lemma ssorted_fold_sadd add l : ssorted l -> ssorted (fold_left (fun l x => sadd x l) add l).
Proof. revert l; induction add as [|y add IH]; intros l h; cbn [fold_left]; [exact h|]. apply IH, ssorted_sadd, h. Qed.
Lemma ssorted_fold_sdel rem l : ssorted l -> ssorted (fold_left (fun l x => sdel x l) rem l).
Proof. revert l; induction rem as [|y rem IH]; intros l h; cbn [fold_left]; [exact h|]. apply IH, ssorted_sdel, h. Qed.

Lemma set_replay old new a r :
  ssorted old -> ssorted new -> set_walk old new = (a, r) ->
  fold_left (fun l x => sdel x l) r (fold_left (fun l x => sadd x l) a old) = new.
Proof.
  intros ho hn hw. destruct (set_walk_spec _ _ _ _ ho hn hw) as (h1 & h2 & h3 & h4).
  apply ssorted_ext; [apply ssorted_fold_sdel, ssorted_fold_sadd, ho|exact hn|].
  intros x. rewrite In_fold_sdel, In_fold_sadd, h3, h4. destruct (in_dec eq_dec_cmp x new), (in_dec eq_dec_cmp x old); tauto.
Qed.

Lemma set_walk_eq old new : ssorted old -> ssorted new -> set_walk old new = ([], []) -> old = new.
Proof.
  intros ho hn hw. destruct (set_walk_spec _ _ _ _ ho hn hw) as (_ & _ & h3 & h4).
  apply ssorted_ext; auto. intros x.
  destruct (in_dec eq_dec_cmp x new), (in_dec eq_dec_cmp x old); try tauto.
  - exfalso. apply (h3 x). auto.
  - exfalso. apply (h4 x). auto.
Qed.
Lemma set_walk_refl l : set_walk l l = ([], []).
Proof.
  induction l as [|x l IH]; [reflexivity|]. rewrite set_walk_unfold, cmp_refl. exact IH.
Qed.
Lemma diff_set_None old new : ssorted old -> ssorted new -> diff_set old new = None <-> old = new.
Proof.
  intros ho hn. unfold diff_set. destruct (set_walk old new) as [a r] eqn:E. split.
  - destruct a, r; cbn; try congruence. intros _. apply set_walk_eq; auto.
  - intros ->. rewrite set_walk_refl in E. injection E as <- <-. reflexivity.
Qed.
Lemma apply1_diff_set old new e tgt s :
  ssorted old -> ssorted new -> forallb scalar_ok old = true -> forallb scalar_ok new = true ->
  as_set tgt = old -> diff_set old new = Some e ->
  apply1 e tgt (Some (VSet s)) = Some (Some (VSet new)).
Proof.
  intros ho hn so sn ht. unfold diff_set. destruct (set_walk old new) as [a r] eqn:E.
  destruct (is_nil a && is_nil r); [congruence|]. intros [= <-]. cbn [apply1].
  destruct (set_walk_spec _ _ _ _ ho hn E) as (_ & _ & h3 & h4). rewrite forallb_forall in so, sn.
  rewrite !scalars_of_bt_of.
  - rewrite ht, (set_replay _ _ _ _ ho hn E). reflexivity.
  - apply forallb_forall. intros x hx. apply so, h4, hx.
  - apply forallb_forall. intros x hx. apply sn, h3, hx.
Qed.

(** ** dict diff *)
Definition only_list (added : bool) : dict -> option btdict :=
  fix go (d : dict) : option btdict :=
  match d with [] => Some [] | (k, x) :: r => opt_cons k (diff_only added x) (go r) end.
Lemma diff_only_dict added d :
  diff_only added (VDict d) =
  match only_list added d with None => None | Some [] => None | Some df => Some (BDict df) end.
Proof. reflexivity. Qed.

Fixpoint walk (od : dict) {struct od} : dict -> option btdict :=
  fix walk2 (nd : dict) {struct nd} : option btdict :=
    match od, nd with
    | [], [] => Some []
    | [], (kn, n) :: nd' => opt_cons kn (diff_only true n) (walk2 nd')
    | (ko, o) :: od', [] => opt_cons ko (diff_only false o) (walk od' [])
    | (ko, o) :: od', (kn, n) :: nd' =>
        match cmp kn ko with
        | Lt => opt_cons kn (diff_only true n) (walk2 nd')
        | Gt => opt_cons ko (diff_only false o) (walk od' nd)
        | Eq => match diff_v o n with
                | None => None
                | Some None => walk od' nd'
                | Some (Some e) => opt_cons kn (Some e) (walk od' nd')
                end
        end
    end.
Lemma diff_v_dict a c :
  diff_v (VDict a) (VDict c) =
  match walk a c with None => None | Some [] => Some None | Some df => Some (Some (BDict df)) end.
Proof. reflexivity. Qed.
Lemma walk_unfold od nd :
  walk od nd =
  match od, nd with
  | [], [] => Some []
  | [], (kn, n) :: nd' => opt_cons kn (diff_only true n) (walk [] nd')
  | (ko, o) :: od', [] => opt_cons ko (diff_only false o) (walk od' [])
  | (ko, o) :: od', (kn, n) :: nd' =>
      match cmp kn ko with
      | Lt => opt_cons kn (diff_only true n) (walk od nd')
      | Gt => opt_cons ko (diff_only false o) (walk od' nd)
      | Eq => match diff_v o n with
              | None => None
              | Some None => walk od' nd'
              | Some (Some e) => opt_cons kn (Some e) (walk od' nd')
              end
      end
  end.
Proof. destruct od as [|[ko o] od], nd as [|[kn n] nd]; reflexivity. Qed.

(** The code's recursion: the one-sided case is [diff_impl] against the empty dict. *)
Lemma walk_nil_new d : walk [] d = only_list true d.
Proof. induction d as [|[k x] r IH]; [reflexivity|]. rewrite walk_unfold. cbn [only_list]. rewrite IH. reflexivity. Qed.
Lemma walk_nil_old d : walk d [] = only_list false d.
Proof. induction d as [|[k x] r IH]; [reflexivity|]. rewrite walk_unfold. cbn [only_list]. rewrite IH. reflexivity. Qed.

Lemma diff_walk old new : diff old new = walk old new.
Proof. unfold diff. rewrite diff_v_dict. destruct (walk old new) as [[|p l]|]; reflexivity. Qed.

Lemma opt_cons_Some {A} k (x : option A) r l :
  opt_cons k x r = Some l <-> exists x' r', x = Some x' /\ r = Some r' /\ l = (k, x') :: r'.
Proof.
  unfold opt_cons. destruct x as [x|], r as [r|]; split; try congruence.
  - intros [= <-]. eauto.
  - intros (x' & r' & [= ->] & [= ->] & ->). reflexivity.
  - intros (x' & r' & _ & h & _). congruence.
  - intros (x' & r' & h & _). congruence.
  - intros (x' & r' & h & _). congruence.
Qed.

Lemma diff_only_Some added v : full_v v = true -> exists e, diff_only added v = Some e.
Proof.
  induction v as [s|l|d IH] using value_ind'; intros hf.
  - eexists; reflexivity.
  - cbn [full_v] in hf. apply negb_true_iff, is_nil_false in hf. cbn [diff_only].
    destruct l as [|x l]; [congruence|]. destruct added; unfold diff_set; rewrite set_walk_unfold.
    + destruct (set_walk [] l) as [a r]. cbn [is_nil andb]. eauto.
    + destruct (set_walk l []) as [a r]. cbn [is_nil]. rewrite andb_false_r. eauto.
  - apply full_v_dict in hf as [hn hp]. rewrite diff_only_dict.
    assert (h : exists df, only_list added d = Some df /\ keys df = keys d).
    { clear hn. induction d as [|[k x] r IHr]; [exists []; auto|].
      inversion IH as [|? ? hx hr]; subst. apply pruned_cons in hp as [h1 h2].
      destruct (hx h1) as [e he]. destruct (IHr hr h2) as (df & hdf & hk). cbn [snd] in he.
      exists ((k, e) :: df). cbn [only_list]. rewrite he, hdf. split; [reflexivity|].
      unfold keys in *. cbn [map fst]. rewrite hk. reflexivity. }
    destruct h as (df & -> & hk). destruct df; [|eauto]. destruct d; [congruence|discriminate].
Qed.

Definition diff_entry (o n : option value) : option (option bt) :=
  match o, n with
  | None, None => Some None
  | Some o, None => match diff_only false o with Some e => Some (Some e) | None => None end
  | None, Some n => match diff_only true n with Some e => Some (Some e) | None => None end
  | Some o, Some n => diff_v o n
  end.

Lemma walk_keys od nd df k : walk od nd = Some df -> In k (keys df) -> In k (keys od) \/ In k (keys nd).
Proof.
  remember (length od + length nd) as n eqn:En. revert od nd df En.
  induction n as [n IH] using (well_founded_induction Wf_nat.lt_wf). intros od nd df En hw.
  rewrite walk_unfold in hw. destruct od as [|[ko o] od], nd as [|[kn m] nd]; cbn [length] in En.
  - injection hw as <-. intros [].
  - apply opt_cons_Some in hw as (x' & r' & hx & hr & ->). intros [<-|hin]; [right; left; reflexivity|].
    eapply (IH (length nd)) in hr; [| cbn;lia |reflexivity|exact hin]. destruct hr; [left; auto|right; right; auto].
  - apply opt_cons_Some in hw as (x' & r' & hx & hr & ->). intros [<-|hin]; [left; left; reflexivity|].
    eapply (IH (length od + 0)) in hr; [| cbn;lia |reflexivity|exact hin]. destruct hr; [left; right; auto|right; auto].
  - destruct (cmp kn ko) eqn:Ec.
    + apply cmp_eq in Ec; subst ko. destruct (diff_v o m) as [[e|]|]; [| |congruence].
      * apply opt_cons_Some in hw as (x' & r' & hx & hr & ->). intros [<-|hin]; [left; left; reflexivity|].
        eapply (IH (length od + length nd)) in hr; [|lia|reflexivity|exact hin]. destruct hr; [left|right]; right; auto.
      * intros hin. eapply (IH (length od + length nd)) in hw; [|lia|reflexivity|exact hin].
        destruct hw; [left|right]; right; auto.
    + apply opt_cons_Some in hw as (x' & r' & hx & hr & ->). intros [<-|hin]; [right; left; reflexivity|].
      eapply (IH (S (length od) + length nd)) in hr; [|lia|reflexivity|exact hin]. destruct hr; [left; auto|right; right; auto].
    + apply opt_cons_Some in hw as (x' & r' & hx & hr & ->). intros [<-|hin]; [left; left; reflexivity|].
      eapply (IH (length od + S (length nd))) in hr; [|lia|reflexivity|exact hin]. destruct hr; [left; right; auto|right; auto].
Qed.

Lemma walk_spec od nd df :
  msorted od -> msorted nd -> walk od nd = Some df ->
  msorted df /\ forall k, diff_entry (lookup k od) (lookup k nd) = Some (lookup k df).
Proof.
  remember (length od + length nd) as n eqn:En. revert od nd df En.
  induction n as [n IH] using (well_founded_induction Wf_nat.lt_wf). intros od nd df En so sn hw.
  rewrite walk_unfold in hw. destruct od as [|[ko o] od], nd as [|[kn m] nd]; cbn [length] in En.
  - injection hw as <-. split; [constructor|]. reflexivity.
  - apply opt_cons_Some in hw as (x' & r' & hx & hr & ->).
    apply msorted_cons in sn as [sn fn].
    pose proof (fun k => walk_keys _ _ _ k hr) as hkr.
    eapply (IH (length nd)) in hr as [h1 h2]; [|lia|reflexivity|constructor|exact sn]. split.
    + apply msorted_cons; split; [auto|]. rewrite Forall_forall in *. intros k hk. apply hkr in hk as [[]|hk]. auto.
    + intros k. cbn [lookup]. destruct (eqb k kn) eqn:E; [|apply h2]. cbn [diff_entry]. rewrite hx. reflexivity.
  - apply opt_cons_Some in hw as (x' & r' & hx & hr & ->).
    apply msorted_cons in so as [so fo].
    pose proof (fun k => walk_keys _ _ _ k hr) as hkr.
    eapply (IH (length od + 0)) in hr as [h1 h2]; [|lia|reflexivity|exact so|constructor]. split.
    + apply msorted_cons; split; [auto|]. rewrite Forall_forall in *. intros k hk. apply hkr in hk as [hk|[]]. auto.
    + intros k. cbn [lookup]. destruct (eqb k ko) eqn:E; [|apply h2]. cbn [diff_entry]. rewrite hx. reflexivity.
  - pose proof so as so'. pose proof sn as sn'.
    apply msorted_cons in so as [so fo], sn as [sn fn]. rewrite Forall_forall in fo, fn.
    destruct (cmp kn ko) eqn:Ec.
    + apply cmp_eq in Ec; subst ko.
      destruct (diff_v o m) as [[e|]|] eqn:Ed; [| |congruence].
      * apply opt_cons_Some in hw as (x' & r' & [= <-] & hr & ->).
        pose proof (fun k => walk_keys _ _ _ k hr) as hkr.
        eapply (IH (length od + length nd)) in hr as [h1 h2]; [|lia|reflexivity|auto|auto]. split.
        -- apply msorted_cons; split; [auto|]. rewrite Forall_forall. intros k hk. apply hkr in hk as [hk|hk]; auto.
        -- intros k. cbn [lookup]. destruct (eqb k kn) eqn:E; [exact Ed|apply h2].
      * pose proof (fun k => walk_keys _ _ _ k hw) as hkr.
        eapply (IH (length od + length nd)) in hw as [h1 h2]; [|lia|reflexivity|auto|auto]. split; [auto|].
        intros k. cbn [lookup]. destruct (eqb k kn) eqn:E; [|apply h2]. cbn [diff_entry]. rewrite Ed.
        apply eqb_eq in E; subst. f_equal. symmetry. apply lookup_None. intros hk.
        apply hkr in hk as [hk|hk]; apply (lt_irrefl kn); auto.
    + apply opt_cons_Some in hw as (x' & r' & hx & hr & ->).
      pose proof (fun k => walk_keys _ _ _ k hr) as hkr.
      eapply (IH (S (length od) + length nd)) in hr as [h1 h2]; [|lia|reflexivity|auto|auto]. split.
      * apply msorted_cons; split; [auto|]. rewrite Forall_forall. intros k hk.
        apply hkr in hk as [[<-|hk]|hk]; [exact Ec|eapply lt_trans; [exact Ec|auto]|auto].
      * intros k. specialize (h2 k). cbn [lookup] in *. destruct (eqb k kn) eqn:E; [|apply h2].
        apply eqb_eq in E; subst. replace (eqb kn ko) with false
          by (symmetry; apply eqb_neq; intros ->; apply (lt_irrefl ko); exact Ec).
        replace (lookup kn od) with (@None value).
        2: { symmetry. apply lookup_None. intros hk. apply (lt_irrefl kn). eapply lt_trans; [exact Ec|auto]. }
        cbn [diff_entry]. rewrite hx. reflexivity.
    + apply opt_cons_Some in hw as (x' & r' & hx & hr & ->). apply cmp_gt_lt in Ec.
      pose proof (fun k => walk_keys _ _ _ k hr) as hkr.
      eapply (IH (length od + S (length nd))) in hr as [h1 h2]; [|lia|reflexivity|auto|auto]. split.
      * apply msorted_cons; split; [auto|]. rewrite Forall_forall. intros k hk.
        apply hkr in hk as [hk|[<-|hk]]; [auto|exact Ec|eapply lt_trans; [exact Ec|auto]].
      * intros k. specialize (h2 k). cbn [lookup] in *. destruct (eqb k ko) eqn:E; [|apply h2].
        apply eqb_eq in E; subst. replace (eqb ko kn) with false
          by (symmetry; apply eqb_neq; intros ->; apply (lt_irrefl kn); exact Ec).
        replace (lookup ko nd) with (@None value).
        2: { symmetry. apply lookup_None. intros hk. apply (lt_irrefl ko). eapply lt_trans; [exact Ec|auto]. }
        cbn [diff_entry]. rewrite hx. reflexivity.
Qed.

Lemma walk_Some od nd :
  pruned od = true -> pruned nd = true ->
  (forall ko o kn n, In (ko, o) od -> In (kn, n) nd -> exists e, diff_v o n = Some e) ->
  exists df, walk od nd = Some df.
Proof.
  remember (length od + length nd) as n eqn:En. revert od nd En.
  induction n as [n IH] using (well_founded_induction Wf_nat.lt_wf). intros od nd En po pn hd.
  rewrite walk_unfold. destruct od as [|[ko o] od], nd as [|[kn m] nd]; cbn [length] in En.
  - eauto.
  - apply pruned_cons in pn as [p1 p2]. destruct (diff_only_Some true m p1) as [e ->].
    destruct (IH (length nd) ltac:(lia) [] nd) as [df ->]; [reflexivity|reflexivity|exact p2|intros ? ? ? ? []|]. eexists; reflexivity.
  - apply pruned_cons in po as [p1 p2]. destruct (diff_only_Some false o p1) as [e ->].
    destruct (IH (length od + 0) ltac:(lia) od []) as [df ->]; [reflexivity|exact p2|reflexivity|intros ? ? ? ? _ []|]. eexists; reflexivity.
  - pose proof po as po'. pose proof pn as pn'.
    apply pruned_cons in po as [po1 po2], pn as [pn1 pn2]. destruct (cmp kn ko).
    + destruct (hd ko o kn m) as [e ->]; [left; reflexivity|left; reflexivity|].
      destruct (IH (length od + length nd) ltac:(lia) od nd) as [df ->]; auto.
      { intros ? ? ? ? h1 h2. eapply hd; right; eauto. }
      destruct e; eexists; reflexivity.
    + destruct (diff_only_Some true m pn1) as [e ->].
      destruct (IH (S (length od) + length nd) ltac:(lia) ((ko, o) :: od) nd) as [df ->]; auto.
      { intros ? ? ? ? h1 h2. eapply hd; [exact h1|right; eauto]. }
      eexists; reflexivity.
    + destruct (diff_only_Some false o po1) as [e ->].
      destruct (IH (length od + S (length nd)) ltac:(lia) od ((kn, m) :: nd)) as [df ->]; auto.
      { intros ? ? ? ? h1 h2. eapply hd; [right; eauto|exact h2]. }
      eexists; reflexivity.
Qed.

Lemma diff_v_Some o n : full_v o = true -> full_v n = true -> exists e, diff_v o n = Some e.
Proof.
  revert n. induction o as [s|l|d IH] using value_ind'; intros n ho hn.
  - destruct n as [s2|l2|d2]; [eexists; reflexivity| |];
      destruct (diff_only_Some true _ hn) as [e he]; exists (Some e); cbn [diff_v]; rewrite he; reflexivity.
  - destruct n as [s2|l2|d2]; [|eexists; reflexivity|];
      destruct (diff_only_Some true _ hn) as [e he]; exists (Some e); cbn [diff_v]; rewrite he; reflexivity.
  - destruct n as [s2|l2|d2].
    1, 2: destruct (diff_only_Some true _ hn) as [e he]; exists (Some e); cbn [diff_v]; rewrite he; reflexivity.
    apply full_v_dict in ho as [_ ho], hn as [_ hn]. rewrite diff_v_dict.
    destruct (walk_Some d d2 ho hn) as [df ->].
    + intros ko o kn n h1 h2. rewrite Forall_forall in IH. apply (IH (ko, o) h1).
      * rewrite pruned_In in ho. eauto.
      * rewrite pruned_In in hn. eauto.
    + destruct df; eexists; reflexivity.
Qed.
Lemma diff_Some old new : pruned old = true -> pruned new = true -> exists df, diff old new = Some df.
Proof.
  intros ho hn. rewrite diff_walk. apply walk_Some; auto.
  intros ko o kn n h1 h2. rewrite pruned_In in ho, hn. apply diff_v_Some; eauto.
Qed.
Lemma diff_sorted old new df : wf old = true -> wf new = true -> diff old new = Some df -> msorted df.
Proof. rewrite diff_walk. intros h1 h2 h. eapply walk_spec; [| |exact h]; apply wf_sorted; assumption. Qed.
Lemma diff_lookup old new df k : wf old = true -> wf new = true -> diff old new = Some df ->
  diff_entry (lookup k old) (lookup k new) = Some (lookup k df).
Proof. rewrite diff_walk. intros h1 h2 h. eapply walk_spec; [| |exact h]; apply wf_sorted; assumption. Qed.

(** ** no difference iff equal *)
Lemma diff_v_None_eq o n : wf_v o = true -> wf_v n = true -> diff_v o n = Some None -> o = n.
Proof.
  revert n; induction o as [s|l|d IH] using value_ind'; intros n ho hn; destruct n as [s2|l2|d2];
    try (cbn [diff_v]; destruct (diff_only true _); congruence).
  - cbn [diff_v]. destruct (eqb s s2) eqn:E; [|congruence]. apply eqb_eq in E. congruence.
  - cbn [diff_v]. intros [= h]. apply wf_v_set in ho as [ho _], hn as [hn _].
    apply diff_set_None in h; auto. congruence.
  - rewrite diff_v_dict. destruct (walk d d2) as [[|p df]|] eqn:Ew; try congruence. intros _. f_equal.
    apply wf_v_dict in ho as [so ho], hn as [sn hn]. destruct (walk_spec _ _ _ so sn Ew) as [_ hk].
    apply msorted_ext; auto. intros k. specialize (hk k). cbn [lookup] in hk.
    destruct (lookup k d) as [o|] eqn:E1, (lookup k d2) as [n|] eqn:E2; cbn [diff_entry] in hk; [| | |reflexivity].
    + f_equal. apply lookup_In in E1, E2. rewrite Forall_forall in IH. apply (IH _ E1); eauto.
    + destruct (diff_only false o); congruence.
    + destruct (diff_only true n); congruence.
Qed.
Lemma diff_v_refl v : wf_v v = true -> diff_v v v = Some None.
Proof.
  induction v as [s|l|d IH] using value_ind'; intros h.
  - cbn [diff_v]. rewrite eqb_refl. reflexivity.
  - cbn [diff_v]. unfold diff_set. rewrite set_walk_refl. reflexivity.
  - rewrite diff_v_dict. replace (walk d d) with (Some (@nil (bytes * bt))); [reflexivity|]. symmetry.
    apply wf_v_dict in h as [_ h]. induction d as [|[k x] r IHr]; [reflexivity|].
    inversion IH as [|? ? hx hr]; subst. rewrite walk_unfold, cmp_refl. cbn [snd] in hx.
    rewrite hx by (eapply h; left; reflexivity). apply IHr; [exact hr|]. intros; eapply h; right; eauto.
Qed.
Lemma diff_nil_iff old new : wf old = true -> wf new = true -> diff old new = Some [] <-> old = new.
Proof.
  intros ho hn. split.
  - unfold diff. rewrite diff_v_dict. destruct (walk old new) as [[|p df]|] eqn:Ew; try congruence. intros _.
    assert (h : diff_v (VDict old) (VDict new) = Some None) by (rewrite diff_v_dict, Ew; reflexivity).
    apply diff_v_None_eq in h; [congruence|exact ho|exact hn].
  - intros <-. unfold diff. rewrite diff_v_refl by exact ho. reflexivity.
Qed.

(** ** applying *)
Lemma apply1_dict df tgt sd :
  apply1 (BDict df) tgt (Some (VDict sd)) =
  match apply_diff df sd (as_dict tgt) with None => None | Some d => Some (Some (VDict d)) end.
Proof.
  cbn [apply1]. generalize (as_dict tgt). induction df as [|[k e] r IH]; intros data; [reflexivity|].
  cbn [apply_diff]. destruct (apply1 e (lookup k data) (lookup k sd)) as [[v|]|]; [apply IH|apply IH|reflexivity].
Qed.

Lemma apply_diff_other df src data d' k :
  msorted data -> apply_diff df src data = Some d' -> lookup k df = None -> lookup k d' = lookup k data.
Proof.
  revert data; induction df as [|[k1 e] r IH]; intros data hs; cbn [apply_diff lookup]; [congruence|].
  intros ha hl. destruct (eqb k k1) eqn:E; [congruence|].
  destruct (apply1 e (lookup k1 data) (lookup k1 src)) as [[v|]|]; [| |congruence].
  - rewrite (IH _ (msorted_insert _ _ _ hs) ha hl). rewrite lookup_insert, E by exact hs. reflexivity.
  - rewrite (IH _ (msorted_erase _ _ hs) ha hl). rewrite lookup_erase, E. reflexivity.
Qed.
Lemma apply_diff_msorted df src data d' : msorted data -> apply_diff df src data = Some d' -> msorted d'.
Proof.
  revert data; induction df as [|[k1 e] r IH]; intros data hs; cbn [apply_diff]; [congruence|].
  destruct (apply1 e (lookup k1 data) (lookup k1 src)) as [[v|]|]; [| |congruence].
  - apply IH, msorted_insert, hs.
  - apply IH, msorted_erase, hs.
Qed.
Lemma apply_diff_here df src data d' k e :
  msorted data -> msorted df -> apply_diff df src data = Some d' -> lookup k df = Some e ->
  apply1 e (lookup k data) (lookup k src) = Some (lookup k d').
Proof.
  revert data; induction df as [|[k1 e1] r IH]; intros data hs sd; cbn [apply_diff lookup]; [congruence|].
  apply msorted_cons in sd as [sd fd]. intros ha hl. destruct (eqb k k1) eqn:E.
  - apply eqb_eq in E; subst k1. injection hl as ->.
    destruct (apply1 e (lookup k data) (lookup k src)) as [[v|]|]; [| |congruence].
    + rewrite (apply_diff_other _ _ _ _ k (msorted_insert _ _ _ hs) ha (lookup_lt_head _ _ fd)).
      rewrite lookup_insert, eqb_refl by exact hs. reflexivity.
    + rewrite (apply_diff_other _ _ _ _ k (msorted_erase _ _ hs) ha (lookup_lt_head _ _ fd)).
      rewrite lookup_erase, eqb_refl. reflexivity.
  - destruct (apply1 e1 (lookup k1 data) (lookup k1 src)) as [[v|]|]; [| |congruence].
    + rewrite <- (IH _ (msorted_insert _ _ _ hs) sd ha hl). rewrite lookup_insert, E by exact hs. reflexivity.
    + rewrite <- (IH _ (msorted_erase _ _ hs) sd ha hl). rewrite lookup_erase, E. reflexivity.
Qed.
(** pointwise existence: the whole application succeeds iff every entry does *)
Lemma apply_diff_Some df src data :
  msorted data -> msorted df ->
  (forall k e, lookup k df = Some e -> exists r, apply1 e (lookup k data) (lookup k src) = Some r) ->
  exists d', apply_diff df src data = Some d'.
Proof.
  revert data; induction df as [|[k1 e1] r IH]; intros data hs sd hall; cbn [apply_diff]; [eauto|].
  apply msorted_cons in sd as [sd fd].
  destruct (hall k1 e1) as [x hx]; [cbn [lookup]; rewrite eqb_refl; reflexivity|]. rewrite hx.
  assert (hne : forall k e, lookup k r = Some e -> eqb k k1 = false).
  { intros k e hl. apply eqb_neq. intros ->. rewrite lookup_lt_head in hl by exact fd. congruence. }
  destruct x as [v|]; (apply IH; [first [apply msorted_insert; exact hs | apply msorted_erase; exact hs] | exact sd |]).
  - intros k e hl. pose proof (hne _ _ hl) as hk. rewrite lookup_insert, hk by exact hs.
    apply hall. cbn [lookup]. rewrite hk. exact hl.
  - intros k e hl. pose proof (hne _ _ hl) as hk. rewrite lookup_erase, hk.
    apply hall. cbn [lookup]. rewrite hk. exact hl.
Qed.

Definition opt_wf (o : option value) : Prop := match o with Some v => wf_v v = true | None => True end.
Lemma scalars_of_bt_ok l r : scalars_of_bt l = Some r -> forallb scalar_ok r = true.
Proof.
  revert r; induction l as [|x l IH]; cbn [scalars_of_bt]; intros r; [intros [= <-]; reflexivity|].
  destruct (scalar_of_bt x) as [s|] eqn:Es; [|congruence]. destruct (scalars_of_bt l) as [q|]; [|congruence].
  intros [= <-]. cbn [forallb]. rewrite (IH q eq_refl), andb_true_r.
  destruct x; cbn in Es; try congruence; [destruct (int64_ok z) eqn:E; [|congruence]; injection Es as <-; exact E|].
  injection Es as <-. reflexivity.
Qed.
Lemma apply1_wf e tgt src r : opt_wf tgt -> opt_wf src -> apply1 e tgt src = Some r -> opt_wf r.
Proof.
  revert tgt src r; induction e as [z|s|l IH|d IH] using bt_ind'; intros tgt src r ht hs.
  - destruct src; cbn; [congruence|intros [= <-]; exact I].
  - destruct src as [[sc|sl|sd]|]; cbn [apply1]; try (intros [= <-]; exact I).
    destruct (eqb s (b "-")); [intros [= <-]; exact I|]. destruct (eqb s (b "")); [intros [= <-]; exact hs|congruence].
  - destruct src as [[sc|sl|sd]|]; cbn [apply1]; try (intros [= <-]; exact I).
    destruct l as [|[| |la|] [|[| |lr|] l]]; try congruence.
    destruct (scalars_of_bt la) as [a|] eqn:Ea; [|congruence].
    destruct (scalars_of_bt lr) as [q|] eqn:Eq; [|congruence]. intros [= <-]. cbn [opt_wf].
    assert (hset : ssorted (as_set tgt) /\ forallb scalar_ok (as_set tgt) = true).
    { destruct tgt as [[| |]|]; try (split; [constructor|reflexivity]). apply wf_v_set, ht. }
    destruct hset as [h1 h2]. apply wf_v_set. split; [apply ssorted_fold_sdel, ssorted_fold_sadd, h1|].
    apply forallb_forall. intros x hx. apply In_fold_sdel in hx as [_ hx]. apply In_fold_sadd in hx as [hx|hx].
    + apply scalars_of_bt_ok in Ea. rewrite forallb_forall in Ea. auto.
    + rewrite forallb_forall in h2. auto.
  - destruct src as [[sc|sl|sd]|]; try (cbn [apply1]; intros [= <-]; exact I).
    rewrite apply1_dict. destruct (apply_diff d sd (as_dict tgt)) as [d'|] eqn:Ea; [|congruence].
    intros [= <-]. cbn [opt_wf].
    assert (hd : wf (as_dict tgt) = true). { destruct tgt as [[| |]|]; try reflexivity. exact ht. }
    revert Ea hd. generalize (as_dict tgt). clear ht. induction d as [|[k e] df IHd]; intros data; cbn [apply_diff].
    + intros [= <-]. auto.
    + inversion IH as [|? ? he hr]; subst.
      destruct (apply1 e (lookup k data) (lookup k sd)) as [[v|]|] eqn:Ea; [| |congruence]; intros h hd.
      * eapply IHd; [exact hr|exact h|]. apply wf_insert; [exact hd|].
        eapply (he (lookup k data) (lookup k sd) (Some v)); [| |exact Ea].
        -- destruct (lookup k data) eqn:El; [|exact I]. eapply wf_lookup; eauto.
        -- destruct (lookup k sd) eqn:El; [|exact I]. eapply (wf_lookup sd); eauto.
      * eapply IHd; [exact hr|exact h|]. apply wf_erase, hd.
Qed.
Lemma apply_diff_wf df src data d' :
  wf data = true -> wf src = true -> apply_diff df src data = Some d' -> wf d' = true.
Proof.
  intros h1 h2 h3. pose proof (apply1_dict df (Some (VDict data)) src) as he. cbn [as_dict] in he.
  rewrite h3 in he. apply apply1_wf in he; [exact he|exact h1|exact h2].
Qed.

(** ** round trip *)
Lemma apply_only_new n e tgt :
  wf_v n = true -> diff_only true n = Some e ->
  match tgt, n with
  | Some (VSet l), VSet _ => l = []
  | Some (VDict l), VDict _ => l = []
  | _, _ => True
  end ->
  apply1 e tgt (Some n) = Some (Some n).
Proof.
  revert e tgt; induction n as [s|l|d IH] using value_ind'; intros e tgt hw he ht.
  - injection he as <-. reflexivity.
  - apply wf_v_set in hw as [h1 h2]. cbn [diff_only] in he.
    eapply apply1_diff_set; [| | | | |exact he]; [constructor|auto|reflexivity|auto|].
    destruct tgt as [[| |]|]; cbn; auto.
  - rewrite diff_only_dict in he. destruct (only_list true d) as [df|] eqn:Eo; [|congruence].
    assert (e = BDict df) as -> by (destruct df; congruence). clear he.
    rewrite apply1_dict. replace (as_dict tgt) with (@nil (bytes * value))
      by (destruct tgt as [[| |]|]; cbn; auto).
    rewrite <- walk_nil_new in Eo. apply wf_v_dict in hw as [hs hw].
    destruct (walk_spec _ _ _ msorted_nil hs Eo) as [hsd hk].
    assert (hone : forall k x, lookup k df = Some x ->
                   apply1 x None (lookup k d) = Some (lookup k d)).
    { intros k x hl. specialize (hk k). rewrite hl in hk. cbn [lookup] in hk.
      destruct (lookup k d) as [v|] eqn:El; cbn [diff_entry] in hk; [|congruence].
      destruct (diff_only true v) as [y|] eqn:Ey; [|congruence]. injection hk as <-.
      apply lookup_In in El. rewrite Forall_forall in IH. eapply (IH _ El); [eauto|exact Ey|exact I]. }
    destruct (apply_diff_Some df d []) as [d' hd']; [constructor|exact hsd| |].
    { intros k x hl. cbn [lookup]. rewrite (hone k x hl). eauto. }
    rewrite hd'. do 3 f_equal. apply msorted_ext; [exact (apply_diff_msorted _ _ _ _ msorted_nil hd')|exact hs|].
    intros k. destruct (lookup k df) as [x|] eqn:El.
    + pose proof (apply_diff_here _ _ _ _ _ _ msorted_nil hsd hd' El) as h. cbn [lookup] in h.
      rewrite (hone k x El) in h. congruence.
    + rewrite (apply_diff_other _ _ _ _ k msorted_nil hd' El). cbn [lookup].
      specialize (hk k). rewrite El in hk. cbn [lookup] in hk.
      destruct (lookup k d) as [v|]; [|reflexivity]. cbn [diff_entry] in hk. destruct (diff_only true v); congruence.
Qed.

Lemma apply_diff_v o n e :
  wf_v o = true -> wf_v n = true -> diff_v o n = Some (Some e) ->
  apply1 e (Some o) (Some n) = Some (Some n).
Proof.
  revert n e; induction o as [s|l|d IH] using value_ind'; intros n e ho hn he; destruct n as [s2|l2|d2];
    try (cbn [diff_v] in he; destruct (diff_only true _) as [e'|] eqn:Eo; [|congruence];
         injection he as <-; apply apply_only_new; [exact hn|exact Eo|exact I]).
  - cbn [diff_v] in he. destruct (eqb s s2); [congruence|]. injection he as <-. reflexivity.
  - cbn [diff_v] in he. injection he as he. apply wf_v_set in ho as [h1 h2], hn as [h3 h4].
    eapply apply1_diff_set; [exact h1|exact h3|exact h2|exact h4|reflexivity|exact he].
  - rewrite diff_v_dict in he. destruct (walk d d2) as [df|] eqn:Ew; [|congruence].
    assert (e = BDict df) as -> by (destruct df; congruence). clear he.
    rewrite apply1_dict. cbn [as_dict].
    apply wf_v_dict in ho as [so ho], hn as [sn hn]. destruct (walk_spec _ _ _ so sn Ew) as [hsd hk].
    assert (hone : forall k x, lookup k df = Some x ->
                   apply1 x (lookup k d) (lookup k d2) = Some (lookup k d2)).
    { intros k x hl. specialize (hk k). rewrite hl in hk.
      destruct (lookup k d) as [o|] eqn:E1, (lookup k d2) as [n|] eqn:E2; cbn [diff_entry] in hk; [| | |congruence].
      - apply lookup_In in E1, E2. rewrite Forall_forall in IH. eapply (IH _ E1); eauto.
      - destruct x; reflexivity.
      - destruct (diff_only true n) as [y|] eqn:Ey; [|congruence]. injection hk as <-.
        apply lookup_In in E2. apply apply_only_new; [eauto|exact Ey|exact I]. }
    destruct (apply_diff_Some df d2 d) as [d' hd']; [exact so|exact hsd| |].
    { intros k x hl. rewrite (hone k x hl). eauto. }
    rewrite hd'. do 3 f_equal. apply msorted_ext; [eapply apply_diff_msorted; [exact so|exact hd']|exact sn|].
    intros k. destruct (lookup k df) as [x|] eqn:El.
    + pose proof (apply_diff_here _ _ _ _ _ _ so hsd hd' El) as h.
      rewrite (hone k x El) in h. congruence.
    + rewrite (apply_diff_other _ _ _ _ k so hd' El).
      specialize (hk k). rewrite El in hk.
      destruct (lookup k d) as [o|] eqn:E1, (lookup k d2) as [n|] eqn:E2; cbn [diff_entry] in hk; [| | |reflexivity].
      * f_equal. apply lookup_In in E1, E2. apply diff_v_None_eq; eauto.
      * destruct (diff_only false o); congruence.
      * destruct (diff_only true n); congruence.
Qed.

Lemma apply_diff_roundtrip old new df :
  wf old = true -> wf new = true -> diff old new = Some df -> apply_diff df new old = Some new.
Proof.
  intros ho hn hd. unfold diff in hd.
  destruct (diff_v (VDict old) (VDict new)) as [[e|]|] eqn:Ed; [| |congruence].
  - assert (exists df0, e = BDict df0) as [df0 ->].
    { rewrite diff_v_dict in Ed. destruct (walk old new) as [[|p l]|]; try congruence. injection Ed as <-. eauto. }
    injection hd as ->. apply apply_diff_v in Ed; [|exact ho|exact hn]. rewrite apply1_dict in Ed.
    cbn [as_dict] in Ed. destruct (apply_diff df new old); congruence.
  - injection hd as <-. apply diff_v_None_eq in Ed; [|exact ho|exact hn]. injection Ed as ->. reflexivity.
Qed.
