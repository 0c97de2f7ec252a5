From Verif Require Import Bytes Message Merge Merge_facts Accept_facts Base BaseSpec Records RecordsSpec Contacts Members UserGroups Convo CStruct Profile CInfo Community Data_facts Fields_facts Base_facts Life_facts Life2_facts Life4_facts Conf_facts Conf2_facts Conf3_facts
  Records_facts Reach_facts Message_facts Contacts_facts CStruct_facts Redeliver_facts.
From Coq Require Import Lia.

(** ** edits of a writable config always succeed *)
Definition ready (st : bstate) : Prop := s_state st = Dirty /\ exists m o, s_conf st = Mut m o.
Definition can_edit (B : benv) (st : bstate) : Prop := readonly B = false /\ (s_state st = Dirty \/ (s_seqno st < int64_max)%Z).
Definition editable (B : benv) (st : bstate) : Prop := ready st \/ (benv_ok B /\ (e_lag (b_env B) <= int64_max)%Z /\ inv1 B st /\ can_edit B st).
Lemma life_editable B st : benv_ok B -> (e_lag (b_env B) <= int64_max)%Z -> life B tame st -> can_edit B st -> editable B st.
Proof. intros hB hl h hc. right. auto using life_inv1. Qed.
Lemma increment_total B st : benv_ok B -> (e_lag (b_env B) <= int64_max)%Z -> inv1 B st -> (s_seqno st < int64_max)%Z -> exists c, increment (b_env B) (s_conf st) = Ok c.
Proof.
  intros hB hl hi hs. pose proof (i1_nonneg _ _ hi) as hn. pose proof (bo_lag _ hB) as hg.
  assert (main : forall m, m_seqno m = s_seqno st -> exists c, increment_impl (b_env B) m = Ok c).
  { intros m e. unfold increment_impl. cbv zeta. rewrite e. unfold int64_ok, int64_max, int64_min in *.
    replace ((- 2 ^ 63 <=? s_seqno st + 1) && (s_seqno st + 1 <=? 2 ^ 63 - 1))%Z with true by (symmetry; apply andb_true_iff; split; apply Z.leb_le; lia).
    replace ((- 2 ^ 63 <=? s_seqno st - e_lag (b_env B)) && (s_seqno st - e_lag (b_env B) <=? 2 ^ 63 - 1))%Z with true by (symmetry; apply andb_true_iff; split; apply Z.leb_le; lia).
    cbn [negb orb]. rewrite andb_false_r. eauto. }
  destruct (s_conf st) as [m|m o] eqn:ec; cbn [increment].
  - apply main. unfold s_seqno, s_msg. rewrite ec. reflexivity.
  - destruct (serialize_total B st true hB hi hl) as (s & c & h). rewrite ec in h. rewrite h. cbn [bind]. apply main.
    destruct (inv1_serialize B true s c st hi) as [_ e]; [rewrite ec; exact h|]. unfold m_seqno at 1. cbn [m_sh fst]. unfold s_seqno, m_seqno. congruence.
Qed.
Lemma edit_total B f st : editable B st -> exists st', edit B f st = (Ok tt, st') /\ ready st'.
Proof.
  intros h. assert (hd : exists st1, dirty B st = (Ok tt, st1)).
  { destruct h as [(h1 & m & o & h2)|(hB & hl & hi & hr & hc)].
    - unfold dirty, is_dirty. rewrite h1, h2. eauto.
    - destruct (s_state st) eqn:es.
      2: { unfold dirty, is_dirty. rewrite es. destruct (i1_dirty _ _ hi es) as (m & o & e). rewrite e. eauto. }
      all: assert (hlt : (s_seqno st < int64_max)%Z) by (destruct hc as [hc|hc]; [discriminate|exact hc]);
        destruct (increment_total B st hB hl hi hlt) as [c e]; unfold dirty, is_dirty; rewrite es; unfold set_state; rewrite hr; cbn [s_conf]; rewrite e; eauto. }
  destruct hd as [st1 hd]. unfold edit. rewrite hd. apply dirty_ok in hd as (m & o & hc & hs & _). rewrite hc. eexists. split; [reflexivity|].
  split; [exact hs|]. cbn [set_conf s_conf]. eauto.
Qed.
Lemma run_total B o st : is_edit o = true -> editable B st -> exists st', run B o st = (Ok tt, st') /\ editable B st'.
Proof.
  intros ho h. destruct (run B o st) as [x st'] eqn:e. destruct (edit_op_spec B o st x st' ho e) as [[-> ->]|[f g]]; [eauto|].
  destruct (edit_total B f st h) as (st1 & g1 & g2). rewrite g in g1. assert (x = Ok tt) by congruence. assert (st' = st1) by congruence. subst. exists st1. split; [reflexivity|]. left. exact g2.
Qed.
Lemma run_ops_total B l : forall st, forallb is_edit l = true -> editable B st -> exists st', run_ops B l st = (Ok tt, st') /\ editable B st'.
Proof.
  induction l as [|o l ih]; intros st hl h; [exists st; split; [reflexivity|exact h]|]. cbn [forallb] in hl. apply andb_prop in hl as [ho hl].
  destruct (run_total B o st ho h) as (st1 & e & h1). cbn [run_ops]. rewrite e. apply ih; assumption.
Qed.
Lemma op_at_edit pre p : is_edit (op_at pre p) = true. Proof. destruct p as [k [v|]]; reflexivity. Qed.
Lemma run_script_total B pre s st : editable B st -> exists st', run_script B pre s st = (Ok tt, st') /\ editable B st'.
Proof.
  apply run_ops_total. apply forallb_forall. intros o h. apply in_map_iff in h as (p & <- & _). apply op_at_edit.
Qed.
(** a read-only config: an edit that would change something throws *)
Lemma dirty_readonly B st : readonly B = true -> s_state st <> Dirty -> dirty B st = (Throw, st).
Proof. intros hr hs. unfold dirty, is_dirty. destruct (s_state st) eqn:e; try congruence; unfold set_state; rewrite hr; reflexivity. Qed.

(** ** merging what is not usable *)
(** no key opens it, or what is inside cannot be unpacked, or is refused as a config message *)
Definition unusable (B : benv) (st : bstate) (p : bytes * bytes) : Prop :=
  match decrypt_any B (s_keys st) (snd (unwrap1 B st p)) with
  | Ok (Some plain) => match unpack B plain with Some s => parse_msg (b_env B) false s = Err | None => True end
  | Ok None => True
  | _ => False
  end.
Lemma unusable_incoming B st l : Forall (unusable B st) l -> exists inc, incoming B (s_keys st) (map (unwrap1 B st) l) = Ok inc /\ Forall (fun p => parse_msg (b_env B) false (snd p) = Err) inc.
Proof.
  induction 1 as [|p l hp _ (inc & ih & hf)]; [exists []; split; [reflexivity|constructor]|]. unfold unusable in hp. cbn [map incoming]. destruct (unwrap1 B st p) as [h c]. cbn [snd] in hp.
  destruct (decrypt_any B (s_keys st) c) as [[plain|]| | | |]; try contradiction; cbn [bind]; rewrite ih; cbn [bind].
  - destruct (unpack B plain) as [s|]; eexists; (split; [reflexivity|]); [constructor; [exact hp|exact hf]|exact hf].
  - eexists. split; [reflexivity|exact hf].
Qed.
Lemma parse_all_err E l : forall i, Forall (fun s => parse_msg E false s = Err) l -> exists bad, parse_all E i l = Ok ([], bad).
Proof. induction l as [|s l ih]; intros i h; [exists []; reflexivity|]. inversion h as [|x y hx hy]; subst. cbn [parse_all]. rewrite hx. destruct (ih (S i) hy) as [bad e]. rewrite e. cbn [bind]. eauto. Qed.
Lemma merge_single E m : (1 <= e_lag E)%Z -> (0 <= m_seqno m)%Z -> int64_ok (m_seqno m + e_lag E) = true -> merge_parsed E [m] = Ok (set_unmerged (Some 0) m).
Proof.
  intros hl hn ho. unfold merge_parsed. cbn [existsb]. rewrite ho. cbn [negb orb]. unfold marked. cbn [mark superseded app existsb orb mark_old map fst snd].
  assert (hm : max_seqno [m] = m_seqno m).
  { unfold max_seqno. cbn [fold_left]. replace (m_seqno m >? int64_min)%Z with true; [reflexivity|]. symmetry. apply Z.gtb_lt. unfold int64_min. lia. }
  unfold superseded. cbn [app existsb orb]. rewrite hm. replace (m_seqno m + e_lag E <=? m_seqno m)%Z with false by (symmetry; apply Z.leb_gt; lia).
  cbn [filter snd negb first_current]. reflexivity.
Qed.
Lemma merge_unusable B l st : benv_ok B -> inv1 B st -> (s_seqno st + e_lag (b_env B) <= int64_max)%Z -> s_keys st <> [] -> Forall (unusable B st) l ->
  exists st', merge B l st = (if (s_seqno st =? 0)%Z && negb (is_dirty st) then Err else Ok [], st').
Proof.
  intros hB hi hs hk hu. destruct (unusable_incoming B st l hu) as (inc & hin & hf). pose proof (bo_lag _ hB) as hg. pose proof (i1_nonneg _ _ hi) as hn.
  assert (hacc : filter (acceptable B st) l = []).
  { clear - hu. induction hu as [|p l hp _ ih]; [reflexivity|]. cbn [filter]. unfold acceptable at 1. unfold unusable in hp.
    destruct (decrypt_any B (s_keys st) (snd (unwrap1 B st p))) as [[plain|]| | | |]; try contradiction; [|exact ih]. destruct (unpack B plain) as [s|]; [|exact ih]. unfold parses. rewrite hp. exact ih. }
  assert (hf' : Forall (fun s => parse_msg (b_env B) false s = Err) (map snd inc)) by (apply Forall_map; exact hf).
  assert (key : exists x st', merge B l st = (x, st') /\ if (s_seqno st =? 0)%Z && negb (is_dirty st) then x = Err else exists a, x = Ok a).
  { unfold merge, merge_plain. destruct (s_keys st) as [|k0 ks]; [congruence|]. rewrite hin. unfold own_part.
    replace (negb (s_seqno st =? 0)%Z || is_dirty st) with (negb ((s_seqno st =? 0)%Z && negb (is_dirty st))) by (rewrite negb_andb, negb_involutive; reflexivity).
    destruct ((s_seqno st =? 0)%Z && negb (is_dirty st)) eqn:ez; cbn [negb].
    - apply andb_prop in ez as [_ ez]. apply negb_true_iff in ez. rewrite ez. cbn [app]. unfold merge_confs, merge_msgs. destruct (parse_all_err (b_env B) _ 0 hf') as [bad e]. rewrite e. cbn [bind merge_parsed failed]. eauto.
    - destruct (serialize_total B st true hB hi) as (s & c & e); [lia|]. rewrite e. cbn [bind fst snd app map].
      destruct (own_parses B st s c hB hi e ez) as (m0 & hm0 & hq). destruct (parse_all_err (b_env B) _ 1 hf') as [bad eb].
      assert (em : merge_msgs (b_env B) (s :: map snd inc) = Ok (set_unmerged (Some 0) m0, bad)).
      { unfold merge_msgs. cbn [parse_all]. rewrite hm0, eb. cbn [bind]. rewrite merge_single; [reflexivity|exact hg|lia|]. rewrite hq. unfold int64_ok, int64_min, int64_max in *. apply andb_true_iff. split; apply Z.leb_le; lia. }
      unfold merge_confs. destruct (is_dirty st) eqn:ed.
      + unfold merge_mutable. rewrite em. cbn [bind m_unmerged set_unmerged]. unfold increment_impl. cbv zeta. change (m_seqno (set_unmerged (Some 0) m0)) with (m_seqno m0). rewrite hq.
        unfold int64_ok, int64_max, int64_min in *.
        replace ((- 2 ^ 63 <=? s_seqno st + 1) && (s_seqno st + 1 <=? 2 ^ 63 - 1))%Z with true by (symmetry; apply andb_true_iff; split; apply Z.leb_le; lia).
        replace ((- 2 ^ 63 <=? s_seqno st - e_lag (b_env B)) && (s_seqno st - e_lag (b_env B) <=? 2 ^ 63 - 1))%Z with true by (symmetry; apply andb_true_iff; split; apply Z.leb_le; lia).
        cbn [negb orb]. rewrite andb_false_r. cbn [bind c_msg m_unmerged set_unmerged].
        unfold adopt. cbv zeta. cbn [c_msg m_unmerged set_unmerged]. unfold m_seqno at 1 2. cbn [m_sh fst]. replace (s_seqno st + 1 =? s_seqno st)%Z with false by (symmetry; apply Z.eqb_neq; lia). rewrite Z.eqb_refl.
        unfold is_dirty. cbn [set_old set_conf s_state]. unfold is_dirty in ed. destruct (s_state st); try discriminate ed. cbn [andb Nat.eqb]. eauto.
      + rewrite em. cbn [bind fst snd c_msg]. unfold adopt. cbv zeta. cbn [c_msg]. change (m_seqno (set_unmerged (Some 0) m0)) with (m_seqno m0). rewrite hq, Z.eqb_refl. eauto. }
  destruct key as (x & st' & e & hx). exists st'. rewrite e. destruct ((s_seqno st =? 0)%Z && negb (is_dirty st)); [rewrite hx; reflexivity|]. destruct hx as [a ->].
  rewrite (merge_accepts B l st a st' e), hacc. reflexivity.
Qed.
