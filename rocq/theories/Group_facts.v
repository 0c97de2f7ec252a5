(** The info and members configs always have the keys of the keys object. *)
From Verif Require Import Group KeyList_facts Keys_facts Keys2_facts Keys3_facts Keys5_facts Conf2_facts.

Definition has_keys (o : kobj) (st : bstate) : Prop := s_keys st = nub (group_keys o).
Lemma group_keys_len o : kinv o -> forall k, In k (group_keys o) -> length k = 32.
Proof.
  intros hi k hk. unfold group_keys in hk. apply in_app_or in hk as [hk|hk].
  - destruct (ko_pconf o) eqn:E; [destruct hk|]. cbn [is_nil] in hk. destruct hk as [<-|[]]. apply (ki_pend o hi). rewrite E. discriminate.
  - apply in_map_iff in hk as (x & <- & hx). apply in_rev in hx. pose proof (ki_fine o hi) as hf. rewrite Forall_forall in hf. apply (hf x hx).
Qed.
Lemma give_keys B o d st : kinv o -> NoDup (s_keys st) -> has_keys o (give B (group_keys o) d st).
Proof.
  intros hi hn. unfold has_keys, give. destruct (replace_keys B (group_keys o) d st) as [x st'] eqn:E.
  exact (key_op_keys B (OpReplaceKeys (group_keys o) d) st x st' eq_refl (group_keys_len o hi) hn E).
Qed.
(** a message without keys for us does not change the keys *)
Lemma take_none h gen o : kinv o -> group_keys (take_in h [] gen o) = group_keys o.
Proof.
  intros hi. unfold take_in, remove_expired, with_keys, group_keys. cbn [ko_keys ko_pconf ko_pkey]. rewrite (ki_expired o hi). reflexivity.
Qed.
Record ginv (g : group) : Prop := { gi_inv : kinv (gr_keys g); gi_info : has_keys (gr_keys g) (gr_info g); gi_mem : has_keys (gr_keys g) (gr_members g) }.
Lemma has_NoDup o st : has_keys o st -> NoDup (s_keys st).
Proof. intros ->. apply nub_NoDup. Qed.
Lemma ginv_step G g g' : lib_ok G -> ginv g -> gstep G g g' -> ginv g'.
Proof.
  intros hG [i1 i2 i3] hs. destruct hs as [Bi Bm h data ts g found o' hl|Bi Bm sids g m o' hr|g|secret g o' ha|Bi Bm g i m o' hsz hl n1 n2|Bi o x g i' ho hr|Bm o x g m' ho hr].
  - pose proof (kinv_step G _ _ hG (ks_load G _ _ _ _ _ _ hl) i1) as hi. destruct found.
    + split; cbn [gr_keys gr_info gr_members]; [exact hi|..]; apply give_keys; eauto using has_NoDup.
    + apply load_inv in hl as (ks & gen & s & sig & _ & _ & -> & hf). destruct ks; [|discriminate]. split; cbn [gr_keys gr_info gr_members]; [exact hi|..]; unfold has_keys; rewrite take_none by exact i1; assumption.
  - pose proof (kinv_step G _ _ hG (ks_rekey G _ _ _ _ hr) i1) as hi. split; cbn [gr_keys gr_info gr_members]; [exact hi|..]; apply give_keys; eauto using has_NoDup.
  - split; cbn [gr_keys gr_info gr_members]; [exact (kinv_step G _ _ hG (ks_dump G _) i1)|exact i2|exact i3].
  - pose proof (kinv_step G _ _ hG (ks_admin G _ _ _ ha) i1) as hi.
    assert (hk : group_keys o' = group_keys (gr_keys g)).
    { unfold load_admin_key in ha. destruct (admin _); [injection ha as <-; reflexivity|]. destruct (negb _); [discriminate|]. cbv zeta in ha. destruct (negb _); [discriminate|]. injection ha as <-. reflexivity. }
    split; cbn [gr_keys gr_info gr_members]; [exact hi|..]; unfold has_keys; rewrite hk; assumption.
  - pose proof (kinv_step G _ _ hG (ks_restart G _ _ hsz hl) i1) as hi. split; cbn [gr_keys gr_info gr_members]; [exact hi|..]; apply give_keys; auto.
  - split; cbn [gr_keys gr_info gr_members]; [exact i1| |exact i3]. unfold has_keys. rewrite (other_op_keys _ _ _ _ _ ho hr). exact i2.
  - split; cbn [gr_keys gr_info gr_members]; [exact i1|exact i2|]. unfold has_keys. rewrite (other_op_keys _ _ _ _ _ ho hr). exact i3.
Qed.
Lemma greach_inv G g : lib_ok G -> greach G g -> ginv g.
Proof.
  intros hG h. induction h as [u p s i m _ _ _ h1 h2|g g' h IH hs]; [|exact (ginv_step G g g' hG IH hs)].
  split; cbn [gr_keys gr_info gr_members]; [apply kinv_new|exact h1|exact h2].
Qed.
Lemma enc_key_head o : group_enc_key o = match group_keys o with k :: _ => Ok k | [] => Throw end.
Proof. unfold group_enc_key, group_keys. destruct (is_nil (ko_pconf o)); cbn [negb app]; [|reflexivity]. destruct (rev (ko_keys o)); reflexivity. Qed.
Lemma nub_head l : hd_error (nub l) = hd_error l. Proof. destruct l; reflexivity. Qed.

(** ** the dump flag *)
Lemma kdump_restored q u p s : kdump (restored q u p s) = kdump q.
Proof. unfold kdump, restored. cbn [ko_keys ko_active ko_pconf ko_pgen ko_pkey]. destruct (is_nil (ko_pconf q)); reflexivity. Qed.
Lemma khist_inv G d o : lib_ok G -> khist G (only_news G) d o -> kinv o /\ (exists q, kinv q /\ kdump q = d) /\ (ko_needs_dump o = false -> kdump o = d).
Proof.
  intros hG h. induction h as [u p s|d o h data ts r o' h0 IH hn hl|d o sids m o' h0 IH hr|d o secret o' h0 IH ha|d o h0 IH|d o o' h0 IH hz hl].
  - split; [apply kinv_new|]. split; [|auto]. exists (new_keys u p s). split; [apply kinv_new|reflexivity].
  - destruct IH as (i1 & i2 & i3). split; [exact (kinv_step G _ _ hG (ks_load G _ _ _ _ _ _ hl) i1)|]. split; [exact i2|]. intros hf. pose proof hl as hl'. apply load_inv in hl' as (ks & gen & s & sig & h1 & h2 & -> & _).
    destruct (take_flag h ks gen o) as [h3|h3].
    + intros k y hk hy. destruct (same_key y k) eqn:E; [|reflexivity]. exfalso. apply same_key_spec in E as [e1 e2]. apply (hn ks) with (k := k) (y := y); auto; [|unfold key_id; congruence].
      unfold contents. cbn [fst snd]. rewrite h1, h2. reflexivity.
    + congruence.
    + rewrite h3. apply i3. destruct (ko_needs_dump o) eqn:E; [|reflexivity]. exfalso.
      assert (ht : ko_needs_dump (take_in h ks gen o) = true); [|congruence].
      unfold take_in. destruct ks as [|k ks]; [reflexivity|]. apply inserts_flag_mono. unfold drop_pending. destruct (_ && _); [reflexivity|exact E].
  - destruct IH as (i1 & i2 & i3). split; [exact (kinv_step G _ _ hG (ks_rekey G _ _ _ _ hr) i1)|]. split; [exact i2|]. apply rekey_inv in hr as (sk & gen & key & _ & _ & _ & _ & _ & ->). discriminate.
  - destruct IH as (i1 & i2 & i3). split; [exact (kinv_step G _ _ hG (ks_admin G _ _ _ ha) i1)|]. split; [exact i2|]. unfold load_admin_key in ha. destruct (admin o); [injection ha as <-; auto|]. destruct (negb _); [discriminate|]. cbv zeta in ha. destruct (negb _); [discriminate|]. injection ha as <-. exact i3.
  - destruct IH as (i1 & i2 & i3). split; [exact (kinv_step G _ _ hG (ks_dump G _) i1)|]. split; [|reflexivity]. exists o. auto.
  - destruct IH as (i1 & (q & q1 & q2) & i3). subst d. unfold KeysSpec.fresh in hl. rewrite load_kdump in hl by assumption. injection hl as <-.
    split; [|split; [exists q; auto|intros _; apply kdump_restored]].
    destruct q1. split; auto. cbn. intros hp. destruct (ko_pconf q) eqn:E; [destruct hp; reflexivity|]. apply ki_pend. discriminate.
Qed.
