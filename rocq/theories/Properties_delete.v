(** C110: the hashes a push asks to delete.  Statements; the proofs are in Delete_facts.v, the vocabulary in DeleteSpec.v. *)
From Verif Require Import BaseSpec DeleteSpec Data_facts Maps Base_facts Dump_facts Life_facts Life2_facts Life3_facts Life4_facts Conf_facts Conf2_facts Conf5_facts Delete_facts Toy ToyCrypt ToyBase Properties_base Properties_sync.

Lemma push_out B st n c o st' : push B st = (Ok (n, c, o), st') -> s_old st' = [] /\
  exists k s conf st2, (exists r, s_keys st = k :: r) /\ serialize (b_env B) (s_conf st) true = Ok (s, conf) /\ o = (if readonly B then [] else s_old st2) /\ st' = set_old [] st2 /\
    ((is_dirty st = true /\ set_state B Waiting (set_conf conf st) = (Ok tt, st2)) \/ (is_dirty st = false /\ st2 = set_conf conf st)).
Proof.
  intros h. apply push_spec in h as [(hx & _)|(k & s & conf & c0 & st2 & hk & hs & _ & _ & hst & hout & ->)]; [exfalso; eapply hx; reflexivity|]. cbv zeta in hout. injection hout as _ _ ->.
  split; [reflexivity|]. exists k, s, conf, st2. auto 10.
Qed.
Lemma push_known K B st n c o st' : known_hashes K st -> push B st = (Ok (n, c, o), st') -> NoDup o /\ forall h, In h o -> h <> [] /\ K h.
Proof.
  intros hk h. destruct (push_out _ _ _ _ _ _ h) as (_ & k & s & conf & st2 & _ & _ & -> & _ & hst).
  assert (hk2 : known_hashes K st2).
  { assert (hc : known_hashes K (set_conf conf st)) by (eapply known_parts; [..|exact hk]; reflexivity). destruct hst as [(_ & h2)|(_ & ->)]; [eapply known_set_state; eauto|exact hc]. }
  destruct (readonly B); [split; [constructor|intros ? []]|]. split; [apply ssorted_NoDup, (kh_sorted _ _ hk2)|apply (kh_old _ _ hk2)].
Qed.
(** At any point of a config's life, through calls, dumps, restarts and promotions: if all the hashes it was ever given (of messages
    fetched, and of its own messages stored) are in [K], then a push lists only hashes of [K], none of them empty, and none twice. *)
Theorem C110_source B K st n c o st' : benv_ok B -> life B (told_only K) st -> push B st = (Ok (n, c, o), st') -> NoDup o /\ forall h, In h o -> h <> [] /\ K h.
Proof. intros hB hl hp. eapply push_known; [apply (known_life K B st hB hl)|exact hp]. Qed.
Print Assumptions C110_source.
(** Between two pushes that list the same hash, the config was told about the hash again, or the first push listed a hash that was
    still that of the current message. *)
Theorem C110_not_twice B R st n c o st1 l st2 n2 c2 o2 st3 h : push B st = (Ok (n, c, o), st1) -> steps B R st1 l st2 -> push B st2 = (Ok (n2, c2, o2), st3) ->
  In h o -> In h o2 -> (exists x, In x l /\ In h (told x)) \/ In h (current_hashes st1).
Proof.
  intros h1 hs h2 _ hin. destruct (push_out _ _ _ _ _ _ h1) as [he _].
  set (K := fun h => (exists x, In x l /\ In h (told x)) \/ In h (current_hashes st1)).
  assert (hk : known_hashes K st1).
  { split; rewrite ?he; [|intros ? []|constructor]. intros hne. right. unfold current_hashes. destruct (s_curr st1); [congruence|left; reflexivity]. }
  assert (hk2 : known_hashes K st2) by (eapply known_steps; [exact hk| |exact hs]; intros x hx h0 h0in; left; eauto).
  exact (proj2 (proj2 (push_known _ _ _ _ _ _ _ hk2 h2) h hin)).
Qed.
Print Assumptions C110_not_twice.
(** The list is handed out once: a client whose upload failed and that pushes again at once is given no hashes. *)
Theorem C110_retry_empty B st n c o st1 n2 c2 o2 st2 : benv_ok B -> life B tame st -> push B st = (Ok (n, c, o), st1) -> push B st1 = (Ok (n2, c2, o2), st2) -> o2 = [] /\ n2 = n.
Proof.
  intros hB hl h1 h2. pose proof (i1_0 _ _ (life_inv1 _ _ hB hl)) as h0. destruct (push_out _ _ _ _ _ _ h1) as (he & k & s & conf & st' & _ & hs & _ & e1 & hst).
  assert (hd1 : s_old st1 = [] /\ is_dirty st1 = false).
  { split; [exact he|]. subst st1. destruct hst as [(_ & g)|(g & ->)]; [|exact g]. apply set_state_spec in g as [(g & _)|(_ & _ & g & _)]; [discriminate|]. unfold is_dirty. cbn [set_old s_state]. rewrite g. reflexivity. }
  destruct hd1 as [hd1 hd2]. destruct (push_out _ _ _ _ _ _ h2) as (_ & k2 & s2 & conf2 & st2' & _ & _ & -> & _ & hst2).
  split.
  - destruct hst2 as [(g & _)|(_ & ->)]; [congruence|]. cbn [set_conf s_old]. rewrite hd1. destruct (readonly B); reflexivity.
  - apply push_spec in h1 as [(hx & _)|(k1 & s1 & conf1 & c1 & st3 & _ & hs1 & _ & _ & hst1 & hout1 & e3)]; [exfalso; eapply hx; reflexivity|]. cbv zeta in hout1. injection hout1 as -> _ _.
    apply push_spec in h2 as [(hx & _)|(k3 & s3 & conf3 & c3 & st4 & _ & hs3 & _ & _ & hst3 & hout3 & _)]; [exfalso; eapply hx; reflexivity|]. cbv zeta in hout3. injection hout3 as -> _ _.
    rewrite e3.
    assert (e4 : s_conf st3 = conf1) by (destruct hst1 as [(_ & g)|(_ & ->)]; [apply set_state_spec in g as [(g & _)|(_ & g & _)]; [discriminate|exact g]|reflexivity]).
    destruct (inv1_serialize _ _ _ _ _ (life_inv1 _ _ hB hl) hs1) as [_ a2]. pose proof (sh_seqno _ _ a2) as hq.
    transitivity (s_seqno (set_conf conf1 st)); [|exact hq]. unfold s_seqno, s_msg. cbn [set_old set_conf s_conf]. rewrite e4. reflexivity.
Qed.
Print Assumptions C110_retry_empty.
(** So the English claim, that a push lists the hashes its message makes obsolete, fails for the push that is repeated. *)
Theorem C110_retry_refuted : ~ (forall B st n c o st1 n2 c2 o2 st2, benv_ok B -> life B tame st -> push B st = (Ok (n, c, o), st1) -> push B st1 = (Ok (n2, c2, o2), st2) ->
  forall h, In h o -> In h o2).
Proof.
  intros h. destruct ex_C27 as [hl (c & st1 & hp & _)].
  assert (h2 : exists n2 c2 o2 st2, push tb st1 = (Ok (n2, c2, o2), st2)).
  { assert (e : st1 = snd (push tb w6)) by (rewrite hp; reflexivity). rewrite e. do 4 eexists. vm_compute. reflexivity. }
  destruct h2 as (n2 & c2 & o2 & st2 & h2). specialize (h tb w6 _ _ _ _ _ _ _ _ tb_ok (once_life _ _ hl) hp h2 (b "h") (or_introl eq_refl)).
  destruct (C110_retry_empty tb w6 _ _ _ _ _ _ _ _ tb_ok (once_life _ _ hl) hp h2) as [-> _]. exact h.
Qed.
Print Assumptions C110_retry_refuted.
(** the client [w6] of Properties_sync: it pushed, was told that its message is stored as "h", edited, and now pushes again *)
Lemma told_step (K : bytes -> Prop) B o st st' : step B (tame B) st o st' -> (forall h, In h (told o) -> K h) -> step B (told_only K B) st o st'.
Proof. intros [o' x st1 h1 h2 h3] hk. eapply step_run; [exact h1|exact h2|split; assumption]. Qed.
Example ex_C110 : life tb (told_only (fun h => h = b "h")) w6 /\ exists c st', push tb w6 = (Ok (2%Z, c, [b "h"]), st').
Proof.
  split; [|destruct ex_C27 as [_ (c & st' & h & _)]; eauto].
  assert (he : forall st o st', step tb (once tb) st o st' -> (forall h, In h (told o) -> h = b "h") -> step tb (told_only (fun h => h = b "h") tb) st o st').
  { intros st o st' [o' x st1 h1 h2 [h3 _]] hk. eapply step_run; [exact h1|exact h2|split; assumption]. }
  apply (life_step _ _ w4 (set_name "z")); [|apply he; [apply once_edit; [reflexivity|reflexivity|vm_compute; reflexivity|vm_compute; reflexivity]|intros ? []]].
  apply (life_step _ _ w2 (OpConfirm 1 (b "h"))).
  2: { apply told_step; [|intros h [<-|[]]; reflexivity]. apply step_run with (x := Ok tt); [vm_compute; reflexivity|split; discriminate|]. split; [exact I|vm_compute; reflexivity]. }
  apply (life_step _ _ w1 OpPush).
  2: { apply told_step; [|intros ? []]. apply step_run with (x := Ok tt); [vm_compute; reflexivity|split; discriminate|]. split; [exact I|vm_compute; reflexivity]. }
  apply (life_step _ _ (start tb) (set_name "x")); [apply life_fresh|]. apply he; [apply once_edit; [reflexivity|reflexivity|vm_compute; reflexivity|vm_compute; reflexivity]|intros ? []].
Qed.
(** A merge in which every message was reported good: afterwards each of those messages is the config's current one, or the next
    push that publishes anything lists it.  (That a message can be left unreported is C14_index_refuted.) *)
Theorem C110_superseded B st l st' n c o st'' h : benv_ok B -> life B tame st -> readonly B = false -> op_ok B (OpMerge l) st ->
  merge B l st = (Ok (map fst l), st') -> push B st' = (Ok (n, c, o), st'') -> n <> 0%Z -> In h (map fst l) -> h <> [] ->
  In h (current_hashes st') \/ In h o.
Proof.
  intros hB hl hro hok hm hp hn hin hne.
  assert (hi : inv1 B st') by (exact (proj1 (merge_move _ _ _ _ _ hB (life_inv1 _ _ hB hl) hok hm))).
  pose proof hp as hp0. apply push_out in hp as (_ & k & s & conf & st2 & _ & hs & -> & _ & hst).
  assert (hq : s_seqno st' <> 0%Z).
  { apply push_spec in hp0 as [(hx & _)|(k1 & s1 & conf1 & c1 & st3 & _ & hs1 & _ & _ & hst1 & hout1 & e3)]; [exfalso; eapply hx; reflexivity|]. cbv zeta in hout1. injection hout1 as -> _ _.
    exact hn. }
  destruct (merge_lists _ _ _ _ _ hB (life_inv1 _ _ hB hl) hro hok hm hq hin hne) as [e|hin2].
  - left. unfold current_hashes. rewrite e. destruct h; [congruence|left; reflexivity].
  - right. rewrite hro. destruct hst as [(_ & h2)|(_ & ->)]; [eapply set_state_keeps; [exact h2|]|]; exact hin2.
Qed.
Print Assumptions C110_superseded.
(** the client above, told that its message is stored as "h", fetches another device's message, "g", that sets "m" *)
Definition del_other : bytes := Eval vm_compute in match fst (push tb (after tb (OpAssign [] (b "m") (VScal (SStr (b "y")))) (start tb))) with Ok (_, c, _) => c | _ => [] end.
Definition del_merged : bstate := Eval vm_compute in snd (merge tb [(b "g", del_other)] w4).
Example ex_C110_superseded : life tb tame w4 /\ op_ok tb (OpMerge [(b "g", del_other)]) w4 /\ merge tb [(b "g", del_other)] w4 = (Ok [b "g"], del_merged) /\ exists c st', push tb del_merged = (Ok (2%Z, c, [b "g"; b "h"]), st').
Proof.
  split; [exact w4_life|]. split.
  - set (i := get_ok [] (incoming tb (s_keys w4) (map (unwrap1 tb w4) [(b "g", del_other)]))). vm_compute in i.
    set (o := get_ok ([], w4) (own_part tb w4)). vm_compute in o.
    apply (merge_op_ok _ _ _ (fst o) i); [vm_compute; reflexivity|vm_compute; reflexivity|apply no_collisionb_ok; vm_compute; reflexivity|..].
    + intros s [<-|[]]. vm_compute. reflexivity.
    + intros hv. exfalso. apply hv. reflexivity.
  - split; [vm_compute; reflexivity|]. do 2 eexists. vm_compute. reflexivity.
Qed.
