(** C91, C92: several devices of one account.  Statements only; proofs are in Converge_facts.v and Plain_facts.v, the
    vocabulary is in ConvergeSpec.v and BaseSpec.v. *)
From Verif Require Import ConvergeSpec Life_facts Conf_facts Conf2_facts Conf3_facts Converge_facts Plain_facts Toy ToyCrypt ToyBase Properties_base Properties_sync.

(** ** C92 *)
(** A merge of valid messages succeeds: if the client only ever received messages of the form the library writes, and all
    it receives now is of this form or rejected as invalid, at least one message (its own counts) is valid, and no seqno is
    at the end of the 64-bit range. *)
Theorem C92_merge_succeeds B l st mine inc : benv_ok B -> life B plainly st -> s_keys st <> [] -> merge_sees B l st mine inc -> no_collision (b_env B) (map snd (mine ++ inc)) ->
  (s_seqno st + e_lag (b_env B) < 2 ^ 63)%Z -> (forall h s, In (h, s) inc -> decent (b_env B) s) ->
  (exists s m, In s (map snd (mine ++ inc)) /\ parse_msg (b_env B) false s = Ok m) -> exists hs st', merge B l st = (Ok hs, st').
Proof. exact (merge_total B l st mine inc). Qed.
(** What such a client publishes is again of this form, so a group of clients that only talk to each other meets the
    hypothesis for ever. *)
Theorem C92_published B st s m : benv_ok B -> life B plainly st -> publishes B st s -> parse_msg (b_env B) false s = Ok m -> plain_msg m.
Proof. exact (published_plain B st s m). Qed.
(** Other messages are accepted too, and then make a merge fail: a message whose change set says that the one element added
    to a set is a dict is adopted by itself, but as soon as it conflicts with another message every merge throws. *)
Definition odd_msg : bytes := b "d1:#i1e1:&d1:al1:xee1:<le1:=d1:alldeeleeee".
Theorem C92_odd_refuted : ~ (forall B l st mine inc, benv_ok B -> life B tame st -> s_keys st <> [] -> op_ok B (OpMerge l) st -> merge_sees B l st mine inc ->
  (forall h s, In (h, s) inc -> exists m, parse_msg (b_env B) false s = Ok m /\ room (b_env B) (m_seqno m)) -> mine <> [] -> (s_seqno st + e_lag (b_env B) < 2 ^ 63)%Z ->
  exists hs st', merge B l st = (Ok hs, st')).
Proof.
  intros h. assert (hl : exists hs st', merge tb [(b "g", sealed odd_msg)] w2 = (Ok hs, st')).
  { assert (hsee : merge_sees tb [(b "g", sealed odd_msg)] w2 [([], snd (hd ([], []) (match own_part tb w2 with Ok (x, _) => x | _ => [] end)))] [(b "g", odd_msg)]).
    { split; [eexists|]; vm_compute; reflexivity. }
    assert (hpar : exists m, parse_msg (b_env tb) false odd_msg = Ok m /\ room (b_env tb) (m_seqno m) /\ (0 <= m_seqno m)%Z).
    { eexists. split; [vm_compute; reflexivity|]. split; [split; [apply Z.leb_le|apply Z.ltb_lt]; vm_compute; reflexivity|apply Z.leb_le; vm_compute; reflexivity]. }
    destruct hpar as (m & p1 & p2 & p3).
    eapply h; [exact tb_ok|exact w2_life|discriminate| |exact hsee| |discriminate|apply Z.ltb_lt; vm_compute; reflexivity].
    - intros mine inc hs. assert (e : mine = [([], snd (hd ([], []) (match own_part tb w2 with Ok (x, _) => x | _ => [] end)))] /\ inc = [(b "g", odd_msg)]).
      { destruct hs as [(a & ho) hi], hsee as [(a' & ho') hi']. split; congruence. }
      destruct e as [-> ->]. split; [apply no_collisionb_ok; vm_compute; reflexivity|]. split; [|intros hv; exfalso; apply hv; reflexivity].
      intros h0 s m0 [e|[]] hp. injection e as <- <-. congruence.
    - intros h0 s [e|[]]. injection e as <- <-. eauto. }
  destruct hl as (hs & st' & hm). vm_compute in hm. discriminate.
Qed.
(** the same message alone is adopted *)
Example ex_C92_odd : fst (merge tb [(b "g", sealed odd_msg)] (start tb)) = Ok [b "g"] /\ s_data (snd (merge tb [(b "g", sealed odd_msg)] (start tb))) = [(b "a", VSet [SStr (b "x")])].
Proof. split; vm_compute; reflexivity. Qed.
Print Assumptions C92_merge_succeeds.
Print Assumptions C92_published.
Print Assumptions C92_odd_refuted.

(** ** C91 *)
(** Two devices that differ in any way (different edits, versions, histories) but can write and have nothing unsaved merge
    the same set of messages, their own included: if one succeeds so does the other, and then they hold the same config. *)
Theorem C91_same_messages B st B' st' l l' mine mine' inc inc' hs st2 :
  settled_writer B st -> settled_writer B' st' -> b_env B' = b_env B ->
  merge_sees B l st mine inc -> merge_sees B' l' st' mine' inc' ->
  (forall x, In x (map snd (mine ++ inc)) <-> In x (map snd (mine' ++ inc'))) -> no_collision (b_env B) (map snd (mine ++ inc)) ->
  (exists s m, In s (map snd (mine ++ inc)) /\ parse_msg (b_env B) false s = Ok m /\ (0 < m_seqno m)%Z) ->
  merge B l st = (Ok hs, st2) -> exists hs' st2', merge B' l' st' = (Ok hs', st2') /\ agree B st2 B' st2'.
Proof. exact (same_messages B st B' st' l l' mine mine' inc inc' hs st2). Qed.
(** Any number of devices of an account, with any edits, push what they have and merge what the others pushed: every merge
    succeeds, and all devices hold the same config. *)
Theorem C91_exchange {I : Type} (B : I -> benv) st c st1 l : plain_group B st -> (exists i, 0 < s_seqno (st i))%Z -> all_push B st c st1 -> all_fetch B st c st1 l ->
  forall i, exists hs st2, merge (B i) (l i) (st1 i) = (Ok hs, st2) /\ forall j, exists hs' st2', merge (B j) (l j) (st1 j) = (Ok hs', st2') /\ agree (B i) st2 (B j) st2'.
Proof. exact (group_exchange B st c st1 l). Qed.
(** They are then again such a group, so this can be repeated ... *)
Theorem C91_again {I : Type} (B : I -> benv) st c st1 l st2 : plain_group B st -> (forall i, s_seqno (st i) + 1 + e_lag (b_env (B i)) < 2 ^ 63)%Z -> (exists i, 0 < s_seqno (st i))%Z ->
  all_push B st c st1 -> all_fetch B st c st1 l -> all_merge B l st1 st2 -> plain_group B st2 /\ forall i, (0 < s_seqno (st2 i))%Z.
Proof. intros h1 h2 h3 h4 h5 h6. destruct (group_after B st c st1 l st2 h1 h2 h3 h4 h5 h6) as (q1 & _ & q2 & _). auto. Qed.
(** ... and the second exchange ends it: the content is that of the first exchange on every device, no device has anything
    left to push, and all would publish the same bytes. *)
Theorem C91_two_rounds {I : Type} (B : I -> benv) st c st1 l st2 c' st3 l' st4 : plain_group B st -> (forall i, s_seqno (st i) + 1 + e_lag (b_env (B i)) < 2 ^ 63)%Z -> (exists i, 0 < s_seqno (st i))%Z ->
  all_push B st c st1 -> all_fetch B st c st1 l -> all_merge B l st1 st2 -> all_push B st2 c' st3 -> all_fetch B st2 c' st3 l' -> all_merge B l' st3 st4 ->
  forall i j, s_data (st4 i) = s_data (st2 j) /\ s_seqno (st4 i) = s_seqno (st2 j) /\ s_state (st4 i) <> Dirty /\ forall z, publishes (B i) (st4 i) z <-> publishes (B j) (st2 j) z.
Proof. exact (two_rounds B st c st1 l st2 c' st3 l' st4). Qed.
Print Assumptions C91_same_messages.
Print Assumptions C91_exchange.
Print Assumptions C91_again.
Print Assumptions C91_two_rounds.
(** two devices: one sets "n", the other "m"; both push, and fetch the other's message; both again *)
Definition devb : bstate := Eval vm_compute in after tb (OpAssign [] (b "m") (VScal (SStr (b "y")))) (start tb).
Definition dev_st (i : bool) : bstate := if i then w1 else devb.
Definition out_of (x : call (Z * bytes * list bytes)) : bytes := match fst x with Ok (_, c, _) => c | _ => [] end.
Definition dev_ca : bytes := Eval vm_compute in out_of (push tb w1).
Definition dev_cb : bytes := Eval vm_compute in out_of (push tb devb).
Definition dev_c (i : bool) : bytes := if i then dev_ca else dev_cb.
Definition dev_1a : bstate := Eval vm_compute in snd (push tb w1).
Definition dev_1b : bstate := Eval vm_compute in snd (push tb devb).
Definition dev_1 (i : bool) : bstate := if i then dev_1a else dev_1b.
Definition dev_l (i : bool) : list (bytes * bytes) := [(b "h", dev_c (negb i))].
Definition dev_2a : bstate := Eval vm_compute in snd (merge tb (dev_l true) dev_1a).
Definition dev_2b : bstate := Eval vm_compute in snd (merge tb (dev_l false) dev_1b).
Definition dev_2 (i : bool) : bstate := if i then dev_2a else dev_2b.
Lemma dev_life : life tb plainly (dev_st true) /\ life tb plainly (dev_st false).
Proof.
  split; (eapply (life_step _ _ (start tb)); [apply life_fresh|]; eapply step_run with (x := Ok tt); [|split; discriminate|split; [split|]]).
  - instantiate (1 := set_name "x"). vm_compute. reflexivity.
  - reflexivity.
  - vm_compute. reflexivity.
  - exact Logic.I.
  - instantiate (1 := OpAssign [] (b "m") (VScal (SStr (b "y")))). vm_compute. reflexivity.
  - reflexivity.
  - vm_compute. reflexivity.
  - exact Logic.I.
Qed.
Lemma dev_group : plain_group (fun _ => tb) dev_st.
Proof.
  split; [split| |].
  - intros _. exact toy_aead_ok.
  - intros _. exact tb_ok.
  - reflexivity.
  - intros _ _. exact tb_peer.
  - reflexivity.
  - intros i. apply plainly_life. destruct i; apply dev_life.
  - intros i j s c s0 c0 h1 h2. apply no_collisionb_ok. destruct i, j; vm_compute in h1, h2; injection h1 as <- _; injection h2 as <- _; vm_compute; reflexivity.
  - intros i. destruct i; apply dev_life.
  - intros i. destruct i; apply Z.ltb_lt; vm_compute; reflexivity.
Qed.
Example ex_C91 : plain_group (fun _ => tb) dev_st /\ (forall i, s_seqno (dev_st i) + 1 + e_lag (b_env tb) < 2 ^ 63)%Z /\ (exists i, 0 < s_seqno (dev_st i))%Z /\ all_push (fun _ => tb) dev_st dev_c dev_1 /\ all_fetch (fun _ => tb) dev_st dev_c dev_1 dev_l /\
  all_merge (fun _ => tb) dev_l dev_1 dev_2 /\ s_state (dev_2 true) = Dirty /\ s_seqno (dev_2 false) = 2%Z /\
  s_data (dev_2 true) = [(b "m", VScal (SStr (b "y"))); (b "n", VScal (SStr (b "x")))] /\ s_data (dev_2 false) = s_data (dev_2 true).
Proof.
  split; [exact dev_group|]. split; [intros i; destruct i; apply Z.ltb_lt; vm_compute; reflexivity|]. split; [exists true; reflexivity|].
  split. { intros i. destruct i; (do 3 eexists; split; [vm_compute; reflexivity|left; reflexivity]). }
  split.
  { split.
    - intros i h x [e|[]]. exists (negb i). congruence.
    - intros i j. destruct i, j; cbn [dev_l negb map snd]; [right; split; reflexivity|left; left; reflexivity|left; left; reflexivity|right; split; reflexivity].
    - intros i j k rest hk. assert (e : k = toy_key) by (destruct i; vm_compute in hk; injection hk as hk _; rewrite <- hk; reflexivity). subst k. assert (ek : s_keys (dev_1 j) = [toy_key]) by (destruct j; reflexivity). exists [], []. rewrite ek. split; [reflexivity|]. split; [reflexivity|intros k' []]. }
  split. { intros i. destruct i; (eexists; vm_compute; reflexivity). }
  split; [reflexivity|]. split; [reflexivity|]. split; reflexivity.
Qed.
(** merging goes through although the messages conflict *)
Example ex_C92 : life tb plainly (dev_st true) /\ fst (merge tb [(b "h", dev_c false); (b "g", b "rubbish")] (dev_st true)) = Ok [b "h"].
Proof. split; [apply dev_life|vm_compute; reflexivity]. Qed.
