(** C100: an edit that no other device contradicts.  Statements only; proofs are in Solo_facts.v, the vocabulary is in
    SoloSpec.v and NetSpec.v. *)
From Verif Require Import SoloSpec Life_facts Life4_facts Conf_facts Conf2_facts Conf3_facts Converge_facts Plain_facts Fields_facts Redeliver_facts Net_facts Solo_facts Toy ToyCrypt ToyBase Properties_base Properties_sync Properties_converge.

(** ** C100 *)
(** In general such an edit can be lost.  Three devices are in step, with "p" = "u".  One sets "p" to "v"; the other two set
    other fields and push, and one of them fetches the other's message and pushes the merged config.  The change record of that
    message names every field as newly set, "p" included, because the merged config does not know what it was merged from;
    so when all devices sync, "p" is "u" again everywhere, although nobody but the first device ever touched it. *)
Definition tri : Type := option bool.
Definition tri_b : tri -> benv := fun _ => tb.
Definition tri_eqb (i j : tri) : bool := match i, j with None, None => true | Some x, Some y => Bool.eqb x y | _, _ => false end.
Definition t_set (k v : string) : op := OpAssign [] (b k) (VScal (SStr (b v))).
Definition t_after (N : net tri) (i : tri) (es : list op) (cs : list bytes) (x : bstate) : net tri :=
  mkNet tri (fun j => if tri_eqb j i then x else dev N j) (fun c => In c cs \/ sent N c) (es ++ did N) (S (calls N)) (fun j z => past N j z \/ (j = i /\ z = x)).
Definition t_a0 : bstate := Eval vm_compute in after tb (t_set "p" "u") (start tb).
Definition t_c0 : bytes := Eval vm_compute in out_of (push tb t_a0).
Definition t_a1 : bstate := Eval vm_compute in snd (push tb t_a0).
Definition t_b1 : bstate := Eval vm_compute in snd (merge tb [(b "h0", t_c0)] (start tb)).
Definition t_a2 : bstate := Eval vm_compute in after tb (t_set "p" "v") t_a1.
Definition t_b2 : bstate := Eval vm_compute in after tb (t_set "q" "1") t_b1.
Definition t_d2 : bstate := Eval vm_compute in after tb (t_set "r" "2") t_b1.
Definition t_cb : bytes := Eval vm_compute in out_of (push tb t_b2).
Definition t_b3 : bstate := Eval vm_compute in snd (push tb t_b2).
Definition t_cd : bytes := Eval vm_compute in out_of (push tb t_d2).
Definition t_d3 : bstate := Eval vm_compute in snd (push tb t_d2).
Definition t_d4 : bstate := Eval vm_compute in snd (merge tb [(b "h2", t_cb)] t_d3).
Definition t_n0 : net tri := mkNet tri (fun _ => start tb) (fun _ => False) [] 0 (fun _ z => z = start tb).
Definition t_n4 : net tri := t_after (t_after (t_after (t_after t_n0 None [t_set "p" "u"] [] t_a0) None [] [t_c0] t_a1) (Some true) [] [] t_b1) (Some false) [] [] t_b1.
Definition t_n7 : net tri := t_after (t_after (t_after t_n4 None [t_set "p" "v"] [] t_a2) (Some true) [t_set "q" "1"] [] t_b2) (Some false) [t_set "r" "2"] [] t_d2.
Definition t_n10 : net tri := t_after (t_after (t_after t_n7 (Some true) [] [t_cb] t_b3) (Some false) [] [t_cd] t_d3) (Some false) [] [] t_d4.
Lemma t_step N i es cs x : does tb toy_key (sent N) (past N i) (dev N i) es cs x -> sendable (s_data x) -> net_step tri_b toy_key N (t_after N i es cs x) i es cs.
Proof.
  intros h1 h2. assert (e : (if tri_eqb i i then x else dev N i) = x) by (destruct i as [[]|]; reflexivity).
  split; unfold t_after; cbn [dev sent did calls past]; rewrite ?e; try assumption; try reflexivity.
  - intros j. destruct i as [[]|], j as [[]|]; cbn; auto.
Qed.
Ltac t_push n c o := match goal with |- does ?B ?k ?S ?H ?st _ _ ?st' => apply (does_push B k S H st (Ok (n, c, o)) st'); [vm_compute; reflexivity|split; discriminate] end.
Lemma t_fetch (Sv : bytes -> Prop) B key H st h c x st' : Sv c -> merge B [(h, c)] st = (x, st') -> returned x -> does B key Sv H st [] [] st'.
Proof. intros h1 h2 h3. eapply does_merge; [|exact h2|exact h3]. intros h' y [e|[]]. left. assert (y = c) by congruence. subst y. exact h1. Qed.
Ltac t_merge h0 c0 := eapply (t_fetch _ _ _ _ _ h0 c0); [cbn; tauto|vm_compute; reflexivity|split; discriminate].
Lemma t_run4 : net_run tri_b toy_key t_n4.
Proof.
  eapply run_more; [|apply t_step; [t_merge (b "h0") t_c0|vm_compute; reflexivity]].
  eapply run_more; [|apply t_step; [t_merge (b "h0") t_c0|vm_compute; reflexivity]].
  eapply run_more; [|apply t_step; [t_push 1%Z t_c0 (@nil bytes)|vm_compute; reflexivity]].
  eapply run_more; [|apply t_step; [apply (does_edit _ _ _ _ _ (t_set "p" "u") (Ok tt)); [reflexivity|reflexivity|vm_compute; reflexivity|split; discriminate]|vm_compute; reflexivity]].
  apply run_start. split; try reflexivity; intros c [].
Qed.
Lemma t_later : net_later tri_b toy_key t_n4 t_n10.
Proof.
  eapply later_more; [|apply t_step; [t_merge (b "h2") t_cb|vm_compute; reflexivity]].
  eapply later_more; [|apply t_step; [t_push 2%Z t_cd [b "h0"]|vm_compute; reflexivity]].
  eapply later_more; [|apply t_step; [t_push 2%Z t_cb [b "h0"]|vm_compute; reflexivity]].
  eapply later_more; [|apply t_step; [apply (does_edit _ _ _ _ _ (t_set "r" "2") (Ok tt)); [reflexivity|reflexivity|vm_compute; reflexivity|split; discriminate]|vm_compute; reflexivity]].
  eapply later_more; [|apply t_step; [apply (does_edit _ _ _ _ _ (t_set "q" "1") (Ok tt)); [reflexivity|reflexivity|vm_compute; reflexivity|split; discriminate]|vm_compute; reflexivity]].
  eapply later_more; [|apply t_step; [apply (does_edit _ _ _ _ _ (t_set "p" "v") (Ok tt)); [reflexivity|reflexivity|vm_compute; reflexivity|split; discriminate]|vm_compute; reflexivity]].
  apply later_same.
Qed.
Definition t_states : list bstate := [start tb; t_a0; t_a1; t_b1; t_a2; t_b2; t_d2; t_b3; t_d3; t_d4].
Definition t_published : list bytes := Eval vm_compute in map (fun x => match serialize (b_env tb) (s_conf x) true with Ok (s, _) => s | _ => [] end) t_states.
Lemma t_past i x s c : past t_n10 i x -> serialize (b_env tb) (s_conf x) true = Ok (s, c) -> In s t_published.
Proof.
  intros h e. assert (hx : In x t_states) by (cbn in h |- *; intuition congruence). clear h.
  unfold t_states in hx. repeat (destruct hx as [<-|hx]; [vm_compute in e; injection e as <- _; vm_compute; tauto|]). destruct hx.
Qed.
Lemma t_clash : no_clash tri_b t_n10.
Proof.
  intros i x j y hx hy s c s0 c0 e e0. pose proof (t_past i x s c hx e) as h. pose proof (t_past j y s0 c0 hy e0) as h0.
  apply (no_collision_incl _ t_published); [apply no_collisionb_ok; vm_compute; reflexivity|]. intros z [<-|[<-|[]]]; assumption.
Qed.
Lemma t_fleet : fleet tri_b.
Proof. split; intros; [exact toy_aead_ok|exact tb_ok|reflexivity|exact tb_peer|reflexivity]. Qed.
Definition t_c (i : tri) : bytes := out_of (push tb (dev t_n10 i)).
Definition t_s1 (i : tri) : bstate := snd (push tb (dev t_n10 i)).
Definition t_l (i : tri) : list (bytes * bytes) := [(b "1", t_c None); (b "2", t_c (Some true)); (b "3", t_c (Some false))].
Lemma t_push_all : all_push tri_b (dev t_n10) t_c t_s1.
Proof. intros i. destruct i as [[]|]; (do 3 eexists; split; [vm_compute; reflexivity|left; vm_compute; reflexivity]). Qed.
Lemma t_fetch_all : all_fetch_from tri_b (sent t_n10) (dev t_n10) t_c t_s1 (fun _ => False) t_l.
Proof.
  split.
  - intros x [].
  - intros i h x hx. left. destruct hx as [e|[e|[e|[]]]]; [exists None|exists (Some true)|exists (Some false)]; congruence.
  - intros i j. left. destruct j as [[]|]; cbn [t_l map snd In]; tauto.
  - intros i x [].
Qed.
Lemma t_in_step : in_step tri_b t_n4.
Proof.
  assert (h : forall i, exists st, dev t_n4 i = st /\ (st = t_a1 \/ st = t_b1)) by (intros i; destruct i as [[]|]; cbn; eauto).
  assert (ha : forall i, s_data (dev t_n4 i) = s_data t_a1 /\ s_seqno (dev t_n4 i) = s_seqno t_a1 /\ s_state (dev t_n4 i) <> Dirty /\ forall z, publishes tb (dev t_n4 i) z <-> publishes tb t_a1 z).
  { intros i. destruct (h i) as (st & e & [-> | ->]); rewrite e; (split; [reflexivity|]; split; [reflexivity|]; split; [discriminate|]); [tauto|].
    intros z. split; intros (c & hc); vm_compute in hc; injection hc as <- _; eexists; vm_compute; reflexivity. }
  intros i j. destruct (ha i) as (a1 & a2 & a3 & a4). destruct (ha j) as (b1 & b2 & b3 & b4). split; [exact a3|]. split; [congruence|]. split; [congruence|]. split; [tauto|]. intros z. unfold tri_b. rewrite a4, b4. reflexivity.
Qed.
Theorem C100_lost_refuted : ~ (forall (I : Type) (B : I -> benv) key (N N' : net I) l1 k v l2 c st1 Q l, fleet B -> net_run B key N -> in_step B N -> net_later B key N N' -> no_clash B N' -> few_calls B N' ->
  did N' = l1 ++ OpAssign [] k (VScal v) :: l2 ++ did N -> (forall o, In o (l1 ++ l2) -> spares [k] o) ->
  (exists i, 0 < s_seqno (dev N' i))%Z -> all_push B (dev N') c st1 -> all_fetch_from B (sent N') (dev N') c st1 Q l ->
  forall i, exists hs st2, merge (B i) (l i) (st1 i) = (Ok hs, st2) /\ get_path [k] (s_data st2) = Some (VScal v)).
Proof.
  intros h. destruct (h tri tri_b toy_key t_n4 t_n10 [t_set "r" "2"; t_set "q" "1"] (b "p") (SStr (b "v")) [] t_c t_s1 (fun _ => False) t_l t_fleet t_run4 t_in_step t_later t_clash) with (i := None : tri) as (hs & st2 & h1 & h2).
  - intros i. apply Z.ltb_lt. vm_compute. reflexivity.
  - reflexivity.
  - intros o [<-|[<-|[]]] d hd; cbn [t_set edited empty_container]; apply upd_field_other; [exact hd|reflexivity|exact hd|reflexivity].
  - exists None. reflexivity.
  - exact t_push_all.
  - exact t_fetch_all.
  - vm_compute in h1. injection h1 as _ <-. vm_compute in h2. discriminate.
Qed.
Print Assumptions C100_lost_refuted.

(** The other side, for schedules in which only one device edits, and saves before it is closed; the other devices fetch, push
    and crash as they like.  The editing device is never overruled: no call but its own edits changes what it shows, whatever the
    server hands it, and none of them leaves it with something new to push. *)
Theorem C100_kept {I : Type} (B : I -> benv) key w (N N' : net I) cs : fleet B -> unsigned_fleet B -> solo_run B key w N -> no_clash B N -> few_calls B N ->
  listens (B w) key (sent N) (fun y => y = dev N w) (dev N w) cs (dev N' w) ->
  (forall elem p x, shows elem p x (s_data (dev N' w)) <-> shows elem p x (s_data (dev N w))) /\ (s_state (dev N' w) = Dirty -> s_state (dev N w) = Dirty).
Proof. apply solo_keeps. Qed.
Print Assumptions C100_kept.
(** Every other device has, at all times, exactly the config the editing device had at some time, with nothing of its own to
    push: never a mixture of two versions. *)
Theorem C100_reader {I : Type} (B : I -> benv) key w (N : net I) j x : fleet B -> unsigned_fleet B -> solo_run B key w N -> no_clash B N -> few_calls B N -> j <> w -> past N j x ->
  s_state x <> Dirty /\ exists y, past N w y /\ s_state y <> Dirty /\ s_data x = s_data y /\ forall z, publishes (B j) x z <-> publishes (B w) y z.
Proof. apply solo_reads. Qed.
Print Assumptions C100_reader.
(** And once the editing device has pushed, one fetch that contains its message, with any old messages and rubbish around it,
    brings another device to exactly what the editing device shows, whatever the history and whatever was lost in crashes. *)
Theorem C100_follows {I : Type} (B : I -> benv) key w (N : net I) j n c o st1 l : fleet B -> unsigned_fleet B -> solo_run B key w N -> no_clash B N -> few_calls B N -> j <> w ->
  push (B w) (dev N w) = (Ok (n, c, o), st1) -> sent N c -> from_server (sent N) (B j) (dev N j) l -> In c (map snd l) -> s_state (dev N w) <> Dirty ->
  exists hs st2, merge (B j) l (dev N j) = (Ok hs, st2) /\ s_state st2 <> Dirty /\ (forall elem p x, shows elem p x (s_data st2) <-> shows elem p x (s_data (dev N w))) /\
    s_seqno st2 = s_seqno (dev N w) /\ forall z, publishes (B j) st2 z <-> publishes (B w) (dev N w) z.
Proof. apply solo_follows. Qed.
Print Assumptions C100_follows.
(** The hypotheses are met.  The first device sets "p" to "u", pushes; the others fetch; it sets "p" to "v" and pushes again; one
    of the others crashes back to its first state.  What it then fetches is the new message and, twice, the old one. *)
Definition t_c2 : bytes := Eval vm_compute in out_of (push tb t_a2).
Definition t_a3 : bstate := Eval vm_compute in snd (push tb t_a2).
Definition t_lost : bstate := Eval vm_compute in get_ok (start tb) (restore tb [toy_key] (get_ok [] (fst (dump tb (start tb))))).
Definition t_m7 : net tri := t_after (t_after (t_after t_n4 None [t_set "p" "v"] [] t_a2) None [] [t_c2] t_a3) (Some true) [] [] t_lost.
Lemma t_solo_edit N o x : solo_run tri_b toy_key None N -> is_edit o = true -> op_ok tb o (dev N None) -> run tb o (dev N None) = (Ok tt, x) -> sendable (s_data x) -> solo_run tri_b toy_key None (t_after N None [o] [] x).
Proof. intros h1 h2 h3 h4 h5. apply (solo_edit tri_b toy_key None N o (Ok tt)); [exact h1|exact h2|exact h3|exact h4|split; discriminate|]. apply t_step; [|exact h5]. apply (does_edit _ _ _ _ _ o (Ok tt)); [exact h2|exact h3|exact h4|split; discriminate]. Qed.
Lemma t_solo_push N n c o x : solo_run tri_b toy_key None N -> push tb (dev N None) = (Ok (n, c, o), x) -> sendable (s_data x) -> solo_run tri_b toy_key None (t_after N None [] [c] x).
Proof.
  intros h1 h2 h3. assert (hr : returned (Ok (n, c, o))) by (split; discriminate). apply (solo_own tri_b toy_key None N [c]); [exact h1| |].
  - exact (listens_push _ _ _ _ _ (Ok (n, c, o)) x h2 hr).
  - apply t_step; [|exact h3]. exact (does_push _ _ _ _ _ (Ok (n, c, o)) x h2 hr).
Qed.
Lemma t_solo_other N i x : solo_run tri_b toy_key None N -> i <> None -> listens tb toy_key (sent N) (past N i) (dev N i) [] x -> sendable (s_data x) -> solo_run tri_b toy_key None (t_after N i [] [] x).
Proof.
  intros h1 h2 h3 h4. apply (solo_other tri_b toy_key None N i []); [exact h1|exact h2| |].
  - destruct i as [[]|]; [exact h3|exact h3|congruence].
  - apply t_step; [|exact h4]. exact (listens_does tri_b toy_key i _ _ _ _ _ _ (fun y h => h) h3).
Qed.
Lemma t_get (Sv : bytes -> Prop) B key H st h c x st' : Sv c -> merge B [(h, c)] st = (x, st') -> returned x -> listens B key Sv H st [] st'.
Proof. intros h1 h2 h3. eapply listens_merge; [|exact h2|exact h3]. intros h' y [e|[]]. left. assert (y = c) by congruence. subst y. exact h1. Qed.
Lemma t_solo : solo_run tri_b toy_key None t_m7.
Proof.
  apply t_solo_other; [|discriminate| |vm_compute; reflexivity].
  2: { eapply (listens_restart _ _ _ _ _ (start tb)); [cbn; tauto|vm_compute; reflexivity| |vm_compute; reflexivity]. apply N.leb_le. vm_compute. reflexivity. }
  apply (t_solo_push _ 2%Z t_c2 []); [|vm_compute; reflexivity|vm_compute; reflexivity].
  apply t_solo_edit; [|reflexivity|reflexivity|vm_compute; reflexivity|vm_compute; reflexivity].
  apply t_solo_other; [|discriminate|eapply (t_get _ _ _ _ _ (b "h0") t_c0); [cbn; tauto|vm_compute; reflexivity|split; discriminate]|vm_compute; reflexivity].
  apply t_solo_other; [|discriminate|eapply (t_get _ _ _ _ _ (b "h0") t_c0); [cbn; tauto|vm_compute; reflexivity|split; discriminate]|vm_compute; reflexivity].
  apply (t_solo_push _ 1%Z t_c0 []); [|vm_compute; reflexivity|vm_compute; reflexivity].
  apply t_solo_edit; [|reflexivity|reflexivity|vm_compute; reflexivity|vm_compute; reflexivity].
  apply solo_start. split; try reflexivity; intros c [].
Qed.
Definition t_states2 : list bstate := [start tb; t_a0; t_a1; t_b1; t_a2; t_a3; t_lost].
Definition t_published2 : list bytes := map (fun x => match serialize (b_env tb) (s_conf x) true with Ok (s, _) => s | _ => [] end) t_states2.
Lemma t_past2 i x s c : past t_m7 i x -> serialize (b_env tb) (s_conf x) true = Ok (s, c) -> In s t_published2.
Proof.
  intros h e. unfold t_published2. apply in_map_iff. exists x. rewrite e. split; [reflexivity|]. cbn in h |- *. intuition congruence.
Qed.
Example C100_used : exists hs st2, merge tb [(b "1", t_c0); (b "2", t_c2); (b "1", t_c0)] t_lost = (Ok hs, st2) /\ shows false [b "p"] (SStr (b "v")) (s_data st2).
Proof.
  destruct (C100_follows tri_b toy_key None t_m7 (Some true) 2%Z t_c2 [] (snd (push tb t_a3)) [(b "1", t_c0); (b "2", t_c2); (b "1", t_c0)] t_fleet) as (hs & st2 & h1 & _ & h3 & _).
  - intros i. reflexivity.
  - exact t_solo.
  - intros i x j y hx hy s c s0 c0 e e0. apply (no_collision_incl _ t_published2); [apply no_collisionb_ok; vm_compute; reflexivity|].
    pose proof (t_past2 i x s c hx e) as h. pose proof (t_past2 j y s0 c0 hy e0) as h0. intros z [<-|[<-|[]]]; assumption.
  - intros i. apply Z.ltb_lt. vm_compute. reflexivity.
  - discriminate.
  - vm_compute. reflexivity.
  - cbn. tauto.
  - intros h x hin. left. cbn in hin |- *. intuition congruence.
  - cbn. tauto.
  - discriminate.
  - exists hs, st2. split; [exact h1|]. apply h3. vm_compute. auto.
Qed.
