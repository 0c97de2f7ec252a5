(** C97, C98, C99: the devices of one account under every schedule of edits, pushes, fetches, dumps and crashes.  Statements
    only; proofs are in Net_facts.v, Hist_facts.v, Quiet_facts.v and Source_facts.v, the vocabulary is in NetSpec.v and
    ConvergeSpec.v. *)
From Verif Require Import NetSpec Life_facts Life4_facts Conf_facts Conf2_facts Conf3_facts Converge_facts Plain_facts CInfo_facts Redeliver_facts Merge_facts Net_facts Net2_facts Hist_facts Quiet_facts Source_facts Toy ToyCrypt ToyBase Properties_base Properties_sync Properties_converge.

(** ** C97 *)
(** After any schedule every call works.  Editing: *)
Theorem C97_edit_succeeds {I : Type} (B : I -> benv) key (N : net I) i o : fleet B -> net_run B key N -> no_clash B N -> few_calls B N -> is_edit o = true -> exists st', run (B i) o (dev N i) = (Ok tt, st').
Proof. intros hf hr hnc hc ho. destruct (net_edit_total B key N i o hf hr hnc hc ho) as (st' & e). eauto. Qed.
(** Restarting, from a dump of the present state or, after a crash, of any earlier one: *)
Theorem C97_restart_succeeds {I : Type} (B : I -> benv) key (N : net I) i y : fleet B -> net_run B key N -> no_clash B N -> few_calls B N -> past N i y ->
  exists d st1, dump (B i) y = (Ok d, st1) /\ ((N.of_nat (length d) <= uint64_max)%N -> exists st', restore (B i) [key] d = Ok st').
Proof. exact (net_restart_total B key N i y). Qed.
(** Merging whatever the server hands out, if there is anything to merge: *)
Theorem C97_merge_succeeds {I : Type} (B : I -> benv) key (N : net I) i l : fleet B -> net_run B key N -> no_clash B N -> few_calls B N -> from_server (sent N) (B i) (dev N i) l ->
  (s_seqno (dev N i) <> 0)%Z \/ s_state (dev N i) = Dirty \/ (exists h c, In (h, c) l /\ sent N c) -> exists hs st', merge (B i) l (dev N i) = (Ok hs, st').
Proof. intros hf hr hnc. exact (net_merge_total B key N i l hf (net_run_inv B key N hf hr hnc) hnc). Qed.
(** After any schedule, if every device pushes and then fetches the same messages (any the server has, besides those just
    pushed), every merge succeeds and all devices hold the same config. *)
Theorem C97_agree {I : Type} (B : I -> benv) key (N : net I) c st1 Q l : fleet B -> net_run B key N -> no_clash B N -> few_calls B N -> (exists i, 0 < s_seqno (dev N i))%Z -> all_push B (dev N) c st1 ->
  all_fetch_from B (sent N) (dev N) c st1 Q l -> forall i, exists hs st2, merge (B i) (l i) (st1 i) = (Ok hs, st2) /\ forall j, exists hs' st2', merge (B j) (l j) (st1 j) = (Ok hs', st2') /\ agree (B i) st2 (B j) st2'.
Proof. intros hf hr hnc. exact (net_round B key N c st1 Q l hf (net_run_inv B key N hf hr hnc) hnc). Qed.
(** And that is the end of it (for configs without signatures): once they have pushed what they agreed on, nothing of what
    the server has, in any order and any number of times, makes any of them change the content or have something to push
    again. *)
Theorem C97_quiet {I : Type} (B : I -> benv) key (N : net I) c st1 Q l st2 c' st3 : fleet B -> unsigned_fleet B -> net_run B key N -> no_clash B N -> (forall i, Z.of_nat (calls N) + 3 + e_lag (b_env (B i)) < 2 ^ 63)%Z -> (exists i, 0 < s_seqno (dev N i))%Z ->
  all_push B (dev N) c st1 -> all_fetch_from B (sent N) (dev N) c st1 Q l -> all_merge B l st1 st2 -> (forall i j x, past N j x -> apart_hashes (B j) x (B i) (st2 i)) -> all_push B st2 c' st3 ->
  forall i st4, fetches (B i) (old_news c c' Q (B i)) (st3 i) st4 ->
    (s_state st4 <> Dirty /\ forall j, s_data st4 = s_data (st2 j) /\ s_seqno st4 = s_seqno (st2 j) /\ forall z, publishes (B i) st4 z <-> publishes (B j) (st2 j) z) /\
    forall l', old_news c c' Q (B i) st4 l' -> exists hs st5, merge (B i) l' st4 = (Ok hs, st5).
Proof. exact (net_quiet B key N c st1 Q l st2 c' st3). Qed.

(** ** C98 *)
(** Whatever any device ever holds, field or set element, one of the edits that were made wrote it, at that place: no schedule
    of merges, conflicts and crashes invents content. *)
Theorem C98_no_invention {I : Type} (B : I -> benv) key (N : net I) i st e p x : fleet B -> net_run B key N -> no_clash B N -> past N i st -> shows e p x (s_data st) -> written (did N) e p x.
Proof. exact (net_written B key N i st e p x). Qed.

(** ** C99 *)
(** Whatever messages devices ever published, under any schedule: a message that includes another one also includes what
    that one includes, as long as it is recent enough (configs without signatures).  This is what C15 asks for. *)
Theorem C99_consistent {I : Type} (B : I -> benv) key (N : net I) i ms : fleet B -> unsigned_fleet B -> net_run B key N -> no_clash B N ->
  (forall m, In m ms -> exists s, seen B N s /\ parse_msg (b_env (B i)) false s = Ok m) -> consistent (b_env (B i)) ms.
Proof. exact (net_consistent B key N i ms). Qed.
(** So a conflict is resolved once: when a merge of such messages has resolved one, then whoever is given the resolution, as
    published directly or after further edits that keep its seqno, together with any of those messages, adopts it unchanged. *)
Theorem C99_resolved_once {I : Type} (B : I -> benv) key (N : net I) i l m bad c0 c s c' l' : fleet B -> unsigned_fleet B -> net_run B key N -> no_clash B N ->
  (forall s0, In s0 l -> seen B N s0) -> no_collision (b_env (B i)) (s :: l) -> merge_msgs (b_env (B i)) l = Ok (m, bad) -> m_unmerged m = None -> int64_ok (m_seqno m + e_lag (b_env (B i))) = true ->
  In c0 [Plain m; retain (Plain m); Mut m (m_data m)] -> derived (b_env (B i)) c0 c -> m_seqno (c_msg c) = m_seqno m -> serialize (b_env (B i)) c true = Ok (s, c') ->
  In s l' -> incl l' (s :: l) ->
  exists M k bad', parse_msg (b_env (B i)) false s = Ok M /\ same_content (b_env (B i)) (c_msg c') M /\ merge_msgs (b_env (B i)) l' = Ok (set_unmerged (Some k) M, bad').
Proof. exact (net_resolved_once B key N i l m bad c0 c s c' l'). Qed.
Print Assumptions C97_edit_succeeds.
Print Assumptions C97_restart_succeeds.
Print Assumptions C97_merge_succeeds.
Print Assumptions C97_agree.
Print Assumptions C97_quiet.
Print Assumptions C98_no_invention.
Print Assumptions C99_consistent.
Print Assumptions C99_resolved_once.
(** Two devices.  Both edit; the first pushes; the second fetches that while it has unpushed edits; the first then crashes and
    comes back with the dump it made before its edit, so it has lost what it pushed. *)
Definition n_merged : bstate := Eval vm_compute in snd (merge tb [(b "h", dev_ca)] devb).
Definition n_back : bstate := Eval vm_compute in get_ok (start tb) (restore tb [toy_key] (get_ok [] (fst (dump tb (start tb))))).
Definition n_edit : op := OpAssign [] (b "m") (VScal (SStr (b "y"))).
Definition tbs : bool -> benv := fun _ => tb.
Definition n_after (N : net bool) (i : bool) (es : list op) (cs : list bytes) (x : bstate) : net bool :=
  mkNet bool (fun j => if Bool.eqb j i then x else dev N j) (fun c => In c cs \/ sent N c) (es ++ did N) (S (calls N)) (fun j z => past N j z \/ (j = i /\ z = x)).
Definition n0 : net bool := mkNet bool (fun _ => start tb) (fun _ => False) [] 0 (fun _ z => z = start tb).
Definition n1 : net bool := n_after n0 true [set_name "x"] [] w1.
Definition n2 : net bool := n_after n1 false [n_edit] [] devb.
Definition n3 : net bool := n_after n2 true [] [dev_ca] dev_1a.
Definition n4 : net bool := n_after n3 false [] [] n_merged.
Definition n5 : net bool := n_after n4 true [] [] n_back.
Lemma tbs_fleet : fleet tbs.
Proof. split; intros; [exact toy_aead_ok|exact tb_ok|reflexivity|exact tb_peer|reflexivity]. Qed.
Lemma tbs_unsigned : unsigned_fleet tbs.
Proof. intros i. reflexivity. Qed.
Lemma n_step N i es cs x : does tb toy_key (sent N) (past N i) (dev N i) es cs x -> sendable (s_data x) -> net_run tbs toy_key N -> net_run tbs toy_key (n_after N i es cs x).
Proof.
  intros h1 h2 hr. apply (run_more _ _ N i es cs _ hr). assert (e : (if Bool.eqb i i then x else dev N i) = x) by (rewrite Bool.eqb_reflx; reflexivity).
  split; unfold n_after; cbn [dev sent did calls past]; rewrite ?e; try assumption; try reflexivity.
  - intros j. destruct (Bool.eqb j i) eqn:ej; [left; apply Bool.eqb_prop, ej|right; reflexivity].
Qed.
Lemma n5_run : net_run tbs toy_key n5.
Proof.
  apply n_step; [|vm_compute; reflexivity|].
  { eapply (does_restart _ _ _ _ _ (start tb)); [cbn; auto|vm_compute; reflexivity| |vm_compute; reflexivity]. apply N.leb_le. vm_compute. reflexivity. }
  apply n_step; [|vm_compute; reflexivity|].
  { apply (does_merge _ _ _ _ _ [(b "h", dev_ca)] (Ok [b "h"]) n_merged); [|vm_compute; reflexivity|split; discriminate]. intros h x [e|[]]. left. left. left. congruence. }
  apply n_step; [|vm_compute; reflexivity|].
  { apply (does_push _ _ _ _ _ (Ok (1%Z, dev_ca, [])) dev_1a); [vm_compute; reflexivity|split; discriminate]. }
  apply n_step; [|vm_compute; reflexivity|].
  { apply (does_edit _ _ _ _ _ n_edit (Ok tt) devb); [reflexivity|reflexivity|vm_compute; reflexivity|split; discriminate]. }
  apply n_step; [|vm_compute; reflexivity|].
  { apply (does_edit _ _ _ _ _ (set_name "x") (Ok tt) w1); [reflexivity|reflexivity|vm_compute; reflexivity|split; discriminate]. }
  apply run_start. split; try reflexivity; intros c [].
Qed.
Definition n_published : list bytes := Eval vm_compute in map (fun x => match serialize (b_env tb) (s_conf x) true with Ok (s, _) => s | _ => [] end) [start tb; w1; devb; dev_1a; n_merged; n_back].
Lemma n5_past i x s c : past n5 i x -> serialize (b_env tb) (s_conf x) true = Ok (s, c) -> In s n_published.
Proof.
  intros h e. assert (hx : In x [start tb; w1; devb; dev_1a; n_merged; n_back]) by (cbn in h |- *; intuition congruence). clear h.
  destruct hx as [<-|[<-|[<-|[<-|[<-|[<-|[]]]]]]]; vm_compute in e; injection e as <- _; vm_compute; tauto.
Qed.
Lemma n_free : no_collision (b_env tb) n_published.
Proof. apply no_collisionb_ok. vm_compute. reflexivity. Qed.
Lemma n5_clash : no_clash tbs n5.
Proof.
  intros i x j y hx hy s c s0 c0 e e0. pose proof (n5_past i x s c hx e) as h. pose proof (n5_past j y s0 c0 hy e0) as h0.
  apply (no_collision_incl _ n_published _ n_free). intros z [<-|[<-|[]]]; assumption.
Qed.
Lemma n5_few : few_calls tbs n5.
Proof. intros i. apply Z.ltb_lt. vm_compute. reflexivity. Qed.
(** All push; both fetch all of it, and what the first one pushed before its crash. *)
Definition n_c (i : bool) : bytes := out_of (push tb (dev n5 i)).
Definition n_s1 (i : bool) : bstate := snd (push tb (dev n5 i)).
Definition n_l (i : bool) : list (bytes * bytes) := [(b "k", n_c (negb i)); (b "h", dev_ca); (b "?", b "rubbish"); (b "l", n_c i)].
Definition n_s2a : bstate := Eval vm_compute in snd (merge tb (n_l true) (n_s1 true)).
Definition n_s2b : bstate := Eval vm_compute in snd (merge tb (n_l false) (n_s1 false)).
Definition n_s2 (i : bool) : bstate := if i then n_s2a else n_s2b.
Definition n_c' (i : bool) : bytes := out_of (push tb (n_s2 i)).
Definition n_s3 (i : bool) : bstate := snd (push tb (n_s2 i)).
Example ex_C97 : fleet tbs /\ unsigned_fleet tbs /\ net_run tbs toy_key n5 /\ no_clash tbs n5 /\ few_calls tbs n5 /\ (exists i, 0 < s_seqno (dev n5 i))%Z /\ all_push tbs (dev n5) n_c n_s1 /\
  all_fetch_from tbs (sent n5) (dev n5) n_c n_s1 (fun x => x = dev_ca) n_l /\ all_merge tbs n_l n_s1 n_s2 /\ (forall i j x, past n5 j x -> apart_hashes tb x tb (n_s2 i)) /\ all_push tbs n_s2 n_c' n_s3 /\
  s_data (dev n5 true) = [] /\ s_data (n_s2 true) = [(b "m", VScal (SStr (b "y"))); (b "n", VScal (SStr (b "x")))].
Proof.
  split; [exact tbs_fleet|]. split; [exact tbs_unsigned|]. split; [exact n5_run|]. split; [exact n5_clash|]. split; [exact n5_few|]. split; [exists false; reflexivity|].
  split. { intros i. destruct i; (do 3 eexists; split; [vm_compute; reflexivity|left; vm_compute; reflexivity]). }
  split.
  { split.
    - intros x ->. cbn. auto.
    - intros i h x [e|[e|[e|[e|[]]]]]; [left; exists (negb i); congruence|right; left; congruence| |left; exists i; congruence]. right. right. assert (eh : h = b "?") by congruence. assert (ex : x = b "rubbish") by congruence. subst h x. destruct i; vm_compute; reflexivity.
    - intros i j. left. destruct i, j; cbn [n_l map snd negb In]; tauto.
    - intros i x ->. right. left. reflexivity. }
  split. { intros i. destruct i; (eexists; vm_compute; reflexivity). }
  split.
  { intros i j x hx s c s0 c0 e e0. pose proof (n5_past j x s c hx e) as h. apply (no_collision_incl _ (s0 :: n_published)); [|intros z [<-|[<-|[]]]; [left; reflexivity|right; exact h]].
    apply no_collisionb_ok. destruct i; vm_compute in e0; injection e0 as <- _; vm_compute; reflexivity. }
  split. { intros i. destruct i; (do 3 eexists; split; [vm_compute; reflexivity|left; vm_compute; reflexivity]). }
  split; vm_compute; reflexivity.
Qed.
(** one device shows what the other one, which has lost it, wrote *)
Example ex_C98 : past n5 false n_merged /\ shows false [b "n"] (SStr (b "x")) (s_data n_merged) /\ written (did n5) false [b "n"] (SStr (b "x")) /\ ~ written (did n5) false [b "n"] (SStr (b "y")).
Proof.
  split; [cbn; auto|]. split; [vm_compute; auto|]. split; [exists (set_name "x"); split; [cbn; auto|vm_compute; auto]|].
  intros (o & [<-|[<-|[]]] & h); vm_compute in h; [exact h|destruct h; discriminate].
Qed.
(** the two first edits, published, conflict *)
Definition n_two : list bytes := Eval vm_compute in map (fun x => match serialize (b_env tb) (s_conf x) true with Ok (s, _) => s | _ => [] end) [w1; devb].
Example ex_C99 : (forall s, In s n_two -> seen tbs n5 s) /\ exists m, merge_msgs (b_env tb) n_two = Ok (m, []) /\ m_unmerged m = None /\ int64_ok (m_seqno m + e_lag (b_env tb)) = true /\
  exists s c, serialize (b_env tb) (Mut m (m_data m)) true = Ok (s, c) /\ no_collision (b_env tb) (s :: n_two).
Proof.
  split.
  - intros s [<-|[<-|[]]]; [exists true, w1|exists false, devb]; (split; [cbn; tauto|eexists; vm_compute; reflexivity]).
  - eexists. split; [vm_compute; reflexivity|]. split; [reflexivity|]. split; [reflexivity|]. do 2 eexists. split; [vm_compute; reflexivity|apply no_collisionb_ok; vm_compute; reflexivity].
Qed.
