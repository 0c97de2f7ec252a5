(** C101: devices that take turns act as one config.  Statements only; proofs are in Turn_facts.v, the vocabulary is in
    TurnSpec.v, SoloSpec.v and NetSpec.v. *)
From Verif Require Import TurnSpec Life_facts Life4_facts Conf3_facts Redeliver_facts Net_facts Solo_facts Turn_facts Toy ToyCrypt ToyBase Properties_base Properties_sync Properties_converge Properties_solo.

(** ** C101 *)
(** The device that may edit shows exactly what one config shows in which all edits of all devices were made one after the
    other: nothing lost, nothing revived, whatever was pushed, fetched (in any order, any number of times, with any rubbish) or
    lost in crashes in between. *)
Theorem C101_sequential {I : Type} (B : I -> benv) key (N : net I) i : fleet B -> unsigned_fleet B -> turn_run B key N -> no_clash B N -> few_calls B N ->
  s_state (dev N i) = Dirty \/ ((forall j, s_state (dev N j) <> Dirty) /\ newest B N i) -> same_shows (s_data (dev N i)) (replayed (did N)).
Proof. apply turn_sequential. Qed.
Print Assumptions C101_sequential.
(** Every device, at all times, shows what that one config showed at some time: the edits up to some point, all of them and in
    order. *)
Theorem C101_prefix {I : Type} (B : I -> benv) key (N : net I) i y : fleet B -> unsigned_fleet B -> turn_run B key N -> no_clash B N -> few_calls B N -> past N i y ->
  exists l1 l2, did N = l1 ++ l2 /\ same_shows (s_data y) (replayed l2).
Proof. apply turn_prefix. Qed.
Print Assumptions C101_prefix.
(** The turn can always be taken and passed on: every device may edit at first; a device that has pushed its edits has the newest
    version; and one fetch that contains the message of the device with the newest version brings any device to exactly that
    version, and makes it the newest too. *)
Theorem C101_first {I : Type} (B : I -> benv) key (N : net I) i : fleet B -> unsigned_fleet B -> net_start B key N -> no_clash B N -> few_calls B N -> newest B N i.
Proof. apply turn_first. Qed.
Print Assumptions C101_first.
Theorem C101_pushed {I : Type} (B : I -> benv) key (N N' : net I) i n c o : fleet B -> unsigned_fleet B -> turn_run B key N -> s_state (dev N i) = Dirty -> push (B i) (dev N i) = (Ok (n, c, o), dev N' i) ->
  net_step B key N N' i [] [c] -> no_clash B N' -> few_calls B N' -> turn_run B key N' /\ (forall j, s_state (dev N' j) <> Dirty) /\ newest B N' i.
Proof. apply turn_pushed_newest. Qed.
Print Assumptions C101_pushed.
Theorem C101_follows {I : Type} (B : I -> benv) key (N : net I) i j n c o st1 l : fleet B -> unsigned_fleet B -> turn_run B key N -> no_clash B N -> few_calls B N -> (forall k, s_state (dev N k) <> Dirty) -> newest B N i ->
  push (B i) (dev N i) = (Ok (n, c, o), st1) -> from_server (sent N) (B j) (dev N j) l -> sent N c -> In c (map snd l) ->
  exists hs st2, merge (B j) l (dev N j) = (Ok hs, st2) /\ s_state st2 <> Dirty /\ same_shows (s_data st2) (replayed (did N)) /\
    forall N', net_step B key N N' j [] [] -> dev N' j = st2 -> no_clash B N' -> few_calls B N' -> turn_run B key N' /\ (forall k, s_state (dev N' k) <> Dirty) /\ newest B N' j.
Proof. apply turn_follows. Qed.
Print Assumptions C101_follows.
(** The hypotheses are met: the first device sets "p" and pushes, the second fetches, sets "q" and pushes, the first fetches that:
    it shows both edits. *)
Definition u_1 : net tri := t_after t_n0 None [t_set "p" "u"] [] t_a0.
Definition u_2 : net tri := t_after u_1 None [] [t_c0] t_a1.
Definition u_3 : net tri := t_after u_2 (Some true) [] [] t_b1.
Definition u_4 : net tri := t_after u_3 (Some true) [t_set "q" "1"] [] t_b2.
Definition u_5 : net tri := t_after u_4 (Some true) [] [t_cb] t_b3.
Definition u_states : list bstate := [start tb; t_a0; t_a1; t_b1; t_b2; t_b3].
Definition u_published : list bytes := map (fun x => match serialize (b_env tb) (s_conf x) true with Ok (s, _) => s | _ => [] end) u_states.
Lemma u_past i x s c : past u_5 i x -> serialize (b_env tb) (s_conf x) true = Ok (s, c) -> In s u_published.
Proof. intros h e. unfold u_published. apply in_map_iff. exists x. rewrite e. split; [reflexivity|]. cbn in h |- *. intuition congruence. Qed.
Lemma u_clash5 : no_clash tri_b u_5.
Proof.
  intros i x j y hx hy s c s0 c0 e e0. apply (no_collision_incl _ u_published); [apply no_collisionb_ok; vm_compute; reflexivity|].
  pose proof (u_past i x s c hx e) as h. pose proof (u_past j y s0 c0 hy e0) as h0. intros z [<-|[<-|[]]]; assumption.
Qed.
Lemma u_clash N : (forall j x, past N j x -> past u_5 j x) -> no_clash tri_b N.
Proof. intros h. exact (no_clash_earlier tri_b N u_5 h u_clash5). Qed.
Lemma u_few N : (calls N < 100)%nat -> few_calls tri_b N.
Proof. intros h i. assert (e : (e_lag (b_env (tri_b i)) + 1000 < int64_max)%Z) by (apply Z.ltb_lt; vm_compute; reflexivity). unfold int64_max in e. lia. Qed.
Lemma u_unsigned : unsigned_fleet tri_b.
Proof. intros i. reflexivity. Qed.
Lemma u_start : net_start tri_b toy_key t_n0.
Proof. split; try reflexivity; intros c []. Qed.
Lemma u_edit N i o x : turn_run tri_b toy_key N -> (forall j, s_state (dev N j) <> Dirty) -> newest tri_b N i -> is_edit o = true -> op_ok tb o (dev N i) -> run tb o (dev N i) = (Ok tt, x) -> sendable (s_data x) -> turn_run tri_b toy_key (t_after N i [o] [] x).
Proof.
  intros h1 h2 h3 h4 h5 h6 h7. assert (hs : net_step tri_b toy_key N (t_after N i [o] [] x) i [o] []) by (apply t_step; [|exact h7]; apply (does_edit _ _ _ _ _ o (Ok tt)); [exact h4|exact h5|exact h6|split; discriminate]).
  apply (turn_edit tri_b toy_key N i o (Ok tt)); [exact h1|intros j hj; destruct (h2 j hj)|right; exact h3|exact h4|exact h5| |split; discriminate|exact hs]. destruct i as [[]|]; exact h6.
Qed.
Lemma u_turn1 : turn_run tri_b toy_key u_1.
Proof.
  apply u_edit; [apply turn_start, u_start|discriminate| |reflexivity|reflexivity|vm_compute; reflexivity|vm_compute; reflexivity].
  apply (C101_first tri_b toy_key); [exact t_fleet|exact u_unsigned|exact u_start|apply u_clash; cbn; tauto|apply u_few; cbn; lia].
Qed.
Lemma u_turn2 : turn_run tri_b toy_key u_2 /\ (forall j, s_state (dev u_2 j) <> Dirty) /\ newest tri_b u_2 None.
Proof.
  assert (e : push tb t_a0 = (Ok (1%Z, t_c0, []), t_a1)) by (vm_compute; reflexivity).
  apply (C101_pushed tri_b toy_key u_1 u_2 None 1%Z t_c0 []); [exact t_fleet|exact u_unsigned|exact u_turn1|reflexivity|exact e| |apply u_clash; cbn; tauto|apply u_few; cbn; lia].
  apply t_step; [|vm_compute; reflexivity]. apply (does_push _ _ _ _ _ (Ok (1%Z, t_c0, [])) t_a1 e). split; discriminate.
Qed.
Lemma u_turn3 : turn_run tri_b toy_key u_3 /\ (forall j, s_state (dev u_3 j) <> Dirty) /\ newest tri_b u_3 (Some true).
Proof.
  destruct u_turn2 as (h1 & h2 & h3). assert (hs : from_server (sent u_2) (tri_b (Some true)) (dev u_2 (Some true)) [(b "h0", t_c0)]) by (intros h y [e|[]]; left; assert (y = t_c0) by congruence; subst y; cbn; tauto).
  assert (ep : push tb t_a1 = (Ok (1%Z, t_c0, []), snd (push tb t_a1))) by (vm_compute; reflexivity).
  assert (em : exists hs, merge tb [(b "h0", t_c0)] (start tb) = (Ok hs, t_b1)) by (eexists; vm_compute; reflexivity). destruct em as (hs0 & em).
  destruct (C101_follows tri_b toy_key u_2 None (Some true) 1%Z t_c0 [] (snd (push tb t_a1)) [(b "h0", t_c0)] t_fleet u_unsigned h1) as (hs1 & st2 & k1 & _ & _ & k4); [apply u_clash; cbn; tauto|apply u_few; cbn; lia|exact h2|exact h3|exact ep|exact hs|cbn; tauto|cbn; tauto|].
  change (merge tb [(b "h0", t_c0)] (start tb) = (Ok hs1, st2)) in k1. apply k4; [|cbn; congruence|apply u_clash; cbn; tauto|apply u_few; cbn; lia].
  apply t_step; [|vm_compute; reflexivity]. apply (does_merge _ _ _ _ _ [(b "h0", t_c0)] (Ok hs0)); [exact hs|exact em|split; discriminate].
Qed.
Lemma u_turn5 : turn_run tri_b toy_key u_5 /\ (forall j, s_state (dev u_5 j) <> Dirty) /\ newest tri_b u_5 (Some true).
Proof.
  destruct u_turn3 as (h1 & h2 & h3).
  assert (h4 : turn_run tri_b toy_key u_4) by (apply u_edit; [exact h1|exact h2|exact h3|reflexivity|reflexivity|vm_compute; reflexivity|vm_compute; reflexivity]).
  assert (e : exists o, push tb t_b2 = (Ok (2%Z, t_cb, o), t_b3)) by (eexists; vm_compute; reflexivity). destruct e as (o & e).
  apply (C101_pushed tri_b toy_key u_4 u_5 (Some true) 2%Z t_cb o); [exact t_fleet|exact u_unsigned|exact h4|reflexivity|exact e| |exact u_clash5|apply u_few; cbn; lia].
  apply t_step; [|vm_compute; reflexivity]. apply (does_push _ _ _ _ _ (Ok (2%Z, t_cb, o)) t_b3 e). split; discriminate.
Qed.
Example C101_used : exists hs st2, merge tb [(b "1", t_c0); (b "2", t_cb); (b "1", t_c0)] t_a1 = (Ok hs, st2) /\ shows false [b "p"] (SStr (b "u")) (s_data st2) /\ shows false [b "q"] (SStr (b "1")) (s_data st2).
Proof.
  destruct u_turn5 as (h1 & h2 & h3). assert (ep : exists o, push tb t_b3 = (Ok (2%Z, t_cb, o), snd (push tb t_b3))) by (eexists; vm_compute; reflexivity). destruct ep as (o & ep).
  destruct (C101_follows tri_b toy_key u_5 (Some true) None 2%Z t_cb o (snd (push tb t_b3)) [(b "1", t_c0); (b "2", t_cb); (b "1", t_c0)] t_fleet u_unsigned h1) as (hs & st2 & k1 & _ & k3 & _).
  - exact u_clash5.
  - apply u_few. cbn. lia.
  - exact h2.
  - exact h3.
  - exact ep.
  - intros h x hin. left. cbn in hin |- *. intuition congruence.
  - cbn. tauto.
  - cbn. tauto.
  - exists hs, st2. split; [exact k1|]. split; apply k3; vm_compute; auto.
Qed.
