(** Sequence arithmetic, non-termination: where undefined behaviour and hangs can come from. *)
From Verif Require Import Spec Data_facts Diff_facts Bt_facts Message_facts Parse_facts Merge_facts Replay_facts Resolve_facts.

Lemma bind_ub {A B} (x : outcome A) (f : A -> outcome B) : bind x f = UB -> x = UB \/ exists a, x = Ok a /\ f a = UB.
Proof. destruct x; cbn [bind]; intros h; try discriminate; eauto. Qed.
Lemma bind_hang {A B} (x : outcome A) (f : A -> outcome B) : bind x f = Hang -> x = Hang \/ exists a, x = Ok a /\ f a = Hang.
Proof. destruct x; cbn [bind]; intros h; try discriminate; eauto. Qed.
Lemma check_scalar_order_tame x y : check_scalar_order x y <> UB /\ check_scalar_order x y <> Hang.
Proof.
  unfold check_scalar_order. split; destruct x, y; intros h;
    repeat match type of h with context [if ?c then _ else _] => destruct c end; discriminate.
Qed.
Lemma check_sublist_tame l : check_sublist l <> UB /\ check_sublist l <> Hang.
Proof.
  induction l as [|x [|y r] IH]; cbn [check_sublist]; [split; discriminate|split; discriminate|]. destruct IH as [i1 i2]. split; intros h.
  - apply bind_ub in h as [h|(? & _ & h)]; [apply check_scalar_order_tame in h; exact h|exact (i1 h)].
  - apply bind_hang in h as [h|(? & _ & h)]; [apply check_scalar_order_tame in h; exact h|exact (i2 h)].
Qed.
Lemma load_diff_v_tame e : load_diff_v e <> UB /\ (load_diff_v e = Hang -> stray_int e = true).
Proof.
  induction e using bt_ind'.
  - cbn. split; [discriminate|reflexivity].
  - cbn [load_diff_v]. destruct (_ || _); split; discriminate.
  - cbn [load_diff_v]. destruct (map norm l) as [|x [|y [|]]]; try (split; discriminate). split; intros h.
    + apply bind_ub in h as [h|(? & _ & h)]; [destruct x; try discriminate; apply check_sublist_tame in h; destruct h|].
      apply bind_ub in h as [h|(? & _ & h)]; [destruct y; try discriminate; apply check_sublist_tame in h; destruct h|discriminate].
    + exfalso. apply bind_hang in h as [h|(? & _ & h)]; [destruct x; try discriminate; apply check_sublist_tame in h; destruct h|].
      apply bind_hang in h as [h|(? & _ & h)]; [destruct y; try discriminate; apply check_sublist_tame in h; destruct h|discriminate].
  - rewrite load_diff_v_dict. cbn [stray_int].
    assert (hl : forall prev, ld_list prev d <> UB /\ (ld_list prev d = Hang -> existsb (fun p => stray_int (snd p)) d = true)).
    { induction d as [|[k x] d IHd]; intros prev; cbn [ld_list existsb snd]; [split; discriminate|]. inversion H as [|? ? [hx1 hx2] hd]; subst. cbn [snd] in *.
      destruct (match prev with Some p => leb k p | None => false end); [split; discriminate|]. destruct (IHd hd (Some k)) as [i1 i2]. split; intros h.
      - apply bind_ub in h as [h|(? & _ & h)]; [exact (hx1 h)|]. apply bind_ub in h as [h|(? & _ & h)]; [exact (i1 h)|discriminate].
      - apply bind_hang in h as [h|(? & _ & h)]; [rewrite (hx2 h); reflexivity|]. apply bind_hang in h as [h|(? & _ & h)]; [rewrite (i2 h); apply orb_true_r|discriminate]. }
    destruct (hl None) as [i1 i2]. split; intros h.
    + apply bind_ub in h as [h|(? & _ & h)]; [exact (i1 h)|discriminate].
    + apply bind_hang in h as [h|(? & _ & h)]; [exact (i2 h)|discriminate].
Qed.
Lemma load_diff_tame d : load_diff d <> UB /\ (load_diff d = Hang -> stray_int (BDict d) = true).
Proof.
  unfold load_diff. destruct (load_diff_v_tame (BDict d)) as [h1 h2].
  destruct (load_diff_v (BDict d)) as [[ | | | ]| | | |]; split; try discriminate; try congruence; auto.
Qed.
Lemma parse_lagged_ub curr lag l : forall last, parse_lagged curr lag last l = UB -> int64_ok (curr - lag) = false.
Proof.
  induction l as [|e l IH]; intros last h; cbn [parse_lagged] in h; [discriminate|].
  destruct e as [|  | [|[s| | |] rest] |]; try discriminate. destruct (negb (int64_ok s)); [discriminate|]. destruct (s >=? curr)%Z; [discriminate|].
  destruct (int64_ok (curr - lag)) eqn:Ei; [|reflexivity]. cbn [negb] in h. destruct (s <=? curr - lag)%Z; [eapply IH; exact h|].
  destruct rest as [|[|hh| |] rest]; try discriminate. destruct (negb _); [discriminate|]. destruct (match last with Some p => _ | None => _ end); [discriminate|].
  destruct rest as [|[| | |d] rest]; try discriminate. apply bind_ub in h as [h|(df & _ & h)]; [apply load_diff_tame in h; destruct h|].
  destruct (negb (is_nil rest)); [discriminate|]. apply bind_ub in h as [h|(r & _ & h)]; [eapply IH; exact h|discriminate].
Qed.
Lemma parse_lagged_hang curr lag l : forall last, parse_lagged curr lag last l = Hang -> existsb stray_lag l = true.
Proof.
  induction l as [|e l IH]; intros last h; cbn [parse_lagged] in h; [discriminate|]. cbn [existsb].
  destruct e as [|  | [|[s| | |] rest] |]; try discriminate. destruct (negb (int64_ok s)); [discriminate|]. destruct (s >=? curr)%Z; [discriminate|].
  destruct (negb (int64_ok (curr - lag))); [discriminate|]. destruct (s <=? curr - lag)%Z; [rewrite (IH _ h); apply orb_true_r|].
  destruct rest as [|[|hh| |] rest]; try discriminate. destruct (negb _); [discriminate|]. destruct (match last with Some p => _ | None => _ end); [discriminate|].
  destruct rest as [|[| | |d] rest]; try discriminate. apply bind_hang in h as [h|(df & _ & h)].
  - apply load_diff_tame in h. cbn [stray_lag]. rewrite h. reflexivity.
  - destruct (negb (is_nil rest)); [discriminate|]. apply bind_hang in h as [h|(r & _ & h)]; [rewrite (IH _ h); apply orb_true_r|discriminate].
Qed.
Lemma consume_tame s : consume s <> UB /\ consume s <> Hang.
Proof. unfold consume. destruct (next_key s) as [[[k r]|]|]; [destruct (parse1 r) as [[v t]|]| |]; split; discriminate. Qed.
Lemma unknowns_tame u p q s : unknowns u p q s <> UB /\ unknowns u p q s <> Hang.
Proof. unfold unknowns. destruct (load_unknowns _ _ _ _ _); split; discriminate. Qed.
Lemma key_is_tame k s : key_is k s <> UB /\ key_is k s <> Hang.
Proof. unfold key_is. destruct (next_key s) as [[[k' r]|]|]; split; discriminate. Qed.
Lemma verify_sig_tame E t w s : verify_sig E t w s <> UB /\ verify_sig E t w s <> Hang.
Proof.
  unfold verify_sig. destruct (next_key s) as [[[k r]|]|]; [|destruct (e_verifier E); split; discriminate|split; discriminate].
  destruct (eqb k (b "~")); [|split; discriminate]. destruct (consume s) as [[[k' v] t']| | | |]; try (split; discriminate).
  destruct v; try (split; discriminate). destruct (negb _); [split; discriminate|]. cbv zeta.
  destruct (match e_verifier E with Some _ => _ | None => _ end); [split; discriminate|]. destruct (next_key t') as [[|]|]; split; discriminate.
Qed.

(** the outcome of parsing, by where it can go wrong *)
Lemma parse_msg_ub E t s : parse_msg E t s = UB ->
  exists s0 z s1, s = "d"%char :: s0 /\ consume s0 = Ok (b "#", BInt z, s1) /\ int64_ok z = true /\ int64_ok (z - e_lag E) = false.
Proof.
  intros h. unfold parse_msg in h.
  assert (hd : exists s0, s = "d"%char :: s0).
  { destruct s as [|c s0]; [discriminate h|]. destruct c as [[] [] [] [] [] [] [] []]; try discriminate h. eauto. }
  destruct hd as [s0 hs0]. rewrite hs0 in h. cbn iota in h. exists s0.
  apply bind_ub in h as [h|([[k v] s1] & c1 & h)]; [apply consume_tame in h; destruct h|].
  destruct v as [z| | | ]; try discriminate h. destruct (eqb k (b "#") && int64_ok z) eqn:E1; [|discriminate h]. cbn [negb] in h.
  apply andb_true_iff in E1 as [Ek Ez]. apply eqb_eq in Ek. subst k. exists z, s1. split; [exact hs0|]. split; [exact c1|]. split; [exact Ez|].
  apply bind_ub in h as [h|([u1 s2] & _ & h)]; [apply unknowns_tame in h; destruct h|].
  apply bind_ub in h as [h|([[k v] s3] & _ & h)]; [apply consume_tame in h; destruct h|].
  destruct v as [| | |d]; try discriminate h. destruct (negb (eqb k (b "&"))); [discriminate h|].
  apply bind_ub in h as [h|(data & _ & h)]; [destruct (dict_of_bt d); discriminate|].
  apply bind_ub in h as [h|([u2 s4] & _ & h)]; [apply unknowns_tame in h; destruct h|].
  apply bind_ub in h as [h|(hl & _ & h)]; [apply key_is_tame in h; destruct h|].
  apply bind_ub in h as [h|([lg s5] & _ & h)].
  { destruct hl; [|discriminate]. apply bind_ub in h as [h|([[k2 v] s6] & _ & h)]; [apply consume_tame in h; destruct h|].
    destruct v as [| |l|]; try discriminate h. apply bind_ub in h as [h|(lg & _ & h)]; [|discriminate]. eapply parse_lagged_ub; exact h. }
  exfalso. apply bind_ub in h as [h|([u3 s6] & _ & h)]; [apply unknowns_tame in h; destruct h|].
  apply bind_ub in h as [h|(hf & _ & h)]; [apply key_is_tame in h; destruct h|].
  apply bind_ub in h as [h|([df s7] & _ & h)].
  { destruct hf; [|discriminate]. apply bind_ub in h as [h|([[k2 v] s8] & _ & h)]; [apply consume_tame in h; destruct h|].
    destruct v as [| | |d2]; try discriminate h. apply bind_ub in h as [h|(df & _ & h)]; [|discriminate]. apply load_diff_tame in h. destruct h. }
  apply bind_ub in h as [h|([u4 s8] & _ & h)]; [apply unknowns_tame in h; destruct h|].
  apply bind_ub in h as [h|(sig & _ & h)]; [apply verify_sig_tame in h; destruct h|discriminate].
Qed.
Lemma parse_msg_hang E t s : parse_msg E t s = Hang ->
  (exists l, field_in s (b "<") (BList l) /\ existsb stray_lag l = true) \/ (exists d, field_in s (b "=") (BDict d) /\ stray_int (BDict d) = true).
Proof.
  intros h. unfold parse_msg in h.
  assert (hd : exists s0, s = "d"%char :: s0).
  { destruct s as [|c s0]; [discriminate h|]. destruct c as [[] [] [] [] [] [] [] []]; try discriminate h. eauto. }
  destruct hd as [s0 hs0]. rewrite hs0 in h. cbn iota in h. assert (sf0 : suffix s0 s) by (rewrite hs0; apply suffix_cons).
  apply bind_hang in h as [h|([[k v] s1] & c1 & h)]; [apply consume_tame in h; destruct h|]. apply consume_spec in c1 as (_ & _ & sf1).
  destruct v as [z| | | ]; try discriminate h. destruct (eqb k (b "#") && int64_ok z) eqn:E1; [|discriminate h]. cbn [negb] in h.
  apply bind_hang in h as [h|([u1 s2] & c2 & h)]; [apply unknowns_tame in h; destruct h|]. apply unknowns_spec in c2 as (sf2 & _).
  apply bind_hang in h as [h|([[k1 v] s3] & c3 & h)]; [apply consume_tame in h; destruct h|]. apply consume_spec in c3 as (_ & _ & sf3).
  destruct v as [| | |d]; try discriminate h. destruct (negb (eqb k1 (b "&"))); [discriminate h|].
  apply bind_hang in h as [h|(data & _ & h)]; [destruct (dict_of_bt d); discriminate|].
  apply bind_hang in h as [h|([u2 s4] & c4 & h)]; [apply unknowns_tame in h; destruct h|]. apply unknowns_spec in c4 as (sf4 & _).
  assert (sfs4 : suffix s4 s) by eauto using suffix_trans.
  apply bind_hang in h as [h|(hl & hkl & h)]; [apply key_is_tame in h; destruct h|].
  apply bind_hang in h as [h|([lg s5] & c5 & h)].
  { left. destruct hl; [|discriminate]. apply bind_hang in h as [h|([[k2 v] s6] & c6 & h)]; [apply consume_tame in h; destruct h|].
    destruct v as [| |l|]; try discriminate h. apply bind_hang in h as [h|(lg & _ & h)]; [|discriminate]. exists l. split; [|eapply parse_lagged_hang; exact h].
    assert (k2 = b "<"); [|subst k2; exists s4, s6; split; [exact sfs4|exact c6]].
    unfold key_is in hkl. unfold consume in c6. destruct (next_key s4) as [[[k' r]|]|]; try discriminate.
    destruct (parse1 r) as [[v' t']|]; [|discriminate]. injection c6 as -> _ _. injection hkl as hkl. apply eqb_eq. exact hkl. }
  assert (sf5 : suffix s5 s4).
  { destruct hl; [|injection c5 as _ <-; apply suffix_refl]. ok_inv c5. destruct a as [[k2 v] s6]. apply consume_spec in ha as (_ & _ & hsf).
    destruct v as [| |l|]; try discriminate c5. ok_inv c5. injection c5 as _ <-. exact hsf. }
  apply bind_hang in h as [h|([u3 s6] & c6 & h)]; [apply unknowns_tame in h; destruct h|]. apply unknowns_spec in c6 as (sf6 & _).
  apply bind_hang in h as [h|(hf & hkf & h)]; [apply key_is_tame in h; destruct h|].
  apply bind_hang in h as [h|([df s7] & _ & h)].
  { right. destruct hf; [|discriminate]. apply bind_hang in h as [h|([[k2 v] s8] & c8 & h)]; [apply consume_tame in h; destruct h|].
    destruct v as [| | |d2]; try discriminate h. apply bind_hang in h as [h|(df & _ & h)]; [|discriminate]. apply load_diff_tame in h. exists d2. split; [|exact h].
    assert (k2 = b "="); [|subst k2; exists s6, s8; split; [exact (suffix_trans _ _ _ sf6 (suffix_trans _ _ _ sf5 sfs4))|exact c8]].
    unfold key_is in hkf. unfold consume in c8. destruct (next_key s6) as [[[k' r]|]|]; try discriminate.
    destruct (parse1 r) as [[v' t']|]; [|discriminate]. injection c8 as -> _ _. injection hkf as hkf. apply eqb_eq. exact hkf. }
  exfalso. apply bind_hang in h as [h|([u4 s8] & _ & h)]; [apply unknowns_tame in h; destruct h|].
  apply bind_hang in h as [h|(sig & _ & h)]; [apply verify_sig_tame in h; destruct h|discriminate].
Qed.

(** ** merging without overflow *)
Lemma serialize_impl_ub E m df sg : serialize_impl E m df sg = UB -> m_lagged m <> [] /\ int64_ok (m_seqno m - e_lag E) = false.
Proof.
  unfold serialize_impl. destruct (m_lagged m) as [|p r]; cbn [is_nil negb andb].
  - destruct (m_vsig m); [discriminate|]. destruct (if sg then e_signer E else None); [|discriminate]. destruct (Nat.eqb _ _); discriminate.
  - destruct (int64_ok (m_seqno m - e_lag E)); cbn [negb]; [|intros _; split; [discriminate|reflexivity]].
    destruct (m_vsig m); [discriminate|]. destruct (if sg then e_signer E else None); [|discriminate]. destruct (Nat.eqb _ _); discriminate.
Qed.
Lemma int64_ok_spec z : int64_ok z = true <-> (- 2 ^ 63 <= z < 2 ^ 63)%Z.
Proof. unfold int64_ok, int64_min, int64_max. rewrite andb_true_iff, !Z.leb_le. lia. Qed.
Lemma merge_parsed_no_ub E ms : good E ms -> (1 <= e_lag E)%Z ->
  (forall m, In m ms -> (- 2 ^ 63 + e_lag E <= m_seqno m)%Z /\ (m_seqno m + e_lag E < 2 ^ 63)%Z) -> merge_parsed E ms <> UB.
Proof.
  intros hg hlag hr h. assert (hne : ms <> []) by (intros ->; discriminate).
  assert (hno : no_overflow E ms). { intros m hm. apply int64_ok_spec. destruct (hr m hm). lia. }
  destruct (kept E ms) as [|a [|c r]] eqn:Ek.
  - apply (kept_nonempty E ms hg hlag hne Ek).
  - destruct (merge_parsed_one _ _ _ Ek hno hne) as [i hi]. congruence.
  - destruct (read_only E) eqn:Ero.
    + destruct (merge_parsed_ro _ _ _ _ _ Ek hno hg Ero) as (i & n & hi & _). congruence.
    + rewrite (merge_parsed_many _ _ _ _ _ Ek hno Ero) in h. unfold resolve in h.
      destruct (max_seqno_in ms hne) as (x & hx & e); [intros y hy; apply (g_ok _ _ hg y hy)|]. destruct (hr x hx) as [h1 h2]. rewrite e in h.
      assert (ok1 : int64_ok (m_seqno x + 1) = true) by (apply int64_ok_spec; lia). rewrite ok1 in h. cbn [negb] in h.
      destruct (sort_desc (kept E ms)) as [|top rest] eqn:Es.
      { pose proof (sort_desc_perm (kept E ms)) as hp. rewrite Es, Ek in hp. apply Permutation_nil in hp. discriminate. }
      cbv zeta in h. destruct (run_replay _ _); [|discriminate]. apply bind_ub in h as [h|(s & _ & h)]; [|discriminate].
      apply serialize_impl_ub in h as [_ h]. cbn [m_seqno m_sh fst] in h.
      assert (int64_ok (m_seqno x + 1 - e_lag E) = true) by (apply int64_ok_spec; lia). congruence.
Qed.
Lemma parse_all_ub E l : forall i, parse_all E i l = UB -> exists s, In s l /\ parse_msg E false s = UB.
Proof.
  induction l as [|s l IH]; intros i h; cbn [parse_all] in h; [discriminate|]. destruct (parse_msg E false s) eqn:Ep; try discriminate h.
  - apply bind_ub in h as [h|([ms b] & _ & h)]; [|discriminate]. apply IH in h as (t & ht & hp). exists t. split; [right; exact ht|exact hp].
  - apply bind_ub in h as [h|([ms b] & _ & h)]; [|discriminate]. apply IH in h as (t & ht & hp). exists t. split; [right; exact ht|exact hp].
  - exists s. split; [left; reflexivity|exact Ep].
Qed.
Lemma parse_seqno E t s m : parse_msg E t s = Ok m -> seqno_field s (m_seqno m).
Proof.
  intros h. unfold parse_msg in h.
  assert (hd : exists s0, s = "d"%char :: s0).
  { destruct s as [|c s0]; [discriminate h|]. destruct c as [[] [] [] [] [] [] [] []]; try discriminate h. eauto. }
  destruct hd as [s0 hs0]. rewrite hs0 in h. cbn iota in h. rewrite <- hs0 in h. exists s0.
  ok_inv h. destruct a as [[k v] s1]. destruct v as [z| | |]; try discriminate h. destruct (eqb k (b "#") && int64_ok z) eqn:E1; [|discriminate h].
  cbn [negb] in h. apply andb_true_iff in E1 as [E1 _]. apply eqb_eq in E1. subst k.
  exists s1. split; [exact hs0|]. 
  assert (m_seqno m = z); [|subst z; reflexivity]. clear - h.
  repeat match type of h with
  | bind _ _ = Ok _ => ok_inv h
  | (let '(_, _) := ?x in _) = _ => destruct x
  | match ?x with _ => _ end = Ok _ => destruct x; try discriminate h
  end. injection h as <-. reflexivity.
Qed.
Lemma merge_msgs_no_ub E l : no_collision E l -> (1 <= e_lag E)%Z ->
  (forall s z, In s l -> seqno_field s z -> (- 2 ^ 63 + e_lag E <= z)%Z /\ (z + e_lag E < 2 ^ 63)%Z) -> merge_msgs E l <> UB.
Proof.
  intros hnc hlag hr h. unfold merge_msgs in h. apply bind_ub in h as [h|([ms bad] & hp & h)].
  - apply parse_all_ub in h as (s & hs & h). apply parse_msg_ub in h as (s0 & z & s1 & h1 & h2 & h3 & h4).
    destruct (hr s z hs) as [r1 r2]; [exists s0, s1; auto|]. assert (int64_ok (z - e_lag E) = true); [|congruence].
    apply int64_ok_spec. apply int64_ok_spec in h3. lia.
  - apply bind_ub in h as [h|(m & _ & h)]; [|discriminate]. revert h. apply merge_parsed_no_ub; [eapply parsed_good; eassumption|exact hlag|].
    intros m hm. apply (parse_all_spec _ _ _ _ _ hp) in hm as (s & hs & hm). apply (hr s _ hs). eapply parse_seqno; exact hm.
Qed.
Lemma parse_terminates E t s :
  (forall d, field_in s (b "=") (BDict d) -> stray_int (BDict d) = false) ->
  (forall l, field_in s (b "<") (BList l) -> forall e, In e l -> stray_lag e = false) ->
  parse_msg E t s <> Hang.
Proof.
  intros h1 h2 h. apply parse_msg_hang in h as [(l & hl & hs)|(d & hd & hs)].
  - apply existsb_exists in hs as (e & he & hs). rewrite (h2 l hl e he) in hs. discriminate.
  - rewrite (h1 d hd) in hs. discriminate.
Qed.
