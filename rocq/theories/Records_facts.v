From Verif Require Import Records Hex_facts Data_facts Fields_facts Base_facts Life_facts Life2_facts Conf_facts Conf2_facts Maps Reach_facts Message_facts.
From Coq Require Import Lia.

(** What record calls need of the object: kept by edits and true at every point of an object's life. *)
Definition usable (st : bstate) : Prop := wf (s_data st) = true /\ (is_dirty st = false -> pruned (s_data st) = true).

Lemma life_usable B st : benv_ok B -> life B tame st -> usable st.
Proof.
  intros hB h. split; [eapply life_wf; eassumption|]. intros hd. apply (life_inv2 _ _ hB h). unfold is_dirty in hd. destruct (s_state st); congruence.
Qed.
Lemma increment_data E c c' : pruned (m_data (c_msg c)) = true -> increment E c = Ok c' -> m_data (c_msg c') = m_data (c_msg c).
Proof.
  assert (hi : forall m c', increment_impl E m = Ok c' -> m_data (c_msg c') = m_data m).
  { intros m c0. unfold increment_impl. destruct (_ || _); [discriminate|]. intros h. injection h as <-. reflexivity. }
  intros hp. destruct c as [m|m o]; cbn [increment]; [apply hi|]. intros h.
  destruct (serialize E (Mut m o) true) as [[s c1]| | | |] eqn:e; try discriminate. cbn in h. apply hi in h. rewrite h. cbn [m_data].
  unfold serialize in e. destruct (refresh (Mut m o)) as [c2| | | |] eqn:er; try discriminate. cbn [bind] in e.
  destruct (serialize_impl _ _ _ _) as [s0| | | |]; try discriminate. cbn in e. assert (c2 = c1) by congruence. subst c2.
  cbn [refresh] in er. destruct (diff o _); try discriminate. injection er as <-. cbn in hp |- *. apply prune_id, hp.
Qed.
Lemma dirty_data B st st1 : usable st -> dirty B st = (Ok tt, st1) -> s_data st1 = s_data st /\ is_dirty st1 = true.
Proof.
  intros [hw hp] h. apply dirty_spec in h as [(h1 & -> & _)|[(_ & _ & h & _)|(hnd & _ & st0 & hs & [(c & hc & _ & ->)|(_ & h & ->)])]].
  - unfold is_dirty. rewrite h1. auto.
  - discriminate.
  - apply set_state_spec in hs as [(hs & _)|(_ & e1 & e2 & _)]; [discriminate|]. unfold s_data, s_msg, is_dirty. cbn. rewrite e2. split; [|reflexivity].
    apply (increment_data (b_env B)); [|exact hc]. apply hp. unfold is_dirty. destruct (s_state st); congruence.
  - destruct (increment (b_env B) (s_conf st)); discriminate.
Qed.
Lemma edited_wf o d : is_edit o = true -> match o with OpAssign _ _ v => wf_v v = true | OpSetInsert _ _ x => scalar_ok x = true | _ => True end ->
  wf d = true -> wf (edited o d) = true.
Proof.
  intros ho hv hw. destruct o; try discriminate; cbn [edited].
  - destruct (empty_container v); [apply mod_field_wf; [discriminate|exact hw]|apply upd_field_wf; auto].
  - apply mod_field_wf; [discriminate|exact hw].
  - apply upd_field_wf; [|exact hw]. intros [y|] hy; cbn [wf_v].
    + change (wf_v (VSet (sadd x (as_set (Some y)))) = true). destruct y as [| l |]; cbn [as_set]; try (cbn; rewrite hv; reflexivity).
      cbn in hy |- *. apply andb_prop in hy as [h1 h2]. apply andb_true_intro. split; [apply ssortedb_spec, ssorted_sadd, ssortedb_spec, h1|].
      apply forallb_forall. intros z hz. apply In_sadd in hz as [->|hz]; [exact hv|]. rewrite forallb_forall in h2. auto.
    + cbn. rewrite hv. reflexivity.
  - apply mod_field_wf; [|exact hw]. intros [| l |] v' hy h; injection h as <-; try reflexivity.
    cbn in hy |- *. apply andb_prop in hy as [h1 h2]. apply andb_true_intro. split; [apply ssortedb_spec, ssorted_sdel, ssortedb_spec, h1|].
    apply forallb_forall. intros z hz. apply In_sdel in hz as [_ hz]. rewrite forallb_forall in h2. auto.
Qed.
Definition writes (o : op) : Prop := is_edit o = true /\ match o with OpAssign _ _ v => wf_v v = true | OpSetInsert _ _ x => scalar_ok x = true | _ => True end.
Definition after_ops (l : list op) (d : dict) : dict := fold_left (fun d o => edited o d) l d.
Lemma run_usable B o st st' : usable st -> writes o -> run B o st = (Ok tt, st') -> s_data st' = edited o (s_data st) /\ usable st'.
Proof.
  intros hu [ho hv] h. pose proof hu as [hw hp]. destruct (edit_cases B o st ho hw) as [(h1 & _ & he)|(f & h1 & hf)]; rewrite h1 in h.
  - injection h as <-. auto.
  - apply edit_spec in h as [(h & _)|(st1 & m & o1 & h & hc & _ & ->)]; [congruence|]. destruct (dirty_data _ _ _ hu h) as [e1 e2].
    assert (e : s_data (set_conf (Mut (set_data m (f (m_data m))) o1) st1) = edited o (s_data st)).
    { unfold s_data at 1, s_msg. cbn. rewrite hf, <- e1. unfold s_data, s_msg. rewrite hc. reflexivity. }
    split; [exact e|]. split; [rewrite e; apply edited_wf; assumption|]. cbn. intros g. unfold is_dirty in *. cbn in g. rewrite g in e2. discriminate.
Qed.
Lemma run_ops_data B l : forall st st', usable st -> Forall writes l -> run_ops B l st = (Ok tt, st') -> s_data st' = after_ops l (s_data st) /\ usable st'.
Proof.
  induction l as [|o l IH]; intros st st' hu hl h; cbn [run_ops] in h; [injection h as <-; auto|].
  inversion hl as [|x y h1 h2]; subst. destruct (run B o st) as [[[]| | | |] st1] eqn:e; try discriminate.
  destruct (run_usable _ _ _ _ hu h1 e) as [e1 hu1]. destruct (IH _ _ hu1 h2 h) as [e2 hu2]. split; [|exact hu2].
  cbn [after_ops fold_left]. rewrite <- e1. exact e2.
Qed.
Lemma after_wf l : forall d, Forall writes l -> wf d = true -> wf (after_ops l d) = true.
Proof.
  induction l as [|o l IH]; intros d hl hw; [exact hw|]. inversion hl as [|x y [h1 h1'] h2]; subst. apply IH; [exact h2|]. apply edited_wf; assumption.
Qed.

(** ** scripts *)
Definition script_ok (s : script) : Prop := Forall (fun p => match snd p with Some v => wf_v v = true /\ empty_container v = false | None => True end) s.
Lemma script_writes pre s : script_ok s -> Forall writes (map (op_at pre) s).
Proof.
  induction s as [|[k v] s IH]; intros h; inversion h as [|x y h1 h2]; subst; cbn [map]; constructor; [|apply IH, h2].
  unfold writes, op_at. cbn [fst snd] in *. destruct v as [v|]; (split; [reflexivity|]); [apply h1|exact I].
Qed.
Definition pick (k : bytes) (acc : option value) (p : bytes * option value) : option value := if eqb (fst p) k then snd p else acc.
Lemma apart_diff pre k k' : k <> k' -> apart (pre ++ [k]) (pre ++ [k']) = true.
Proof.
  intros h. induction pre as [|x pre IH]; cbn [app apart]; [|rewrite eqb_refl; exact IH].
  destruct (eqb k k') eqn:e; [apply eqb_eq in e; contradiction|reflexivity].
Qed.
Lemma script_field pre s k : script_ok s -> forall d, wf d = true ->
  get_path (pre ++ [k]) (after_ops (map (op_at pre) s) d) = fold_left (pick k) s (get_path (pre ++ [k]) d).
Proof.
  induction s as [|[k' v] s IH]; intros hs d hd; [reflexivity|]. inversion hs as [|x y h1 h2]; subst. cbn [map after_ops fold_left].
  assert (hwr : writes (op_at pre (k', v))) by (apply script_writes with (pre := pre) in hs; cbn [map] in hs; inversion hs; assumption).
  destruct hwr as [ho hv]. rewrite IH; [|exact h2|apply edited_wf; assumption]. f_equal.
  unfold pick. cbn [fst snd] in *. destruct (eqb k' k) eqn:e.
  - apply eqb_eq in e. subst k'. change (pre ++ [k]) with (edit_path (OpErase pre k)).
    replace (edit_path (OpErase pre k)) with (edit_path (op_at pre (k, v))) by (destruct v; reflexivity).
    rewrite edited_read by assumption. destruct v as [v|]; cbn [op_at snd new_value fst]; [|reflexivity]. destruct h1 as [_ h1]. rewrite h1. reflexivity.
  - apply edited_other; [exact ho|exact hd|]. replace (edit_path (op_at pre (k', v))) with (pre ++ [k']) by (destruct v; reflexivity).
    apply apart_diff. intros ->. rewrite eqb_refl in e. discriminate.
Qed.
Lemma op_at_path pre p : edit_path (op_at pre p) = pre ++ [fst p].
Proof. destruct p as [k [v|]]; reflexivity. Qed.
Lemma script_other pre s p : script_ok s -> (forall k, apart p (pre ++ [k]) = true) -> forall d, wf d = true ->
  get_path p (after_ops (map (op_at pre) s) d) = get_path p d.
Proof.
  intros hs hp. induction s as [|q s IH]; intros d hd; [reflexivity|]. inversion hs as [|x y h1 h2]; subst.
  apply script_writes with (pre := pre) in hs. cbn [map] in hs. inversion hs as [|x y [ho hv] h3]; subst. cbn [map after_ops fold_left].
  etransitivity; [apply IH; [exact h2|apply edited_wf; assumption]|]. apply edited_other; [exact ho|exact hd|]. rewrite op_at_path. apply hp.
Qed.
Lemma get_path_app p k d : p <> [] -> get_path (p ++ [k]) d = match get_path p d with Some (VDict r) => lookup k r | _ => None end.
Proof.
  intros hp. revert d. induction p as [|x p IH]; intros d; [contradiction|]. destruct p as [|y p].
  - reflexivity.
  - change (get_path ((x :: y :: p) ++ [k]) d) with (match lookup x d with Some (VDict d') => get_path ((y :: p) ++ [k]) d' | _ => None end).
    change (get_path (x :: y :: p) d) with (match lookup x d with Some (VDict d') => get_path (y :: p) d' | _ => None end).
    destruct (lookup x d) as [[| |d']|]; try reflexivity. apply IH. discriminate.
Qed.
(** the dict a script has written into: every field is as the last entry for it says *)
Lemma script_dict i l s d k0 v0 : script_ok s -> wf d = true -> (fold_left (pick k0) s None = Some v0) ->
  (forall a, fold_left (pick k0) s a = fold_left (pick k0) s None) ->
  exists r, dict_at i l (after_ops (map (op_at (i ++ [l])) s) d) = Some r /\
    forall k, lookup k r = fold_left (pick k) s (match dict_at i l d with Some r0 => lookup k r0 | None => None end).
Proof.
  intros hs hd h0 ha. set (d' := after_ops _ d). assert (hne : i ++ [l] <> []) by (destruct i; discriminate).
  assert (hk : forall k, get_path ((i ++ [l]) ++ [k]) d' = fold_left (pick k) s (get_path ((i ++ [l]) ++ [k]) d)) by (intros k; apply script_field; assumption).
  unfold dict_at, field. pose proof (hk k0) as h1. rewrite ha, h0, get_path_app in h1 by exact hne.
  destruct (get_path (i ++ [l]) d') as [[| |r]|] eqn:e; try discriminate. exists r. split; [reflexivity|]. intros k.
  specialize (hk k). rewrite (get_path_app _ k d' hne), (get_path_app _ k d hne), e in hk. rewrite hk. destruct (get_path (i ++ [l]) d) as [[| |r0]|]; reflexivity.
Qed.
Lemma run_script_spec B pre s st st' : usable st -> script_ok s -> run_script B pre s st = (Ok tt, st') ->
  s_data st' = after_ops (map (op_at pre) s) (s_data st) /\ usable st'.
Proof. intros hu hs. apply run_ops_data; [exact hu|apply script_writes, hs]. Qed.
Lemma apart_sibling i l l' k : l' <> l -> apart (i ++ [l']) ((i ++ [l]) ++ [k]) = true.
Proof.
  intros h. induction i as [|x i IH]; cbn [app apart]; [|rewrite eqb_refl; exact IH].
  destruct (eqb l' l) eqn:e; [apply eqb_eq in e; contradiction|reflexivity].
Qed.
Lemma script_sibling i l l' s d : script_ok s -> wf d = true -> l' <> l -> field i l' (after_ops (map (op_at (i ++ [l])) s) d) = field i l' d.
Proof. intros hs hd hl. apply script_other; [exact hs| |exact hd]. intros k. apply apart_sibling, hl. Qed.

(** ** arithmetic *)
Lemma to_int32_id z : int32_ok z -> to_int32 z = z.
Proof. unfold int32_ok, to_int32. intros h. rewrite Z.mod_small; lia. Qed.
Lemma int32_int64 z : int32_ok z -> int64_ok z = true.
Proof. unfold int32_ok, int64_ok, int64_min, int64_max. intros h. apply andb_true_intro. split; apply Z.leb_le; lia. Qed.

(** ** one record under a key of a collection *)
Lemma record_set B top pk s st st' k0 v0 : usable st -> script_ok s -> fold_left (pick k0) s None = Some v0 ->
  (forall a, fold_left (pick k0) s a = fold_left (pick k0) s None) -> run_script B [top; pk] s st = (Ok tt, st') ->
  usable st' /\
  (exists r, dict_at [top] pk (s_data st') = Some r /\
     forall k, lookup k r = fold_left (pick k) s (match dict_at [top] pk (s_data st) with Some r0 => lookup k r0 | None => None end)) /\
  (forall pk', pk' <> pk -> field [top] pk' (s_data st') = field [top] pk' (s_data st)) /\
  (forall p, (forall q, apart p (top :: q) = true) -> get_path p (s_data st') = get_path p (s_data st)).
Proof.
  intros hu hs h1 h2 h. apply run_script_spec in h as [hd hu']; [|exact hu|exact hs]. split; [exact hu'|]. rewrite hd. change [top; pk] with ([top] ++ [pk]).
  split; [|split].
  - apply script_dict with (k0 := k0) (v0 := v0); auto. apply hu.
  - intros pk' hne. apply script_sibling; [exact hs|apply hu|exact hne].
  - intros p hp. apply script_other; [exact hs| |apply hu]. intros k. apply hp.
Qed.
Lemma record_erase B top pk st st' : usable st -> run B (OpErase [top] pk) st = (Ok tt, st') ->
  usable st' /\ field [top] pk (s_data st') = None /\ (forall pk', pk' <> pk -> field [top] pk' (s_data st') = field [top] pk' (s_data st)) /\
  (forall p, (forall q, apart p (top :: q) = true) -> get_path p (s_data st') = get_path p (s_data st)).
Proof.
  intros hu h. assert (hw : writes (OpErase [top] pk)) by (split; [reflexivity|exact I]).
  destruct (run_usable _ _ _ _ hu hw h) as [hd hu']. split; [exact hu'|]. rewrite hd. split; [|split].
  - change (field [top] pk) with (get_path (edit_path (OpErase [top] pk))). rewrite edited_read by (apply hu || reflexivity). reflexivity.
  - intros pk' hne. apply edited_other; [reflexivity|apply hu|]. apply (apart_diff [top]), hne.
  - intros p hp. apply edited_other; [reflexivity|apply hu|]. apply hp.
Qed.
Lemma apart_top x p y : x <> y -> forall q, apart (x :: p) (y :: q) = true.
Proof. intros h q. cbn [apart]. destruct (eqb x y) eqn:e; [apply eqb_eq in e; contradiction|reflexivity]. Qed.

(** ** hex *)
Lemma hex_char_lt p q : (p < 16)%N -> (q < 16)%N -> (p < q)%N -> cmp (hex_char p) (hex_char q) = Lt.
Proof.
  intros h1 h2 h3.
  assert (hall : forallb (fun p => forallb (fun q => match cmp (hex_char p) (hex_char q) with Lt => true | _ => negb (N.ltb p q) end) (map N.of_nat (seq 0 16))) (map N.of_nat (seq 0 16)) = true) by reflexivity.
  rewrite forallb_forall in hall. specialize (hall p). assert (hp : In p (map N.of_nat (seq 0 16))).
  { rewrite <- (N2Nat.id p). apply in_map, in_seq. lia. }
  specialize (hall hp). rewrite forallb_forall in hall. specialize (hall q). assert (hq : In q (map N.of_nat (seq 0 16))).
  { rewrite <- (N2Nat.id q). apply in_map, in_seq. lia. }
  specialize (hall hq). destruct (cmp (hex_char p) (hex_char q)); [|reflexivity|]; apply N.ltb_lt in h3; rewrite h3 in hall; discriminate.
Qed.
Lemma nibbles p q : (p < q -> p / 16 < q / 16 \/ p / 16 = q / 16 /\ p mod 16 < q mod 16)%N.
Proof.
  intros h. pose proof (N.div_mod' p 16) as h1. pose proof (N.div_mod' q 16) as h2.
  pose proof (N.mod_lt p 16 ltac:(discriminate)). pose proof (N.mod_lt q 16 ltac:(discriminate)).
  generalize dependent (p / 16)%N. generalize dependent (q / 16)%N. generalize dependent (p mod 16)%N. generalize dependent (q mod 16)%N. intros. lia.
Qed.
Lemma to_hex_lt x : forall y, cmp x y = Lt -> cmp (to_hex x) (to_hex y) = Lt.
Proof.
  induction x as [|c x IH]; intros [|c' y] h; try discriminate; [reflexivity|].
  change (cmp (c :: x) (c' :: y)) with (match cmp c c' with Eq => cmp x y | r => r end) in h.
  set (p := N_of_ascii c). set (q := N_of_ascii c').
  change (cmp (to_hex (c :: x)) (to_hex (c' :: y))) with
    (match cmp (hex_char (p / 16)) (hex_char (q / 16)) with Eq => match cmp (hex_char (p mod 16)) (hex_char (q mod 16)) with Eq => cmp (to_hex x) (to_hex y) | r => r end | r => r end).
  pose proof (N_of_ascii_lt c) as h1. pose proof (N_of_ascii_lt c') as h2. fold p in h1. fold q in h2.
  assert (d1 : (p / 16 < 16)%N) by (apply N.div_lt_upper_bound; lia). assert (d2 : (q / 16 < 16)%N) by (apply N.div_lt_upper_bound; lia).
  pose proof (N.mod_lt p 16 ltac:(lia)) as m1. pose proof (N.mod_lt q 16 ltac:(lia)) as m2.
  destruct (cmp c c') eqn:e; [|clear IH h|discriminate].
  - apply cmp_eq in e. subst c'. subst q. fold p. rewrite !cmp_refl. apply IH, h.
  - change (cmp c c') with (N.compare p q) in e. apply N.compare_lt_iff in e.
    destruct (nibbles p q e) as [g|[g g']].
    + rewrite hex_char_lt by assumption. reflexivity.
    + rewrite g, cmp_refl, (hex_char_lt (p mod 16) (q mod 16)); auto.
Qed.
Lemma to_hex_inj x y : to_hex x = to_hex y -> x = y.
Proof. intros h. assert (Some x = Some y) by (rewrite <- !from_to_hex, h; reflexivity). congruence. Qed.
Lemma hex_digit_lower c n : hex_digit c = Some n -> hex_char n = lower c.
Proof. destruct c as [[|] [|] [|] [|] [|] [|] [|] [|]]; intros h; try discriminate h; injection h as <-; reflexivity. Qed.
Lemma to_from_hex s : forall t, from_hex s = Some t -> to_hex t = make_lc s.
Proof.
  assert (hn : forall n s t, length s <= n -> from_hex s = Some t -> to_hex t = make_lc s); [|intros t; apply (hn (length s)); lia].
  intros n. induction n as [|n IH]; intros [|x [|y r]] t hl h; try (cbn in hl; lia); try (injection h as <-; reflexivity); try discriminate.
  cbn [from_hex] in h. destruct (hex_digit x) as [p|] eqn:ep; [|discriminate]. destruct (hex_digit y) as [q|] eqn:eq; [|discriminate].
  destruct (from_hex r) as [t'|] eqn:er; [|discriminate]. injection h as <-. cbn [make_lc map]. fold (make_lc r). rewrite <- (IH r t'); [|cbn in hl; lia|exact er].
  pose proof (hex_digit_lt _ _ ep). pose proof (hex_digit_lt _ _ eq). unfold to_hex. cbn [flat_map app]. rewrite N_ascii_embedding by lia.
  rewrite (N.mul_comm 16 p), N.div_add_l, N.div_small, N.add_0_r by lia. rewrite N.add_comm, N.mod_add, N.mod_small by lia.
  rewrite (hex_digit_lower _ _ ep), (hex_digit_lower _ _ eq). reflexivity.
Qed.
Lemma sid_key p sid pk : session_id_to_bytes sid p = Ok pk -> from_hex sid = Some pk /\ session_id_ok sid p = true.
Proof. unfold session_id_to_bytes. destruct (session_id_ok sid p); [|discriminate]. destruct (from_hex sid); [|discriminate]. cbn. intros h. split; [congruence|reflexivity]. Qed.
Lemma sid_ok_key p sid : session_id_ok sid p = true -> exists pk, session_id_to_bytes sid p = Ok pk.
Proof.
  intros hs. unfold session_id_to_bytes. rewrite hs. apply andb_prop in hs as [hs _]. apply andb_prop in hs as [_ hs]. unfold is_hex in hs.
  destruct (from_hex sid); [eexists; reflexivity|discriminate].
Qed.
Lemma sid_to_bytes_hex p k : session_id_ok (to_hex k) p = true -> session_id_to_bytes (to_hex k) p = Ok k.
Proof. intros h. unfold session_id_to_bytes. rewrite h, from_to_hex. reflexivity. Qed.
Lemma sid_length p sid pk : length p = 2 -> session_id_to_bytes sid p = Ok pk -> length pk = 33.
Proof.
  intros hp h. apply sid_key in h as [h1 h2]. apply from_hex_length in h1. apply andb_prop in h2 as [h2 _]. apply andb_prop in h2 as [h2 _]. apply Nat.eqb_eq in h2. lia.
Qed.

Lemma walk_ids_spec {A} skips prefix (load : dict -> A) d : forall l, wf d = true -> walk_ids skips prefix load d = Ok l ->
  ssorted (map fst l) /\ forall sid a, In (sid, a) l <-> exists k info, lookup k d = Some (VDict info) /\ length k = 33 /\ session_id_ok (to_hex k) prefix = true /\ sid = to_hex k /\ a = load info.
Proof.
  induction d as [|[k v] d IH]; intros l hw h.
  - injection h as <-. split; [constructor|]. intros sid a. split; [intros []|]. intros (k & info & h & _). discriminate.
  - pose proof (wf_sorted _ hw) as hs. apply msorted_cons in hs as [hs1 hs2].
    assert (hw' : wf d = true).
    { apply wf_cons in hw. apply hw. }
    assert (hskip : forall l0, (length k <> 33 \/ (forall info, v <> VDict info) \/ session_id_ok (to_hex k) prefix = false) -> walk_ids skips prefix load d = Ok l0 ->
      ssorted (map fst l0) /\ forall sid a, In (sid, a) l0 <-> exists k' info, lookup k' ((k, v) :: d) = Some (VDict info) /\ length k' = 33 /\ session_id_ok (to_hex k') prefix = true /\ sid = to_hex k' /\ a = load info).
    { intros l0 hv h0. destruct (IH l0 hw' h0) as [i1 i2]. split; [exact i1|]. intros sid a. rewrite i2. split; intros (k' & info & g1 & g2 & g3 & g4 & g5).
      - exists k', info. repeat split; auto. cbn [lookup]. destruct (eqb k' k) eqn:e; [|exact g1]. apply eqb_eq in e. subst k'. rewrite lookup_lt_head in g1 by exact hs2. discriminate.
      - exists k', info. repeat split; auto. cbn [lookup] in g1. destruct (eqb k' k) eqn:e; [|exact g1]. apply eqb_eq in e. subst k'. exfalso.
        assert (v = VDict info) by congruence. subst v. destruct hv as [hv|[hv|hv]]; [auto|apply (hv info); reflexivity|congruence]. }
    cbn [walk_ids] in h. destruct (Nat.eqb (length k) 33) eqn:e33; [|apply hskip; [left; apply Nat.eqb_neq, e33|exact h]].
    destruct v as [s|s|info]; try (apply hskip; [right; left; intros info; discriminate|exact h]).
    destruct (session_id_ok (to_hex k) prefix) eqn:eok.
    + clear hskip. destruct (walk_ids skips prefix load d) as [t| | | |] eqn:et; try discriminate. cbn in h. assert (l = (to_hex k, load info) :: t) by congruence. subst l. clear h.
      destruct (IH t hw' eq_refl) as [i1 i2]. cbn [map fst]. split.
      * constructor; [exact i1|]. apply Forall_forall. intros sid hin. apply in_map_iff in hin as ([sid' a] & <- & hin). cbn [fst]. apply i2 in hin as (k' & info' & g1 & _ & _ & -> & _).
        apply to_hex_lt. rewrite Forall_forall in hs2. apply hs2. apply lookup_keys. eauto.
      * intros sid a. cbn [In]. rewrite i2. split.
        -- intros [g|(k' & info' & g1 & g2 & g3 & g4 & g5)].
           ++ injection g as <- <-. exists k, info. repeat split; auto; [cbn [lookup]; rewrite eqb_refl; reflexivity|apply Nat.eqb_eq, e33].
           ++ exists k', info'. repeat split; auto. cbn [lookup]. destruct (eqb k' k) eqn:e; [|exact g1]. apply eqb_eq in e. subst k'. rewrite lookup_lt_head in g1 by exact hs2. discriminate.
        -- intros (k' & info' & g1 & g2 & g3 & g4 & g5). cbn [lookup] in g1. destruct (eqb k' k) eqn:e.
           ++ apply eqb_eq in e. left. subst. congruence.
           ++ right. exists k', info'. repeat split; auto.
    + destruct skips; [|discriminate]. apply hskip; [right; right; reflexivity|exact h].
Qed.
Lemma walk_ids_total {A} skips prefix (load : dict -> A) d :
  (skips = false -> forall k info, In (k, VDict info) d -> length k = 33 -> session_id_ok (to_hex k) prefix = true) -> exists l, walk_ids skips prefix load d = Ok l.
Proof.
  induction d as [|[k v] d IH]; intros hd; [eexists; reflexivity|]. destruct IH as [l hl].
  { intros hs k' info hin. apply (hd hs k' info). right. exact hin. }
  cbn [walk_ids]. destruct (Nat.eqb (length k) 33) eqn:e; [|eauto]. destruct v as [| |info]; eauto.
  destruct (session_id_ok (to_hex k) prefix) eqn:eok; [rewrite hl; eexists; reflexivity|]. destruct skips; [eauto|].
  rewrite (hd eq_refl k info) in eok; [discriminate|left; reflexivity|apply Nat.eqb_eq, e].
Qed.

(** ** calls made of several edits, as part of an object's life *)
Lemma run_ops_life B l : forall st st', life B tame st -> Forall writes l -> run_ops B l st = (Ok tt, st') ->
  (forall n st1, run_ops B (firstn n l) st = (Ok tt, st1) -> sendable (s_data st1)) -> life B tame st'.
Proof.
  induction l as [|o l IH]; intros st st' hl hw h hs; cbn [run_ops] in h; [injection h as <-; exact hl|]. inversion hw as [|x y [h1 h1'] h2]; subst.
  destruct (run B o st) as [[[]| | | |] st1] eqn:e; try discriminate. apply (IH st1); [|exact h2|exact h|].
  - apply (life_step _ _ st o); [exact hl|]. apply step_run with (x := Ok tt); [exact e|split; discriminate|]. split; [|apply (hs 1); cbn [firstn run_ops]; rewrite e; destruct l; reflexivity].
    destruct o; try discriminate; try exact I; exact h1'.
  - intros n st2 h3. apply (hs (S n)). cbn [firstn run_ops]. rewrite e. exact h3.
Qed.
Fixpoint run_ops_checked (B : benv) (l : list op) (st : bstate) : option bstate :=
  match l with
  | [] => Some st
  | o :: r => match run B o st with
              | (Ok _, st1) => if bt_ok (BDict (bt_of_dict (s_data st1))) then run_ops_checked B r st1 else None
              | _ => None
              end
  end.
Lemma run_ops_checked_life B l : forall st st', run_ops_checked B l st = Some st' -> life B tame st -> Forall writes l ->
  life B tame st' /\ run_ops B l st = (Ok tt, st').
Proof.
  induction l as [|o l IH]; intros st st' h hl hw; cbn [run_ops_checked run_ops] in *; [injection h as <-; auto|]. inversion hw as [|x y [h1 h1'] h2]; subst.
  destruct (run B o st) as [[[]| | | |] st1] eqn:e; try discriminate. destruct (bt_ok (BDict (bt_of_dict (s_data st1)))) eqn:es; [|discriminate].
  apply IH; [exact h| |exact h2].
  apply (life_step _ _ st o); [exact hl|]. apply step_run with (x := Ok tt); [exact e|split; discriminate|]. split; [|exact es].
  destruct o; try discriminate; try exact I; exact h1'.
Qed.
