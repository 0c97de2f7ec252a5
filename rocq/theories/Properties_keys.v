(** C38-C46, C60, C64-C67: group keys.  Statements only; proofs are in KeyList_facts.v, Keys_facts.v to Keys7_facts.v,
    Multi_facts.v, Multi2_facts.v and Group_facts.v, the vocabulary is in KeysSpec.v and Group.v. *)
From Verif Require Import KeysSpec Sub Group KeyList_facts Keys_facts Keys2_facts Keys3_facts Hex_facts Multi_facts Multi2_facts Keys4_facts Keys5_facts Keys6_facts Keys7_facts Group_facts Bt_facts Parse_facts Toy ToyCrypt ToyKeys ToyBase Str_facts Conf2_facts Dump_facts.

(** ** objects for the examples: one administrator and one member of a group *)
Definition seed_g : bytes := Eval vm_compute in repeat "g"%char 32.
Definition seed_a : bytes := Eval vm_compute in repeat "a"%char 32.
Definition seed_m : bytes := Eval vm_compute in repeat "m"%char 32.
Definition gsk : bytes := Eval vm_compute in toy_sk seed_g.
Definition gpk : bytes := Eval vm_compute in toy_hash seed_g.
Definition user_a : bytes := Eval vm_compute in toy_sk seed_a.
Definition user_m : bytes := Eval vm_compute in toy_sk seed_m.
Definition adm : kobj := new_keys user_a gpk (Some gsk).
Definition mem : kobj := new_keys user_m gpk None.
Definition pk_m : bytes := Eval vm_compute in toy_hash seed_m.
Lemma adm_reach : kreach toy_g adm.
Proof. exists user_a, gpk, (Some gsk). repeat split. constructor. Qed.
Lemma mem_reach : kreach toy_g mem.
Proof. exists user_m, gpk, None. repeat split. constructor. Qed.
(** a key message with a chosen generation and key and without member entries, signed by the group *)
Definition key_nonce : bytes := Eval vm_compute in repeat "n"%char 24.
Definition key_msg (g : Z) (key : bytes) : bytes :=
  signed toy_g gsk (rekey_entries key_nonce g (x_seal toy_x (seed_hash toy_g gsk ADMIN_KEY) key_nonce key) []).
Definition key1 : bytes := Eval vm_compute in repeat "1"%char 32.
Definition key2 : bytes := Eval vm_compute in repeat "2"%char 32.
Definition msg01 : bytes := Eval vm_compute in key_msg 0 key1.
Definition msg02 : bytes := Eval vm_compute in key_msg 0 key2.
(** the administrator after both have arrived *)
Definition adm2 : kobj := Eval vm_compute in receive_all toy_g [(b "h1", msg01, 5%Z); (b "h2", msg02, 7%Z)] adm.
Lemma adm2_reach : kreach toy_g adm2.
Proof.
  exists user_a, gpk, (Some gsk). split; [reflexivity|]. split; [reflexivity|]. split; [reflexivity|].
  apply (kl_step _ _ (receive toy_g adm (b "h1", msg01, 5%Z))); [apply (kl_step _ _ adm); [constructor|]|].
  - apply (ks_load toy_g (b "h1") msg01 5 _ true). vm_compute. reflexivity.
  - apply (ks_load toy_g (b "h2") msg02 7 _ true). vm_compute. reflexivity.
Qed.

(** ** C38 *)
(** Whatever happens to a Keys object (any messages in any order, valid or not, rekeys, restarts, becoming an
    administrator), its keys are in strict order, no (generation, key) pair is there twice, and the encryption key is the
    pending one if there is one and otherwise the last in that order. *)
Theorem C38_ordered G o : lib_ok G -> kreach G o ->
  (forall i j x y, i < j -> nth_error (ko_keys o) i = Some x -> nth_error (ko_keys o) j = Some y -> before x y) /\ NoDup (map key_id (ko_keys o)).
Proof.
  intros hG hr. pose proof (kinv_reach G o hG hr) as hi. split; [|exact (ki_ids o hi)]. pose proof (ki_sorted o hi) as hs. clear -hs.
  assert (h : forall l, ssorted l -> forall i j (x y : key_info), i < j -> nth_error l i = Some x -> nth_error l j = Some y -> before x y).
  2: exact (h _ hs). clear. induction l as [|z l IH]; intros hs i j x y hij hx hy; [destruct i; discriminate|]. apply ssorted_cons in hs as [hs hf].
  destruct j as [|j]; [lia|]. cbn [nth_error] in hy. destruct i as [|i]; cbn [nth_error] in hx.
  - injection hx as <-. apply k_lt. rewrite Forall_forall in hf. apply hf. exact (nth_error_In _ _ hy).
  - apply (IH hs i j); [lia|exact hx|exact hy].
Qed.
Theorem C38_encryption_key G o : lib_ok G -> kreach G o ->
  match group_enc_key o with
  | Ok k => (ko_pconf o <> [] /\ k = ko_pkey o) \/ (ko_pconf o = [] /\ exists x, In x (ko_keys o) /\ k = k_key x /\ forall y, In y (ko_keys o) -> y = x \/ before y x)
  | _ => ko_pconf o = [] /\ ko_keys o = []
  end.
Proof.
  intros hG hr. pose proof (ki_sorted o (kinv_reach G o hG hr)) as hs. unfold group_enc_key. destruct (ko_pconf o) as [|c s]; cbn [is_nil negb]; [|left; split; [discriminate|reflexivity]].
  destruct (rev (ko_keys o)) as [|x r] eqn:E; (assert (hl : ko_keys o = rev (rev (ko_keys o))) by (rewrite rev_involutive; reflexivity)); rewrite E in hl; cbn [rev] in hl; [auto|].
  right. split; [reflexivity|]. exists x. split; [rewrite hl; apply in_or_app; right; left; reflexivity|]. split; [reflexivity|]. intros y hy. rewrite hl in hs, hy.
  apply ssorted_app in hs as (_ & _ & hs). apply in_app_or in hy as [hy|[<-|[]]]; [|auto]. right. apply k_lt, hs; [exact hy|left; reflexivity].
Qed.
Print Assumptions C38_ordered.
Print Assumptions C38_encryption_key.
Example ex_C38 : kreach toy_g adm2 /\ ko_keys adm2 = [(0%Z, (5%Z, key1)); (0%Z, (7%Z, key2))] /\ group_enc_key adm2 = Ok key2.
Proof. split; [exact adm2_reach|]. split; reflexivity. Qed.

(** ** C39 *)
(** For every ordered key list: expiry removes the oldest keys and never the newest; a key is removed only if a kept key
    of a later generation is itself older than the expiry time (counted from the newest key), and the first key of the
    second kept generation is not that old.  The hashes kept are exactly those of generations not below the oldest kept
    key. *)
Theorem C39_expiry o : ssorted (ko_keys o) -> let o' := remove_expired o in
  (exists gone, ko_keys o = gone ++ ko_keys o' /\
     forall k, In k gone -> exists k', In k' (ko_keys o') /\ (k_gen k < k_gen k')%Z /\ expired (newest_ts (ko_keys o)) k') /\
  (ko_keys o <> [] -> ko_keys o' <> []) /\
  (forall f r n, ko_keys o' = f :: r -> In n r -> (k_gen f < k_gen n)%Z -> (forall x, In x r -> (k_gen f < k_gen x)%Z -> x = n \/ before n x) -> ~ expired (newest_ts (ko_keys o)) n).
Proof.
  intros hs. cbn [remove_expired with_keys ko_keys]. destruct (expire_spec _ hs) as (d & h1 & h2 & h3 & h4). split; [|split; [exact h2|]].
  - exists d. split; [exact h1|]. intros k hk. destruct (expire_keys (ko_keys o)) as [|f r] eqn:E.
    + destruct h2; [|reflexivity]. rewrite h1. destruct d; [destruct hk|discriminate].
    + destruct (h3 f r eq_refl k hk) as [e1 e2]. exists f. split; [left; reflexivity|auto].
  - intros f r n he hn hg hleast. pose proof (ssorted_expire _ hs) as hs'. rewrite he in hs', h4.
    destruct (second_gen_least f r n hs' (or_intror hn) hg) as (n' & e1 & e2 & e3). specialize (h4 n' e1).
    assert (hg' : (k_gen f < k_gen n')%Z).
    { unfold second_gen in e1. destruct (skip_gen_spec (k_gen f) r) as (same & s1 & s2 & s3). destruct (skip_gen (k_gen f) r) as [|q qs]; [discriminate|]. injection e1 as ->.
      assert (hle : (k_gen f <= k_gen n')%Z) by (apply (front_least f r n' hs'); exact e2). lia. }
    destruct e2 as [e2|e2]; [subst n'; lia|]. destruct e3 as [<-|e3]; [exact h4|]. destruct (hleast n' e2 hg') as [-> | hb]; [exact h4|]. exfalso.
    apply k_lt in hb. exact (lt_irrefl _ (lt_trans _ _ _ e3 hb)).
Qed.
Theorem C39_hashes G o g h : lib_ok G -> kreach G o -> let o' := remove_expired o in
  has_hash (ko_active o') g h <-> has_hash (ko_active o) g h /\ exists f r, ko_keys o' = f :: r /\ (k_gen f <= g)%Z.
Proof.
  intros hG hr. cbn [remove_expired with_keys ko_keys ko_active]. pose proof (ki_tbl o (kinv_reach G o hG hr)) as [hm _]. destruct (expire_keys (ko_keys o)) as [|f r].
  - cbn [expire_active]. split; [intros (l & ? & _); discriminate|]. intros (_ & f & r & ? & _). discriminate.
  - rewrite has_expire by exact hm. split; [intros [h1 h2]; split; [exact h1|exists f, r; auto]|]. intros [h1 (f' & r' & e & h2)]. injection e as <- <-. auto.
Qed.
Print Assumptions C39_expiry.
Print Assumptions C39_hashes.
(** three generations, the newest 61 days after the second: the first goes, and its hashes with it *)
Definition day : Z := (24 * 3600 * 1000)%Z.
Definition adm3 : kobj := Eval vm_compute in with_keys adm [(0%Z, (0%Z, key1)); (1%Z, (day, key2)); (2%Z, ((62 * day)%Z, key1))] [(0%Z, [b "h"]); (1%Z, [b "i"]); (2%Z, [b "j"])] false.
Example ex_C39 : ssorted (ko_keys adm3) /\ map k_gen (ko_keys (remove_expired adm3)) = [1%Z; 2%Z] /\ ko_active (remove_expired adm3) = [(1%Z, [b "i"]); (2%Z, [b "j"])].
Proof. split; [|split; vm_compute; reflexivity]. repeat constructor; vm_compute; reflexivity. Qed.

(** ** C40 *)
(** Key messages may arrive in any order and any number of times: as long as each is readable (or invalid), generations
    do not go back in time and a key always has the same timestamp, a client that starts without keys ends with the same
    keys and the same hashes. *)
Theorem C40_any_order_partial G o ms ms' : ko_keys o = [] -> ko_active o = [] -> (forall m, In m ms <-> In m ms') -> readable G o ms ->
  in_step (offered G o ms) -> one_time (offered G o ms) ->
  ko_keys (receive_all G ms o) = ko_keys (receive_all G ms' o) /\ ko_active (receive_all G ms o) = ko_active (receive_all G ms' o).
Proof. exact (order_free G o ms ms'). Qed.
(** Each of the three conditions is needed. *)
(** The same key received with two different timestamps: the encryption key depends on the order. *)
Theorem C40_two_times_refuted : ~ (forall G o ms ms', lib_ok G -> ko_keys o = [] -> ko_active o = [] -> (forall m, In m ms <-> In m ms') -> readable G o ms ->
  in_step (offered G o ms) -> group_enc_key (receive_all G ms o) = group_enc_key (receive_all G ms' o)).
Proof.
  intros h. set (a := (b "h1", msg01, 5%Z)). set (c := (b "h2", msg02, 7%Z)). set (d := (b "h3", msg01, 9%Z)).
  assert (ca : contents toy_g adm a = Some [(0%Z, (5%Z, key1))]) by (vm_compute; reflexivity).
  assert (cc : contents toy_g adm c = Some [(0%Z, (7%Z, key2))]) by (vm_compute; reflexivity).
  assert (cd : contents toy_g adm d = Some [(0%Z, (9%Z, key1))]) by (vm_compute; reflexivity).
  assert (hc : group_enc_key (receive_all toy_g [a; c; d] adm) = group_enc_key (receive_all toy_g [d; c; a] adm)).
  { apply h; [exact toy_g_ok|reflexivity|reflexivity|intros m; cbn; tauto|..].
    - intros m [<-|[<-|[<-|[]]]]; [rewrite ca|rewrite cc|rewrite cd]; discriminate.
    - intros x y (m & ks & hm & hk & hx) (m' & ks' & hm' & hk' & hy).
      assert (hz : forall m ks x, In m [a; c; d] -> contents toy_g adm m = Some ks -> In x ks -> k_gen x = 0%Z).
      { clear -ca cc cd. intros m ks x [<-|[<-|[<-|[]]]] hk hx; [rewrite ca in hk|rewrite cc in hk|rewrite cd in hk]; injection hk as <-; destruct hx as [<-|[]]; reflexivity. }
      rewrite (hz m ks x hm hk hx), (hz m' ks' y hm' hk' hy). lia. }
  vm_compute in hc. discriminate hc.
Qed.
(** A later generation with an earlier timestamp: the keys themselves depend on the order. *)
Theorem C40_back_in_time_refuted : ~ (forall G o ms ms', lib_ok G -> ko_keys o = [] -> ko_active o = [] -> (forall m, In m ms <-> In m ms') -> readable G o ms ->
  one_time (offered G o ms) -> ko_keys (receive_all G ms o) = ko_keys (receive_all G ms' o)).
Proof.
  intros h. set (m0 := (b "h0", key_msg 0 key1, 0%Z)). set (m1 := (b "h1", key_msg 1 key1, 0%Z)). set (m2 := (b "h2", key_msg 2 key1, (KEY_EXPIRY + 1)%Z)). set (m3 := (b "h3", key_msg 3 key1, 0%Z)).
  assert (c0 : contents toy_g adm m0 = Some [(0%Z, (0%Z, key1))]) by (vm_compute; reflexivity).
  assert (c1 : contents toy_g adm m1 = Some [(1%Z, (0%Z, key1))]) by (vm_compute; reflexivity).
  assert (c2 : contents toy_g adm m2 = Some [(2%Z, ((KEY_EXPIRY + 1)%Z, key1))]) by (vm_compute; reflexivity).
  assert (c3 : contents toy_g adm m3 = Some [(3%Z, (0%Z, key1))]) by (vm_compute; reflexivity).
  assert (hc : ko_keys (receive_all toy_g [m0; m1; m2; m3] adm) = ko_keys (receive_all toy_g [m0; m1; m3; m2] adm)).
  { apply h; [exact toy_g_ok|reflexivity|reflexivity|intros m; cbn; tauto|..].
    - intros m [<-|[<-|[<-|[<-|[]]]]]; [rewrite c0|rewrite c1|rewrite c2|rewrite c3]; discriminate.
    - intros x y (m & ks & hm & hk & hx) (m' & ks' & hm' & hk' & hy).
      destruct hm as [<-|[<-|[<-|[<-|[]]]]]; [rewrite c0 in hk|rewrite c1 in hk|rewrite c2 in hk|rewrite c3 in hk]; injection hk as <-; destruct hx as [<-|[]];
      (destruct hm' as [<-|[<-|[<-|[<-|[]]]]]; [rewrite c0 in hk'|rewrite c1 in hk'|rewrite c2 in hk'|rewrite c3 in hk']; injection hk' as <-; destruct hy as [<-|[]]);
      intros e _; try reflexivity; discriminate e. }
  vm_compute in hc. discriminate hc.
Qed.
(** A valid message without a key for us, received before we have any keys: its hash is forgotten; received later it is
    kept. *)
Definition mem_msg : bytes := Eval vm_compute in signed toy_g gsk (supp_entries key_nonce 0 [x_seal toy_x (get_ok [] (multi_key toy_x (toy_xsk gsk) gpk pk_m true MEMBER_KEY)) key_nonce (enc (BList [key_entry (0%Z, (5%Z, key1))]))]).
Theorem C40_unreadable_refuted : ~ (forall G o ms ms', lib_ok G -> ko_keys o = [] -> ko_active o = [] -> (forall m, In m ms <-> In m ms') ->
  in_step (offered G o ms) -> one_time (offered G o ms) -> ko_active (receive_all G ms o) = ko_active (receive_all G ms' o)).
Proof.
  intros h. set (a := (b "h1", msg01, 5%Z)). set (c := (b "h2", mem_msg, 5%Z)).
  assert (ca : contents toy_g mem a = Some []) by (vm_compute; reflexivity).
  assert (cc : contents toy_g mem c = Some [(0%Z, (5%Z, key1))]) by (vm_compute; reflexivity).
  assert (hz : forall x, offered toy_g mem [a; c] x -> x = (0%Z, (5%Z, key1))).
  { intros x (m & ks & hm & hk & hx). destruct hm as [<-|[<-|[]]]; [rewrite ca in hk|rewrite cc in hk]; injection hk as <-; [destruct hx|]. destruct hx as [<-|[]]. reflexivity. }
  assert (hc : ko_active (receive_all toy_g [a; c] mem) = ko_active (receive_all toy_g [c; a] mem)).
  { apply h; [exact toy_g_ok|reflexivity|reflexivity|intros m; cbn; tauto|..].
    - intros x y hx hy. apply hz in hx, hy. subst. cbn. lia.
    - intros x y hx hy _ _. apply hz in hx, hy. subst. reflexivity. }
  vm_compute in hc. discriminate hc.
Qed.
Print Assumptions C40_any_order_partial.
Print Assumptions C40_two_times_refuted.
Print Assumptions C40_back_in_time_refuted.
Print Assumptions C40_unreadable_refuted.
Example ex_C40 : let ms := [(b "h1", msg01, 5%Z); (b "h2", msg02, 7%Z)] in readable toy_g adm ms /\ in_step (offered toy_g adm ms) /\ one_time (offered toy_g adm ms).
Proof.
  cbv zeta. set (a := (b "h1", msg01, 5%Z)). set (c := (b "h2", msg02, 7%Z)).
  assert (ca : contents toy_g adm a = Some [(0%Z, (5%Z, key1))]) by (vm_compute; reflexivity).
  assert (cc : contents toy_g adm c = Some [(0%Z, (7%Z, key2))]) by (vm_compute; reflexivity).
  assert (hz : forall x, offered toy_g adm [a; c] x -> x = (0%Z, (5%Z, key1)) \/ x = (0%Z, (7%Z, key2))).
  { intros x (m & ks & hm & hk & hx). destruct hm as [<-|[<-|[]]]; [rewrite ca in hk|rewrite cc in hk]; injection hk as <-; destruct hx as [<-|[]]; auto. }
  split; [|split].
  - intros m [<-|[<-|[]]]; [rewrite ca|rewrite cc]; discriminate.
  - intros x y hx hy. apply hz in hx, hy. destruct hx as [-> | ->], hy as [-> | ->]; cbn; lia.
  - intros x y hx hy. apply hz in hx, hy. destruct hx as [-> | ->], hy as [-> | ->]; cbn; intros _ e; try reflexivity; vm_compute in e; discriminate e.
Qed.

(** ** C41 *)
(** Every reachable Keys object whose dump is less than 2^64 bytes can be restored from it: same keys, hashes and pending
    message, same key list for the other configs, nothing left to save. *)
Theorem C41_restore G o : lib_ok G -> kreach G o -> (N.of_nat (length (kdump o)) <= uint64_max)%N ->
  exists o', load_dump (kdump o) (new_keys (ko_user o) (ko_pk o) (ko_sk o)) = Ok o' /\
    ko_keys o' = ko_keys o /\ ko_active o' = ko_active o /\ ko_pconf o' = ko_pconf o /\ (ko_pconf o <> [] -> ko_pgen o' = ko_pgen o /\ ko_pkey o' = ko_pkey o) /\
    group_keys o' = group_keys o /\ ko_needs_dump o' = false /\ kdump o' = kdump o.
Proof.
  intros hG hr hl. exists (restored o (ko_user o) (ko_pk o) (ko_sk o)). split; [apply load_kdump; [exact (kinv_reach G o hG hr)|exact hl]|].
  cbn [restored ko_keys ko_active ko_pconf ko_pgen ko_pkey ko_needs_dump]. repeat split; try (destruct (ko_pconf o); [contradiction|reflexivity]).
  - unfold group_keys, restored. cbn [ko_keys ko_pconf ko_pkey]. destruct (is_nil (ko_pconf o)); reflexivity.
  - apply kdump_restored.
Qed.
Print Assumptions C41_restore.
Definition adm4 : kobj := Eval vm_compute in match rekey toy_g [] adm2 with Ok (_, o) => o | _ => adm2 end.
Lemma adm4_reach : kreach toy_g adm4.
Proof.
  destruct adm2_reach as (u & p & s & h1 & h2 & h3 & h4). exists u, p, s. split; [exact h1|]. split; [exact h2|]. split; [exact h3|].
  apply (kl_step _ _ adm2); [exact h4|]. apply (ks_rekey toy_g [] adm2 (ko_pconf adm4)). vm_compute. reflexivity.
Qed.
Example ex_C41 : kreach toy_g adm4 /\ ko_pconf adm4 <> [] /\ length (ko_keys adm4) = 2.
Proof. split; [exact adm4_reach|]. split; [discriminate|reflexivity]. Qed.

(** ** C42 *)
(** needs_rekey is true exactly when we are an administrator and two different keys share the newest generation. *)
Theorem C42_needs_rekey G o : lib_ok G -> kreach G o -> needs_rekey o = true <-> admin o = true /\
  exists x y, In x (ko_keys o) /\ In y (ko_keys o) /\ x <> y /\ k_gen x = k_gen y /\ forall z, In z (ko_keys o) -> (k_gen z <= k_gen x)%Z.
Proof. intros hG hr. exact (needs_rekey_spec o (kinv_reach G o hG hr)). Qed.
Print Assumptions C42_needs_rekey.
Example ex_C42 : kreach toy_g adm2 /\ needs_rekey adm2 = true /\ needs_rekey adm = false.
Proof. split; [exact adm2_reach|split; reflexivity]. Qed.

(** ** C43 *)
(** As long as no loaded message has a key that is in the list already: when nothing is reported as unsaved, the last
    dump is what a dump would give now. *)
Theorem C43_dump_flag_partial G d o : lib_ok G -> khist G (only_news G) d o -> ko_needs_dump o = false -> kdump o = d.
Proof. intros hG h. exact (proj2 (proj2 (khist_inv G d o hG h))). Qed.
(** A known key in another message adds that message's hash, unsaved and unreported. *)
Definition adm1 : kobj := Eval vm_compute in receive toy_g adm (b "h1", msg01, 5%Z).
Theorem C43_known_key_refuted : ~ (forall G d o, lib_ok G -> khist G (fun _ _ => True) d o -> ko_needs_dump o = false -> kdump o = d).
Proof.
  intros h. assert (hh : khist toy_g (fun _ _ => True) (kdump adm1) (receive toy_g (dumped adm1) (b "h2", msg01, 5%Z))).
  { apply (kh_load _ _ _ (dumped adm1) (b "h2") msg01 5 true); [|exact I|vm_compute; reflexivity]. apply (kh_dump _ _ (kdump adm)). apply (kh_load _ _ _ adm (b "h1") msg01 5 true); [constructor|exact I|vm_compute; reflexivity]. }
  specialize (h toy_g _ _ toy_g_ok hh). assert (hf : ko_needs_dump (receive toy_g (dumped adm1) (b "h2", msg01, 5%Z)) = false) by (vm_compute; reflexivity).
  specialize (h hf). vm_compute in h. discriminate h.
Qed.
Print Assumptions C43_dump_flag_partial.
Print Assumptions C43_known_key_refuted.
Example ex_C43 : khist toy_g (only_news toy_g) (kdump adm1) (dumped adm1) /\ ko_needs_dump (dumped adm1) = false /\ ko_keys adm1 <> [].
Proof.
  split; [|split; [reflexivity|discriminate]]. apply (kh_dump _ _ (kdump adm)). apply (kh_load _ _ _ adm (b "h1") msg01 5 true); [constructor| |vm_compute; reflexivity].
  intros ks _ k y _ [].
Qed.

(** ** C44 *)
(** The number of entries of a rekey message is a multiple of 75, at most 74 more than the members (that have a usable
    public key), and all entries are 48 bytes. *)
Definition usable (G : gcrypt) (sk r : bytes) : bool := match x_dh (g_x G) (g_xsk G sk) r with Some _ => true | None => false end.
Theorem C44_entries_partial G sids o m o' : lib_ok G -> rekey G sids o = Ok (m, o') ->
  exists sk pks nonce ak es sig, ko_sk o = Some sk /\ all_pks sids = Ok pks /\
    m = enc (BDict [(b "#", BStr nonce); (b "G", BInt (ko_pgen o')); (b "K", BStr ak); (b "k", BList (map BStr es)); (b "~", BStr sig)]) /\
    length nonce = 24 /\ length ak = 48 /\ Forall (fun e => length e = 48) es /\ length es mod 75 = 0 /\
    length (filter (usable G sk) pks) <= length es < length (filter (usable G sk) pks) + 75.
Proof.
  intros hG h. destruct (rekey_spec G sids o m o' hG h) as (sk & xpk & nonce & gen & key & pks & junk & []). destruct hG as [hX hZ].
  set (cs := flat_map (sealed_for (g_x G) key nonce (g_xsk G sk) xpk MEMBER_KEY) pks) in *.
  assert (hn : length cs = length (filter (usable G sk) pks)).
  { unfold cs. clear. induction pks as [|r pks IH]; [reflexivity|]. cbn [flat_map filter]. rewrite app_length. unfold sealed_for at 1, usable at 1, multi_key. destruct (x_dh _ _ r); cbn [of_opt bind length]; lia. }
  exists sk, pks, nonce, (x_seal (g_x G) (seed_hash G sk ADMIN_KEY) nonce key), (cs ++ junk). eexists. split; [exact rk_sk|]. split; [exact rk_pks|]. split; [|split; [exact rk_nonce|]].
  - rewrite rk_msg, rk_obj. cbn [ko_pgen]. rewrite signed_wire. reflexivity.
  - split; [rewrite (so_len _ hX), rk_key; reflexivity|]. split; [apply Forall_app; split; [apply sealed_48; auto|exact rk_junk_len]|].
    rewrite app_length. unfold MESSAGE_KEY_MULTIPLE in rk_junk. destruct rk_junk. split; [assumption|]. lia.
Qed.
(** Every member in the list who shares a secret with the group gets the new key; if all keys it had are of earlier
    generations it now encrypts with it, as the administrator does from the start. *)
Theorem C44_members_get_the_key G sids o m o' p upk hash ts : lib_ok G -> binding (g_x G) -> rekey G sids o = Ok (m, o') ->
  (forall sk xpk, ko_sk o = Some sk -> g_xpk G (ko_pk o) = Some xpk -> member_in G o p sk xpk upk /\ key_pair G sk (ko_pk o)) ->
  In (sid_of upk) sids -> (0 <= ko_pgen o')%Z -> ts_ok ts = true ->
  group_enc_key o' = Ok (ko_pkey o') /\
  exists p', load_key_message G hash m ts p = Ok (true, p') /\
    (kreach G p -> (forall y, In y (ko_keys p) -> (k_gen y < ko_pgen o')%Z) -> group_enc_key p' = Ok (ko_pkey o')).
Proof.
  intros hG hB h hm hin hg hts. destruct (rekey_spec G sids o m o' hG h) as (sk & xpk & nonce & gen & key & pks & junk & hr). pose proof hr as hr'. destruct hr'.
  destruct (hm sk xpk rk_sk rk_xpk) as [h1 h2]. assert (hp : ko_pgen o' = gen /\ ko_pkey o' = key /\ ko_pconf o' = m) by (rewrite rk_obj; auto). destruct hp as (e1 & e2 & e3). rewrite e1, e2 in *.
  assert (hne : m <> []) by (rewrite rk_msg; discriminate). split.
  - unfold group_enc_key. rewrite e3, e2. destruct m; [contradiction|reflexivity].
  - eexists. split; [exact (rekey_reaches G sids o m o' p sk xpk nonce gen key pks junk upk hash ts hG hB hr h1 hin h2 hg hts)|].
    intros hp hy. apply (take_newest hash (gen, (ts, key)) gen p); [exact (kinv_reach G p hG hp)|exact hy|]. left. apply (no_pending G p hG hp). exact (mi_not_admin _ _ _ _ _ _ h1).
Qed.
(** So does every administrator, in the list or not; in particular the one that made the message, whose pending key
    becomes a normal one. *)
Theorem C44_admins_get_the_key G sids o m o' p hash ts : lib_ok G -> rekey G sids o = Ok (m, o') -> ko_pk p = ko_pk o -> ko_sk p = ko_sk o ->
  (forall sk, ko_sk o = Some sk -> key_pair G sk (ko_pk o)) -> (0 <= ko_pgen o')%Z -> ts_ok ts = true ->
  exists p', load_key_message G hash m ts p = Ok (true, p') /\
    (kreach G p -> (forall y, In y (ko_keys p) -> (k_gen y < ko_pgen o')%Z) -> p = o' \/ ko_pconf p = [] \/ (ko_pgen p < ko_pgen o')%Z -> ko_pconf p' = [] /\ group_enc_key p' = Ok (ko_pkey o')).
Proof.
  intros hG h hpk hsk hkp hg hts. destruct (rekey_spec G sids o m o' hG h) as (sk & xpk & nonce & gen & key & pks & junk & hr). pose proof hr as hr'. destruct hr'.
  assert (hp : ko_pgen o' = gen /\ ko_pkey o' = key /\ ko_pconf o' = m) by (rewrite rk_obj; auto). destruct hp as (e1 & e2 & e3). rewrite e1, e2 in *.
  eexists. split; [apply (rekey_reaches_admin G sids o m o' p sk xpk nonce gen key pks junk hash ts hG hr hpk); auto; congruence|].
  intros hp hy hc. assert (hadm : admin p = true) by (unfold admin; rewrite hsk, rk_sk; reflexivity).
  assert (hq : ko_pconf p = [] \/ admin p = true /\ (ko_pgen p <= k_gen (gen, (ts, key)))%Z /\ ((ko_pgen p < k_gen (gen, (ts, key)))%Z \/ k_key (gen, (ts, key)) = ko_pkey p)).
  { cbn. destruct hc as [-> | [hc|hc]]; [right|left; exact hc|right]; (split; [exact hadm|]); [|lia]. rewrite e1, e2. split; [lia|auto]. }
  split; [|exact (take_newest hash (gen, (ts, key)) gen p (kinv_reach G p hG hp) hy hq)].
  unfold take_in. cbn [fold_left]. destruct (insert_id hash (gen, (ts, key)) (drop_pending [(gen, (ts, key))] p)) as (_ & _ & _ & -> & _). unfold drop_pending. rewrite hadm. cbn [andb k_gen k_key fst snd] in *.
  destruct hq as [hq|(_ & _ & hq)]; [rewrite hq; exact hq|]. destruct (ko_pconf p) as [|c s] eqn:Ep; [exact Ep|]. cbn [is_nil negb andb].
  assert (e : (ko_pgen p <? gen)%Z || eqb key (ko_pkey p) = true).
  { apply orb_true_iff. destruct hq as [hq|hq]; [left; apply Z.ltb_lt; exact hq|right; apply eqb_eq; exact hq]. }
  rewrite e. reflexivity.
Qed.
(** "A positive multiple" fails: without members there are no entries at all. *)
Theorem C44_no_members_refuted : ~ (forall G sids o m o', lib_ok G -> kreach G o -> rekey G sids o = Ok (m, o') ->
  forall nonce g ak es sig, m = enc (BDict [(b "#", BStr nonce); (b "G", BInt g); (b "K", BStr ak); (b "k", BList (map BStr es)); (b "~", BStr sig)]) -> 0 < length es).
Proof.
  intros h. set (r := get_ok ([], adm) (rekey toy_g [] adm)). assert (hr : rekey toy_g [] adm = Ok r) by (vm_compute; reflexivity). destruct r as [m o'] eqn:Er.
  destruct (C44_entries_partial toy_g [] adm m o' toy_g_ok hr) as (sk & pks & nonce & ak & es & sig & _ & hp & hm & _ & _ & _ & h1 & h2).
  injection hp as <-. cbn [filter length] in h2. specialize (h toy_g [] adm m o' toy_g_ok adm_reach hr nonce _ ak es sig hm).
  destruct (Nat.eq_dec (length es) 0); [lia|]. assert (hlt : length es < 75) by lia. rewrite Nat.mod_small in h1 by exact hlt. contradiction.
Qed.
Print Assumptions C44_entries_partial.
Print Assumptions C44_members_get_the_key.
Print Assumptions C44_admins_get_the_key.
Print Assumptions C44_no_members_refuted.
Lemma member_of_adm : forall sk xpk, ko_sk adm = Some sk -> g_xpk toy_g (ko_pk adm) = Some xpk -> member_in toy_g adm mem sk xpk pk_m /\ key_pair toy_g sk (ko_pk adm).
Proof.
  intros sk xpk h1 h2. injection h1 as <-. assert (hx : xpk = gpk) by (vm_compute in h2; injection h2 as <-; reflexivity). subst xpk. split; [|apply (toy_pair seed_g); reflexivity].
  split; [reflexivity|reflexivity|vm_compute; reflexivity|apply (toy_agree seed_g seed_m); reflexivity].
Qed.
Example ex_C44 : exists m o' p', rekey toy_g [sid_of pk_m] adm = Ok (m, o') /\ load_key_message toy_g (b "h") m 5 mem = Ok (true, p') /\ group_enc_key p' = Ok (ko_pkey o').
Proof.
  destruct (rekey_total toy_g [sid_of pk_m] adm gsk gpk toy_g_ok eq_refl eq_refl) as (m & o' & h).
  - intros s [<-|[]]. apply sid_of_ok. reflexivity.
  - intros k [].
  - assert (hg : ko_pgen o' = 0%Z) by (apply rekey_inv in h as (sk & gen & key & _ & _ & _ & -> & _ & ->); reflexivity).
    destruct (C44_members_get_the_key toy_g _ adm m o' mem pk_m (b "h") 5 toy_g_ok toy_binding h member_of_adm (or_introl eq_refl)) as (_ & p' & h1 & h2); [rewrite hg; lia|reflexivity|].
    exists m, o', p'. split; [exact h|]. split; [exact h1|]. apply h2; [exact mem_reach|intros y []].
Qed.

(** ** C45 *)
(** Every non-empty message comes back, with the sender's session id, for every member that still has the sender's
    encryption key: with or without compression, whatever the padding. *)
Theorem C45_round_trip_partial G nonce m compress padding o p c xpk : lib_ok G -> binding (g_x G) -> zstd_ok G -> length nonce = 24 -> m <> [] ->
  length (ko_user o) = 64 -> g_xpk G (user_pk o) = Some xpk -> key_pair G (ko_user o) (user_pk o) ->
  encrypt_message G nonce m compress padding o = Ok c -> (forall k, group_enc_key o = Ok k -> In k (decrypt_keys p)) ->
  decrypt_message G c p = Ok (sid_of xpk, m).
Proof. exact (decrypt_message_encrypt G nonce m compress padding o p c xpk). Qed.
(** The empty message is encrypted without complaint, and nobody can decrypt it. *)
Theorem C45_empty_refuted : exists c, encrypt_message toy_g key_nonce [] false 0 adm2 = Ok c /\ kreach toy_g adm2 /\ decrypt_message toy_g c adm2 = Throw.
Proof. eexists. split; [vm_compute; reflexivity|]. split; [exact adm2_reach|vm_compute; reflexivity]. Qed.
(** The ciphertext's size is a multiple of the padding. *)
Theorem C45_padding G nonce m compress padding o c : lib_ok G -> length nonce = 24 -> (1 < padding)%N ->
  encrypt_message G nonce m compress padding o = Ok c -> (N.of_nat (length c) mod padding = 0)%N.
Proof.
  intros [hX hZ] hn hp. unfold encrypt_message. destruct (_ <? _)%N; [discriminate|]. cbv zeta. match goal with |- context [enc (BDict ?d)] => set (e := enc (BDict d)) end.
  destruct (group_enc_key o) as [k| | | |]; try discriminate. cbn [bind]. intros h. match type of h with Ok ?x = Ok _ => assert (hc : c = x) by congruence end. subst c. clear h. rewrite app_length, (so_len _ hX), app_length, repeat_length, hn. apply N.ltb_lt in hp as hp'. rewrite hp'. cbn [andb].
  unfold OVERHEAD, ABYTES. destruct ((40 + N.of_nat (length e)) mod padding =? 0)%N eqn:E; cbn [negb].
  - apply N.eqb_eq in E. rewrite <- E. f_equal. lia.
  - apply N.eqb_neq in E. pose proof (N.mod_lt (40 + N.of_nat (length e)) padding ltac:(lia)) as h1. pose proof (N.div_mod (40 + N.of_nat (length e)) padding ltac:(lia)) as h2.
    set (r := ((40 + N.of_nat (length e)) mod padding)%N) in *. set (q := ((40 + N.of_nat (length e)) / padding)%N) in *.
    replace (N.of_nat (24 + (length e + N.to_nat (padding - r) + 16))) with ((q + 1) * padding)%N by nia. apply N.mod_mul. lia.
Qed.
Print Assumptions C45_round_trip_partial.
Print Assumptions C45_empty_refuted.
Print Assumptions C45_padding.
Lemma toy_zstd_ok : zstd_ok toy_g.
Proof.
  intros m _. cbn [toy_g g_zstd g_unzstd]. unfold toy_zstd, toy_unzstd. destruct (eqb m zeros) eqn:E; [apply eqb_eq in E; subst m; split; [reflexivity|discriminate]|].
  repeat match goal with |- context [if ?c then b "z" else _] => replace c with false by (symmetry; exact E) end. cbv match. split; [exact eq_refl|discriminate]. Qed.
Example ex_C45 : zstd_ok toy_g /\ (exists c, encrypt_message toy_g key_nonce zeros true 256 adm2 = Ok c /\ length c = 256) /\ g_xpk toy_g (user_pk adm2) <> None /\ key_pair toy_g (ko_user adm2) (user_pk adm2).
Proof.
  split; [exact toy_zstd_ok|]. split; [eexists; split; vm_compute; reflexivity|]. split; [discriminate|]. apply (toy_pair seed_a). reflexivity.
Qed.

(** ** C46 *)
(** A subaccount made for a member with given rights is accepted by that member exactly when the required rights are among
    them. *)
Theorem C46_rights C o p upk write del write' del' v : lib_ok (s_g C) -> sub_ok C -> (forall sk, ko_sk o = Some sk -> key_pair (s_g C) sk (ko_pk o)) ->
  ko_pk p = ko_pk o -> length (ko_pk o) = 32 -> g_xpk (s_g C) (user_pk p) = Some upk ->
  make_subaccount C (sid_of upk) write del o = Ok v -> verify_own_subaccount C v write' del' p = Ok (implb write' write && implb del' del).
Proof. exact (subaccount_verifies C o p upk write del write' del' v). Qed.
(** Whatever the value, acceptance means: 100 bytes, the flag of every required right, and the group's signature over its
    first four bytes (which contain the flags) and the blinded key. *)
Theorem C46_sound C v write del p : verify_own_subaccount C v write del p = Ok true -> length v = 100 /\
  flag 0 (nth 1 v NUL) = true /\ (write = true -> flag 1 (nth 1 v NUL) = true) /\ (del = true -> flag 2 (nth 1 v NUL) = true) /\
  exists gpk kT, session_id_pk (b "03" ++ to_hex (ko_pk p)) (b "03") = Ok gpk /\ s_mul C (firstn 32 (skipn 4 v)) (clear_sign (user_pk p)) = Some kT /\
    g_verify (s_g C) (skipn 36 v) (firstn 4 v ++ kT) gpk = true.
Proof.
  unfold verify_own_subaccount, verify_subaccount. intros h. destruct (session_id_pk _ _) as [g| | | |] eqn:Eg; try discriminate. cbn [bind] in h.
  destruct (Nat.eqb (length v) 100) eqn:El; [|discriminate]. cbn [negb] in h. cbv zeta in h. destruct (_ && _); [discriminate|].
  destruct (flag 0 (nth 1 v NUL)); [|discriminate]. cbn [negb] in h. destruct (write && negb (flag 1 (nth 1 v NUL))) eqn:Ew; [discriminate|]. destruct (del && negb (flag 2 (nth 1 v NUL))) eqn:Ed; [discriminate|].
  fold (user_pk p) in h. destruct (s_mul C _ _) as [kT|] eqn:Em; [|discriminate]. cbn [of_opt bind] in h. injection h as h. apply Nat.eqb_eq in El.
  split; [exact El|]. split; [reflexivity|]. split; [intros ->; cbn [andb] in Ew; apply negb_false_iff in Ew; exact Ew|]. split; [intros ->; cbn [andb] in Ed; apply negb_false_iff in Ed; exact Ed|].
  exists g, kT. auto.
Qed.
Print Assumptions C46_rights.
Print Assumptions C46_sound.
(** the toy library has positive public keys only *)
Definition toy_c : scrypt := mkScrypt toy_g (fun x => firstn 32 (fill 32 x)) (fun x => clear_sign x) (fun k t => Some (fill 32 (k ++ t))).
Lemma toy_c_ok : sub_ok toy_c.
Proof.
  split; cbn [toy_c s_reduce s_xed s_g].
  - intros x. rewrite firstn_length, fill_length. reflexivity.
  - intros pk x. cbn [toy_g g_xpk]. unfold toy_xpk. destruct (Nat.eqb _ _); [|discriminate]. intros [= <-]. reflexivity.
Qed.
Example ex_C46 : sub_ok toy_c /\ exists v, make_subaccount toy_c (sid_of pk_m) true false adm = Ok v /\ length v = 100 /\
  verify_own_subaccount toy_c v true false mem = Ok true /\ verify_own_subaccount toy_c v true true mem = Ok false /\ verify_own_subaccount toy_c v true false adm = Ok false.
Proof. split; [exact toy_c_ok|]. eexists. split; [vm_compute; reflexivity|]. repeat split; vm_compute; reflexivity. Qed.

(** ** C60 *)
(** Every intended recipient decrypts exactly its message, provided no copy made for an earlier recipient opens under its
    key to something else. *)
Theorem C60_recipients_decrypt X junk ms rs priv pub domain nonce pad c i r m priv_r k : seal_ok X -> encrypt_simple X junk ms rs priv pub domain nonce pad = Ok c ->
  (N.of_nat (length c) <= uint64_max)%N -> nth_error rs i = Some r -> message_for ms i = Some m -> length priv_r = 32 -> agree X priv pub priv_r r ->
  multi_key X priv_r r pub false domain = Ok k ->
  (forall j rj kj mj, j < i -> nth_error rs j = Some rj -> multi_key X priv pub rj true domain = Ok kj -> message_for ms j = Some mj ->
     x_open X k nonce (x_seal X kj nonce mj) = None \/ x_open X k nonce (x_seal X kj nonce mj) = Some m) ->
  decrypt_simple X c priv_r r pub domain = Some m.
Proof. exact (simple_reaches X junk ms rs priv pub domain nonce pad c i r m priv_r k). Qed.
(** In particular with one message for everybody, with no further condition than that a copy opens only as what was sealed. *)
Theorem C60_common_message X junk m rs priv pub domain nonce pad c r priv_r : seal_ok X -> binding X -> encrypt_simple X junk [m] rs priv pub domain nonce pad = Ok c ->
  (N.of_nat (length c) <= uint64_max)%N -> In r rs -> length priv_r = 32 -> agree X priv pub priv_r r -> decrypt_simple X c priv_r r pub domain = Some m.
Proof.
  intros hX hB h hl hin hp ha. destruct (In_nth_error _ _ hin) as (i & hi). pose proof ha as (s & h1 & h2).
  apply (simple_reaches X junk [m] rs priv pub domain nonce pad c i r m priv_r (x_kdf X (firstn 64 domain) (s ++ pub ++ r))); auto.
  - unfold multi_key. rewrite h2. reflexivity.
  - intros j rj kj mj _ _ _ [= <-]. destruct (x_open X _ nonce _) as [m'|] eqn:E; [right|left; reflexivity]. apply hB in E. congruence.
Qed.
(** The number of copies: one per recipient, and, when the first message is not empty, the least multiple of [pad] that has
    room for them. *)
Theorem C60_copies_partial X junk ms rs priv pub domain nonce pad c : seal_ok X -> encrypt_simple X junk ms rs priv pub domain nonce pad = Ok c ->
  exists cs pads, c = enc (BDict [(b "#", BStr nonce); (b "e", BList (map BStr (cs ++ pads)))]) /\ length nonce = 24 /\ length cs = length rs /\
    (forall i x, nth_error cs i = Some x -> exists m, message_for ms i = Some m /\ length x = length m + 16) /\
    ((1 < pad)%Z -> hd [] ms <> [] -> length (cs ++ pads) mod Z.to_nat pad = 0 /\ length pads < Z.to_nat pad) /\
    ((pad <= 1)%Z -> pads = []).
Proof.
  intros hX h. apply encrypt_simple_inv in h as (hn & cs & h1 & ->). destruct (encrypt_multi_nth _ _ _ _ _ _ _ _ h1) as (h2 & h3 & _ & _ & h4).
  exists cs, (padding_of junk ms (length cs) pad). split; [reflexivity|]. split; [exact hn|]. split; [exact h2|]. split; [|split].
  - intros i x hx. destruct (h4 i x hx) as (r & k & m & _ & _ & hm & ->). exists m. split; [exact hm|]. apply (so_len _ hX).
  - intros hp hm. unfold padding_of. destruct ms as [|m ms]; [destruct hm; reflexivity|]. cbn [hd] in hm. destruct m as [|x m]; [destruct hm; reflexivity|]. cbn [length Nat.eqb].
    rewrite app_length, map_length, seq_length. unfold junk_count. destruct (pad <=? 1)%Z eqn:E; [apply Z.leb_le in E; lia|]. cbv zeta.
    set (q := Z.to_nat pad). assert (hq : 1 < q) by (unfold q; lia). pose proof (Nat.mod_upper_bound (length cs) q ltac:(lia)) as hb. pose proof (Nat.div_mod (length cs) q ltac:(lia)) as hd.
    destruct (Nat.eqb (length cs mod q) 0) eqn:E0; [apply Nat.eqb_eq in E0; rewrite Nat.add_0_r; split; lia|]. apply Nat.eqb_neq in E0. split; [|lia].
    replace (length cs + (q - length cs mod q)) with ((length cs / q + 1) * q) by nia. apply Nat.mod_mul. lia.
  - intros hp. unfold padding_of. destruct (Nat.eqb _ 0); [reflexivity|]. unfold junk_count. apply Z.leb_le in hp. rewrite hp. reflexivity.
Qed.
Definition user_b : bytes := Eval vm_compute in b "0123456789abcdefghijklmnopqrstuv".
Definition toy_junk (i n : nat) : bytes := repeat "?"%char n.
(** The padding copies are 16 bytes smaller than the real ones, so that anybody can tell how many recipients there are. *)
Definition two_copies : bytes := Eval vm_compute in get_ok [] (encrypt_simple toy_x toy_junk [b "hello"] [pk_m] gpk gpk (b "dom") key_nonce 2).
Theorem C60_padding_size_refuted : ~ (forall X junk ms rs priv pub domain nonce pad c, seal_ok X -> (forall i n, length (junk i n) = n) ->
  encrypt_simple X junk ms rs priv pub domain nonce pad = Ok c ->
  forall cs, c = enc (BDict [(b "#", BStr nonce); (b "e", BList (map BStr cs))]) -> forall x y, In x cs -> In y cs -> length x = length y).
Proof.
  intros h. assert (he : encrypt_simple toy_x toy_junk [b "hello"] [pk_m] gpk gpk (b "dom") key_nonce 2 = Ok two_copies) by (vm_compute; reflexivity).
  destruct (encrypt_simple_inv _ _ _ _ _ _ _ _ _ _ he) as (_ & cs & h1 & h2). destruct (encrypt_multi_nth _ _ _ _ _ _ _ _ h1) as (h3 & _ & _ & _ & h4).
  destruct cs as [|x [|y cs]]; try discriminate h3. destruct (h4 0 x eq_refl) as (r & k & m & _ & _ & hm & hx). injection hm as <-.
  assert (hl : length x = 21) by (rewrite hx, (so_len _ toy_x_ok); reflexivity).
  specialize (h toy_x toy_junk _ _ _ _ _ _ _ _ toy_x_ok (fun i n => repeat_length _ n) he _ h2 x (toy_junk 0 5) (or_introl eq_refl)).
  rewrite hl in h. discriminate h. right. left. reflexivity.
Qed.
(** With an empty (first) message there is no padding at all. *)
Theorem C60_empty_refuted : ~ (forall X junk ms rs priv pub domain nonce pad c, seal_ok X -> (1 < pad)%Z -> encrypt_simple X junk ms rs priv pub domain nonce pad = Ok c ->
  forall cs, c = enc (BDict [(b "#", BStr nonce); (b "e", BList (map BStr cs))]) -> length cs mod Z.to_nat pad = 0).
Proof.
  intros h. set (c := get_ok [] (encrypt_simple toy_x toy_junk [[]] [pk_m] gpk gpk (b "dom") key_nonce 2)).
  assert (he : encrypt_simple toy_x toy_junk [[]] [pk_m] gpk gpk (b "dom") key_nonce 2 = Ok c) by (vm_compute; reflexivity).
  destruct (encrypt_simple_inv _ _ _ _ _ _ _ _ _ _ he) as (_ & cs & h3 & h4). destruct (encrypt_multi_nth _ _ _ _ _ _ _ _ h3) as (h5 & _).
  specialize (h _ _ _ _ _ _ _ _ 2%Z _ toy_x_ok eq_refl he _ h4). unfold padding_of in h. cbn [length Nat.eqb] in h. rewrite app_nil_r, h5 in h. discriminate h.
Qed.
Print Assumptions C60_recipients_decrypt.
Print Assumptions C60_common_message.
Print Assumptions C60_copies_partial.
Print Assumptions C60_padding_size_refuted.
Print Assumptions C60_empty_refuted.
(** (the toy hash cancels repeated blocks, so leave out the shared secret here) *)
Definition toy_x2 : xcrypt := mkXcrypt toy_dh (fun d x => toy_hash (d ++ skipn 64 x)) toy_seal toy_open.
Lemma toy_x2_ok : seal_ok toy_x2. Proof. destruct toy_x_ok. split; assumption. Qed.
Example ex_C60 : exists c, encrypt_simple toy_x2 toy_junk [b "for m"; b "for a"] [pk_m; user_b] gpk gpk (b "dom") key_nonce 2 = Ok c /\
  decrypt_simple toy_x2 c pk_m pk_m gpk (b "dom") = Some (b "for m") /\ decrypt_simple toy_x2 c user_b user_b gpk (b "dom") = Some (b "for a") /\ agree toy_x2 gpk gpk user_b user_b.
Proof. eexists. split; [vm_compute; reflexivity|]. split; [vm_compute; reflexivity|]. split; [vm_compute; reflexivity|]. eexists. split; vm_compute; reflexivity. Qed.

(** ** C64 *)
(** A key message has an effect only if it ends in a signature entry (key "~", 64 bytes, both lengths written with any
    number of leading zeros) that verifies, under the group's key, over everything before it.  Only the closing "e" and
    what follows it are not covered. *)
Theorem C64_only_signed G hash data ts o r : load_key_message G hash data ts o = Ok r ->
  exists signed z1 z2 sig rest, data = signed ++ repeat "0"%char z1 ++ enc (BStr (b "~")) ++ repeat "0"%char z2 ++ enc (BStr sig) ++ "e"%char :: rest /\
    length sig = 64 /\ g_verify G sig signed (ko_pk o) = true.
Proof.
  intros h. destruct (load_signed G hash data ts o r h) as (pre & c & c1 & sig & g & h1 & h2 & h3 & h4 & h5). apply parse_str_bytes in h2 as (z1 & h2). apply parse_str_bytes in h3 as (z2 & h3).
  exists pre, z1, z2, sig, g. split; [|auto]. rewrite h1, h2, h3. reflexivity.
Qed.
Print Assumptions C64_only_signed.
(** A full key message (the entries in order; whoever signed it) is accepted only if the generation is not negative, the sealed key of the
    administrators and every member's has 48 bytes, and the number of members' entries is a multiple of 75; a supplement only if every
    entry can hold at least one key. *)
Theorem C64_well_formed G hash ts o r nonce gen ak es sig g : bt_ok (BStr nonce) = true -> int64_ok gen = true -> bt_ok (BStr ak) = true -> bt_ok (BList (map BStr es)) = true ->
  load_key_message G hash (wire [(b "#", BStr nonce); (b "G", BInt gen); (b "K", BStr ak); (b "k", BList (map BStr es))] (Some sig) g) ts o = Ok r ->
  (0 <= gen)%Z /\ length ak = 48 /\ Forall (fun c => length c = 48) es /\ length es mod 75 = 0.
Proof.
  intros h1 h2 h3 h4 h. destruct r as [x o']. apply load_inv in h as (ks & gen' & s & vs & h & _). unfold wire in h. cbn [app] in h. unfold read_message in h.
  destruct (g_xpk G (ko_pk o)) as [xpk|]; [|discriminate]. cbn [of_opt bind] in h. rewrite require_str in h by (assumption || reflexivity). cbn [bind] in h. rewrite find_not in h by reflexivity. cbn [bind] in h.
  destruct (ts_ok ts); [|discriminate]. cbn [negb] in h. rewrite require_int in h by (assumption || reflexivity). cbn [bind] in h. destruct (Z.ltb_spec gen 0) as [|hg]; [discriminate|].
  rewrite require_str in h by (assumption || reflexivity). cbn [bind] in h. destruct (Nat.eqb_spec (length ak) 48) as [ha|]; [|discriminate]. cbn [negb] in h.
  match type of h with (bind ?q _ = _) => destruct q as [own| | | |]; try discriminate end. cbn [bind] in h. rewrite require_list in h by (assumption || reflexivity). cbn [bind] in h. rewrite str_list_map in h. cbn [of_opt bind] in h.
  match type of h with context [if existsb ?f es then Throw else _] => destruct (existsb f es) eqn:ee; [discriminate h|] end. destruct (for_us G o xpk nonce es) as [m| | | |]; try discriminate. cbn [bind] in h.
  destruct (Nat.eqb_spec (length es mod MESSAGE_KEY_MULTIPLE) 0) as [hm|]; [|discriminate]. split; [exact hg|]. split; [exact ha|]. split; [|exact hm].
  apply Forall_forall. intros c hc. destruct (Nat.eqb_spec (length c) 48) as [|hn]; [assumption|]. assert (hx : existsb (fun c : bytes => negb (Nat.eqb (length c) 48)) es = true); [|exfalso; exact (eq_true_false_abs _ hx ee)].
  apply existsb_exists. exists c. split; [exact hc|]. apply negb_true_iff, Nat.eqb_neq, hn.
Qed.
Print Assumptions C64_well_formed.
Theorem C64_well_formed_supplement G hash ts o r nonce gen es sig g : bt_ok (BStr nonce) = true -> int64_ok gen = true -> bt_ok (BList (map BStr es)) = true ->
  load_key_message G hash (wire [(b "#", BStr nonce); (b "+", BList (map BStr es)); (b "G", BInt gen)] (Some sig) g) ts o = Ok r ->
  Forall (fun c => 68 <= length c) es.
Proof.
  intros h1 h2 h4 h. destruct r as [x o']. apply load_inv in h as (ks & gen' & s & vs & h & _). unfold wire in h. cbn [app] in h. unfold read_message in h.
  destruct (g_xpk G (ko_pk o)) as [xpk|]; [|discriminate]. cbn [of_opt bind] in h. rewrite require_str in h by (assumption || reflexivity). cbn [bind] in h. rewrite find_here in h by reflexivity. cbn [bind] in h.
  unfold take_list in h. rewrite consume_enc in h by (assumption || reflexivity). cbn [bind] in h. rewrite str_list_map in h. cbn [of_opt bind] in h.
  match type of h with context [if existsb ?f es then Throw else _] => destruct (existsb f es) eqn:ee; [discriminate h|] end.
  apply Forall_forall. intros c hc. destruct (Nat.ltb_spec (length c) (52 + ABYTES)) as [hn|hn]; [|exact hn]. assert (hx : existsb (fun c : bytes => Nat.ltb (length c) (52 + ABYTES)) es = true); [|exfalso; exact (eq_true_false_abs _ hx ee)].
  apply existsb_exists. exists c. split; [exact hc|]. apply Nat.ltb_lt, hn.
Qed.
Print Assumptions C64_well_formed_supplement.
Example ex_C64 : exists o', load_key_message toy_g (b "h1") msg01 5 adm = Ok (true, o') /\ load_key_message toy_g (b "h1") (firstn 70 msg01) 5 adm = Throw.
Proof. eexists. split; vm_compute; reflexivity. Qed.

Example ex_C64_well_formed : let ak := x_seal toy_x (seed_hash toy_g gsk ADMIN_KEY) key_nonce key1 in
  (exists sig, msg01 = wire [(b "#", BStr key_nonce); (b "G", BInt 0); (b "K", BStr ak); (b "k", BList (map BStr []))] (Some sig) []) /\
  bt_ok (BStr key_nonce) = true /\ bt_ok (BStr ak) = true /\ load_key_message toy_g (b "h1") (key_msg (-1) key1) 5 adm = Throw.
Proof. split; [eexists (skipn (length msg01 - 65) (firstn (length msg01 - 1) msg01)); vm_compute; reflexivity|]. repeat split; vm_compute; reflexivity. Qed.

(** ** C65 *)
(** A supplement message gives a new member (who starts without keys) exactly the keys the administrator has, with their
    generations and timestamps, if these timestamps are in the order of the generations. *)
Theorem C65_new_member_gets_all_keys G sids o m p upk hash ts : lib_ok G -> binding (g_x G) -> kreach G o -> key_supplement G sids o = Ok m -> (N.of_nat (length m) <= uint64_max)%N ->
  (forall sk xpk, ko_sk o = Some sk -> g_xpk G (ko_pk o) = Some xpk -> member_in G o p sk xpk upk /\ key_pair G sk (ko_pk o)) -> In (sid_of upk) sids ->
  in_step (fun k => In k (ko_keys o)) -> ko_keys p = [] -> ko_active p = [] ->
  exists p', load_key_message G hash m ts p = Ok (true, p') /\ ko_keys p' = ko_keys o.
Proof.
  intros hG hB ho hs hl hm hin hstep h1 h2. pose proof (kinv_reach G o hG ho) as hi. destruct (supp_reaches G sids o m p upk hash ts hG hB hi hs hl hm hin) as (gen & h).
  eexists. split; [exact h|]. exact (take_all hash (ko_keys o) gen o p hi eq_refl hstep h1 h2).
Qed.
(** so that they then encrypt with the same key, unless the administrator has a pending one *)
Theorem C65_same_encryption_key G sids o m p upk hash ts : lib_ok G -> binding (g_x G) -> kreach G o -> kreach G p -> ko_pconf o = [] -> key_supplement G sids o = Ok m -> (N.of_nat (length m) <= uint64_max)%N ->
  (forall sk xpk, ko_sk o = Some sk -> g_xpk G (ko_pk o) = Some xpk -> member_in G o p sk xpk upk /\ key_pair G sk (ko_pk o)) -> In (sid_of upk) sids ->
  in_step (fun k => In k (ko_keys o)) -> ko_keys p = [] -> ko_active p = [] ->
  exists p', load_key_message G hash m ts p = Ok (true, p') /\ group_enc_key p' = group_enc_key o.
Proof.
  intros hG hB ho hp hpend hs hl hm hin hstep h1 h2. destruct (C65_new_member_gets_all_keys G sids o m p upk hash ts hG hB ho hs hl hm hin hstep h1 h2) as (p' & h3 & h4).
  exists p'. split; [exact h3|]. assert (hp' : kreach G p').
  { destruct hp as (u & pk & sk & q1 & q2 & q3 & q4). exists u, pk, sk. repeat split; auto. apply (kl_step _ _ p _ q4). exact (ks_load G _ _ _ _ _ _ h3). }
  assert (hn : ko_sk p' = None).
  { pose proof hs as hs'. apply (supp_spec G sids o m hG) in hs' as (sk & xpk & _ & _ & _ & _ & e1 & e2 & _). destruct (hm sk xpk e1 e2) as [hmem _].
    apply load_inv in h3 as (ks & gen & s & sig & _ & _ & -> & _). destruct (take_id hash ks gen p) as (_ & _ & ->). exact (mi_not_admin _ _ _ _ _ _ hmem). }
  unfold group_enc_key. rewrite (no_pending G p' hG hp' hn), hpend, h4. reflexivity.
Qed.
Print Assumptions C65_new_member_gets_all_keys.
Print Assumptions C65_same_encryption_key.
Example ex_C65 : kreach toy_g adm2 /\ in_step (fun k => In k (ko_keys adm2)) /\ length (ko_keys adm2) = 2 /\
  exists m p', key_supplement toy_g [sid_of pk_m] adm2 = Ok m /\ load_key_message toy_g (b "h") m 9 mem = Ok (true, p') /\ ko_keys p' = ko_keys adm2.
Proof.
  split; [exact adm2_reach|]. split; [|split; [reflexivity|]].
  - intros x y hx hy hlt. change (ko_keys adm2) with [(0, (5, key1)); (0, (7, key2))]%Z in *. destruct hx as [<-|[<-|[]]], hy as [<-|[<-|[]]]; cbn in hlt; lia.
  - eexists. eexists. split; [vm_compute; reflexivity|]. split; [vm_compute; reflexivity|vm_compute; reflexivity].
Qed.

(** ** C66 *)
(** Two administrators that rekey for the same member list from keys of the same newest generation produce byte for byte
    the same message, with the same key and generation (or both fail). *)
Theorem C66_same_rekey G sids o p : ko_sk o = ko_sk p -> ko_pk o = ko_pk p -> option_map k_gen (hd_error (rev (ko_keys o))) = option_map k_gen (hd_error (rev (ko_keys p))) ->
  match rekey G sids o, rekey G sids p with
  | Ok (m, o'), Ok (m', p') => m = m' /\ ko_pkey o' = ko_pkey p' /\ ko_pgen o' = ko_pgen p'
  | Ok _, _ | _, Ok _ => False
  | _, _ => True
  end.
Proof.
  intros h1 h2 h3. apply rekey_same; auto. destruct (rev (ko_keys o)), (rev (ko_keys p)); cbn in h3; try discriminate; congruence.
Qed.
Print Assumptions C66_same_rekey.
Example ex_C66 : ko_sk adm2 = ko_sk adm1 /\ ko_pk adm2 = ko_pk adm1 /\ ko_keys adm2 <> ko_keys adm1 /\
  option_map k_gen (hd_error (rev (ko_keys adm2))) = option_map k_gen (hd_error (rev (ko_keys adm1))) /\ exists r, rekey toy_g [sid_of pk_m] adm1 = Ok r.
Proof.
  split; [reflexivity|]. split; [reflexivity|]. split; [discriminate|]. split; [reflexivity|].
  destruct (rekey_total toy_g [sid_of pk_m] adm1 gsk gpk toy_g_ok eq_refl eq_refl) as (m & o' & h); [|intros k hk|exists (m, o'); exact h].
  - intros s [<-|[]]. apply sid_of_ok. reflexivity.
  - change (ko_keys adm1) with [(0, (5, key1))]%Z in hk. destruct hk as [<-|[]]. split; [reflexivity|discriminate].
Qed.

(** ** C67 *)
(** Whatever is done with the three objects of a group, the info and member configs have exactly the keys of the Keys object
    (each once, in its order); in particular they encrypt with its encryption key. *)
Theorem C67_configs_have_the_keys G g : lib_ok G -> greach G g ->
  s_keys (gr_info g) = nub (group_keys (gr_keys g)) /\ s_keys (gr_members g) = nub (group_keys (gr_keys g)) /\
  (forall k, In k (s_keys (gr_info g)) <-> In k (decrypt_keys (gr_keys g))) /\
  match group_enc_key (gr_keys g) with
  | Ok k => hd_error (s_keys (gr_info g)) = Some k /\ hd_error (s_keys (gr_members g)) = Some k
  | _ => s_keys (gr_info g) = [] /\ s_keys (gr_members g) = []
  end.
Proof.
  intros hG hg. destruct (greach_inv G g hG hg) as [_ h2 h3]. unfold has_keys in h2, h3. rewrite h2, h3. split; [reflexivity|]. split; [reflexivity|]. split.
  - intros k. rewrite nub_In. unfold group_keys, decrypt_keys. rewrite !in_app_iff. destruct (is_nil (ko_pconf (gr_keys g))); cbn [negb]; rewrite !in_map_iff;
    (split; (intros [h|(x & hx & hi)]; [left; exact h|right; exists x; split; [exact hx|apply in_rev; try rewrite rev_involutive; exact hi]])).
  - rewrite enc_key_head. destruct (group_keys (gr_keys g)) as [|k l]; [split; reflexivity|]. split; reflexivity.
Qed.
Print Assumptions C67_configs_have_the_keys.
Definition grp0 : group := mkGroup adm (Base.fresh tb []) (Base.fresh tb []).
Example ex_C67 : exists g, greach toy_g g /\ ko_keys (gr_keys g) <> [].
Proof.
  assert (h : load_key_message toy_g (b "h1") msg01 5 adm = Ok (true, adm1)) by (vm_compute; reflexivity).
  eexists. split; [eapply gr_step; [|exact (gs_load toy_g tb tb (b "h1") msg01 5 grp0 true adm1 h)]|discriminate].
  apply gr_start; reflexivity.
Qed.
