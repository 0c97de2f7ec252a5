(** C39, C47, C59, C84, C90: more of the small functions.  Statements and proofs. *)
From Verif Require Import UserGroupsSpec KeysSpec Keys_facts Keys2_facts Keys3_facts Properties_keys Sig Members Convo Records Members_facts Community_facts UserGroups_facts UserGroups4_facts CStruct CStruct_facts Properties_convo Properties_records Properties_cstruct Toy Records_facts ToyKeys ToyBase Life_facts Conf2_facts.

(** ** C39: the hashes a client should keep alive *)
(** current_hashes returns the hashes under which the table of active messages holds something, and nothing else; *)
Theorem C39_current_hashes G o h : lib_ok G -> kreach G o -> In h (current_msgs o) <-> exists g, has_hash (ko_active o) g h.
Proof.
  intros hG hr. pose proof (ki_tbl o (kinv_reach G o hG hr)) as [hm _]. unfold current_msgs, has_hash. rewrite in_flat_map. split.
  - intros ([g l] & h1 & h2). exists g, l. split; [apply In_lookup; assumption|exact h2].
  - intros (g & l & h1 & h2). exists (g, l). split; [apply lookup_In; exact h1|exact h2].
Qed.
Print Assumptions C39_current_hashes.
(** and if a client has received the messages [ms], in any order and any number of times, these are exactly the hashes of the
    messages that have for it some key whose generation is not older than the oldest generation it still holds. *)
Theorem C39_hashes_to_keep G o ms h : ko_keys o = [] -> ko_active o = [] -> readable G o ms -> in_step (offered G o ms) -> one_time (offered G o ms) ->
  In h (current_msgs (receive_all G ms o)) <->
  exists m ks k oldest r, In m ms /\ fst (fst m) = h /\ contents G o m = Some ks /\ In k ks /\ ko_keys (receive_all G ms o) = oldest :: r /\ (k_gen oldest <= k_gen k)%Z.
Proof.
  intros h1 h2 hrd hs ho.
  assert (hoff : forall y, known (pairs G o ms) y \/ known [] y -> offered G o ms y) by (intros y [hy|(x & [])]; apply known_offered; exact hy).
  destruct (tracked_all G o ms [] o (same_reader_refl o) (tracked_nil o h1 h2) hrd) as (P & [_ [ht _] ha] & hp).
  { intros x y hx hy. apply hs; auto. } { intros x y hx hy. apply ho; auto. }
  unfold current_msgs. rewrite in_flat_map. split.
  - intros ([g l] & i1 & i2). apply In_lookup in i1; [|exact ht]. destruct (proj1 (ha g h)) as ((k & k1 & k2) & f & r & f1 & f2); [exists l; auto|].
    apply hp in k1 as [k1|[]]. apply in_pairs in k1 as (m & ks & m1 & m2 & m3 & m4). cbn [fst snd] in m3, m4. exists m, ks, k, f, r. rewrite k2. auto 10.
  - intros (m & ks & k & f & r & m1 & m2 & m3 & m4 & f1 & f2). destruct (proj2 (ha (k_gen k) h)) as (l & l1 & l2); [|exists (k_gen k, l); split; [apply lookup_In; exact l1|exact l2]].
    split; [exists k; split; [|reflexivity]|exists f, r; auto]. apply hp. left. apply in_pairs. exists m, ks. auto.
Qed.
Print Assumptions C39_hashes_to_keep.
Example ex_C39_hashes : let ms := [(b "h1", msg01, 5%Z); (b "h2", msg02, 7%Z)] in
  readable toy_g adm ms /\ in_step (offered toy_g adm ms) /\ one_time (offered toy_g adm ms) /\ ko_keys adm = [] /\ ko_active adm = [].
Proof. cbv zeta. destruct ex_C40 as (h1 & h2 & h3). split; [exact h1|]. split; [exact h2|]. split; [exact h3|]. split; reflexivity. Qed.

(** ** C59: sizes *)
(** The number of members or conversations a config says it has is never less than the number its iterators visit. *)
Lemma walk_ids_le {A} s p (load : dict -> A) d : forall l, walk_ids s p load d = Ok l -> length l <= length d.
Proof.
  induction d as [|[k v] d IH]; intros l h; cbn [walk_ids] in h; [injection h as <-; apply le_n|].
  assert (hk : walk_ids s p load d = Ok l -> length l <= length ((k, v) :: d)) by (intros e; specialize (IH l e); cbn [length]; lia).
  destruct (if Nat.eqb (length k) 33 then v else VSet []) as [| |info]; auto.
  destruct (session_id_ok _ _); [|destruct s; [auto|discriminate]]. destruct (walk_ids s p load d) as [t| | | |]; try discriminate. injection h as <-. specialize (IH t eq_refl). cbn [length]. lia.
Qed.
Theorem C59_more_sizes B st l : benv_ok B -> life B tame st ->
  (members_list st = Ok l -> length l <= members_size st) /\ length (all_convos st) <= convos_size st.
Proof.
  intros hB hl. split.
  - unfold members_list, members_size. destruct (dict_at _ _ _) as [d|]; [apply walk_ids_le|intros h; injection h as <-; apply le_n].
  - rewrite (proj2 (proj2 (C59_all_convos B st hB hl))). destruct (C59_convo_sizes st) as [h1 h2]. unfold convos_size. pose proof (h1 KOne). pose proof (h1 KGroup). pose proof (h1 KLegacy). lia.
Qed.
Print Assumptions C59_more_sizes.

(** ** C90: hashing the seed of a config that signs *)
(** It throws if the config has no secret key; otherwise the result depends on the 32-byte seed and at most 64 bytes of the
    label, and nothing else of the config. *)
Theorem C90_seed_hash G s key : (sg_sk s = None -> config_seed_hash G s key = Throw) /\
  (forall seed pk, sg_sk s = Some (seed ++ pk) -> length seed = 32 -> config_seed_hash G s key = Ok (g_hash G 32 (firstn 64 key) seed)).
Proof.
  unfold config_seed_hash. split; [intros ->; reflexivity|]. intros seed pk -> hl. unfold seed_hash. rewrite <- hl, firstn_app, Nat.sub_diag, firstn_all, app_nil_r. reflexivity.
Qed.
Print Assumptions C90_seed_hash.

(** ** C47: a community made from a full URL *)
(** It has the canonical URL of the server, the lower-case room to compare with, the room as written to display, and the key. *)
Theorem C47_from_full_url u base room nroom pk : canonical_url u = Ok base -> canonical_room room = Ok nroom -> length pk = 32 ->
  community_of_url (full_url base room pk) = Ok (base, nroom, room, pk).
Proof. intros h1 h2 h3. unfold community_of_url. rewrite (proj1 (full_url_parses u base room nroom pk h1 h2 h3)). cbn [bind]. rewrite h2. reflexivity. Qed.
Print Assumptions C47_from_full_url.

(** ** C84: reading the state of a community conversation from C *)
(** The C getter gives the record that the C++ getter gives, if the record has a key; it returns false if there is none, or if the
    URL or the room is not valid. *)
Theorem C84_convo_community_get st url room o :
  (forall c, ccomm_get st (c_str url) (c_str room) = Ok (Some c) -> length (co_pub (cc_comm c)) = 32 -> exists k, c_ccomm_get st url room o = Ok (Some k) /\ ccomm_of_c k = Ok c) /\
  (ccomm_get st (c_str url) (c_str room) = Ok None \/ ccomm_get st (c_str url) (c_str room) = Throw -> c_ccomm_get st url room o = Ok None).
Proof.
  unfold c_ccomm_get. split; [|intros [-> | ->]; reflexivity].
  intros c h hl. rewrite h. cbn [filled bind].
  assert (hc : comm_ok (cc_comm c) /\ co_room (cc_comm c) = co_norm (cc_comm c) /\ co_base (cc_comm c) = new_gbase).
  { unfold ccomm_get in h. destruct (canonical_room (c_str room)) as [r| | | |] eqn:er; cbn [bind] in h; try discriminate.
    unfold new_comm in h. destruct (canonical_url (c_str url)) as [u| | | |] eqn:eu; cbn [bind] in h; try discriminate. pose proof (proj1 (room_fixed _ _ er)) as hr2. rewrite hr2 in h. cbn [bind co_url co_norm] in h.
    assert (hok : forall pk, comm_ok (mkComm u r r pk new_gbase)) by (intros pk; split; [exact (url_fixed _ _ eu)|exact hr2]).
    destruct (dict_at _ _ _) as [d|]; [|discriminate]. destruct (is_nil _).
    - injection h as <-. split; [apply hok|split; reflexivity].
    - unfold set_pubkey in h. destruct (Nat.eqb _ 32); cbn [bind] in h; [|discriminate]. injection h as <-. split; [apply hok|split; reflexivity]. }
  destruct hc as (h1 & h2 & h3).
  destruct (C84_structs [] (mkLegacy new_gbase [] [] [] 0 []) (mkCL [] [] false [] [] 0 new_gbase None) [] (mkGroup new_gbase [] [] []) (mkCG [] [] false [] false [] new_gbase) (mkComm [] [] [] [] new_gbase) (mkCU [] [] [] new_gbase) [] (mkCBase 0 false) c o) as (_ & _ & _ & _ & s5).
  destruct (s5 h1 h2 hl h3) as (k & e1 & e2). exists k. rewrite e1. cbn [bind]. split; [reflexivity|exact e2].
Qed.
Print Assumptions C84_convo_community_get.
(** A conversation whose server has no key of 32 bytes, from another device: 32 bytes are read from an empty key. *)
Theorem C84_convo_missing_key_refuted : ~ (forall B st url room o c, benv_ok B -> life B tame st -> ccomm_get st url room = Ok (Some c) -> c_ccomm_get st url room o <> UB).
Proof.
  intros h. set (o := mkCX [] [] [] (mkCBase 0 false)). set (ops := [OpAssign [b "o"; b "https://example.com"; b "R"; b "room"] (b "r") (vint 5)]). set (st := snd (run_ops tb ops (start tb))).
  apply (h tb st (b "https://example.com") (b "room") o (match get_ok None (ccomm_get st (b "https://example.com") (b "room")) with Some c => c | None => mkCC (mkComm [] [] [] [] new_gbase) (mkCBase 0 false) end) tb_ok); [|vm_compute; reflexivity|vm_compute; reflexivity].
  apply (run_ops_checked_life tb ops (start tb)); [vm_compute; reflexivity|apply life_fresh|]. repeat constructor.
Qed.
Print Assumptions C84_convo_missing_key_refuted.
Example ex_C84_convo : exists c, ccomm_get cv1 (b "https://example.com") (b "room") = Ok (Some c) /\ length (co_pub (cc_comm c)) = 32.
Proof. eexists. split; [vm_compute; reflexivity|]. vm_compute. reflexivity. Qed.
