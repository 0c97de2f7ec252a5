(** C106, the configs: a removed device can follow neither of the group's configs. *)
From Verif Require Import Left2Spec Bt_facts Dump_facts Crypt_facts KeyList_facts Base_facts Life_facts Life2_facts Conf2_facts Keys_facts Keys2_facts Keys3_facts Keys4_facts Keys5_facts GroupObj_facts Left_facts Left2_facts Group_facts.
From Verif Require Import Contacts Members Toy ToyBase ToyCrypt ToyKeys Properties_keys Properties_left.
From Verif Require Properties_team.

(** A member's device [q], in any state it can be in, goes through key messages which leave it out.  Its configs, and the keys
    they decrypt with, are then as before; and a config message pushed by somebody whose key is none of those [q] had (in the sense
    of [sealed_off]) changes nothing about any merge it is part of: not the outcome, not what is reported as accepted, not the
    state afterwards. *)
Theorem C106_configs_unread G B q upk kp ms p k h c l1 l2 : lib_ok G -> seeds_sign G -> (forall p, class_ok (B p)) -> aead_ok (b_aead (B p)) -> b_proto (B p) = false ->
  device3 G B q -> shared_key G upk (q_keys q) kp -> ko_sk (q_keys q) = None -> Forall (sent_without G (q_keys q) upk kp) ms ->
  sealed_off (b_aead (B p)) (b_domain (B p)) (group_keys (q_keys q)) k -> pushed_with (B p) k c ->
  let q' := receive3_all G B ms q in q_conf q' = q_conf q /\
  merge (part_env G B q' p) (l1 ++ (h, c) :: l2) (q_conf q' p) = merge (part_env G B q' p) (l1 ++ l2) (q_conf q' p).
Proof.
  intros hG hS hB hA hp hd hk hs hf hso hpu. cbv zeta. destruct (receive3_all_nothing G B upk kp ms hG q hk hs hf) as (e1 & e2 & _). split; [exact e1|]. rewrite e1.
  pose proof (device3_inv G B q hG hS hB hd) as hi. pose proof (proj1 (Properties_team.C94_encryption_keys G B q p hG hS hB hd)) as hks. apply merge_drop; [exact hp|]. apply (pushed_closed (part_env G B (receive3_all G B ms q) p) k c); [exact hA| | |exact hpu].
  - intros k' hk'. rewrite hks in hk'. apply (proj1 (nub_In _ _)) in hk'. exact (group_keys_len _ (kinv_reach _ _ hG (io_reach _ _ _ hi)) _ hk').
  - intros k' n t hk'. rewrite hks in hk'. apply (proj1 (nub_In _ _)) in hk'. exact (hso k' n t hk').
Qed.
(** In particular: an administrator whose member list does not name the member rekeys, goes on to use the configs in any
    way, and pushes one.  Nothing of that reaches the removed member's device, which gets the key message and the config
    message like everybody else. *)
Theorem C106_removed_configs G A R a r upk kp sk xpk l m a1 a2 hm ts p n c old st' h l1 l2 : setting G A R -> device3 G A a -> device3 G R r ->
  shared_key G upk (q_keys r) kp -> ko_sk (q_keys r) = None -> ko_pk (q_keys a) = ko_pk (q_keys r) -> ko_sk (q_keys a) = Some sk -> g_xpk G (ko_pk (q_keys a)) = Some xpk ->
  members_list (q_conf a Members) = Ok l -> left_out (map fst l) upk -> closed_to G sk xpk (map fst l) upk kp -> filler_closed G sk xpk (map fst l) kp m ->
  group_rekey G A a = (Ok m, a1) -> used G A a1 a2 -> push (part_env G A a2 p) (q_conf a2 p) = (Ok (n, c, old), st') ->
  sealed_off (b_aead (R p)) (b_domain (R p)) (group_keys (q_keys r)) (new_key G (map fst l) (q_keys a) sk) ->
  let r' := receive3 G R r (hm, m, ts) in q_conf r' = q_conf r /\ fst (group_load G R hm m ts r) <> Ok true /\
  merge (part_env G R r' p) (l1 ++ (h, c) :: l2) (q_conf r' p) = merge (part_env G R r' p) (l1 ++ l2) (q_conf r' p).
Proof.
  intros hset ha hr hk hs hpk hsk hx hl hlo hcl hfi hrk hus hpu hso. destruct hset as [h1 h2 h3 h4 h5 h6]. cbv zeta.
  destruct (h6 p) as (s1 & s2 & s3 & s4 & s5 & s6 & s7).
  pose proof hrk as hrk0. apply group_rekey_inv in hrk0 as (l' & o & g1 & g2 & g3 & g4 & g5 & _). assert (l' = l) by congruence. subst l'.
  assert (hsw : sent_without G (q_keys r) upk kp (hm, m, ts)) by (apply (sw_rekey G (q_keys r) upk kp (q_keys a) sk xpk (map fst l) m o); auto).
  assert (hek : group_enc_key (q_keys a1) = Ok (new_key G (map fst l) (q_keys a) sk)).
  { rewrite g3. apply rekey_inv in g2 as (sk' & gen & key & e1 & hmm & _ & e2 & e3 & ->). unfold group_enc_key. cbn [ko_pconf ko_pkey]. assert (sk' = sk) by congruence. subst sk'.
    destruct m; [contradiction|]. cbn [is_nil negb]. rewrite e3, e2. reflexivity. }
  pose proof (d3_rekey _ _ _ _ _ ha hrk) as ha1. destruct (Properties_team.used_device _ _ _ _ ha1 hus) as (ha2 & ek & es).
  destruct (Properties_team.C94_encryption_keys G A a2 p h1 h2 h4 ha2) as [_ hh]. rewrite ek, hek in hh.
  assert (hA : aead_ok (b_aead (R p))) by (rewrite s3; apply h3).
  assert (hpw : pushed_with (R p) (new_key G (map fst l) (q_keys a) sk) c).
  { exists (part_env G A a2 p), (q_conf a2 p), n, old, st'. repeat split; auto. }
  split.
  { destruct (receive3_nothing G R r upk kp _ h1 hk hs hsw) as (e & _ & _). exact e. }
  split.
  { intros hg. destruct (group_load G R hm m ts r) as [x r1] eqn:E. cbn [fst] in hg. subst x. apply group_load_inv in E as (o' & f1 & _).
    apply load_inv in f1 as (ks & gen & s & sig & k1 & k2 & k3 & k4). apply (sent_nothing G _ upk kp m ts hm ks gen s h1 hk hs hsw) in k1. subst ks. discriminate k4. }
  exact (proj2 (C106_configs_unread G R r upk kp [(hm, m, ts)] p _ h c l1 l2 h1 h2 h5 hA s6 hr hk hs (Forall_cons _ hsw (Forall_nil _)) hso hpw)).
Qed.
Print Assumptions C106_configs_unread.
Print Assumptions C106_removed_configs.

(** ** an example *)
(** A toy AEAD whose key is the beginning of the config key, so that other keys are seen to be others. *)
Definition left_aead : aead := mkAead (fun x => firstn 32 (x ++ repeat NUL 32)) (a_nonce toy_aead) (fun k _ m => m ++ mark k) mark_open.
Lemma left_aead_ok : aead_ok left_aead.
Proof.
  split; cbn [left_aead a_nonce a_seal a_open].
  - apply (ao_nonce _ toy_aead_ok).
  - intros k n m. rewrite app_length, mark_length. reflexivity.
  - intros k n m. apply (so_open _ left_x_ok k n m).
  - intros k n c m. unfold mark_open. destruct (Nat.leb 16 (length c)); [|discriminate]. cbn [andb]. destruct (eqb _ _) eqn:E; [|discriminate]. intros [= <-]. apply eqb_eq in E. rewrite <- E. symmetry. apply firstn_skipn.
Qed.
Definition lcls (p : part) : benv := mkBenv (b_env tb) left_aead (b_domain tb) (b_level tb) (b_zstd tb) (b_unzstd tb) false (b_wrap tb) (b_unwrap tb).
Definition no_objs : gobjs := mkObjs adm (fun _ => no_sigs) (fun _ => start tb).
Definition put (sid : bytes) : op := OpAssign [b "m"; get_ok [] (session_id_to_bytes sid (b "05"))] (b "n") (VScal (SStr (b "Joe"))).
Definition take_out (sid : bytes) : op := OpErase [b "m"] (get_ok [] (session_id_to_bytes sid (b "05"))).
Definition chief_0 : gobjs := Eval vm_compute in get_ok no_objs (group_open left_g lcls user_a gpk (Some gsk) None None None).
Definition chief_1 : gobjs := Eval vm_compute in snd (group_conf left_g lcls Members (put sid_b) chief_0).
Definition chief_2 : gobjs := Eval vm_compute in snd (group_conf left_g lcls Members (put sid_m) chief_1).
Definition start_msg : bytes * gobjs := Eval vm_compute in match group_rekey left_g lcls chief_2 with (Ok m, q) => (m, q) | _ => ([], chief_2) end.
Definition chief_3 : gobjs := Eval vm_compute in snd (group_load left_g lcls (b "h1") (fst start_msg) 5 (snd start_msg)).
Definition guest_0 : gobjs := Eval vm_compute in get_ok no_objs (group_open left_g lcls user_m gpk None None None None).
Definition first_push : bytes := Eval vm_compute in match push (part_env left_g lcls chief_3 Members) (q_conf chief_3 Members) with (Ok (_, c, _), _) => c | _ => [] end.
Definition guest_l : gobjs := Eval vm_compute in snd (group_load left_g lcls (b "h1") (fst start_msg) 5 guest_0).
Definition guest_1 : gobjs := Eval vm_compute in snd (group_conf left_g lcls Members (OpMerge [(b "g1", first_push)]) guest_l).
Definition chief_4 : gobjs := Eval vm_compute in snd (group_conf left_g lcls Members (take_out sid_m) chief_3).
Definition out_msg : bytes * gobjs := Eval vm_compute in match group_rekey left_g lcls chief_4 with (Ok m, q) => (m, q) | _ => ([], chief_4) end.
Definition out_push : bytes := Eval vm_compute in match push (part_env left_g lcls (snd out_msg) Members) (q_conf (snd out_msg) Members) with (Ok (_, c, _), _) => c | _ => [] end.
Definition left_sids : list bytes := Eval vm_compute in match members_list (q_conf chief_4 Members) with Ok l => map fst l | _ => [] end.
Definition out_bt : bt := Eval vm_compute in match parse1 (fst out_msg) with Some (v, _) => v | None => BInt 0 end.
Lemma left_setting : setting left_g lcls lcls.
Proof.
  split; [exact left_g_ok| |intros p; exact left_aead_ok|intros p; split; [apply toy_hash32|cbn; lia]|intros p; split; [apply toy_hash32|cbn; lia]|].
  - intros seed h. apply (toy_pair seed h).
  - intros p. repeat split.
Qed.
Lemma chief_4_ok : device3 left_g lcls chief_4.
Proof.
  apply (d3_conf _ _ Members (take_out sid_m) (Ok tt) chief_3); [|reflexivity|vm_compute; reflexivity|split; discriminate|split; [reflexivity|vm_compute; reflexivity]].
  apply (d3_load _ _ (b "h1") (fst start_msg) 5 true (snd start_msg)); [|vm_compute; reflexivity]. apply (d3_rekey _ _ (fst start_msg) chief_2); [|vm_compute; reflexivity].
  apply (d3_conf _ _ Members (put sid_m) (Ok tt) chief_1); [|reflexivity|vm_compute; reflexivity|split; discriminate|split; [reflexivity|vm_compute; reflexivity]].
  apply (d3_conf _ _ Members (put sid_b) (Ok tt) chief_0); [|reflexivity|vm_compute; reflexivity|split; discriminate|split; [reflexivity|vm_compute; reflexivity]].
  apply (d3_open _ _ user_a gpk (Some gsk)); [apply (toy_pair seed_g); reflexivity|vm_compute; reflexivity].
Qed.
Lemma guest_1_ok : device3 left_g lcls guest_1.
Proof.
  apply (d3_conf _ _ Members (OpMerge [(b "g1", first_push)]) (Ok tt) guest_l); [|reflexivity|vm_compute; reflexivity|split; discriminate|split; [|vm_compute; reflexivity]].
  2: { intros mine inc [[st1 h1] h2]. vm_compute in h1. injection h1 as <- _. vm_compute in h2. injection h2 as <-. split; [intros s t [<-|[]] [<-|[]] _; reflexivity|].
    split; [intros h s m [[= _ <-]|[]] hp; vm_compute in hp; injection hp as <-; vm_compute; discriminate|].
    intros _ h s [[= _ <-]|[]] m hp. vm_compute in hp. injection hp as <-. eexists. vm_compute. reflexivity. }
  apply (d3_load _ _ (b "h1") (fst start_msg) 5 true guest_0); [|vm_compute; reflexivity]. apply (d3_open _ _ user_m gpk None); [exact Logic.I|vm_compute; reflexivity].
Qed.
Lemma out_filler : filler_closed left_g gsk gpk [sid_b] kp_m (fst out_msg).
Proof.
  intros nonce gen ak es sig d hm hb c hc. right. assert (e : fst out_msg = enc out_bt) by (vm_compute; reflexivity). rewrite e in hm.
  assert (hb0 : bt_ok out_bt = true) by (vm_compute; reflexivity). pose proof (enc_inj _ _ hb0 hb hm) as hd. assert (hl : entries out_bt = map BStr es) by (rewrite hd; reflexivity).
  assert (hin : In (BStr c) (entries out_bt)) by (rewrite hl; apply in_map; exact hc). assert (hall : forallb shut (entries out_bt) = true) by (vm_compute; reflexivity).
  rewrite forallb_forall in hall. specialize (hall _ hin). unfold shut in hall. cbn [left_g g_x left_x x_open]. change (mark_open kp_m [] c = None). destruct (mark_open kp_m [] c); [discriminate|reflexivity].
Qed.
(** [mem]'s device had the first key and the member list, was taken out of the member list, and gets the second key message and a push. *)
Example ex_C106_configs : setting left_g lcls lcls /\ device3 left_g lcls chief_4 /\ device3 left_g lcls guest_1 /\ shared_key left_g pk_m (q_keys guest_1) kp_m /\
  members_list (q_conf chief_2 Members) <> members_list (q_conf chief_4 Members) /\ length (ko_keys (q_keys guest_1)) = 1 /\
  members_list (q_conf guest_1 Members) = members_list (q_conf chief_2 Members) /\
  group_rekey left_g lcls chief_4 = (Ok (fst out_msg), snd out_msg) /\ length out_push = 512 /\
  sealed_off (b_aead (lcls Members)) (b_domain (lcls Members)) (group_keys (q_keys guest_1)) (new_key left_g left_sids (q_keys chief_4) gsk) /\
  let r' := receive3 left_g lcls guest_1 (b "h2", fst out_msg, 7%Z) in
  q_conf r' = q_conf guest_1 /\ fst (merge (part_env left_g lcls r' Members) [(b "g", out_push)] (q_conf r' Members)) = Ok [].
Proof.
  assert (hk : shared_key left_g pk_m (q_keys guest_1) kp_m) by (exists gpk; eexists; repeat split; vm_compute; reflexivity).
  assert (hrk : group_rekey left_g lcls chief_4 = (Ok (fst out_msg), snd out_msg)) by (vm_compute; reflexivity).
  assert (hso : sealed_off (b_aead (lcls Members)) (b_domain (lcls Members)) (group_keys (q_keys guest_1)) (new_key left_g left_sids (q_keys chief_4) gsk)).
  { intros k' n t hk'. change (group_keys (q_keys guest_1)) with [hd [] (group_keys (q_keys guest_1))] in hk'. destruct hk' as [<-|[]]. apply mark_other.
    unfold config_key. cbn [left_aead lcls b_aead a_hash32]. vm_compute. reflexivity. }
  assert (hl : exists l, members_list (q_conf chief_4 Members) = Ok l /\ map fst l = [sid_b]) by (eexists; split; vm_compute; reflexivity). destruct hl as (l & hl & hfst).
  assert (hp : exists n old st', push (part_env left_g lcls (snd out_msg) Members) (q_conf (snd out_msg) Members) = (Ok (n, out_push, old), st')) by (do 3 eexists; vm_compute; reflexivity).
  destruct hp as (n & old & st' & hp).
  destruct (C106_removed_configs left_g lcls lcls chief_4 guest_1 pk_m kp_m gsk gpk l (fst out_msg) (snd out_msg) (snd out_msg) (b "h2") 7 Members n out_push old st' (b "g") [] []
    left_setting chief_4_ok guest_1_ok hk eq_refl eq_refl eq_refl) as (g1 & _ & g2); rewrite ?hfst; auto using ex_closed, out_filler, us_none.
  - intros s [<-|[]]; vm_compute; discriminate.
  - split; [exact left_setting|]. split; [exact chief_4_ok|]. split; [exact guest_1_ok|]. split; [exact hk|]. split; [vm_compute; discriminate|]. split; [reflexivity|]. split; [vm_compute; reflexivity|].
    split; [exact hrk|]. split; [reflexivity|]. split; [exact hso|]. cbv zeta. split; [exact g1|]. cbn [app] in g2. rewrite g2. rewrite g1. vm_compute. reflexivity.
Qed.
