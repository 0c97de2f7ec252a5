(** Dumping and restoring group keys; the invariant over whole histories. *)
From Verif Require Import KeysSpec KeyList_facts Keys_facts Bt_facts Message_facts Parse_facts Dump_facts Life_facts.

Lemma find_here k v es r : str_ok k = true -> ltb k k = false -> find_key k (enc_entries ((k, v) :: es) ++ r) = Ok (true, enc_entries ((k, v) :: es) ++ r).
Proof. intros h1 h2. unfold find_key. rewrite skip_until_here by auto. reflexivity. Qed.
Lemma find_end k r : find_key k ("e"%char :: r) = Ok (false, "e"%char :: r).
Proof. reflexivity. Qed.
Lemma require_list k l es r : str_ok k = true -> ltb k k = false -> bt_ok (BList l) = true ->
  require k (enc_entries ((k, BList l) :: es) ++ r) take_list = Ok (l, enc_entries es ++ r).
Proof. intros h1 h2 h3. unfold require. rewrite find_here by auto. cbn [bind fst snd]. unfold take_list. rewrite consume_enc by auto. reflexivity. Qed.
Lemma require_str k x es r : str_ok k = true -> ltb k k = false -> str_ok x = true ->
  require k (enc_entries ((k, BStr x) :: es) ++ r) take_str = Ok (x, enc_entries es ++ r).
Proof. intros h1 h2 h3. unfold require. rewrite find_here by auto. cbn [bind fst snd]. unfold take_str. rewrite consume_enc by auto. reflexivity. Qed.
Lemma int64_btint z : int64_ok z = true -> btint_ok z = true.
Proof. unfold int64_ok, btint_ok, int64_min, int64_max, uint64_max. rewrite !andb_true_iff, !Z.leb_le. intros [h1 h2]. split; [exact h1|]. etransitivity; [exact h2|]. vm_compute. discriminate. Qed.
Lemma require_int k x es r : str_ok k = true -> ltb k k = false -> int64_ok x = true ->
  require k (enc_entries ((k, BInt x) :: es) ++ r) take_int = Ok (x, enc_entries es ++ r).
Proof. intros h1 h2 h3. unfold require. rewrite find_here by auto. cbn [bind fst snd]. unfold take_int. rewrite consume_enc by (auto; cbn; apply int64_btint; exact h3). rewrite h3. reflexivity. Qed.

Lemma insert_last {K V} `{CmpLaws K} (m : list (K * V)) k v : Forall (fun x => lt x k) (keys m) -> insert k v m = m ++ [(k, v)].
Proof.
  induction m as [|[k' v'] m IH]; intros h; [reflexivity|]. inversion h as [|? ? h1 h2]; subst. cbn [insert app]. unfold lt in h1.
  rewrite (cmp_opp k' k), h1. cbn [CompOpp]. rewrite IH by exact h2. reflexivity.
Qed.
Definition act_entry (p : Z * list bytes) : bt := BList (BInt (fst p) :: map BStr (snd p)).
Lemma read_active_enc l : forall acc, msorted (acc ++ l) -> Forall (fun p => int64_ok (fst p) = true /\ ssorted (snd p)) l ->
  read_active acc (map act_entry l) = Ok (acc ++ l).
Proof.
  induction l as [|[g hs] l IH]; intros acc hm hf; [cbn; rewrite app_nil_r; reflexivity|]. inversion hf as [|? ? [h1 h2] h3]; subst. cbn [fst snd] in *.
  cbn [map act_entry read_active fst snd]. rewrite h1. cbn [negb]. rewrite str_list_map. cbn [of_opt bind].
  assert (hlt : Forall (fun x => lt x g) (keys acc)).
  { unfold msorted in hm. rewrite keys_app in hm. apply ssorted_app in hm as (_ & _ & hm). apply Forall_forall. intros x hx. apply hm; [exact hx|left; reflexivity]. }
  assert (hl : lookup g acc = None).
  { apply lookup_None. intros hi. rewrite Forall_forall in hlt. apply (lt_irrefl g). auto. }
  rewrite hl, fold_sadd_sorted by exact h2. rewrite insert_last by exact hlt. rewrite IH; [rewrite <- app_assoc; reflexivity| |exact h3].
  rewrite <- app_assoc. exact hm.
Qed.
Lemma read_key_entry k : key_fine k -> read_key (key_entry k) = Ok k.
Proof.
  intros (h1 & h2 & h3). destruct k as (g & t & key). unfold k_gen, k_ts, k_key in *. cbn [fst snd] in *. unfold key_entry. unfold k_gen, k_ts, k_key. cbn [fst snd].
  assert (ht : int64_ok t = true).
  { unfold ts_ok, int64_ok, int64_min, int64_max, KEY_EXPIRY in *. rewrite andb_true_iff, !Z.leb_le in *. lia. }
  unfold read_key, seek_int, seek_str, seek_val. cbn [seek]. change (ltb (b "g") (b "g")) with false. change (eqb (b "g") (b "g")) with true. cbn [bind fst snd].
  rewrite h1. cbn [bind fst snd]. cbn [seek]. change (ltb (b "k") (b "k")) with false. change (eqb (b "k") (b "k")) with true. cbn [bind fst snd]. rewrite h3. cbn [Nat.eqb negb].
  cbn [seek]. change (ltb (b "t") (b "t")) with false. change (eqb (b "t") (b "t")) with true. cbn [bind fst snd]. rewrite ht. cbn [bind fst snd]. rewrite h2. reflexivity.
Qed.
Lemma read_keys_enc l : forall prev, Forall key_fine l -> ssorted l -> (forall p k, prev = Some p -> In k l -> lt p k) -> read_keys prev (map key_entry l) = Ok l.
Proof.
  induction l as [|k l IH]; intros prev hf hs hp; [reflexivity|]. inversion hf; subst. apply ssorted_cons in hs as [hs hk]. cbn [map read_keys]. rewrite read_key_entry by assumption. cbn [bind].
  assert (hprev : match prev with Some p => leb k p | None => false end = false).
  { destruct prev as [p|]; [|reflexivity]. apply leb_lt. apply hp with (p := p); [reflexivity|left; reflexivity]. }
  rewrite hprev, IH; auto. intros p k' [= <-] hk'. rewrite Forall_forall in hk. auto.
Qed.
Lemma key_entry_ok k : key_fine k -> bt_ok (key_entry k) = true.
Proof.
  intros (h1 & h2 & h3). destruct k as (g & t & key). unfold k_gen, k_ts, k_key in *. cbn [fst snd] in *. unfold key_entry, k_gen, k_ts, k_key. cbn [fst snd].
  assert (ht : int64_ok t = true).
  { unfold ts_ok, int64_ok, int64_min, int64_max, KEY_EXPIRY in *. rewrite andb_true_iff, !Z.leb_le in *. lia. }
  cbn [bt_ok map forallb fst snd]. rewrite !int64_btint by assumption. unfold str_ok at 2 3. rewrite h3. reflexivity.
Qed.
Lemma enc_in_list l v : In v l -> length (enc v) <= length (enc (BList l)).
Proof.
  intros h. cbn [enc length]. rewrite app_length. enough (length (enc v) <= length (flat_map enc l)) by lia.
  induction l as [|x l IH]; [destruct h|]. cbn [flat_map]. rewrite app_length. destruct h as [->|h]; [lia|apply IH in h; lia].
Qed.
Lemma enc_in_entries es k v : In (k, v) es -> length (enc v) <= length (enc_entries es).
Proof.
  intros h. induction es as [|[k' v'] es IH]; [destruct h|]. rewrite enc_entries_cons, !app_length. destruct h as [[= -> ->]|h]; [lia|apply IH in h; lia].
Qed.
Definition pend_entries (o : kobj) : btdict :=
  if is_nil (ko_pconf o) then [] else [(b "pending", BDict [(b "c", BStr (ko_pconf o)); (b "g", BInt (ko_pgen o)); (b "k", BStr (ko_pkey o))])].
Definition restored (o : kobj) (u p : bytes) (s : option bytes) : kobj :=
  mkK u p s (ko_keys o) (ko_active o) (ko_pconf o) (if is_nil (ko_pconf o) then (-1)%Z else ko_pgen o) (if is_nil (ko_pconf o) then repeat NUL 32 else ko_pkey o) false.
Lemma load_kdump o u p s : kinv o -> (N.of_nat (length (kdump o)) <= uint64_max)%N -> load_dump (kdump o) (new_keys u p s) = Ok (restored o u p s).
Proof.
  intros [i1 i2 i3 i4 i5 i6 i7 i8] hlen.
  set (E := [(b "active", BList (map act_entry (ko_active o))); (b "keys", BList (map key_entry (ko_keys o)))] ++ pend_entries o).
  assert (hd : kdump o = "d"%char :: (enc_entries E ++ ["e"%char])) by reflexivity.
  assert (hb : forall k v, In (k, v) E -> (N.of_nat (length (enc v)) <= uint64_max)%N).
  { intros k v hkv. apply enc_in_entries in hkv. rewrite hd in hlen. cbn [length] in hlen. rewrite app_length in hlen. lia. }
  assert (hact : bt_ok (BList (map act_entry (ko_active o))) = true).
  { cbn [bt_ok]. apply forallb_forall. intros v hv. pose proof (enc_in_list _ _ hv) as hl1. specialize (hb _ _ (or_introl eq_refl)).
    apply in_map_iff in hv as ([g hs] & <- & hi). unfold act_entry in *. cbn [fst snd bt_ok forallb] in *. rewrite Forall_forall in i6. specialize (i6 _ hi). cbn [fst] in i6.
    rewrite int64_btint by exact i6. cbn [andb]. apply forallb_forall. intros v hv. apply in_map_iff in hv as (h & <- & hh).
    assert (hin : In (BStr h) (BInt g :: map BStr hs)) by (right; apply in_map; exact hh). apply enc_in_list in hin. cbn [bt_ok]. unfold str_ok. apply N.leb_le.
    pose proof (enc_str_len h). change (enc (BStr h)) with (enc_str h) in hin. lia. }
  assert (hkeys : bt_ok (BList (map key_entry (ko_keys o))) = true).
  { cbn [bt_ok]. apply forallb_forall. intros v hv. apply in_map_iff in hv as (k & <- & hk). apply key_entry_ok. rewrite Forall_forall in i3. auto. }
  rewrite hd. unfold load_dump. cbn match. unfold E at 1. cbn [app]. rewrite require_list by (auto; reflexivity). cbn [bind fst snd].
  rewrite read_active_enc; [|exact (proj1 i5)|]. 2:{ apply Forall_forall. intros [g hs] hi. rewrite Forall_forall in i6. split; [exact (i6 _ hi)|].
    apply (proj2 i5 g). apply In_lookup; [exact (proj1 i5)|exact hi]. }
  cbn [bind app]. rewrite require_list by (auto; reflexivity). cbn [bind fst snd]. rewrite read_keys_enc; auto; [|discriminate]. cbn [bind].
  unfold restored. unfold E, pend_entries in hb. unfold pend_entries. destruct (ko_pconf o) as [|c0 cr] eqn:Ec; cbn [is_nil] in *.
  - cbn [enc_entries flat_map app]. rewrite find_end. reflexivity.
  - destruct i8 as [i8 i9]; [discriminate|].
    match goal with |- context [[(b "pending", ?v)]] => set (pv := v) in *; assert (hpv : bt_ok pv = true) end.
    { specialize (hb (b "pending") pv). assert (hin : (N.of_nat (length (enc pv)) <= uint64_max)%N) by (apply hb; right; right; left; reflexivity).
      assert (hc : length (c0 :: cr) <= length (enc pv)).
      { unfold pv. change (enc (BDict ?d)) with ("d"%char :: enc_entries d ++ b "e"). cbn [length]. rewrite app_length.
        pose proof (enc_in_entries [(b "c", BStr (c0 :: cr)); (b "g", BInt (ko_pgen o)); (b "k", BStr (ko_pkey o))] _ _ (or_introl eq_refl)) as hx.
        change (enc (BStr (c0 :: cr))) with (enc_str (c0 :: cr)) in hx. pose proof (enc_str_len (c0 :: cr)). cbn [length] in *. lia. }
      unfold pv. cbn [bt_ok map forallb fst snd]. rewrite int64_btint by exact i8. unfold str_ok at 2 5. rewrite i9.
      assert (hcs : (N.of_nat (length (c0 :: cr)) <=? uint64_max)%N = true) by (apply N.leb_le; lia). rewrite hcs. reflexivity. }
    rewrite find_here by reflexivity. cbn [bind fst snd]. rewrite consume_enc by (auto; reflexivity). unfold pv. cbn [bind].
    unfold seek_int, seek_str, seek_val. cbn [seek]. change (ltb (b "c") (b "c")) with false. change (eqb (b "c") (b "c")) with true. cbn [bind fst snd].
    cbn [seek]. change (ltb (b "g") (b "g")) with false. change (eqb (b "g") (b "g")) with true. cbn [bind fst snd]. rewrite i8. cbn [bind fst snd].
    cbn [seek]. change (ltb (b "k") (b "k")) with false. change (eqb (b "k") (b "k")) with true. cbn [bind fst snd]. rewrite i9. reflexivity.
Qed.

(** ** one step *)
Lemma kinv_pending o pc pg pk nd sk pk0 : kinv o -> (pc <> [] -> int64_ok pg = true /\ length pk = 32) ->
  kinv (mkK (ko_user o) pk0 sk (ko_keys o) (ko_active o) pc pg pk nd).
Proof. intros [i1 i2 i3 i4 i5 i6 i7 i8] h. split; cbn; auto. Qed.
(** what loading a message does once it has been read and its signature checked *)
Definition drop_pending (ks : list key_info) (o : kobj) : kobj :=
  match ks with
  | k :: _ => if admin o && negb (is_nil (ko_pconf o)) && ((ko_pgen o <? k_gen k)%Z || eqb (k_key k) (ko_pkey o))
              then mkK (ko_user o) (ko_pk o) (ko_sk o) (ko_keys o) (ko_active o) [] (ko_pgen o) (ko_pkey o) true else o
  | [] => o
  end.
Definition take_in (h : bytes) (ks : list key_info) (gen : Z) (o : kobj) : kobj :=
  match ks with
  | _ :: _ => fold_left (fun o k => insert_key h k o) ks (drop_pending ks o)
  | [] => let o2 := remove_expired (with_keys o (ko_keys o) (add_active gen h (ko_active o)) (ko_needs_dump o)) in
          with_keys o2 (ko_keys o2) (ko_active o2) true
  end.
Lemma load_inv G h data ts o r o' : load_key_message G h data ts o = Ok (r, o') ->
  exists ks gen s sig, read_message G o data ts = Ok (ks, gen, s) /\ verify_sig (sig_env G (ko_pk o)) false data s = Ok sig /\
    o' = take_in h ks gen o /\ r = negb (is_nil ks).
Proof.
  unfold load_key_message. intros hl. destruct (read_message G o data ts) as [[[ks gen] s]| | | |] eqn:E1; try discriminate. cbn [bind] in hl.
  destruct (verify_sig _ _ _ _) as [sig| | | |] eqn:E2; try discriminate. cbn [bind] in hl. exists ks, gen, s, sig.
  unfold take_in, drop_pending. destruct ks as [|k ks]; injection hl as <- <-; auto.
Qed.
Lemma load_ok G h data ts o ks gen s sig : read_message G o data ts = Ok (ks, gen, s) -> verify_sig (sig_env G (ko_pk o)) false data s = Ok sig ->
  load_key_message G h data ts o = Ok (negb (is_nil ks), take_in h ks gen o).
Proof.
  intros h1 h2. unfold load_key_message. rewrite h1. cbn [bind]. rewrite h2. cbn [bind]. unfold take_in, drop_pending. destruct ks; reflexivity.
Qed.
Lemma kinv_drop ks o : kinv o -> kinv (drop_pending ks o).
Proof. intros h. unfold drop_pending. destruct ks as [|k ks]; [exact h|]. destruct (_ && _); [|exact h]. apply kinv_pending; [exact h|contradiction]. Qed.
Lemma kinv_take h ks gen o : kinv o -> Forall key_fine ks -> int64_ok gen = true -> kinv (take_in h ks gen o).
Proof.
  intros ho hf hg. unfold take_in. destruct ks as [|k ks]; [apply kinv_remove_expired; auto|]. apply kinv_inserts; [apply kinv_drop; exact ho|exact hf].
Qed.
Lemma rekey_inv G sids o m o' : rekey G sids o = Ok (m, o') ->
  exists sk gen key, ko_sk o = Some sk /\ m <> [] /\ int64_ok gen = true /\ gen = match rev (ko_keys o) with [] => 0%Z | k :: _ => (k_gen k + 1)%Z end /\
   key = firstn 32 (g_hash G 56 GEN_KEY (concat sids ++ dec_z gen ++ seed_hash G sk SEED_KEY)) /\
   o' = mkK (ko_user o) (ko_pk o) (ko_sk o) (ko_keys o) (ko_active o) m gen key true.
Proof.
  unfold rekey. intros h. destruct (ko_sk o) as [sk|] eqn:Es; [|discriminate]. step h. 
  set (gen := match rev (ko_keys o) with [] => 0%Z | k :: _ => (k_gen k + 1)%Z end) in *. destruct (int64_ok gen) eqn:Eg; [|discriminate]. cbn [negb] in h.
  repeat step h. cbv zeta in h. injection h as <- <-. exists sk, gen, (firstn 32 (g_hash G 56 GEN_KEY (concat sids ++ dec_z gen ++ seed_hash G sk SEED_KEY))).
  split; [reflexivity|]. split; [discriminate|]. auto.
Qed.
Lemma kinv_step G o o' : lib_ok G -> kstep G o o' -> kinv o -> kinv o'.
Proof.
  intros [hX hZ] hst ho. destruct hst as [h data ts o r o' hl|sids o m o' hr|o|secret o o' ha|o o' hlen hr].
  - apply load_inv in hl as (ks & gen & s & sig & h1 & _ & -> & _). apply read_message_fine in h1 as [h1 h2]; [|exact hX]. apply kinv_take; auto.
  - apply rekey_inv in hr as (sk & gen & key & _ & _ & h1 & _ & -> & ->). apply kinv_pending; [exact ho|]. intros _. split; [exact h1|].
    rewrite firstn_length, (z_hash G hZ). reflexivity.
  - destruct ho. split; auto.
  - unfold load_admin_key in ha. destruct (admin o); [injection ha as <-; exact ho|]. destruct (negb _); [discriminate|]. cbv zeta in ha. destruct (negb _); [discriminate|].
    injection ha as <-. apply kinv_pending; [exact ho|apply ho].
  - unfold fresh in hr. rewrite load_kdump in hr by auto. injection hr as <-. destruct ho. split; cbn; auto.
    intros hne. destruct (ko_pconf o) eqn:Ec; [contradiction|]. cbn [is_nil]. auto.
Qed.
Lemma kinv_life G o o' : lib_ok G -> klife G o o' -> kinv o -> kinv o'.
Proof. intros hG hl ho. induction hl; [exact ho|]. eapply kinv_step; eauto. Qed.
Lemma kinv_reach G o : lib_ok G -> kreach G o -> kinv o.
Proof. intros hG (u & p & s & _ & _ & _ & hl). eapply kinv_life; [exact hG|exact hl|apply kinv_new]. Qed.
Definition sized (o : kobj) : Prop := length (ko_user o) = 64 /\ length (ko_pk o) = 32 /\ match ko_sk o with Some s => length s = 64 | None => True end.
Definition same_id (o o' : kobj) : Prop := ko_user o' = ko_user o /\ ko_pk o' = ko_pk o.
Lemma insert_id h k o : ko_user (insert_key h k o) = ko_user o /\ ko_pk (insert_key h k o) = ko_pk o /\ ko_sk (insert_key h k o) = ko_sk o /\
  ko_pconf (insert_key h k o) = ko_pconf o /\ ko_pgen (insert_key h k o) = ko_pgen o /\ ko_pkey (insert_key h k o) = ko_pkey o.
Proof. unfold insert_key. destruct (existsb _ _); [repeat split|]. destruct (stale _ _); repeat split. Qed.
Lemma inserts_id h ks : forall o, let o' := fold_left (fun o k => insert_key h k o) ks o in
  ko_user o' = ko_user o /\ ko_pk o' = ko_pk o /\ ko_sk o' = ko_sk o /\ ko_pconf o' = ko_pconf o /\ ko_pgen o' = ko_pgen o /\ ko_pkey o' = ko_pkey o.
Proof.
  induction ks as [|k ks IH]; intros o; [cbn; auto 10|]. cbn [fold_left]. cbv zeta in IH. destruct (IH (insert_key h k o)) as (-> & -> & -> & -> & -> & ->).
  apply insert_id.
Qed.
Lemma take_id h ks gen o : let o' := take_in h ks gen o in ko_user o' = ko_user o /\ ko_pk o' = ko_pk o /\ ko_sk o' = ko_sk o.
Proof.
  cbv zeta. unfold take_in. destruct ks as [|k ks]; [repeat split|]. destruct (inserts_id h (k :: ks) (drop_pending (k :: ks) o)) as (-> & -> & -> & _).
  unfold drop_pending. destruct (_ && _); repeat split.
Qed.
Lemma sized_step G o o' : sizes_ok G -> kstep G o o' -> sized o -> sized o'.
Proof.
  intros hZ hst (h1 & h2 & h3). unfold sized. destruct hst as [h data ts o r o' hl|sids o m o' hr|o|secret o o' ha|o o' hlen hr].
  - apply load_inv in hl as (ks & gen & s & sig & _ & _ & -> & _). destruct (take_id h ks gen o) as (-> & -> & ->). auto.
  - apply rekey_inv in hr as (sk & gen & key & _ & _ & _ & _ & _ & ->). cbn. auto.
  - auto.
  - unfold load_admin_key in ha. destruct (admin o); [injection ha as <-; auto|]. destruct (negb _) eqn:E; [discriminate|]. cbv zeta in ha.
    assert (hseed : length (firstn 32 secret) = 32).
    { rewrite firstn_length. apply negb_false_iff, orb_true_iff in E as [E|E]; apply Nat.eqb_eq in E; rewrite E; reflexivity. }
    remember (firstn 32 secret) as seed eqn:Eseed. clear Eseed. destruct (negb _) in ha; [discriminate|].
    injection ha as <-. cbn [ko_user ko_pk ko_sk]. split; [exact h1|]. split; [apply (z_edpk G hZ)|]. rewrite app_length, (z_edpk G hZ), hseed. reflexivity.
  - unfold load_dump, fresh in hr. destruct (kdump o) as [|c s0]; [discriminate|]. destruct c as [[|] [|] [|] [|] [|] [|] [|] [|]]; try discriminate.
    repeat step hr; [|injection hr as <-; cbn; auto]. destruct (consume _) as [[[k v] t]| | | |]; try discriminate. destruct v; try discriminate. repeat step hr. injection hr as <-. cbn. auto.
Qed.
