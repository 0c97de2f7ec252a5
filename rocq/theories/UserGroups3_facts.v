(** Proofs of C52 and C59: iterating and counting groups. *)
From Verif Require Import UserGroupsSpec Data_facts Fields_facts Base_facts Conf2_facts Maps Hex_facts Message_facts Records_facts Contacts_facts Members_facts Community_facts UserGroups_facts UserGroups2_facts.
From Coq Require Import Lia.

Lemma visit_walk c d : walk_ids true (to_hex [c]) (fun i : dict => i) d = Ok (flat_map (visit_ids c (fun _ i => i)) d).
Proof.
  induction d as [|[k v] d IH]; [reflexivity|]. cbn [walk_ids flat_map]. unfold visit_ids at 1. rewrite id_prefix.
  destruct (Nat.eqb (length k) 33) eqn:e.
  - destruct v as [s|s|info]; try exact IH. cbn [andb]. destruct (match k with x :: _ => Ascii.eqb x c | [] => false end); [|exact IH]. rewrite IH. reflexivity.
  - destruct v as [s|s|info]; exact IH.
Qed.
Lemma visit_map {A} c (load : bytes -> dict -> A) d : flat_map (visit_ids c load) d = map (fun p => (fst p, load (fst p) (snd p))) (flat_map (visit_ids c (fun _ i => i)) d).
Proof.
  induction d as [|[k v] d IH]; [reflexivity|]. cbn [flat_map]. rewrite map_app, <- IH. f_equal. unfold visit_ids. destruct v; try reflexivity.
  destruct (Nat.eqb (length k) 33 && match k with x :: _ => Ascii.eqb x c | [] => false end); reflexivity.
Qed.
Lemma ids_list_spec {A} c top (load : bytes -> dict -> A) (d : dict) l : wf d = true ->
  l = match dict_at [] top d with Some i => flat_map (visit_ids c load) i | None => [] end ->
  ssorted (map fst l) /\ forall sid a, In (sid, a) l <-> make_lc sid = sid /\ (pk <- session_id_to_bytes sid (to_hex [c]) ;; Ok match dict_at [top] pk d with Some i => Some (load sid i) | None => None end) = Ok (Some a).
Proof.
  intros hw ->. set (l0 := match dict_at [] top d with Some i => flat_map (visit_ids c (fun _ i => i)) i | None => [] end).
  assert (e : match dict_at [] top d with Some i => flat_map (visit_ids c load) i | None => [] end = map (fun p => (fst p, load (fst p) (snd p))) l0).
  { unfold l0. destruct (dict_at [] top d); [apply visit_map|reflexivity]. }
  rewrite e. assert (hl0 : match dict_at [] top d with Some i => walk_ids true (to_hex [c]) (fun i : dict => i) i | None => Ok [] end = Ok l0) by (unfold l0; destruct (dict_at [] top d); [apply visit_walk|reflexivity]).
  destruct (walk_get true top (to_hex [c]) (fun i : dict => i) d l0 (fun sid => pk <- session_id_to_bytes sid (to_hex [c]) ;; Ok match dict_at [top] pk d with Some i => Some i | None => None end) eq_refl hw (fun sid => eq_refl) hl0) as [h1 h2].
  split; [rewrite map_map; exact h1|]. intros sid a. rewrite in_map_iff. split.
  - intros ([s i] & h & hin). cbn [fst snd] in h. injection h as <- <-. apply h2 in hin as [h3 h4]. split; [exact h3|]. destruct (session_id_to_bytes s (to_hex [c])); try discriminate. cbn [bind] in *.
    destruct (dict_at [top] a d); [|discriminate]. congruence.
  - intros [h3 h4]. destruct (session_id_to_bytes sid (to_hex [c])) as [pk| | | |] eqn:ek; try discriminate. cbn [bind] in h4. destruct (dict_at [top] pk d) as [i|] eqn:ed; [|discriminate].
    exists (sid, i). cbn [fst snd]. split; [congruence|]. apply h2. split; [exact h3|]. rewrite ek. cbn [bind]. rewrite ed. reflexivity.
Qed.
Lemma groups_list_spec pub st : usable st -> ssorted (map fst (groups_list pub st)) /\
  forall sid g, In (sid, g) (groups_list pub st) <-> make_lc sid = sid /\ group_get pub st sid = Ok (Some g).
Proof. intros hu. apply (ids_list_spec (ascii_of_N 3) (b "g") (load_group pub) (s_data st)); [apply hu|reflexivity]. Qed.
Lemma legacy_list_spec st : usable st -> ssorted (map fst (legacy_list st)) /\
  forall sid g, In (sid, g) (legacy_list st) <-> make_lc sid = sid /\ legacy_get st sid = Ok (Some g).
Proof. intros hu. apply (ids_list_spec (ascii_of_N 5) (b "C") (fun _ => load_legacy) (s_data st)); [apply hu|reflexivity]. Qed.
(** ** communities *)
Definition keys_of_room (url pk : bytes) (p : bytes * value) : list (bytes * bytes) := map (fun _ => (url, fst p)) (visit_room url pk p).
Definition keys_of_server (p : bytes * value) : list (bytes * bytes) :=
  match snd p with
  | VDict info => match maybe_str info (b "#") with Some pk => flat_map (keys_of_room (fst p) pk) (rooms_of (snd p)) | None => [] end
  | _ => []
  end.
Definition comm_keys (st : bstate) : list (bytes * bytes) := match dict_at [] (b "o") (s_data st) with Some d => flat_map keys_of_server d | None => [] end.

Lemma visit_room_cases url pk p : visit_room url pk p = [] \/ exists c, visit_room url pk p = [c].
Proof. unfold visit_room. destruct (snd p); auto. destruct (bind _ _); eauto. Qed.
Lemma lt_pair (x y : bytes * bytes) : (lt (fst x) (fst y) \/ fst x = fst y /\ lt (snd x) (snd y)) -> lt x y.
Proof.
  destruct x as [a x], y as [c y]. unfold lt, cmp at 3, cmp_prod. cbn [fst snd]. intros [h|[<- h]].
  - rewrite h. reflexivity.
  - rewrite cmp_refl. exact h.
Qed.
Lemma keys_of_room_In url pk p k : In k (keys_of_room url pk p) -> k = (url, fst p).
Proof. unfold keys_of_room. destruct (visit_room_cases url pk p) as [-> |[c ->]]; cbn; [intros []|]. intros [<-|[]]. reflexivity. Qed.
Lemma rooms_sorted url pk (rooms : dict) : msorted rooms -> ssorted (flat_map (keys_of_room url pk) rooms).
Proof.
  induction rooms as [|[r v] rooms IH]; intros h; [constructor|]. apply msorted_cons in h as [h1 h2]. cbn [flat_map]. apply ssorted_app; split; [|split; [apply IH, h1|]].
  - unfold keys_of_room. destruct (visit_room_cases url pk (r, v)) as [-> |[c ->]]; repeat constructor.
  - intros x y hx hy. apply keys_of_room_In in hx. subst x. apply in_flat_map in hy as ([r' v'] & hr & hy). apply keys_of_room_In in hy. subst y. apply lt_pair. right. split; [reflexivity|].
    cbn [fst snd]. rewrite Forall_forall in h2. apply h2. unfold keys. change r' with (fst (r', v')). apply in_map, hr.
Qed.
Lemma keys_of_server_In p k : In k (keys_of_server p) -> fst k = fst p.
Proof.
  unfold keys_of_server. destruct (snd p); try contradiction. destruct (maybe_str d (b "#")); [|contradiction]. intros h. apply in_flat_map in h as (q & _ & h). apply keys_of_room_In in h. subst k. reflexivity.
Qed.
Lemma rooms_of_sorted v : wf_v v = true -> msorted (rooms_of v).
Proof.
  unfold rooms_of. destruct v as [| |info]; try (intros; constructor). intros h. destruct (maybe_str info (b "#")) as [pk|]; [|constructor]. destruct (lookup (b "R") info) as [[| |rooms]|] eqn:e; try constructor.
  apply (wf_sorted rooms). exact (wf_lookup info _ _ h e).
Qed.
Lemma servers_sorted (d : dict) : wf d = true -> ssorted (flat_map keys_of_server d).
Proof.
  induction d as [|[u v] d IH]; intros h; [constructor|]. pose proof (wf_sorted _ h) as hs. apply msorted_cons in hs as [h1 h2]. apply wf_cons in h as hc. cbn [flat_map]. apply ssorted_app; split; [|split].
  - unfold keys_of_server. cbn [snd fst]. destruct v as [| |info] eqn:ev; try constructor. destruct (maybe_str info (b "#")) as [pk|] eqn:ep; [|constructor]. apply rooms_sorted, rooms_of_sorted. apply hc.
  - apply IH, hc.
  - intros x y hx hy. apply keys_of_server_In in hx. apply in_flat_map in hy as ([u' v'] & hu & hy). apply keys_of_server_In in hy. apply lt_pair. left. rewrite hx, hy. cbn [fst]. rewrite Forall_forall in h2. apply h2.
    unfold keys. change u' with (fst (u', v')). apply in_map, hu.
Qed.
(** what is stored under server and room, in the dict of servers *)
Definition stored_in (d : dict) (k : bytes * bytes) (c : comm) : Prop :=
  exists info pk rooms i, lookup (fst k) d = Some (VDict info) /\ maybe_str info (b "#") = Some pk /\ lookup (b "R") info = Some (VDict rooms) /\
    lookup (snd k) rooms = Some (VDict i) /\ (og <- new_comm (fst k) (snd k) ;; og <- set_pubkey pk og ;; load_comm i og) = Ok c.
Lemma stored_in_iff st k c : stored_comm st k c <-> exists d, dict_at [] (b "o") (s_data st) = Some d /\ stored_in d k c.
Proof.
  unfold stored_comm, stored_in, dict_at. split.
  - intros (pk & i & og & h1 & h2 & h3 & h4 & h5). rewrite field_cons in h1, h3. rewrite field_nil. destruct (lookup (b "o") (s_data st)) as [[| |d]|]; try discriminate.
    exists d. split; [reflexivity|]. rewrite field_cons in h1, h3. destruct (lookup (fst k) d) as [[| |info]|]; try discriminate. rewrite field_nil in h1. rewrite field_cons in h3.
    destruct (lookup (b "R") info) as [[| |rooms]|] eqn:er; try discriminate. rewrite field_nil in h3. destruct (lookup (snd k) rooms) as [[| |i']|] eqn:ei; try discriminate. injection h3 as ->.
    exists info, pk, rooms, i. split; [reflexivity|]. split; [exact h1|]. split; [exact er|]. split; [exact ei|]. rewrite h4. cbn [bind]. unfold set_pubkey. rewrite h2. cbn [Nat.eqb bind]. exact h5.
  - intros (d & hd & info & pk & rooms & i & h1 & h2 & h3 & h4 & h5). rewrite field_nil in hd. destruct (lookup (b "o") (s_data st)) as [[| |d']|] eqn:eo; try discriminate. injection hd as ->.
    destruct (new_comm (fst k) (snd k)) as [og| | | |] eqn:en; try discriminate. cbn [bind] in h5. unfold set_pubkey in h5. destruct (Nat.eqb (length pk) 32) eqn:el; try discriminate. cbn [bind] in h5.
    exists pk, i, og. rewrite !field_cons, eo, !field_cons, h1, field_nil, field_cons, h3, field_nil, h4. split; [exact h2|]. split; [apply PeanoNat.Nat.eqb_eq, el|]. split; [reflexivity|]. split; [reflexivity|exact h5].
Qed.
Lemma Forall2_flat_map {A X Y} (R : X -> Y -> Prop) (f : A -> list X) (g : A -> list Y) l : (forall a, In a l -> Forall2 R (f a) (g a)) -> Forall2 R (flat_map f l) (flat_map g l).
Proof.
  induction l as [|a l IH]; intros h; [constructor|]. cbn [flat_map]. apply Forall2_app; [apply h; left; reflexivity|]. apply IH. intros x hx. apply h. right. exact hx.
Qed.
Lemma Forall2_weaken {X Y} (R Q : X -> Y -> Prop) l m : (forall x y, R x y -> Q x y) -> Forall2 R l m -> Forall2 Q l m.
Proof. intros h. induction 1; constructor; auto. Qed.
Lemma comms_stored (d : dict) : wf d = true -> Forall2 (stored_in d) (flat_map keys_of_server d) (flat_map visit_server d).
Proof.
  intros hw. apply Forall2_flat_map. intros [u v] hu. apply (In_lookup _ _ _ (wf_sorted _ hw)) in hu. unfold keys_of_server, visit_server. cbn [fst snd]. destruct v as [| |info]; try constructor.
  destruct (maybe_str info (b "#")) as [pk|] eqn:ep; [|constructor]. apply Forall2_flat_map. intros [r w] hr. pose proof (rooms_of_sorted _ (wf_lookup _ _ _ hw hu)) as hs. apply (In_lookup _ _ _ hs) in hr.
  unfold rooms_of in hr. rewrite ep in hr. destruct (lookup (b "R") info) as [[| |rooms]|] eqn:er; try discriminate.
  unfold keys_of_room, visit_room. cbn [fst snd]. destruct w as [| |i]; try constructor. destruct (og <- new_comm u r ;; og <- set_pubkey pk og ;; load_comm i og) as [c| | | |] eqn:ec; constructor; [|constructor].
  exists info, pk, rooms, i. cbn [fst snd]. auto.
Qed.
Lemma stored_visited (d : dict) k c : stored_in d k c -> In k (flat_map keys_of_server d).
Proof.
  intros (info & pk & rooms & i & h1 & h2 & h3 & h4 & h5). apply in_flat_map. exists (fst k, VDict info). split; [apply lookup_In, h1|]. unfold keys_of_server. cbn [fst snd]. rewrite h2. unfold rooms_of. rewrite h2, h3.
  apply in_flat_map. exists (snd k, VDict i). split; [apply lookup_In, h4|]. unfold keys_of_room, visit_room. cbn [fst snd]. rewrite h5. left. destruct k. reflexivity.
Qed.
Lemma comms_list_spec st : usable st -> exists ks, ssorted ks /\ Forall2 (stored_comm st) ks (comms_list st) /\ forall k c, stored_comm st k c -> In k ks.
Proof.
  intros hu. exists (comm_keys st). unfold comm_keys, comms_list. destruct (dict_at [] (b "o") (s_data st)) as [d|] eqn:e.
  - assert (hw : wf d = true). { unfold dict_at in e. rewrite field_nil in e. destruct (lookup (b "o") (s_data st)) as [[| |d']|] eqn:eo; try discriminate. injection e as ->. exact (wf_lookup _ _ _ (proj1 hu) eo). }
    split; [apply servers_sorted, hw|]. split.
    + eapply Forall2_weaken; [|apply comms_stored, hw]. intros k c h. apply stored_in_iff. eauto.
    + intros k c h. apply stored_in_iff in h as (d' & h1 & h2). rewrite e in h1. injection h1 as <-. exact (stored_visited _ _ _ h2).
  - split; [constructor|]. split; [constructor|]. intros k c h. apply stored_in_iff in h as (d' & h1 & _). congruence.
Qed.
(** ** sizes *)
Lemma flat_map_le {A X} (f : A -> list X) l : (forall a, In a l -> length (f a) <= 1) -> length (flat_map f l) <= length l.
Proof. induction l as [|a l IH]; intros h; [cbn; lia|]. cbn [flat_map length]. rewrite app_length. pose proof (h a (or_introl eq_refl)). specialize (IH (fun x hx => h x (or_intror hx))). lia. Qed.
Lemma flat_map_one {A X} (f : A -> list X) l : (forall a, In a l -> length (f a) = 1) -> length (flat_map f l) = length l.
Proof. induction l as [|a l IH]; intros h; [reflexivity|]. cbn [flat_map length]. rewrite app_length. rewrite (h a (or_introl eq_refl)), (IH (fun x hx => h x (or_intror hx))). reflexivity. Qed.
Lemma sum_acc {A} (f : A -> nat) l : forall n, fold_left (fun n p => n + f p) l n = n + fold_left (fun n p => n + f p) l 0.
Proof. induction l as [|a l IH]; intros n; cbn [fold_left]; [lia|]. rewrite IH, (IH (0 + f a)). lia. Qed.
Lemma flat_map_sum_le {A X} (f : A -> list X) (g : A -> nat) l : (forall a, In a l -> length (f a) <= g a) -> length (flat_map f l) <= fold_left (fun n p => n + g p) l 0.
Proof.
  induction l as [|a l IH]; intros h; [cbn; lia|]. cbn [flat_map fold_left]. rewrite app_length, sum_acc. pose proof (h a (or_introl eq_refl)). specialize (IH (fun x hx => h x (or_intror hx))). lia.
Qed.
Lemma flat_map_sum {A X} (f : A -> list X) (g : A -> nat) l : (forall a, In a l -> length (f a) = g a) -> length (flat_map f l) = fold_left (fun n p => n + g p) l 0.
Proof.
  induction l as [|a l IH]; intros h; [reflexivity|]. cbn [flat_map fold_left]. rewrite app_length, sum_acc. pose proof (h a (or_introl eq_refl)). specialize (IH (fun x hx => h x (or_intror hx))). lia.
Qed.
Lemma visit_ids_le {A} c (load : bytes -> dict -> A) p : length (visit_ids c load p) <= 1.
Proof. destruct p as [k [| |d]]; cbn; try lia. destruct (_ && _); cbn; lia. Qed.
Lemma visit_ids_one {A} c (load : bytes -> dict -> A) k d : session_id_ok (to_hex k) (to_hex [c]) = true -> length (visit_ids c load (k, VDict d)) = 1.
Proof. rewrite id_prefix. intros h. unfold visit_ids. rewrite h. reflexivity. Qed.
Lemma visit_server_le p : length (visit_server p) <= length (rooms_of (snd p)).
Proof.
  unfold visit_server. destruct (snd p) as [| |info]; cbn [length]; try lia. destruct (maybe_str info (b "#")); cbn [length]; try lia. apply flat_map_le. intros q _. destruct (visit_room_cases (fst p) b q) as [-> |[c ->]]; cbn; lia.
Qed.
Lemma sizes_le pub st : length (groups_list pub st) <= size_groups st /\ length (legacy_list st) <= size_legacy st /\ length (comms_list st) <= size_communities st.
Proof.
  unfold groups_list, size_groups, legacy_list, size_legacy, size_at, comms_list, size_communities.
  destruct (dict_at [] (b "g") (s_data st)), (dict_at [] (b "C") (s_data st)), (dict_at [] (b "o") (s_data st)); (split; [|split]); try (cbn; lia);
    try (apply flat_map_le; intros; apply visit_ids_le); apply (flat_map_sum_le visit_server (fun p => length (rooms_of (snd p)))); intros; apply visit_server_le.
Qed.
Lemma top_entry st k d x v : usable st -> dict_at [] k (s_data st) = Some d -> In (x, v) d -> field [k] x (s_data st) = Some v.
Proof.
  intros hu e hin. unfold dict_at in e. rewrite field_nil in e. rewrite field_cons. destruct (lookup k (s_data st)) as [[| |d']|] eqn:eo; try discriminate. injection e as ->.
  rewrite field_nil. apply In_lookup; [|exact hin]. apply wf_sorted. exact (wf_lookup _ _ _ (proj1 hu) eo).
Qed.
Lemma sizes_eq pub st : usable st -> tidy st -> length (groups_list pub st) = size_groups st /\ length (legacy_list st) = size_legacy st /\ length (comms_list st) = size_communities st.
Proof.
  intros hu (t1 & t2 & t3). unfold groups_list, size_groups, legacy_list, size_legacy, size_at, comms_list, size_communities. split; [|split].
  - destruct (dict_at [] (b "g") (s_data st)) as [d|] eqn:e; [|reflexivity]. apply flat_map_one. intros [k v] hin. destruct (t1 k v (top_entry _ _ _ _ _ hu e hin)) as (hs & d' & ->). apply visit_ids_one, hs.
  - destruct (dict_at [] (b "C") (s_data st)) as [d|] eqn:e; [|reflexivity]. apply flat_map_one. intros [k v] hin. destruct (t2 k v (top_entry _ _ _ _ _ hu e hin)) as (hs & d' & ->). apply visit_ids_one, hs.
  - destruct (dict_at [] (b "o") (s_data st)) as [d|] eqn:e; [|reflexivity]. apply (flat_map_sum visit_server (fun p => length (rooms_of (snd p)))). intros [u v] hin. pose proof (top_entry _ _ _ _ _ hu e hin) as hf.
    destruct (t3 u v hf) as (hc & d' & -> & (pk & hpk & hl) & rooms & hr & hrooms).
    assert (hw : wf d' = true). { rewrite field_cons in hf. destruct (lookup (b "o") (s_data st)) as [[| |dd]|] eqn:eo; try discriminate. rewrite field_nil in hf. exact (wf_lookup dd _ _ (wf_lookup _ _ _ (proj1 hu) eo) hf). }
    unfold visit_server, rooms_of. cbn [fst snd]. unfold maybe_str. rewrite hpk, hr. cbn [as_str]. apply flat_map_one. intros [r w] hin2.
    destruct (hrooms r w (In_lookup _ _ _ (wf_sorted rooms (wf_lookup _ _ _ hw hr)) hin2)) as (hcr & i & n & -> & hn & hcn).
    unfold visit_room. cbn [fst snd]. unfold new_comm. rewrite hc, hcr. cbn [bind]. unfold set_pubkey. rewrite hl. cbn [Nat.eqb bind]. unfold load_comm. cbn [co_url co_norm co_room co_pub co_base].
    unfold maybe_str. rewrite hn. unfold vstr. cbn [as_str]. unfold set_room. rewrite hcn. reflexivity.
Qed.
