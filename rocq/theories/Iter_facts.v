(** Walking with the iterators of Iter.v visits what the lists of UserGroups.v, Convo.v, Contacts.v and Members.v hold. *)
From Verif Require Import Bytes Message Base Contacts Members UserGroups Convo CStruct Iter IterSpec.

Lemma walk_fun {I A} (done : I -> bool) (cur : I -> outcome A) adv i l1 : walk done cur adv i l1 -> forall l2, walk done cur adv i l2 -> l1 = l2.
Proof.
  induction 1 as [i hd|i a j l hd hc ha hw IH]; intros l2 h2; inversion h2 as [i2 hd2|i2 a2 j2 l3 hd2 hc2 ha2 hw2]; subst; try congruence.
  assert (a2 = a) by congruence. assert (j2 = j) by congruence. subst. f_equal. apply IH, hw2.
Qed.
(** from a position reached on the way, the walk visits a suffix *)
Lemma reached_walk {I A} (done : I -> bool) (cur : I -> outcome A) adv i0 l0 : walk done cur adv i0 l0 ->
  forall i, reached done adv i0 i -> exists pre l, l0 = pre ++ l /\ walk done cur adv i l.
Proof.
  intros h0 i hr. induction hr as [|i j hr IH hd ha].
  - exists [], l0. split; [reflexivity|exact h0].
  - destruct IH as (pre & l & -> & hw). inversion hw as [i2 hd2|i2 a j2 l2 hd2 hc2 ha2 hw2]; subst; [congruence|].
    assert (j2 = j) by congruence. subst. exists (pre ++ [a]), l2. split; [rewrite <- app_assoc; reflexivity|exact hw2].
Qed.
Lemma reached_in {I A} (done : I -> bool) (cur : I -> outcome A) adv i0 l0 : walk done cur adv i0 l0 ->
  forall i, reached done adv i0 i -> done i = false -> exists a, cur i = Ok a /\ In a l0.
Proof.
  intros h0 i hr hd. destruct (reached_walk _ _ _ _ _ h0 i hr) as (pre & l & -> & hw). inversion hw as [i2 hd2|i2 a j2 l2 hd2 hc2 ha2 hw2]; subst; [congruence|].
  exists a. split; [exact hc2|]. apply in_or_app. right. left. reflexivity.
Qed.

(** loops that compare with end() instead of asking done() *)
Lemma walk_ext {I A} (done done' : I -> bool) (cur : I -> outcome A) adv i l : (forall i, done i = done' i) -> walk done cur adv i l -> walk done' cur adv i l.
Proof. intros e. induction 1 as [i hd|i a j l hd hc ha hw IH]; [apply walk_end|eapply walk_step]; rewrite <- ?e; eauto. Qed.

(** ** contacts and members *)
Lemma load_info_spec {A} (load : dict -> A) p : forall val l,
  (walk_ids false (b "05") load p = Ok l /\ l = [] -> load_info load p val = Ok (mkRI (Some []) val)) /\
  (forall x t, walk_ids false (b "05") load p = Ok l -> l = x :: t -> exists e r, load_info load p val = Ok (mkRI (Some (e :: r)) (Some x)) /\ walk_ids false (b "05") load r = Ok t).
Proof.
  induction p as [|[k v] p IH]; intros val l; cbn [walk_ids load_info].
  - split; [reflexivity|]. intros x t h ->. discriminate.
  - destruct (Nat.eqb (length k) 33); [|apply IH]. destruct v as [s|s|info]; [apply IH|apply IH|].
    destruct (session_id_ok (to_hex k) (b "05")); [|split; [intros [h _]; discriminate|intros x t h; discriminate]].
    split.
    + intros [h ->]. destruct (walk_ids false (b "05") load p); discriminate.
    + intros x t h ->. destruct (walk_ids false (b "05") load p) as [t0| | | |] eqn:e; try discriminate. cbn in h. assert (hx : x = (to_hex k, load info)) by congruence.
      assert (ht : t0 = t) by congruence. subst. eauto.
Qed.
Lemma rec_walk {A} (load : dict -> A) l : forall p val, walk_ids false (b "05") load p = Ok l ->
  exists i, load_info load p val = Ok i /\ walk ri_done ri_deref (ri_advance load) i l.
Proof.
  induction l as [|x l IH]; intros p val h; destruct (load_info_spec load p val) with (l := @nil (bytes * A)) as [h1 _];
    pose proof (fun l => proj2 (load_info_spec load p val l)) as h2.
  - rewrite (h1 (conj h eq_refl)). eexists. split; [reflexivity|]. apply walk_end. reflexivity.
  - destruct (h2 _ x l h eq_refl) as (e & r & h3 & h4). destruct (IH r (Some x) h4) as (j & hj & hw). exists (mkRI (Some (e :: r)) (Some x)). split; [exact h3|].
    eapply walk_step; [reflexivity|reflexivity| |exact hw]. unfold ri_advance. cbn. exact hj.
Qed.
Lemma rec_walk_conv {A} (load : dict -> A) i l : walk ri_done ri_deref (ri_advance load) i l -> forall p val, load_info load p val = Ok i -> walk_ids false (b "05") load p = Ok l.
Proof.
  assert (hgen : forall p val i, load_info load p val = Ok i ->
    (ri_done i = true -> walk_ids false (b "05") load p = Ok []) /\
    (forall a, ri_done i = false -> ri_deref i = Ok a -> exists e r, ri_at i = Some (e :: r) /\ forall t, walk_ids false (b "05") load r = Ok t -> walk_ids false (b "05") load p = Ok (a :: t))).
  { clear. induction p as [|[k v] p IH]; intros val i h; cbn [load_info walk_ids] in *.
    - match type of h with Ok ?t = _ => assert (hi : i = t) by congruence end. subst i. split; [reflexivity|]. intros a h1. discriminate.
    - destruct (Nat.eqb (length k) 33); [|apply (IH val), h]. destruct v as [s|s|info]; [apply (IH val), h|apply (IH val), h|].
      destruct (session_id_ok (to_hex k) (b "05")); [|discriminate]. match type of h with Ok ?t = _ => assert (hi : i = t) by congruence end. subst i.
      split; [discriminate|]. intros a _ h1. cbn in h1. assert (a = (to_hex k, load info)) by congruence. subst a. exists (k, VDict info), p. split; [reflexivity|].
      intros t ->. reflexivity. }
  induction 1 as [i hd|i a j l hd hc ha hw IH]; intros p val h.
  - apply (hgen p val i h). exact hd.
  - destruct (proj2 (hgen p val i h) a hd hc) as (e & r & hr & ht). apply ht. unfold ri_advance in ha. rewrite hr in ha. cbn in ha. eapply IH, ha.
Qed.
Lemma ri_walk {A} (load : dict -> A) top st l :
  match dict_at [] top (s_data st) with Some d => walk_ids false (b "05") load d | None => Ok [] end = Ok l <->
  exists i, ri_begin load top st = Ok i /\ walk ri_done ri_deref (ri_advance load) i l.
Proof.
  unfold ri_begin. destruct (dict_at [] top (s_data st)) as [d|].
  - split; [apply rec_walk|]. intros (i & hi & hw). exact (rec_walk_conv load i l hw d None hi).
  - split.
    + intros h. assert (l = []) by congruence. subst. eexists. split; [reflexivity|]. apply walk_end. reflexivity.
    + intros (i & hi & hw). assert (i = mkRI None None) by congruence. subst. inversion hw as [|i2 a2 j2 l2 hd2]; subst; [reflexivity|discriminate].
Qed.
Lemma ri_eq_end {A} (i : rec_it A) : ri_eq i ri_end = ri_done i.
Proof. destruct i as [[p|] v]; reflexivity. Qed.

(** ** communities *)
Definition one_room {A} (mk : bytes -> dict -> outcome A) (p : bytes * value) : list A :=
  match snd p with VDict d => match mk (fst p) d with Ok c => [c] | _ => [] end | _ => [] end.
Definition one_server {A} (mk : bytes -> bytes -> bytes -> dict -> outcome A) (p : bytes * value) : list A :=
  match snd p with
  | VDict info => match maybe_str info (b "#") with
                  | Some pk => flat_map (one_room (mk (fst p) pk)) (match lookup (b "R") info with Some (VDict x) => x | _ => [] end)
                  | None => []
                  end
  | _ => []
  end.
Definition server_rest {A} (mk : bytes -> bytes -> bytes -> dict -> outcome A) (p : bytes * value) (room : option dict) : list A :=
  match room with
  | None => one_server mk p
  | Some rooms => match snd p with VDict info => match maybe_str info (b "#") with Some pk => flat_map (one_room (mk (fst p) pk)) rooms | None => [] end | _ => [] end
  end.
Definition ci_rest {A} (mk : bytes -> bytes -> bytes -> dict -> outcome A) (x : comm_it) : list A :=
  match ci_server x with Some (p :: r) => server_rest mk p (ci_room x) ++ flat_map (one_server mk) r | _ => [] end.

Lemma load_rooms_spec {A} (mk : bytes -> dict -> outcome A) rooms :
  match load_rooms mk rooms with
  | None => flat_map (one_room mk) rooms = []
  | Some (c, p) => exists e r, p = e :: r /\ flat_map (one_room mk) rooms = c :: flat_map (one_room mk) r
  end.
Proof.
  induction rooms as [|[name v] rooms IH]; [reflexivity|]. cbn [load_rooms flat_map].
  assert (e : one_room mk (name, v) = match v with VDict d => match mk name d with Ok c => [c] | _ => [] end | _ => [] end) by (destruct v; reflexivity).
  rewrite e. clear e. destruct v as [s|s|d]; [exact IH|exact IH|]. destruct (mk name d) as [c| | | |]; try exact IH. eexists _, _. split; reflexivity.
Qed.
Lemma load_servers_spec {A} (mk : bytes -> bytes -> bytes -> dict -> outcome A) s : forall room,
  match load_servers mk s room with
  | (None, _) => ci_rest mk (mkCI (Some s) room) = []
  | (Some c, h) => ci_done h = false /\ exists h', ci_advance h = Ok h' /\ ci_rest mk (mkCI (Some s) room) = c :: ci_rest mk h'
  end.
Proof.
  induction s as [|[url v] s IH]; intros room; [reflexivity|].
  assert (hn : server_rest mk (url, v) room = [] ->
    match load_servers mk s None with (None, _) => ci_rest mk (mkCI (Some ((url, v) :: s)) room) = []
    | (Some c, h) => ci_done h = false /\ exists h', ci_advance h = Ok h' /\ ci_rest mk (mkCI (Some ((url, v) :: s)) room) = c :: ci_rest mk h' end).
  { intros e. specialize (IH None).
    assert (e2 : ci_rest mk (mkCI (Some ((url, v) :: s)) room) = ci_rest mk (mkCI (Some s) None)) by (unfold ci_rest; cbn [ci_server ci_room]; rewrite e; destruct s; reflexivity).
    rewrite e2. exact IH. }
  cbn [load_servers]. destruct v as [x|x|info]; [apply hn; destruct room; reflexivity|apply hn; destruct room; reflexivity|].
  destruct (maybe_str info (b "#")) as [pk|] eqn:ep; [|apply hn; unfold server_rest, one_server; cbn [snd fst]; rewrite ep; destruct room; reflexivity].
  destruct (match room with Some x => Some x | None => match lookup (b "R") info with Some (VDict x) => Some x | _ => None end end) as [rooms|] eqn:er.
  - assert (hs : server_rest mk (url, VDict info) room = flat_map (one_room (mk url pk)) rooms).
    { unfold server_rest, one_server. cbn [snd fst]. rewrite ep. destruct room as [rm|]; [congruence|]. destruct (lookup (b "R") info) as [[| |x]|]; try discriminate. congruence. }
    pose proof (load_rooms_spec (mk url pk) rooms) as hr. destruct (load_rooms (mk url pk) rooms) as [[c p]|]; [|apply hn; rewrite hs; exact hr].
    destruct hr as (e & r & -> & hr). split; [reflexivity|]. eexists. split; [reflexivity|]. unfold ci_rest. cbn [ci_server ci_room]. rewrite hs, hr.
    unfold server_rest. cbn [snd fst]. rewrite ep. reflexivity.
  - apply hn. unfold server_rest, one_server. cbn [snd fst]. rewrite ep. destruct room as [rm|]; [discriminate|]. destruct (lookup (b "R") info) as [[| |x]|]; try reflexivity. discriminate.
Qed.
Lemma ci_load_spec {A} (mk : bytes -> bytes -> bytes -> dict -> outcome A) x :
  match ci_load mk x with
  | (None, _) => ci_rest mk x = []
  | (Some c, h) => ci_done h = false /\ exists h', ci_advance h = Ok h' /\ ci_rest mk x = c :: ci_rest mk h'
  end.
Proof. destruct x as [[s|] room]; [exact (load_servers_spec mk s room)|reflexivity]. Qed.

Lemma load_ids_spec {A} first (load : bytes -> dict -> A) p :
  match load_ids first load p with
  | (None, q) => q = None /\ flat_map (visit_ids first load) p = []
  | (Some x, q) => exists e r, q = Some (e :: r) /\ flat_map (visit_ids first load) p = x :: flat_map (visit_ids first load) r
  end.
Proof.
  induction p as [|[k v] p IH]; [split; reflexivity|]. cbn [load_ids flat_map].
  assert (e : visit_ids first load (k, v) = match v with VDict d => if Nat.eqb (length k) 33 && match k with c :: _ => Ascii.eqb c first | [] => false end then [(to_hex k, load (to_hex k) d)] else [] | _ => [] end)
    by (destruct v; reflexivity).
  rewrite e. clear e. destruct v as [s|s|d]; destruct (_ && _); try exact IH. eexists _, _. split; reflexivity.
Qed.
Definition opt_ids {A} first (load : bytes -> dict -> A) (p : option dict) : list (bytes * A) := match p with Some p => flat_map (visit_ids first load) p | None => [] end.
Lemma opt_ids_spec {A} first (load : bytes -> dict -> A) p :
  match opt_load_ids first load p with
  | (None, q) => q = None /\ opt_ids first load p = []
  | (Some x, q) => exists e r, q = Some (e :: r) /\ opt_ids first load p = x :: opt_ids first load (Some r)
  end.
Proof. destruct p as [p|]; [exact (load_ids_spec first load p)|split; reflexivity]. Qed.
Definition opt_comm {A} (mk : bytes -> bytes -> bytes -> dict -> outcome A) (x : option comm_it) : list A := match x with Some c => ci_rest mk c | None => [] end.
Lemma opt_comm_spec {A} (mk : bytes -> bytes -> bytes -> dict -> outcome A) x :
  match (match x with Some c => ci_load mk c | None => (None, mkCI None None) end) with
  | (None, _) => opt_comm mk x = []
  | (Some c, h) => ci_done h = false /\ exists h', ci_advance h = Ok h' /\ opt_comm mk x = c :: ci_rest mk h'
  end.
Proof. destruct x as [x|]; [exact (ci_load_spec mk x)|reflexivity]. Qed.

(** ** groups *)
Definition any_g (p : bytes * group) : any_group := AGroup (fst p) (snd p).
Definition any_l (p : bytes * legacy) : any_group := ALegacy (fst p) (snd p).
Definition gi_rest pub (x : group_it) : list any_group :=
  map any_g (opt_ids (ascii_of_N 3) (load_group pub) (gi_group x)) ++ map AComm (opt_comm mk_room (gi_comm x)) ++
  map any_l (opt_ids (ascii_of_N 5) (fun _ => load_legacy) (gi_legacy x)).
Lemma gi_load_spec pub x :
  (gi_rest pub x = [] -> gi_done (gi_load pub x) = true) /\
  (forall a l, gi_rest pub x = a :: l -> gi_done (gi_load pub x) = false /\ gi_deref (gi_load pub x) = Ok a /\
     exists z, gi_advance pub (gi_load pub x) = Ok (gi_load pub z) /\ gi_rest pub z = l).
Proof.
  remember (gi_load pub x) as y eqn:hy. unfold gi_load in hy. pose proof (opt_ids_spec (ascii_of_N 3) (load_group pub) (gi_group x)) as h1.
  destruct (opt_load_ids (ascii_of_N 3) (load_group pub) (gi_group x)) as [[[id g]|] p].
  { destruct h1 as (e & r & -> & h1). unfold gi_rest. rewrite h1. cbn [map app]. split; [discriminate|]. intros a l h.
    assert (ha : a = AGroup id g) by (unfold any_g in h; cbn [fst snd] in h; congruence). subst a. subst y. split; [reflexivity|]. split; [reflexivity|].
    eexists. split; [reflexivity|]. cbn [gi_group gi_comm gi_legacy]. exact (f_equal (@tl any_group) h). }
  destruct h1 as [-> h1]. pose proof (opt_comm_spec mk_room (gi_comm x)) as h2.
  destruct (match gi_comm x with Some c => ci_load mk_room c | None => (None, mkCI None None) end) as [[c|] h].
  { destruct h2 as (hd & h' & ha & h2). unfold gi_rest. rewrite h1, h2. cbn [map app]. split; [discriminate|]. intros a l hl.
    assert (hx : a = AComm c) by congruence. subst a. subst y. split; [reflexivity|]. split; [reflexivity|].
    eexists. split; [unfold gi_advance; cbn [gi_group gi_comm gi_legacy gi_val]; rewrite ha; reflexivity|]. cbn [gi_group gi_comm gi_legacy]. change (opt_ids (ascii_of_N 3) (load_group pub) None) with (@nil (bytes * group)). cbn [opt_comm map app]. exact (f_equal (@tl any_group) hl). }
  pose proof (opt_ids_spec (ascii_of_N 5) (fun _ => load_legacy) (gi_legacy x)) as h3.
  destruct (opt_load_ids (ascii_of_N 5) (fun _ => load_legacy) (gi_legacy x)) as [[[id g]|] q].
  - destruct h3 as (e & r & -> & h3). unfold gi_rest. rewrite h1, h2, h3. cbn [map app]. split; [discriminate|]. intros a l hl.
    assert (hx : a = ALegacy id g) by (unfold any_l in hl; cbn [fst snd] in hl; congruence). subst a. subst y. split; [reflexivity|]. split; [reflexivity|].
    eexists. split; [reflexivity|]. cbn [gi_group gi_comm gi_legacy]. change (opt_ids (ascii_of_N 3) (load_group pub) None) with (@nil (bytes * group)). cbn [opt_comm map app]. exact (f_equal (@tl any_group) hl).
  - destruct h3 as [-> h3]. unfold gi_rest. rewrite h1, h2, h3. cbn [map app]. subst y. split; [reflexivity|]. intros a l hl. discriminate.
Qed.
Lemma gi_walk pub l : forall x, gi_rest pub x = l -> walk gi_done gi_deref (gi_advance pub) (gi_load pub x) l.
Proof.
  induction l as [|a l IH]; intros x h; destruct (gi_load_spec pub x) as [h1 h2].
  - apply walk_end, h1, h.
  - destruct (h2 a l h) as (hd & hc & z & ha & hz). eapply walk_step; [exact hd|exact hc|exact ha|]. apply IH, hz.
Qed.
Lemma gi_eq_end x : gi_eq x gi_end = gi_done x.
Proof. destruct x as [v [p|] [c|] [q|]]; reflexivity. Qed.
Lemma comms_rest st : match dict_at [] (b "o") (s_data st) with Some d => ci_rest mk_room (ci_new d) | None => [] end = comms_list st.
Proof.
  unfold comms_list. destruct (dict_at [] (b "o") (s_data st)) as [d|]; [|reflexivity]. unfold ci_rest, ci_new. cbn [ci_server ci_room].
  assert (e : forall p, one_server mk_room p = visit_server p).
  { intros [url v]. unfold one_server, visit_server. cbn [snd fst]. destruct v as [s|s|info]; try reflexivity. unfold rooms_of. destruct (maybe_str info (b "#")) as [pk|]; [|reflexivity].
    destruct (lookup (b "R") info) as [[| |x]|]; reflexivity. }
  destruct d as [|p d]; [reflexivity|]. cbn [flat_map server_rest]. rewrite e. f_equal. apply flat_map_ext, e.
Qed.
Lemma gi_begin_rest pub (g c l : bool) st : walk gi_done gi_deref (gi_advance pub) (gi_begin pub g c l st)
  ((if g then map any_g (groups_list pub st) else []) ++ (if c then map AComm (comms_list st) else []) ++ (if l then map any_l (legacy_list st) else [])).
Proof.
  apply gi_walk. unfold gi_rest. cbn [gi_group gi_comm gi_legacy]. f_equal; [|f_equal].
  - destruct g; [|reflexivity]. unfold groups_list. destruct (dict_at [] (b "g") (s_data st)); reflexivity.
  - destruct c; [|reflexivity]. rewrite <- comms_rest. destruct (dict_at [] (b "o") (s_data st)); reflexivity.
  - destruct l; [|reflexivity]. unfold legacy_list. destruct (dict_at [] (b "C") (s_data st)); reflexivity.
Qed.

(** ** conversations *)
Definition any_c (k : ckind) (p : bytes * cbase) : any_convo := AConvo k (fst p) (snd p).
Definition ids_of (k : ckind) (p : option dict) : list any_convo := map (any_c k) (opt_ids (first_of k) (fun _ => load_cbase) p).
Definition vi_rest (x : convo_it) : list any_convo := ids_of KOne (vi_one x) ++ ids_of KGroup (vi_group x) ++ map ACommunity (opt_comm mk_croom (vi_comm x)) ++ ids_of KLegacy (vi_legacy x).
Lemma ids_of_spec k p : match load_kind k p with
  | (None, q) => q = None /\ ids_of k p = []
  | (Some (id, c), q) => exists e r, q = Some (e :: r) /\ ids_of k p = AConvo k id c :: ids_of k (Some r)
  end.
Proof.
  unfold load_kind, ids_of. pose proof (opt_ids_spec (first_of k) (fun _ => load_cbase) p) as h. destruct (opt_load_ids (first_of k) (fun _ => load_cbase) p) as [[[id c]|] q].
  - destruct h as (e & r & -> & ->). eexists _, _. split; reflexivity.
  - destruct h as [-> ->]. split; reflexivity.
Qed.
Lemma vi_load_spec x :
  (vi_rest x = [] -> vi_done (vi_load x) = true) /\
  (forall a l, vi_rest x = a :: l -> vi_done (vi_load x) = false /\ vi_deref (vi_load x) = Ok a /\
     exists z, vi_advance (vi_load x) = Ok (vi_load z) /\ vi_rest z = l).
Proof.
  remember (vi_load x) as y eqn:hy. unfold vi_load in hy. pose proof (ids_of_spec KOne (vi_one x)) as h1. destruct (load_kind KOne (vi_one x)) as [[[id c]|] p].
  { destruct h1 as (e & r & -> & h1). unfold vi_rest. rewrite h1. cbn [app]. split; [discriminate|]. intros a l h. assert (ha : a = AConvo KOne id c) by congruence. subst a.
    subst y. split; [reflexivity|]. split; [reflexivity|]. eexists. split; [reflexivity|]. cbn [vi_one vi_group vi_comm vi_legacy]. exact (f_equal (@tl any_convo) h). }
  destruct h1 as [-> h1]. pose proof (ids_of_spec KGroup (vi_group x)) as h2. destruct (load_kind KGroup (vi_group x)) as [[[id c]|] q].
  { destruct h2 as (e & r & -> & h2). unfold vi_rest. rewrite h1, h2. cbn [app]. split; [discriminate|]. intros a l h. assert (ha : a = AConvo KGroup id c) by congruence. subst a.
    subst y. split; [reflexivity|]. split; [reflexivity|]. eexists. split; [reflexivity|]. cbn [vi_one vi_group vi_comm vi_legacy]. change (ids_of KOne None) with (@nil any_convo). cbn [app]. exact (f_equal (@tl any_convo) h). }
  destruct h2 as [-> h2]. pose proof (opt_comm_spec mk_croom (vi_comm x)) as h3.
  destruct (match vi_comm x with Some c => ci_load mk_croom c | None => (None, mkCI None None) end) as [[c|] h].
  { destruct h3 as (hd & h' & ha & h3). unfold vi_rest. rewrite h1, h2, h3. cbn [map app]. split; [discriminate|]. intros a l hl. assert (hx : a = ACommunity c) by congruence. subst a.
    assert (hdn : forall v lg, vi_done (mkVI v None None (Some h) lg) = false) by (intros v lg; unfold vi_done; cbn [vi_one vi_group vi_comm vi_legacy is_some negb andb]; rewrite hd; reflexivity).
    subst y. split; [apply hdn|]. split; [unfold vi_deref; rewrite hdn; reflexivity|].
    eexists. split; [unfold vi_advance; cbn [vi_one vi_group vi_comm vi_legacy vi_val]; rewrite hd, ha; reflexivity|].
    cbn [vi_one vi_group vi_comm vi_legacy opt_comm]. change (ids_of KOne None) with (@nil any_convo). change (ids_of KGroup None) with (@nil any_convo). cbn [app]. exact (f_equal (@tl any_convo) hl). }
  pose proof (ids_of_spec KLegacy (vi_legacy x)) as h4. destruct (load_kind KLegacy (vi_legacy x)) as [[[id c]|] r].
  - destruct h4 as (e & t & -> & h4). unfold vi_rest. rewrite h1, h2, h3, h4. cbn [map app]. split; [discriminate|]. intros a l hl. assert (hx : a = AConvo KLegacy id c) by congruence. subst a.
    subst y. split; [reflexivity|]. split; [reflexivity|]. eexists. split; [reflexivity|]. cbn [vi_one vi_group vi_comm vi_legacy opt_comm map].
    change (ids_of KOne None) with (@nil any_convo). change (ids_of KGroup None) with (@nil any_convo). cbn [app]. exact (f_equal (@tl any_convo) hl).
  - destruct h4 as [-> h4]. unfold vi_rest. rewrite h1, h2, h3, h4. cbn [map app]. subst y. split; [reflexivity|]. intros a l hl. discriminate.
Qed.
Lemma vi_walk l : forall x, vi_rest x = l -> walk vi_done vi_deref vi_advance (vi_load x) l.
Proof.
  induction l as [|a l IH]; intros x h; destruct (vi_load_spec x) as [h1 h2].
  - apply walk_end, h1, h.
  - destruct (h2 a l h) as (hd & hc & z & ha & hz). eapply walk_step; [exact hd|exact hc|exact ha|]. apply IH, hz.
Qed.
(** after loading, the community part is gone or has a record *)
Lemma vi_comm_live x : match vi_comm (vi_load x) with Some c => vi_one (vi_load x) = None -> vi_group (vi_load x) = None -> ci_done c = false | None => True end.
Proof.
  unfold vi_load. pose proof (ids_of_spec KOne (vi_one x)) as h1. destruct (load_kind KOne (vi_one x)) as [[[id c]|] p].
  { destruct h1 as (e & r & -> & _). cbn. destruct (vi_comm x); [discriminate|exact I]. }
  pose proof (ids_of_spec KGroup (vi_group x)) as h2. destruct (load_kind KGroup (vi_group x)) as [[[id c]|] q].
  { destruct h2 as (e & r & -> & _). cbn. destruct (vi_comm x); [discriminate|exact I]. }
  pose proof (opt_comm_spec mk_croom (vi_comm x)) as h3. destruct (match vi_comm x with Some c => ci_load mk_croom c | None => (None, mkCI None None) end) as [[c|] h].
  { cbn. intros _ _. apply h3. }
  destruct (load_kind KLegacy (vi_legacy x)) as [[[id c]|] r]; exact I.
Qed.
Lemma vi_eq_end x : vi_eq (vi_load x) vi_end = vi_done (vi_load x).
Proof.
  pose proof (vi_comm_live x) as h. destruct (vi_load x) as [v [p|] [q|] [c|] [r|]]; unfold vi_eq, vi_done, vi_end; cbn [vi_one vi_group vi_comm vi_legacy same_pos same_comm is_some negb andb] in *; try reflexivity; rewrite (h eq_refl eq_refl); reflexivity.
Qed.
Lemma ccomms_rest st : match dict_at [] (b "o") (s_data st) with Some d => ci_rest mk_croom (ci_new d) | None => [] end = ccomms_list st.
Proof.
  unfold ccomms_list. destruct (dict_at [] (b "o") (s_data st)) as [d|]; [|reflexivity]. unfold ci_rest, ci_new. cbn [ci_server ci_room].
  assert (e0 : forall url pk p, one_room (mk_croom url pk) p = visit_croom url pk p).
  { intros url pk [n v]. unfold one_room, visit_croom. cbn [snd fst]. destruct v as [s|s|i]; try reflexivity. unfold mk_croom. destruct (new_comm url n) as [og| | | |]; try reflexivity.
    cbn [bind]. destruct (set_pubkey pk og); reflexivity. }
  assert (e : forall p, one_server mk_croom p = visit_cserver p).
  { intros [url v]. unfold one_server, visit_cserver. cbn [snd fst]. destruct v as [s|s|info]; try reflexivity. unfold rooms_of. destruct (maybe_str info (b "#")) as [pk|]; [|reflexivity].
    destruct (lookup (b "R") info) as [[| |x]|]; try reflexivity. apply flat_map_ext, e0. }
  destruct d as [|p d]; [reflexivity|]. cbn [flat_map server_rest]. rewrite e. f_equal. apply flat_map_ext, e.
Qed.
Lemma vi_begin_rest (o c g l : bool) st : walk vi_done vi_deref vi_advance (vi_begin o c g l st)
  ((if o then map (any_c KOne) (convo_list KOne st) else []) ++ (if g then map (any_c KGroup) (convo_list KGroup st) else []) ++
   (if c then map ACommunity (ccomms_list st) else []) ++ (if l then map (any_c KLegacy) (convo_list KLegacy st) else [])).
Proof.
  assert (e : forall (f : bool) k, ids_of k (if f then dict_at [] (top_of k) (s_data st) else None) = if f then map (any_c k) (convo_list k st) else []).
  { intros [|] k; [|reflexivity]. unfold ids_of, convo_list. destruct (dict_at [] (top_of k) (s_data st)); reflexivity. }
  apply vi_walk. unfold vi_rest. cbn [vi_one vi_group vi_comm vi_legacy]. rewrite !e. f_equal. f_equal. f_equal.
  destruct c; [|reflexivity]. rewrite <- ccomms_rest. destruct (dict_at [] (b "o") (s_data st)); reflexivity.
Qed.
(** the same, ended by comparison with end() *)
Lemma vi_walk_end l : forall x, vi_rest x = l -> walk (fun i => vi_eq i vi_end) vi_deref vi_advance (vi_load x) l.
Proof.
  induction l as [|a l IH]; intros x h; destruct (vi_load_spec x) as [h1 h2].
  - apply walk_end. rewrite vi_eq_end. apply h1, h.
  - destruct (h2 a l h) as (hd & hc & z & ha & hz). eapply walk_step; [rewrite vi_eq_end; exact hd|exact hc|exact ha|]. apply IH, hz.
Qed.
Lemma vi_begin_rest_end (o c g l : bool) st : walk (fun i => vi_eq i vi_end) vi_deref vi_advance (vi_begin o c g l st)
  ((if o then map (any_c KOne) (convo_list KOne st) else []) ++ (if g then map (any_c KGroup) (convo_list KGroup st) else []) ++
   (if c then map ACommunity (ccomms_list st) else []) ++ (if l then map (any_c KLegacy) (convo_list KLegacy st) else [])).
Proof.
  assert (e : forall (f : bool) k, ids_of k (if f then dict_at [] (top_of k) (s_data st) else None) = if f then map (any_c k) (convo_list k st) else []).
  { intros [|] k; [|reflexivity]. unfold ids_of, convo_list. destruct (dict_at [] (top_of k) (s_data st)); reflexivity. }
  apply vi_walk_end. unfold vi_rest. cbn [vi_one vi_group vi_comm vi_legacy]. rewrite !e. f_equal. f_equal. f_equal.
  destruct c; [|reflexivity]. rewrite <- ccomms_rest. destruct (dict_at [] (b "o") (s_data st)); reflexivity.
Qed.
