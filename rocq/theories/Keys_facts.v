(** The group keys object: invariants. *)
From Verif Require Import KeysSpec KeyList_facts Bt_facts Message_facts.

(** ** the hash table *)
Definition tbl_ok (act : list (Z * list bytes)) : Prop := msorted act /\ forall g l, lookup g act = Some l -> ssorted l /\ l <> [].
Lemma tbl_nil : tbl_ok []. Proof. split; [constructor|discriminate]. Qed.
Lemma lookup_add_active g h act g' : msorted act ->
  lookup g' (add_active g h act) = if eqb g' g then Some (sadd h (match lookup g act with Some l => l | None => [] end)) else lookup g' act.
Proof. intros hs. unfold add_active. apply lookup_insert. exact hs. Qed.
Lemma tbl_add g h act : tbl_ok act -> tbl_ok (add_active g h act).
Proof.
  intros [h1 h2]. split; [apply msorted_insert; exact h1|]. intros g' l. rewrite lookup_add_active by exact h1.
  destruct (eqb g' g) eqn:E; [|apply h2]. intros [= <-]. split.
  - apply ssorted_sadd. destruct (lookup g act) eqn:El; [apply (h2 _ _ El)|constructor].
  - intros hn. assert (hi : In h (sadd h (match lookup g act with Some l => l | None => [] end))) by (apply In_sadd; auto). rewrite hn in hi. destruct hi.
Qed.
Lemma has_add g h act g' h' : msorted act -> has_hash (add_active g h act) g' h' <-> has_hash act g' h' \/ g' = g /\ h' = h.
Proof.
  intros hs. unfold has_hash. rewrite lookup_add_active by exact hs. destruct (eqb g' g) eqn:E.
  - apply eqb_eq in E. subst g'. split.
    + intros (l & [= <-] & hi). apply In_sadd in hi as [-> | hi]; [auto|]. left. destruct (lookup g act) as [l|] eqn:El; [eauto|destruct hi].
    + intros [(l & h1 & h2)|(_ & ->)]; [rewrite h1|]; eexists; split; try reflexivity; apply In_sadd; auto.
  - apply eqb_neq in E. split; [auto|]. intros [h1|(h1 & _)]; [exact h1|contradiction].
Qed.
Lemma tbl_filter f act : tbl_ok act -> tbl_ok (filter f act).
Proof. intros [h1 h2]. split; [apply msorted_filter; exact h1|]. intros g l hl. rewrite lookup_filter in hl by exact h1.
  destruct (lookup g act) as [l'|] eqn:E; [|discriminate]. destruct (f (g, l')); [|discriminate]. injection hl as <-. eauto. Qed.
Lemma tbl_expire ks act : tbl_ok act -> tbl_ok (expire_active ks act).
Proof. intros h. unfold expire_active. destruct ks; [apply tbl_nil|apply tbl_filter; exact h]. Qed.
Lemma has_expire k ks act g h : msorted act -> has_hash (expire_active (k :: ks) act) g h <-> has_hash act g h /\ (k_gen k <= g)%Z.
Proof.
  intros hs. unfold has_hash, expire_active. rewrite lookup_filter by exact hs. destruct (lookup g act) as [l|].
  - cbn [fst]. destruct (k_gen k <=? g)%Z eqn:E.
    + split; [intros (l' & [= <-] & hi); split; [eauto|lia]|intros [h1 _]; exact h1].
    + split; [intros (l' & ? & _); discriminate|]. intros [_ h1]. lia.
  - split; [intros (l' & ? & _); discriminate|]. intros [(l' & ? & _) _]. discriminate.
Qed.
Lemma tbl_ext t u : tbl_ok t -> tbl_ok u -> (forall g h, has_hash t g h <-> has_hash u g h) -> t = u.
Proof.
  intros [h1 h2] [h3 h4] he. apply msorted_ext; auto. intros g. unfold has_hash in he.
  destruct (lookup g t) as [l|] eqn:El, (lookup g u) as [m|] eqn:Em; auto.
  - f_equal. destruct (h2 _ _ El) as [s1 _], (h4 _ _ Em) as [s2 _]. apply ssorted_ext; auto. intros x. specialize (he g x). rewrite El, Em in he. split; intros hx.
    + assert (hq : exists l0, Some l = Some l0 /\ In x l0) by eauto. apply he in hq as (l0 & [= <-] & hq). exact hq.
    + assert (hq : exists l0, Some m = Some l0 /\ In x l0) by eauto. apply he in hq as (l0 & [= <-] & hq). exact hq.
  - exfalso. destruct (h2 _ _ El) as [_ hn]. destruct l as [|x l]; [destruct (hn eq_refl)|]. specialize (he g x). rewrite El, Em in he.
    assert (hq : exists l0, Some (x :: l) = Some l0 /\ In x l0) by (eexists; split; [reflexivity|left; reflexivity]). apply he in hq as (? & ? & _). discriminate.
  - exfalso. destruct (h4 _ _ Em) as [_ hn]. destruct m as [|x m]; [destruct (hn eq_refl)|]. specialize (he g x). rewrite El, Em in he.
    assert (hq : exists l0, Some (x :: m) = Some l0 /\ In x l0) by (eexists; split; [reflexivity|left; reflexivity]). apply he in hq as (? & ? & _). discriminate.
Qed.

(** ** the invariant *)
Definition key_fine (k : key_info) : Prop := int64_ok (k_gen k) = true /\ ts_ok (k_ts k) = true /\ length (k_key k) = 32.
Record kinv (o : kobj) : Prop := {
  ki_sorted : ssorted (ko_keys o);
  ki_ids : NoDup (map key_id (ko_keys o));
  ki_fine : Forall key_fine (ko_keys o);
  ki_expired : expire_keys (ko_keys o) = ko_keys o;
  ki_tbl : tbl_ok (ko_active o);
  ki_gens : Forall (fun p => int64_ok (fst p) = true) (ko_active o);
  ki_front : expire_active (ko_keys o) (ko_active o) = ko_active o;
  ki_pend : ko_pconf o <> [] -> int64_ok (ko_pgen o) = true /\ length (ko_pkey o) = 32
}.
Lemma kinv_new u p s : kinv (new_keys u p s).
Proof. split; cbn; auto using tbl_nil; try constructor; try discriminate; try contradiction. Qed.
Lemma in_ids k l : In k l -> In (key_id k) (map key_id l). Proof. apply in_map. Qed.
Lemma NoDup_place x l : ~ In (key_id x) (map key_id l) -> NoDup (map key_id l) -> NoDup (map key_id (place x l)).
Proof.
  induction l as [|y r IH]; intros hn hd; cbn [place map]; [constructor; auto|]. destruct (ltb y x).
  - cbn [map] in *. inversion hd as [|? ? h1 h2]; subst. constructor; [|apply IH; auto; intros h; apply hn; right; exact h].
    intros h. apply in_map_iff in h as (z & hz & h). assert (hz' : z = x \/ In z r).
    { clear -h. induction r as [|w r IH]; cbn [place] in h; [destruct h as [<-|[]]; auto|]. destruct (ltb w x); cbn [In] in *; intuition. }
    destruct hz' as [-> | hz']; [apply hn; left; auto|]. apply h1. rewrite <- hz. apply in_map. exact hz'.
  - constructor; auto.
Qed.
Lemma NoDup_suffix {A B} (f : A -> B) d l : NoDup (map f (d ++ l)) -> NoDup (map f l).
Proof. induction d as [|x d IH]; cbn; auto. intros h. inversion h; auto. Qed.
Lemma expire_active_idem ks act : msorted act -> expire_active ks (expire_active ks act) = expire_active ks act.
Proof.
  intros hs. unfold expire_active. destruct ks as [|k ks]; [reflexivity|]. induction act as [|p act IH]; [reflexivity|]. cbn [filter].
  destruct p as [g l]. apply msorted_cons in hs as [hs _]. destruct (k_gen k <=? fst (g, l))%Z eqn:E; [cbn [filter]; rewrite E; f_equal|]; auto.
Qed.
Lemma Forall_filter_ {A} (P : A -> Prop) f l : Forall P l -> Forall P (filter f l).
Proof. induction 1; cbn; [constructor|]. destruct (f x); [constructor|]; auto. Qed.
Lemma Forall_insert (P : Z -> Prop) g (l : list bytes) act : P g -> Forall (fun p => P (fst p)) act -> Forall (fun p => P (fst p)) (insert g l act).
Proof.
  intros hg. induction 1 as [|[g' l'] r h1 h2 IH]; cbn [insert]; [constructor; [exact hg|constructor]|]. destruct (cmp g g'); constructor; auto.
Qed.
Lemma filter_all {A} (f : A -> bool) l : (forall x, In x l -> f x = true) -> filter f l = l.
Proof. induction l as [|x l IH]; intros h; cbn; [reflexivity|]. rewrite (h x) by (left; reflexivity). f_equal. apply IH. intros y hy. apply h. right. exact hy. Qed.
Lemma Forall_expire (P : Z -> Prop) ks act : Forall (fun p => P (fst p)) act -> Forall (fun p => P (fst p)) (expire_active ks act).
Proof. intros h. unfold expire_active. destruct ks; [constructor|apply Forall_filter_; exact h]. Qed.
Lemma kinv_insert h x o : kinv o -> key_fine x -> kinv (insert_key h x o).
Proof.
  intros [i1 i2 i3 i4 i5 i6 i7 i8] hx. unfold insert_key. destruct (existsb _ _) eqn:Ed.
  - apply existsb_exists in Ed as (y & y1 & y2). apply same_key_spec in y2 as [y2 _].
    split; cbn [with_keys ko_keys ko_active ko_pconf ko_pgen ko_pkey]; auto using tbl_add.
    + unfold add_active. apply (Forall_insert (fun g => int64_ok g = true)); [apply hx|exact i6].
    + destruct (ko_keys o) as [|f r] eqn:Ek; [destruct y1|]. cbn [expire_active] in *. apply filter_all. intros [g l] hgl.
      apply In_lookup in hgl; [|apply tbl_add; exact i5]. rewrite lookup_add_active in hgl by apply i5. cbn [fst]. destruct (eqb g (k_gen x)) eqn:Eg.
      * apply eqb_eq in Eg. pose proof (front_least f r y i1 y1). lia.
      * apply lookup_In in hgl. rewrite <- i7 in hgl. apply filter_In in hgl as [_ hgl]. exact hgl.
  - destruct (stale _ _); [split; auto|]. cbv zeta. unfold remove_expired. cbn [with_keys ko_keys ko_active ko_needs_dump].
    assert (hid : ~ In (key_id x) (map key_id (ko_keys o))).
    { intros hi. apply in_map_iff in hi as (y & y1 & y2). apply not_true_iff_false in Ed. apply Ed. apply existsb_exists. exists y. split; [exact y2|].
      apply same_key_spec. injection y1 as -> ->. auto. }
    assert (hni : ~ In x (ko_keys o)) by (intros hi; apply hid; apply in_map; exact hi).
    pose proof (NoDup_place x _ hid i2) as hnd. rewrite place_sadd in * by auto.
    pose proof (ssorted_sadd x _ i1) as hs. split; cbn [with_keys ko_keys ko_active ko_pconf ko_pgen ko_pkey]; auto using ssorted_expire, expire_idem, tbl_expire, tbl_add.
    + destruct (expire_spec _ hs) as (d & h1 & _). rewrite h1 in hnd. apply NoDup_suffix in hnd. exact hnd.
    + apply Forall_forall. intros k hk. apply (incl_expire _ hs) in hk. apply In_sadd in hk as [-> | hk]; [exact hx|]. rewrite Forall_forall in i3. auto.
    + apply (Forall_expire (fun g => int64_ok g = true)). apply (Forall_insert (fun g => int64_ok g = true)); [apply hx|exact i6].
    + apply expire_active_idem. apply tbl_add. exact i5.
Qed.
Lemma kinv_inserts h ks : forall o, kinv o -> Forall key_fine ks -> kinv (fold_left (fun o k => insert_key h k o) ks o).
Proof. induction ks as [|k ks IH]; intros o ho hf; [exact ho|]. inversion hf; subst. cbn [fold_left]. apply IH; auto. apply kinv_insert; auto. Qed.
Lemma kinv_remove_expired g h o nd : kinv o -> int64_ok g = true ->
  let o2 := remove_expired (with_keys o (ko_keys o) (add_active g h (ko_active o)) (ko_needs_dump o)) in
  kinv (with_keys o2 (ko_keys o2) (ko_active o2) nd).
Proof.
  intros [i1 i2 i3 i4 i5 i6 i7 i8] hg. cbv zeta. unfold remove_expired. cbn [with_keys ko_keys ko_active]. rewrite i4.
  split; cbn [with_keys ko_keys ko_active ko_pconf ko_pgen ko_pkey]; auto using tbl_expire, tbl_add.
  - apply (Forall_expire (fun g => int64_ok g = true)). apply (Forall_insert (fun g => int64_ok g = true)); auto.
  - apply expire_active_idem. apply tbl_add. exact i5.
Qed.

(** ** what a message can contain *)
Lemma seek_int_ok k d z r : seek_int k d = Ok (z, r) -> int64_ok z = true.
Proof. unfold seek_int. intros h. destruct (seek_val k d) as [[v r']| | | |]; try discriminate. cbn [bind fst snd] in h. destruct v; try discriminate. destruct (int64_ok z0) eqn:E; [|discriminate]. injection h as <- <-. exact E. Qed.
Lemma take_int_ok s z t : take_int s = Ok (z, t) -> int64_ok z = true.
Proof. unfold take_int. intros h. destruct (consume s) as [[[k v] r]| | | |]; try discriminate. destruct v; try discriminate. destruct (int64_ok z0) eqn:E; [|discriminate]. injection h as <- <-. exact E. Qed.
Lemma require_ok {A} k s (take : bytes -> outcome (A * bytes)) x : require k s take = Ok x -> exists f, find_key k s = Ok (true, f) /\ take f = Ok x.
Proof. unfold require. destruct (find_key k s) as [[f s']| | | |]; try discriminate. cbn [bind fst snd]. destruct f; [eauto|discriminate]. Qed.
Lemma read_key_fine v k : read_key v = Ok k -> key_fine k.
Proof.
  unfold read_key. destruct v as [| | |d]; try discriminate. intros h. destruct (seek_int (b "g") d) as [[g r1]| | | |] eqn:E1; try discriminate. cbn [bind fst snd] in h.
  destruct (seek_str (b "k") r1) as [[key r2]| | | |]; try discriminate. cbn [bind fst snd] in h. destruct (Nat.eqb (length key) 32) eqn:E2; [|discriminate]. cbn [negb] in h.
  destruct (seek_int (b "t") r2) as [[t r3]| | | |]; try discriminate. cbn [bind fst snd] in h. destruct (ts_ok t) eqn:E3; [|discriminate]. injection h as <-.
  split; [|split]; cbn; [exact (seek_int_ok _ _ _ _ E1)|exact E3|apply Nat.eqb_eq; exact E2].
Qed.
Lemma read_infos_fine fuel : forall s ks, read_infos fuel s = Ok ks -> Forall key_fine ks.
Proof.
  induction fuel as [|f IH]; intros s ks h; [discriminate|]. cbn [read_infos] in h. destruct s as [|c s]; [discriminate|]. destruct (Ascii.eqb c "e"); [injection h as <-; constructor|].
  destruct (parse1 (c :: s)) as [[v t]|]; [|discriminate]. destruct (read_key v) as [k| | | |] eqn:Ek; try discriminate. cbn [bind] in h.
  destruct (read_infos f t) as [ks'| | | |] eqn:Er; try discriminate. injection h as <-. constructor; [exact (read_key_fine _ _ Ek)|eauto].
Qed.
Lemma first_open_len X key nonce cs m : seal_ok X -> Forall (fun c => length c = 48) cs -> first_open X key nonce cs = Some m -> length m = 32.
Proof.
  intros hX. induction 1 as [|c cs hc hcs IH]; [discriminate|]. cbn [first_open]. unfold decrypt_multi. rewrite hc. change (Nat.ltb 48 ABYTES) with false. cbn match.
  destruct (x_open X key (firstn 24 nonce) c) as [m'|] eqn:E; [|exact IH]. intros [= <-]. apply (so_olen X hX) in E. unfold ABYTES in E. lia.
Qed.
Lemma for_us_len G o xpk nonce cs m : seal_ok (g_x G) -> Forall (fun c => length c = 48) cs -> for_us G o xpk nonce cs = Ok (Some m) -> length m = 32.
Proof.
  intros hX hcs h. unfold for_us in h. destruct (admin o); [destruct (Nat.leb 24 (length nonce)); discriminate|].
  destruct (of_opt (g_xpk G (user_pk o)) Throw) as [upk| | | |]; try discriminate. cbn [bind] in h. unfold decrypt_for_multiple in h.
  destruct (_ || _); [discriminate|]. destruct (multi_key _ _ _ _ _ _) as [key| | | |]; try discriminate. cbn [bind] in h. injection h as h.
  exact (first_open_len _ _ _ _ _ hX hcs h).
Qed.
Ltac step h := match type of h with
  | bind ?e _ = Ok _ => let E := fresh "E" in destruct e eqn:E; try discriminate h; cbn [bind] in h
  | (if ?q then _ else _) = Ok _ => let E := fresh "E" in destruct q eqn:E; try discriminate h
  | (let '(_, _) := ?p in _) = Ok _ => destruct p
  end.
Lemma Forall_len_48 cs : existsb (fun c : bytes => negb (Nat.eqb (length c) 48)) cs = false -> Forall (fun c => length c = 48) cs.
Proof.
  induction cs as [|c cs IH]; intros h; [constructor|]. cbn [existsb] in h. apply orb_false_iff in h as [h1 h2]. constructor; [|auto].
  apply negb_false_iff in h1. apply Nat.eqb_eq in h1. exact h1.
Qed.
Lemma read_message_fine G o data ts ks gen s : seal_ok (g_x G) -> read_message G o data ts = Ok (ks, gen, s) -> Forall key_fine ks /\ int64_ok gen = true.
Proof.
  intros hX h. unfold read_message in h. destruct data as [|c s0]; [discriminate|].
  destruct (ascii_dec c "d"%char) as [->|hc]; [|destruct c as [[|] [|] [|] [|] [|] [|] [|] [|]]; try discriminate; destruct hc; reflexivity].
  step h. step h. step h. step h. step h. step h.
  - repeat step h. injection h as <- <- <-. split.
    + match goal with E : match ?m with Some _ => _ | None => _ end = Ok _ |- _ => destruct m as [m|]; [|injection E as <-; constructor]; destruct m as [|c m]; [discriminate|];
        destruct (ascii_dec c "l"%char) as [->|hc]; [|destruct c as [[|] [|] [|] [|] [|] [|] [|] [|]]; try discriminate; destruct hc; reflexivity];
        exact (read_infos_fine _ _ _ E) end.
    + match goal with E : require _ _ take_int = Ok ?p |- _ => destruct p as [g gs]; apply require_ok in E as (f & _ & E); exact (take_int_ok _ _ _ E) end.
  - repeat step h. injection h as <- <- <-.
    match goal with E : require _ _ take_int = Ok _ |- _ => apply require_ok in E as (f & _ & E); apply take_int_ok in E end. split; [|assumption].
    match goal with E : negb (ts_ok ts) = false |- _ => apply negb_false_iff in E end.
    match goal with |- context [(?g, (ts, _))] => assert (hfine : forall k, length k = 32 -> Forall key_fine [(g, (ts, k))]) by (intros k hk; constructor; [repeat split; auto|constructor]) end.
    match goal with E : match ko_sk o with Some _ => _ | None => _ end = Ok ?w |- _ => destruct w as [k|]; [destruct (ko_sk o) as [sk|]; [|discriminate]|] end.
    + apply hfine. match goal with E : bind _ _ = Ok _ |- _ => step E; injection E as <- end.
      match goal with E : of_opt (x_open ?a ?b ?c ?d) _ = Ok _ |- _ => destruct (x_open a b c d) eqn:Eo; [|discriminate]; injection E as <- end.
      apply (so_olen _ hX) in Eo. match goal with E : negb (Nat.eqb _ 48) = false |- _ => apply negb_false_iff, Nat.eqb_eq in E end. unfold ABYTES in Eo. lia.
    + match goal with |- Forall _ match ?w with Some _ => _ | None => _ end => destruct w as [k|]; [|constructor] end. apply hfine.
      match goal with E : for_us _ _ _ _ _ = Ok _, E' : existsb _ _ = false |- _ => exact (for_us_len _ _ _ _ _ _ hX (Forall_len_48 _ E') E) end.
Qed.
