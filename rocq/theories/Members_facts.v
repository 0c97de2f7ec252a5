From Verif Require Import RecordsSpec Data_facts Fields_facts Base_facts Conf2_facts Maps Hex_facts Message_facts Records_facts Contacts_facts.
From Coq Require Import Lia.

Lemma member_script_ok m : member_fits m -> script_ok (member_script m).
Proof.
  intros (h1 & h2 & h3). unfold member_script. repeat apply script_ok_app.
  - apply script_ok_1. split; reflexivity.
  - apply ok_pic.
  - apply ok_int. reflexivity.
  - apply ok_int. destruct (mb_admin m); [reflexivity|apply int32_int64, h2].
  - apply ok_int. destruct (mb_admin m); [reflexivity|apply int32_int64, h1].
  - apply ok_int. reflexivity.
  - apply ok_int, int32_int64, h3.
Qed.
Lemma positive_read z : int32_ok z -> to_int32 (or_else (as_int (if (0 <? z)%Z then Some (vint z) else None)) 0%Z) = Z.max 0 z.
Proof.
  intros h. destruct (0 <? z)%Z eqn:e; cbn [as_int or_else vint]; [apply Z.ltb_lt in e|apply Z.ltb_ge in e].
  - rewrite to_int32_id by exact h. lia.
  - change (to_int32 0) with 0%Z. lia.
Qed.
Ltac written2 hr := rewrite hr; unfold member_script, set_pic, set_pair_if; destruct (pic_set _); reflexivity.
Lemma load_member_script m (r : dict) a : member_fits m -> (forall k, lookup k r = fold_left (pick k) (member_script m) (a k)) -> load_member r = kept_member m.
Proof.
  intros (h1 & h2 & h3) hr. unfold load_member, kept_member, invite_pending, promoted, promotion_pending, maybe_str, maybe_int. cbv zeta. cbn [mb_name mb_pic mb_admin mb_invite mb_promotion].
  assert (gn : lookup (b "n") r = Some (vstr (firstn 100 (mb_name m)))) by written2 hr.
  assert (gp : lookup (b "p") r = if pic_set (mb_pic m) then Some (vstr (pic_url (mb_pic m))) else None) by written2 hr.
  assert (gq : lookup (b "q") r = if pic_set (mb_pic m) then Some (vstr (pic_key (mb_pic m))) else None) by written2 hr.
  assert (gA : lookup (b "A") r = if mb_admin m then Some (vint 1) else None) by written2 hr.
  assert (gP : lookup (b "P") r = if (0 <? (if mb_admin m then 0 else mb_promotion m))%Z then Some (vint (if mb_admin m then 0 else mb_promotion m)%Z) else None) by written2 hr.
  assert (gI : lookup (b "I") r = if (0 <? (if mb_admin m then 0 else mb_invite m))%Z then Some (vint (if mb_admin m then 0 else mb_invite m)%Z) else None) by written2 hr.
  assert (gs : lookup (b "s") r = if mb_supplement m then Some (vint 1) else None) by written2 hr.
  assert (gR : lookup (b "R") r = if (0 <? mb_removed m)%Z then Some (vint (mb_removed m)) else None) by written2 hr.
  clear hr. rewrite (load_set_pic r (mb_pic m) gp gq). rewrite gn, gA, gP, gI, gs, gR.
  assert (hz : int32_ok 0) by (unfold int32_ok; lia).
  assert (eA : to_bool (or_else (as_int (if mb_admin m then Some (vint 1) else None)) 0%Z) = mb_admin m) by (destruct (mb_admin m); reflexivity).
  rewrite eA, (positive_read (mb_removed m)) by exact h3. destruct (mb_admin m).
  - cbn [negb andb orb]. rewrite !andb_false_r. cbn. rewrite ?andb_false_r. reflexivity.
  - rewrite !positive_read by assumption. cbn [negb andb orb]. f_equal.
    destruct (0 <? Z.max 0 (mb_invite m))%Z; cbn [andb]; [|rewrite andb_false_r; reflexivity]. rewrite andb_true_r.
    destruct (Z.ltb_spec 0 (Z.max 0 (mb_promotion m))); destruct (Z.eqb_spec (Z.max 0 (mb_promotion m)) 0); try lia; cbn [negb].
    + rewrite andb_false_r. reflexivity.
    + rewrite andb_true_r. destruct (mb_supplement m); reflexivity.
Qed.
Lemma member_named m : fold_left (pick (b "n")) (member_script m) None = Some (vstr (trunc MAX_NAME_LENGTH (mb_name m))) /\
  forall a, fold_left (pick (b "n")) (member_script m) a = fold_left (pick (b "n")) (member_script m) None.
Proof. unfold member_script, set_pic, set_pair_if. destruct (pic_set _); split; reflexivity. Qed.

(** ** a collection keyed by session ids, in general *)
Section keyed.
  Context {A : Type} (B : benv) (top prefix : bytes) (load : dict -> A).
  Definition keyed_get (st : bstate) (sid : bytes) : outcome (option A) :=
    pk <- session_id_to_bytes sid prefix ;; Ok match dict_at [top] pk (s_data st) with Some d => Some (load d) | None => None end.
  Lemma keyed_set st st' id pk s k0 v0 kept : usable st -> script_ok s -> session_id_to_bytes id prefix = Ok pk ->
    fold_left (pick k0) s None = Some v0 -> (forall a, fold_left (pick k0) s a = fold_left (pick k0) s None) ->
    (forall r a, (forall k, lookup k r = fold_left (pick k) s (a k)) -> load r = kept) ->
    run_script B [top; pk] s st = (Ok tt, st') ->
    usable st' /\ forall g, (forall sid, session_id_ok sid prefix = true -> keyed_get st sid = Ok (g sid)) ->
      forall sid, session_id_ok sid prefix = true -> keyed_get st' sid = Ok (if same_id sid id then Some kept else g sid).
  Proof.
    intros hu hs hk h1 h2 hl h. destruct (record_set _ _ _ _ _ _ _ _ hu hs h1 h2 h) as (hu' & (r & e & hr) & ho & _). split; [exact hu'|].
    intros g hg sid hsid. destruct (sid_ok_key _ _ hsid) as [pk' ek']. pose proof (hg sid hsid) as hgs. unfold keyed_get in *. rewrite ek' in *. cbn [bind] in *.
    rewrite (same_id_key _ _ _ _ _ ek' hk). destruct (eqb pk' pk) eqn:eq.
    - apply eqb_eq in eq. subst pk'. rewrite e, (hl r _ hr). reflexivity.
    - rewrite <- hgs. unfold dict_at. rewrite ho; [reflexivity|]. intros ->. rewrite eqb_refl in eq. discriminate.
  Qed.
  Lemma keyed_erase st st' id pk : usable st -> session_id_to_bytes id prefix = Ok pk -> run B (OpErase [top] pk) st = (Ok tt, st') ->
    usable st' /\ forall g, (forall sid, session_id_ok sid prefix = true -> keyed_get st sid = Ok (g sid)) ->
      forall sid, session_id_ok sid prefix = true -> keyed_get st' sid = Ok (if same_id sid id then None else g sid).
  Proof.
    intros hu hk h. destruct (record_erase _ _ _ _ _ hu h) as (hu' & e & ho & _). split; [exact hu'|].
    intros g hg sid hsid. destruct (sid_ok_key _ _ hsid) as [pk' ek']. pose proof (hg sid hsid) as hgs. unfold keyed_get in *. rewrite ek' in *. cbn [bind] in *.
    rewrite (same_id_key _ _ _ _ _ ek' hk). destruct (eqb pk' pk) eqn:eq.
    - apply eqb_eq in eq. subst pk'. unfold dict_at. rewrite e. reflexivity.
    - rewrite <- hgs. unfold dict_at. rewrite ho; [reflexivity|]. intros ->. rewrite eqb_refl in eq. discriminate.
  Qed.
End keyed.

Lemma member_cmd_spec B c st st' : usable st -> member_cmd_fits c -> run_member B c st = (Ok tt, st') ->
  usable st' /\ forall g, (forall sid, session_id_ok sid (b "05") = true -> members_get st sid = Ok (g sid)) ->
    forall sid, session_id_ok sid (b "05") = true -> members_get st' sid = Ok (after_member c g sid).
Proof.
  intros hu hf h. destruct c as [id m|id]; cbn [run_member] in h.
  - unfold members_set in h. destruct (session_id_to_bytes id (b "05")) as [pk| | | |] eqn:ek; try discriminate. destruct (member_named m) as [n1 n2].
    exact (keyed_set B (b "m") (b "05") load_member st st' id pk _ _ _ (kept_member m) hu (member_script_ok _ hf) ek n1 n2 (fun r a => load_member_script m r a hf) h).
  - unfold ignore, members_erase in h. destruct (session_id_to_bytes id (b "05")) as [pk| | | |] eqn:ek; try discriminate. cbv zeta in h.
    destruct (run B (OpErase [b "m"] pk) st) as [[[]| | | |] st1] eqn:e; try discriminate. cbn [fst snd] in h. assert (st1 = st') by congruence. subst st1.
    exact (keyed_erase B (b "m") (b "05") load_member st st' id pk hu ek e).
Qed.
Lemma member_cmds_spec B l : forall st st' g, usable st -> Forall member_cmd_fits l -> run_members B l st = (Ok tt, st') ->
  (forall sid, session_id_ok sid (b "05") = true -> members_get st sid = Ok (g sid)) ->
  forall sid, session_id_ok sid (b "05") = true -> members_get st' sid = Ok (fold_left (fun g m => after_member m g) l g sid).
Proof.
  induction l as [|m l IH]; intros st st' g hu hl h hg sid hs; cbn [run_members fold_left] in *; [injection h as <-; auto|].
  inversion hl as [|x y h1 h2]; subst. destruct (run_member B m st) as [[[]| | | |] st1] eqn:e; try discriminate.
  destruct (member_cmd_spec _ _ _ _ hu h1 e) as [hu1 hg1]. eapply IH; [exact hu1|exact h2|exact h| |exact hs]. intros s2 hs2. apply hg1; assumption.
Qed.
Lemma members_list_spec st l : usable st -> members_list st = Ok l ->
  ssorted (map fst l) /\ forall sid c, In (sid, c) l <-> make_lc sid = sid /\ members_get st sid = Ok (Some c).
Proof. intros hu h. apply (walk_get false (b "m") (b "05") load_member (s_data st) l (members_get st)); [reflexivity|apply hu|reflexivity|exact h]. Qed.

(** ** saving again what is saved already *)
Lemma value_eqb_refl v : value_eqb v v = true.
Proof. apply value_eqb_eq. reflexivity. Qed.
Lemma run_script_same B pre s st : is_dirty st = false -> script_ok s -> (forall k v, In (k, v) s -> field pre k (s_data st) = v) -> run_script B pre s st = (Ok tt, st).
Proof.
  intros hd. unfold run_script. induction s as [|[k v] s IH]; intros hs h; [reflexivity|]. inversion hs as [|x y h1 h2]; subst. cbn [map run_ops].
  assert (hk : field pre k (s_data st) = v) by (apply h; left; reflexivity).
  assert (e : run B (op_at pre (k, v)) st = (Ok tt, st)).
  { destruct v as [v|]; cbn [op_at snd fst run]; cbn [snd] in h1.
    - unfold assign_at. destruct h1 as [_ h1]. rewrite h1, hd, hk, value_eqb_refl. reflexivity.
    - unfold erase_at. rewrite hd, hk. reflexivity. }
  rewrite e. apply IH; [exact h2|]. intros k' v' hin. apply h. right. exact hin.
Qed.
Lemma pick_nodup s : NoDup (map fst s) -> forall k v a, In (k, v) s -> fold_left (pick k) s a = v.
Proof.
  induction s as [|[k' v'] s IH]; intros hn k v a hin; [contradiction|]. cbn [map] in hn. inversion hn as [|x y h1 h2]; subst. cbn [fold_left].
  destruct hin as [hin|hin].
  - injection hin as -> ->. unfold pick at 2. cbn [fst snd]. rewrite eqb_refl. cbn [fst] in h1. clear - h1. induction s as [|[k2 v2] s IH]; [reflexivity|]. cbn [fold_left]. unfold pick at 2. cbn [fst snd].
    destruct (eqb k2 k) eqn:e; [apply eqb_eq in e; subst; exfalso; apply h1; left; reflexivity|]. apply IH. intros hin. apply h1. right. exact hin.
  - apply IH; assumption.
Qed.
Lemma run_script_again B pre s st st1 st2 : usable st -> script_ok s -> NoDup (map fst s) -> run_script B pre s st = (Ok tt, st1) ->
  s_data st2 = s_data st1 -> is_dirty st2 = false -> run_script B pre s st2 = (Ok tt, st2).
Proof.
  intros hu hs hn h hd h2. apply run_script_spec in h as [e _]; [|exact hu|exact hs]. apply run_script_same; [exact h2|exact hs|].
  intros k v hin. rewrite hd, e. unfold field. rewrite script_field by (exact hs || apply hu). apply pick_nodup; assumption.
Qed.
Lemma contact_nodup c : NoDup (map fst (contact_script c)).
Proof.
  unfold contact_script, set_pic, set_pair_if. destruct (pic_set _), (match ct_mode c with ExpNone => false | _ => _ end);
    cbn; repeat constructor; cbn; intros h; repeat destruct h as [h|h]; try discriminate h; exact h.
Qed.
Lemma member_nodup c : NoDup (map fst (member_script c)).
Proof.
  unfold member_script, set_pic, set_pair_if. destruct (pic_set _); cbn; repeat constructor; cbn; intros h; repeat destruct h as [h|h]; try discriminate h; exact h.
Qed.
Lemma contacts_set_again B sid c st st1 st2 : usable st -> contact_fits c -> contacts_set B sid c st = (Ok tt, st1) -> s_data st2 = s_data st1 -> is_dirty st2 = false ->
  contacts_set B sid c st2 = (Ok tt, st2).
Proof.
  unfold contacts_set. intros hu hf. destruct (session_id_to_bytes sid (b "05")) as [pk| | | |]; try discriminate. intros h hd h2.
  exact (run_script_again _ _ _ _ _ _ hu (contact_script_ok _ hf) (contact_nodup c) h hd h2).
Qed.
Lemma members_set_again B sid c st st1 st2 : usable st -> member_fits c -> members_set B sid c st = (Ok tt, st1) -> s_data st2 = s_data st1 -> is_dirty st2 = false ->
  members_set B sid c st2 = (Ok tt, st2).
Proof.
  unfold members_set. intros hu hf. destruct (session_id_to_bytes sid (b "05")) as [pk| | | |]; try discriminate. intros h hd h2.
  exact (run_script_again _ _ _ _ _ _ hu (member_script_ok _ hf) (member_nodup c) h hd h2).
Qed.

(** ** statuses *)
Lemma status_act a m : status_of (act a m) = stat_act a (status_of m).
Proof.
  destruct m as [nm pc ad su i p r], a as [f| |f| |x]; try destruct f; try destruct x; unfold status_of, invite_pending, promotion_pending, promotion_failed; cbn; destruct ad; reflexivity.
Qed.
Lemma status_acts l : forall m, status_of (fold_left (fun m a => act a m) l m) = fold_left (fun s a => stat_act a s) l (status_of m).
Proof. induction l as [|a l IH]; intros m; cbn [fold_left]; [reflexivity|]. rewrite IH, status_act. reflexivity. Qed.
Lemma max_pos z : (0 <? Z.max 0 z)%Z = (0 <? z)%Z.
Proof. destruct (Z.ltb_spec 0 z); destruct (Z.ltb_spec 0 (Z.max 0 z)); lia. Qed.
Lemma max_two z : (Z.max 0 z =? 2)%Z = (z =? 2)%Z.
Proof. destruct (Z.eqb_spec z 2); destruct (Z.eqb_spec (Z.max 0 z) 2); lia. Qed.
Lemma status_kept m : status_of (kept_member m) = saved (status_of m).
Proof.
  destruct m as [nm pc ad su i p r]. unfold kept_member, status_of, invite_pending, promotion_pending, promotion_failed, is_removed, invite_failed, should_remove_messages, saved, REMOVED_MEMBER_AND_MESSAGES, INVITE_FAILED.
  cbn [mb_admin mb_invite mb_promotion mb_removed su_admin su_removed]. destruct ad; cbn [negb andb]; rewrite ?max_pos, ?max_two; reflexivity.
Qed.
Lemma member_statuses m l : status_of (kept_member (fold_left (fun m a => act a m) l m)) = saved (fold_left (fun s a => stat_act a s) l (status_of m)).
Proof. rewrite status_kept, status_acts. reflexivity. Qed.
Lemma one_or_two_id z : (0 <= z <= 2)%Z -> one_or_two z = z.
Proof. intros h. unfold one_or_two. destruct (Z.eqb_spec z 1); [reflexivity|]. destruct (Z.eqb_spec z 2); cbn [orb]; [reflexivity|lia]. Qed.
Lemma member_struct m o : fits 101 (mb_name m) = true -> fits 224 (pic_url (mb_pic m)) = true ->
  forallb (fun c => negb (Ascii.eqb c Ascii.zero)) (mb_name m) = true -> forallb (fun c => negb (Ascii.eqb c Ascii.zero)) (pic_url (mb_pic m)) = true ->
  kept_member m = m -> (mb_invite m <= 2)%Z -> (mb_promotion m <= 2)%Z -> (mb_removed m <= 2)%Z ->
  exists k, member_into m o = Ok k /\ member_of_c k = m.
Proof.
  intros f1 f3 n1 n3 hk i1 i2 i3. unfold member_into. rewrite f1, f3, orb_true_r. cbn [andb]. eexists. split; [reflexivity|].
  unfold member_of_c. cbn [cm_name cm_url cm_key cm_admin cm_invited cm_promoted cm_removed cm_supplement].
  rewrite (c_str_copy 101 (cm_name o) (mb_name m) [] f1 n1).
  assert (hp : (if is_nil (c_str (copy_c_str 224 (cm_url o) (if pic_set (mb_pic m) then pic_url (mb_pic m) else []) [])) then no_pic
     else mkPic (c_str (copy_c_str 224 (cm_url o) (if pic_set (mb_pic m) then pic_url (mb_pic m) else []) [])) (if pic_set (mb_pic m) then pic_key (mb_pic m) else cm_key o)) = mb_pic m).
  { assert (hkp : kept_pic (mb_pic m) = mb_pic m) by (rewrite <- hk at 2; destruct m; reflexivity). unfold kept_pic in hkp. destruct (pic_set (mb_pic m)) eqn:e.
    - rewrite c_str_copy by assumption. unfold pic_set in e. destruct (mb_pic m) as [u k]. cbn in *. destruct u; [discriminate|reflexivity].
    - rewrite c_str_copy by reflexivity. exact hkp. }
  rewrite hp. clear hp. destruct m as [nm pc ad su i p r]. cbn [mb_name mb_pic mb_admin mb_supplement mb_invite mb_promotion mb_removed] in *.
  unfold kept_member in hk. cbv zeta in hk. cbn [mb_name mb_pic mb_admin mb_supplement mb_invite mb_promotion mb_removed] in hk.
  assert (h1 : (if ad then 0%Z else Z.max 0 i) = i) by congruence. assert (h2 : (if ad then 0%Z else Z.max 0 p) = p) by congruence. assert (h3 : Z.max 0 r = r) by congruence.
  rewrite !one_or_two_id; [reflexivity|lia|destruct ad; lia|destruct ad; lia].
Qed.
