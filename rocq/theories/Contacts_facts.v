From Verif Require Import RecordsSpec Data_facts Fields_facts Base_facts Conf2_facts Maps Hex_facts Message_facts Records_facts.
From Coq Require Import Lia.

Lemma int64_of z : (int64_min <= z < 2 ^ 31)%Z -> int64_ok z = true.
Proof. unfold int64_ok, int64_min, int64_max. intros h. apply andb_true_intro. split; apply Z.leb_le; lia. Qed.
Lemma script_ok_app s t : script_ok s -> script_ok t -> script_ok (s ++ t).
Proof. unfold script_ok. intros h1 h2. apply Forall_app; auto. Qed.
Lemma script_ok_1 k v : match v with Some v => wf_v v = true /\ empty_container v = false | None => True end -> script_ok [(k, v)].
Proof. intros h. constructor; [exact h|constructor]. Qed.
Lemma script_ok_2 k v k' v' : match v with Some v => wf_v v = true /\ empty_container v = false | None => True end ->
  match v' with Some v => wf_v v = true /\ empty_container v = false | None => True end -> script_ok [(k, v); (k', v')].
Proof. intros h h'. constructor; [exact h|apply script_ok_1, h']. Qed.
Lemma ok_int k z c : int64_ok z = true -> script_ok [(k, if (c : bool) then Some (vint z) else None)].
Proof. intros h. apply script_ok_1. destruct c; [split; [exact h|reflexivity]|exact I]. Qed.
Lemma ok_str k s : script_ok (set_nonempty_str k s).
Proof. apply script_ok_1. destruct (is_nil s); [exact I|split; reflexivity]. Qed.
Lemma ok_pair c k v k' v' : wf_v v = true -> empty_container v = false -> wf_v v' = true -> empty_container v' = false -> script_ok (set_pair_if c k v k' v').
Proof. intros h1 h2 h3 h4. unfold set_pair_if. destruct c; apply script_ok_2; auto. Qed.
Lemma ok_pic p : script_ok (set_pic p).
Proof. apply ok_pair; reflexivity. Qed.
Lemma contact_script_ok c : contact_fits c -> script_ok (contact_script c).
Proof.
  intros (h1 & h2 & h3 & h4). unfold contact_script. repeat apply script_ok_app.
  - apply script_ok_1. split; reflexivity.
  - apply ok_str.
  - apply ok_pic.
  - apply ok_int. reflexivity.
  - apply ok_int. reflexivity.
  - apply ok_int. reflexivity.
  - apply ok_int, int32_int64, h1.
  - apply ok_int. destruct (ct_notify c); reflexivity.
  - apply ok_int, h2.
  - apply ok_pair; try reflexivity; [destruct (ct_mode c); reflexivity|apply int64_of, h4].
  - apply ok_int, h3.
Qed.
Lemma trunc_nil n s : is_nil (trunc n s) = true -> trunc n s = [].
Proof. destruct (trunc n s); [reflexivity|discriminate]. Qed.
Lemma load_set_pic (d : dict) p : lookup (b "p") d = (if pic_set p then Some (vstr (pic_url p)) else None) ->
  lookup (b "q") d = (if pic_set p then Some (vstr (pic_key p)) else None) -> load_pic d = kept_pic p.
Proof.
  intros h1 h2. unfold load_pic, maybe_str, as_str, kept_pic. rewrite h1, h2. destruct (pic_set p) eqn:e; [|reflexivity].
  destruct p as [u k]. cbn in *. rewrite e. reflexivity.
Qed.
Lemma to_int32_pos z : (int64_min <= z < 2 ^ 31)%Z -> (0 <? z)%Z = true -> to_int32 z = z.
Proof. intros h h'. apply Z.ltb_lt in h'. apply to_int32_id. unfold int32_ok. lia. Qed.

Ltac written hr := rewrite hr; unfold contact_script, set_pic, set_pair_if; destruct (pic_set _), (match ct_mode _ with ExpNone => false | _ => _ end); reflexivity.
(** what a dict written by set reads as *)
Lemma load_contact_script c (r : dict) a : contact_fits c -> (forall k, lookup k r = fold_left (pick k) (contact_script c) (a k)) -> load_contact r = kept_contact c.
Proof.
  intros (h1 & h2 & h3 & h4) hr. unfold load_contact, kept_contact. unfold maybe_str, maybe_int.
  assert (gn : lookup (b "n") r = Some (vstr (firstn 100 (ct_name c)))) by written hr.
  assert (gN : lookup (b "N") r = if is_nil (firstn 100 (ct_nick c)) then None else Some (vstr (firstn 100 (ct_nick c)))) by written hr.
  assert (gp : lookup (b "p") r = if pic_set (ct_pic c) then Some (vstr (pic_url (ct_pic c))) else None) by written hr.
  assert (gq : lookup (b "q") r = if pic_set (ct_pic c) then Some (vstr (pic_key (ct_pic c))) else None) by written hr.
  assert (ga : lookup (b "a") r = if ct_approved c then Some (vint 1) else None) by written hr.
  assert (gA : lookup (b "A") r = if ct_approved_me c then Some (vint 1) else None) by written hr.
  assert (gb : lookup (b "b") r = if ct_blocked c then Some (vint 1) else None) by written hr.
  assert (gpr : lookup (b "+") r = if negb (ct_priority c =? 0)%Z then Some (vint (ct_priority c)) else None) by written hr.
  assert (gno : lookup (b "@") r = if (0 <? notify_no (dm_notify (ct_notify c)))%Z then Some (vint (notify_no (dm_notify (ct_notify c)))) else None) by written hr.
  assert (gm : lookup (b "!") r = if (0 <? ct_mute c)%Z then Some (vint (ct_mute c)) else None) by written hr.
  assert (gj : lookup (b "j") r = if (0 <? ct_created c)%Z then Some (vint (ct_created c)) else None) by written hr.
  assert (ge : lookup (b "e") r = if match ct_mode c with ExpNone => false | _ => (0 <? ct_timer c)%Z end then Some (vint (exp_no (ct_mode c))) else None) by written hr.
  assert (gE : lookup (b "E") r = if match ct_mode c with ExpNone => false | _ => (0 <? ct_timer c)%Z end then Some (vint (ct_timer c)) else None) by written hr.
  clear hr. rewrite (load_set_pic r (ct_pic c) gp gq). unfold load_expiry, maybe_int. rewrite gn, gN, ga, gA, gb, gpr, gno, gm, gj, ge, gE. cbv zeta. f_equal.
  - destruct (firstn 100 (ct_nick c)); reflexivity.
  - destruct (ct_approved c); reflexivity.
  - destruct (ct_approved_me c); reflexivity.
  - destruct (ct_blocked c); reflexivity.
  - destruct (ct_priority c =? 0)%Z eqn:e; cbn [negb as_int or_else vint].
    + apply Z.eqb_eq in e. rewrite e. reflexivity.
    + apply to_int32_id, h1.
  - destruct (ct_notify c); reflexivity.
  - destruct (0 <? ct_mute c)%Z eqn:e; cbn [as_int or_else vint]; [apply Z.ltb_lt in e|apply Z.ltb_ge in e]; lia.
  - destruct (ct_mode c) eqn:em; [reflexivity| |]; (destruct (0 <? ct_timer c)%Z eqn:e; [|reflexivity]); cbn [as_int or_else vint exp_no].
    + change (load_exp (to_int32 1)) with ExpSend. cbv iota. rewrite to_int32_pos by assumption. apply Z.ltb_lt in e. destruct (Z.leb_spec (ct_timer c) 0); [lia|reflexivity].
    + change (load_exp (to_int32 2)) with ExpRead. cbv iota. rewrite to_int32_pos by assumption. apply Z.ltb_lt in e. destruct (Z.leb_spec (ct_timer c) 0); [lia|reflexivity].
  - destruct (ct_mode c) eqn:em; [reflexivity| |]; (destruct (0 <? ct_timer c)%Z eqn:e; [|reflexivity]); cbn [as_int or_else vint exp_no].
    + change (load_exp (to_int32 1)) with ExpSend. cbv iota. rewrite to_int32_pos by assumption. apply Z.ltb_lt in e. destruct (Z.leb_spec (ct_timer c) 0); [lia|reflexivity].
    + change (load_exp (to_int32 2)) with ExpRead. cbv iota. rewrite to_int32_pos by assumption. apply Z.ltb_lt in e. destruct (Z.leb_spec (ct_timer c) 0); [lia|reflexivity].
  - destruct (0 <? ct_created c)%Z eqn:e; cbn [as_int or_else vint]; [apply Z.ltb_lt in e|apply Z.ltb_ge in e]; lia.
Qed.
Lemma same_id_key pr x y p q : session_id_to_bytes x pr = Ok p -> session_id_to_bytes y pr = Ok q -> same_id x y = eqb p q.
Proof. intros h1 h2. apply sid_key in h1 as [h1 _], h2 as [h2 _]. unfold same_id. rewrite h1, h2. reflexivity. Qed.
Lemma contact_named c : fold_left (pick (b "n")) (contact_script c) None = Some (vstr (trunc MAX_NAME_LENGTH (ct_name c))) /\
  forall a, fold_left (pick (b "n")) (contact_script c) a = fold_left (pick (b "n")) (contact_script c) None.
Proof.
  unfold contact_script, set_pic, set_pair_if. destruct (pic_set _), (match ct_mode _ with ExpNone => false | _ => _ end); split; reflexivity.
Qed.
Lemma contacts_set_spec B sid c st st' pk : usable st -> contact_fits c -> session_id_to_bytes sid (b "05") = Ok pk -> contacts_set B sid c st = (Ok tt, st') ->
  usable st' /\ (exists r, dict_at [b "c"] pk (s_data st') = Some r /\ load_contact r = kept_contact c) /\
  forall pk', pk' <> pk -> field [b "c"] pk' (s_data st') = field [b "c"] pk' (s_data st).
Proof.
  intros hu hf hk h. unfold contacts_set in h. rewrite hk in h. pose proof (contact_script_ok _ hf) as hs.
  apply run_script_spec in h as [hd hu']; [|exact hu|exact hs]. split; [exact hu'|]. rewrite hd. change [b "c"; pk] with ([b "c"] ++ [pk]).
  split; [|intros pk' hne; apply script_sibling; [exact hs|apply hu|exact hne]].
  destruct (contact_named c) as [n1 n2]. destruct (script_dict [b "c"] pk _ _ _ _ hs (proj1 hu) n1 n2) as (r & e & hr).
  exists r. split; [exact e|]. exact (load_contact_script _ _ _ hf hr).
Qed.
Lemma contacts_erase_spec B sid x st st' pk : usable st -> session_id_to_bytes sid (b "05") = Ok pk -> contacts_erase B sid st = (Ok x, st') ->
  usable st' /\ field [b "c"] pk (s_data st') = None /\ (forall pk', pk' <> pk -> field [b "c"] pk' (s_data st') = field [b "c"] pk' (s_data st)) /\
  x = match field [b "c"] pk (s_data st) with Some _ => true | None => false end.
Proof.
  intros hu hk h. unfold contacts_erase in h. rewrite hk in h. destruct (run B (OpErase [b "c"] pk) st) as [[[]| | | |] st1] eqn:e; try discriminate.
  injection h as <- <-. assert (hw : writes (OpErase [b "c"] pk)) by (split; [reflexivity|exact I]).
  destruct (run_usable _ _ _ _ hu hw e) as [hd hu']. split; [exact hu'|]. rewrite hd. split; [|split; [|reflexivity]].
  - change (field [b "c"] pk) with (get_path (edit_path (OpErase [b "c"] pk))). rewrite edited_read by (apply hu || reflexivity). reflexivity.
  - intros pk' hne. apply edited_other; [reflexivity|apply hu|]. apply (apart_diff [b "c"]), hne.
Qed.
Lemma load_contact_fits r : wf r = true -> contact_fits (load_contact r).
Proof.
  intros hw. assert (hi : forall k, int64_ok (or_else (maybe_int r k) 0%Z) = true).
  { intros k. unfold maybe_int. destruct (lookup k r) as [v|] eqn:e; [|reflexivity]. pose proof (wf_lookup _ _ _ hw e) as h. destruct v as [[z|]| |]; try reflexivity. exact h. }
  assert (h32 : forall z, (- 2 ^ 31 <= to_int32 z < 2 ^ 31)%Z).
  { intros z. unfold to_int32. pose proof (Z.mod_pos_bound (z + 2 ^ 31) (2 ^ 32) ltac:(lia)). lia. }
  split; [apply h32|]. split; [apply hi|]. split; [apply hi|]. cbn [load_contact ct_timer]. unfold load_expiry, int64_min.
  assert (h0 : (- 2 ^ 63 <= 0 < 2 ^ 31)%Z) by lia.
  destruct (load_exp _); cbv zeta; cbn [snd]; [exact h0| |]; (destruct (_ <=? 0)%Z; cbn [snd]; [exact h0|]); specialize (h32 (or_else (maybe_int r (b "E")) 0%Z)); lia.
Qed.
Lemma change_fits h c c' : contact_fits c -> contact_cmd_fits (CtChange [] h) -> change_contact h c = Ok c' -> contact_fits c'.
Proof.
  intros (h1 & h2 & h3 & h4) hc e. destruct c. unfold contact_fits in *. destruct h; cbn in *; repeat match type of e with (if ?x then _ else _) = _ => destruct x; [discriminate|] end;
    injection e as <-; cbn; auto.
  split; [auto|]. split; [auto|]. split; [auto|]. destruct m; [unfold int64_min; lia| |]; exact hc.
Qed.
Lemma get_fits st sid c : usable st -> contacts_get st sid = Ok (Some c) -> contact_fits c.
Proof.
  intros [hw _] h. unfold contacts_get in h. destruct (session_id_to_bytes sid (b "05")) as [pk| | | |]; try discriminate. cbn [bind] in h.
  destruct (dict_at [b "c"] pk (s_data st)) as [r|] eqn:e; [|discriminate]. assert (c = load_contact r) by congruence. subst c. apply load_contact_fits. unfold dict_at in e.
  destruct (field [b "c"] pk (s_data st)) as [[| |r']|] eqn:e2; try discriminate. assert (r' = r) by congruence. subst r'.
  exact (field_wf _ _ _ _ hw e2).
Qed.
Lemma new_fits : contact_fits new_contact.
Proof. unfold contact_fits, int32_ok. cbn. repeat split; try reflexivity; unfold int64_min; lia. Qed.

Lemma change_changed h c c' : change_contact h c = Ok c' -> c' = changed h c.
Proof. destruct c. destruct h; cbn [change_contact]; try (destruct (Nat.ltb _ _); [discriminate|]); intros e; injection e as <-; reflexivity. Qed.
(** one command *)
Lemma contact_cmd_spec B m st st' : usable st -> contact_cmd_fits m -> run_contact B m st = (Ok tt, st') ->
  usable st' /\ forall g, (forall sid, session_id_ok sid (b "05") = true -> contacts_get st sid = Ok (g sid)) ->
    forall sid, session_id_ok sid (b "05") = true -> contacts_get st' sid = Ok (after_contact m g sid).
Proof.
  intros hu hf h.
  assert (hok : forall sid, session_id_ok sid (b "05") = true -> exists pk, session_id_to_bytes sid (b "05") = Ok pk).
  { intros sid hs. unfold session_id_to_bytes. rewrite hs. apply andb_prop in hs as [hs _]. apply andb_prop in hs as [_ hs]. unfold is_hex in hs. destruct (from_hex sid); [eexists; reflexivity|discriminate]. }
  assert (hget : forall s sid pk, session_id_to_bytes sid (b "05") = Ok pk -> contacts_get s sid = Ok match dict_at [b "c"] pk (s_data s) with Some d => Some (load_contact d) | None => None end).
  { intros s sid pk e. unfold contacts_get. rewrite e. reflexivity. }
  assert (hset : forall id c st1, contact_fits c -> contacts_set B id c st = (Ok tt, st1) ->
    usable st1 /\ forall g, (forall sid, session_id_ok sid (b "05") = true -> contacts_get st sid = Ok (g sid)) ->
    forall sid, session_id_ok sid (b "05") = true -> contacts_get st1 sid = Ok (if same_id sid id then Some (kept_contact c) else g sid)).
  { intros id c st1 hfc hs. destruct (session_id_to_bytes id (b "05")) as [pk| | | |] eqn:ek; try (unfold contacts_set in hs; rewrite ek in hs; discriminate).
    destruct (contacts_set_spec _ _ _ _ _ _ hu hfc ek hs) as (hu1 & (r & e1 & e2) & ho). split; [exact hu1|]. intros g hg sid hsid.
    destruct (hok sid hsid) as [pk' ek']. rewrite (hget _ _ _ ek'), (same_id_key _ _ _ _ _ ek' ek). destruct (eqb pk' pk) eqn:eq.
    - apply eqb_eq in eq. subst pk'. rewrite e1, e2. reflexivity.
    - rewrite <- hg, (hget _ _ _ ek') by exact hsid. unfold dict_at. rewrite ho; [reflexivity|]. intros ->. rewrite eqb_refl in eq. discriminate. }
  destruct m as [id c|id ch|id]; cbn [run_contact] in h.
  - destruct (hset id c st' hf h) as [h1 h2]. split; [exact h1|]. intros g hg sid hs. cbn [after_contact]. apply h2; assumption.
  - unfold contacts_change, contacts_get_or_construct in h. destruct (session_id_to_bytes id (b "05")) as [pk| | | |] eqn:ek;
      try (unfold contacts_get in h; rewrite ek in h; discriminate). rewrite (hget _ _ _ ek) in h. cbn [bind] in h.
    set (c0 := or_else _ new_contact) in h. assert (hc0 : contact_fits c0).
    { unfold c0. destruct (dict_at _ _ _) eqn:e; [|apply new_fits]. cbn. apply (get_fits st id); [exact hu|]. rewrite (hget _ _ _ ek), e. reflexivity. }
    destruct (change_contact ch c0) as [c'| | | |] eqn:ec; try discriminate.
    assert (hf' : contact_cmd_fits (CtChange [] ch)) by (destruct ch; exact hf).
    destruct (hset id c' st' (change_fits _ _ _ hc0 hf' ec) h) as [h1 h2]. split; [exact h1|]. intros g hg sid hs. cbn [after_contact].
    assert (hid : session_id_ok id (b "05") = true) by (unfold session_id_to_bytes in ek; destruct (session_id_ok id (b "05")); [reflexivity|discriminate]).
    assert (eg : match g id with Some c => c | None => new_contact end = c0).
    { pose proof (hg id hid) as e. rewrite (hget _ _ _ ek) in e. injection e as e. rewrite <- e. reflexivity. }
    rewrite eg, <- (change_changed _ _ _ ec). apply h2; assumption.
  - unfold ignore in h. destruct (contacts_erase B id st) as [x st1] eqn:e. cbn [fst snd] in h. destruct x as [x| | | |]; try discriminate. injection h as <-.
    destruct (session_id_to_bytes id (b "05")) as [pk| | | |] eqn:ek; try (unfold contacts_erase in e; rewrite ek in e; discriminate).
    destruct (contacts_erase_spec _ _ _ _ _ _ hu ek e) as (hu1 & e1 & ho & _). split; [exact hu1|]. intros g hg sid hs. cbn [after_contact].
    destruct (hok sid hs) as [pk' ek']. rewrite (hget _ _ _ ek'), (same_id_key _ _ _ _ _ ek' ek). destruct (eqb pk' pk) eqn:eq.
    + apply eqb_eq in eq. subst pk'. unfold dict_at. rewrite e1. reflexivity.
    + rewrite <- hg, (hget _ _ _ ek') by exact hs. unfold dict_at. rewrite ho; [reflexivity|]. intros ->. rewrite eqb_refl in eq. discriminate.
Qed.
Lemma contact_cmds_spec B l : forall st st' g, usable st -> Forall contact_cmd_fits l -> run_contacts B l st = (Ok tt, st') ->
  (forall sid, session_id_ok sid (b "05") = true -> contacts_get st sid = Ok (g sid)) ->
  forall sid, session_id_ok sid (b "05") = true -> contacts_get st' sid = Ok (fold_left (fun g m => after_contact m g) l g sid).
Proof.
  induction l as [|m l IH]; intros st st' g hu hl h hg sid hs; cbn [run_contacts fold_left] in *; [injection h as <-; auto|].
  inversion hl as [|x y h1 h2]; subst. destruct (run_contact B m st) as [[[]| | | |] st1] eqn:e; try discriminate.
  destruct (contact_cmd_spec _ _ _ _ hu h1 e) as [hu1 hg1]. eapply IH; [exact hu1|exact h2|exact h| |exact hs]. intros s2 hs2. apply hg1; assumption.
Qed.

(** ** iteration *)
Lemma collection_entries top d (c : dict) k : dict_at [] top d = Some c -> field [top] k d = lookup k c.
Proof. unfold dict_at, field. cbn [app get_path]. destruct (lookup top d) as [[| |x]|]; try discriminate. intros h. injection h as ->. reflexivity. Qed.
Lemma collection_none top d k : dict_at [] top d = None -> field [top] k d = None.
Proof. unfold dict_at, field. cbn [app get_path]. destruct (lookup top d) as [[| |x]|]; try reflexivity. discriminate. Qed.
Lemma collection_wf top d (c : dict) : wf d = true -> dict_at [] top d = Some c -> wf c = true.
Proof. unfold dict_at, field. cbn [app get_path]. intros hw. destruct (lookup top d) as [[| |x]|] eqn:e; try discriminate. intros h. injection h as ->. exact (wf_lookup _ _ _ hw e). Qed.
(** what an iterator visits is what get finds *)
Lemma walk_get {A} skips top prefix (load : dict -> A) (d : dict) l (get : bytes -> outcome (option A)) : length prefix = 2 -> wf d = true ->
  (forall sid, get sid = (pk <- session_id_to_bytes sid prefix ;; Ok match dict_at [top] pk d with Some r => Some (load r) | None => None end)) ->
  match dict_at [] top d with Some c => walk_ids skips prefix load c | None => Ok [] end = Ok l ->
  ssorted (map fst l) /\ forall sid a, In (sid, a) l <-> make_lc sid = sid /\ get sid = Ok (Some a).
Proof.
  intros hp hw hg h.
  assert (hex : forall sid a, (make_lc sid = sid /\ get sid = Ok (Some a)) <->
    exists k info, field [top] k d = Some (VDict info) /\ length k = 33 /\ session_id_ok (to_hex k) prefix = true /\ sid = to_hex k /\ a = load info).
  { intros sid a. rewrite hg. split.
    - intros [hlc h1]. destruct (session_id_to_bytes sid prefix) as [pk| | | |] eqn:ek; try discriminate. cbn [bind] in h1. unfold dict_at in h1.
      destruct (field [top] pk d) as [[| |r]|] eqn:e; try discriminate. pose proof (sid_length _ _ _ hp ek) as hl. apply sid_key in ek as [e1 e2].
      apply to_from_hex in e1. rewrite hlc in e1. exists pk, r. rewrite e1. repeat split; auto. congruence.
    - intros (k & info & h1 & h2 & h3 & -> & ->). rewrite (sid_to_bytes_hex _ _ h3). cbn [bind]. unfold dict_at. rewrite h1. split; [|reflexivity].
      pose proof (to_from_hex (to_hex k) k (from_to_hex k)). congruence. }
  destruct (dict_at [] top d) as [c|] eqn:ec.
  - apply walk_ids_spec in h as [h1 h2]; [|exact (collection_wf _ _ _ hw ec)]. split; [exact h1|]. intros sid a. rewrite h2, hex.
    split; intros (k & info & g); exists k, info; rewrite (collection_entries _ _ _ k ec) in *; exact g.
  - injection h as <-. split; [constructor|]. intros sid a. rewrite hex. split; [intros []|]. intros (k & info & g & _). rewrite (collection_none _ _ k ec) in g. discriminate.
Qed.
Lemma contacts_list_spec st l : usable st -> contacts_list st = Ok l ->
  ssorted (map fst l) /\ forall sid c, In (sid, c) l <-> make_lc sid = sid /\ contacts_get st sid = Ok (Some c).
Proof. intros hu h. apply (walk_get false (b "c") (b "05") load_contact (s_data st) l (contacts_get st)); [reflexivity|apply hu|reflexivity|exact h]. Qed.
Lemma collection_total {A} skips top prefix (load : dict -> A) (d : dict) : wf d = true ->
  (skips = false -> forall k info, field [top] k d = Some (VDict info) -> length k = 33 -> session_id_ok (to_hex k) prefix = true) ->
  exists l, match dict_at [] top d with Some c => walk_ids skips prefix load c | None => Ok [] end = Ok l.
Proof.
  intros hw h. destruct (dict_at [] top d) as [c|] eqn:ec; [|eexists; reflexivity]. apply walk_ids_total. intros hs k info hin.
  apply (h hs k info). rewrite (collection_entries _ _ _ k ec). apply In_lookup; [|exact hin]. apply wf_sorted. exact (collection_wf _ _ _ hw ec).
Qed.

(** ** the C structs *)
Lemma c_str_app s : forallb (fun c => negb (Ascii.eqb c Ascii.zero)) s = true -> forall t, c_str (s ++ Ascii.zero :: t) = s.
Proof.
  induction s as [|c s IH]; intros h t; cbn [app c_str forallb] in *; [reflexivity|]. apply andb_prop in h as [h1 h2]. apply negb_true_iff in h1. rewrite h1, IH by exact h2. reflexivity.
Qed.
Lemma c_str_copy n mem s past : fits n s = true -> forallb (fun c => negb (Ascii.eqb c Ascii.zero)) s = true -> c_str (copy_c_str n mem s past) = s.
Proof. unfold fits, copy_c_str, copied. intros h1 h2. rewrite h1. cbn [app]. apply c_str_app, h2. Qed.
Lemma contact_struct c o : fits 101 (ct_name c) = true -> fits 101 (ct_nick c) = true -> fits 224 (pic_url (ct_pic c)) = true ->
  forallb (fun c => negb (Ascii.eqb c Ascii.zero)) (ct_name c) = true -> forallb (fun c => negb (Ascii.eqb c Ascii.zero)) (ct_nick c) = true ->
  forallb (fun c => negb (Ascii.eqb c Ascii.zero)) (pic_url (ct_pic c)) = true ->
  kept_contact c = c -> contact_fits c -> ct_mute c = 0%Z -> exists k, contact_into c o = Ok k /\ contact_of_c k = c.
Proof.
  intros f1 f2 f3 n1 n2 n3 hk hf hm. unfold contact_into. rewrite f1, f2, f3, orb_true_r. cbn [andb]. eexists. split; [reflexivity|].
  destruct hf as (p1 & _ & _ & p4). unfold contact_of_c. cbv zeta. cbn [cc_name cc_nick cc_url cc_key cc_approved cc_approved_me cc_blocked cc_priority cc_notify cc_mode cc_seconds cc_created].
  rewrite (c_str_copy 101 (cc_name o) (ct_name c) [] f1 n1), (c_str_copy 101 (cc_nick o) (ct_nick c) [] f2 n2).
  assert (hp : (if is_nil (c_str (copy_c_str 224 (cc_url o) (if pic_set (ct_pic c) then pic_url (ct_pic c) else []) [])) then no_pic
     else mkPic (c_str (copy_c_str 224 (cc_url o) (if pic_set (ct_pic c) then pic_url (ct_pic c) else []) [])) (if pic_set (ct_pic c) then pic_key (ct_pic c) else cc_key o)) = ct_pic c).
  { assert (hkp : kept_pic (ct_pic c) = ct_pic c) by (rewrite <- hk at 2; destruct c; reflexivity). unfold kept_pic in hkp. destruct (pic_set (ct_pic c)) eqn:e.
    - rewrite c_str_copy by assumption. unfold pic_set in e. destruct (ct_pic c) as [u k]. cbn in *. destruct u; [discriminate|reflexivity].
    - rewrite c_str_copy by reflexivity. exact hkp. }
  rewrite hp. clear hp. destruct c as [nm nk pc ap am bl pr nt mu md tm cr]. cbn [ct_name ct_nick ct_pic ct_approved ct_approved_me ct_blocked ct_priority ct_notify ct_mute ct_mode ct_timer ct_created] in *.
  unfold kept_contact in hk. cbv zeta in hk. cbn [ct_mode ct_timer] in hk. injection hk as _ _ _ _ _ h1 h2 _. subst mu.
  destruct md.
  - subst tm. change (to_int32 0) with 0%Z. reflexivity.
  - destruct (0 <? tm)%Z eqn:e; [|discriminate]. rewrite to_int32_pos by assumption. apply Z.ltb_lt in e. destruct (Z.leb_spec tm 0); [lia|]. cbv iota. destruct (Z.leb_spec tm 0); [lia|reflexivity].
  - destruct (0 <? tm)%Z eqn:e; [|discriminate]. rewrite to_int32_pos by assumption. apply Z.ltb_lt in e. destruct (Z.leb_spec tm 0); [lia|]. cbv iota. destruct (Z.leb_spec tm 0); [lia|reflexivity].
Qed.

Lemma contact_script_wf c : int64_ok (ct_priority c) = true -> int64_ok (ct_mute c) = true -> int64_ok (ct_timer c) = true -> int64_ok (ct_created c) = true -> script_ok (contact_script c).
Proof.
  intros h1 h2 h3 h4. unfold contact_script. repeat apply script_ok_app.
  - apply script_ok_1. split; reflexivity.
  - apply ok_str.
  - apply ok_pic.
  - apply (ok_int (b "a") 1). reflexivity.
  - apply (ok_int (b "A") 1). reflexivity.
  - apply (ok_int (b "b") 1). reflexivity.
  - apply ok_int. exact h1.
  - apply ok_int. destruct (ct_notify c); reflexivity.
  - apply ok_int. exact h2.
  - apply ok_pair; try reflexivity; [destruct (ct_mode c); reflexivity|exact h3].
  - apply ok_int. exact h4.
Qed.
Lemma five_ok r : length r = 32 -> session_id_ok (to_hex (ascii_of_N 5 :: r)) (b "05") = true.
Proof.
  intros h. unfold session_id_ok. rewrite to_hex_length. cbn [length]. rewrite h. unfold is_hex. rewrite from_to_hex. reflexivity.
Qed.
Lemma nth_error_skipn {A} n : forall (l : list A) i, nth_error (skipn n l) i = nth_error l (n + i).
Proof. induction n as [|n IH]; intros [|x l] i; cbn [skipn Nat.add nth_error]; try reflexivity; [destruct i; reflexivity|apply IH]. Qed.
Lemma copy_in_bounds n mem src past : length src < n -> n <= length mem ->
  length (copy_c_str n mem src past) = length mem /\ firstn (length src) (copy_c_str n mem src past) = src /\
  nth_error (copy_c_str n mem src past) (length src) = Some Ascii.zero /\
  forall i, length src < i -> nth_error (copy_c_str n mem src past) i = nth_error mem i.
Proof.
  intros h1 h2. unfold copy_c_str, copied. apply Nat.ltb_lt in h1 as e. rewrite e. cbv zeta. repeat split.
  - rewrite !app_length, skipn_length. cbn [length]. lia.
  - rewrite firstn_app, firstn_all, Nat.sub_diag. apply app_nil_r.
  - rewrite nth_error_app2, Nat.sub_diag by lia. reflexivity.
  - intros i hi. rewrite nth_error_app2 by lia. rewrite nth_error_app2 by (cbn [length]; lia). rewrite nth_error_skipn. f_equal. cbn [length]. lia.
Qed.
