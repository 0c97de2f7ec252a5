From Verif Require Import RecordsSpec Data_facts Fields_facts Base_facts Conf2_facts Maps Message_facts Records_facts Contacts_facts Members_facts.
From Coq Require Import Lia.

Lemma top_field B s st st' : usable st -> script_ok s -> run_script B [] s st = (Ok tt, st') ->
  usable st' /\ forall k, field [] k (s_data st') = fold_left (pick k) s (field [] k (s_data st)).
Proof.
  intros hu hs h. apply run_script_spec in h as [e hu']; [|exact hu|exact hs]. split; [exact hu'|]. intros k. rewrite e. exact (script_field [] s k hs _ (proj1 hu)).
Qed.
Lemma nonempty_read s : match as_str (if is_nil s then None else Some (vstr s)) with Some [] => None | o => o end = nonempty s.
Proof. destruct s; reflexivity. Qed.
Lemma positive_read64 z : as_int (if (0 <? z)%Z then Some (vint z) else None) = if_positive z.
Proof. unfold if_positive. destruct (0 <? z)%Z; reflexivity. Qed.
Lemma pic_read p : mkPic (or_else (match as_str (if pic_set p then Some (vstr (pic_url p)) else None) with Some [] => None | o => o end) [])
    (match as_str (if pic_set p then Some (vstr (pic_key p)) else None) with Some k => if Nat.eqb (length k) 32 then k else [] | None => [] end) = kept_pic p.
Proof.
  unfold kept_pic. destruct (pic_set p) eqn:e; [|reflexivity]. unfold pic_set in e. apply andb_prop in e as [e1 e2]. destruct p as [u k]. cbn in *. rewrite e2.
  destruct u; [discriminate|reflexivity].
Qed.
Lemma profile_cmd_spec B c st st' : usable st -> profile_cmd_fits c -> run_profile B c st = (Ok tt, st') -> usable st' /\ see_profile st' = after_profile c (see_profile st).
Proof.
  intros hu hf h. unfold run_profile in h. apply top_field in h; [|exact hu|].
  2:{ destruct c as [s|p|z|z|[x|]]; [apply ok_str|apply ok_pic|apply ok_int, int32_int64, hf|apply ok_int, hf| |]; apply script_ok_1; [destruct x; split; reflexivity|exact I]. }
  destruct h as [hu' hk]. split; [exact hu'|]. unfold see_profile, after_profile, get_name, get_nts_priority, get_nts_expiry, get_blinded, top_pic, top_name, top_str, top_int.
  rewrite !hk. clear hk. destruct c as [s|p|z|z|o].
  - cbn [set_nonempty_str fold_left]. unfold pick at 1. cbn [fst snd]. rewrite eqb_refl. rewrite nonempty_read. reflexivity.
  - rewrite <- (pic_read p). unfold set_pic, set_pair_if. destruct (pic_set p); reflexivity.
  - cbn [set_nonzero_int fold_left]. unfold pick at 4. cbn [fst snd]. rewrite eqb_refl.
    replace (to_int32 (or_else (as_int (if negb (z =? 0)%Z then Some (vint z) else None)) 0%Z)) with z; [reflexivity|].
    destruct (Z.eqb_spec z 0) as [->|hz]; cbn; [reflexivity|]. symmetry. apply to_int32_id, hf.
  - cbn [set_positive_int fold_left]. unfold pick at 5. cbn [fst snd]. rewrite eqb_refl, positive_read64. unfold if_positive.
    destruct (0 <? z)%Z eqn:e; cbn; rewrite ?e; reflexivity.
  - destruct o as [[|]|]; reflexivity.
Qed.
Lemma profile_cmds_spec B l : forall st st', usable st -> Forall profile_cmd_fits l -> run_profiles B l st = (Ok tt, st') ->
  see_profile st' = fold_left (fun p c => after_profile c p) l (see_profile st).
Proof.
  induction l as [|m l IH]; intros st st' hu hl h; cbn [run_profiles fold_left] in *; [injection h as <-; auto|].
  inversion hl as [|x y h1 h2]; subst. destruct (run_profile B m st) as [[[]| | | |] st1] eqn:e; try discriminate.
  destruct (profile_cmd_spec _ _ _ _ hu h1 e) as [hu1 e1]. rewrite <- e1. apply IH; assumption.
Qed.
Lemma cut n (s : bytes) : (if Nat.ltb n (length s) then trunc n s else s) = firstn n s.
Proof. unfold trunc. destruct (Nat.ltb_spec n (length s)); [reflexivity|]. symmetry. apply firstn_all2. lia. Qed.
Lemma info_cmd_spec B c st st' : usable st -> info_cmd_fits c -> run_info B c st = (Ok tt, st') -> usable st' /\ see_info st' = after_info c (see_info st).
Proof.
  intros hu hf h. unfold run_info in h. apply top_field in h; [|exact hu|].
  2:{ destruct c; try apply ok_str; try apply ok_pic; apply ok_int; try exact hf. reflexivity. }
  destruct h as [hu' hk]. split; [exact hu'|].
  unfold see_info, after_info, get_name, get_description, get_expiry_timer, get_created, get_delete_before, get_delete_attach_before, is_destroyed, top_pic, top_name, top_str, top_int.
  rewrite !hk. clear hk. destruct c as [s|s|p|z|z|z|z|].
  - rewrite cut, <- nonempty_read. reflexivity.
  - rewrite cut, <- nonempty_read. reflexivity.
  - rewrite <- (pic_read p). unfold set_pic, set_pair_if. destruct (pic_set p); reflexivity.
  - rewrite <- positive_read64. reflexivity.
  - rewrite <- positive_read64. reflexivity.
  - rewrite <- positive_read64. reflexivity.
  - rewrite <- positive_read64. reflexivity.
  - reflexivity.
Qed.
Lemma info_cmds_spec B l : forall st st', usable st -> Forall info_cmd_fits l -> run_infos B l st = (Ok tt, st') ->
  see_info st' = fold_left (fun p c => after_info c p) l (see_info st).
Proof.
  induction l as [|m l IH]; intros st st' hu hl h; cbn [run_infos fold_left] in *; [injection h as <-; auto|].
  inversion hl as [|x y h1 h2]; subst. destruct (run_info B m st) as [[[]| | | |] st1] eqn:e; try discriminate.
  destruct (info_cmd_spec _ _ _ _ hu h1 e) as [hu1 e1]. rewrite <- e1. apply IH; assumption.
Qed.
