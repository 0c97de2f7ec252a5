(** Lemmas for C46 and C108. *)
From Verif Require Import SubSpec Hex_facts Community_facts Records_facts Pubkey_facts Keys6_facts.

Lemma app_inj_length {A} (x : list A) : forall x' y y', length x = length x' -> x ++ y = x' ++ y' -> x = x' /\ y = y'.
Proof.
  induction x as [|a x IH]; intros [|a' x'] y y' hl h; try discriminate; [split; [reflexivity|exact h]|]. cbn [app] in h. injection h as -> h.
  destruct (IH x' y y' ltac:(cbn in hl; lia) h) as [-> ->]. split; reflexivity.
Qed.
Lemma hex_digit_lower c : hex_digit (lower c) = hex_digit c.
Proof.
  pose proof (all_ascii (fun c => match hex_digit (lower c), hex_digit c with Some x, Some y => N.eqb x y | None, None => true | _, _ => false end) ltac:(vm_compute; reflexivity) c) as h.
  cbv beta in h. destruct (hex_digit (lower c)), (hex_digit c); try discriminate; [|reflexivity]. apply N.eqb_eq in h. congruence.
Qed.
Lemma from_hex_lower s : from_hex (make_lc s) = from_hex s.
Proof.
  assert (h : forall n s, length s <= n -> from_hex (make_lc s) = from_hex s); [|apply (h (length s)); lia]. clear s.
  induction n as [|n IH]; intros [|x [|y r]] hl; try reflexivity; [cbn in hl; lia|]. cbn [length] in hl. cbn [make_lc map from_hex]. fold (make_lc r). rewrite !hex_digit_lower, IH by lia. reflexivity.
Qed.
Lemma account_iff p sid pk : p = b "05" \/ p = b "03" -> session_id_pk sid p = Ok pk <-> account_of p sid pk.
Proof.
  intros hp. assert (hp2 : length p = 2) by (destruct hp; subst p; reflexivity). assert (hlc : make_lc p = p) by (destruct hp; subst p; reflexivity). split.
  - intros h. pose proof (session_id_pk_length _ _ _ hp2 h) as hl. split; [exact hl|]. unfold session_id_pk, session_id_ok in h. destruct (_ && _) eqn:e; [|discriminate].
    destruct (from_hex (skipn 2 sid)) as [t|] eqn:et; [|discriminate]. cbn [of_opt] in h. assert (t = pk) by congruence. subst t.
    apply andb_true_iff in e as [_ e]. rewrite hp2 in e. apply eqb_eq in e. rewrite (to_from_hex _ _ et). rewrite <- hlc, <- e, <- lc_app, firstn_skipn. reflexivity.
  - intros [hl h]. assert (hn : length sid = 66) by (rewrite <- (lc_length sid), h, app_length, to_hex_length, hl, hp2; reflexivity).
    assert (h1 : firstn 2 sid = p /\ make_lc (skipn 2 sid) = to_hex pk).
    { rewrite <- (firstn_skipn 2 sid), lc_app in h. assert (hf : length (make_lc (firstn 2 sid)) = length p) by (rewrite lc_length, firstn_length, hn, hp2; reflexivity).
      apply app_inj_length in h; [|exact hf]. destruct h as [h1 h2]. split; [|exact h2]. apply lc_back; [exact h1|]. destruct hp; subst p; reflexivity. }
    destruct h1 as [h1 h2]. unfold session_id_pk, session_id_ok. rewrite hn, hp2, h1, eqb_refl. cbn [Nat.add Nat.eqb andb]. unfold is_hex.
    assert (hx : exists t, from_hex sid = Some t).
    { rewrite <- from_hex_lower, h. destruct hp; subst p; [change (b "05" ++ to_hex pk) with ("0"%char :: "5"%char :: to_hex pk)|change (b "03" ++ to_hex pk) with ("0"%char :: "3"%char :: to_hex pk)];
        cbn [from_hex]; rewrite from_to_hex; eexists; reflexivity. }
    destruct hx as [t hx]. rewrite hx. cbn [andb]. rewrite <- from_hex_lower, h2, from_to_hex. reflexivity.
Qed.
Lemma positive_same pk : clear_sign pk = positive_key pk.
Proof.
  unfold clear_sign, positive_key. f_equal. apply map_ext. intros c. unfold byte. f_equal. change 127%N with (N.ones 7). rewrite N.land_ones. reflexivity.
Qed.
Lemma mark_same w d : sub_head w d = rights_mark w d.
Proof. destruct w, d; reflexivity. Qed.
Lemma mask_same C sk pk X : blind_factor C sk pk X = factor C (firstn 32 sk) X pk.
Proof. reflexivity. Qed.
Lemma grants_iff C gid sk v w d : verify_subaccount C gid sk v w d = Ok true <-> grants C gid (skipn 32 sk) v w d.
Proof.
  unfold verify_subaccount, grants, bit_set. rewrite positive_same. change (byte 3) with (ascii_of_nat 3). unfold flag. split.
  - intros h. destruct (session_id_pk gid (b "03")) as [g| | | |] eqn:Eg; try discriminate. apply account_iff in Eg; [|right; reflexivity]. cbn [bind] in h.
    destruct (Nat.eqb (length v) 100) eqn:El; [|discriminate]. apply Nat.eqb_eq in El. cbn [negb] in h. cbv zeta in h.
    destruct (negb (Ascii.eqb _ _) && negb (N.testbit _ 3)) eqn:E3; [discriminate|]. destruct (N.testbit (N_of_ascii (nth 1 v NUL)) 0); [|discriminate]. cbn [negb] in h.
    destruct (w && _) eqn:Ew; [discriminate|]. destruct (d && _) eqn:Ed; [discriminate|]. destruct (s_mul C _ _) as [kT|] eqn:Em; [|discriminate]. cbn [of_opt bind] in h.
    split; [exact El|]. split.
    { apply andb_false_iff in E3 as [E3|E3]; apply negb_false_iff in E3; [left; apply Ascii.eqb_eq; exact E3|right; exact E3]. }
    split; [reflexivity|]. split; [intros ->; apply negb_false_iff; exact Ew|]. split; [intros ->; apply negb_false_iff; exact Ed|].
    exists g, kT. split; [exact Eg|]. split; [reflexivity|]. congruence.
  - intros (hl & h3 & h0 & hw & hd & g & kT & hg & hm & hv). apply account_iff in hg; [|right; reflexivity]. rewrite hg. cbn [bind]. rewrite hl. cbn [Nat.eqb negb]. cbv zeta.
    assert (e3 : negb (Ascii.eqb (nth 0 v NUL) (ascii_of_nat 3)) && negb (N.testbit (N_of_ascii (nth 1 v NUL)) 3) = false).
    { destruct h3 as [h3|h3]; rewrite h3; [rewrite Ascii.eqb_refl; reflexivity|apply andb_false_r]. }
    rewrite e3, h0. cbn [negb]. assert (ew : w && negb (N.testbit (N_of_ascii (nth 1 v NUL)) 1) = false) by (destruct w; [rewrite hw by reflexivity|]; reflexivity).
    assert (ed : d && negb (N.testbit (N_of_ascii (nth 1 v NUL)) 2) = false) by (destruct d; [rewrite hd by reflexivity|]; reflexivity).
    rewrite ew, ed, hm. cbn [of_opt bind]. rewrite hv. reflexivity.
Qed.
Lemma value_iff C o sid w d v : make_subaccount C sid w d o = Ok v <->
  exists sk X kT, ko_sk o = Some sk /\ account_of (b "05") sid X /\ s_mul C (factor C (firstn 32 sk) X (ko_pk o)) (s_xed C X) = Some kT /\
    v = rights_mark w d ++ factor C (firstn 32 sk) X (ko_pk o) ++ g_sign (s_g C) sk (rights_mark w d ++ kT).
Proof.
  unfold make_subaccount. destruct (ko_sk o) as [sk|] eqn:es; [|split; [discriminate|intros (sk & X & kT & h & _); discriminate]]. split.
  - intros h. destruct (session_id_pk sid (b "05")) as [X| | | |] eqn:eX; try discriminate. cbn [bind] in h. cbv zeta in h. rewrite mask_same, mark_same in h.
    destruct (s_mul C _ _) as [kT|] eqn:em; [|discriminate]. cbn [of_opt bind] in h. exists sk, X, kT. split; [reflexivity|]. split; [apply account_iff; [left; reflexivity|exact eX]|]. split; [first [exact em|reflexivity]|congruence].
  - intros (sk' & X & kT & h1 & h2 & h3 & ->). injection h1 as <-. apply account_iff in h2; [|left; reflexivity]. rewrite h2. cbn [bind]. cbv zeta. rewrite mask_same, mark_same, h3. reflexivity.
Qed.
Lemma token_iff C o sid w d t : subaccount_token C sid w d o = Ok t <->
  exists sk X kT, ko_sk o = Some sk /\ account_of (b "05") sid X /\ s_mul C (factor C (firstn 32 sk) X (ko_pk o)) (s_xed C X) = Some kT /\ t = rights_mark w d ++ kT.
Proof.
  unfold subaccount_token. destruct (ko_sk o) as [sk|] eqn:es; [|split; [discriminate|intros (sk & X & kT & h & _); discriminate]]. split.
  - intros h. destruct (session_id_pk sid (b "05")) as [X| | | |] eqn:eX; try discriminate. cbn [bind] in h. rewrite mask_same, mark_same in h.
    destruct (s_mul C _ _) as [kT|] eqn:em; [|discriminate]. cbn [of_opt bind] in h. exists sk, X, kT. split; [reflexivity|]. split; [apply account_iff; [left; reflexivity|exact eX]|]. split; [first [exact em|reflexivity]|congruence].
  - intros (sk' & X & kT & h1 & h2 & h3 & ->). injection h1 as <-. apply account_iff in h2; [|left; reflexivity]. rewrite h2. cbn [bind]. rewrite mask_same, mark_same, h3. reflexivity.
Qed.
Lemma text_apart X gid X' gid' : length X = length X' -> factor_text X gid = factor_text X' gid' -> X = X' /\ gid = gid'.
Proof.
  intros hl h. unfold factor_text in h. cbn [app] in h. injection h as h. apply app_inj_length in h; [|exact hl]. destruct h as [h1 h2]. split; [exact h1|]. injection h2 as h2. exact h2.
Qed.
