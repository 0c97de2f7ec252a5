(** Proofs of C68: what a merge reports as accepted. *)
From Verif Require Import BaseSpec Merge_facts Merge2_facts Adopt_facts Base_facts Life_facts Message_facts.

Lemma memn_In i l : memn i l = true <-> In i l.
Proof. unfold memn. rewrite existsb_exists. split; [intros (x & h & e); apply Nat.eqb_eq in e; subst; exact h|intros h; exists i; split; [exact h|apply Nat.eqb_refl]]. Qed.
Lemma good_hashes_spec E (inc : list (bytes * bytes)) : forall i ms bad bad', parse_all E i (map snd inc) = Ok (ms, bad) ->
  (forall n, i <= n -> (In n bad' <-> In n bad)) -> good_hashes i bad' (map fst inc) = map fst (filter (fun p => parses E (snd p)) inc).
Proof.
  induction inc as [|[h s] inc IH]; intros i ms bad bad' hp hb; cbn [map good_hashes filter snd fst] in *; [reflexivity|].
  cbn [parse_all] in hp. assert (hi : memn i bad' = negb (parses E s)).
  { pose proof (parse_all_bad E (s :: map snd inc) i ms bad hp i) as hx. unfold parses. destruct (parse_msg E false s) as [m| | | |] eqn:ep; try discriminate hp; cbn [negb].
    - apply not_true_iff_false. intros hm. apply memn_In, hb, hx in hm; [|lia]. destruct hm as (k & s' & e & h1 & h2). assert (k = 0) by lia. subst. cbn in h1. congruence.
    - apply memn_In, hb, hx; [lia|]. exists 0, s. split; [lia|auto]. }
  rewrite hi. unfold parses at 1 2. unfold parses in hi.
  assert (hr : exists ms' bad2, parse_all E (S i) (map snd inc) = Ok (ms', bad2) /\ forall n, S i <= n -> (In n bad2 <-> In n bad)).
  { destruct (parse_msg E false s) as [m| | | |] eqn:ep; try discriminate hp; ok_inv hp; destruct a as [ms' b2] || destruct a0 as [ms' b2]; exists ms', b2; (split; [first [exact ha|reflexivity]|]); injection hp as <- <-; intros n hn; cbn [In]; intuition lia. }
  destruct hr as (ms' & bad2 & h1 & h2).
  assert (hg : good_hashes (S i) bad' (map fst inc) = map fst (filter (fun p => parses E (snd p)) inc)).
  { apply (IH (S i) ms' bad2 bad' h1). intros n hn. rewrite hb, h2 by lia. reflexivity. }
  destruct (parse_msg E false s); cbn [negb] in *; cbn [map fst]; rewrite hg; reflexivity.
Qed.
Lemma incoming_spec B keys l : forall inc, incoming B keys l = Ok inc ->
  map fst (filter (fun p => parses (b_env B) (snd p)) inc) =
  map fst (filter (fun p => match decrypt_any B keys (snd p) with Ok (Some x) => match unpack B x with Some s => parses (b_env B) s | None => false end | _ => false end) l).
Proof.
  induction l as [|[h c] l IH]; intros inc hi; cbn [incoming] in hi; [injection hi as <-; reflexivity|].
  ok_inv hi. ok_inv hi. cbn [filter snd]. specialize (IH _ eq_refl). destruct a as [p|].
  - destruct (unpack B p) as [m|] eqn:eu; injection hi as <-; rewrite ha, eu.
    + cbn [filter snd]. destruct (parses (b_env B) m); cbn [map fst]; rewrite IH; reflexivity.
    + exact IH.
  - injection hi as <-. rewrite ha. exact IH.
Qed.
Lemma merge_confs_bad B d l new bad : merge_confs B d l = Ok (new, bad) -> exists ms, parse_all (b_env B) 0 l = Ok (ms, bad).
Proof.
  unfold merge_confs. destruct d.
  - unfold merge_mutable. intros h. ok_inv h. destruct a as [m bd]. apply merge_msgs_inv in ha as (ms & h1 & _). exists ms.
    destruct (m_unmerged m); [ok_inv h|]; injection h as <- <-; exact h1.
  - intros h. ok_inv h. destruct a as [m bd]. injection h as <- <-. apply merge_msgs_inv in ha as (ms & h1 & _). eauto.
Qed.
Lemma merge_accepts B l st acc st' : merge B l st = (Ok acc, st') -> acc = map fst (filter (acceptable B st) l).
Proof.
  unfold merge. intros h. apply merge_plain_spec in h as [[h _]|(mine & st1 & eo & [[h _]|(inc & new & bad & hk & hi & hm & h)])]; [destruct (h _ eq_refl)|destruct (h _ eq_refl)|].
  cbv zeta in h. destruct h as (y & _ & hy). destruct y; try discriminate hy. assert (e : acc = good_hashes (length mine) bad (map fst inc)) by congruence. subst acc. clear hy.
  apply merge_confs_bad in hm as (ms & hp). rewrite map_app in hp. apply parse_all_app in hp as (ms1 & ms2 & b1 & b2 & h1 & h2 & -> & ->).
  rewrite map_length in h2. cbn [Nat.add] in h2.
  rewrite (good_hashes_spec (b_env B) inc (length mine) ms2 b2 (b1 ++ b2) h2).
  - rewrite (incoming_spec _ _ _ _ hi). clear. induction l as [|p l IH]; [reflexivity|]. cbn [map filter]. unfold acceptable at 1.
    destruct (match decrypt_any B (s_keys st) (snd (unwrap1 B st p)) with Ok (Some x) => _ | _ => false end); cbn [map]; rewrite IH; [|reflexivity].
    f_equal. unfold unwrap1. destruct (s_keys st); [reflexivity|]. destruct (b_proto B); [|reflexivity]. destruct (b_unwrap B b (snd p)); reflexivity.
  - intros n hn. rewrite in_app_iff. pose proof (parse_all_bad _ _ _ _ _ h1 n) as hx. split; [|auto]. intros [hin|hin]; [|exact hin]. apply hx in hin as (k & s & -> & hs & _).
    assert (k < length (map snd mine)) by (apply nth_error_Some; congruence). rewrite map_length in *. lia.
Qed.
(** messages that cannot be opened change nothing *)
Lemma incoming_filter B keys l : forall inc, incoming B keys l = Ok inc ->
  incoming B keys (filter (fun p => match decrypt_any B keys (snd p) with Ok (Some x) => match unpack B x with Some _ => true | None => false end | _ => false end) l) = Ok inc.
Proof.
  induction l as [|[h c] l IH]; intros inc hi; cbn [incoming] in hi; [exact hi|]. ok_inv hi. ok_inv hi. cbn [filter snd]. rewrite ha. specialize (IH _ eq_refl).
  destruct a as [p|]; [|congruence]. destruct (unpack B p) as [m|] eqn:e; [|congruence]. cbn [incoming]. rewrite ha, IH. cbn [bind]. rewrite e. exact hi.
Qed.
Lemma filter_map {X Y} (f : X -> Y) q l : filter q (map f l) = map f (filter (fun x => q (f x)) l).
Proof. induction l as [|x l IH]; [reflexivity|]. cbn [map filter]. destruct (q (f x)); cbn [map]; rewrite IH; reflexivity. Qed.
Lemma merge_openable B l st acc st' : merge B l st = (Ok acc, st') -> merge B (filter (openable B st) l) st = (Ok acc, st').
Proof.
  unfold merge. intros h. unfold openable. rewrite <- (filter_map (unwrap1 B st) (fun p => match decrypt_any B (s_keys st) (snd p) with Ok (Some x) => match unpack B x with Some _ => true | None => false end | _ => false end)).
  unfold merge_plain in *. destruct (s_keys st) as [|k ks]; [discriminate|]. destruct (own_part B st) as [[mine st1]| | | |]; try discriminate.
  destruct (incoming B (k :: ks) (map (unwrap1 B st) l)) as [inc| | | |] eqn:e; try discriminate. rewrite (incoming_filter _ _ _ _ e). exact h.
Qed.
