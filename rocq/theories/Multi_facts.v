(** Multi-recipient encryption. *)
From Verif Require Import KeysSpec KeyList_facts Bt_facts Parse_facts Dump_facts Keys_facts Keys2_facts Hex_facts.

Lemma multi_key_cases X a A B e d : multi_key X a A B e d = Throw \/ exists k, multi_key X a A B e d = Ok k.
Proof. unfold multi_key. destruct (x_dh X a B); cbn [of_opt bind]; [right|left; reflexivity]. destruct e; eauto. Qed.
(** the ciphertexts for the recipients that have a usable public key *)
Definition sealed_for (X : xcrypt) (m : bytes) (nonce priv pub domain : bytes) (r : bytes) : list bytes :=
  match multi_key X priv pub r true domain with Ok k => [x_seal X k (firstn 24 nonce) m] | _ => [] end.
Lemma encrypt_one_each X m rs nonce priv pub domain :
  encrypt_each X true [m] rs nonce priv pub domain true = Ok (flat_map (sealed_for X m nonce priv pub domain) rs).
Proof.
  induction rs as [|r rs IH]; [reflexivity|]. cbn [encrypt_each flat_map]. unfold sealed_for at 1. destruct (multi_key_cases X priv pub r true domain) as [h|[k h]]; rewrite h.
  - rewrite IH. reflexivity.
  - rewrite IH. reflexivity.
Qed.
Lemma encrypt_one X m rs nonce priv pub domain cs : encrypt_for_multiple X [m] rs nonce priv pub domain true = Ok cs ->
  cs = flat_map (sealed_for X m nonce priv pub domain) rs /\ Forall (fun r => length r = 32) rs /\ 24 <= length nonce /\ length priv = 32 /\ length pub = 32.
Proof.
  unfold encrypt_for_multiple. destruct (negb _) eqn:E1; [discriminate|]. destruct (negb (forallb _ _)) eqn:E2; [discriminate|]. cbn [length Nat.eqb negb andb].
  rewrite encrypt_one_each. intros [= <-]. apply negb_false_iff in E1, E2. split; [reflexivity|]. unfold multi_fields_ok in E1.
  apply andb_true_iff in E1 as [E1 E3]. apply andb_true_iff in E1 as [E1 E4]. apply Nat.leb_le in E1. apply Nat.eqb_eq in E3, E4. split; [|auto].
  rewrite forallb_forall in E2. apply Forall_forall. intros r hr. apply Nat.eqb_eq. auto.
Qed.
Lemma encrypt_one_ok X m rs nonce priv pub domain : 24 <= length nonce -> length priv = 32 -> length pub = 32 -> Forall (fun r => length r = 32) rs ->
  encrypt_for_multiple X [m] rs nonce priv pub domain true = Ok (flat_map (sealed_for X m nonce priv pub domain) rs).
Proof.
  intros h1 h2 h3 h4. unfold encrypt_for_multiple, multi_fields_ok. rewrite h2, h3. apply Nat.leb_le in h1. rewrite h1. cbn [Nat.eqb andb negb].
  assert (hf : forallb (fun r => Nat.eqb (length r) 32) rs = true) by (apply forallb_forall; intros r hr; apply Nat.eqb_eq; rewrite Forall_forall in h4; auto).
  rewrite hf. cbn [negb length Nat.eqb andb]. apply encrypt_one_each.
Qed.
Lemma decrypt_multi_seal X k nonce m : seal_ok X -> decrypt_multi X k nonce (x_seal X k (firstn 24 nonce) m) = Some m.
Proof.
  intros hX. unfold decrypt_multi. rewrite (so_len X hX). replace (Nat.ltb (length m + ABYTES) ABYTES) with false; [apply (so_open X hX)|].
  symmetry. apply Nat.ltb_ge. lia.
Qed.
Lemma first_open_common X k nonce m cs rest : seal_ok X -> binding X -> (forall c, In c cs -> exists k', c = x_seal X k' (firstn 24 nonce) m) ->
  In (x_seal X k (firstn 24 nonce) m) cs -> first_open X k nonce (cs ++ rest) = Some m.
Proof.
  intros hX hB. induction cs as [|c cs IH]; intros hall hin; [destruct hin|]. cbn [app first_open].
  destruct (decrypt_multi X k nonce c) as [m'|] eqn:E.
  - destruct (hall c (or_introl eq_refl)) as (k' & ->). unfold decrypt_multi in E. destruct (Nat.ltb _ _); [discriminate|]. apply hB in E. congruence.
  - destruct hin as [-> | hin]; [rewrite decrypt_multi_seal in E by exact hX; discriminate|]. apply IH; [|exact hin]. intros c' hc'. apply hall. right. exact hc'.
Qed.
Lemma agree_key X a A c C d : agree X a A c C -> exists k, multi_key X a A C true d = Ok k /\ multi_key X c C A false d = Ok k.
Proof. intros (s & h1 & h2). unfold multi_key. rewrite h1, h2. cbn [of_opt bind]. eauto. Qed.
Lemma sealed_for_in X m nonce priv pub domain rs r k : In r rs -> multi_key X priv pub r true domain = Ok k ->
  In (x_seal X k (firstn 24 nonce) m) (flat_map (sealed_for X m nonce priv pub domain) rs).
Proof. intros hr hk. apply in_flat_map. exists r. split; [exact hr|]. unfold sealed_for. rewrite hk. left. reflexivity. Qed.
Lemma sealed_for_all X m nonce priv pub domain rs c : In c (flat_map (sealed_for X m nonce priv pub domain) rs) -> exists k', c = x_seal X k' (firstn 24 nonce) m.
Proof. intros h. apply in_flat_map in h as (r & _ & h). unfold sealed_for in h. destruct (multi_key _ _ _ _ _ _); try destruct h as [<-|[]]; try destruct h. eauto. Qed.
