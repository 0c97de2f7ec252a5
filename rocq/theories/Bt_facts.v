(** Lemmas about the bencoding model. *)
From Verif Require Export Bt Data_facts.
From Coq Require Import ZifyBool ZifyN ZifyNat.
From Coq Require DecimalN DecimalFacts.

Definition digit (c : ascii) : bool :=
  existsb (Ascii.eqb c) ["0";"1";"2";"3";"4";"5";"6";"7";"8";"9"]%char.

Lemma take_digits_nondigit c r : digit c = false -> take_digits (c :: r) = (Decimal.Nil, c :: r).
Proof.
  unfold digit. cbn [existsb take_digits]. intros h. rewrite !orb_false_iff in h.
  repeat match goal with h : _ /\ _ |- _ => destruct h end.
  repeat match goal with h : Ascii.eqb _ _ = false |- _ => rewrite h; clear h end. reflexivity.
Qed.
Lemma take_digits_spec u c r : digit c = false -> take_digits (uint_bytes u ++ c :: r) = (u, c :: r).
Proof.
  intros hc. induction u; cbn [uint_bytes app]; [apply take_digits_nondigit, hc|..];
    cbn -[Ascii.eqb]; rewrite IHu; reflexivity.
Qed.
Lemma to_uint_nonnil n : N.to_uint n <> Decimal.Nil.
Proof.
  pose proof (DecimalN.Unsigned.to_of (N.to_uint n)) as h. rewrite DecimalN.Unsigned.of_to in h.
  rewrite h. apply DecimalFacts.unorm_nonnil.
Qed.
Lemma dec_head n : exists c r, dec n = c :: r /\ digit c = true.
Proof.
  unfold dec. pose proof (to_uint_nonnil n) as h.
  destruct (N.to_uint n); [congruence|..]; cbn [uint_bytes]; eexists; eexists; split; reflexivity.
Qed.
Lemma parse_uint_dec n c r : digit c = false -> (n <= uint64_max)%N ->
  parse_uint (dec n ++ c :: r) = Some (n, c :: r).
Proof.
  intros hc hn. unfold parse_uint, dec. rewrite take_digits_spec by exact hc.
  pose proof (to_uint_nonnil n) as h. pose proof (DecimalN.Unsigned.of_to n) as ho.
  destruct (N.to_uint n) eqn:E; [congruence|..]; cbn zeta; rewrite ho;
    (destruct (N.leb_spec n uint64_max); [reflexivity|lia]).
Qed.
Lemma parse_str_enc s r : str_ok s = true -> parse_str (enc_str s ++ r) = Some (s, r).
Proof.
  intros hs. unfold str_ok in hs. apply N.leb_le in hs. unfold parse_str, enc_str.
  rewrite <- app_assoc. cbn [app]. rewrite parse_uint_dec by (reflexivity || exact hs).
  cbn [Ascii.eqb Bool.eqb andb]. rewrite Nat2N.id.
  replace (N.of_nat (length s) <=? N.of_nat (length (s ++ r)))%N with true
    by (rewrite app_length; symmetry; apply N.leb_le; lia).
  rewrite firstn_app, Nat.sub_diag, firstn_O, app_nil_r, firstn_all.
  rewrite skipn_app, skipn_all, Nat.sub_diag. reflexivity.
Qed.
Lemma parse_int_enc z r : btint_ok z = true ->
  exists s, enc_int z = "i"%char :: s /\ parse_int (s ++ r) = Some (z, r).
Proof.
  unfold btint_ok, enc_int. intros h. apply andb_true_iff in h as [h1 h2].
  apply Z.leb_le in h1, h2. unfold uint64_max in h2. eexists. split; [reflexivity|].
  destruct (z <? 0)%Z eqn:Ez.
  - apply Z.ltb_lt in Ez. cbn [app]. unfold parse_int. rewrite <- app_assoc. cbn [app].
    rewrite parse_uint_dec by (reflexivity || (unfold uint64_max; lia)).
    rewrite Z2N.id by lia. replace (- - z)%Z with z by lia.
    destruct (Z.leb_spec (- z) (2 ^ 63)); [reflexivity|lia].
  - apply Z.ltb_ge in Ez. rewrite <- app_assoc. cbn [app]. unfold parse_int.
    destruct (dec_head (Z.to_N z)) as (c & t & hd & hc).
    destruct (dec (Z.to_N z) ++ "e"%char :: r) as [|c' t'] eqn:E; [destruct (dec (Z.to_N z)); discriminate|].
    assert (c' = c) as -> by (rewrite hd in E; injection E; congruence).
    assert (hp : parse_uint (c :: t') = Some (Z.to_N z, "e"%char :: r)).
    { rewrite <- E. apply parse_uint_dec; [reflexivity|unfold uint64_max; lia]. }
    rewrite hp, Z2N.id by lia. destruct c as [[] [] [] [] [] [] [] []]; try reflexivity; discriminate.
Qed.

Lemma enc_length v : 2 <= length (enc v).
Proof.
  destruct v; cbn [enc].
  - unfold enc_int. destruct (dec_head (Z.to_N (- z))) as (c & t & h1 & _).
    destruct (dec_head (Z.to_N z)) as (c' & t' & h2 & _).
    rewrite h1, h2. destruct (z <? 0)%Z; cbn [length app]; rewrite ?app_length; cbn; lia.
  - unfold enc_str. destruct (dec_head (N.of_nat (length s))) as (c & t & h & _). rewrite h.
    cbn [app length]. rewrite app_length. cbn. lia.
  - cbn [length]. rewrite app_length. cbn. lia.
  - cbn [length]. rewrite app_length. cbn. lia.
Qed.
Lemma enc_str_head s : exists c r, enc_str s = c :: r /\ digit c = true.
Proof.
  unfold enc_str. destruct (dec_head (N.of_nat (length s))) as (c & t & h & hd). rewrite h.
  exists c. eexists. split; [reflexivity|exact hd].
Qed.
Lemma enc_head v : exists c r, enc v = c :: r /\ Ascii.eqb c "e" = false.
Proof.
  destruct v; cbn [enc]; unfold enc_int; try (eexists; eexists; split; reflexivity).
  destruct (enc_str_head s) as (c & r & -> & hd). exists c, r. split; [reflexivity|].
  destruct c as [[] [] [] [] [] [] [] []]; try reflexivity; discriminate.
Qed.
Lemma digit_not c : digit c = true ->
  Ascii.eqb c "i" = false /\ Ascii.eqb c "l" = false /\ Ascii.eqb c "d" = false /\ Ascii.eqb c "e" = false.
Proof. destruct c as [[] [] [] [] [] [] [] []]; intros h; try discriminate h; repeat split; reflexivity. Qed.

Lemma parse_enc : forall v f r, bt_ok v = true -> length (enc v) < f -> parse_value f (enc v ++ r) = Some (v, r).
Proof.
  induction v as [z|s|l IH|d IH] using bt_ind'; intros f r hok hf; (destruct f as [|f]; [lia|]).
  - cbn [bt_ok] in hok. destruct (parse_int_enc z r hok) as (s & hs & hp). cbn [enc]. rewrite hs.
    cbn [app parse_value]. change (Ascii.eqb "i" "i") with true. cbv iota. rewrite hp. reflexivity.
  - cbn [bt_ok] in hok. destruct (enc_str_head s) as (c & t & hs & hd). cbn [enc].
    assert (hp := parse_str_enc s r hok). rewrite hs in *. cbn [app parse_value] in *.
    destruct (digit_not c hd) as (-> & -> & -> & _). rewrite hp. reflexivity.
  - cbn [enc app parse_value]. change (Ascii.eqb "l" "i") with false. change (Ascii.eqb "l" "l") with true. cbv iota.
    rewrite <- app_assoc. cbn [app].
    assert (hl : forall f, length (flat_map enc l) + 1 < f ->
                 parse_list f (flat_map enc l ++ "e"%char :: r) = Some (l, r)).
    { clear f hf. cbn [bt_ok] in hok. induction l as [|x l IHl]; intros f hf; (destruct f as [|f]; [lia|]).
      - reflexivity.
      - inversion IH as [|? ? hx hl]; subst. cbn [forallb] in hok. apply andb_true_iff in hok as [ho1 ho2].
        cbn [flat_map] in *. rewrite app_length in hf. pose proof (enc_length x) as hlx.
        rewrite <- app_assoc. destruct (enc_head x) as (c & t & hc & hce).
        specialize (hx f (flat_map enc l ++ "e"%char :: r) ho1 ltac:(lia)).
        rewrite hc in *. cbn [app parse_list] in *. rewrite hce, hx.
        rewrite IHl; [reflexivity|exact hl|exact ho2|lia]. }
    rewrite hl; [reflexivity|]. cbn [enc length] in hf. rewrite app_length in hf. cbn in hf. lia.
  - cbn [enc app parse_value]. change (Ascii.eqb "d" "i") with false. change (Ascii.eqb "d" "l") with false.
    change (Ascii.eqb "d" "d") with true. cbv iota. rewrite <- app_assoc. cbn [app].
    set (g := fun p : bytes * bt => enc_str (fst p) ++ enc (snd p)).
    assert (hl : forall f, length (flat_map g d) + 1 < f ->
                 parse_entries f (flat_map g d ++ "e"%char :: r) = Some (d, r)).
    { clear f hf. cbn [bt_ok] in hok. apply andb_true_iff in hok as [_ hok].
      induction d as [|[k x] d IHl]; intros f hf; (destruct f as [|f]; [lia|]).
      - reflexivity.
      - inversion IH as [|? ? hx hl]; subst. cbn [forallb fst snd] in *. apply andb_true_iff in hok as [ho1 ho2].
        apply andb_true_iff in ho1 as [hk ho1].
        cbn [flat_map] in *. unfold g at 1 in hf. unfold g at 1. cbn [fst snd] in *.
        rewrite !app_length in hf. pose proof (enc_length x) as hlx.
        rewrite <- !app_assoc. destruct (enc_str_head k) as (c & t & hc & hcd).
        specialize (hx f (flat_map g d ++ "e"%char :: r) ho1 ltac:(lia)).
        pose proof (parse_str_enc k (enc x ++ flat_map g d ++ "e"%char :: r) hk) as hpk.
        rewrite hc in *. cbn [app parse_entries] in *. destruct (digit_not c hcd) as (_ & _ & _ & ->).
        rewrite hpk, hx. rewrite IHl; [reflexivity|exact hl|exact ho2|cbn [length] in *; lia]. }
    rewrite hl; [reflexivity|]. cbn [enc length] in hf. rewrite app_length in hf. cbn in hf. unfold g. lia.
Qed.
Lemma parse1_enc v r : bt_ok v = true -> parse1 (enc v ++ r) = Some (v, r).
Proof. intros h. apply parse_enc; [exact h|]. unfold fuel_for. rewrite app_length. lia. Qed.
Lemma enc_inj v w : bt_ok v = true -> bt_ok w = true -> enc v = enc w -> v = w.
Proof.
  intros hv hw he. pose proof (parse1_enc v [] hv) as h1. pose proof (parse1_enc w [] hw) as h2.
  rewrite he in h1. congruence.
Qed.

(** ** the parser only consumes a prefix and its fuel never matters *)
Lemma take_digits_suffix s u t : take_digits s = (u, t) -> exists p, s = p ++ t /\ (u <> Decimal.Nil -> p <> []).
Proof.
  revert u t; induction s as [|c s IH]; intros u t h.
  - injection h as <- <-. exists []. split; auto.
  - cbn [take_digits] in h. destruct (take_digits s) as [u' t'] eqn:E.
    destruct (IH _ _ eq_refl) as (p & -> & _).
    repeat match type of h with context [Ascii.eqb c ?x] => destruct (Ascii.eqb c x) end;
      injection h as <- <-; try (exists (c :: p); split; [reflexivity|intros _; discriminate]).
    exists []. split; [reflexivity|congruence].
Qed.
Lemma parse_uint_suffix s n t : parse_uint s = Some (n, t) -> exists p, s = p ++ t /\ p <> [].
Proof.
  unfold parse_uint. destruct (take_digits s) as [u t'] eqn:E. apply take_digits_suffix in E as (p & -> & hp).
  destruct u; try congruence; destruct (_ <=? _)%N; try congruence; intros [= <- <-]; exists p; split; auto; apply hp; discriminate.
Qed.
Lemma parse_uint_bound s n t : parse_uint s = Some (n, t) -> (n <= uint64_max)%N.
Proof.
  unfold parse_uint. destruct (take_digits s) as [u t'] eqn:E.
  destruct u; try congruence; cbn zeta;
    match goal with |- context [(?n <=? uint64_max)%N] => destruct (N.leb_spec n uint64_max) end; try congruence;
    intros [= <- <-]; assumption.
Qed.
Lemma parse_str_suffix s x t : parse_str s = Some (x, t) -> exists p, s = p ++ t /\ p <> [] .
Proof.
  unfold parse_str. destruct (parse_uint s) as [[n [|c q]]|] eqn:E; try congruence.
  destruct (_ && _); [|congruence]. intros [= <- <-]. apply parse_uint_suffix in E as (p & -> & hp).
  exists (p ++ c :: firstn (N.to_nat n) q). split; [|destruct p; discriminate].
  rewrite <- app_assoc. cbn [app]. rewrite firstn_skipn. reflexivity.
Qed.
Lemma parse_str_ok s x t : parse_str s = Some (x, t) -> str_ok x = true.
Proof.
  unfold parse_str, str_ok. destruct (parse_uint s) as [[n [|c q]]|] eqn:E; try congruence.
  destruct (_ && _); [|congruence]. intros [= <- <-]. apply parse_uint_bound in E. apply N.leb_le.
  rewrite firstn_length. lia.
Qed.
Lemma parse_int_suffix s z t : parse_int s = Some (z, t) -> exists p, s = p ++ t /\ p <> [].
Proof.
  assert (haux : forall q f, match parse_uint q with Some (n, "e"%char :: t') => f n t' | _ => None end = Some (z, t) ->
            (forall n t', f n t' = Some (z, t) -> t' = t) -> exists p, q = p ++ t /\ p <> []).
  { intros q f h hf. destruct (parse_uint q) as [[n [|e t']]|] eqn:E; try congruence.
    assert (e = "e"%char /\ f n t' = Some (z, t)) as [-> h'].
    { destruct e as [[] [] [] [] [] [] [] []]; try congruence; auto. }
    apply hf in h'. subst t'. apply parse_uint_suffix in E as (p & -> & hp). exists (p ++ ["e"%char]).
    rewrite <- app_assoc. split; [reflexivity|destruct p; discriminate]. }
  unfold parse_int. intros h.
  assert (hgen : match parse_uint s with
                 | Some (n, "e"%char :: t') => Some (Z.of_N n, t') | _ => None end = Some (z, t) ->
                 exists p, s = p ++ t /\ p <> []).
  { intros h'. eapply (haux s (fun n t' => Some (Z.of_N n, t'))); [exact h'|congruence]. }
  destruct s as [|c r]; [apply hgen; exact h|].
  destruct (ascii_dec c "-"%char) as [->|hne].
  - apply (haux r (fun n t' => if (Z.of_N n <=? 2 ^ 63)%Z then Some ((- Z.of_N n)%Z, t') else None)) in h.
    + destruct h as (p & -> & hp). exists ("-"%char :: p). split; [reflexivity|discriminate].
    + intros n t'. destruct (_ <=? _)%Z; congruence.
  - apply hgen. destruct c as [[] [] [] [] [] [] [] []]; try exact h. exfalso. apply hne. reflexivity.
Qed.
Lemma parse_int_ok s z t : parse_int s = Some (z, t) -> btint_ok z = true.
Proof.
  assert (haux : forall q (f : N -> bytes -> option (Z * bytes)),
            match parse_uint q with Some (n, "e"%char :: t') => f n t' | _ => None end = Some (z, t) ->
            (forall n t', (n <= uint64_max)%N -> f n t' = Some (z, t) -> btint_ok z = true) -> btint_ok z = true).
  { intros q f h hf. destruct (parse_uint q) as [[n [|e t']]|] eqn:E; try congruence.
    assert (e = "e"%char /\ f n t' = Some (z, t)) as [-> h'].
    { destruct e as [[] [] [] [] [] [] [] []]; try congruence; auto. }
    eapply hf; [|exact h']. eapply parse_uint_bound; eauto. }
  assert (hgen : match parse_uint s with
                 | Some (n, "e"%char :: t') => Some (Z.of_N n, t') | _ => None end = Some (z, t) -> btint_ok z = true).
  { intros h'. eapply (haux s (fun n t' => Some (Z.of_N n, t'))); [exact h'|].
    intros n t' hn [= <- <-]. unfold btint_ok. unfold uint64_max in *. lia. }
  unfold parse_int. intros h.
  destruct s as [|c r]; [apply hgen; exact h|].
  destruct (ascii_dec c "-"%char) as [->|hne].
  - eapply (haux r (fun n t' => if (Z.of_N n <=? 2 ^ 63)%Z then Some ((- Z.of_N n)%Z, t') else None)); [exact h|].
    intros n t' hn. destruct (Z.leb_spec (Z.of_N n) (2 ^ 63)); [|congruence]. intros [= <- <-].
    unfold btint_ok, uint64_max in *. lia.
  - apply hgen. destruct c as [[] [] [] [] [] [] [] []]; try exact h. exfalso. apply hne. reflexivity.
Qed.

Definition shrinks {A} (s : bytes) (o : option (A * bytes)) : Prop :=
  match o with Some (_, t) => exists p, s = p ++ t /\ p <> [] | None => True end.
Lemma shrinks_len {A} s (x : A) t : shrinks s (Some (x, t)) -> length t < length s.
Proof. intros (p & -> & hp). rewrite app_length. destruct p; [congruence|cbn; lia]. Qed.
Lemma parse_shrinks : forall f s,
  shrinks s (parse_value f s) /\ shrinks s (parse_list f s) /\ shrinks s (parse_entries f s).
Proof.
  induction f as [|f IH]; intros s; [repeat split|].
  destruct s as [|c r]; [repeat split|]. cbn [parse_value parse_list parse_entries]. repeat split.
  - destruct (Ascii.eqb c "i").
    { destruct (parse_int r) as [[z t]|] eqn:E; [|exact I]. apply parse_int_suffix in E as (p & -> & hp).
      exists (c :: p). split; [reflexivity|discriminate]. }
    destruct (Ascii.eqb c "l").
    { destruct (IH r) as (_ & h & _). destruct (parse_list f r) as [[l t]|]; [|exact I].
      destruct h as (p & -> & hp). exists (c :: p). split; [reflexivity|discriminate]. }
    destruct (Ascii.eqb c "d").
    { destruct (IH r) as (_ & _ & h). destruct (parse_entries f r) as [[l t]|]; [|exact I].
      destruct h as (p & -> & hp). exists (c :: p). split; [reflexivity|discriminate]. }
    destruct (parse_str (c :: r)) as [[x t]|] eqn:E; [|exact I]. apply parse_str_suffix in E. exact E.
  - destruct (Ascii.eqb c "e"); [exists [c]; split; [reflexivity|discriminate]|].
    destruct (IH (c :: r)) as (h & _). destruct (parse_value f (c :: r)) as [[x t]|]; [|exact I].
    destruct h as (p & hp & hn). destruct (IH t) as (_ & h2 & _). destruct (parse_list f t) as [[l t']|]; [|exact I].
    destruct h2 as (p2 & -> & _). exists (p ++ p2). rewrite <- app_assoc. split; [exact hp|destruct p; [congruence|discriminate]].
  - destruct (Ascii.eqb c "e"); [exists [c]; split; [reflexivity|discriminate]|].
    destruct (parse_str (c :: r)) as [[k t]|] eqn:E; [|exact I]. apply parse_str_suffix in E as (p & hp & hn).
    destruct (IH t) as (h & _). destruct (parse_value f t) as [[x t1]|]; [|exact I].
    destruct h as (p1 & -> & _). destruct (IH t1) as (_ & _ & h2). destruct (parse_entries f t1) as [[l t2]|]; [|exact I].
    destruct h2 as (p2 & -> & _). exists (p ++ p1 ++ p2). rewrite <- !app_assoc.
    split; [exact hp|destruct p; [congruence|discriminate]].
Qed.

Lemma parse_fuel_aux : forall f g s,
  (2 * length s + 1 <= f -> 2 * length s + 1 <= g -> parse_value f s = parse_value g s) /\
  (2 * length s + 2 <= f -> 2 * length s + 2 <= g ->
     parse_list f s = parse_list g s /\ parse_entries f s = parse_entries g s).
Proof.
  induction f as [|f IH]; intros [|g] s; (split; [|intros h1 h2; split; revert h1 h2]); try lia; intros h1 h2; try lia.
  - destruct s as [|c r]; [reflexivity|]. cbn [parse_value]. cbn [length] in *.
    destruct (IH g r) as [_ hl]. destruct hl as [e1 e2]; [lia|lia|]. rewrite e1, e2. reflexivity.
  - destruct s as [|c r]; [reflexivity|]. cbn [parse_list].
    destruct (Ascii.eqb c "e"); [reflexivity|].
    destruct (IH g (c :: r)) as [hv _]. rewrite <- hv by lia.
    destruct (parse_shrinks f (c :: r)) as (hs & _). destruct (parse_value f (c :: r)) as [[x t]|]; [|reflexivity].
    apply shrinks_len in hs. destruct (IH g t) as [_ hl]. destruct hl as [-> _]; [lia|lia|]. reflexivity.
  - destruct s as [|c r]; [reflexivity|]. cbn [parse_entries].
    destruct (Ascii.eqb c "e"); [reflexivity|].
    destruct (parse_str (c :: r)) as [[k t]|] eqn:E; [|reflexivity].
    apply parse_str_suffix in E as (p & hp & hn).
    assert (hlen : length t < length (c :: r)) by (rewrite hp, app_length; destruct p; [congruence|cbn; lia]).
    destruct (IH g t) as [hv _]. rewrite <- hv by lia.
    destruct (parse_shrinks f t) as (hs & _). destruct (parse_value f t) as [[x t1]|]; [|reflexivity].
    apply shrinks_len in hs. destruct (IH g t1) as [_ hl]. destruct hl as [_ ->]; [lia|lia|]. reflexivity.
Qed.
(** the fuel in [parse1] is always enough: more fuel never changes the answer *)
Lemma parse_fuel s f : fuel_for s <= f -> parse_value f s = parse1 s.
Proof. intros h. unfold parse1, fuel_for in *. apply parse_fuel_aux; lia. Qed.
Lemma parse1_shrinks s v t : parse1 s = Some (v, t) -> exists p, s = p ++ t /\ p <> [].
Proof. intros h. pose proof (parse_shrinks (fuel_for s) s) as (hs & _). unfold parse1 in h. rewrite h in hs. exact hs. Qed.
