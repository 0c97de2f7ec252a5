(** Multi-recipient encryption with one message per recipient, and its encoded form. *)
From Verif Require Import KeysSpec KeyList_facts Bt_facts Parse_facts Dump_facts Keys_facts Keys2_facts Hex_facts Multi_facts Keys4_facts.

Definition next_msgs (single : bool) (ms : list bytes) : list bytes := if single then ms else tl ms.
Lemma encrypt_each_nth X single nonce priv pub domain : forall rs ms cs,
  encrypt_each X single ms rs nonce priv pub domain false = Ok cs -> (single = true -> exists m, ms = [m]) ->
  length cs = length rs /\ forall i c, nth_error cs i = Some c ->
    exists r k m, nth_error rs i = Some r /\ multi_key X priv pub r true domain = Ok k /\ (if single then ms = [m] else nth_error ms i = Some m) /\ c = x_seal X k (firstn 24 nonce) m.
Proof.
  induction rs as [|r rs IH]; intros ms cs h hs; cbn [encrypt_each] in h.
  - injection h as <-. split; [reflexivity|]. intros [|i] c hc; discriminate.
  - destruct ms as [|m ms]; [discriminate|]. destruct (multi_key_cases X priv pub r true domain) as [hk|[k hk]]; rewrite hk in h; [discriminate|].
    destruct (encrypt_each X single (if single then m :: ms else ms) rs nonce priv pub domain false) as [cs'| | | |] eqn:E; try discriminate. cbn [bind] in h. injection h as <-.
    assert (hs' : single = true -> exists m0, (if single then m :: ms else ms) = [m0]) by (intros ->; auto).
    destruct (IH _ _ E hs') as [h1 h2]. split; [cbn [length]; lia|]. intros [|i] c hc; cbn [nth_error] in *.
    + injection hc as <-. exists r, k, m. split; [reflexivity|]. split; [exact hk|]. split; [|reflexivity]. destruct single; [|reflexivity]. destruct (hs eq_refl) as (m0 & e). injection e as -> ->. reflexivity.
    + destruct (h2 _ _ hc) as (r' & k' & m' & e1 & e2 & e3 & e4). exists r', k', m'. split; [exact e1|]. split; [exact e2|]. split; [|exact e4]. destruct single; exact e3.
Qed.
Lemma encrypt_multi_nth X ms rs nonce priv pub domain cs : encrypt_for_multiple X ms rs nonce priv pub domain false = Ok cs ->
  length cs = length rs /\ (length ms = 1 \/ length ms = length rs) /\ Forall (fun r => length r = 32) rs /\ length pub = 32 /\
  forall i c, nth_error cs i = Some c -> exists r k m, nth_error rs i = Some r /\ multi_key X priv pub r true domain = Ok k /\ message_for ms i = Some m /\ c = x_seal X k (firstn 24 nonce) m.
Proof.
  unfold encrypt_for_multiple. destruct (negb (multi_fields_ok _ _ _)) eqn:E1; [discriminate|]. destruct (negb (forallb _ _)) eqn:E2; [discriminate|].
  destruct (negb (Nat.eqb (length ms) 1) && _) eqn:E3; [discriminate|]. intros h. apply negb_false_iff in E1, E2. unfold multi_fields_ok in E1.
  apply andb_true_iff in E1 as [_ E1]. apply Nat.eqb_eq in E1.
  assert (h1 : Nat.eqb (length ms) 1 = true -> exists m, ms = [m]).
  { intros e. apply Nat.eqb_eq in e. destruct ms as [|m [|? ?]]; try discriminate. eauto. }
  destruct (encrypt_each_nth _ _ _ _ _ _ _ _ _ h h1) as [e1 e2]. split; [exact e1|]. split.
  { apply andb_false_iff in E3 as [E3|E3]; apply negb_false_iff in E3; apply Nat.eqb_eq in E3; auto. }
  split; [rewrite forallb_forall in E2; apply Forall_forall; intros r hr; apply Nat.eqb_eq; auto|]. split; [exact E1|].
  intros i c hc. destruct (e2 i c hc) as (r & k & m & q1 & q2 & q3 & q4). exists r, k, m. split; [exact q1|]. split; [exact q2|]. split; [|exact q4].
  destruct (Nat.eqb (length ms) 1) eqn:El; [rewrite q3; reflexivity|]. unfold message_for. destruct ms as [|m0 [|m1 ms]]; try exact q3. discriminate.
Qed.
Lemma first_open_at X k nonce m : seal_ok X -> forall cs i, nth_error cs i = Some (x_seal X k (firstn 24 nonce) m) ->
  (forall j c, j < i -> nth_error cs j = Some c -> x_open X k (firstn 24 nonce) c = None \/ x_open X k (firstn 24 nonce) c = Some m) ->
  forall rest, first_open X k nonce (cs ++ rest) = Some m.
Proof.
  intros hX. induction cs as [|c cs IH]; intros i hi hb rest; [destruct i; discriminate|]. cbn [app first_open]. destruct i as [|i]; cbn [nth_error] in hi.
  - injection hi as ->. rewrite decrypt_multi_seal by exact hX. reflexivity.
  - assert (h0 : decrypt_multi X k nonce c = None \/ decrypt_multi X k nonce c = Some m).
    { unfold decrypt_multi. destruct (Nat.ltb _ _); [auto|]. apply (hb 0 c); [lia|reflexivity]. }
    destruct h0 as [-> | ->]; [|reflexivity]. apply (IH i hi). intros j c' hj hc'. apply (hb (S j) c'); [lia|exact hc'].
Qed.
Lemma str_prefix_map l : str_prefix (map BStr l) = (l, true).
Proof. induction l as [|s l IH]; [reflexivity|]. cbn [map str_prefix]. rewrite IH. reflexivity. Qed.
(** the padding that is added *)
Definition padding_of (junk : nat -> nat -> bytes) (ms : list bytes) (n : nat) (pad : Z) : list bytes :=
  let size := match ms with m :: _ => length m | [] => 0 end in if Nat.eqb size 0 then [] else map (fun i => junk i size) (seq 0 (junk_count n pad)).
Lemma encrypt_simple_inv X junk ms rs priv pub domain nonce pad c : encrypt_simple X junk ms rs priv pub domain nonce pad = Ok c ->
  length nonce = 24 /\ exists cs, encrypt_for_multiple X ms rs nonce priv pub domain false = Ok cs /\
  c = enc (BDict [(b "#", BStr nonce); (b "e", BList (map BStr (cs ++ padding_of junk ms (length cs) pad)))]).
Proof.
  unfold encrypt_simple. destruct (Nat.eqb (length nonce) 24) eqn:E; [|discriminate]. cbn [negb]. destruct (encrypt_for_multiple _ _ _ _ _ _ _ _) as [cs| | | |]; try discriminate. cbn [bind]. cbv zeta.
  intros h. apply Nat.eqb_eq in E. split; [exact E|]. exists cs. split; [reflexivity|]. unfold padding_of. congruence.
Qed.
Lemma simple_bytes nonce es : length nonce = 24 -> (N.of_nat (length (enc (BDict [(b "#", BStr nonce); (b "e", BList (map BStr es))]))) <= uint64_max)%N ->
  bt_ok (BList (map BStr es)) = true.
Proof.
  intros hn hl. assert (he : Forall (fun e => str_ok e = true) es).
  { apply Forall_forall. intros e he. unfold str_ok. apply N.leb_le.
    pose proof (enc_in_list (map BStr es) (BStr e) (in_map _ _ _ he)) as h1.
    pose proof (enc_in_entries [(b "#", BStr nonce); (b "e", BList (map BStr es))] (b "e") (BList (map BStr es)) (or_intror (or_introl eq_refl))) as h2.
    assert (h3 : length (enc_entries [(b "#", BStr nonce); (b "e", BList (map BStr es))]) <= length (enc (BDict [(b "#", BStr nonce); (b "e", BList (map BStr es))]))).
    { change (enc (BDict ?d)) with ("d"%char :: enc_entries d ++ ["e"%char]). cbn [length]. rewrite app_length. lia. }
    assert (h4 : length e <= length (enc (BStr e))) by (cbn [enc]; unfold enc_str; rewrite app_length; cbn [length]; lia). lia. }
  cbn [bt_ok]. clear hl. induction es as [|e es IH]; [reflexivity|]. inversion he; subst. cbn [map forallb bt_ok]. rewrite H1. apply IH. assumption.
Qed.
Lemma decrypt_simple_enc X nonce es priv pub sender domain : length nonce = 24 ->
  (N.of_nat (length (enc (BDict [(b "#", BStr nonce); (b "e", BList (map BStr es))]))) <= uint64_max)%N ->
  decrypt_simple X (enc (BDict [(b "#", BStr nonce); (b "e", BList (map BStr es))])) priv pub sender domain =
  match decrypt_for_multiple X es nonce priv pub sender domain with Ok r => r | _ => None end.
Proof.
  intros hn hl. pose proof (simple_bytes nonce es hn hl) as hb. change (enc (BDict ?d)) with ("d"%char :: enc_entries d ++ ["e"%char]). unfold decrypt_simple.
  rewrite require_str by (reflexivity || (unfold str_ok; rewrite hn; reflexivity)). rewrite hn. cbn [Nat.eqb negb].
  rewrite require_list by (reflexivity || exact hb). rewrite str_prefix_map. reflexivity.
Qed.
Lemma simple_reaches X junk ms rs priv pub domain nonce pad c i r m priv_r k : seal_ok X -> encrypt_simple X junk ms rs priv pub domain nonce pad = Ok c ->
  (N.of_nat (length c) <= uint64_max)%N -> nth_error rs i = Some r -> message_for ms i = Some m -> length priv_r = 32 -> agree X priv pub priv_r r ->
  multi_key X priv_r r pub false domain = Ok k ->
  (forall j rj kj mj, j < i -> nth_error rs j = Some rj -> multi_key X priv pub rj true domain = Ok kj -> message_for ms j = Some mj ->
     x_open X k nonce (x_seal X kj nonce mj) = None \/ x_open X k nonce (x_seal X kj nonce mj) = Some m) ->
  decrypt_simple X c priv_r r pub domain = Some m.
Proof.
  intros hX he hl hr hm hp ha hk hj. destruct (encrypt_simple_inv _ _ _ _ _ _ _ _ _ _ he) as (hn & cs & h1 & ->).
  rewrite decrypt_simple_enc by assumption. destruct (encrypt_multi_nth _ _ _ _ _ _ _ _ h1) as (e1 & _ & e2 & e3 & e4).
  assert (hrl : length r = 32) by (rewrite Forall_forall in e2; apply e2; exact (nth_error_In _ _ hr)).
  unfold decrypt_for_multiple, multi_fields_ok. rewrite hn, hp, hrl, e3. cbn [Nat.leb Nat.eqb andb negb orb]. rewrite hk. cbn [bind].
  assert (hf : firstn 24 nonce = nonce) by (rewrite <- hn; apply firstn_all).
  destruct (agree_key X priv pub priv_r r domain ha) as (k' & k1 & k2). rewrite hk in k2. injection k2 as <-.
  apply first_open_at with (i := i); [exact hX|..].
  - destruct (nth_error cs i) as [c|] eqn:Ec.
    + destruct (e4 i c Ec) as (r' & k' & m' & q1 & q2 & q3 & q4). rewrite hr in q1. injection q1 as <-. rewrite k1 in q2. injection q2 as <-. rewrite hm in q3. injection q3 as <-. rewrite q4. reflexivity.
    + apply nth_error_None in Ec. assert (i < length rs) by (apply nth_error_Some; congruence). lia.
  - intros j c hji hc. destruct (e4 j c hc) as (r' & k' & m' & q1 & q2 & q3 & ->). rewrite hf. exact (hj j r' k' m' hji q1 q2 q3).
Qed.
