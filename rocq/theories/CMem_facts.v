(** Blocks handed to C callers read back as what was put in. *)
From Verif Require Import Bytes Message Base Contacts CMem.

Lemma le_n_length n : forall z, length (le_n n z) = n.
Proof. induction n as [|n IH]; intros z; [reflexivity|]. cbn [le_n length]. rewrite IH. reflexivity. Qed.
Lemma of_le_le_n n : forall z, (0 <= z < 256 ^ Z.of_nat n)%Z -> of_le (le_n n z) = z.
Proof.
  induction n as [|n IH]; intros z h; [cbn in *; lia|]. cbn [le_n of_le]. rewrite N_ascii_embedding.
  2: { pose proof (Z.mod_pos_bound z 256 ltac:(lia)). lia. }
  rewrite Nat2Z.inj_succ, Z.pow_succ_r in h by lia. rewrite IH.
  - rewrite Z2N.id by (apply Z.mod_pos_bound; lia). pose proof (Z.div_mod z 256). lia.
  - split; [apply Z.div_pos; lia|]. apply Z.div_lt_upper_bound; lia.
Qed.
Lemma word_length z : length (word z) = 8.
Proof. apply le_n_length. Qed.
Lemma of_le_word z : (0 <= z < 2 ^ 64)%Z -> of_le (word z) = z.
Proof. intros h. unfold word. rewrite Z.mod_small by exact h. apply of_le_le_n. exact h. Qed.
Lemma signed_word_word z : int64_ok z = true -> signed_word (word z) = z.
Proof.
  unfold int64_ok, int64_min, int64_max. rewrite andb_true_iff, !Z.leb_le. intros [h1 h2]. unfold signed_word, word. rewrite of_le_le_n.
  2: { apply Z.mod_pos_bound. reflexivity. }
  destruct (Z.leb_spec 0 z) as [h|h].
  - rewrite Z.mod_small by lia. destruct (Z.ltb_spec z (2 ^ 63)); lia.
  - replace (z mod 2 ^ 64)%Z with (z + 2 ^ 64)%Z by (apply (Zmod_unique _ _ (-1)); lia). destruct (Z.ltb_spec (z + 2 ^ 64) (2 ^ 63)); lia.
Qed.
Lemma zsize_app x y : zsize (x ++ y) = (zsize x + zsize y)%Z.
Proof. unfold zsize. rewrite app_length. lia. Qed.
Lemma zsize_pos x : (0 <= zsize x)%Z.
Proof. unfold zsize. lia. Qed.
Lemma zsize_word z : zsize (word z) = 8%Z.
Proof. unfold zsize. rewrite word_length. reflexivity. Qed.
Lemma poke_mid base p A x C y : p = (base + zsize A)%Z -> length x = length y -> poke base (A ++ x ++ C) p y = Ok (A ++ y ++ C).
Proof.
  intros -> h. unfold poke, zsize. replace (base + Z.of_nat (length A) - base)%Z with (Z.of_nat (length A)) by lia. rewrite Nat2Z.id.
  replace (base <=? base + Z.of_nat (length A))%Z with true by (symmetry; apply Z.leb_le; lia).
  rewrite !app_length, <- h. replace (length A + length x <=? length A + (length x + length C))%nat with true by (symmetry; apply Nat.leb_le; lia). cbn [andb].
  f_equal. f_equal; [rewrite firstn_app, firstn_all, Nat.sub_diag; apply app_nil_r|]. f_equal. rewrite app_assoc.
  rewrite <- app_length, skipn_app, skipn_all, Nat.sub_diag. reflexivity.
Qed.
Lemma poke_head base x C y : length x = length y -> poke base (x ++ C) base y = Ok (y ++ C).
Proof. intros h. apply (poke_mid base base [] x C y); [unfold zsize; cbn [length]; lia|exact h]. Qed.
Lemma peek_mid base p A x C n : p = (base + zsize A)%Z -> n = length x -> peek base (A ++ x ++ C) p n = Ok x.
Proof.
  intros -> ->. unfold peek, zsize. replace (base + Z.of_nat (length A) - base)%Z with (Z.of_nat (length A)) by lia. rewrite Nat2Z.id.
  replace (base <=? base + Z.of_nat (length A))%Z with true by (symmetry; apply Z.leb_le; lia).
  rewrite !app_length. replace (length A + length x <=? length A + (length x + length C))%nat with true by (symmetry; apply Nat.leb_le; lia). cbn [andb].
  f_equal. rewrite skipn_app, skipn_all, Nat.sub_diag. cbn [app skipn]. rewrite firstn_app, firstn_all, Nat.sub_diag. apply app_nil_r.
Qed.
Lemma term_str v r : term (v ++ Ascii.zero :: r) = Ok (c_str v).
Proof.
  induction v as [|c v IH]; [reflexivity|]. cbn [app term c_str]. destruct (Ascii.eqb c Ascii.zero); [reflexivity|]. rewrite IH. reflexivity.
Qed.

(** ** string arrays *)
Fixpoint ptrs (a : Z) (vals : list bytes) : bytes := match vals with [] => [] | v :: r => word a ++ ptrs (a + zsize v + 1) r end.
Definition strs (vals : list bytes) : bytes := concat (map (fun v => v ++ [Ascii.zero]) vals).
Lemma ptrs_length vals : forall a, length (ptrs a vals) = (length vals * 8)%nat.
Proof. induction vals as [|v r IH]; intros a; [reflexivity|]. cbn [ptrs length]. rewrite app_length, word_length, IH. lia. Qed.
Lemma strs_length vals : length (strs vals) = strs_size vals.
Proof. induction vals as [|v r IH]; [reflexivity|]. unfold strs in *. cbn [map concat strs_size fold_right]. rewrite !app_length, IH. cbn [length]. unfold strs_size. lia. Qed.
Lemma strs_cons v r : strs (v :: r) = (v ++ [Ascii.zero]) ++ strs r.
Proof. reflexivity. Qed.
Lemma cut {A} n (l : list A) : n <= length l -> exists x y, l = x ++ y /\ length x = n.
Proof. intros h. exists (firstn n l), (skipn n l). split; [symmetry; apply firstn_skipn|]. rewrite firstn_length. lia. Qed.
Lemma fill_spec base vals : forall A jp M js, length jp = (length vals * 8)%nat -> length js = strs_size vals ->
  fill base vals (base + zsize A) (base + zsize (A ++ jp ++ M)) (A ++ jp ++ M ++ js) = Ok (A ++ ptrs (base + zsize (A ++ jp ++ M)) vals ++ M ++ strs vals).
Proof.
  induction vals as [|v r IH]; intros A jp M js h1 h2.
  - destruct jp; [|discriminate h1]. destruct js; [|discriminate h2]. reflexivity.
  - cbn [fill ptrs]. destruct (cut 8 jp) as (j1 & j2 & -> & hj); [cbn [length] in h1; lia|].
    cbn [strs_size fold_right] in h2. fold (strs_size r) in h2. destruct (cut (length v + 1) js) as (s1 & s2 & -> & hs); [lia|].
    rewrite app_length in h1, h2. cbn [length] in h1.
    rewrite <- !app_assoc. rewrite (poke_mid base _ A j1) by (rewrite ?word_length; auto). cbn [bind].
    set (a := (base + zsize (A ++ j1 ++ j2 ++ M))%Z).
    replace (A ++ word a ++ j2 ++ M ++ s1 ++ s2) with ((A ++ word a ++ j2 ++ M) ++ s1 ++ s2) by (rewrite <- !app_assoc; reflexivity).
    rewrite (poke_mid base a (A ++ word a ++ j2 ++ M) s1).
    2: { unfold a. rewrite !zsize_app, zsize_word. unfold zsize. rewrite hj. reflexivity. }
    2: { rewrite app_length, hs. reflexivity. }
    cbn [bind]. specialize (IH (A ++ word a) j2 (M ++ v ++ [Ascii.zero]) s2 ltac:(lia) ltac:(lia)).
    replace (base + zsize A + 8)%Z with (base + zsize (A ++ word a))%Z by (rewrite zsize_app, zsize_word; lia).
    replace (a + zsize v + 1)%Z with (base + zsize ((A ++ word a) ++ j2 ++ M ++ v ++ [Ascii.zero]))%Z.
    2: { unfold a. rewrite !zsize_app, zsize_word. unfold zsize. rewrite hj. cbn [length]. lia. }
    replace ((A ++ word a ++ j2 ++ M) ++ (v ++ [Ascii.zero]) ++ s2) with ((A ++ word a) ++ j2 ++ (M ++ v ++ [Ascii.zero]) ++ s2) by (rewrite <- !app_assoc; reflexivity).
    rewrite IH. f_equal. rewrite strs_cons, <- !app_assoc. reflexivity.
Qed.
Lemma fill_push_spec base vals : forall A jp M js, length jp = (length vals * 8)%nat -> length js = strs_size vals ->
  fill_push base vals (base + zsize A) (base + zsize (A ++ jp ++ M)) (A ++ jp ++ M ++ js) = Ok (A ++ ptrs (base + zsize (A ++ jp ++ M)) vals ++ M ++ strs vals).
Proof.
  induction vals as [|v r IH]; intros A jp M js h1 h2.
  - destruct jp; [|discriminate h1]. destruct js; [|discriminate h2]. reflexivity.
  - cbn [fill_push ptrs]. destruct (cut 8 jp) as (j1 & j2 & -> & hj); [cbn [length] in h1; lia|].
    cbn [strs_size fold_right] in h2. fold (strs_size r) in h2. destruct (cut (length v + 1) js) as (s1 & s2 & -> & hs); [lia|].
    rewrite app_length in h1, h2. cbn [length] in h1.
    set (a := (base + zsize (A ++ (j1 ++ j2) ++ M))%Z).
    replace (A ++ (j1 ++ j2) ++ M ++ s1 ++ s2) with ((A ++ (j1 ++ j2) ++ M) ++ s1 ++ s2) by (rewrite <- !app_assoc; reflexivity).
    rewrite (poke_mid base a (A ++ (j1 ++ j2) ++ M) s1) by (unfold a; rewrite ?app_length, ?hs; reflexivity). cbn [bind].
    rewrite <- !app_assoc. rewrite (poke_mid base _ A j1) by (rewrite ?word_length; auto). cbn [bind].
    specialize (IH (A ++ word a) j2 (M ++ v ++ [Ascii.zero]) s2 ltac:(lia) ltac:(lia)).
    replace (base + zsize A + 8)%Z with (base + zsize (A ++ word a))%Z by (rewrite zsize_app, zsize_word; lia).
    replace (a + zsize v + 1)%Z with (base + zsize ((A ++ word a) ++ j2 ++ M ++ v ++ [Ascii.zero]))%Z.
    2: { unfold a. rewrite !zsize_app, zsize_word. unfold zsize. rewrite hj. cbn [length]. lia. }
    replace (A ++ word a ++ j2 ++ M ++ v ++ [Ascii.zero] ++ s2) with ((A ++ word a) ++ j2 ++ (M ++ v ++ [Ascii.zero]) ++ s2) by (rewrite <- !app_assoc; reflexivity).
    rewrite IH. f_equal. rewrite strs_cons, <- !app_assoc. reflexivity.
Qed.
Lemma c_strings_spec base blk vals : (0 <= base)%Z -> (base + zsize blk < 2 ^ 64)%Z -> forall A a X P R,
  blk = A ++ ptrs a vals ++ X -> blk = P ++ strs vals ++ R -> a = (base + zsize P)%Z ->
  c_strings base blk (base + zsize A) (length vals) = Ok (map c_str vals).
Proof.
  intros hb hsz. induction vals as [|v r IH]; intros A a X P R h1 h2 ha; [reflexivity|].
  cbn [length c_strings map]. cbn [ptrs] in h1. rewrite strs_cons in h2.
  assert (hp : peek base blk (base + zsize A) 8 = Ok (word a)).
  { rewrite h1, <- app_assoc. apply peek_mid; [reflexivity|rewrite word_length; reflexivity]. }
  rewrite hp. cbn [bind].
  assert (hrange : (0 <= a < 2 ^ 64)%Z).
  { subst a. pose proof (zsize_pos P). split; [lia|]. rewrite h2, zsize_app in hsz.
    match type of hsz with context [(zsize P + zsize ?y)%Z] => pose proof (zsize_pos y) end. lia. }
  rewrite of_le_word by exact hrange. unfold peek_str. pose proof (zsize_pos P).
  replace (base <=? a)%Z with true by (symmetry; apply Z.leb_le; lia).
  assert (hs : skipn (Z.to_nat (a - base)) blk = v ++ Ascii.zero :: (strs r ++ R)).
  { rewrite h2, ha. replace (base + zsize P - base)%Z with (zsize P) by lia. unfold zsize. rewrite Nat2Z.id, skipn_app, skipn_all, Nat.sub_diag. cbn [app skipn].
    rewrite <- !app_assoc. reflexivity. }
  rewrite hs, term_str. cbn [bind].
  replace (base + zsize A + 8)%Z with (base + zsize (A ++ word a))%Z by (rewrite zsize_app, zsize_word; lia).
  rewrite (IH (A ++ word a) (a + zsize v + 1)%Z X (P ++ v ++ [Ascii.zero]) R).
  - reflexivity.
  - rewrite h1, <- !app_assoc. reflexivity.
  - rewrite h2, <- !app_assoc. reflexivity.
  - rewrite ha, !zsize_app. unfold zsize. cbn [length]. lia.
Qed.

Definition list_size (vals : list bytes) : nat := 16 + length vals * 8 + strs_size vals.
Lemma make_string_list_spec junk base vals : (forall n, length (junk n) = n) ->
  make_string_list junk base vals = Ok (word (base + 16) ++ word (Z.of_nat (length vals)) ++ ptrs (base + 16 + Z.of_nat (length vals) * 8) vals ++ strs vals).
Proof.
  intros hj. unfold make_string_list. set (n := Z.of_nat (length vals)).
  pose proof (hj (16 + length vals * 8 + strs_size vals)) as hl. revert hl. generalize (junk (16 + length vals * 8 + strs_size vals)). intros J hl.
  destruct (cut 8 J) as (j1 & J1 & -> & h1); [lia|]. rewrite app_length in hl. destruct (cut 8 J1) as (j2 & J2 & -> & h2); [lia|]. rewrite app_length in hl.
  destruct (cut (length vals * 8) J2) as (j3 & J3 & -> & h3); [lia|]. rewrite app_length in hl.
  rewrite (poke_mid base _ j1 j2) by (unfold zsize; rewrite ?word_length; lia). cbn [bind].
  rewrite (poke_head base j1) by (rewrite word_length; exact h1). cbn [bind].
  pose proof (fill_spec base vals (word (base + 16) ++ word n) j3 [] J3 h3 ltac:(lia)) as hf.
  rewrite !app_nil_r, <- !app_assoc in hf. cbn [app] in hf. rewrite !zsize_app, !zsize_word in hf.
  replace (base + (8 + 8))%Z with (base + 16)%Z in hf by lia.
  replace (base + (8 + (8 + zsize j3)))%Z with (base + 16 + n * 8)%Z in hf by (unfold zsize, n; rewrite h3; lia).
  rewrite hf. reflexivity.
Qed.
Lemma string_list_readable junk base vals : (forall n, length (junk n) = n) -> (0 <= base)%Z -> (base + Z.of_nat (list_size vals) < 2 ^ 64)%Z ->
  exists blk, make_string_list junk base vals = Ok blk /\ length blk = list_size vals /\ c_read_list base blk = Ok (map c_str vals).
Proof.
  intros hj hb hsz. eexists. split; [apply make_string_list_spec, hj|]. set (n := Z.of_nat (length vals)).
  set (blk := word (base + 16) ++ word n ++ ptrs (base + 16 + n * 8) vals ++ strs vals).
  assert (hl : length blk = list_size vals). { unfold blk. rewrite !app_length, !word_length, ptrs_length, strs_length. unfold list_size. lia. }
  split; [exact hl|]. unfold c_read_list.
  assert (e1 : peek base blk base 8 = Ok (word (base + 16))).
  { apply (peek_mid base base [] (word (base + 16))); [unfold zsize; cbn [length]; lia|rewrite word_length; reflexivity]. }
  assert (e2 : peek base blk (base + 8) 8 = Ok (word n)).
  { apply (peek_mid base (base + 8) (word (base + 16)) (word n)); [rewrite zsize_word; reflexivity|rewrite word_length; reflexivity]. }
  unfold list_size in hsz. rewrite e1, e2. cbn [bind]. rewrite !of_le_word by (unfold n; lia). unfold n at 1. rewrite Nat2Z.id.
  replace (base + 16)%Z with (base + zsize (word (base + 16) ++ word n))%Z by (rewrite zsize_app, !zsize_word; lia).
  apply (c_strings_spec base blk vals hb) with (a := (base + 16 + n * 8)%Z) (X := strs vals) (P := word (base + 16) ++ word n ++ ptrs (base + 16 + n * 8) vals) (R := []).
  - unfold zsize. rewrite hl. unfold list_size. lia.
  - unfold blk. rewrite <- !app_assoc. reflexivity.
  - unfold blk. rewrite app_nil_r, <- !app_assoc. reflexivity.
  - rewrite !zsize_app, !zsize_word. unfold zsize. rewrite ptrs_length. unfold n. lia.
Qed.

Definition push_size (data : bytes) (obs : list bytes) : nat := 40 + length obs * 8 + length data + strs_size obs.
Lemma push_sum obs : fold_right (fun v n => length v + n) 0 obs + length obs = strs_size obs.
Proof. induction obs as [|v r IH]; [reflexivity|]. cbn [fold_right length strs_size]. fold (strs_size r). lia. Qed.
Lemma push_block_spec junk base seqno data obs : (forall n, length (junk n) = n) -> let n := Z.of_nat (length obs) in
  push_block junk base seqno data obs =
    Ok (word seqno ++ word (base + 40 + n * 8) ++ word (zsize data) ++ word (base + 40) ++ word n ++ ptrs (base + 40 + n * 8 + zsize data) obs ++ data ++ strs obs).
Proof.
  intros hj n. unfold push_block. fold n. cbv zeta.
  match goal with |- context [junk ?k] => pose proof (hj k) as hl; assert (hk : k = push_size data obs) by (unfold push_size; pose proof (push_sum obs) as hq; unfold bytes in *; lia); rewrite hk in * end.
  revert hl. generalize (junk (push_size data obs)). intros J hl. unfold push_size in hl.
  destruct (cut 8 J) as (j1 & J1 & -> & h1); [lia|]. rewrite app_length in hl. destruct (cut 8 J1) as (j2 & J2 & -> & h2); [lia|]. rewrite app_length in hl.
  destruct (cut 8 J2) as (j3 & J3 & -> & h3); [lia|]. rewrite app_length in hl. destruct (cut 8 J3) as (j4 & J4 & -> & h4); [lia|]. rewrite app_length in hl.
  destruct (cut 8 J4) as (j5 & J5 & -> & h5); [lia|]. rewrite app_length in hl.
  destruct (cut (length obs * 8) J5) as (j6 & J6 & -> & h6); [lia|]. rewrite app_length in hl.
  destruct (cut (length data) J6) as (j7 & J7 & -> & h7); [lia|]. rewrite app_length in hl.
  rewrite (poke_head base j1) by (rewrite word_length; exact h1). cbn [bind].
  replace (word seqno ++ j2 ++ j3 ++ j4 ++ j5 ++ j6 ++ j7 ++ J7) with ((word seqno ++ j2 ++ j3) ++ j4 ++ j5 ++ j6 ++ j7 ++ J7) by (rewrite <- !app_assoc; reflexivity).
  rewrite (poke_mid base (base + 24) (word seqno ++ j2 ++ j3) j4) by (rewrite ?zsize_app, ?zsize_word; unfold zsize; rewrite ?word_length; lia). cbn [bind].
  replace ((word seqno ++ j2 ++ j3) ++ word (base + 40) ++ j5 ++ j6 ++ j7 ++ J7) with ((word seqno ++ j2 ++ j3 ++ word (base + 40)) ++ j5 ++ j6 ++ j7 ++ J7) by (rewrite <- !app_assoc; reflexivity).
  rewrite (poke_mid base (base + 32) _ j5) by (rewrite ?zsize_app, ?zsize_word; unfold zsize; rewrite ?word_length; lia). cbn [bind].
  replace ((word seqno ++ j2 ++ j3 ++ word (base + 40)) ++ word n ++ j6 ++ j7 ++ J7) with (word seqno ++ j2 ++ (j3 ++ word (base + 40) ++ word n ++ j6 ++ j7 ++ J7)) by (rewrite <- !app_assoc; reflexivity).
  rewrite (poke_mid base (base + 8) (word seqno) j2) by (rewrite ?zsize_word, ?word_length; lia). cbn [bind].
  replace (word seqno ++ word (base + 40 + n * 8) ++ j3 ++ word (base + 40) ++ word n ++ j6 ++ j7 ++ J7) with
    ((word seqno ++ word (base + 40 + n * 8)) ++ j3 ++ (word (base + 40) ++ word n ++ j6 ++ j7 ++ J7)) by (rewrite <- !app_assoc; reflexivity).
  rewrite (poke_mid base (base + 16) _ j3) by (rewrite ?zsize_app, ?zsize_word, ?word_length; lia). cbn [bind].
  set (A := word seqno ++ word (base + 40 + n * 8) ++ word (zsize data) ++ word (base + 40) ++ word n).
  assert (hA : zsize A = 40%Z) by (unfold A; rewrite !zsize_app, !zsize_word; reflexivity).
  replace ((word seqno ++ word (base + 40 + n * 8)) ++ word (zsize data) ++ word (base + 40) ++ word n ++ j6 ++ j7 ++ J7) with ((A ++ j6) ++ j7 ++ J7) by (unfold A; rewrite <- !app_assoc; reflexivity).
  rewrite (poke_mid base _ (A ++ j6) j7) by (rewrite ?zsize_app, ?hA; unfold zsize, n; rewrite ?h6; lia). cbn [bind].
  pose proof (fill_push_spec base obs A j6 data J7 h6 ltac:(lia)) as hf. rewrite <- !app_assoc. rewrite hA in hf.
  replace (base + zsize (A ++ j6 ++ data))%Z with (base + 40 + n * 8 + zsize data)%Z in hf by (rewrite !zsize_app, hA; unfold zsize, n; rewrite h6; lia).
  rewrite hf. unfold A. rewrite <- !app_assoc. reflexivity.
Qed.
Lemma push_readable junk base seqno data obs : (forall n, length (junk n) = n) -> (0 <= base)%Z -> (base + Z.of_nat (push_size data obs) < 2 ^ 64)%Z -> int64_ok seqno = true ->
  exists blk, push_block junk base seqno data obs = Ok blk /\ length blk = push_size data obs /\ c_read_push base blk = Ok (seqno, data, map c_str obs).
Proof.
  intros hj hb hsz hq. eexists. split; [apply push_block_spec, hj|]. set (n := Z.of_nat (length obs)).
  set (w1 := word seqno). set (w2 := word (base + 40 + n * 8)). set (w3 := word (zsize data)). set (w4 := word (base + 40)). set (w5 := word n).
  set (P := ptrs (base + 40 + n * 8 + zsize data) obs). set (blk := w1 ++ w2 ++ w3 ++ w4 ++ w5 ++ P ++ data ++ strs obs).
  assert (hP : length P = (length obs * 8)%nat) by apply ptrs_length.
  assert (hw1 : length w1 = 8) by apply word_length. assert (hw2 : length w2 = 8) by apply word_length. assert (hw3 : length w3 = 8) by apply word_length.
  assert (hw4 : length w4 = 8) by apply word_length. assert (hw5 : length w5 = 8) by apply word_length.
  assert (hl : length blk = push_size data obs). { unfold blk. rewrite !app_length, hw1, hw2, hw3, hw4, hw5, hP, strs_length. unfold push_size. lia. }
  split; [exact hl|]. unfold c_read_push. unfold push_size in hsz.
  assert (e1 : peek base blk base 8 = Ok w1) by (apply (peek_mid base base [] w1); [unfold zsize; cbn [length]; lia|rewrite hw1; reflexivity]).
  assert (e2 : peek base blk (base + 8) 8 = Ok w2) by (apply (peek_mid base (base + 8) w1 w2); [unfold zsize; rewrite hw1; reflexivity|rewrite hw2; reflexivity]).
  assert (e3 : peek base blk (base + 16) 8 = Ok w3).
  { unfold blk. rewrite app_assoc. apply peek_mid; [rewrite zsize_app; unfold zsize; rewrite hw1, hw2; reflexivity|rewrite hw3; reflexivity]. }
  assert (e4 : peek base blk (base + 24) 8 = Ok w4).
  { unfold blk. replace (w1 ++ w2 ++ w3 ++ w4 ++ w5 ++ P ++ data ++ strs obs) with ((w1 ++ w2 ++ w3) ++ w4 ++ (w5 ++ P ++ data ++ strs obs)) by (rewrite <- !app_assoc; reflexivity).
    apply peek_mid; [rewrite !zsize_app; unfold zsize; rewrite hw1, hw2, hw3; reflexivity|rewrite hw4; reflexivity]. }
  assert (e5 : peek base blk (base + 32) 8 = Ok w5).
  { unfold blk. replace (w1 ++ w2 ++ w3 ++ w4 ++ w5 ++ P ++ data ++ strs obs) with ((w1 ++ w2 ++ w3 ++ w4) ++ w5 ++ (P ++ data ++ strs obs)) by (rewrite <- !app_assoc; reflexivity).
    apply peek_mid; [rewrite !zsize_app; unfold zsize; rewrite hw1, hw2, hw3, hw4; reflexivity|rewrite hw5; reflexivity]. }
  rewrite e1, e2, e3, e4, e5. cbn [bind]. unfold w2, w3, w4, w5.
  rewrite (of_le_word (base + 40 + n * 8)) by (unfold n; lia). rewrite (of_le_word (zsize data)) by (unfold zsize; lia).
  rewrite (of_le_word (base + 40)) by lia. rewrite (of_le_word n) by (unfold n; lia). fold w2 w3 w4 w5.
  set (A := w1 ++ w2 ++ w3 ++ w4 ++ w5). assert (hA : zsize A = 40%Z) by (unfold A; rewrite !zsize_app; unfold zsize; rewrite hw1, hw2, hw3, hw4, hw5; reflexivity).
  assert (e6 : peek base blk (base + 40 + n * 8) (Z.to_nat (zsize data)) = Ok data).
  { replace blk with ((A ++ P) ++ data ++ strs obs) by (unfold blk, A; rewrite <- !app_assoc; reflexivity).
    apply peek_mid; [rewrite zsize_app, hA; unfold zsize; rewrite hP; unfold n; lia|unfold zsize; rewrite Nat2Z.id; reflexivity]. }
  rewrite e6. cbn [bind]. unfold n at 1. rewrite Nat2Z.id. rewrite <- hA.
  assert (e7 : c_strings base blk (base + zsize A) (length obs) = Ok (map c_str obs)).
  { apply (c_strings_spec base blk obs hb) with (a := (base + 40 + n * 8 + zsize data)%Z) (X := data ++ strs obs) (P := A ++ P ++ data) (R := []).
    - unfold zsize. rewrite hl. unfold push_size. lia.
    - unfold blk, A. rewrite <- !app_assoc. reflexivity.
    - unfold blk, A. rewrite app_nil_r, <- !app_assoc. reflexivity.
    - rewrite !zsize_app, hA. unfold zsize. rewrite hP. unfold n. lia. }
  rewrite e7. cbn [bind]. unfold w1. rewrite signed_word_word by exact hq. reflexivity.
Qed.

(** ** keys *)
Lemma fill_keys_spec base ks : Forall (fun k : bytes => length k = 32) ks -> forall A J, length J = (32 * length ks)%nat ->
  fill_keys base ks (base + zsize A) (A ++ J) = Ok (A ++ concat ks).
Proof.
  induction 1 as [|k r hk hr IH]; intros A J hJ.
  - destruct J; [reflexivity|discriminate hJ].
  - cbn [fill_keys concat]. destruct (cut 32 J) as (j1 & J1 & -> & h1); [cbn [length] in hJ; lia|].
    assert (hp : peek 0 k 0 32 = Ok k).
    { pose proof (peek_mid 0 0 [] k [] 32 ltac:(reflexivity) ltac:(symmetry; exact hk)) as hp. rewrite app_nil_r in hp. exact hp. }
    rewrite hp. cbn [bind]. rewrite poke_mid by (reflexivity || (rewrite h1, hk; reflexivity)). cbn [bind].
    replace (base + zsize A + 32)%Z with (base + zsize (A ++ k))%Z by (rewrite zsize_app; unfold zsize; rewrite hk; lia).
    rewrite app_assoc, IH; [rewrite <- app_assoc; reflexivity|]. rewrite app_length, h1 in hJ. cbn [length] in hJ. lia.
Qed.
Lemma c_read_keys_spec base ks : Forall (fun k : bytes => length k = 32) ks -> forall A,
  c_read_keys base (A ++ concat ks) (base + zsize A) (length ks) = Ok ks.
Proof.
  induction 1 as [|k r hk hr IH]; intros A; [reflexivity|]. cbn [length c_read_keys concat].
  rewrite (peek_mid base _ A k) by (reflexivity || (symmetry; exact hk)). cbn [bind].
  replace (base + zsize A + 32)%Z with (base + zsize (A ++ k))%Z by (rewrite zsize_app; unfold zsize; rewrite hk; lia).
  rewrite app_assoc, IH. reflexivity.
Qed.
Lemma concat32 ks : Forall (fun k : bytes => length k = 32) ks -> length (concat ks) = (32 * length ks)%nat.
Proof. induction 1 as [|k r hk hr IH]; [reflexivity|]. cbn [concat length]. rewrite app_length, IH, hk. lia. Qed.
Lemma keys_readable junk base ks : (forall n, length (junk n) = n) -> Forall (fun k : bytes => length k = 32) ks -> ks <> [] ->
  exists blk, keys_block junk base ks = Ok (Z.of_nat (length ks), Some blk) /\ length blk = (32 * length ks)%nat /\ c_read_keys base blk base (length ks) = Ok ks.
Proof.
  intros hj hk hne. exists (concat ks).
  pose proof (fill_keys_spec base ks hk [] (junk (32 * length ks)%nat) (hj _)) as h. unfold zsize in h. cbn [length app] in h. rewrite Z.add_0_r in h.
  split; [|split].
  - unfold keys_block. destruct ks as [|k r]; [congruence|]. rewrite h. reflexivity.
  - apply concat32, hk.
  - pose proof (c_read_keys_spec base ks hk []) as h2. unfold zsize in h2. cbn [length app] in h2. rewrite Z.add_0_r in h2. exact h2.
Qed.
Lemma c_str_fix v : c_str (c_str v) = c_str v.
Proof. induction v as [|c v IH]; [reflexivity|]. cbn [c_str]. destruct (Ascii.eqb c Ascii.zero) eqn:E; [reflexivity|]. cbn [c_str]. rewrite E, IH. reflexivity. Qed.
