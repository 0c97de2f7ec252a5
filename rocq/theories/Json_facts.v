(** Facts about Json.v: the parser's fuel is enough, and it reads back what was dumped. *)
From Verif Require Import Json Hex_facts Bt_facts.
From Coq Require Import Lia.
From Coq Require DecimalN DecimalFacts.

(** ** every scanner consumes *)
Lemma take_ranges_S lo hi rs c s : take_ranges ((lo, hi) :: rs) (c :: s) = if in_range lo hi c then match take_ranges rs s with Some (t, r) => Some (c :: t, r) | None => None end else None.
Proof. reflexivity. Qed.
Lemma take_ranges_app rs : forall s t r, take_ranges rs s = Some (t, r) -> s = t ++ r /\ length t = length rs /\ forall r', take_ranges rs (t ++ r') = Some (t, r').
Proof.
  induction rs as [|[lo hi] rs IH]; intros s t r h; cbn [take_ranges] in h.
  - injection h as h1 h2. subst t r. split; [reflexivity|]. split; [reflexivity|]. intros r'. reflexivity.
  - destruct s as [|c s]; [discriminate|]. destruct (in_range lo hi c) eqn:e; [|discriminate]. destruct (take_ranges rs s) as [[t' r1]|] eqn:et; [|discriminate].
    injection h as h1 h2. subst t r. destruct (IH _ _ _ et) as (-> & hl & hr). split; [reflexivity|]. split; [cbn [length]; congruence|].
    intros r'. rewrite <- app_comm_cons, take_ranges_S, e, hr. reflexivity.
Qed.
Lemma utf8_next_app s u r : utf8_next s = Some (u, r) -> s = u ++ r /\ (exists c t, u = c :: t /\ ((t = [] /\ (N_of_ascii c < 128)%N) \/ (t <> [] /\ (128 <= N_of_ascii c)%N))) /\
  forall r', utf8_next (u ++ r') = Some (u, r').
Proof.
  unfold utf8_next. destruct s as [|c s]; [discriminate|]. destruct (utf8_tail c) as [rs|] eqn:e; [|discriminate]. destruct (take_ranges rs s) as [[t r1]|] eqn:et; [|discriminate].
  intros h. injection h as h1 h2. subst u r. destruct (take_ranges_app _ _ _ _ et) as (-> & hl & hr). split; [reflexivity|]. split.
  - exists c, t. split; [reflexivity|]. unfold utf8_tail in e. destruct (in_range 0 127 c) eqn:e0.
    + left. assert (hrs : rs = []) by congruence. subst rs. destruct t as [|x t]; [|discriminate]. split; [reflexivity|]. unfold in_range in e0. apply andb_true_iff in e0 as [_ e0]. apply N.leb_le in e0. lia.
    + right. split.
      * intros ->. cbn [length] in hl. destruct rs as [|x rs]; [|discriminate].
        repeat match type of e with (if ?q then _ else _) = _ => destruct q; [discriminate|] end. discriminate.
      * unfold in_range in e0. apply andb_false_iff in e0 as [e0|e0]; apply N.leb_gt in e0; lia.
  - intros r'. rewrite <- app_comm_cons. cbv beta iota. rewrite e, hr. reflexivity.
Qed.
Lemma skip_ws_len s : length (skip_ws s) <= length s.
Proof. induction s as [|c s IH]; [reflexivity|]. cbn [skip_ws length]. destruct (is_ws c); [lia|reflexivity]. Qed.
Lemma expect_len c s r : expect c s = Some r -> length r < length s.
Proof.
  unfold expect. pose proof (skip_ws_len s) as h. destruct (skip_ws s) as [|d t]; [discriminate|]. destruct (Ascii.eqb c d); [|discriminate].
  intros e. injection e as <-. cbn [length] in h. lia.
Qed.
Lemma hex4_len s n r : hex4 s = Some (n, r) -> length r < length s.
Proof.
  unfold hex4. destruct s as [|x [|y [|z [|w s]]]]; try discriminate. destruct (hex_digit x), (hex_digit y), (hex_digit z), (hex_digit w); try discriminate.
  intros e. injection e as _ <-. cbn [length]. lia.
Qed.
Lemma unescape_u_len s u r : unescape_u s = Some (u, r) -> length r < length s.
Proof.
  unfold unescape_u. destruct (hex4 s) as [[n r1]|] eqn:e; [|discriminate]. apply hex4_len in e.
  destruct ((55296 <=? n)%N && (n <=? 56319)%N).
  - destruct r1 as [|c [|d r2]]; try discriminate. destruct (Ascii.eqb c BACKSLASH && Ascii.eqb d "u"); [|discriminate]. destruct (hex4 r2) as [[m r3]|] eqn:e2; [|discriminate].
    apply hex4_len in e2. destruct ((56320 <=? m)%N && (m <=? 57343)%N); [|discriminate]. intros h. injection h as _ <-. cbn [length] in e. lia.
  - destruct ((56320 <=? n)%N && (n <=? 57343)%N); [discriminate|]. intros h. injection h as _ <-. exact e.
Qed.
Lemma unescape_len s u r : unescape s = Some (u, r) -> length r < length s.
Proof.
  unfold unescape. destruct s as [|c s]; [discriminate|].
  repeat match goal with |- (if ?q then _ else _) = _ -> _ => destruct q; [intros h; injection h as _ <-; cbn [length]; lia|] end.
  destruct (Ascii.eqb c "u"); [|discriminate]. intros h. apply unescape_u_len in h. cbn [length]. lia.
Qed.
Definition step_str (c : ascii) (r : bytes) : option (bytes * bytes) :=
  if Ascii.eqb c BACKSLASH then unescape r else if (N_of_ascii c <? 32)%N then None else utf8_next (c :: r).
Lemma step_str_len c r u r' : step_str c r = Some (u, r') -> length r' < S (length r).
Proof.
  unfold step_str. destruct (Ascii.eqb c BACKSLASH); [intros h; apply unescape_len in h; lia|]. destruct (N_of_ascii c <? 32)%N; [discriminate|].
  intros h. apply utf8_next_app in h as (h & (d & t & -> & _) & _). apply (f_equal (@length ascii)) in h. rewrite app_length in h. cbn [length] in h. lia.
Qed.
Lemma scan_str_S f c r : scan_str (S f) (c :: r) = if Ascii.eqb c QUOTE then Some ([], r) else
  match step_str c r with Some (u, r1) => match scan_str f r1 with Some (t, r2) => Some (u ++ t, r2) | None => None end | None => None end.
Proof. reflexivity. Qed.
Lemma scan_str_len f : forall s t r, scan_str f s = Some (t, r) -> length r < length s.
Proof.
  induction f as [|f IH]; intros s t r; [discriminate|]. destruct s as [|c s]; [discriminate|]. rewrite scan_str_S. destruct (Ascii.eqb c QUOTE).
  - intros h. injection h as _ <-. cbn [length]. lia.
  - destruct (step_str c s) as [[u r1]|] eqn:e; [|discriminate]. apply step_str_len in e. destruct (scan_str f r1) as [[t1 r2]|] eqn:e2; [|discriminate]. apply IH in e2. intros h. injection h as _ <-. cbn [length]. lia.
Qed.
Lemma scan_str_fuel f : forall g s, length s <= f -> length s <= g -> scan_str f s = scan_str g s.
Proof.
  induction f as [|f IH]; intros g s hf hg.
  - destruct s as [|c s]; [|cbn [length] in hf; lia]. destruct g; reflexivity.
  - destruct s as [|c s]; [destruct g; reflexivity|]. cbn [length] in hf, hg. destruct g as [|g]; [lia|]. rewrite !scan_str_S. destruct (Ascii.eqb c QUOTE); [reflexivity|].
    destruct (step_str c s) as [[u r1]|] eqn:e; [|reflexivity]. apply step_str_len in e. rewrite (IH g r1) by lia. reflexivity.
Qed.
Lemma digits_app s : fst (digits s) ++ snd (digits s) = s.
Proof. induction s as [|c s IH]; [reflexivity|]. cbn [digits]. destruct (is_digit c); [cbn [fst snd app]; congruence|reflexivity]. Qed.
Lemma digits1_len s d r : digits1 s = Some (d, r) -> length r < length s.
Proof.
  unfold digits1. pose proof (digits_app s) as h. destruct (digits s) as [x y]. cbn [fst snd] in *. destruct x as [|c x]; [discriminate|]. intros e. injection e as <- <-.
  apply (f_equal (@length ascii)) in h. rewrite app_length in h. cbn [length] in h. lia.
Qed.
Lemma scan_int_len s d r : scan_int s = Some (d, r) -> length r < length s.
Proof. unfold scan_int. destruct s as [|c s]; [discriminate|]. destruct (Ascii.eqb c "0"); [intros h; injection h as _ <-; cbn [length]; lia|apply digits1_len]. Qed.
Lemma scan_frac_len s d r : scan_frac s = Some (d, r) -> length r <= length s.
Proof.
  unfold scan_frac. destruct s as [|c s]; [intros h; injection h as _ <-; reflexivity|]. destruct (Ascii.eqb c "."); [|intros h; injection h as _ <-; reflexivity].
  intros h. apply digits1_len in h. cbn [length]. lia.
Qed.
Lemma scan_sign_len s : length (snd (scan_sign s)) <= length s.
Proof. unfold scan_sign. destruct s as [|c s]; [reflexivity|]. destruct (Ascii.eqb c "-" || Ascii.eqb c "+"); cbn [snd length]; lia. Qed.
Lemma scan_exp_len s e r : scan_exp s = Some (e, r) -> length r <= length s.
Proof.
  unfold scan_exp. destruct s as [|c s]; [intros h; injection h as _ <-; reflexivity|]. destruct (Ascii.eqb c "e" || Ascii.eqb c "E"); [|intros h; injection h as _ <-; reflexivity].
  cbv zeta. destruct (digits1 (snd (scan_sign s))) as [[d r1]|] eqn:e1; [|discriminate]. intros h. injection h as _ <-. apply digits1_len in e1. pose proof (scan_sign_len s). cbn [length]. lia.
Qed.
Lemma scan_num_len s j r : scan_num s = Some (j, r) -> length r < length s.
Proof.
  unfold scan_num. cbv zeta. set (s1 := match s with c :: r => if Ascii.eqb c "-" then r else s | [] => [] end).
  assert (h1 : length s1 <= length s). { unfold s1. destruct s as [|c s']; [reflexivity|]. destruct (Ascii.eqb c "-"); cbn [length]; lia. }
  destruct (scan_int s1) as [[i s2]|] eqn:e1; [|discriminate]. destruct (scan_frac s2) as [[f s3]|] eqn:e2; [|discriminate]. destruct (scan_exp s3) as [[e s4]|] eqn:e3; [|discriminate].
  apply scan_int_len in e1. apply scan_frac_len in e2. apply scan_exp_len in e3. destruct (finite _ _); [|discriminate]. intros h. injection h as _ <-. lia.
Qed.
Lemma scan_literal_len w j s k r : w <> [] -> scan_literal w j s = Some (k, r) -> length r < length s.
Proof.
  intros hw. unfold scan_literal. destruct (eqb (firstn (length w) s) w) eqn:e; [|discriminate]. intros h. injection h as _ <-. apply eqb_eq in e. apply (f_equal (@length ascii)) in e. rewrite firstn_length in e. rewrite skipn_length.
  destruct w as [|x w]; [congruence|]. cbn [length] in *. lia.
Qed.

(** the scanners with the recursive calls named *)
Lemma val_S f s : scan_val (S f) s =
  match skip_ws s with
  | [] => None
  | c :: r =>
      if Ascii.eqb c "{" then match expect "}" r with Some r' => Some (JObj [], r') | None => scan_members f [] r end
      else if Ascii.eqb c "[" then match expect "]" r with Some r' => Some (JArr [], r') | None => scan_items f [] r end
      else if Ascii.eqb c QUOTE then match scan_str f r with Some (t, r) => Some (JStr t, r) | None => None end
      else if Ascii.eqb c "-" || is_digit c then scan_num (c :: r)
      else if Ascii.eqb c "t" then scan_literal (b "true") (JBool true) (c :: r)
      else if Ascii.eqb c "f" then scan_literal (b "false") (JBool false) (c :: r)
      else if Ascii.eqb c "n" then scan_literal (b "null") JNull (c :: r)
      else None
  end.
Proof. reflexivity. Qed.
Lemma members_S f m s : scan_members (S f) m s =
  match expect QUOTE s with
  | None => None
  | Some r =>
      match scan_str f r with
      | None => None
      | Some (k, r) =>
          match expect ":" r with
          | None => None
          | Some r =>
              match scan_val f r with
              | None => None
              | Some (v, r) =>
                  match expect "," r with
                  | Some r => scan_members f (insert k v m) r
                  | None => match expect "}" r with Some r => Some (JObj (insert k v m), r) | None => None end
                  end
              end
          end
      end
  end.
Proof. reflexivity. Qed.
Lemma items_S f l s : scan_items (S f) l s =
  match scan_val f s with
  | None => None
  | Some (v, r) =>
      match expect "," r with
      | Some r => scan_items f (l ++ [v]) r
      | None => match expect "]" r with Some r => Some (JArr (l ++ [v]), r) | None => None end
      end
  end.
Proof. reflexivity. Qed.
Lemma scan_len f : (forall s j r, scan_val f s = Some (j, r) -> length r < length s) /\ (forall m s j r, scan_members f m s = Some (j, r) -> length r < length s) /\
  (forall l s j r, scan_items f l s = Some (j, r) -> length r < length s).
Proof.
  induction f as [|f (IHv & IHm & IHi)]; [repeat split; intros; discriminate|]. split; [|split].
  - intros s j r. rewrite val_S. pose proof (skip_ws_len s) as hs. destruct (skip_ws s) as [|c t]; [discriminate|]. cbn [length] in hs.
    destruct (Ascii.eqb c "{"). { destruct (expect "}" t) as [r'|] eqn:e; [intros h; injection h as _ <-; apply expect_len in e; lia|intros h; apply IHm in h; lia]. }
    destruct (Ascii.eqb c "["). { destruct (expect "]" t) as [r'|] eqn:e; [intros h; injection h as _ <-; apply expect_len in e; lia|intros h; apply IHi in h; lia]. }
    destruct (Ascii.eqb c QUOTE). { destruct (scan_str f t) as [[x r1]|] eqn:e; [|discriminate]. intros h; injection h as _ <-. apply scan_str_len in e. lia. }
    destruct (Ascii.eqb c "-" || is_digit c). { intros h. apply scan_num_len in h. cbn [length] in h. lia. }
    destruct (Ascii.eqb c "t"). { intros h. apply scan_literal_len in h; [cbn [length] in h; lia|discriminate]. }
    destruct (Ascii.eqb c "f"). { intros h. apply scan_literal_len in h; [cbn [length] in h; lia|discriminate]. }
    destruct (Ascii.eqb c "n"); [|discriminate]. intros h. apply scan_literal_len in h; [cbn [length] in h; lia|discriminate].
  - intros m s j r. rewrite members_S. destruct (expect QUOTE s) as [r1|] eqn:e1; [|discriminate]. destruct (scan_str f r1) as [[k r2]|] eqn:e2; [|discriminate].
    destruct (expect ":" r2) as [r3|] eqn:e3; [|discriminate]. destruct (scan_val f r3) as [[v r4]|] eqn:e4; [|discriminate]. apply expect_len in e1, e3. apply scan_str_len in e2. apply IHv in e4.
    destruct (expect "," r4) as [r5|] eqn:e5; [apply expect_len in e5; intros h; apply IHm in h; lia|]. destruct (expect "}" r4) as [r5|] eqn:e6; [|discriminate]. apply expect_len in e6. intros h. injection h as _ <-. lia.
  - intros l s j r. rewrite items_S. destruct (scan_val f s) as [[v r4]|] eqn:e4; [|discriminate]. apply IHv in e4.
    destruct (expect "," r4) as [r5|] eqn:e5; [apply expect_len in e5; intros h; apply IHi in h; lia|]. destruct (expect "]" r4) as [r5|] eqn:e6; [|discriminate]. apply expect_len in e6. intros h. injection h as _ <-. lia.
Qed.
(** more fuel than json_parse gives changes nothing *)
Lemma scan_fuel f : (forall g s, 2 * length s + 1 <= f -> 2 * length s + 1 <= g -> scan_val f s = scan_val g s) /\
  (forall g m s, 2 * length s + 1 <= f -> 2 * length s + 1 <= g -> scan_members f m s = scan_members g m s) /\
  (forall g l s, 2 * length s + 2 <= f -> 2 * length s + 2 <= g -> scan_items f l s = scan_items g l s).
Proof.
  induction f as [|f (IHv & IHm & IHi)]; [repeat split; intros; lia|]. split; [|split].
  - intros g s hf hg. destruct g as [|g]; [lia|]. rewrite !val_S. pose proof (skip_ws_len s) as hs. destruct (skip_ws s) as [|c t]; [reflexivity|]. cbn [length] in hs.
    destruct (Ascii.eqb c "{"). { destruct (expect "}" t); [reflexivity|]. apply IHm; lia. }
    destruct (Ascii.eqb c "["). { destruct (expect "]" t); [reflexivity|]. apply IHi; lia. }
    destruct (Ascii.eqb c QUOTE); [|reflexivity]. rewrite (scan_str_fuel f g) by lia. reflexivity.
  - intros g m s hf hg. destruct g as [|g]; [lia|]. rewrite !members_S. destruct (expect QUOTE s) as [r1|] eqn:e1; [|reflexivity]. apply expect_len in e1. rewrite (scan_str_fuel f g) by lia.
    destruct (scan_str g r1) as [[k r2]|] eqn:e2; [|reflexivity]. apply scan_str_len in e2. destruct (expect ":" r2) as [r3|] eqn:e3; [|reflexivity]. apply expect_len in e3. rewrite (IHv g) by lia.
    destruct (scan_val g r3) as [[v r4]|] eqn:e4; [|reflexivity]. apply (proj1 (scan_len g)) in e4. destruct (expect "," r4) as [r5|] eqn:e5; [|reflexivity]. apply expect_len in e5. apply IHm; lia.
  - intros g l s hf hg. destruct g as [|g]; [lia|]. rewrite !items_S. rewrite (IHv g) by lia. destruct (scan_val g s) as [[v r4]|] eqn:e4; [|reflexivity]. apply (proj1 (scan_len g)) in e4.
    destruct (expect "," r4) as [r5|] eqn:e5; [|reflexivity]. apply expect_len in e5. apply IHi; lia.
Qed.

(** ** reading back what was dumped *)
Lemma scan_dump_char f c rest : (N_of_ascii c < 128)%N -> scan_str (S f) (dump_char c ++ rest) = match scan_str f rest with Some (t, r) => Some (c :: t, r) | None => None end.
Proof.
  intros h. destruct c as [[] [] [] [] [] [] [] []]; try (exfalso; apply N.ltb_lt in h; vm_compute in h; discriminate); reflexivity.
Qed.
Lemma dump_char_len c : 1 <= length (dump_char c).
Proof. unfold dump_char. destruct (short_escape _); [cbn [length]; lia|]. destruct (N_of_ascii c <? 32)%N; cbn [app length]; [rewrite app_length; cbn|]; lia. Qed.
Lemma scan_dump_chars f : forall s t, dump_chars f s = Some t -> forall rest, exists g, scan_str g (t ++ QUOTE :: rest) = Some (s, rest).
Proof.
  induction f as [|f IH]; intros s t h rest; [discriminate|]. cbn [dump_chars] in h. destruct s as [|c s].
  - injection h as <-. exists 1. reflexivity.
  - destruct (utf8_next (c :: s)) as [[u r]|] eqn:e; [|discriminate]. destruct (dump_chars f r) as [t1|] eqn:et; [|discriminate]. destruct (IH _ _ et rest) as (g & hg).
    apply utf8_next_app in e as (e & (d & x & hu & hx) & happ). rewrite e. subst u. exists (S g). destruct hx as [[-> hd]|[hx hd]].
    + assert (ht : t = dump_char d ++ t1) by congruence. subst t. rewrite <- app_assoc, scan_dump_char by exact hd. rewrite hg. reflexivity.
    + destruct x as [|y x]; [congruence|]. assert (ht : t = (d :: y :: x) ++ t1) by congruence. subst t. rewrite <- app_assoc. cbn [app]. rewrite scan_str_S.
      assert (hq : Ascii.eqb d QUOTE = false) by (apply Ascii.eqb_neq; intros ->; apply N.leb_le in hd; vm_compute in hd; discriminate). rewrite hq.
      unfold step_str. assert (hb : Ascii.eqb d BACKSLASH = false) by (apply Ascii.eqb_neq; intros ->; apply N.leb_le in hd; vm_compute in hd; discriminate). rewrite hb.
      assert (h32 : (N_of_ascii d <? 32)%N = false) by (apply N.ltb_ge; lia). rewrite h32. specialize (happ (t1 ++ QUOTE :: rest)). cbn [app] in happ. change (d :: y :: x ++ t1 ++ QUOTE :: rest) with (d :: (y :: x ++ t1 ++ QUOTE :: rest)). rewrite happ, hg. reflexivity.
Qed.
Lemma scan_enough g f s : length s <= f -> forall x, scan_str g s = Some x -> scan_str f s = Some x.
Proof.
  intros h x hx. destruct (Nat.le_gt_cases (length s) g) as [hg|hg]; [rewrite (scan_str_fuel f g) by lia; exact hx|].
  revert f s h x hx hg. induction g as [|g IH]; intros f s h x hx hg; [discriminate|]. destruct s as [|c s]; [discriminate|]. cbn [length] in h, hg. destruct f as [|f]; [lia|]. rewrite scan_str_S in hx |- *.
  destruct (Ascii.eqb c QUOTE); [exact hx|]. destruct (step_str c s) as [[u r1]|] eqn:e; [|discriminate]. apply step_str_len in e. destruct (scan_str g r1) as [p|] eqn:e2; [|discriminate].
  assert (h2 : scan_str f r1 = Some p). { destruct (Nat.le_gt_cases (length r1) g) as [hl|hl]; [rewrite (scan_str_fuel f g) by lia; exact e2|]. apply IH; [lia|exact e2|lia]. } rewrite h2. exact hx.
Qed.
Lemma scan_dump_str s t f rest : dump_str s = Some t -> length t + length rest <= f -> exists t', t = QUOTE :: t' /\ scan_str f (t' ++ rest) = Some (s, rest).
Proof.
  unfold dump_str. destruct (dump_chars (S (length s)) s) as [x|] eqn:e; [|discriminate]. intros h hf. assert (ht : t = [QUOTE] ++ x ++ [QUOTE]) by congruence. subst t. exists (x ++ [QUOTE]). split; [reflexivity|].
  destruct (scan_dump_chars _ _ _ e rest) as (g & hg). rewrite <- app_assoc. cbn [app]. cbn [app length] in hf. rewrite app_length in hf. cbn [length] in hf. eapply scan_enough; [|exact hg]. rewrite app_length. cbn [length]. lia.
Qed.

(** values that the library writes: strings, and numbers in decimal *)
Definition delim (rest : bytes) : Prop := exists c r, rest = c :: r /\ (c = ","%char \/ c = "}"%char).
Definition reads_back (v : json) : Prop := forall t rest f, jdump v = Some t -> delim rest -> length t + length rest < f -> scan_val f (t ++ rest) = Some (v, rest).
Lemma reads_str s : reads_back (JStr s).
Proof.
  intros t rest f h hd hf. cbn [jdump] in h. destruct f as [|f]; [lia|]. destruct (scan_dump_str s t f rest h) as (t' & -> & hs); [lia|]. cbn [app]. rewrite val_S.
  cbn [skip_ws]. change (is_ws QUOTE) with false. cbn iota. change (Ascii.eqb QUOTE "{") with false. change (Ascii.eqb QUOTE "[") with false. change (Ascii.eqb QUOTE QUOTE) with true. cbn iota. rewrite hs. reflexivity.
Qed.
Lemma is_digit_uint u : Forall (fun c => is_digit c = true) (uint_bytes u).
Proof. induction u; cbn [uint_bytes]; constructor; try assumption; reflexivity. Qed.
Lemma digits_all s c r : Forall (fun c => is_digit c = true) s -> is_digit c = false -> digits (s ++ c :: r) = (s, c :: r).
Proof.
  induction 1 as [|x s hx hs IH]; intros hc; cbn [app digits]; [rewrite hc; reflexivity|]. rewrite hx, (IH hc). reflexivity.
Qed.
Lemma dec_acc u : forall acc, Z.pos (Pos.of_uint_acc u acc) = fold_left (fun a c => 10 * a + (Z.of_N (N_of_ascii c) - 48))%Z (uint_bytes u) (Z.pos acc).
Proof.
  induction u as [|u IH|u IH|u IH|u IH|u IH|u IH|u IH|u IH|u IH|u IH]; intros acc; [reflexivity|..];
  (match goal with |- context [uint_bytes (?D u)] => let l := eval cbn [uint_bytes] in (uint_bytes (D u)) in change (uint_bytes (D u)) with l end);
  cbn [Pos.of_uint_acc fold_left]; rewrite IH; f_equal;
  (match goal with |- _ = (_ + (Z.of_N (N_of_ascii ?c) - 48))%Z => let v := eval vm_compute in (Z.of_N (N_of_ascii c)) in change (Z.of_N (N_of_ascii c)) with v end); lia.
Qed.
Lemma dec_value_uint u : dec_value (uint_bytes u) = Z.of_N (N.of_uint u).
Proof.
  unfold dec_value, N.of_uint. induction u as [|u IH|u IH|u IH|u IH|u IH|u IH|u IH|u IH|u IH|u IH]; [reflexivity|exact IH|..]; 
  cbn [Pos.of_uint Z.of_N]; rewrite dec_acc; reflexivity.
Qed.
Lemma dec_value_dec n : dec_value (dec n) = Z.of_N n.
Proof. unfold dec. rewrite dec_value_uint. f_equal. apply DecimalN.Unsigned.of_to. Qed.
Lemma dec_zero n r : dec n = "0"%char :: r -> r = [].
Proof.
  intros h. assert (hu : N.to_uint n = Decimal.D0 Decimal.Nil \/ (forall u, N.to_uint n <> Decimal.D0 u)).
  { pose proof (DecimalN.Unsigned.to_of (N.to_uint n)) as e. rewrite DecimalN.Unsigned.of_to in e. destruct (N.to_uint n) as [|u|u|u|u|u|u|u|u|u|u] eqn:en; try (right; intros ?; discriminate).
    left. unfold Decimal.unorm in e. cbn [Decimal.nzhead] in e. destruct (Decimal.nzhead u) eqn:eu; try discriminate; try exact e. exfalso. eapply (DecimalFacts.nzhead_nonzero u). exact eu. }
  unfold dec in h. destruct hu as [e|hu]; [rewrite e in h; cbn [uint_bytes] in h; congruence|]. destruct (N.to_uint n); cbn [uint_bytes] in h; try discriminate h. exfalso. eapply hu. reflexivity.
Qed.
Lemma reads_num n : (n < 65536)%N -> reads_back (JNum (dec n)).
Proof.
  intros hn t rest f h (c & r & -> & hc) hf. cbn [jdump] in h. assert (ht : t = dec n) by congruence. subst t. destruct f as [|f]; [lia|]. rewrite val_S.
  destruct (dec_head n) as (d & x & hd & hdig). pose proof (is_digit_uint (N.to_uint n)) as hall. fold (dec n) in hall. rewrite hd in hall |- *. inversion hall as [|? ? hd1 hx]; subst.
  assert (hcd : is_digit c = false) by (destruct hc as [-> | ->]; reflexivity).
  assert (hws : is_ws d = false). { unfold is_digit, in_range in hd1. apply andb_true_iff in hd1 as [h1 h2]. apply N.leb_le in h1, h2. unfold is_ws. rewrite !(proj2 (N.eqb_neq _ _)) by lia. reflexivity. }
  cbn [app skip_ws]. rewrite hws. cbn iota.
  assert (hne : forall k, is_digit k = false -> Ascii.eqb d k = false) by (intros k hk; apply Ascii.eqb_neq; intros ->; congruence).
  rewrite (hne "{"%char), (hne "["%char), (hne QUOTE) by reflexivity. rewrite hd1, orb_true_r. unfold scan_num. rewrite (hne "-"%char) by reflexivity. cbv zeta.
  assert (hint : scan_int (d :: x ++ c :: r) = Some (d :: x, c :: r)).
  { unfold scan_int. destruct (Ascii.eqb d "0") eqn:e0.
    - apply Ascii.eqb_eq in e0. subst d. apply dec_zero in hd. subst x. reflexivity.
    - unfold digits1. change (d :: x ++ c :: r) with ((d :: x) ++ c :: r). rewrite digits_all; [reflexivity|constructor; assumption|exact hcd]. }
  rewrite hint. assert (hfrac : scan_frac (c :: r) = Some ([], c :: r)) by (destruct hc as [-> | ->]; reflexivity). rewrite hfrac.
  assert (hexp : scan_exp (c :: r) = Some (0%Z, c :: r)) by (destruct hc as [-> | ->]; reflexivity). rewrite hexp. rewrite app_nil_r, <- hd, dec_value_dec.
  assert (hfin : finite (Z.of_N n) (0 - Z.of_nat (length (@nil ascii))) = true).
  { unfold finite. cbn [length]. change (0 - Z.of_nat 0)%Z with 0%Z. change (0 <? 0)%Z with false. cbn iota. apply orb_true_iff. right. change (10 ^ 0)%Z with 1%Z. apply Z.ltb_lt. assert (h65 : (65536 < 2 ^ 1024 - 2 ^ 970)%Z) by (apply Z.ltb_lt; vm_compute; reflexivity). lia. }
  rewrite hfin. f_equal. f_equal. f_equal. change (d :: x ++ c :: r) with ((d :: x) ++ c :: r). rewrite app_length.
  replace (length (d :: x) + length (c :: r) - length (c :: r)) with (length (d :: x)) by lia. rewrite firstn_app, firstn_all, Nat.sub_diag. cbn [firstn]. rewrite app_nil_r. congruence.
Qed.

Definition member (p : bytes * json) : option bytes := match dump_str (fst p), jdump (snd p) with Some k, Some v => Some (k ++ ":"%char :: v) | _, _ => None end.
Lemma insert_end (m : list (bytes * json)) k v : Forall (fun p => lt (fst p) k) m -> insert k v m = m ++ [(k, v)].
Proof.
  induction 1 as [|[k' v'] m h hs IH]; [reflexivity|]. cbn [insert app fst] in *. rewrite cmp_opp. unfold lt in h. rewrite h. cbn [CompOpp]. rewrite IH. reflexivity.
Qed.
Lemma expect_head c s : is_ws c = false -> expect c (c :: s) = Some s.
Proof. intros h. unfold expect. cbn [skip_ws]. rewrite h, Ascii.eqb_refl. reflexivity. Qed.
Lemma expect_other c d s : is_ws d = false -> c <> d -> expect c (d :: s) = None.
Proof. intros h hn. unfold expect. cbn [skip_ws]. rewrite h. apply Ascii.eqb_neq in hn. rewrite hn. reflexivity. Qed.
Lemma str_quote s t : dump_str s = Some t -> exists t', t = QUOTE :: t'.
Proof. unfold dump_str. destruct (dump_chars _ _) as [x|]; [|discriminate]. intros h. injection h as <-. eexists. reflexivity. Qed.
Lemma scan_dump_members rest : forall l acc ts f, all_some (map member l) = Some ts -> l <> [] -> Forall reads_back (map snd l) ->
  StronglySorted lt (map fst (acc ++ l)) -> length (join ts) + 1 + length rest < f -> scan_members f acc (join ts ++ "}"%char :: rest) = Some (JObj (acc ++ l), rest).
Proof.
  induction l as [|[k v] l IH]; intros acc ts f h hne hr hs hf; [congruence|]. cbn [map all_some] in h. destruct (member (k, v)) as [x|] eqn:em; [|discriminate]. destruct (all_some (map member l)) as [ts'|] eqn:ea; [|discriminate].
  assert (hts : ts = x :: ts') by congruence. subst ts. unfold member in em. cbn [fst snd] in em. destruct (dump_str k) as [kt|] eqn:ek; [|discriminate]. destruct (jdump v) as [vt|] eqn:ev; [|discriminate].
  assert (hx : x = kt ++ ":"%char :: vt) by congruence. subst x. inversion hr as [|? ? hv hr']; subst.
  assert (hacc : Forall (fun p => lt (fst p) k) acc).
  { rewrite map_app in hs. cbn [map fst] in hs. clear - hs. induction acc as [|[k' v'] acc IHa]; [constructor|]. cbn [map app fst] in hs. inversion hs as [|? ? hs1 hs2]; subst. constructor; [|apply IHa; exact hs1].
    cbn [fst]. rewrite Forall_forall in hs2. apply hs2. apply in_or_app. right. left. reflexivity. }
  set (tail := flat_map (fun y => ","%char :: y) ts' ++ "}"%char :: rest).
  assert (hj : join ((kt ++ ":"%char :: vt) :: ts') ++ "}"%char :: rest = kt ++ ":"%char :: vt ++ tail).
  { unfold tail. cbn [join]. rewrite <- !app_assoc. cbn [app]. reflexivity. }
  etransitivity; [exact (f_equal (scan_members f acc) hj)|]. clear hj. cbn [join] in hf. rewrite !app_length in hf. cbn [length] in hf.
  assert (hlt : length tail = length (flat_map (fun y => ","%char :: y) ts') + 1 + length rest) by (unfold tail; rewrite app_length; cbn [length]; lia).
  destruct f as [|f]; [lia|]. rewrite members_S.
  destruct (scan_dump_str k kt f (":"%char :: vt ++ tail) ek) as (kt' & -> & hk); [cbn [length]; rewrite app_length; lia|]. cbn [app]. rewrite expect_head by reflexivity. rewrite hk, expect_head by reflexivity.
  assert (htl : delim tail). { unfold tail. destruct ts' as [|y ts']; [eexists _, _; split; [reflexivity|right; reflexivity]|eexists _, _; split; [reflexivity|left; reflexivity]]. }
  rewrite (hv vt tail f ev htl) by (cbn [length] in hf; lia). rewrite insert_end by exact hacc.
  destruct l as [|q l].
  - cbn [map all_some] in ea. assert (e0 : ts' = []) by congruence. subst ts'. unfold tail. cbn [flat_map app]. rewrite expect_other by (reflexivity || discriminate). rewrite expect_head by reflexivity. reflexivity.
  - assert (hts' : exists y ts2, ts' = y :: ts2). { cbn [map all_some] in ea. destruct (member q); [|discriminate]. destruct (all_some (map member l)); [|discriminate]. injection ea as <-. eexists _, _. reflexivity. }
    destruct hts' as (y & ts2 & ->).
    assert (htail : tail = ","%char :: (join (y :: ts2) ++ "}"%char :: rest)) by (unfold tail; cbn [flat_map join app]; rewrite <- ?app_assoc; reflexivity).
    rewrite htail. rewrite expect_head by reflexivity. rewrite (IH (acc ++ [(k, v)]) (y :: ts2) f eq_refl); [rewrite <- app_assoc; reflexivity|discriminate|exact hr'|rewrite <- app_assoc; exact hs|].
    cbn [flat_map app length] in hlt. rewrite !app_length in hlt. cbn [length] in *. cbn [join]. rewrite app_length. cbn [flat_map app length] in hf. rewrite app_length in hf. lia.
Qed.
Lemma val_obj f r : expect "}" r = None -> scan_val (S f) ("{"%char :: r) = scan_members f [] r.
Proof. intros h. rewrite val_S. cbn [skip_ws]. change (is_ws "{") with false. cbn iota. change (Ascii.eqb "{" "{") with true. cbn iota. rewrite h. reflexivity. Qed.
(** A non-empty object of such values is read back, with nothing or a NUL after it. *)
Lemma parse_dump m t rest : m <> [] -> Forall reads_back (map snd m) -> msorted m -> jdump (JObj m) = Some t -> rest = [] \/ (exists r, rest = ascii_of_N 0 :: r) -> json_parse (t ++ rest) = Some (JObj m).
Proof.
  intros hne hr hs h hrest. change (match all_some (map member m) with Some x => Some (b "{" ++ join x ++ b "}") | None => None end = Some t) in h. destruct (all_some (map member m)) as [ts|] eqn:ea; [|discriminate].
  assert (ht : t = "{"%char :: join ts ++ ["}"%char]) by (injection h as <-; reflexivity). subst t. 
  assert (hno : expect "}" ((join ts ++ ["}"%char]) ++ rest) = None).
  { destruct m as [|[k v] m]; [congruence|]. cbn [map all_some] in ea. unfold member at 1 in ea. cbn [fst snd] in ea. destruct (dump_str k) as [kt|] eqn:ek; [|discriminate]. destruct (jdump v) as [vt|]; [|discriminate].
    destruct (all_some (map member m)) as [ts'|]; [|discriminate]. injection ea as <-. destruct (str_quote _ _ ek) as (kt' & ->). cbn [join app]. apply expect_other; [reflexivity|discriminate]. }
  set (w := (join ts ++ ["}"%char]) ++ rest) in *. assert (hlen : length w = length (join ts) + 1 + length rest) by (unfold w; rewrite !app_length; cbn [length]; lia).
  assert (hw : w = join ts ++ "}"%char :: rest) by (unfold w; rewrite <- app_assoc; reflexivity).
  change (("{"%char :: join ts ++ ["}"%char]) ++ rest) with ("{"%char :: w). unfold json_parse. cbn [skip_bom].
  change (N_of_ascii "{" =? 239)%N with false. cbn iota. replace (2 * length ("{"%char :: w) + 1) with (S (2 * length ("{"%char :: w))) by lia. rewrite val_obj by exact hno.
  assert (hm : scan_members (2 * length ("{"%char :: w)) [] w = Some (JObj ([] ++ m), rest)) by (rewrite hw at 2; apply scan_dump_members; [exact ea|exact hne|exact hr|exact hs|cbn [length]; lia]).
  rewrite hm. cbn [app]. destruct hrest as [-> | (r & ->)]; reflexivity.
Qed.
