(** Proofs about community URLs. *)
From Coq Require DecimalFacts DecimalN.
From Verif Require Import CommunitySpec Toy Bt_facts Hex_facts Maps Records_facts.

(** ** characters *)
Lemma all_ascii (P : ascii -> bool) : forallb P (map ascii_of_nat (seq 0 256)) = true -> forall c, P c = true.
Proof.
  intros h c. rewrite forallb_forall in h. apply h. apply in_map_iff. exists (nat_of_ascii c). split; [apply ascii_nat_embedding|].
  apply in_seq. pose proof (nat_ascii_bounded c). lia.
Qed.
Lemma label_char_cases c : label_char c = host_char c || host_upper c.
Proof. apply eqb_prop. apply (all_ascii (fun c => Bool.eqb (label_char c) (host_char c || host_upper c))). vm_compute. reflexivity. Qed.
Lemma host_char_lower c : host_char c = true -> lower c = c.
Proof.
  pose proof (all_ascii (fun c => implb (host_char c) (Ascii.eqb (lower c) c)) ltac:(vm_compute; reflexivity) c) as hc. cbv beta in hc.
  intros h. rewrite h in hc. apply Ascii.eqb_eq. exact hc.
Qed.
Lemma label_not c : label_char c = true -> c <> "."%char /\ c <> ":"%char /\ c <> "/"%char /\ c <> "?"%char.
Proof. intros h. repeat split; intros ->; discriminate. Qed.
Lemma label_lower c : label_char c = true -> label_char (lower c) = true /\ host_char (lower c) = true.
Proof.
  pose proof (all_ascii (fun c => implb (label_char c) (label_char (lower c) && host_char (lower c))) ltac:(vm_compute; reflexivity) c) as hc. cbv beta in hc.
  intros h. rewrite h in hc. apply andb_prop in hc. exact hc.
Qed.
Lemma lower_lower c : lower (lower c) = lower c.
Proof. apply Ascii.eqb_eq. apply (all_ascii (fun c => Ascii.eqb (lower (lower c)) (lower c))). vm_compute. reflexivity. Qed.
Lemma lc_lc s : make_lc (make_lc s) = make_lc s.
Proof. unfold make_lc. rewrite map_map. apply map_ext. exact lower_lower. Qed.
Lemma lc_app x y : make_lc (x ++ y) = make_lc x ++ make_lc y.
Proof. apply map_app. Qed.
Lemma lc_length x : length (make_lc x) = length x.
Proof. apply map_length. Qed.

(** ** searching *)
Lemma starts_spec pat s : starts pat s = true <-> exists r, s = pat ++ r.
Proof.
  unfold starts. rewrite eqb_eq. split.
  - intros h. exists (skipn (length pat) s). rewrite <- h at 1. symmetry. apply firstn_skipn.
  - intros [r ->]. rewrite firstn_app, firstn_all, Nat.sub_diag. apply app_nil_r.
Qed.
Lemma skipn_app_len {A} (x y : list A) : skipn (length x) (x ++ y) = y.
Proof. rewrite skipn_app, skipn_all, Nat.sub_diag. reflexivity. Qed.
Lemma split_first_some pat : forall s x y, split_first pat s = Some (x, y) -> s = x ++ pat ++ y.
Proof.
  induction s as [|c s IH]; intros x y h; cbn [split_first] in h; destruct (starts pat _) eqn:e.
  - apply starts_spec in e as [r e]. injection h as <- <-. rewrite e at 1. cbn [app]. f_equal. rewrite e. symmetry. apply skipn_app_len.
  - discriminate.
  - apply starts_spec in e as [r e]. injection h as <- <-. rewrite e. cbn [app]. f_equal. symmetry. apply skipn_app_len.
  - destruct (split_first pat s) as [[x' y']|] eqn:e2; [|discriminate]. injection h as <- <-. cbn [app]. f_equal. apply IH. reflexivity.
Qed.
Lemma split_first_at p pat' x y : ~ In p x -> split_first (p :: pat') (x ++ (p :: pat') ++ y) = Some (x, y).
Proof.
  intros hx. induction x as [|c x IH].
  - cbn [app]. assert (e : starts (p :: pat') ((p :: pat') ++ y) = true) by (apply starts_spec; eauto). cbn [app] in e. cbn [split_first]. rewrite e.
    f_equal. f_equal. apply (skipn_app_len (p :: pat') y).
  - cbn [app split_first]. assert (e : starts (p :: pat') (c :: x ++ p :: pat' ++ y) = false).
    { destruct (starts _ _) eqn:e; [|reflexivity]. apply starts_spec in e as [r e]. injection e as e _. exfalso. apply hx. left. exact e. }
    rewrite e. cbn [app] in IH. rewrite IH; [reflexivity|]. intros hin. apply hx. right. exact hin.
Qed.
Lemma split_last_none p pat' : forall s, ~ In p s -> split_last (p :: pat') s = None.
Proof.
  induction s as [|c s IH]; intros h; [reflexivity|]. cbn [split_last]. rewrite IH by (intros hin; apply h; right; exact hin).
  destruct (starts _ _) eqn:e; [|reflexivity]. apply starts_spec in e as [r e]. injection e as e _. exfalso. apply h. left. exact e.
Qed.
Lemma split_last_here p pat' y : split_last (p :: pat') (pat' ++ y) = None -> split_last (p :: pat') ((p :: pat') ++ y) = Some ([], y).
Proof.
  intros h. cbn [app split_last]. rewrite h. assert (e : starts (p :: pat') ((p :: pat') ++ y) = true) by (apply starts_spec; eauto). cbn [app] in e. rewrite e.
  f_equal. f_equal. apply (skipn_app_len (p :: pat') y).
Qed.
Lemma split_last_app pat z y x0 : forall x, split_last pat z = Some (x0, y) -> split_last pat (x ++ z) = Some (x ++ x0, y).
Proof. induction x as [|c x IH]; intros h; [exact h|]. cbn [app split_last]. rewrite (IH h). reflexivity. Qed.
Lemma split_last_at p pat' x y : split_last (p :: pat') (pat' ++ y) = None -> split_last (p :: pat') (x ++ (p :: pat') ++ y) = Some (x, y).
Proof. intros h. rewrite (split_last_app _ _ y [] x); [rewrite app_nil_r; reflexivity|]. apply split_last_here, h. Qed.

(** ** the host *)
Definition stop (s : bytes) : Prop := match s with [] => True | c :: _ => label_char c = false /\ c <> "."%char end.
Lemma scan_label l : forallb label_char l = true -> forall a d t, scan_host a d (l ++ t) =
  let '(h, d', t') := scan_host (a || negb (is_nil l)) d t in (make_lc l ++ h, d', t').
Proof.
  induction l as [|c l IH]; intros hl a d t.
  - cbn [app is_nil negb]. rewrite orb_false_r. destruct (scan_host a d t) as [[h d'] t']. reflexivity.
  - cbn [forallb] in hl. apply andb_prop in hl as [h1 h2]. cbn [app scan_host is_nil negb]. rewrite orb_true_r. rewrite label_char_cases in h1.
    destruct (host_char c) eqn:e1.
    + rewrite IH by exact h2. cbn [orb]. destruct (scan_host true d t) as [[h d'] t']. cbn [make_lc map app]. rewrite host_char_lower by exact e1. reflexivity.
    + cbn [orb] in h1. rewrite h1, IH by exact h2. cbn [orb]. destruct (scan_host true d t) as [[h d'] t']. reflexivity.
Qed.
Lemma scan_stop a d t : stop t -> scan_host a d t = ([], d, t).
Proof.
  destruct t as [|c t]; [reflexivity|]. intros [h1 h2]. cbn [scan_host]. rewrite label_char_cases in h1. apply orb_false_iff in h1 as [e1 e2]. rewrite e1, e2.
  apply Ascii.eqb_neq in h2. rewrite h2, andb_false_r. reflexivity.
Qed.
Lemma scan_labels labels : labels <> [] -> Forall good_label labels -> forall a d t, stop t ->
  scan_host a d (join labels ++ t) = (make_lc (join labels), d || Nat.leb 2 (length labels), t).
Proof.
  induction labels as [|l labels IH]; intros hn hl a d t ht; [congruence|]. inversion hl as [|x y [h1 h2] h3]; subst. destruct labels as [|l2 labels].
  - cbn [join length Nat.leb]. rewrite scan_label by exact h2. rewrite scan_stop by exact ht. rewrite app_nil_r, orb_false_r. reflexivity.
  - change (join (l :: l2 :: labels)) with (l ++ b "." ++ join (l2 :: labels)). rewrite <- !app_assoc. rewrite scan_label by exact h2.
    destruct l as [|c0 l0]; [congruence|]. cbn [is_nil negb]. rewrite orb_true_r. change (b "." ++ join (l2 :: labels) ++ t) with ("."%char :: join (l2 :: labels) ++ t).
    cbn [scan_host]. change (host_char ".") with false. change (host_upper ".") with false. change (true && Ascii.eqb "." ".") with true. cbv iota.
    rewrite IH; [|discriminate|exact h3|exact ht]. cbn [orb]. rewrite !lc_app, orb_true_r. reflexivity.
Qed.
(** the converse *)
Fixpoint dots_ok (a : bool) (u : bytes) : Prop :=
  match u with
  | [] => True
  | c :: r => if Ascii.eqb c "." then a = true /\ dots_ok false r else label_char c = true /\ dots_ok true r
  end.
Definition dotted (u : bytes) : bool := existsb (Ascii.eqb ".") u.
Lemma scan_inv : forall s a d h d' t, scan_host a d s = (h, d', t) ->
  exists u, s = u ++ t /\ h = make_lc u /\ dots_ok a u /\ d' = d || dotted u /\
    match t with [] => True | c :: _ => label_char c = false /\ (c = "."%char -> if is_nil u then a = false else last u Ascii.zero = "."%char) end.
Proof.
  induction s as [|c s IH]; intros a d h d' t e; cbn [scan_host] in e.
  - injection e as <- <- <-. exists []. repeat split. symmetry. apply orb_false_r.
  - destruct (host_char c) eqn:e1; [|destruct (host_upper c) eqn:e2; [|destruct (a && Ascii.eqb c ".") eqn:e3]].
    + destruct (scan_host true d s) as [[h0 d0] t0] eqn:es. injection e as <- <- <-. destruct (IH _ _ _ _ _ es) as (u & -> & -> & h1 & -> & h2).
      exists (c :: u). assert (hd : c <> "."%char) by (intros ->; discriminate). assert (hd' := hd). apply Ascii.eqb_neq in hd'. cbn [app make_lc map dots_ok dotted existsb]. rewrite hd'.
      rewrite host_char_lower by exact e1. rewrite (Ascii.eqb_sym "." c), hd'. repeat split; try assumption.
      * rewrite label_char_cases, e1. reflexivity.
      * destruct t0 as [|c0 t0]; [exact I|]. destruct h2 as [h2 h3]. split; [exact h2|]. intros ->. specialize (h3 eq_refl). cbn [is_nil]. destruct u; [discriminate|exact h3].
    + destruct (scan_host true d s) as [[h0 d0] t0] eqn:es. injection e as <- <- <-. destruct (IH _ _ _ _ _ es) as (u & -> & -> & h1 & -> & h2).
      exists (c :: u). assert (hd : c <> "."%char) by (intros ->; discriminate). assert (hd' := hd). apply Ascii.eqb_neq in hd'. cbn [app make_lc map dots_ok dotted existsb]. rewrite hd'.
      rewrite (Ascii.eqb_sym "." c), hd'. repeat split; try assumption.
      * rewrite label_char_cases, e1, e2. reflexivity.
      * destruct t0 as [|c0 t0]; [exact I|]. destruct h2 as [h2 h3]. split; [exact h2|]. intros ->. specialize (h3 eq_refl). cbn [is_nil]. destruct u; [discriminate|exact h3].
    + apply andb_prop in e3 as [-> e3]. apply Ascii.eqb_eq in e3. subst c.
      destruct (scan_host false true s) as [[h0 d0] t0] eqn:es. injection e as <- <- <-. destruct (IH _ _ _ _ _ es) as (u & -> & -> & h1 & -> & h2).
      exists ("."%char :: u). cbn [app make_lc map dots_ok dotted existsb]. repeat split; try assumption.
      * symmetry. apply orb_true_r.
      * destruct t0 as [|c0 t0]; [exact I|]. destruct h2 as [h2 h3]. split; [exact h2|]. intros ->. specialize (h3 eq_refl). cbn [is_nil]. destruct u; [reflexivity|exact h3].
    + injection e as <- <- <-. exists []. cbn [app is_nil]. repeat split.
      * symmetry. apply orb_false_r.
      * rewrite label_char_cases, e1, e2. reflexivity.
      * intros ->. rewrite Ascii.eqb_refl, andb_true_r in e3. exact e3.
Qed.
Lemma dots_labels : forall n u l0, length u <= n -> dots_ok true u -> good_label l0 -> last (l0 ++ u) Ascii.zero <> "."%char ->
  exists labels, labels <> [] /\ Forall good_label labels /\ l0 ++ u = join labels /\ (dotted u = true -> 2 <= length labels).
Proof.
  induction n as [|n IH]; intros u l0 hn hd h0 hlast.
  - destruct u; [|cbn in hn; lia]. exists [l0]. repeat split; auto; [discriminate|apply app_nil_r|discriminate].
  - destruct u as [|c u]; [exists [l0]; repeat split; auto; [discriminate|apply app_nil_r|discriminate]|]. cbn [dots_ok] in hd. destruct (Ascii.eqb c ".") eqn:e.
    + apply Ascii.eqb_eq in e. subst c. destruct hd as [_ hd]. destruct u as [|c u]; [exfalso; apply hlast; apply last_last|].
      cbn [dots_ok] in hd. destruct (Ascii.eqb c ".") eqn:e; [destruct hd; discriminate|]. destruct hd as [hc hd].
      destruct (IH u [c]) as (labels & l1 & l2 & l3 & l4).
      * cbn in hn. lia.
      * exact hd.
      * split; [discriminate|]. cbn [forallb]. rewrite hc. reflexivity.
      * intros hl. apply hlast. replace (l0 ++ "."%char :: c :: u) with ((l0 ++ b ".") ++ ([c] ++ u)) by (rewrite <- app_assoc; reflexivity).
        clear - hl. induction (l0 ++ b ".") as [|x l IHl]; [exact hl|]. cbn [app] in *. destruct l; exact IHl.
      * exists (l0 :: labels). split; [discriminate|]. split; [constructor; assumption|]. split.
        -- destruct labels as [|l2' labels]; [congruence|]. change (join (l0 :: l2' :: labels)) with (l0 ++ b "." ++ join (l2' :: labels)). rewrite <- l3. reflexivity.
        -- intros _. destruct labels; [congruence|cbn; lia].
    + destruct hd as [hc hd]. destruct (IH u (l0 ++ [c])) as (labels & l1 & l2 & l3 & l4).
      * cbn in hn. lia.
      * exact hd.
      * destruct h0 as [g1 g2]. split; [destruct l0; discriminate|]. rewrite forallb_app, g2. cbn [forallb]. rewrite hc. reflexivity.
      * rewrite <- app_assoc. exact hlast.
      * exists labels. rewrite <- app_assoc in l3. repeat split; auto. cbn [dotted existsb]. rewrite Ascii.eqb_sym, e. exact l4.
Qed.
Lemma last_lc u : last (make_lc u) Ascii.zero = lower (last u Ascii.zero).
Proof. induction u as [|c u IH]; [reflexivity|]. cbn [make_lc map last]. fold (make_lc u). destruct u; [reflexivity|]. exact IH. Qed.
Lemma lower_dot c : lower c = "."%char -> c = "."%char.
Proof.
  pose proof (all_ascii (fun c => implb (Ascii.eqb (lower c) ".") (Ascii.eqb c ".")) ltac:(vm_compute; reflexivity) c) as hc. cbv beta in hc.
  intros h. rewrite h in hc. apply Ascii.eqb_eq. exact hc.
Qed.
Lemma host_spec s h d t : scan_host false false s = (h, d, t) -> Nat.ltb (length h) 4 || negb d || Ascii.eqb (last h Ascii.zero) "." = false ->
  exists labels, 2 <= length labels /\ Forall good_label labels /\ 4 <= length (join labels) /\ s = join labels ++ t /\ h = make_lc (join labels).
Proof.
  intros e hc. apply orb_false_iff in hc as [hc h3]. apply orb_false_iff in hc as [h1 h2]. apply Nat.ltb_ge in h1. apply negb_false_iff in h2. apply Ascii.eqb_neq in h3.
  destruct (scan_inv _ _ _ _ _ _ e) as (u & -> & -> & g1 & -> & _). rewrite last_lc in h3. rewrite lc_length in h1. cbn [orb] in h2.
  destruct u as [|c u]; [cbn in h1; lia|]. cbn [dots_ok] in g1. destruct (Ascii.eqb c ".") eqn:ec; [destruct g1; discriminate|]. destruct g1 as [hc g1].
  destruct (dots_labels (length u) u [c]) as (labels & l1 & l2 & l3 & l4); auto.
  - split; [discriminate|]. cbn [forallb]. rewrite hc. reflexivity.
  - cbn [app]. intros hl. apply h3. rewrite hl. reflexivity.
  - cbn [app] in l3. exists labels. rewrite <- l3. repeat split; auto. apply l4. cbn [dotted existsb] in h2. rewrite Ascii.eqb_sym, ec in h2. exact h2.
Qed.

(** ** the port *)
Definition no_digit (t : bytes) : Prop := match t with [] => True | c :: _ => digit c = false end.
Lemma take_digits_text u t : no_digit t -> take_digits (uint_bytes u ++ t) = (u, t).
Proof.
  destruct t as [|c t]; [|apply take_digits_spec]. intros _. rewrite app_nil_r. induction u; cbn [uint_bytes]; [reflexivity|..]; cbn [take_digits Ascii.eqb Bool.eqb]; rewrite IHu; reflexivity.
Qed.
Lemma take_digits_inv : forall s u t, take_digits s = (u, t) -> s = uint_bytes u ++ t /\ no_digit t.
Proof.
  induction s as [|c s IH]; intros u t h; [injection h as <- <-; split; [reflexivity|exact I]|]. cbn [take_digits] in h. cbv zeta in h.
  destruct (take_digits s) as [u' t'] eqn:E. destruct (IH u' t' eq_refl) as [-> hn].
  repeat match type of h with (if Ascii.eqb c ?x then _ else _) = _ => let H := fresh "q" in destruct (Ascii.eqb c x) eqn:H; [apply Ascii.eqb_eq in H; subst c; injection h as <- <-; split; [reflexivity|exact hn]|] end.
  injection h as <- <-. split; [reflexivity|]. unfold no_digit, digit. cbn [existsb]. repeat match goal with H : Ascii.eqb c _ = false |- _ => rewrite H; clear H end. reflexivity.
Qed.
Lemma zeros_bytes u : exists k, uint_bytes u = repeat "0"%char k ++ uint_bytes (Decimal.nzhead u) /\ (Decimal.nzhead u = Decimal.Nil -> u <> Decimal.Nil -> 1 <= k).
Proof.
  induction u; try (exists 0; split; [reflexivity|intros h1 h2; cbn in h1; congruence]).
  destruct IHu as (k & h1 & h2). exists (S k). cbn [uint_bytes Decimal.nzhead repeat app]. rewrite <- h1. split; [reflexivity|]. lia.
Qed.
Lemma repeat_snoc {A} (x : A) k : repeat x (S k) = repeat x k ++ [x].
Proof. induction k as [|k IH]; [reflexivity|]. cbn [repeat app] in *. f_equal. exact IH. Qed.
Lemma digits_norm u : u <> Decimal.Nil -> exists k, uint_bytes u = repeat "0"%char k ++ dec (N.of_uint u).
Proof.
  intros hu. unfold dec. rewrite DecimalN.Unsigned.to_of. unfold Decimal.unorm. destruct (zeros_bytes u) as (k & h1 & h2).
  destruct (Decimal.nzhead u) eqn:e; try (exists k; rewrite h1; reflexivity).
  specialize (h2 eq_refl hu). destruct k as [|k]; [lia|]. exists k. rewrite h1. cbn [uint_bytes]. rewrite app_nil_r. apply repeat_snoc.
Qed.
Lemma of_zeros k u : N.of_uint (Nat.iter k Decimal.D0 u) = N.of_uint u /\ uint_bytes (Nat.iter k Decimal.D0 u) = repeat "0"%char k ++ uint_bytes u.
Proof.
  induction k as [|k [h1 h2]]; [split; reflexivity|]. cbn [Nat.iter repeat app uint_bytes]. rewrite <- h1, <- h2. split; reflexivity.
Qed.
Lemma from_chars_ok k n t : (n < 65536)%N -> no_digit t -> from_chars_u16 (repeat "0"%char k ++ dec n ++ t) = Ok (n, t).
Proof.
  intros hn ht. unfold from_chars_u16. destruct (of_zeros k (N.to_uint n)) as [h1 h2]. unfold dec. rewrite app_assoc, <- h2, take_digits_text by exact ht.
  rewrite h1, DecimalN.Unsigned.of_to. apply N.ltb_lt in hn. rewrite hn. destruct (Nat.iter k Decimal.D0 (N.to_uint n)) eqn:e; try reflexivity.
  exfalso. pose proof (f_equal (@length ascii) h2) as hl. cbn [uint_bytes length] in hl. rewrite app_length in hl. destruct (dec_head n) as (c & r & hd & _). unfold dec in hd. rewrite hd in hl. cbn in hl. lia.
Qed.
Lemma from_chars_inv s n t : from_chars_u16 s = Ok (n, t) -> (n < 65536)%N /\ no_digit t /\ exists k, s = repeat "0"%char k ++ dec n ++ t.
Proof.
  unfold from_chars_u16. destruct (take_digits s) as [u t'] eqn:e. apply take_digits_inv in e as [-> hn].
  assert (hu : forall x : outcome (N * bytes), match u with Decimal.Nil => Throw | _ => x end = Ok (n, t) -> u <> Decimal.Nil /\ x = Ok (n, t)) by (intros x hx; destruct u; try discriminate; (split; [discriminate|exact hx])).
  intros h. apply hu in h as [h1 h2]. destruct (N.ltb_spec (N.of_uint u) 65536) as [hlt|]; [|discriminate]. injection h2 as <- <-. split; [exact hlt|]. split; [exact hn|].
  destruct (digits_norm u h1) as [k hk]. exists k. rewrite hk, <- app_assoc. reflexivity.
Qed.

(** ** the whole URL *)
Lemma proto_no_colon p : make_lc p = b "http" \/ make_lc p = b "https" -> ~ In ":"%char p.
Proof.
  intros h hin. apply (in_map lower) in hin. change (In ":"%char (make_lc p)) in hin. destruct h as [h|h]; rewrite h in hin; cbn in hin; intuition discriminate.
Qed.
Lemma shown_model proto n : shown_port proto n = (let p := if ((n =? 80)%N && eqb proto (b "http")) || ((n =? 443)%N && negb (eqb proto (b "http"))) then 0%N else n in if (p =? 0)%N then [] else b ":" ++ dec p).
Proof.
  unfold shown_port, default_port. destruct (eqb proto (b "http")); cbn [negb]; rewrite ?andb_true_r, ?andb_false_r, ?orb_false_r; cbn [orb]; [destruct (n =? 80)%N|destruct (n =? 443)%N]; rewrite ?orb_true_r, ?orb_false_r; reflexivity.
Qed.
Lemma parse_proto_ok p r : make_lc p = b "http" \/ make_lc p = b "https" -> parse_proto (p ++ b "://" ++ r) = Ok (make_lc p ++ b "://", r).
Proof.
  intros h. unfold parse_proto. change (b "://") with (":"%char :: b "//"). rewrite split_first_at by (apply proto_no_colon, h). unfold string_iequal. destruct h as [h|h]; rewrite h; reflexivity.
Qed.
Lemma parse_proto_inv u pr r : parse_proto u = Ok (pr, r) -> exists p, (make_lc p = b "http" \/ make_lc p = b "https") /\ u = p ++ b "://" ++ r /\ pr = make_lc p ++ b "://".
Proof.
  unfold parse_proto. destruct (split_first (b "://") u) as [[p r']|] eqn:es; [|discriminate]. apply split_first_some in es. subst u. unfold string_iequal.
  destruct (eqb (make_lc p) (make_lc (b "http"))) eqn:e1; [|destruct (eqb (make_lc p) (make_lc (b "https"))) eqn:e2; [|discriminate]]; intros h; exists p.
  - apply eqb_eq in e1. assert (r' = r) by congruence. assert (pr = b "http://") by congruence. subst. rewrite e1. repeat split; auto.
  - apply eqb_eq in e2. assert (r' = r) by congruence. assert (pr = b "https://") by congruence. subst. rewrite e2. repeat split; auto.
Qed.
Definition port_no (proto : bytes) (n : N) : N := if ((n =? 80)%N && eqb proto (b "http")) || ((n =? 443)%N && negb (eqb proto (b "http"))) then 0%N else n.
Lemma parse_port_ok proto port n tail : (proto = b "http" \/ proto = b "https") -> (port = [] /\ n = 0%N \/ exists k, port = b ":" ++ repeat "0"%char k ++ dec n) -> (n < 65536)%N ->
  (tail = [] \/ tail = b "/") -> parse_port (proto ++ b "://") (port ++ tail) = Ok (port_no proto n, tail).
Proof.
  intros hp hport hn htail. assert (htd : no_digit tail) by (destruct htail as [-> | ->]; [exact I|reflexivity]). destruct hport as [[-> ->]|[k ->]].
  - cbn [app]. unfold parse_port. destruct htail as [-> | ->]; reflexivity.
  - change ((b ":" ++ repeat "0"%char k ++ dec n) ++ tail) with (":"%char :: (repeat "0"%char k ++ dec n) ++ tail). unfold parse_port. change (Ascii.eqb ":" ":") with true. cbv iota.
    rewrite <- app_assoc, from_chars_ok by assumption. cbn [bind]. destruct hp as [-> | ->]; reflexivity.
Qed.
Lemma parse_port_inv proto t n0 tail : (proto = b "http" \/ proto = b "https") -> parse_port (proto ++ b "://") t = Ok (n0, tail) ->
  exists port n, t = port ++ tail /\ (port = [] /\ n = 0%N \/ exists k, port = b ":" ++ repeat "0"%char k ++ dec n) /\ (n < 65536)%N /\ n0 = port_no proto n.
Proof.
  intros hp. assert (h0 : port_no proto 0 = 0%N) by reflexivity. unfold parse_port. destruct t as [|c t].
  - intros h. exists [], 0%N. rewrite h0. repeat split; auto; [cbn [app]; congruence|congruence].
  - destruct (Ascii.eqb c ":") eqn:e; [|intros h; exists [], 0%N; rewrite h0; repeat split; auto; [cbn [app]; congruence|congruence]]. apply Ascii.eqb_eq in e. subst c.
    destruct (from_chars_u16 t) as [[n t2]| | | |] eqn:ef; try discriminate. cbn [bind]. intros hX. apply from_chars_inv in ef as (f1 & f2 & k & ->).
    injection hX as hX1 hX2. subst t2. exists (b ":" ++ repeat "0"%char k ++ dec n), n. split; [rewrite <- !app_assoc; reflexivity|]. split; [right; exists k; reflexivity|]. split; [exact f1|].
    rewrite <- hX1. destruct hp as [-> | ->]; reflexivity.
Qed.
Lemma last_app {A} (x y : list A) d : y <> [] -> last (x ++ y) d = last y d.
Proof. intros hy. induction x as [|a x IH]; [reflexivity|]. cbn [app last]. rewrite <- IH. destruct (x ++ y) eqn:e; [apply app_eq_nil in e as [_ e]; congruence|reflexivity]. Qed.
Lemma join_last labels : labels <> [] -> Forall good_label labels -> last (join labels) Ascii.zero <> "."%char /\ join labels <> [].
Proof.
  induction labels as [|l0 labels IH]; intros hn hg; [congruence|]. inversion hg as [|x y [g1 g2] g3]; subst. destruct labels as [|l1 labels].
  - cbn [join]. split; [|exact g1]. destruct l0 as [|c l0] using rev_ind; [congruence|]. rewrite last_last. intros ->. rewrite forallb_app in g2. cbn in g2. rewrite andb_false_r in g2. discriminate.
  - destruct (IH ltac:(discriminate) g3) as [i1 i2]. change (join (l0 :: l1 :: labels)) with (l0 ++ b "." ++ join (l1 :: labels)). rewrite app_assoc. split.
    + rewrite last_app by exact i2. exact i1.
    + destruct l0; [congruence|discriminate].
Qed.
Lemma ended_iff tail : ended tail = true <-> tail = [] \/ tail = b "/".
Proof.
  unfold ended. split.
  - destruct tail as [|c tl]; [auto|]. destruct (Ascii.eqb c "/") eqn:e; [|discriminate]. apply Ascii.eqb_eq in e. subst c. destruct tl; [auto|discriminate].
  - intros [-> | ->]; reflexivity.
Qed.
Lemma shown_no proto n : (if (port_no proto n =? 0)%N then [] else b ":" ++ dec (port_no proto n)) = shown_port proto n.
Proof. symmetry. apply shown_model. Qed.
Lemma canonical_ok u v : url_means u v -> canonical_url u = Ok v.
Proof.
  intros [proto labels port n tail hp hl hg h4 hport hn htail hlen].
  assert (hstop : stop (port ++ tail)).
  { destruct hport as [[-> _]|[k ->]]; [|split; [reflexivity|discriminate]]. destruct htail as [-> | ->]; [exact I|split; [reflexivity|discriminate]]. }
  assert (hln : labels <> []) by (destruct labels; [cbn in hl; lia|discriminate]).
  unfold canonical_url, parse_url. rewrite parse_proto_ok by exact hp. cbn [bind]. rewrite scan_labels by assumption.
  assert (hchk : Nat.ltb (length (make_lc (join labels))) 4 || negb (false || Nat.leb 2 (length labels)) || Ascii.eqb (last (make_lc (join labels)) Ascii.zero) "." = false).
  { rewrite lc_length. destruct (Nat.ltb_spec (length (join labels)) 4); [lia|]. destruct (Nat.leb_spec 2 (length labels)); [|lia]. cbn [orb negb].
    apply Ascii.eqb_neq. rewrite last_lc. intros hl2. apply lower_dot in hl2. exact (proj1 (join_last labels hln hg) hl2). }
  rewrite hchk. clear hchk. rewrite (parse_port_ok (make_lc proto) port n tail hp hport hn htail). cbn [bind]. rewrite (proj2 (ended_iff tail) htail). cbn [bind]. rewrite shown_no, <- app_assoc.
  destruct (Nat.ltb_spec BASE_URL_MAX_LENGTH (length (make_lc proto ++ b "://" ++ make_lc (join labels) ++ shown_port (make_lc proto) n))) as [h|h]; [unfold BASE_URL_MAX_LENGTH in h; lia|reflexivity].
Qed.
Lemma canonical_inv u v : canonical_url u = Ok v -> url_means u v.
Proof.
  unfold canonical_url, parse_url. destruct (parse_proto u) as [[pr r]| | | |] eqn:ep; try discriminate. cbn [bind]. apply parse_proto_inv in ep as (proto & hp & -> & ->).
  destruct (scan_host false false r) as [[host d] t] eqn:eh. destruct (Nat.ltb (length host) 4 || negb d || Ascii.eqb (last host Ascii.zero) ".") eqn:ec; [discriminate|].
  destruct (host_spec _ _ _ _ eh ec) as (labels & h1 & h2 & h3 & -> & ->). clear eh ec.
  destruct (parse_port (make_lc proto ++ b "://") t) as [[n0 tail]| | | |] eqn:ept; try discriminate. apply parse_port_inv in ept as (port & n & -> & q1 & q2 & ->); [|exact hp].
  cbn [bind]. destruct (ended tail) eqn:en; [|discriminate]. apply ended_iff in en. cbn [bind]. rewrite shown_no, <- app_assoc.
  destruct (Nat.ltb_spec BASE_URL_MAX_LENGTH (length (make_lc proto ++ b "://" ++ make_lc (join labels) ++ shown_port (make_lc proto) n))) as [|hlen]; [discriminate|].
  intros h. assert (hv : v = make_lc proto ++ b "://" ++ make_lc (join labels) ++ shown_port (make_lc proto) n) by congruence. subst v. unfold BASE_URL_MAX_LENGTH in hlen. constructor; assumption.
Qed.
Lemma canonical_iff u v : canonical_url u = Ok v <-> url_means u v.
Proof. split; [apply canonical_inv|apply canonical_ok]. Qed.

(** ** consequences *)
Lemma join_lc labels : make_lc (join labels) = join (map make_lc labels).
Proof.
  induction labels as [|l labels IH]; [reflexivity|]. destruct labels as [|l1 labels]; [reflexivity|]. change (join (l :: l1 :: labels)) with (l ++ b "." ++ join (l1 :: labels)).
  rewrite !lc_app, IH. reflexivity.
Qed.
Lemma good_lc l : good_label l -> good_label (make_lc l).
Proof.
  intros [h1 h2]. split; [destruct l; [congruence|discriminate]|]. clear h1. induction l as [|c l IH]; [reflexivity|]. cbn [forallb make_lc map] in *. apply andb_prop in h2 as [h2 h3].
  rewrite (proj1 (label_lower c h2)). apply IH, h3.
Qed.
Lemma shown_text proto n : (n < 65536)%N -> exists n', (shown_port proto n = [] /\ n' = 0%N \/ exists k, shown_port proto n = b ":" ++ repeat "0"%char k ++ dec n') /\ (n' < 65536)%N /\ shown_port proto n' = shown_port proto n.
Proof.
  intros hn. destruct (shown_port proto n) eqn:e.
  - exists 0%N. repeat split; auto.
  - exists n. split; [right; exists 0; rewrite <- e; unfold shown_port in *; destruct (_ || _); [discriminate|reflexivity]|]. split; [exact hn|exact e].
Qed.
Lemma means_fixed u v : url_means u v -> url_means v v.
Proof.
  intros [proto labels port n tail hp hl hg h4 hport hn htail hlen]. destruct (shown_text (make_lc proto) n hn) as (n' & q1 & q2 & q3).
  pose proof (url_parts (make_lc proto) (map make_lc labels) (shown_port (make_lc proto) n) n' []) as h. rewrite lc_lc, <- join_lc, lc_lc, q3, app_nil_r in h. apply h; auto.
  - rewrite map_length. exact hl.
  - apply Forall_map. eapply Forall_impl; [|exact hg]. exact good_lc.
  - rewrite lc_length. exact h4.
Qed.
(** letters aside, lower-casing changes nothing *)
Definition lc_letter (c : ascii) : bool := let n := N_of_ascii c in (97 <=? n)%N && (n <=? 122)%N.
Lemma lower_back c d : lower c = d -> lc_letter d = false -> c = d.
Proof.
  intros <-. pose proof (all_ascii (fun c => implb (negb (lc_letter (lower c))) (Ascii.eqb c (lower c))) ltac:(vm_compute; reflexivity) c) as hc. cbv beta in hc.
  intros h. rewrite h in hc. apply Ascii.eqb_eq. exact hc.
Qed.
Lemma lc_back s t : make_lc s = t -> forallb (fun c => negb (lc_letter c)) t = true -> s = t.
Proof.
  revert t. induction s as [|c s IH]; intros t h hl; [exact h|]. destruct t as [|d t]; [discriminate|]. cbn [make_lc map forallb] in *. apply andb_prop in hl as [h1 h2].
  injection h as e1 e2. apply negb_true_iff in h1. rewrite (lower_back _ _ e1 h1). f_equal. apply IH; assumption.
Qed.
Lemma label_same c d : lower c = lower d -> label_char d = true -> label_char c = true.
Proof.
  intros e h. destruct (label_char c) eqn:ec; [reflexivity|]. exfalso. destruct (label_lower d h) as [h1 _]. rewrite <- e in h1.
  pose proof (all_ascii (fun c => implb (label_char (lower c)) (label_char c)) ltac:(vm_compute; reflexivity) c) as hc. cbv beta in hc. rewrite h1, ec in hc. discriminate.
Qed.
Lemma good_same l l' : make_lc l' = make_lc l -> good_label l -> good_label l'.
Proof.
  intros e [h1 h2]. split; [destruct l'; [destruct l; [congruence|discriminate]|discriminate]|]. clear h1. revert l' e. induction l as [|c l IH]; intros [|d l'] e; try discriminate; [reflexivity|].
  cbn [make_lc map forallb] in *. injection e as e1 e2. apply andb_prop in h2 as [h2 h3]. rewrite (label_same _ _ e1 h2). apply IH; assumption.
Qed.
Lemma join_same labels : forall h', make_lc h' = make_lc (join labels) -> Forall good_label labels -> exists labels', h' = join labels' /\ map make_lc labels' = map make_lc labels /\ Forall good_label labels'.
Proof.
  induction labels as [|l labels IH]; intros h' e hg.
  - destruct h'; [|discriminate]. exists []. repeat split. constructor.
  - inversion hg as [|x y g1 g2]; subst. destruct labels as [|l1 labels].
    + cbn [join] in e. exists [h']. cbn [map]. rewrite e. split; [reflexivity|]. split; [reflexivity|]. constructor; [eapply good_same; eauto|constructor].
    + change (join (l :: l1 :: labels)) with (l ++ b "." ++ join (l1 :: labels)) in e. rewrite !lc_app in e. unfold make_lc at 1 in e. apply map_eq_app in e as (x & y & -> & e1 & e2).
      change (make_lc (b ".")) with (b ".") in e2. apply map_eq_app in e2 as (d & h2 & -> & e2 & e3). apply (lc_back d (b ".")) in e2; [|reflexivity]. subst d.
      destruct (IH h2 e3 g2) as (labels' & -> & i1 & i2). exists (x :: labels'). split; [|split].
      * destruct labels'; [discriminate|]. reflexivity.
      * cbn [map] in *. rewrite i1. unfold make_lc at 1. rewrite e1. reflexivity.
      * constructor; [eapply good_same; [exact e1|exact g1]|exact i2].
Qed.
Lemma dec_no_letter n : forallb (fun c => negb (lc_letter c)) (dec n) = true.
Proof. unfold dec. induction (N.to_uint n); [reflexivity|..]; cbn [uint_bytes forallb]; rewrite IHu; reflexivity. Qed.
Lemma zeros_no_letter k : forallb (fun c => negb (lc_letter c)) (repeat "0"%char k) = true.
Proof. induction k; [reflexivity|exact IHk]. Qed.
Lemma lc_nothing s : forallb (fun c => negb (host_upper c)) s = true -> make_lc s = s.
Proof.
  induction s as [|c s IH]; intros h; [reflexivity|]. cbn [forallb make_lc map] in *. apply andb_prop in h as [h1 h2]. f_equal; [|apply IH, h2].
  unfold lower. unfold host_upper in h1. apply negb_true_iff in h1. cbv zeta in *. rewrite h1. reflexivity.
Qed.
Lemma dec_lc n : make_lc (dec n) = dec n.
Proof. apply lc_nothing. unfold dec. induction (N.to_uint n); [reflexivity|..]; cbn [uint_bytes forallb]; rewrite IHu; reflexivity. Qed.
Lemma zeros_lc k : make_lc (repeat "0"%char k) = repeat "0"%char k.
Proof. induction k; [reflexivity|]. cbn [repeat make_lc map]. f_equal. exact IHk. Qed.
Lemma means_case u u' v : make_lc u' = make_lc u -> url_means u v -> url_means u' v.
Proof.
  intros e hm. revert e. destruct hm as [proto labels port n tail hp hl hg h4 hport hn htail hlen]. intros e. rewrite !lc_app in e. unfold make_lc at 1 in e.
  apply map_eq_app in e as (p' & x1 & -> & e1 & e). apply map_eq_app in e as (c' & x2 & -> & e2 & e). apply map_eq_app in e as (h' & x3 & -> & e3 & e). apply map_eq_app in e as (port' & tail' & -> & e4 & e5).
  apply (lc_back c' (b "://")) in e2; [|reflexivity]. subst c'.
  assert (hpp : port' = port).
  { destruct hport as [[-> _]|[k ->]]; [destruct port'; [reflexivity|discriminate]|]. apply (lc_back port'); [|rewrite !forallb_app, zeros_no_letter, dec_no_letter; reflexivity].
    rewrite !lc_app, zeros_lc, dec_lc in e4. exact e4. }
  assert (htt : tail' = tail) by (destruct htail as [-> | ->]; [destruct tail'; [reflexivity|discriminate]|]; apply (lc_back tail' (b "/")); [exact e5|reflexivity]).
  subst port' tail'. destruct (join_same labels h' e3 hg) as (labels' & -> & i1 & i2). assert (hp' : make_lc p' = make_lc proto) by exact e1.
  assert (hlab : make_lc (join labels') = make_lc (join labels)) by exact e3.
  rewrite <- hp', <- hlab in *. constructor; auto.
  - rewrite <- (map_length make_lc labels'), i1, map_length. exact hl.
  - rewrite <- (lc_length (join labels')), hlab, lc_length. exact h4.
Qed.
Lemma means_slash u v : url_means u v -> last u Ascii.zero <> "/"%char -> url_means (u ++ b "/") v.
Proof.
  intros hm. destruct hm as [proto labels port n tail hp hl hg h4 hport hn htail hlen]. intros hlast. assert (tail = []).
  { destruct htail as [-> | ->]; [reflexivity|]. exfalso. apply hlast. rewrite !app_assoc. apply last_last. }
  subst tail. replace ((proto ++ b "://" ++ join labels ++ port ++ []) ++ b "/") with (proto ++ b "://" ++ join labels ++ port ++ b "/") by (rewrite <- !app_assoc; reflexivity).
  apply url_parts; auto.
Qed.
Lemma scan_app z : stop z -> forall s a d, scan_host a d (s ++ z) = let '(h, d', t) := scan_host a d s in (h, d', t ++ z).
Proof.
  intros hz. induction s as [|c s IH]; intros a d; [cbn [app]; rewrite scan_stop by exact hz; reflexivity|]. cbn [app scan_host].
  destruct (host_char c); [rewrite IH; destruct (scan_host true d s) as [[h d'] t]; reflexivity|]. destruct (host_upper c); [rewrite IH; destruct (scan_host true d s) as [[h d'] t]; reflexivity|].
  destruct (a && Ascii.eqb c "."); [rewrite IH; destruct (scan_host false true s) as [[h d'] t]; reflexivity|reflexivity].
Qed.
Lemma explicit_default p h : make_lc p = b "http" \/ make_lc p = b "https" -> ~ In ":"%char h -> ~ In "/"%char h ->
  canonical_url (p ++ b "://" ++ h ++ b ":" ++ dec (default_port (make_lc p))) = canonical_url (p ++ b "://" ++ h).
Proof.
  intros hp h1 h2. unfold canonical_url, parse_url. rewrite !parse_proto_ok by exact hp. cbn [bind]. rewrite scan_app by (split; [reflexivity|discriminate]).
  destruct (scan_host false false h) as [[host d] t] eqn:es. destruct (Nat.ltb (length host) 4 || negb d || Ascii.eqb (last host Ascii.zero) "."); [reflexivity|].
  apply scan_inv in es as (u & -> & _). destruct t as [|c t].
  - cbn [app]. assert (e0 : parse_port (make_lc p ++ b "://") (b ":" ++ dec (default_port (make_lc p))) = Ok (0%N, [])).
    { pose proof (parse_port_ok (make_lc p) (b ":" ++ dec (default_port (make_lc p))) (default_port (make_lc p)) [] hp) as hpo. rewrite app_nil_r in hpo.
      rewrite hpo; [|right; exists 0; reflexivity|destruct hp as [-> | ->]; reflexivity|left; reflexivity]. destruct hp as [-> | ->]; reflexivity. }
    rewrite e0. reflexivity.
  - assert (c1 : Ascii.eqb c ":" = false) by (apply Ascii.eqb_neq; intros ->; apply h1; apply in_or_app; right; left; reflexivity).
    assert (c2 : Ascii.eqb c "/" = false) by (apply Ascii.eqb_neq; intros ->; apply h2; apply in_or_app; right; left; reflexivity).
    unfold parse_port. cbn [app]. rewrite c1. cbn [bind]. unfold ended. rewrite c2. reflexivity.
Qed.

(** ** full URLs *)
Lemma canonical_shape u v : url_means u v -> exists p w, (p = b "http" \/ p = b "https") /\ v = p ++ b "://" ++ w /\ ~ In "/"%char w /\ ~ In "?"%char w /\ 4 <= length w.
Proof.
  intros [proto labels port n tail hp hl hg h4 hport hn htail hlen]. exists (make_lc proto), (make_lc (join labels) ++ shown_port (make_lc proto) n). split; [exact hp|]. split; [reflexivity|].
  assert (hno : forall c, (c = "/"%char \/ c = "?"%char) -> ~ In c (make_lc (join labels) ++ shown_port (make_lc proto) n)).
  { intros c hc hin. apply in_app_or in hin as [hin|hin].
    - rewrite join_lc in hin. assert (hg' : Forall good_label (map make_lc labels)) by (apply Forall_map; eapply Forall_impl; [|exact hg]; exact good_lc).
      clear - hin hg' hc. induction (map make_lc labels) as [|l ls IH]; [exact hin|]. inversion hg' as [|x y [g1 g2] g3]; subst. destruct ls as [|l1 ls].
      + cbn [join] in hin. rewrite forallb_forall in g2. apply g2 in hin. destruct hc as [-> | ->]; discriminate.
      + change (join (l :: l1 :: ls)) with (l ++ b "." ++ join (l1 :: ls)) in hin. apply in_app_or in hin as [hin|hin]; [rewrite forallb_forall in g2; apply g2 in hin; destruct hc as [-> | ->]; discriminate|].
        apply in_app_or in hin as [hin|hin]; [destruct hc as [-> | ->]; destruct hin as [hin|[]]; discriminate|]. apply IH; assumption.
    - unfold shown_port in hin. destruct (_ || _); [exact hin|]. apply in_app_or in hin as [hin|hin]; [destruct hc as [-> | ->]; destruct hin as [hin|[]]; discriminate|].
      unfold dec in hin. clear - hin hc. induction (N.to_uint n); cbn [uint_bytes In] in hin; [exact hin|..]; (destruct hin as [hin|hin]; [destruct hc as [-> | ->]; discriminate|auto]). }
  split; [apply hno; auto|]. split; [apply hno; auto|]. rewrite app_length, lc_length. lia.
Qed.
Lemma room_chars room r c : canonical_room room = Ok r -> (c = "/"%char \/ c = "?"%char) -> ~ In c room.
Proof.
  unfold canonical_room. destruct (Nat.ltb _ _); [discriminate|]. destruct (is_nil _); [discriminate|]. destruct (forallb room_char (make_lc room)) eqn:e; [|discriminate].
  intros _ hc hin. rewrite forallb_forall in e. specialize (e (lower c) (in_map lower _ _ hin)). destruct hc as [-> | ->]; discriminate.
Qed.
Lemma hex_no_question pk : ~ In "?"%char (to_hex pk).
Proof.
  intros hin. unfold to_hex in hin. apply in_flat_map in hin as (c & _ & hin). pose proof (N_of_ascii_lt c) as hc.
  assert (hx : forall n, (n < 16)%N -> hex_char n <> "?"%char) by (intros n hn e; pose proof (hex_digit_char n hn) as h; rewrite e in h; discriminate).
  cbn [In] in hin. destruct hin as [hin|[hin|[]]]; revert hin; apply hx; [apply N.div_lt_upper_bound; lia|apply N.mod_lt; lia].
Qed.
Lemma decode_hex pk : length pk = 32 -> decode_pubkey (to_hex pk) = Ok pk.
Proof. intros h. unfold decode_pubkey. rewrite to_hex_length, h. unfold is_hex. rewrite from_to_hex. reflexivity. Qed.
Lemma split_pk x pk : split_last qs_pubkey (x ++ qs_pubkey ++ to_hex pk) = Some (x, to_hex pk).
Proof.
  unfold qs_pubkey. change (b "?public_key=") with ("?"%char :: b "public_key="). apply split_last_at. apply split_last_none.
  intros hin. apply in_app_or in hin as [hin|hin]; [cbn in hin; intuition discriminate|]. exact (hex_no_question _ hin).
Qed.
Lemma split_room_r x room : ~ In "/"%char room -> split_last (b "/r/") (x ++ b "/r/" ++ room) = Some (x, room).
Proof.
  intros h. change (b "/r/") with ("/"%char :: b "r/"). apply split_last_at. change (b "r/" ++ room) with ("r"%char :: "/"%char :: room).
  cbn [split_last]. rewrite (split_last_none "/" (b "r/") room h). unfold starts. cbn [app].
  destruct (eqb _ _) eqn:e.
  - apply eqb_eq in e. destruct room as [|c [|d room]]; try discriminate. cbn in e. injection e as _ e. subst d. exfalso. apply h. right. left. reflexivity.
  - destruct (eqb _ _) eqn:e2; [|reflexivity]. apply eqb_eq in e2. discriminate.
Qed.
Lemma split_no_r p w room : (p = b "http" \/ p = b "https") -> ~ In "/"%char w -> 4 <= length w -> ~ In "/"%char room -> split_last (b "/r/") ((p ++ b "://" ++ w) ++ b "/" ++ room) = None.
Proof.
  intros hp hw hl hr. change (b "/r/") with ("/"%char :: b "r/").
  assert (h0 : forall w, ~ In "/"%char w -> split_last ("/"%char :: b "r/") (w ++ b "/" ++ room) = None).
  { intros w0. induction w0 as [|c w0 IH]; intros h.
    - change ([] ++ b "/" ++ room) with ("/"%char :: room). cbn [split_last]. rewrite (split_last_none "/" (b "r/") room hr).
      unfold starts. destruct (eqb _ _) eqn:e; [|reflexivity]. apply eqb_eq in e. destruct room as [|c [|d room]]; try discriminate. cbn in e. injection e as _ e. subst d. exfalso. apply hr. right. left. reflexivity.
    - cbn [app split_last]. rewrite IH by (intros hin; apply h; right; exact hin). destruct (starts _ _) eqn:e; [|reflexivity]. apply starts_spec in e as [r e]. injection e as e _. exfalso. apply h. left. exact e. }
  specialize (h0 w hw). destruct w as [|c0 [|c1 w]]; try (cbn in hl; lia).
  assert (hc : Ascii.eqb c1 "/" = false) by (apply Ascii.eqb_neq; intros ->; apply hw; right; left; reflexivity).
  assert (hs : starts ("/"%char :: b "r/") ("/"%char :: (c0 :: c1 :: w) ++ b "/" ++ room) = false).
  { destruct (starts _ _) eqn:e; [|reflexivity]. apply starts_spec in e as [r e]. cbn [app] in e. injection e as _ e _. subst c1. discriminate. }
  rewrite <- !app_assoc. assert (h1 : split_last ("/"%char :: b "r/") (b "//" ++ (c0 :: c1 :: w) ++ b "/" ++ room) = None).
  { change (b "//" ++ (c0 :: c1 :: w) ++ b "/" ++ room) with ("/"%char :: "/"%char :: (c0 :: c1 :: w) ++ b "/" ++ room). cbn [split_last] in *. cbn [app] in *. rewrite h0, hs. reflexivity. }
  destruct hp as [-> | ->]; cbn [app b list_ascii_of_string] in *; cbn [split_last] in *; rewrite h1; reflexivity.
Qed.
Lemma full_url_parses u v room r pk : canonical_url u = Ok v -> canonical_room room = Ok r -> length pk = 32 ->
  parse_full_url (full_url v room pk) = Ok (v, room, pk) /\ parse_full_url (v ++ b "/r/" ++ room ++ b "?public_key=" ++ to_hex pk) = Ok (v, room, pk).
Proof.
  intros hu hr hpk. apply canonical_iff in hu. pose proof (proj2 (canonical_iff v v) (means_fixed _ _ hu)) as hfix.
  assert (hroom : ~ In "/"%char room) by (apply (room_chars _ _ _ hr); auto).
  destruct (canonical_shape _ _ hu) as (p & w & hp & hv & w1 & w2 & w3). unfold parse_full_url, full_url, parse_partial_url. split.
  - replace (v ++ b "/" ++ room ++ qs_pubkey ++ to_hex pk) with ((v ++ b "/" ++ room) ++ qs_pubkey ++ to_hex pk) by (rewrite <- !app_assoc; reflexivity). rewrite split_pk, decode_hex by exact hpk. cbn [bind].
    rewrite hv, (split_no_r p w room hp w1 w3 hroom), <- hv.
    assert (e : split_last (b "/") (v ++ b "/" ++ room) = Some (v, room)).
    { change (b "/") with ("/"%char :: []). apply split_last_at. apply split_last_none. exact hroom. }
    rewrite e, hfix. reflexivity.
  - change (b "?public_key=") with qs_pubkey. replace (v ++ b "/r/" ++ room ++ qs_pubkey ++ to_hex pk) with ((v ++ b "/r/" ++ room) ++ qs_pubkey ++ to_hex pk) by (rewrite <- !app_assoc; reflexivity).
    rewrite split_pk, decode_hex by exact hpk. cbn [bind]. rewrite split_room_r by exact hroom. rewrite hfix. reflexivity.
Qed.
Lemma room_fixed room r : canonical_room room = Ok r -> canonical_room r = Ok r /\ r = make_lc room.
Proof.
  unfold canonical_room. destruct (Nat.ltb _ _) eqn:e1; [discriminate|]. destruct (is_nil _) eqn:e2; [discriminate|]. destruct (forallb _ _) eqn:e3; [|discriminate].
  intros h. assert (r = make_lc room) by congruence. subst r. rewrite lc_lc, e1, e2, e3. split; reflexivity.
Qed.
Lemma room_accepted room : canonical_room room = Ok (make_lc room) <-> good_room room.
Proof.
  assert (hc : forall c, room_char (lower c) = label_char c || Ascii.eqb c "_").
  { intros c. apply eqb_prop. apply (all_ascii (fun c => Bool.eqb (room_char (lower c)) (label_char c || Ascii.eqb c "_"))). vm_compute. reflexivity. }
  assert (hf : forallb room_char (make_lc room) = forallb (fun c => label_char c || Ascii.eqb c "_") room).
  { unfold make_lc. induction room as [|c r IH]; [reflexivity|]. cbn [map forallb]. rewrite IH, hc. reflexivity. }
  unfold canonical_room, good_room. rewrite lc_length, hf. unfold ROOM_MAX_LENGTH. destruct (Nat.ltb_spec 64 (length room)) as [h|h].
  - split; [discriminate|intros [h1 _]; lia].
  - destruct room as [|c r]; [split; [discriminate|cbn; intros [h1 _]; lia]|]. destruct (forallb _ (c :: r)); (split; [intros h0|intros [_ h0]]; try discriminate; try reflexivity). split; [cbn [length] in *; lia|reflexivity].
Qed.
