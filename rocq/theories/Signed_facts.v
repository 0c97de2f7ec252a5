(** Two messages whose signed parts are the same have the same content. *)
From Verif Require Import Data_facts Diff_facts Bt_facts Message Message_facts Parse_facts Merge Spec Wire_facts.

(** ** parsing a value does not look beyond it *)
Definition local {A} (f : bytes -> option (A * bytes)) : Prop :=
  forall s x r, f s = Some (x, r) -> exists p, s = p ++ r /\ p <> [] /\ forall r', f (p ++ r') = Some (x, r').
Lemma take_digits_local s u c r : take_digits s = (u, c :: r) -> exists p, s = p ++ c :: r /\ (u <> Decimal.Nil -> p <> []) /\ forall r', take_digits (p ++ c :: r') = (u, c :: r').
Proof.
  revert u. induction s as [|d s IH]; intros u h; [discriminate|].
  cbn [take_digits] in h. destruct (take_digits s) as [u' t'] eqn:E.
  repeat match type of h with context [if Ascii.eqb d ?x then _ else _] =>
    let Hd := fresh "Hd" in destruct (Ascii.eqb d x) eqn:Hd;
      [ apply Ascii.eqb_eq in Hd; subst d; injection h as <- ->; destruct (IH _ eq_refl) as (p & -> & _ & hp);
        match goal with |- context [?z :: p ++ c :: r] => exists (z :: p) end; split; [reflexivity|]; split; [intros _; discriminate|];
        intros r'; cbn [app take_digits]; rewrite hp; reflexivity |]
  end.
  injection h as <- <- <-. exists []. split; [reflexivity|]. split; [congruence|]. intros r'. cbn [app take_digits].
  destruct (take_digits r') as [u2 t2].
  repeat match goal with h : Ascii.eqb d ?x = false |- _ => rewrite h; clear h end. reflexivity.
Qed.
Lemma parse_uint_local s n c r : parse_uint s = Some (n, c :: r) -> exists p, s = p ++ c :: r /\ p <> [] /\ forall r', parse_uint (p ++ c :: r') = Some (n, c :: r').
Proof.
  unfold parse_uint. destruct (take_digits s) as [u t] eqn:E. intros h.
  assert (ht : t = c :: r /\ u <> Decimal.Nil).
  { destruct u; try discriminate h; destruct (_ <=? _)%N; try discriminate h; injection h as _ ->; split; congruence. }
  destruct ht as [-> hu]. apply take_digits_local in E as (p & -> & hp & hl). exists p. split; [reflexivity|]. split; [auto|]. intros r'. rewrite hl.
  destruct u; try congruence; destruct (_ <=? _)%N; try discriminate h; injection h as <-; reflexivity.
Qed.
Lemma parse_str_local : local parse_str.
Proof.
  intros s x r h. unfold parse_str in h. destruct (parse_uint s) as [[n [|c q]]|] eqn:E; try discriminate h.
  destruct (Ascii.eqb c ":" && (n <=? N.of_nat (length q))%N) eqn:Ec; [|discriminate h]. injection h as <- <-.
  apply andb_true_iff in Ec as [hc hn]. apply N.leb_le in hn. apply parse_uint_local in E as (p & -> & hp & hl).
  exists (p ++ c :: firstn (N.to_nat n) q). split; [rewrite <- app_assoc; cbn [app]; rewrite firstn_skipn; reflexivity|].
  split; [destruct p; discriminate|]. intros r'. rewrite <- app_assoc. cbn [app]. unfold parse_str. rewrite hl, hc.
  assert (hlen : length (firstn (N.to_nat n) q) = N.to_nat n) by (rewrite firstn_length; lia).
  replace (n <=? N.of_nat (length (firstn (N.to_nat n) q ++ r')))%N with true by (symmetry; apply N.leb_le; rewrite app_length, hlen; lia).
  cbn [andb]. f_equal. f_equal.
  - rewrite firstn_app, hlen, Nat.sub_diag. cbn [firstn]. rewrite app_nil_r. rewrite firstn_all2; [reflexivity|lia].
  - rewrite skipn_app, hlen, Nat.sub_diag. cbn [skipn]. rewrite skipn_all2; [reflexivity|lia].
Qed.
Lemma parse_int_local : local parse_int.
Proof.
  assert (haux : forall q z t (f : N -> option Z), match parse_uint q with Some (n, "e"%char :: t') => match f n with Some z => Some (z, t') | None => None end | _ => None end = Some (z, t) ->
            exists p, q = p ++ t /\ p <> [] /\ forall t1, match parse_uint (p ++ t1) with Some (n, "e"%char :: t') => match f n with Some z => Some (z, t') | None => None end | _ => None end = Some (z, t1)).
  { intros q z t f h. destruct (parse_uint q) as [[n [|e t']]|] eqn:E; try discriminate h.
    assert (e = "e"%char /\ match f n with Some z => Some (z, t') | None => None end = Some (z, t)) as [-> h'].
    { destruct e as [[] [] [] [] [] [] [] []]; try congruence; auto. }
    destruct (f n) as [z'|] eqn:Ef; [|discriminate h']. injection h' as -> ->. apply parse_uint_local in E as (p & -> & hp & hl).
    exists (p ++ ["e"%char]). rewrite <- app_assoc. split; [reflexivity|]. split; [destruct p; discriminate|]. intros t1. rewrite <- app_assoc. cbn [app]. rewrite hl, Ef. reflexivity. }
  intros s z t h. unfold parse_int in h.
  assert (hgen : match parse_uint s with Some (n, "e"%char :: t') => Some (Z.of_N n, t') | _ => None end = Some (z, t) -> (forall r, s <> "-"%char :: r) ->
                 exists p, s = p ++ t /\ p <> [] /\ forall r', parse_int (p ++ r') = Some (z, r')).
  { intros h' hm. destruct (haux s z t (fun n => Some (Z.of_N n))) as (p & -> & hp & hl); [exact h'|]. exists p. split; [reflexivity|]. split; [exact hp|].
    intros r'. unfold parse_int. destruct p as [|c p]; [congruence|]. cbn [app].
    assert (hc : c <> "-"%char) by (intros ->; apply (hm (p ++ t)); reflexivity).
    specialize (hl r'). cbn [app] in hl. destruct c as [[] [] [] [] [] [] [] []]; try exact hl. congruence. }
  destruct s as [|c r]; [apply hgen; [exact h|discriminate]|].
  destruct (ascii_dec c "-"%char) as [->|hne].
  - destruct (haux r z t (fun n => if (Z.of_N n <=? 2 ^ 63)%Z then Some (- Z.of_N n)%Z else None)) as (p & -> & hp & hl).
    { destruct (parse_uint r) as [[n [|e t']]|]; try discriminate h. destruct e as [[] [] [] [] [] [] [] []]; try discriminate h. destruct (_ <=? _)%Z; [exact h|discriminate h]. }
    exists ("-"%char :: p). split; [reflexivity|]. split; [discriminate|]. intros r'. cbn [app parse_int]. specialize (hl r').
    destruct (parse_uint (p ++ r')) as [[n [|e t']]|]; try discriminate hl. destruct e as [[] [] [] [] [] [] [] []]; try discriminate hl. destruct (_ <=? _)%Z; [exact hl|discriminate hl].
  - apply hgen; [|intros r0 [= ->]; congruence]. destruct c as [[] [] [] [] [] [] [] []]; try exact h. congruence.
Qed.
Lemma parse_local : forall f, local (parse_value f) /\ local (parse_list f) /\ local (parse_entries f).
Proof.
  induction f as [|f (IHv & IHl & IHe)]; [repeat split; intros s x r h; discriminate h|].
  assert (hcons : forall A (g : bytes -> option (A * bytes)) c s x r, local g -> g s = Some (x, r) ->
            exists p, c :: s = c :: p ++ r /\ c :: p <> [] /\ forall r', g (p ++ r') = Some (x, r')).
  { intros A g c s x r hg h. destruct (hg _ _ _ h) as (p & -> & hp & hl). exists p. split; [reflexivity|]. split; [discriminate|exact hl]. }
  split; [|split]; intros s x r h; cbn [parse_value parse_list parse_entries] in h; destruct s as [|c s]; try discriminate h.
  - destruct (Ascii.eqb c "i") eqn:Ei.
    { destruct (parse_int s) as [[z t]|] eqn:E; [|discriminate h]. injection h as <- <-. destruct (hcons _ _ c _ _ _ parse_int_local E) as (p & -> & hp & hl).
      exists (c :: p). split; [reflexivity|]. split; [exact hp|]. intros r'. cbn [app parse_value]. rewrite Ei, hl. reflexivity. }
    destruct (Ascii.eqb c "l") eqn:El.
    { destruct (parse_list f s) as [[z t]|] eqn:E; [|discriminate h]. injection h as <- <-. destruct (hcons _ _ c _ _ _ IHl E) as (p & -> & hp & hl).
      exists (c :: p). split; [reflexivity|]. split; [exact hp|]. intros r'. cbn [app parse_value]. rewrite Ei, El, hl. reflexivity. }
    destruct (Ascii.eqb c "d") eqn:Ed.
    { destruct (parse_entries f s) as [[z t]|] eqn:E; [|discriminate h]. injection h as <- <-. destruct (hcons _ _ c _ _ _ IHe E) as (p & -> & hp & hl).
      exists (c :: p). split; [reflexivity|]. split; [exact hp|]. intros r'. cbn [app parse_value]. rewrite Ei, El, Ed, hl. reflexivity. }
    destruct (parse_str (c :: s)) as [[z t]|] eqn:E; [|discriminate h]. injection h as <- <-. apply parse_str_local in E as (p & hs & hp & hl).
    exists p. split; [exact hs|]. split; [exact hp|]. intros r'. specialize (hl r'). destruct p as [|c' p]; [congruence|]. cbn [app] in hs, hl |- *. injection hs as <- ->.
    cbn [parse_value]. rewrite Ei, El, Ed, hl. reflexivity.
  - destruct (Ascii.eqb c "e") eqn:Ee.
    { injection h as <- <-. exists [c]. split; [reflexivity|]. split; [discriminate|]. intros r'. cbn [app parse_list]. rewrite Ee. reflexivity. }
    destruct (parse_value f (c :: s)) as [[v t]|] eqn:Ev; [|discriminate h]. destruct (parse_list f t) as [[l t']|] eqn:El; [|discriminate h]. injection h as <- <-.
    apply IHv in Ev as (p1 & hs & hp1 & hl1). apply IHl in El as (p2 & -> & hp2 & hl2).
    exists (p1 ++ p2). rewrite <- app_assoc. split; [exact hs|]. split; [destruct p1; [congruence|discriminate]|]. intros r'. rewrite <- app_assoc.
    specialize (hl1 (p2 ++ r')). destruct p1 as [|c' p1]; [congruence|]. cbn [app] in hs, hl1 |- *. injection hs as <- _. cbn [parse_list]. rewrite Ee, hl1, hl2. reflexivity.
  - destruct (Ascii.eqb c "e") eqn:Ee.
    { injection h as <- <-. exists [c]. split; [reflexivity|]. split; [discriminate|]. intros r'. cbn [app parse_entries]. rewrite Ee. reflexivity. }
    destruct (parse_str (c :: s)) as [[k t0]|] eqn:Ek; [|discriminate h].
    destruct (parse_value f t0) as [[v t]|] eqn:Ev; [|discriminate h]. destruct (parse_entries f t) as [[l t']|] eqn:El; [|discriminate h]. injection h as <- <-.
    apply parse_str_local in Ek as (p0 & hs & hp0 & hl0). apply IHv in Ev as (p1 & -> & hp1 & hl1). apply IHe in El as (p2 & -> & hp2 & hl2).
    exists (p0 ++ p1 ++ p2). rewrite <- !app_assoc. split; [exact hs|]. split; [destruct p0; [congruence|discriminate]|]. intros r'. rewrite <- !app_assoc.
    specialize (hl0 (p1 ++ p2 ++ r')). destruct p0 as [|c' p0]; [congruence|]. cbn [app] in hs, hl0 |- *. injection hs as <- _. cbn [parse_entries]. rewrite Ee, hl0, hl1, hl2. reflexivity.
Qed.
Lemma parse_more f g s x : f <= g -> (parse_value f s = Some x -> parse_value g s = Some x) /\ (forall l, parse_list f s = Some l -> parse_list g s = Some l) /\ (forall d, parse_entries f s = Some d -> parse_entries g s = Some d).
Proof.
  revert g s x. induction f as [|f IH]; intros g s x hg; [repeat split; intros; discriminate|]. destruct g as [|g]; [lia|]. assert (hfg : f <= g) by lia.
  assert (Iv : forall s x, parse_value f s = Some x -> parse_value g s = Some x) by (intros s' x'; apply (IH g s' x' hfg)).
  assert (Il : forall s x, parse_list f s = Some x -> parse_list g s = Some x) by (intros s' x'; apply (IH g s' (BInt 0, []) hfg)).
  assert (Ie : forall s x, parse_entries f s = Some x -> parse_entries g s = Some x) by (intros s' x'; apply (IH g s' (BInt 0, []) hfg)).
  split; [|split; intros l]; destruct s as [|c s]; cbn [parse_value parse_list parse_entries]; try discriminate.
  - destruct (Ascii.eqb c "i"); [auto|]. destruct (Ascii.eqb c "l").
    { destruct (parse_list f s) as [y|] eqn:E; [|discriminate]. rewrite (Il _ _ E). auto. }
    destruct (Ascii.eqb c "d"); [|auto]. destruct (parse_entries f s) as [y|] eqn:E; [|discriminate]. rewrite (Ie _ _ E). auto.
  - destruct (Ascii.eqb c "e"); [auto|]. destruct (parse_value f (c :: s)) as [[v t]|] eqn:E; [|discriminate]. rewrite (Iv _ _ E).
    destruct (parse_list f t) as [y|] eqn:E2; [|discriminate]. rewrite (Il _ _ E2). auto.
  - destruct (Ascii.eqb c "e"); [auto|]. destruct (parse_str (c :: s)) as [[k t0]|]; [|discriminate]. destruct (parse_value f t0) as [[v t]|] eqn:E; [|discriminate]. rewrite (Iv _ _ E).
    destruct (parse_entries f t) as [y|] eqn:E2; [|discriminate]. rewrite (Ie _ _ E2). auto.
Qed.
Lemma parse1_local : local parse1.
Proof.
  intros s x r h. unfold parse1 in h. destruct (proj1 (parse_local _) _ _ _ h) as (p & -> & hp & hl). exists p. split; [reflexivity|]. split; [exact hp|]. intros r'.
  specialize (hl r'). rewrite <- (parse_fuel (p ++ r') (fuel_for (p ++ r') + fuel_for (p ++ r))) by lia.
  eapply parse_more; [|exact hl]. lia.
Qed.
Lemma consume_local s k v r : consume s = Ok (k, v, r) -> exists p, s = p ++ r /\ p <> [] /\ forall r', consume (p ++ r') = Ok (k, v, r').
Proof.
  unfold consume. destruct (next_key s) as [[[k' t]|]|] eqn:En; try discriminate. destruct (parse1 t) as [[v' r0]|] eqn:Ev; [|discriminate]. intros [= -> -> ->].
  pose proof (next_key_inv _ _ _ En) as (hk & c & q & hs & hc). unfold next_key in En. rewrite hs in En, hk. rewrite hc in En. rewrite hk in En.
  destruct t as [|c' t]; [discriminate En|]. destruct (Ascii.eqb c' "e") eqn:Ec'; [discriminate En|]. clear En.
  apply parse_str_local in hk as (p1 & h1 & n1 & l1). apply parse1_local in Ev as (p2 & h2 & n2 & l2).
  exists (p1 ++ p2). rewrite <- app_assoc, <- h2. split; [rewrite hs; exact h1|]. split; [destruct p1; [congruence|discriminate]|].
  intros r'. rewrite <- app_assoc. specialize (l1 (p2 ++ r')). destruct p1 as [|d p1]; [congruence|]. injection h1 as <- _. destruct p2 as [|d2 p2]; [congruence|].
  injection h2 as <- _. unfold next_key. cbn [app] in l1 |- *. rewrite hc, l1, Ec'. specialize (l2 r'). cbn [app] in l2. rewrite l2. reflexivity.
Qed.
Lemma wsteps_local s es r : wsteps s es r -> exists p, s = p ++ r /\ (es <> [] -> p <> []) /\ forall r', wsteps (p ++ r') es r'.
Proof.
  induction 1 as [s|s k v s1 es t hc hs (p & -> & _ & hl)]; [exists []; split; [reflexivity|]; split; [congruence|]; intros r'; constructor|].
  apply consume_local in hc as (q & -> & hq & hl'). exists (q ++ p). rewrite <- app_assoc. split; [reflexivity|]. split; [destruct q; [congruence|discriminate]|].
  intros r'. rewrite <- app_assoc. econstructor; [apply hl'|apply hl].
Qed.
(** the same walk, twice *)
Lemma wsteps_det s es r es' r' : wsteps s es r -> wsteps s es' r' -> (exists x, es' = es ++ x /\ wsteps r x r') \/ (exists x, es = es' ++ x /\ wsteps r' x r).
Proof.
  intros h. revert es' r'. induction h as [s|s k v s1 es t hc hs IH]; intros es' r' h'; [left; exists es'; auto|].
  inversion h' as [s0|s0 k' v' s1' es0 t' hc' hs']; subst.
  - right. exists ((k, v) :: es). split; [reflexivity|]. econstructor; eassumption.
  - rewrite hc in hc'. injection hc' as <- <- <-. destruct (IH _ _ hs') as [(x & -> & hx)|(x & -> & hx)]; [left|right]; exists x; auto.
Qed.
Lemma wsteps_same s es es' r : wsteps s es r -> wsteps s es' r -> es = es'.
Proof.
  intros h h'. assert (hn : forall q x, wsteps q x q -> x = []).
  { intros q x hx. destruct x as [|p x]; [reflexivity|]. exfalso. apply wsteps_local in hx as (p' & he & hp & _). specialize (hp ltac:(discriminate)).
    apply (f_equal (@length _)) in he. rewrite app_length in he. destruct p' as [|? ?]; [congruence|]. cbn [length] in he. lia. }
  destruct (wsteps_det _ _ _ _ _ h h') as [(x & -> & hx)|(x & -> & hx)]; apply hn in hx; subst x; rewrite app_nil_r; reflexivity.
Qed.

(** ** the content, read from the walked entries *)
Definition reserved (k : bytes) : bool := eqb k (b "#") || eqb k (b "&") || eqb k (b "<") || eqb k (b "=").
Record shape (E : env) (es : btdict) (m : msg) : Prop := {
  sh_seqno : lookup (b "#") es = Some (BInt (m_seqno m));
  sh_data : exists d, lookup (b "&") es = Some (BDict d) /\ dict_of_bt d = Some (m_data m);
  sh_lag : match lookup (b "<") es with Some (BList l) => parse_lagged (m_seqno m) (e_lag E) None l = Ok (m_lagged m) | Some _ => False | None => m_lagged m = [] end;
  sh_diff : match lookup (b "=") es with Some (BDict d) => load_diff d = Ok (m_diff m) | Some _ => False | None => m_diff m = [] end;
  sh_unk : m_unknown m = normed (filter (fun p => negb (reserved (fst p))) es)
}.
Lemma shape_det E es m m' : shape E es m -> shape E es m' ->
  m_seqno m = m_seqno m' /\ m_data m = m_data m' /\ m_lagged m = m_lagged m' /\ m_diff m = m_diff m' /\ m_unknown m = m_unknown m'.
Proof.
  intros [a1 (d1 & a2 & a2') a3 a4 a5] [c1 (d2 & c2 & c2') c3 c4 c5].
  assert (hs : m_seqno m = m_seqno m') by congruence. split; [exact hs|]. split; [congruence|]. split; [|split; [|congruence]].
  - rewrite <- hs in c3. destruct (lookup (b "<") es) as [[]|]; congruence || tauto.
  - destruct (lookup (b "=") es) as [[]|]; congruence || tauto.
Qed.
Lemma filter_within lo hi l : within lo hi l -> (forall k, ltb lo k = true -> ltb k hi = true -> reserved k = false) -> filter (fun p => negb (reserved (fst p))) l = l.
Proof.
  intros h hr. unfold within in h. induction l as [|[k v] l IH]; [reflexivity|]. cbn [keys map fst] in h. inversion h as [|? ? [h1 h2] h3]; subst.
  cbn [filter fst]. rewrite (hr k h1 h2). cbn [negb]. f_equal. apply IH, h3.
Qed.
Lemma between_not (lo hi x k : bytes) : ltb lo k = true -> ltb k hi = true -> ltb lo x = false \/ ltb x hi = false -> eqb k x = false.
Proof. intros h1 h2 h3. destruct (eqb k x) eqn:E; [|reflexivity]. apply eqb_eq in E. subst. destruct h3; congruence. Qed.
Lemma parse_msg_shape E trust s m : parse_msg E trust s = Ok m ->
  exists s0 es s8, s = "d"%char :: s0 /\ wsteps s0 es s8 /\ shape E es m /\ verify_sig E trust s s8 = Ok (m_vsig m).
Proof.
  intros h. unfold parse_msg in h.
  assert (hd : exists s0, s = "d"%char :: s0).
  { destruct s as [|c s0]; [discriminate h|]. destruct c as [[] [] [] [] [] [] [] []]; try discriminate h. eauto. }
  destruct hd as [s0 hs0]. rewrite hs0 in h. cbn iota in h. rewrite <- hs0 in h.
  ok_inv h. rename ha into c1. destruct a as [[k v] s1].
  destruct v as [seqno| | | ]; try discriminate h.
  destruct (eqb k (b "#") && int64_ok seqno) eqn:E1; [|discriminate h]. cbn [negb] in h. apply andb_true_iff in E1 as [hk1 hseq].
  apply eqb_eq in hk1. subst k.
  ok_inv h. rename ha into c2. destruct a as [u1 s2]. pose proof (unknowns_spec _ _ _ _ _ _ c2) as (_ & w1 & e1 & f1 & _).
  apply unknowns_steps in c2 as (raw1 & st1 & e1').
  ok_inv h. rename ha into c3. destruct a as [[k3 v3] s3]. destruct v3 as [| | |d]; try discriminate h.
  destruct (eqb k3 (b "&")) eqn:Ek3; [|discriminate h]. cbn [negb] in h. apply eqb_eq in Ek3. subst k3.
  ok_inv h. rename ha into c4, a into data. destruct (dict_of_bt d) as [data'|] eqn:Ed; [|discriminate c4]. injection c4 as ->.
  ok_inv h. rename ha into c5. destruct a as [u2 s4]. pose proof (unknowns_spec _ _ _ _ _ _ c5) as (_ & w2 & e2 & f2 & _).
  apply unknowns_steps in c5 as (raw2 & st2 & e2').
  ok_inv h. rename ha into c6, a into haslag.
  ok_inv h. rename ha into c7. destruct a as [lagged s5].
  assert (hlg : exists lg, wsteps s4 lg s5 /\ (lg = [] /\ lagged = [] \/ exists x, lg = [(b "<", BList x)] /\ parse_lagged seqno (e_lag E) None x = Ok lagged)).
  { destruct haslag.
    - ok_inv c7. destruct a as [[kk vv] ss]. destruct vv as [| |l|]; try discriminate c7. ok_inv c7. injection c7 as <- <-.
      exists [(kk, BList l)]. split; [apply wsteps_one, ha|]. right. exists l. split; [|assumption]. do 2 f_equal.
      unfold key_is in c6. unfold consume in ha. destruct (next_key s4) as [[[k' r]|]|]; try discriminate.
      destruct (parse1 r) as [[? ?]|]; [|discriminate]. injection ha as <- _ _. injection c6 as c6. apply eqb_eq, c6.
    - injection c7 as <- <-. exists []. split; [constructor|]. left. auto. }
  destruct hlg as (lg & st3 & hlg). clear c7 c6.
  ok_inv h. rename ha into c8. destruct a as [u3 s6]. pose proof (unknowns_spec _ _ _ _ _ _ c8) as (_ & w3 & e3 & f3 & _).
  apply unknowns_steps in c8 as (raw3 & st4 & e3').
  ok_inv h. rename ha into c9, a into hasdiff.
  ok_inv h. rename ha into c10. destruct a as [df s7].
  assert (hdf : exists dg, wsteps s6 dg s7 /\ (dg = [] /\ df = [] \/ exists x, dg = [(b "=", BDict x)] /\ load_diff x = Ok df)).
  { destruct hasdiff.
    - ok_inv c10. destruct a as [[kk vv] ss]. destruct vv as [| | |d']; try discriminate c10. ok_inv c10. injection c10 as <- <-.
      exists [(kk, BDict d')]. split; [apply wsteps_one, ha|]. right. exists d'. split; [|assumption]. do 2 f_equal.
      unfold key_is in c9. unfold consume in ha. destruct (next_key s6) as [[[k' r]|]|]; try discriminate.
      destruct (parse1 r) as [[? ?]|]; [|discriminate]. injection ha as <- _ _. injection c9 as c9. apply eqb_eq, c9.
    - injection c10 as <- <-. exists []. split; [constructor|]. left. auto. }
  destruct hdf as (dg & st5 & hdg). clear c10 c9.
  ok_inv h. rename ha into c11. destruct a as [u4 s8]. pose proof (unknowns_spec _ _ _ _ _ _ c11) as (_ & w4 & e4 & f4 & _).
  apply unknowns_steps in c11 as (raw4 & st6 & e4').
  ok_inv h. rename ha into c12, a into vs. injection h as hm.
  assert (hr1 : w1 = normed raw1) by (rewrite e1 in e1'; apply app_inv_head in e1'; exact e1').
  assert (hr2 : w2 = normed raw2) by (rewrite e2 in e2'; apply app_inv_head in e2'; exact e2').
  assert (hr3 : w3 = normed raw3) by (rewrite e3 in e3'; apply app_inv_head in e3'; exact e3').
  assert (hr4 : w4 = normed raw4) by (rewrite e4 in e4'; apply app_inv_head in e4'; exact e4').
  assert (hb : forall prev utl w raw, w = normed raw ->
     Forall (fun p => ltb (fst p) utl = true /\ ltb prev (fst p) = true /\ str_ok (fst p) = true /\ bt_ok (snd p) = true) w -> within prev utl raw).
  { intros prev utl w raw -> hf. unfold within. rewrite <- keys_normed. apply Forall_forall. intros x hx. apply in_map_iff in hx as (p & <- & hp).
    rewrite Forall_forall in hf. destruct (hf p hp) as (q1 & q2 & _). auto. }
  apply (hb _ _ _ _ hr1) in f1. apply (hb _ _ _ _ hr2) in f2. apply (hb _ _ _ _ hr3) in f3. apply (hb _ _ _ _ hr4) in f4. clear hb.
  set (es := [(b "#", BInt seqno)] ++ raw1 ++ [(b "&", BDict d)] ++ raw2 ++ lg ++ raw3 ++ dg ++ raw4).
  exists s0, es, s8. split; [exact hs0|]. split.
  { unfold es. eapply wsteps_app; [apply wsteps_one, c1|]. eapply wsteps_app; [exact st1|]. eapply wsteps_app; [apply wsteps_one, c3|].
    eapply wsteps_app; [exact st2|]. eapply wsteps_app; [exact st3|]. eapply wsteps_app; [exact st4|]. eapply wsteps_app; [exact st5|]. exact st6. }
  rewrite <- hm. split; [|exact c12]. constructor; cbn [m_seqno m_sh fst m_data m_lagged m_diff m_unknown].
  - reflexivity.
  - exists d. split; [|exact Ed]. unfold es. rewrite !lookup_app. rewrite (lookup_within _ _ _ (b "&") f1) by (right; reflexivity). reflexivity.
  - unfold es. rewrite !lookup_app. rewrite (lookup_within _ _ _ (b "<") f1) by (right; reflexivity). rewrite (lookup_within _ _ _ (b "<") f2) by (right; reflexivity).
    rewrite (lookup_within _ _ _ (b "<") f3) by (left; reflexivity). rewrite (lookup_within _ _ _ (b "<") f4) by (left; reflexivity).
    destruct hlg as [[-> ->]|(x & -> & hx)]; [|exact hx].
    destruct hdg as [[-> ->]|(y & -> & hy)]; reflexivity.
  - unfold es. rewrite !lookup_app. rewrite (lookup_within _ _ _ (b "=") f1) by (right; reflexivity). rewrite (lookup_within _ _ _ (b "=") f2) by (right; reflexivity).
    rewrite (lookup_within _ _ _ (b "=") f3) by (right; reflexivity). rewrite (lookup_within _ _ _ (b "=") f4) by (left; reflexivity).
    destruct hdg as [[-> ->]|(y & -> & hy)]; destruct hlg as [[-> ->]|(x & -> & hx)]; try reflexivity; exact hy.
  - assert (hres : forall lo hi, (forall x, In x [b "#"; b "&"; b "<"; b "="] -> ltb lo x = false \/ ltb x hi = false) -> forall k, ltb lo k = true -> ltb k hi = true -> reserved k = false).
    { intros lo hi hx k h1 h2. unfold reserved. rewrite !(between_not lo hi _ k h1 h2); [reflexivity| | | |]; apply hx; cbn; tauto. }
    assert (hmu : u4 = normed (raw1 ++ raw2 ++ raw3 ++ raw4)).
    { rewrite e4', e3', e2', e1'. cbn [app]. unfold normed. rewrite !map_app, !app_assoc. reflexivity. }
    rewrite hmu. f_equal. unfold es. rewrite !filter_app.
    rewrite (filter_within (b "#") (b "&") raw1 f1) by (apply hres; intros x [<-|[<-|[<-|[<-|[]]]]]; (left; reflexivity) || (right; reflexivity)).
    rewrite (filter_within (b "&") (b "<") raw2 f2) by (apply hres; intros x [<-|[<-|[<-|[<-|[]]]]]; (left; reflexivity) || (right; reflexivity)).
    rewrite (filter_within (b "<") (b "=") raw3 f3) by (apply hres; intros x [<-|[<-|[<-|[<-|[]]]]]; (left; reflexivity) || (right; reflexivity)).
    rewrite (filter_within (b "=") (b "~") raw4 f4) by (apply hres; intros x [<-|[<-|[<-|[<-|[]]]]]; (left; reflexivity) || (right; reflexivity)).
    assert (hl : filter (fun p => negb (reserved (fst p))) lg = []) by (destruct hlg as [[-> _]|(x & -> & _)]; reflexivity).
    assert (hg : filter (fun p => negb (reserved (fst p))) dg = []) by (destruct hdg as [[-> _]|(x & -> & _)]; reflexivity).
    rewrite hl, hg. reflexivity.
Qed.
Lemma verify_sig_part E trust whole s vs v : e_verifier E = Some v -> verify_sig E trust whole s = Ok vs ->
  exists sig, vs = Some sig /\ v (firstn (length whole - length s) whole) sig = true.
Proof.
  intros hv. unfold verify_sig. destruct (next_key s) as [[[k r]|]|] eqn:En; [| |discriminate].
  - destruct (eqb k (b "~")); [|discriminate]. destruct (consume s) as [[[k' [|sig| | ]] t]| | | |] eqn:Ec; try discriminate.
    destruct (Nat.eqb (length sig) 64); [|discriminate]. cbn [negb]. rewrite hv. destruct (v _ sig) eqn:Evs; [|discriminate]. cbn [negb].
    destruct (next_key t) as [[|]|]; try discriminate. intros [= <-]. exists sig. auto.
  - rewrite hv. discriminate.
Qed.
(** Every message accepted under a verifier has the content fixed by the part the signature covers. *)
Theorem signed_content E t t' s m s' m' v pre : e_verifier E = Some v ->
  (forall x r sig, v x sig = true -> s = x ++ r \/ s' = x ++ r -> x = pre) ->
  parse_msg E t s = Ok m -> parse_msg E t' s' = Ok m' ->
  m_seqno m = m_seqno m' /\ m_data m = m_data m' /\ m_lagged m = m_lagged m' /\ m_diff m = m_diff m' /\ m_unknown m = m_unknown m'.
Proof.
  intros hv hu h h'. apply parse_msg_shape in h as (s0 & es & s8 & -> & hw & hs & hsig). apply parse_msg_shape in h' as (s0' & es' & s8' & -> & hw' & hs' & hsig').
  destruct (verify_sig_part _ _ _ _ _ _ hv hsig) as (sg & _ & hp). destruct (verify_sig_part _ _ _ _ _ _ hv hsig') as (sg' & _ & hp'). 
  apply (hu _ (skipn (length ("d"%char :: s0) - length s8) ("d"%char :: s0))) in hp; [|left; symmetry; apply firstn_skipn].
  apply (hu _ (skipn (length ("d"%char :: s0') - length s8') ("d"%char :: s0'))) in hp'; [|right; symmetry; apply firstn_skipn].
  destruct (wsteps_local _ _ _ hw) as (p & e & _ & hl). destruct (wsteps_local _ _ _ hw') as (p' & e' & _ & hl').
  assert (q : forall (p r : bytes), firstn (length ("d"%char :: p ++ r) - length r) ("d"%char :: p ++ r) = "d"%char :: p).
  { intros q r. change ("d"%char :: q ++ r) with (("d"%char :: q) ++ r). rewrite app_length, Nat.add_sub, firstn_app, firstn_all, Nat.sub_diag. apply app_nil_r. }
  rewrite e in hp. rewrite e' in hp'. rewrite q in hp, hp'. assert (hpp : p = p') by congruence. subst p'.
  assert (es = es') as <-. { rewrite e' in hw'. exact (wsteps_same _ _ _ _ (hl s8') hw'). }
  exact (shape_det _ _ _ _ hs hs').
Qed.
