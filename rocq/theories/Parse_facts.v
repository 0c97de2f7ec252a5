(** Parsing and serialising whole messages. *)
From Verif Require Import Data_facts Diff_facts Bt_facts Message Message_facts Spec.

Lemma int64_btint z : int64_ok z = true -> btint_ok z = true.
Proof. unfold int64_ok, int64_min, int64_max, btint_ok, uint64_max. lia. Qed.

(** ** cursor *)
Lemma enc_entries_app a c : enc_entries (a ++ c) = enc_entries a ++ enc_entries c.
Proof. unfold enc_entries. apply flat_map_app. Qed.
Lemma enc_entries_cons k v es : enc_entries ((k, v) :: es) = enc_str k ++ enc v ++ enc_entries es.
Proof. unfold enc_entries. cbn [flat_map fst snd]. rewrite <- app_assoc. reflexivity. Qed.
Lemma next_key_enc k v es r : str_ok k = true ->
  next_key (enc_entries ((k, v) :: es) ++ r) = Some (Some (k, enc v ++ enc_entries es ++ r)).
Proof.
  intros hk. rewrite enc_entries_cons. rewrite <- !app_assoc.
  destruct (enc_str_head k) as (c & t & hc & hcd). pose proof (parse_str_enc k (enc v ++ enc_entries es ++ r) hk) as hp.
  destruct (digit_not c hcd) as (_ & _ & _ & he).
  unfold next_key. rewrite hc in *. cbn [app] in *. rewrite he, hp.
  destruct (enc_head v) as (c' & t' & hc' & hce). rewrite hc'. cbn [app]. rewrite hce. reflexivity.
Qed.
Lemma next_key_end r : next_key ("e"%char :: r) = Some None.
Proof. reflexivity. Qed.
Lemma consume_enc k v es r : str_ok k = true -> bt_ok v = true ->
  consume (enc_entries ((k, v) :: es) ++ r) = Ok (k, v, enc_entries es ++ r).
Proof. intros hk hv. unfold consume. rewrite next_key_enc by exact hk. rewrite parse1_enc by exact hv. reflexivity. Qed.
Lemma key_is_enc k v es r k' : str_ok k = true -> key_is k' (enc_entries ((k, v) :: es) ++ r) = Ok (eqb k k').
Proof. intros hk. unfold key_is. rewrite next_key_enc by exact hk. reflexivity. Qed.

Definition stops (until : bytes) (es : btdict) : Prop :=
  match es with [] => True | (k, _) :: _ => ltb k until = false /\ str_ok k = true end.
Lemma last_snoc {A} (l : list A) x d : last (l ++ [x]) d = x.
Proof. apply last_last. Qed.
Lemma load_unknowns_enc until prev es r : stops until es ->
  forall u unk fuel,
  length u < fuel ->
  ssorted (keys (unk ++ u)) ->
  Forall (fun p => ltb (fst p) until = true /\ ltb prev (fst p) = true /\ str_ok (fst p) = true /\ bt_ok (snd p) = true) u ->
  load_unknowns fuel unk prev until (enc_entries (u ++ es) ++ "e"%char :: r) = Some (unk ++ u, enc_entries es ++ "e"%char :: r).
Proof.
  intros hst. induction u as [|[k v] u IH]; intros unk fuel hf hs hu.
  - destruct fuel as [|f]; [cbn in hf; lia|]. cbn [load_unknowns]. rewrite app_nil_r. cbn [app].
    destruct es as [|[k v] es]; [reflexivity|]. destruct hst as [h1 h2]. rewrite next_key_enc by exact h2. rewrite h1. reflexivity.
  - inversion hu as [|? ? (h1 & h2 & h3 & h4) hu']; subst. cbn [fst snd] in *.
    destruct fuel as [|f]; [cbn in hf; lia|]. cbn [load_unknowns]. cbn [app]. rewrite next_key_enc by exact h3. rewrite h1.
    assert (hp : leb k prev = false) by (apply leb_lt, ltb_lt; exact h2). rewrite hp. cbn [orb].
    assert (hl : match last (map Some (keys unk)) None with Some u0 => leb k u0 | None => false end = false).
    { unfold keys in hs. rewrite map_app in hs. cbn [map fst] in hs. apply ssorted_app in hs as (hs1 & hs2 & hs3).
      destruct unk as [|p0 unk0] using rev_ind; [reflexivity|]. unfold keys. rewrite !map_app. cbn [map]. rewrite last_snoc.
      apply leb_lt. apply hs3; [rewrite map_app; apply in_app_iff; right; left; reflexivity|left; reflexivity]. }
    rewrite hl. rewrite parse1_enc by exact h4. rewrite norm_id by exact h4.
    rewrite (IH (unk ++ [(k, v)])).
    + rewrite <- app_assoc. reflexivity.
    + cbn [length] in hf. lia.
    + rewrite <- app_assoc. exact hs.
    + exact hu'.
Qed.
Lemma enc_entries_length es : length es <= length (enc_entries es).
Proof.
  induction es as [|[k v] es IH]; [apply le_n|]. rewrite enc_entries_cons, !app_length.
  destruct (enc_str_head k) as (c & t & -> & _). cbn [length]. lia.
Qed.
Lemma unknowns_enc until prev es r u unk : stops until es ->
  ssorted (keys (unk ++ u)) ->
  Forall (fun p => ltb (fst p) until = true /\ ltb prev (fst p) = true /\ str_ok (fst p) = true /\ bt_ok (snd p) = true) u ->
  unknowns unk prev until (enc_entries (u ++ es) ++ "e"%char :: r) = Ok (unk ++ u, enc_entries es ++ "e"%char :: r).
Proof.
  intros hst hs hu. unfold unknowns. rewrite load_unknowns_enc; [reflexivity|exact hst| |exact hs|exact hu].
  rewrite app_length, enc_entries_app, app_length. pose proof (enc_entries_length u). cbn [length]. lia.
Qed.

(** ** lagged diffs *)
Lemma parse_lagged_enc curr lag l : forall last,
  (l <> [] -> int64_ok (curr - lag) = true) ->
  ssorted (keys l) -> match last with Some p => Forall (lt p) (keys l) | None => True end ->
  Forall lag_ok l -> Forall (fun p => (curr - lag < fst (fst p) < curr)%Z) l ->
  parse_lagged curr lag last (map lag_entry l) = Ok l.
Proof.
  induction l as [|[[s h] df] l IH]; intros last hr hs hl hok hw; [reflexivity|].
  inversion hok as [|? ? (h1 & h2 & h3) hok']; subst. inversion hw as [|? ? hw1 hw']; subst. cbn [fst snd] in *.
  unfold keys in *. cbn [map fst] in *. apply ssorted_cons in hs as [hs1 hs2].
  cbn [map lag_entry fst snd parse_lagged]. rewrite h1. cbn [negb].
  destruct (Z.geb_spec s curr); [lia|]. rewrite hr by discriminate. cbn [negb].
  destruct (Z.leb_spec s (curr - lag)); [lia|]. rewrite h2. cbn [Nat.eqb negb].
  assert (hb : match last with Some p => leb (s, h) p | None => false end = false).
  { destruct last as [p|]; [|reflexivity]. inversion hl; subst. apply leb_lt. assumption. }
  rewrite hb. destruct h3 as [_ ->]. cbn [bind is_nil negb].
  rewrite (IH (Some (s, h))); [reflexivity| |exact hs1|exact hs2|exact hok'|exact hw'].
  intros _. apply hr. discriminate.
Qed.
Lemma in_window_spec E seqno s : in_window E seqno s = true <-> (seqno - e_lag E < s < seqno)%Z.
Proof. unfold in_window. rewrite negb_true_iff, orb_false_iff. lia. Qed.

(** ** unknown fields *)
Lemma split_unknown_spec until u p q : split_unknown until u = (p, q) ->
  u = p ++ q /\ Forall (fun x => ltb (fst x) until = true) p /\ match q with [] => True | x :: _ => ltb (fst x) until = false end.
Proof.
  revert p q; induction u as [|[k v] u IH]; cbn [split_unknown]; intros p q h; [injection h as <- <-; auto|].
  destruct (ltb k until) eqn:E.
  - destruct (split_unknown until u) as [p' q'] eqn:E2. injection h as <- <-. destruct (IH _ _ eq_refl) as (-> & h1 & h2).
    repeat split; auto.
  - injection h as <- <-. auto.
Qed.
Lemma ge_all until (q : btdict) : ssorted (keys q) -> match q with [] => True | x :: _ => ltb (fst x) until = false end ->
  Forall (fun x => ltb (fst x) until = false) q.
Proof.
  intros hs hq. destruct q as [|[k v] q]; constructor; [exact hq|].
  unfold keys in hs. cbn [map fst] in *. apply ssorted_cons in hs as [_ hs]. apply Forall_forall. intros x hx.
  rewrite Forall_forall in hs. specialize (hs (fst x) (in_map fst _ _ hx)). apply ltb_nlt in hq. apply ltb_nlt.
  intros h. apply hq. eapply lt_trans; eauto.
Qed.
Lemma ge_ne_lt (k until : bytes) : ltb k until = false -> eqb k until = false -> ltb until k = true.
Proof.
  intros h1 h2. apply ltb_nlt in h1. apply eqb_neq in h2. apply ltb_lt. destruct (lt_total k until) as [?|[?|?]]; tauto.
Qed.

Definition sig_entry (sig : option bytes) : btdict := match sig with Some s => [(b "~", BStr s)] | None => [] end.
(** the bytes of a message with body entries [es], optional signature, and trailing garbage [g] *)
Definition wire (es : btdict) (sig : option bytes) (g : bytes) : bytes :=
  "d"%char :: enc_entries (es ++ sig_entry sig) ++ "e"%char :: g.
Lemma wire_unsigned E m df : body E m df ++ ["e"%char] = wire (body_entries E m df) None [].
Proof. unfold wire, body, sig_entry. rewrite app_nil_r. reflexivity. Qed.
Lemma wire_signed E m df sig : with_sig (body E m df) sig = wire (body_entries E m df) (Some sig) [].
Proof.
  unfold wire, body, sig_entry, with_sig. rewrite enc_entries_app. cbn [app]. f_equal. rewrite <- app_assoc. f_equal.
  rewrite enc_entries_cons. cbn [enc]. change (enc_entries []) with (@nil ascii). rewrite app_nil_r, <- app_assoc. reflexivity.
Qed.
Definition check_sig (E : env) (trust : bool) (signed_part : bytes) (sig : option bytes) : outcome (option bytes) :=
  match sig with
  | None => match e_verifier E with Some _ => Err | None => Ok None end
  | Some s =>
      match e_verifier E with
      | Some v => if v signed_part s then Ok (Some s) else Err
      | None => Ok (if trust then Some s else None)
      end
  end.
Lemma str_ok_short s : length s < 1000 -> str_ok s = true.
Proof. intros h. unfold str_ok, uint64_max. apply N.leb_le. lia. Qed.

Lemma verify_sig_wire E trust es sig g :
  match sig with Some s => length s = 64 | None => True end ->
  verify_sig E trust (wire es sig g) (enc_entries (sig_entry sig) ++ "e"%char :: g)
  = check_sig E trust ("d"%char :: enc_entries es) sig.
Proof.
  intros hs. unfold verify_sig, check_sig. destruct sig as [s|]; cbn [sig_entry].
  - assert (hss : str_ok s = true) by (apply str_ok_short; lia).
    rewrite next_key_enc by reflexivity. change (eqb (b "~") (b "~")) with true. cbn match.
    rewrite consume_enc by (first [reflexivity | exact hss]). rewrite hs. cbn [Nat.eqb negb].
    change (enc_entries [] ++ "e"%char :: g) with ("e"%char :: g). rewrite next_key_end.
    assert (hw : firstn (length (wire es (Some s) g) - length (enc_entries [(b "~", BStr s)] ++ "e"%char :: g)) (wire es (Some s) g)
                 = "d"%char :: enc_entries es).
    { unfold wire, sig_entry. rewrite enc_entries_app. rewrite <- app_assoc.
      change ("d"%char :: enc_entries es ++ ?x) with (("d"%char :: enc_entries es) ++ x).
      rewrite app_length. rewrite Nat.add_sub. rewrite firstn_app, firstn_all, Nat.sub_diag. cbn [firstn]. rewrite app_nil_r. reflexivity. }
    rewrite hw. destruct (e_verifier E) as [v|]; [|reflexivity]. destruct (v _ s); reflexivity.
  - change (enc_entries [] ++ "e"%char :: g) with ("e"%char :: g). rewrite next_key_end. destruct (e_verifier E); reflexivity.
Qed.

Lemma parse_wire E E' trust m sig g :
  msg_ok E m -> e_lag E' = e_lag E ->
  match sig with Some s => length s = 64 | None => True end ->
  (m_lagged m <> [] -> windowed E m <> [] -> True) ->
  parse_msg E' trust (wire (body_entries E m (m_diff m)) sig g) =
  (vs <- check_sig E' trust (body E m (m_diff m)) sig ;;
   Ok (mkMsg (m_seqno m, e_hash E' (wire (body_entries E m (m_diff m)) sig g))
             (m_data m) (m_diff m) (windowed E m) (m_unknown m) vs None)).
Proof.
  intros hok hlag hsig _. set (es := body_entries E m (m_diff m)). remember (wire es sig g) as whole eqn:Ew.
  assert (hb : body E m (m_diff m) = "d"%char :: enc_entries es) by reflexivity. rewrite hb.
  pose proof (verify_sig_wire E' trust es sig g hsig) as hv. rewrite <- Ew in hv.
  destruct hok as [k1 k2 k3 k4 k5 k6 k7 k8 k9 k10 k11].
  pose proof (eq_refl : es = body_entries E m (m_diff m)) as hes. unfold body_entries in hes.
  destruct (split_unknown (b "&") (m_unknown m)) as [u1 r1] eqn:S1. apply split_unknown_spec in S1 as (e1 & a1 & c1).
  destruct (split_unknown (b "<") r1) as [u2 r2] eqn:S2. apply split_unknown_spec in S2 as (e2 & a2 & c2).
  destruct (split_unknown (b "=") r2) as [u3 r3] eqn:S3. apply split_unknown_spec in S3 as (e3 & a3 & c3).
  destruct (split_unknown (b "~") r3) as [u4 r4] eqn:S4. apply split_unknown_spec in S4 as (e4 & a4 & c4).
  assert (hu : m_unknown m = u1 ++ u2 ++ u3 ++ u4 ++ r4) by congruence.
  assert (hr4 : r4 = []).
  { destruct r4 as [|[k v] r4]; [reflexivity|]. rewrite hu in k10. rewrite !Forall_app in k10.
    destruct k10 as (_ & _ & _ & _ & h). inversion h as [|? ? [h1 _] _]; subst. unfold unknown_key in h1. cbn [fst] in *.
    rewrite c4 in h1. rewrite andb_false_r in h1. discriminate. }
  subst r4. rewrite app_nil_r in *.
  unfold msorted in k9. rewrite hu in k9. 
  assert (hs1 : ssorted (keys r1)).
  { rewrite e2, e3, e4. unfold keys in *. rewrite map_app in k9. apply ssorted_app in k9 as (_ & h & _). exact h. }
  assert (hs2 : ssorted (keys r2)).
  { rewrite e2 in hs1. unfold keys in *. rewrite map_app in hs1. apply ssorted_app in hs1 as (_ & h & _). exact h. }
  assert (hs3 : ssorted (keys r3)).
  { rewrite e3 in hs2. unfold keys in *. rewrite map_app in hs2. apply ssorted_app in hs2 as (_ & h & _). exact h. }
  apply ge_all in c1; [|exact hs1]. apply ge_all in c2; [|exact hs2]. apply ge_all in c3; [|exact hs3].
  rewrite hu in k10. rewrite !Forall_app in k10. destruct k10 as (q1 & q2 & q3 & q4).
  rewrite e2 in c1. rewrite e3 in c1, c2. rewrite e4 in c1, c2, c3. 
  apply Forall_app in c1 as (c12 & c13). apply Forall_app in c2 as (c23 & c24).
  assert (tr : forall until prev (u : btdict),
             (forall k, unknown_key k = true -> eqb k prev = false) ->
             Forall (fun x => ltb (fst x) until = true) u -> Forall (fun x => ltb (fst x) prev = false) u ->
             Forall (fun p => unknown_key (fst p) = true /\ str_ok (fst p) = true /\ bt_ok (snd p) = true) u ->
             Forall (fun p => ltb (fst p) until = true /\ ltb prev (fst p) = true /\ str_ok (fst p) = true /\ bt_ok (snd p) = true) u).
  { intros utl prev u hne h1 h2 h3. rewrite Forall_forall in *. intros x hx. destruct (h3 _ hx) as (g1 & g2 & g3).
    repeat split; auto. apply ge_ne_lt; [auto|apply hne; exact g1]. }
  assert (t1 : Forall (fun p => ltb (fst p) (b "&") = true /\ ltb (b "#") (fst p) = true /\ str_ok (fst p) = true /\ bt_ok (snd p) = true) u1).
  { rewrite Forall_forall in *. intros x hx. destruct (q1 _ hx) as (g1 & g2 & g3). repeat split; auto.
    unfold unknown_key in g1. rewrite !andb_true_iff in g1. tauto. }
  assert (t2 := tr (b "<") (b "&") u2). assert (t3 := tr (b "=") (b "<") u3). assert (t4 := tr (b "~") (b "=") u4). clear tr.
  specialize (t2 ltac:(intros k h; unfold unknown_key in h; rewrite !andb_true_iff, !negb_true_iff in h; tauto) a2 c12 q2).
  specialize (t3 ltac:(intros k h; unfold unknown_key in h; rewrite !andb_true_iff, !negb_true_iff in h; tauto) a3 c23 q3).
  specialize (t4 ltac:(intros k h; unfold unknown_key in h; rewrite !andb_true_iff, !negb_true_iff in h; tauto) a4 c3 q4).
  set (lg := windowed E m). fold (windowed E m) in hes. fold lg in hes.
  set (eD := (b "&", BDict (bt_of_dict (m_data m)))). set (eL := (b "<", BList (map lag_entry lg))). set (eF := (b "=", BDict (m_diff m))).
  (* encodability of the pieces *)
  assert (okD : bt_ok (snd eD) = true) by exact k4.
  assert (okF : bt_ok (snd eF) = true) by (destruct k5; assumption).
  assert (hlg : Forall lag_ok lg /\ Forall (fun p => (m_seqno m - e_lag E' < fst (fst p) < m_seqno m)%Z) lg /\ ssorted (keys lg)).
  { unfold lg, windowed. rewrite hlag. repeat split.
    - apply Forall_forall. intros p hp. apply filter_In in hp as [hp _]. rewrite Forall_forall in k7. auto.
    - apply Forall_forall. intros p hp. apply filter_In in hp as [_ hp]. apply in_window_spec in hp. exact hp.
    - apply msorted_filter. exact k6. }
  destruct hlg as (g1 & g2 & g3).
  assert (okL : bt_ok (snd eL) = true).
  { unfold eL. cbn [snd bt_ok]. apply forallb_forall. intros x hx. apply in_map_iff in hx as (p & <- & hp).
    rewrite Forall_forall in g1. destruct (g1 _ hp) as (i1 & i2 & i3 & _). unfold lag_entry. cbn [bt_ok forallb].
    rewrite str_ok_short by (rewrite i2; apply Nat.ltb_lt; reflexivity). cbn [bt_ok] in i3. rewrite i3. rewrite !andb_true_r. apply int64_btint, i1. }
  assert (okS : bt_ok (BInt (m_seqno m)) = true).
  { apply int64_btint, k1. }
  assert (hstrs : forall c, str_ok [c] = true) by (intros; apply str_ok_short; apply Nat.ltb_lt; reflexivity).
  fold eD eL eF in hes.
  assert (hes2 : es ++ sig_entry sig = (b "#", BInt (m_seqno m)) :: u1 ++ eD :: u2 ++ eL :: u3 ++ eF :: u4 ++ sig_entry sig).
  { rewrite hes. repeat (cbn [app]; rewrite <- app_assoc). reflexivity. }
  clearbody es. unfold wire in Ew. rewrite hes2 in Ew.
  unfold parse_msg. rewrite Ew at 1. cbn iota.
  (* # *)
  rewrite (consume_enc (b "#")) by (first [apply hstrs | exact okS]). cbn [bind]. rewrite k1. change (eqb (b "#") (b "#")) with true. cbn [andb negb].
  unfold keys in k9. rewrite !map_app in k9. 
  assert (z1 : ssorted (map fst ([] ++ u1))) by (apply ssorted_app in k9; tauto).
  assert (z2 : ssorted (map fst (u1 ++ u2))).
  { rewrite map_app. apply ssorted_app in k9 as (j1 & j2 & j3). apply ssorted_app in j2 as (j4 & _ & _). apply ssorted_app. repeat split; auto.
    intros x y hx hy. apply j3; [exact hx|]. apply in_app_iff. auto. }
  assert (z3 : ssorted (map fst ((u1 ++ u2) ++ u3))).
  { rewrite <- app_assoc. rewrite !map_app. rewrite !app_assoc in k9. apply ssorted_app in k9 as (j1 & _ & _). rewrite <- !app_assoc in j1. exact j1. }
  assert (z4 : ssorted (map fst (((u1 ++ u2) ++ u3) ++ u4))).
  { rewrite <- !app_assoc. rewrite !map_app. exact k9. }
  rewrite (unknowns_enc (b "&") (b "#") (eD :: u2 ++ eL :: u3 ++ eF :: u4 ++ sig_entry sig) g u1 []); [|split; reflexivity|exact z1|exact t1].
  cbn [bind app].
  unfold eD at 1. rewrite consume_enc by (first [reflexivity | exact okD]). cbn [bind]. change (eqb (b "&") (b "&")) with true. cbn [negb].
  rewrite dict_of_bt_of by assumption. cbn [of_opt bind].
  rewrite (unknowns_enc (b "<") (b "&") (eL :: u3 ++ eF :: u4 ++ sig_entry sig) g u2 u1); [|split; reflexivity|exact z2|exact t2].
  cbn [bind]. unfold eL at 1. rewrite key_is_enc by reflexivity. change (eqb (b "<") (b "<")) with true. cbn [bind].
  unfold eL at 1. rewrite consume_enc by (first [reflexivity | exact okL]). cbn [bind].
  rewrite parse_lagged_enc; [|intros hne; rewrite hlag; apply k8; intros h0; apply hne; unfold lg, windowed; rewrite h0; reflexivity|exact g3|exact I|exact g1|exact g2].
  cbn [bind].
  rewrite (unknowns_enc (b "=") (b "<") (eF :: u4 ++ sig_entry sig) g u3 (u1 ++ u2)); [|split; reflexivity|exact z3|exact t3].
  cbn [bind]. unfold eF at 1. rewrite key_is_enc by reflexivity. change (eqb (b "=") (b "=")) with true. cbn [bind].
  unfold eF at 1. rewrite consume_enc by (first [reflexivity | exact okF]). cbn [bind].
  destruct k5 as [_ ->]. cbn [bind].
  rewrite (unknowns_enc (b "~") (b "=") (sig_entry sig) g u4 ((u1 ++ u2) ++ u3)); [|destruct sig; cbn; auto|exact z4|exact t4].
  cbn [bind]. rewrite hv.
  destruct (check_sig E' trust ("d"%char :: enc_entries es) sig); cbn [bind]; try reflexivity.
  do 2 f_equal. rewrite hu, <- !app_assoc. reflexivity.
Qed.

(** ** whatever is accepted is canonical *)
Definition suffix (t s : bytes) : Prop := exists p, s = p ++ t.
Lemma suffix_trans a c d : suffix a c -> suffix c d -> suffix a d.
Proof. intros [p ->] [q ->]. exists (q ++ p). rewrite app_assoc. reflexivity. Qed.
Lemma suffix_refl a : suffix a a. Proof. exists []. reflexivity. Qed.
Lemma suffix_cons c a : suffix a (c :: a). Proof. exists [c]. reflexivity. Qed.

Lemma next_key_spec s k r : next_key s = Some (Some (k, r)) -> str_ok k = true /\ suffix r s.
Proof.
  unfold next_key. destruct s as [|c s]; [discriminate|]. destruct (Ascii.eqb c "e"); [discriminate|].
  destruct (parse_str (c :: s)) as [[k' r']|] eqn:E; [|discriminate]. destruct r' as [|c' r']; [discriminate|].
  destruct (Ascii.eqb c' "e"); [discriminate|]. intros [= <- <-].
  split; [exact (parse_str_ok _ _ _ E)|]. apply parse_str_suffix in E as (p & -> & _). exists p. reflexivity.
Qed.
Lemma consume_spec s k v t : consume s = Ok (k, v, t) -> str_ok k = true /\ raw_ok v = true /\ suffix t s.
Proof.
  unfold consume. destruct (next_key s) as [[[k' r]|]|] eqn:E; try discriminate. apply next_key_spec in E as [h1 h2].
  destruct (parse1 r) as [[v' t']|] eqn:E2; [|discriminate]. intros [= <- <- <-]. split; [exact h1|].
  split; [exact (parse1_raw_ok _ _ _ E2)|]. apply parse1_shrinks in E2 as (p & -> & _).
  eapply suffix_trans; [|exact h2]. exists p. reflexivity.
Qed.
Lemma last_map_keys (u : btdict) : u = [] \/ exists u' p, u = u' ++ [p] /\ last (map Some (keys u)) None = Some (fst p).
Proof.
  destruct u as [|p u'] using rev_ind; [left; reflexivity|right]. exists u', p. split; [reflexivity|].
  unfold keys. rewrite !map_app. cbn [map]. apply last_snoc.
Qed.
Lemma load_unknowns_spec until prev : forall fuel unk s u' s',
  load_unknowns fuel unk prev until s = Some (u', s') ->
  suffix s' s /\
  exists u, u' = unk ++ u /\
  Forall (fun p => ltb (fst p) until = true /\ ltb prev (fst p) = true /\ str_ok (fst p) = true /\ bt_ok (snd p) = true) u /\
  (ssorted (keys unk) -> ssorted (keys u')).
Proof.
  induction fuel as [|f IH]; intros unk s u' s' h; [discriminate|]. cbn [load_unknowns] in h.
  destruct (next_key s) as [[[k r]|]|] eqn:E; [| |discriminate].
  - apply next_key_spec in E as [hk hsf]. destruct (ltb k until) eqn:Eu.
    + destruct (leb k prev) eqn:Ep; [discriminate|]. cbn [orb] in h.
      destruct (match last (map Some (keys unk)) None with Some u0 => leb k u0 | None => false end) eqn:El; [discriminate|].
      destruct (parse1 r) as [[v r']|] eqn:Ev; [|discriminate].
      apply IH in h as (h1 & u & -> & h2 & h3).
      pose proof (norm_ok _ (parse1_raw_ok _ _ _ Ev)) as hv. apply parse1_shrinks in Ev as (p & -> & _).
      split; [eapply suffix_trans; [exact h1|]; eapply suffix_trans; [|exact hsf]; exists p; reflexivity|].
      exists ((k, norm v) :: u). rewrite <- app_assoc. split; [reflexivity|]. split.
      * constructor; [|exact h2]. cbn [fst snd]. apply leb_lt in Ep. apply ltb_lt in Ep. auto.
      * intros hs. rewrite <- app_assoc in h3. apply h3. unfold keys. rewrite map_app. cbn [map fst]. apply ssorted_app. split; [exact hs|].
        split; [constructor; [constructor|constructor]|]. intros x y hx [<-|[]].
        destruct (last_map_keys unk) as [->|(w & p0 & -> & hl)]; [destruct hx|]. rewrite hl in El. apply leb_lt in El.
        unfold keys in hs. rewrite map_app in hs, hx. apply ssorted_app in hs as (_ & _ & hs3).
        apply in_app_iff in hx as [hx|[<-|[]]]; [|exact El]. eapply lt_trans; [|exact El]. apply hs3; [exact hx|left; reflexivity].
    + injection h as <- <-. split; [apply suffix_refl|]. exists []. rewrite app_nil_r. auto.
  - injection h as <- <-. split; [apply suffix_refl|]. exists []. rewrite app_nil_r. auto.
Qed.
Lemma unknowns_spec unk prev until s u' s' : unknowns unk prev until s = Ok (u', s') ->
  suffix s' s /\
  exists u, u' = unk ++ u /\
  Forall (fun p => ltb (fst p) until = true /\ ltb prev (fst p) = true /\ str_ok (fst p) = true /\ bt_ok (snd p) = true) u /\
  (ssorted (keys unk) -> ssorted (keys u')).
Proof.
  unfold unknowns. destruct (load_unknowns _ unk prev until s) as [[u'' s'']|] eqn:E; [|discriminate].
  cbn [of_opt]. intros [= <- <-]. exact (load_unknowns_spec _ _ _ _ _ _ _ E).
Qed.
Lemma parse_lagged_spec curr lag l : forall last r,
  forallb raw_ok l = true -> parse_lagged curr lag last l = Ok r ->
  ssorted (keys r) /\ match last with Some p => Forall (lt p) (keys r) | None => True end /\
  Forall lag_ok r /\ Forall (fun p => (curr - lag < fst (fst p) < curr)%Z) r /\ (r <> [] -> int64_ok (curr - lag) = true).
Proof.
  induction l as [|x l IH]; intros last r hr h; cbn [parse_lagged] in h.
  { injection h as <-. repeat split; try constructor; [destruct last; constructor|congruence]. }
  cbn [forallb] in hr. apply andb_true_iff in hr as [hr1 hr2].
  destruct x as [|? |[|[s| | | ] rest]|]; try discriminate h.
  destruct (int64_ok s) eqn:Es; [|discriminate]. cbn [negb] in h.
  destruct (Z.geb_spec s curr) as [|h1]; [discriminate|].
  destruct (int64_ok (curr - lag)) eqn:Ec; [|discriminate]. cbn [negb] in h.
  destruct (Z.leb_spec s (curr - lag)) as [|h2]; [exact (IH _ _ hr2 h)|].
  destruct rest as [|[| hh | | ] rest']; try discriminate h.
  destruct (Nat.eqb (length hh) 32) eqn:Eh; [|discriminate]. apply Nat.eqb_eq in Eh. cbn [negb] in h.
  destruct (match last with Some p => leb (s, hh) p | None => false end) eqn:El; [discriminate|].
  destruct rest' as [|[| | |d] rest'']; try discriminate h.
  ok_inv h. destruct rest''; [|discriminate h]. cbn [is_nil negb] in h. ok_inv h. injection h as <-.
  destruct (IH _ _ hr2 ha0) as (g1 & g2 & g3 & g4 & g5).
  assert (hd : diff_ok a).
  { cbn [raw_ok forallb] in hr1. apply andb_true_iff in hr1 as [_ hr1]. apply andb_true_iff in hr1 as [_ hr1].
    apply andb_true_iff in hr1 as [hr1 _]. eapply load_diff_ok; [|exact ha]. exact hr1. }
  unfold keys in *. cbn [map fst]. repeat split.
  - apply ssorted_cons. auto.
  - destruct last as [p|]; [|exact I]. apply leb_lt in El. constructor; [exact El|].
    eapply Forall_impl; [|exact g2]. intros y hy. eapply lt_trans; eauto.
  - constructor; [|exact g3]. repeat split; auto; apply hd.
  - constructor; [cbn [fst]; lia|exact g4].
Qed.

(** the signature check done on acceptance *)
Lemma verify_sig_vs E trust whole s vs : verify_sig E trust whole s = Ok vs ->
  (forall x, vs = Some x -> length x = 64) /\ (e_verifier E = None -> trust = false -> vs = None).
Proof.
  unfold verify_sig. destruct (next_key s) as [[[k r]|]|]; [| |discriminate].
  - destruct (eqb k (b "~")); [|discriminate]. destruct (consume s) as [[[k' [|sig| | ]] t]| | | |]; try discriminate.
    destruct (Nat.eqb (length sig) 64) eqn:E64; [|discriminate]. apply Nat.eqb_eq in E64. cbn [negb].
    destruct (e_verifier E) as [v|] eqn:Ev.
    + destruct (negb (v _ sig)); [discriminate|]. destruct (next_key t) as [[|]|]; try discriminate.
      intros [= <-]. split; [intros x [= <-]; exact E64|congruence].
    + destruct (next_key t) as [[|]|]; try discriminate. intros [= <-]. split.
      * destruct trust; [intros x [= <-]; exact E64|discriminate].
      * intros _ ->. reflexivity.
  - destruct (e_verifier E); [discriminate|]. intros [= <-]. split; [discriminate|reflexivity].
Qed.

Lemma parse_msg_spec E trust s m : parse_msg E trust s = Ok m ->
  msg_ok E m /\ windowed E m = m_lagged m /\ snd (m_sh m) = e_hash E s /\ m_unmerged m = None /\
  exists c, suffix c s /\ verify_sig E trust s c = Ok (m_vsig m).
Proof.
  intros h. unfold parse_msg in h.
  assert (hd : exists s0, s = "d"%char :: s0).
  { destruct s as [|c s0]; [discriminate h|]. destruct c as [[] [] [] [] [] [] [] []]; try discriminate h. eauto. }
  destruct hd as [s0 hs0]. rewrite hs0 in h. cbn iota in h. rewrite <- hs0 in h.
  assert (sf0 : suffix s0 s) by (rewrite hs0; apply suffix_cons).
  ok_inv h. rename ha into c1. destruct a as [[k v] s1].
  destruct v as [seqno| | | ]; try discriminate h.
  destruct (eqb k (b "#") && int64_ok seqno) eqn:E1; [|discriminate h]. cbn [negb] in h. apply andb_true_iff in E1 as [_ hseq].
  apply consume_spec in c1 as (_ & _ & sf1).
  ok_inv h. rename ha into c2. destruct a as [u1 s2]. apply unknowns_spec in c2 as (sf2 & w1 & e1 & f1 & z1).
  ok_inv h. rename ha into c3. destruct a as [[k3 v3] s3]. destruct v3 as [| | |d]; try discriminate h.
  destruct (eqb k3 (b "&")); [|discriminate h]. cbn [negb] in h. apply consume_spec in c3 as (_ & rd & sf3).
  ok_inv h. rename ha into c4, a into data. destruct (dict_of_bt d) as [data'|] eqn:Ed; [|discriminate c4]. injection c4 as ->.
  ok_inv h. rename ha into c5. destruct a as [u2 s4]. apply unknowns_spec in c5 as (sf4 & w2 & e2 & f2 & z2).
  ok_inv h. rename ha into c6, a into haslag. clear c6.
  ok_inv h. rename ha into c7. destruct a as [lagged s5].
  assert (hlg : suffix s5 s4 /\ ssorted (keys lagged) /\ Forall lag_ok lagged /\
                Forall (fun p => (seqno - e_lag E < fst (fst p) < seqno)%Z) lagged /\
                (lagged <> [] -> int64_ok (seqno - e_lag E) = true)).
  { destruct haslag.
    - ok_inv c7. destruct a as [[kk vv] ss]. destruct vv as [| |l|]; try discriminate c7. ok_inv c7. injection c7 as <- <-.
      apply consume_spec in ha as (_ & rl & sfl). apply parse_lagged_spec in ha0; [|exact rl]. tauto.
    - injection c7 as <- <-. split; [apply suffix_refl|]. repeat split; try constructor. congruence. }
  destruct hlg as (sf5 & l1 & l2 & l3 & l4). clear c7.
  ok_inv h. rename ha into c8. destruct a as [u3 s6]. apply unknowns_spec in c8 as (sf6 & w3 & e3 & f3 & z3).
  ok_inv h. rename ha into c9, a into hasdiff. clear c9.
  ok_inv h. rename ha into c10. destruct a as [df s7].
  assert (hdf : suffix s7 s6 /\ diff_ok df).
  { destruct hasdiff.
    - ok_inv c10. destruct a as [[kk vv] ss]. destruct vv as [| | |d']; try discriminate c10. ok_inv c10. injection c10 as <- <-.
      apply consume_spec in ha as (_ & rl & sfl). split; [exact sfl|]. eapply load_diff_ok; eauto.
    - injection c10 as <- <-. split; [apply suffix_refl|]. split; reflexivity. }
  destruct hdf as [sf7 d1]. clear c10.
  ok_inv h. rename ha into c11. destruct a as [u4 s8]. apply unknowns_spec in c11 as (sf8 & w4 & e4 & f4 & z4).
  ok_inv h. rename ha into c12, a into vs. injection h as <-.
  apply dict_of_bt_inv in Ed as (hd1 & hd2 & hd3).
  assert (hsf : suffix s8 s).
  { repeat first [assumption | eapply suffix_trans; [eassumption|]]. }
  assert (hu : Forall (fun p => unknown_key (fst p) = true /\ str_ok (fst p) = true /\ bt_ok (snd p) = true) u4).
  { assert (hin : forall prev until u, 
       Forall (fun p => ltb (fst p) until = true /\ ltb prev (fst p) = true /\ str_ok (fst p) = true /\ bt_ok (snd p) = true) u ->
       (forall k, ltb k until = true -> ltb prev k = true -> unknown_key k = true) ->
       Forall (fun p : bytes * bt => unknown_key (fst p) = true /\ str_ok (fst p) = true /\ bt_ok (snd p) = true) u).
    { intros prev utl u hf hk'. eapply Forall_impl; [|exact hf]. intros p (q1 & q2 & q3 & q4). auto. }
    assert (hbt : forall lo hi (x : bytes), ltb lo x = true -> leb hi lo = true -> ltb hi x = true).
    { intros lo hi x h1 h2. apply ltb_lt in h1. apply ltb_lt. apply leb_nlt in h2. destruct (lt_total hi lo) as [?|[->|?]]; [|exact h1|tauto].
      eapply lt_trans; eauto. }
    assert (hbt2 : forall lo hi (x : bytes), ltb x lo = true -> leb lo hi = true -> ltb x hi = true).
    { intros lo hi x h1 h2. apply ltb_lt in h1. apply ltb_lt. apply leb_nlt in h2. destruct (lt_total lo hi) as [?|[<-|?]]; [|exact h1|tauto].
      eapply lt_trans; eauto. }
    assert (hne1 : forall lo (x : bytes), ltb lo x = true -> eqb x lo = false).
    { intros lo x h1. apply ltb_lt in h1. apply eqb_neq. intros ->. exact (lt_irrefl _ h1). }
    assert (hne2 : forall hi (x : bytes), ltb x hi = true -> eqb x hi = false).
    { intros hi x h1. apply ltb_lt in h1. apply eqb_neq. intros ->. exact (lt_irrefl _ h1). }
    rewrite e4, e3, e2, e1. cbn [app]. rewrite !Forall_app. repeat split; (eapply hin; [eassumption|]); intros kk q1 q2; unfold unknown_key;
      rewrite (hbt _ (b "#") _ q2 eq_refl), (hbt2 _ (b "~") _ q1 eq_refl); cbn [andb].
    - rewrite !hne2; [reflexivity|eapply hbt2; [exact q1|reflexivity] ..].
    - rewrite (hne1 _ _ q2), (hne2 _ _ q1). rewrite hne2; [reflexivity|eapply hbt2; [exact q1|reflexivity]].
    - rewrite (hne1 _ _ q2), (hne2 _ _ q1). rewrite hne1; [reflexivity|eapply hbt; [exact q2|reflexivity]].
    - rewrite (hne1 _ _ q2). rewrite !hne1; [reflexivity|eapply hbt; [exact q2|reflexivity] ..]. }
  destruct (verify_sig_vs _ _ _ _ _ c12) as [v1 _].
  split; [|split; [|split; [|split; [|exists s8; split; [exact hsf|exact c12]]]]]; try reflexivity.
  - constructor; cbn [m_sh m_data m_diff m_lagged m_unknown m_vsig]; unfold m_seqno; cbn [m_sh fst]; auto.
    + unfold sendable. rewrite hd1.
      apply wf_v_dict in hd2 as [hd4 hd5].
      (* raw_ok and sorted *)
      assert (haux : forall x, raw_ok x = true -> (exists v, value_of_bt x = Some v) -> bt_ok x = true).
      { induction x as [z|q|l' IHl|d' IHd] using bt_ind'; cbn [raw_ok bt_ok]; auto.
        - intros hr' [v hv]. cbn [value_of_bt] in hv. destruct (map_opt scalar_of_bt l') as [xs|] eqn:Ex; [|discriminate].
          apply map_opt_scalars_inv in Ex as [-> _]. rewrite forallb_forall in *. intros x hx. specialize (hr' _ hx).
          apply in_map_iff in hx as ([z|q] & <- & _); exact hr'.
        - intros hr' [v hv]. apply value_of_bt_inv in hv as hv2. destruct hv2 as (hv1 & hv2 & _).
          destruct v as [[?|?]|?|dd]; try discriminate hv1. cbn [bt_of_value] in hv1. injection hv1 as hv1.
          apply wf_v_dict in hv2 as [hs5 _]. apply andb_true_iff. split.
          + apply ssortedb_spec. rewrite <- hv1. rewrite keys_map. exact hs5.
          + rewrite forallb_forall in *. intros p hp. specialize (hr' _ hp). apply andb_true_iff in hr' as [r1 r2].
            rewrite r1. cbn [andb]. rewrite Forall_forall in IHd. apply IHd; auto.
            rewrite value_of_bt_dict in hv. destruct (map_opt entry_of d') as [ds|] eqn:Eds; [|discriminate].
            clear - Eds hp. revert ds Eds. induction d' as [|q d' IH']; [destruct hp|]. intros ds. cbn [map_opt].
            destruct (entry_of q) as [y|] eqn:Eq; [|discriminate]. destruct (map_opt entry_of d'); [|discriminate]. intros _.
            destruct hp as [->|hp]; [|eapply IH'; [exact hp|reflexivity]]. unfold entry_of in Eq.
            destruct (value_of_bt (snd p)); [eauto|discriminate]. }
      cbn [bt_ok]. apply andb_true_iff. split.
      * apply ssortedb_spec. rewrite <- hd1. unfold bt_of_dict. rewrite keys_map. exact hd4.
      * cbn [raw_ok] in rd. rewrite forallb_forall in *. intros p hp. specialize (rd _ hp). apply andb_true_iff in rd as [r1 r2].
        rewrite r1. cbn [andb]. apply haux; [exact r2|]. rewrite <- hd1 in hp. unfold bt_of_dict in hp.
        apply in_map_iff in hp as ([kk vv] & <- & hp). cbn [snd]. exists vv. apply value_of_bt_of; [exact (hd5 _ _ hp)|].
        rewrite pruned_In in hd3. exact (hd3 _ _ hp).
    + apply z4, z3, z2, z1. constructor.
  - unfold windowed. cbn [m_lagged]. unfold m_seqno. cbn [m_sh fst]. clear - l3. induction lagged as [|p l IH]; [reflexivity|].
    inversion l3 as [|? ? h1 h2]; subst. cbn [filter]. apply in_window_spec in h1.
    replace (in_window E _ _) with true by (symmetry; exact h1). f_equal. auto.
Qed.
