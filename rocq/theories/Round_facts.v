(** Round trips through serialise and parse. *)
From Verif Require Import Data_facts Diff_facts Bt_facts Message Message_facts Parse_facts Merge Merge_facts Spec Replay_facts Resolve_facts Wire_facts Reach_facts.

Lemma filter_idem {A} (f : A -> bool) l : filter f (filter f l) = filter f l.
Proof. induction l as [|x l IH]; [reflexivity|]. cbn [filter]. destruct (f x) eqn:Ef; [cbn [filter]; rewrite Ef, IH; reflexivity|exact IH]. Qed.
Lemma windowed_idem E m l : windowed E m = l -> filter (fun p : shash * btdict => in_window E (m_seqno m) (fst (fst p))) l = l.
Proof. intros <-. apply filter_idem. Qed.
Lemma body_same E m m' : same_content E m m' -> body E m' (m_diff m') = body E m (m_diff m).
Proof.
  intros (h1 & h2 & h3 & h4 & h5). unfold body, body_entries. rewrite h1, h2, h3, h4, h5.
  destruct (split_unknown (b "&") (m_unknown m)) as [u1 r1]. destruct (split_unknown (b "<") r1) as [u2 r2].
  destruct (split_unknown (b "=") r2) as [u3 r3]. destruct (split_unknown (b "~") r3) as [u4 r4].
  do 2 f_equal. do 6 f_equal. unfold windowed. do 2 f_equal. apply (filter_idem (fun p : shash * btdict => in_window E (m_seqno m) (fst (fst p)))).
Qed.
Lemma serialize_impl_wire_any E m df sg s : serialize_impl E m df sg = Ok s ->
  exists sig, s = wire (body_entries E m df) sig [] /\
    match m_vsig m with
    | Some x => sig = Some x
    | None => match (if sg then e_signer E else None) with Some g => sig = Some (g (body E m df)) /\ length (g (body E m df)) = 64 | None => sig = None end
    end.
Proof.
  unfold serialize_impl. destruct (negb (is_nil (m_lagged m)) && _); [discriminate|].
  destruct (m_vsig m) as [x|]; [intros h; injection h as <-; exists (Some x); split; [apply wire_signed|reflexivity]|].
  destruct (if sg then e_signer E else None) as [g|].
  - destruct (Nat.eqb (length (g (body E m df))) 64) eqn:El; [|discriminate]. intros h; injection h as <-.
    apply Nat.eqb_eq in El. exists (Some (g (body E m df))). split; [apply wire_signed|auto].
  - intros h; injection h as <-. exists None. split; [apply wire_unsigned|reflexivity].
Qed.
Lemma serialize_impl_some E m m' sg s sig : same_content E m m' -> serialize_impl E m (m_diff m) sg = Ok s ->
  (m_lagged m <> [] -> int64_ok (m_seqno m - e_lag E) = true) ->
  s = wire (body_entries E m (m_diff m)) sig [] -> m_vsig m' = sig ->
  serialize_impl E m' (m_diff m') false = Ok s.
Proof.
  intros hc hs hr hw hv. unfold serialize_impl. pose proof (body_same _ _ _ hc) as hb. destruct hc as (h1 & h2 & h3 & h4 & h5).
  assert (hnu : negb (is_nil (m_lagged m')) && negb (int64_ok (m_seqno m' - e_lag E)) = false).
  { rewrite h5, h1. unfold windowed. destruct (m_lagged m) as [|p r] eqn:El; [reflexivity|].
    rewrite hr by discriminate. rewrite andb_false_r. reflexivity. }
  rewrite hnu, hb, hv. destruct sig as [x|].
  - rewrite wire_signed, <- hw. reflexivity.
  - rewrite wire_unsigned, <- hw. reflexivity.
Qed.
(** storing and loading again *)
Lemma store_roundtrip_ok E c sg s c' : cfg_ok E c -> serialize E c sg = Ok (s, c') ->
  exists m', parse_msg (store_env E) true s = Ok m' /\ same_content E (c_msg c') m' /\ serialize E (Plain m') false = Ok (s, Plain m').
Proof.
  intros hr hs. destruct (serialize_ok _ _ _ _ _ hr hs) as (_ & hok & _ & hser).
  pose proof (serialize_range _ _ _ _ _ hser) as hrg.
  destruct (serialize_impl_wire_any _ _ _ _ _ hser) as (sig & hw & hsig).
  assert (hl : match sig with Some x => length x = 64 | None => True end).
  { destruct (m_vsig (c_msg c')) as [x|] eqn:Ev.
    - subst sig. apply (ok_sig _ _ hok _ Ev).
    - destruct (if sg then e_signer E else None); [destruct hsig as [-> h]; exact h|subst; exact I]. }
  pose proof (parse_wire E (store_env E) true (c_msg c') sig [] hok eq_refl hl (fun _ _ => I)) as hp. rewrite <- hw in hp.
  unfold check_sig in hp. cbn [e_verifier store_env] in hp.
  assert (hp' : parse_msg (store_env E) true s = Ok (mkMsg (m_seqno (c_msg c'), e_hash E s) (m_data (c_msg c')) (m_diff (c_msg c')) (windowed E (c_msg c')) (m_unknown (c_msg c')) sig None)).
  { rewrite hp. destruct sig; reflexivity. }
  eexists. split; [exact hp'|]. assert (hsc : forall sh vs un, fst sh = m_seqno (c_msg c') -> same_content E (c_msg c') (mkMsg sh (m_data (c_msg c')) (m_diff (c_msg c')) (windowed E (c_msg c')) (m_unknown (c_msg c')) vs un)).
  { intros sh vs un e. repeat split. exact e. }
  split; [apply hsc; reflexivity|]. unfold serialize. cbn [refresh bind c_msg].
  erewrite serialize_impl_some; [reflexivity|apply hsc; reflexivity|exact hser|exact hrg|exact hw|reflexivity].
Qed.
Lemma store_roundtrip E c sg s c' : hash32 E -> (1 <= e_lag E)%Z -> reach E c -> serialize E c sg = Ok (s, c') ->
  exists m', parse_msg (store_env E) true s = Ok m' /\ same_content E (c_msg c') m' /\ serialize E (Plain m') false = Ok (s, Plain m').
Proof. intros h32 hlag hr. apply store_roundtrip_ok, reach_ok; assumption. Qed.
(** publishing and receiving *)
Lemma publish_roundtrip_ok E c s c' : signer_ok E -> read_only E = false -> cfg_ok E c ->
  serialize E c true = Ok (s, c') -> m_vsig (c_msg c') = None ->
  exists m', parse_msg E false s = Ok m' /\ same_content E (c_msg c') m' /\ serialize E (Plain m') true = Ok (s, Plain m').
Proof.
  intros hsg hro hr hs hv. destruct (serialize_ok _ _ _ _ _ hr hs) as (_ & hok & _ & hser).
  pose proof (serialize_range _ _ _ _ _ hser) as hrg.
  destruct (serialize_impl_wire_any _ _ _ _ _ hser) as (sig & hw & hsig). rewrite hv in hsig.
  assert (hl : match sig with Some x => length x = 64 | None => True end).
  { destruct (e_signer E); [destruct hsig as [-> h]; exact h|subst; exact I]. }
  pose proof (parse_wire E E false (c_msg c') sig [] hok eq_refl hl (fun _ _ => I)) as hp. rewrite <- hw in hp.
  unfold check_sig in hp. unfold read_only in hro.
  assert (hvs : exists vs, parse_msg E false s = Ok (mkMsg (m_seqno (c_msg c'), e_hash E s) (m_data (c_msg c')) (m_diff (c_msg c')) (windowed E (c_msg c')) (m_unknown (c_msg c')) vs None)
            /\ (vs = sig \/ vs = None /\ e_verifier E = None)).
  { destruct (e_signer E) as [g|] eqn:Eg.
    - destruct hsig as [-> h]. destruct (e_verifier E) as [v|] eqn:Ev.
      + rewrite (hsg v g _ Ev Eg) in hp. eexists. split; [exact hp|auto].
      + eexists. split; [exact hp|auto].
    - subst sig. destruct (e_verifier E) as [v|]; [discriminate|]. eexists. split; [exact hp|auto]. }
  destruct hvs as (vs & hp' & hvs). eexists. split; [exact hp'|].
  set (m' := mkMsg _ _ _ _ _ _ _).
  assert (hsc : same_content E (c_msg c') m') by (repeat split).
  split; [exact hsc|]. unfold serialize. cbn [refresh bind c_msg].
  assert (hfin : serialize_impl E m' (m_diff m') true = Ok s); [|rewrite hfin; reflexivity].
  pose proof (body_same _ _ _ hsc) as hb. unfold serialize_impl.
  assert (hnu : negb (is_nil (m_lagged m')) && negb (int64_ok (m_seqno m' - e_lag E)) = false).
  { cbn [m' m_lagged m_seqno m_sh fst]. unfold windowed. destruct (m_lagged (c_msg c')) as [|p r] eqn:El; [reflexivity|].
    rewrite hrg by discriminate. rewrite andb_false_r. reflexivity. }
  rewrite hnu, hb. cbn [m' m_vsig]. destruct vs as [x|].
  - destruct hvs as [hvs|[hvs _]]; [|discriminate]. rewrite wire_signed, hw. do 2 f_equal. exact hvs.
  - destruct (e_signer E) as [g|].
    + destruct hsig as [hsig h]. destruct (Nat.eqb_spec (length (g (body E (c_msg c') (m_diff (c_msg c'))))) 64) as [_|n]; [|congruence].
      rewrite wire_signed, hw, hsig. reflexivity.
    + rewrite wire_unsigned, hw, hsig. reflexivity.
Qed.
Lemma publish_roundtrip E c s c' : hash32 E -> (1 <= e_lag E)%Z -> signer_ok E -> read_only E = false -> reach E c ->
  serialize E c true = Ok (s, c') -> m_vsig (c_msg c') = None ->
  exists m', parse_msg E false s = Ok m' /\ same_content E (c_msg c') m' /\ serialize E (Plain m') true = Ok (s, Plain m').
Proof. intros h32 hlag hsg hro hr. apply publish_roundtrip_ok; [exact hsg|exact hro|apply reach_ok; assumption]. Qed.
(** the signature written by the signer *)
Lemma publish_signed E c s c' g : serialize E c true = Ok (s, c') -> m_vsig (c_msg c') = None -> e_signer E = Some g ->
  exists content, s = content ++ b "1:~64:" ++ g content ++ b "e" /\ length (g content) = 64.
Proof.
  intros h hv hg. unfold serialize in h. ok_inv h. ok_inv h. injection h as <- <-. exists (body E (c_msg a) (m_diff (c_msg a))).
  unfold serialize_impl in ha0. destruct (negb _ && _) in ha0; [discriminate|]. rewrite hv, hg in ha0.
  destruct (Nat.eqb_spec (length (g (body E (c_msg a) (m_diff (c_msg a))))) 64) as [e|n]; [|discriminate]. injection ha0 as <-.
  split; [|exact e]. unfold with_sig, enc_str. rewrite e. cbn. reflexivity.
Qed.

(** ** unknown fields *)
Lemma derived_reach E c0 c : reach E c0 -> derived E c0 c -> reach E c.
Proof.
  intros h0 h. induction h; [exact h0|eapply reach_increment; eassumption|apply reach_retain; assumption|apply reach_edit; assumption|].
  eapply reach_serialize; eassumption.
Qed.
Lemma derived_unknown E c0 c : hash32 E -> (1 <= e_lag E)%Z -> reach E c0 -> derived E c0 c -> m_unknown (c_msg c) = m_unknown (c_msg c0).
Proof.
  intros h32 hlag h0 h. induction h.
  - reflexivity.
  - rewrite <- IHh. apply (derived_reach _ _ _ h0) in h. apply (reach_ok _ _ h32 hlag) in h. eapply increment_ok; eassumption.
  - destruct c; exact IHh.
  - exact IHh.
  - rewrite <- IHh. apply (derived_reach _ _ _ h0) in h. apply (reach_ok _ _ h32 hlag) in h.
    destruct (serialize_ok _ _ _ _ _ h H) as (_ & _ & hr & _). eapply refresh_ok in hr; [|exact h]. apply hr.
Qed.
Lemma unknown_survives E t s m c sg s' c' : hash32 E -> (1 <= e_lag E)%Z ->
  parse_msg E t s = Ok m -> derived E (Plain m) c -> serialize E c sg = Ok (s', c') ->
  exists d g d' g', parse1 s = Some (BDict d, g) /\ parse1 s' = Some (BDict d', g') /\
    forall k, unknown_key k = true -> option_map norm (lookup k d') = option_map norm (lookup k d).
Proof.
  intros h32 hlag hp hd hs. pose proof (reach_load E t s m hp) as h0. pose proof (derived_reach _ _ _ h0 hd) as hr.
  destruct (store_roundtrip _ _ _ _ _ h32 hlag hr hs) as (m' & hp' & (_ & _ & _ & hu & _) & _).
  assert (hd' : derived E (Plain m) c') by (eapply derived_serialize; eassumption).
  pose proof (derived_unknown _ _ _ h32 hlag h0 hd') as hu'. cbn [c_msg] in hu'.
  destruct (parse_msg_wire _ _ _ _ hp) as (d & g & ow). destruct (parse_msg_wire _ _ _ _ hp') as (d' & g' & ow').
  exists d, g, d', g'. split; [apply ow|]. split; [apply ow'|]. intros k hk.
  rewrite <- (ow_unknown _ _ _ _ _ ow _ hk), <- (ow_unknown _ _ _ _ _ ow' _ hk). congruence.
Qed.
