(** More about rekeying and loading: the signature, the encryption key afterwards, determinism. *)
From Verif Require Import KeysSpec KeyList_facts Bt_facts Parse_facts Wire_facts Dump_facts Keys_facts Keys2_facts Keys3_facts Hex_facts Multi_facts Keys4_facts Keys5_facts.

(** ** the signature *)
Lemma skip_until_suffix fuel k : forall s x t, skip_until fuel k s = Some (x, t) -> suffix t s.
Proof.
  induction fuel as [|f IH]; intros s x t h; [discriminate|]. cbn [skip_until] in h. destruct (next_key s) as [[[k' r]|]|] eqn:E; try discriminate.
  - destruct (ltb k' k); [|injection h as <- <-; apply suffix_refl]. apply next_key_spec in E as [_ hr].
    destruct (parse1 r) as [[v t']|] eqn:Ev; [|discriminate]. apply IH in h. apply parse1_shrinks in Ev as (p & hp & _). subst r.
    refine (suffix_trans _ _ _ h (suffix_trans _ _ _ _ hr)). exists p. reflexivity.
  - injection h as <- <-. apply suffix_refl.
Qed.
Lemma find_key_suffix k s x t : find_key k s = Ok (x, t) -> suffix t s.
Proof. unfold find_key. destruct (skip_until _ k s) as [[x' t']|] eqn:E; [|discriminate]. intros [= <- <-]. exact (skip_until_suffix _ _ _ _ _ E). Qed.
Lemma take_str_suffix s x t : take_str s = Ok (x, t) -> suffix t s.
Proof. unfold take_str. destruct (consume s) as [[[k v] t']| | | |] eqn:E; try discriminate. destruct v; try discriminate. intros [= <- <-]. apply consume_spec in E. apply E. Qed.
Lemma take_list_suffix s x t : take_list s = Ok (x, t) -> suffix t s.
Proof. unfold take_list. destruct (consume s) as [[[k v] t']| | | |] eqn:E; try discriminate. destruct v; try discriminate. intros [= <- <-]. apply consume_spec in E. apply E. Qed.
Lemma take_int_suffix s x t : take_int s = Ok (x, t) -> suffix t s.
Proof. unfold take_int. destruct (consume s) as [[[k v] t']| | | |] eqn:E; try discriminate. destruct v; try discriminate. destruct (int64_ok z); [|discriminate]. intros [= <- <-]. apply consume_spec in E. apply E. Qed.
Lemma require_suffix {A} k s (take : bytes -> outcome (A * bytes)) x t : (forall s x t, take s = Ok (x, t) -> suffix t s) -> require k s take = Ok (x, t) -> suffix t s.
Proof. intros ht h. apply require_ok in h as (f & h1 & h2). apply find_key_suffix in h1. exact (suffix_trans _ _ _ (ht _ _ _ h2) h1). Qed.
Lemma read_message_suffix G o data ts ks gen s : read_message G o data ts = Ok (ks, gen, s) -> suffix s data.
Proof.
  unfold read_message. intros h. destruct data as [|c s0]; [discriminate|].
  destruct (ascii_dec c "d"%char) as [->|hc]; [|destruct c as [[|] [|] [|] [|] [|] [|] [|] [|]]; try discriminate; destruct hc; reflexivity].
  apply suffix_trans with (2 := suffix_cons "d"%char s0).
  repeat step h; injection h as _ _ <-;
  repeat match goal with
  | E : require _ _ take_str = Ok (_, _) |- _ => apply (require_suffix _ _ _ _ _ take_str_suffix) in E
  | E : require _ _ take_list = Ok (_, _) |- _ => apply (require_suffix _ _ _ _ _ take_list_suffix) in E
  | E : require _ _ take_int = Ok (_, _) |- _ => apply (require_suffix _ _ _ _ _ take_int_suffix) in E
  | E : require _ _ take_int = Ok ?a |- _ => is_var a; destruct a; cbn [fst snd]
  | E : find_key _ _ = Ok (_, _) |- _ => apply find_key_suffix in E
  | E : take_list _ = Ok (_, _) |- _ => apply take_list_suffix in E
  end; eauto 8 using suffix_trans.
Qed.
Lemma load_signed G h data ts o r : load_key_message G h data ts o = Ok r ->
  exists pre c c1 sig g, data = pre ++ c /\ parse_str c = Some (b "~", c1) /\ parse_str c1 = Some (sig, "e"%char :: g) /\ length sig = 64 /\ g_verify G sig pre (ko_pk o) = true.
Proof.
  intros hl. destruct r as [r o']. apply load_inv in hl as (ks & gen & s & vs & h1 & h2 & _). apply read_message_suffix in h1.
  destruct (verify_sig_inv _ _ _ _ _ h1 h2) as (g & [(_ & hv & _)|(sig & t & _ & _ & _ & _ & _ & hs)]); [discriminate|].
  destruct (hs _ eq_refl) as [_ (pre & c & c1 & e1 & e2 & e3 & e4 & e5)]. exists pre, c, c1, sig, g. auto.
Qed.

(** ** the newest key *)
Lemma place_last x l : (forall y, In y l -> (k_gen y < k_gen x)%Z) -> place x l = l ++ [x].
Proof.
  induction l as [|y l IH]; intros h; [reflexivity|]. cbn [place]. assert (hy : lt y x) by (apply gen_lt; apply h; left; reflexivity).
  apply ltb_lt in hy. rewrite hy. cbn [app]. f_equal. apply IH. intros z hz. apply h. right. exact hz.
Qed.
Lemma learn_newest x l : ssorted l -> (forall y, In y l -> (k_gen y < k_gen x)%Z) -> exists r, learn x l = r ++ [x].
Proof.
  intros hs h. unfold learn. destruct (existsb _ l) eqn:E1.
  { apply existsb_exists in E1 as (y & h1 & h2). apply same_key_spec in h2 as [h2 _]. specialize (h y h1). lia. }
  destruct (stale x l) eqn:E2.
  { destruct l as [|f r]; [discriminate|]. apply stale_spec in E2 as [E2 _]. specialize (h f (or_introl eq_refl)). lia. }
  rewrite place_last by exact h.
  assert (hs' : ssorted (l ++ [x])).
  { apply ssorted_app. split; [exact hs|]. split; [constructor; constructor|]. intros a c ha [<-|[]]. apply gen_lt. auto. }
  destruct (expire_spec _ hs') as (d & e1 & e2 & _). destruct (expire_keys (l ++ [x])) as [|k e] using rev_ind; [destruct e2; [destruct l; discriminate|reflexivity]|].
  rewrite app_assoc in e1. apply app_inj_tail in e1 as [_ <-]. eauto.
Qed.
Lemma rev_tail {A} (r : list A) x : rev (r ++ [x]) = x :: rev r. Proof. apply rev_app_distr. Qed.
Lemma enc_key_last o r x : ko_pconf o = [] -> ko_keys o = r ++ [x] -> group_enc_key o = Ok (k_key x).
Proof. intros h1 h2. unfold group_enc_key. rewrite h1, h2, rev_tail. reflexivity. Qed.
(** someone who is not an administrator never has a pending key *)
Lemma no_pending_step G o o' : kinv o -> kstep G o o' -> (ko_sk o = None -> ko_pconf o = []) -> ko_sk o' = None -> ko_pconf o' = [].
Proof.
  intros hi hs ho. destruct hs as [h data ts o r o' hl|sids o m o' hr|o|secret o o' ha|o o' hsz hl].
  - apply load_inv in hl as (ks & gen & s & sig & _ & _ & -> & _). destruct (take_id h ks gen o) as (_ & _ & ->). intros hn. specialize (ho hn). unfold take_in. destruct ks as [|k ks]; [exact ho|].
    destruct (inserts_id h (k :: ks) (drop_pending (k :: ks) o)) as (_ & _ & _ & -> & _). unfold drop_pending. destruct (_ && _); [reflexivity|exact ho].
  - apply rekey_inv in hr as (sk & gen & key & e & _ & _ & _ & _ & ->). cbn. congruence.
  - exact ho.
  - unfold load_admin_key in ha. destruct (admin o) eqn:Ea; [injection ha as <-; exact ho|]. destruct (negb _); [discriminate|]. cbv zeta in ha. destruct (negb _); [discriminate|]. injection ha as <-. discriminate.
  - unfold fresh in hl. rewrite load_kdump in hl by assumption. injection hl as <-. exact ho.
Qed.
Lemma no_pending_life G o o' : lib_ok G -> klife G o o' -> kinv o -> (ko_sk o = None -> ko_pconf o = []) -> ko_sk o' = None -> ko_pconf o' = [].
Proof.
  intros hG hl hi ho. induction hl as [|p q hl IH hs]; [exact ho|]. exact (no_pending_step G p q (kinv_life G o p hG hl hi) hs IH).
Qed.
Lemma no_pending G o : lib_ok G -> kreach G o -> ko_sk o = None -> ko_pconf o = [].
Proof. intros hG (u & p & s & _ & _ & _ & hl). apply (no_pending_life G _ _ hG hl (kinv_new u p s)). reflexivity. Qed.
(** after receiving a single new key of a generation above all it has, a client without a pending key of its own encrypts with it *)
Lemma take_newest h k gen o : kinv o -> (forall y, In y (ko_keys o) -> (k_gen y < k_gen k)%Z) ->
  (ko_pconf o = [] \/ admin o = true /\ (ko_pgen o <= k_gen k)%Z /\ ((ko_pgen o < k_gen k)%Z \/ k_key k = ko_pkey o)) ->
  group_enc_key (take_in h [k] gen o) = Ok (k_key k).
Proof.
  intros hi hg hp. unfold take_in. cbn [fold_left].
  destruct (learn_newest k (ko_keys o) (ki_sorted o hi) hg) as (r & hr).
  destruct (drop_pending_keys [k] o) as [q1 q2].
  apply (enc_key_last _ r).
  - destruct (insert_id h k (drop_pending [k] o)) as (_ & _ & _ & -> & _). unfold drop_pending. destruct hp as [hp|(h1 & h2 & h3)].
    + rewrite hp. cbn [is_nil negb andb]. rewrite andb_false_r. exact hp.
    + rewrite h1. cbn [andb]. destruct (is_nil (ko_pconf o)) eqn:En; cbn [negb andb]; [destruct (ko_pconf o); [reflexivity|discriminate]|].
      assert (e : (ko_pgen o <? k_gen k)%Z || eqb (k_key k) (ko_pkey o) = true).
      { apply orb_true_iff. destruct h3 as [h3|h3]; [left; lia|right; apply eqb_eq; exact h3]. }
      rewrite e. reflexivity.
  - rewrite insert_key_keys, q1. exact hr.
Qed.

(** ** rekeying always works for an administrator *)
Lemma all_pks_total sids : (forall s, In s sids -> session_id_ok s (b "05") = true) -> exists pks, all_pks sids = Ok pks.
Proof.
  induction sids as [|s sids IH]; intros h; [exists []; reflexivity|]. destruct IH as (pks & hp); [intros x hx; apply h; right; exact hx|].
  pose proof (h s (or_introl eq_refl)) as hs. cbn [all_pks]. unfold session_id_pk. rewrite hs.
  assert (hx : exists p, from_hex (skipn 2 s) = Some p).
  { unfold session_id_ok in hs. apply andb_true_iff in hs as [hs _]. apply andb_true_iff in hs as [_ hs]. unfold is_hex in hs. destruct s as [|x [|y r]]; try discriminate; [exists []; reflexivity|].
    cbn [from_hex] in hs. cbn [skipn]. destruct (hex_digit x), (hex_digit y), (from_hex r) as [u|]; try discriminate. eauto. }
  destruct hx as (p & hx). rewrite hx. cbn [of_opt bind]. rewrite hp. cbn [bind]. eauto.
Qed.
Lemma rekey_total G sids o sk xpk : lib_ok G -> ko_sk o = Some sk -> g_xpk G (ko_pk o) = Some xpk -> (forall s, In s sids -> session_id_ok s (b "05") = true) ->
  (forall k, In k (ko_keys o) -> (k_gen k < int64_max)%Z /\ (int64_min <= k_gen k)%Z) -> exists m o', rekey G sids o = Ok (m, o').
Proof.
  intros [hX hZ] hs hx hsid hg. destruct (all_pks_total sids hsid) as (pks & hp). unfold rekey. rewrite hs, hx. cbn [of_opt bind].
  set (gen := match rev (ko_keys o) with [] => 0%Z | k :: _ => (k_gen k + 1)%Z end).
  assert (hgen : int64_ok gen = true).
  { unfold gen. destruct (rev (ko_keys o)) as [|k r] eqn:E; [reflexivity|]. destruct (hg k) as [h1 h2]; [apply in_rev; rewrite E; left; reflexivity|].
    unfold int64_ok. apply andb_true_iff. split; apply Z.leb_le; lia. }
  rewrite hgen. cbn [negb]. cbv zeta. rewrite hp. cbn [bind]. rewrite encrypt_one_ok.
  - cbn [bind]. eauto.
  - rewrite firstn_length, skipn_length, (z_hash G hZ). lia.
  - apply (z_xsk G hZ).
  - exact (z_xpk G hZ _ _ hx).
  - apply all_pks_spec in hp as [hp _]. exact hp.
Qed.
(** what a rekey depends on *)
Lemma rekey_same G sids o p : ko_sk o = ko_sk p -> ko_pk o = ko_pk p -> match rev (ko_keys o) with [] => None | k :: _ => Some (k_gen k) end = match rev (ko_keys p) with [] => None | k :: _ => Some (k_gen k) end ->
  match rekey G sids o, rekey G sids p with
  | Ok (m, o'), Ok (m', p') => m = m' /\ ko_pkey o' = ko_pkey p' /\ ko_pgen o' = ko_pgen p'
  | Ok _, _ | _, Ok _ => False
  | _, _ => True
  end.
Proof.
  intros h1 h2 h3. unfold rekey. rewrite h1, h2. destruct (ko_sk p) as [sk|]; [|exact I]. destruct (of_opt (g_xpk G (ko_pk p)) Throw); try exact I. cbn [bind].
  assert (hg : match rev (ko_keys o) with [] => 0%Z | k :: _ => (k_gen k + 1)%Z end = match rev (ko_keys p) with [] => 0%Z | k :: _ => (k_gen k + 1)%Z end).
  { destruct (rev (ko_keys o)), (rev (ko_keys p)); try discriminate; [reflexivity|]. injection h3 as h3. rewrite h3. reflexivity. }
  rewrite hg. destruct (negb _); [exact I|]. cbv zeta. destruct (all_pks sids); try exact I. cbn [bind]. destruct (encrypt_for_multiple _ _ _ _ _ _ _ _); try exact I. cbn [bind].
  repeat split.
Qed.

(** ** needs_rekey *)
Lemma needs_rekey_spec o : kinv o -> needs_rekey o = true <-> admin o = true /\
  exists x y, In x (ko_keys o) /\ In y (ko_keys o) /\ x <> y /\ k_gen x = k_gen y /\ forall z, In z (ko_keys o) -> (k_gen z <= k_gen x)%Z.
Proof.
  intros hi. pose proof (ki_sorted o hi) as hs. unfold needs_rekey. rewrite andb_true_iff. destruct (admin o); [|split; intros [? _]; discriminate].
  set (l := ko_keys o) in *. assert (hl : l = rev (rev l)) by (rewrite rev_involutive; reflexivity). destruct (rev l) as [|k [|k' r]] eqn:E.
  - cbn in hl. split; [intros [_ ?]; discriminate|]. intros (_ & x & y & hx & _). rewrite hl in hx. destruct hx.
  - cbn in hl. split; [intros [_ ?]; discriminate|]. intros (_ & x & y & hx & hy & hn & _). rewrite hl in hx, hy. destruct hx as [<-|[]], hy as [<-|[]]. destruct hn. reflexivity.
  - cbn [rev] in hl. rewrite <- app_assoc in hl. cbn [app] in hl. set (d := rev r) in *. rewrite hl in hs. apply ssorted_app in hs as (_ & hs1 & hs2).
    apply ssorted_cons in hs1 as [_ hs1]. inversion hs1 as [|? ? hkk _]; subst.
    assert (htop : forall z, In z l -> z = k \/ (k_gen z <= k_gen k')%Z).
    { intros z hz. rewrite hl in hz. apply in_app_or in hz as [hz|[<-|[<-|[]]]]; [right|right; lia|left; reflexivity]. apply lt_gen, hs2; [exact hz|left; reflexivity]. }
    assert (hk : In k l) by (rewrite hl; apply in_or_app; right; right; left; reflexivity). assert (hk' : In k' l) by (rewrite hl; apply in_or_app; right; left; reflexivity).
    split.
    + intros [_ hg]. apply Z.eqb_eq in hg. split; [reflexivity|]. exists k, k'. split; [exact hk|]. split; [exact hk'|]. split; [intros ->; exact (lt_irrefl _ hkk)|]. split; [exact hg|].
      intros z hz. destruct (htop z hz) as [-> | h]; lia.
    + intros (_ & x & y & hx & hy & hn & he & hm). split; [reflexivity|]. apply Z.eqb_eq. apply lt_gen in hkk.
      assert (h1 : (k_gen k <= k_gen x)%Z) by auto. destruct (htop x hx) as [-> | h2]; [|lia]. destruct (htop y hy) as [-> | h3]; [destruct hn; reflexivity|]. lia.
Qed.
