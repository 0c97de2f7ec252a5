(** Group messages and subaccounts. *)
From Verif Require Import KeysSpec Sub KeyList_facts Bt_facts Parse_facts Dump_facts Crypt_facts Keys_facts Keys2_facts Hex_facts Multi_facts Keys4_facts Keys5_facts.

Lemma open_any_seal G keys k nonce m : seal_ok (g_x G) -> binding (g_x G) -> In k keys -> open_any G keys nonce (x_seal (g_x G) k nonce m) = Some m.
Proof.
  intros hX hB. induction keys as [|k' keys IH]; intros hin; [destruct hin|]. cbn [open_any]. destruct (x_open (g_x G) k' nonce _) as [m'|] eqn:E.
  - apply hB in E. congruence.
  - destruct hin as [-> | hin]; [rewrite (so_open _ hX) in E; discriminate|auto].
Qed.
Lemma strip_end_pad s n : strip_end ((s ++ ["e"%char]) ++ repeat NUL n) = s ++ ["e"%char].
Proof.
  unfold strip_end. rewrite !rev_app_distr. assert (hr : rev (repeat NUL n) = repeat NUL n).
  { induction n; [reflexivity|]. cbn [repeat rev]. rewrite IHn. clear. induction n; [reflexivity|]. cbn [repeat app]. congruence. }
  rewrite hr, drop_nul_repeat. cbn [rev app drop_nul]. change (Ascii.eqb "e" NUL) with false. cbn match. cbn [rev]. rewrite rev_involutive. reflexivity.
Qed.
Lemma plain_ok (s : bytes) : (N.of_nat (length s) <= MAX_PLAINTEXT)%N -> str_ok s = true.
Proof. unfold str_ok, MAX_PLAINTEXT, uint64_max. intros h. apply N.leb_le. lia. Qed.
Lemma last_e (s : bytes) : last (s ++ ["e"%char]) NUL = "e"%char.
Proof. apply last_last. Qed.
Ltac skip_key := rewrite find_not by (reflexivity || (vm_compute; reflexivity)).
Lemma decrypt_message_encrypt G nonce m z pad o p c xpk : lib_ok G -> binding (g_x G) -> zstd_ok G -> length nonce = 24 -> m <> [] ->
  length (ko_user o) = 64 -> g_xpk G (user_pk o) = Some xpk -> key_pair G (ko_user o) (user_pk o) ->
  encrypt_message G nonce m z pad o = Ok c -> (forall k, group_enc_key o = Ok k -> In k (decrypt_keys p)) ->
  decrypt_message G c p = Ok (sid_of xpk, m).
Proof.
  intros [hX hZ] hB hz hn hm hu hx hkp he hk. unfold encrypt_message in he. destruct (MAX_PLAINTEXT <? N.of_nat (length m))%N eqn:El; [discriminate|]. apply N.ltb_ge in El.
  cbv zeta in he. set (use := z && Nat.ltb (length (g_zstd G m)) (length m)) in *. set (body := if use then g_zstd G m else m) in *.
  assert (hbody : (N.of_nat (length body) <= MAX_PLAINTEXT)%N /\ body <> []).
  { unfold body. destruct use eqn:Eu; [|auto]. split; [|apply (hz m El)]. unfold use in Eu. apply andb_true_iff in Eu as [_ Eu]. apply Nat.ltb_lt in Eu. lia. }
  destruct hbody as [hb1 hb2]. set (sig := g_sign G (ko_user o) body) in *. assert (hs : length sig = 64) by apply (z_sign G hZ).
  set (es := (b "", BInt 1) :: (b "a", BStr (user_pk o)) :: (if use then [(b "s", BStr sig); (b "z", BStr body)] else [(b "d", BStr body); (b "s", BStr sig)])) in *.
  match type of he with (k <- _ ;; Ok (nonce ++ x_seal _ _ _ (_ ++ repeat NUL ?n))) = _ => set (extra := n) in * end.
  destruct (group_enc_key o) as [k| | | |] eqn:Ek; try discriminate. cbn [bind] in he.
  match type of he with Ok ?x = Ok _ => assert (hc : c = x) by congruence end. clear he. subst c. specialize (hk k eq_refl).
  assert (henc : enc (BDict es) = ("d"%char :: enc_entries es) ++ ["e"%char]) by reflexivity.
  assert (hpk : length (user_pk o) = 32) by (unfold user_pk; rewrite skipn_length; lia).
  unfold decrypt_message. rewrite app_length, (so_len _ hX), hn. replace (Nat.ltb _ _) with false by (symmetry; apply Nat.ltb_ge; unfold NPUBBYTES; lia).
  set (sealed := x_seal (g_x G) k nonce _). assert (e1 : firstn NPUBBYTES (nonce ++ sealed) = nonce /\ skipn NPUBBYTES (nonce ++ sealed) = sealed).
  { change NPUBBYTES with 24. rewrite <- hn, firstn_app, Nat.sub_diag, firstn_all, firstn_O, app_nil_r, skipn_app, skipn_all, Nat.sub_diag. auto. }
  destruct e1 as [-> ->]. unfold sealed. clear sealed.
  fold (decrypt_keys p). rewrite open_any_seal by assumption. cbn [of_opt bind]. cbv zeta. rewrite henc, strip_end_pad. cbn [app]. rewrite app_comm_cons, last_e. cbn [Ascii.eqb negb].
  unfold es. rewrite require_int by (reflexivity || (vm_compute; reflexivity)). cbn [bind Z.eqb Pos.eqb negb].
  assert (ho : str_ok (user_pk o) = true) by (unfold str_ok; rewrite hpk; reflexivity).
  assert (hso : str_ok sig = true) by (unfold str_ok; rewrite hs; reflexivity).
  assert (hbo : str_ok body = true) by (apply plain_ok; exact hb1).
  rewrite require_str by (reflexivity || exact ho). cbn [bind]. rewrite hpk. cbn [Nat.eqb negb]. rewrite hx. cbn [of_opt bind].
  assert (hv : g_verify G sig body (user_pk o) = true) by apply hkp.
  assert (hbn : is_nil body = false) by (destruct body; [destruct hb2; reflexivity|reflexivity]).
  destruct use eqn:Eu.
  - rewrite find_not by (reflexivity || (vm_compute; reflexivity)). cbn [bind fst snd]. rewrite require_str by (reflexivity || exact hso). cbn [bind]. rewrite hs. cbn [Nat.eqb negb].
    rewrite find_here by reflexivity. cbn [bind fst snd is_nil negb]. pose proof (require_str (b "z") body [] ["e"%char] eq_refl eq_refl hbo) as hr. unfold require in hr. rewrite find_here in hr by reflexivity. cbn [bind fst snd] in hr.
    rewrite hr. cbn [bind fst snd]. rewrite hbn. cbn [bind]. rewrite hv. cbn [negb bind]. unfold body. rewrite (proj1 (hz m El)). reflexivity.
  - rewrite find_here by reflexivity. cbn [bind fst snd].
    pose proof (require_str (b "d") body [(b "s", BStr sig)] ["e"%char] eq_refl eq_refl hbo) as hr. unfold require in hr. rewrite find_here in hr by reflexivity. cbn [bind fst snd] in hr.
    rewrite hr. cbn [bind fst snd]. rewrite hbn. cbn [bind]. rewrite require_str by (reflexivity || exact hso). cbn [bind]. rewrite hs. cbn [Nat.eqb negb].
    change (enc_entries [] ++ ["e"%char]) with ["e"%char]. rewrite find_end. cbn [bind fst snd]. rewrite hbn. cbn [bind]. rewrite hv. reflexivity.
Qed.

(** ** C46 *)
(** the sizes and the law relating Ed25519 and X25519 public keys that subaccounts rely on *)
Record sub_ok (C : scrypt) : Prop := {
  su_reduce : forall x, length (s_reduce C x) = 32;
  su_xed : forall pk x, g_xpk (s_g C) pk = Some x -> s_xed C x = clear_sign pk
}.
Lemma subacc_byte w d : nth 1 (sub_head w d) NUL = byte (subacc_flags w d). Proof. reflexivity. Qed.
Lemma subaccount_verifies C o p upk w d w' d' v : lib_ok (s_g C) -> sub_ok C ->
  (forall sk, ko_sk o = Some sk -> key_pair (s_g C) sk (ko_pk o)) -> ko_pk p = ko_pk o -> length (ko_pk o) = 32 -> g_xpk (s_g C) (user_pk p) = Some upk ->
  make_subaccount C (sid_of upk) w d o = Ok v -> verify_own_subaccount C v w' d' p = Ok (implb w' w && implb d' d).
Proof.
  intros [hX hZ] hC hkp hpk hl hu hm. unfold make_subaccount in hm. destruct (ko_sk o) as [sk|]; [|discriminate]. specialize (hkp sk eq_refl).
  assert (hul : length upk = 32) by exact (z_xpk _ hZ _ _ hu). rewrite sid_of_pk in hm by exact hul. cbn [bind] in hm. cbv zeta in hm.
  set (k := blind_factor C sk (ko_pk o) upk) in *. assert (hk : length k = 32) by apply (su_reduce C hC).
  destruct (s_mul C k (s_xed C upk)) as [kT|] eqn:Em; [|discriminate]. cbn [of_opt bind] in hm. set (sig := g_sign (s_g C) sk (sub_head w d ++ kT)) in *.
  assert (hs : length sig = 64) by apply (z_sign _ hZ). match type of hm with Ok ?x = Ok _ => assert (hc : v = x) by congruence end. clear hm. subst v.
  unfold verify_own_subaccount, verify_subaccount.
  assert (hg : session_id_pk (b "03" ++ to_hex (ko_pk p)) (b "03") = Ok (ko_pk p)).
  { assert (hlen : length (b "03" ++ to_hex (ko_pk p)) = 66) by (rewrite app_length, to_hex_length, hpk, hl; reflexivity).
    unfold session_id_pk, session_id_ok. rewrite hlen. change (Nat.eqb 66 (64 + length (b "03"))) with true. cbn [andb].
    assert (hx : is_hex (b "03" ++ to_hex (ko_pk p)) = true).
    { unfold is_hex. change (b "03" ++ to_hex (ko_pk p)) with ("0"%char :: "3"%char :: to_hex (ko_pk p)). cbn [from_hex]. rewrite from_to_hex. reflexivity. }
    rewrite hx. cbn [andb]. change (firstn (length (b "03")) (b "03" ++ to_hex (ko_pk p))) with (b "03"). rewrite eqb_refl.
    change (skipn 2 (b "03" ++ to_hex (ko_pk p))) with (to_hex (ko_pk p)). rewrite from_to_hex. reflexivity. }
  rewrite hg. cbn [bind]. assert (hlen : length (sub_head w d ++ k ++ sig) = 100) by (rewrite !app_length, hk, hs; reflexivity). rewrite hlen. cbn [Nat.eqb negb].
  assert (h1 : nth 0 (sub_head w d ++ k ++ sig) NUL = byte 3) by reflexivity. assert (h2 : nth 1 (sub_head w d ++ k ++ sig) NUL = byte (subacc_flags w d)) by reflexivity.
  cbv zeta. rewrite h1, h2. change (Ascii.eqb (byte 3) (byte 3)) with true. cbn [negb andb].
  assert (f0 : flag 0 (byte (subacc_flags w d)) = true) by (destruct w, d; reflexivity).
  assert (f1 : flag 1 (byte (subacc_flags w d)) = w) by (destruct w, d; reflexivity).
  assert (f2 : flag 2 (byte (subacc_flags w d)) = d) by (destruct w, d; reflexivity).
  rewrite f0, f1, f2. cbn [negb].
  assert (e1 : firstn 4 (sub_head w d ++ k ++ sig) = sub_head w d) by reflexivity.
  assert (e2 : skipn 4 (sub_head w d ++ k ++ sig) = k ++ sig) by reflexivity.
  assert (e3 : firstn 32 (k ++ sig) = k) by (clear -hk; rewrite <- hk, firstn_app, Nat.sub_diag, firstn_all; apply app_nil_r).
  assert (e4 : skipn 36 (sub_head w d ++ k ++ sig) = sig).
  { change (skipn 36 (sub_head w d ++ k ++ sig)) with (skipn 32 (k ++ sig)). rewrite <- hk, skipn_app, skipn_all, Nat.sub_diag. reflexivity. }
  rewrite e1, e2, e3, e4. fold (user_pk p). rewrite <- (su_xed C hC _ _ hu), Em. cbn [of_opt bind]. rewrite hpk. unfold sig. rewrite hkp.
  destruct w, w', d, d'; reflexivity.
Qed.
Lemma clear_sign_ext : forall s, length (clear_sign s) = length s.
Proof. intros s. unfold clear_sign. rewrite app_length, map_length, <- app_length, firstn_skipn. reflexivity. Qed.
