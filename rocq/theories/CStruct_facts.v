(** The C structs, error buffers and member iteration. *)
From Verif Require Import Bytes Message Base Data Hex_facts Contacts Members UserGroups UserGroupsSpec Convo CommunitySpec Community_facts CStruct Maps Records_facts Contacts_facts UserGroups2_facts UserGroups4_facts CMem_facts.
From Coq Require Import Lia.

Definition nonul (s : bytes) : bool := forallb (fun c => negb (Ascii.eqb c Ascii.zero)) s.
Lemma nonul_app x y : nonul (x ++ y) = nonul x && nonul y.
Proof. apply forallb_app. Qed.
Lemma nonul_c_str s : nonul (c_str s) = true.
Proof. induction s as [|c s IH]; [reflexivity|]. cbn [c_str]. destruct (Ascii.eqb c Ascii.zero) eqn:e; [reflexivity|]. cbn [nonul forallb]. rewrite e. exact IH. Qed.
Lemma c_str_nonul s : nonul s = true -> c_str s = s.
Proof. induction s as [|c s IH]; [reflexivity|]. cbn [nonul forallb c_str]. intros h. apply andb_prop in h as [h1 h2]. apply negb_true_iff in h1. rewrite h1, IH by exact h2. reflexivity. Qed.
Lemma nonul_In s : nonul s = true <-> ~ In Ascii.zero s.
Proof.
  unfold nonul. rewrite forallb_forall. split.
  - intros h hin. specialize (h _ hin). rewrite Ascii.eqb_refl in h. discriminate.
  - intros h c hin. apply negb_true_iff, Ascii.eqb_neq. intros ->. exact (h hin).
Qed.
Lemma nonul_firstn n s : nonul s = true -> nonul (firstn n s) = true.
Proof. rewrite !nonul_In. intros h hin. apply h. rewrite <- (firstn_skipn n s). apply in_or_app. left. exact hin. Qed.
Lemma from_hex_nonul s : forall t, from_hex s = Some t -> nonul s = true.
Proof.
  assert (h : forall n s t, length s <= n -> from_hex s = Some t -> nonul s = true); [|intros t; apply (h (length s)); lia].
  induction n as [|n IH]; intros [|x [|y r]] t hl hf; cbn [from_hex] in hf; try discriminate; try reflexivity; [cbn in hl; lia|].
  destruct (hex_digit x) as [u|] eqn:e1; [|discriminate]. destruct (hex_digit y) as [v|] eqn:e2; [|discriminate]. destruct (from_hex r) as [w|] eqn:e3; [|discriminate].
  cbn [nonul forallb]. assert (n1 : Ascii.eqb x Ascii.zero = false) by (apply Ascii.eqb_neq; intros ->; discriminate e1).
  assert (n2 : Ascii.eqb y Ascii.zero = false) by (apply Ascii.eqb_neq; intros ->; discriminate e2). rewrite n1, n2. cbn [negb andb]. apply (IH r w); [cbn in hl; lia|exact e3].
Qed.
Lemma sid_ok_nonul sid p : session_id_ok sid p = true -> nonul sid = true.
Proof.
  unfold session_id_ok. intros h. apply andb_prop in h as [h _]. apply andb_prop in h as [_ h]. unfold is_hex in h. destruct (from_hex sid) as [t|] eqn:e; [|discriminate]. exact (from_hex_nonul _ _ e).
Qed.
Lemma sid_ok_length sid p : session_id_ok sid p = true -> length sid = 64 + length p.
Proof. unfold session_id_ok. intros h. apply andb_prop in h as [h _]. apply andb_prop in h as [h _]. apply Nat.eqb_eq. exact h. Qed.
Lemma room_nonul room r : canonical_room room = Ok r -> nonul room = true /\ nonul r = true /\ length room < 65 /\ length r < 65.
Proof.
  unfold canonical_room. destruct (Nat.ltb_spec ROOM_MAX_LENGTH (length (make_lc room))) as [|hl]; [discriminate|]. destruct (is_nil _); [discriminate|]. destruct (forallb room_char (make_lc room)) eqn:e; [|discriminate].
  intros h. injection h as <-. rewrite forallb_forall in e. unfold ROOM_MAX_LENGTH in hl. pose proof (lc_length room) as hlc. split; [|split; [|split; lia]]; apply nonul_In; intros hin.
  - specialize (e (lower Ascii.zero) (in_map lower _ _ hin)). discriminate.
  - specialize (e _ hin). discriminate.
Qed.
Lemma url_nonul u v : canonical_url u = Ok v -> nonul v = true /\ length v < 268.
Proof.
  intros h. apply canonical_inv in h. destruct h as [proto labels port n tail hp hl hg h4 hport hn htail hlen]. split; [|lia]. rewrite !nonul_app.
  assert (h1 : nonul (make_lc proto) = true) by (destruct hp as [-> | ->]; reflexivity). rewrite h1. cbn [andb]. change (nonul (b "://")) with true. cbn [andb]. apply andb_true_intro. split.
  - apply nonul_In. intros hin. unfold make_lc in hin. apply in_map_iff in hin as (c & hc & hin).
    assert (hz : c = Ascii.zero). { unfold lower in hc. cbv zeta in hc. destruct ((65 <=? N_of_ascii c)%N && (N_of_ascii c <=? 90)%N) eqn:e; [|exact hc]. apply andb_prop in e as [e1 e2]. apply N.leb_le in e1, e2.
      apply (f_equal N_of_ascii) in hc. rewrite N_ascii_embedding in hc by lia. cbn in hc. lia. }
    subst c. clear - hin hg. induction labels as [|l ls IH]; [exact hin|]. inversion hg as [|x y [g1 g2] g3]; subst. rewrite forallb_forall in g2. destruct ls as [|l1 ls].
    + cbn [join] in hin. apply g2 in hin. discriminate.
    + change (join (l :: l1 :: ls)) with (l ++ b "." ++ join (l1 :: ls)) in hin. apply in_app_or in hin as [hin|hin]; [apply g2 in hin; discriminate|].
      apply in_app_or in hin as [hin|hin]; [destruct hin as [hin|[]]; discriminate|]. apply IH; assumption.
  - unfold shown_port. destruct (_ || _); [reflexivity|]. rewrite nonul_app. change (nonul (b ":")) with true. cbn [andb]. unfold dec. clear. induction (N.to_uint n); cbn [uint_bytes nonul forallb]; [reflexivity|..]; assumption.
Qed.

(** ** error buffers *)
Lemma nth_error_skipn_shift {A} n (l : list A) : forall i, nth_error (skipn n l) i = nth_error l (n + i).
Proof. revert l. induction n as [|n IH]; intros l i; [reflexivity|]. destruct l as [|a l]; [destruct i; reflexivity|]. cbn [skipn Nat.add nth_error]. apply IH. Qed.
Lemma overlay_spec e mem : length e < length mem -> let m := e ++ [Ascii.zero] ++ skipn (length e + 1) mem in
  length m = length mem /\ (forall i, length e < i -> nth_error m i = nth_error mem i) /\ nth_error m (length e) = Some Ascii.zero.
Proof.
  intros h m. unfold m. split; [|split].
  - rewrite !app_length, skipn_length. cbn [length]. lia.
  - intros i hi. rewrite nth_error_app2 by lia. destruct (i - length e) as [|j] eqn:ej; [lia|]. cbn [app nth_error]. rewrite nth_error_skipn_shift. f_equal. lia.
  - rewrite nth_error_app2, Nat.sub_diag by lia. reflexivity.
Qed.
Lemma c_str_firstn n e r : length e < n -> c_str (firstn n (e ++ Ascii.zero :: r)) = c_str e.
Proof.
  intros h. rewrite firstn_app, firstn_all2 by lia. destruct (n - length e) as [|k] eqn:ek; [lia|]. cbn [firstn]. clear. induction e as [|c e IH]; [reflexivity|]. cbn [app c_str]. destruct (Ascii.eqb c Ascii.zero); [reflexivity|]. rewrite IH. reflexivity.
Qed.
Lemma put_error_spec mem msg : 256 <= length mem ->
  length (put_error mem msg) = length mem /\ (forall i, 256 <= i -> nth_error (put_error mem msg) i = nth_error mem i) /\
  In Ascii.zero (firstn 256 (put_error mem msg)) /\ c_str (firstn 256 (put_error mem msg)) = c_str (firstn 255 msg).
Proof.
  intros h. unfold put_error. cbv zeta. set (e := firstn 255 msg). assert (he : length e <= 255) by (unfold e; rewrite firstn_length; lia).
  destruct (overlay_spec e mem ltac:(lia)) as (h1 & h2 & h3). cbv zeta in *. split; [exact h1|]. split; [intros i hi; apply h2; lia|]. split; [|cbn [app]; apply c_str_firstn; lia].
  assert (hn : nth_error (firstn 256 (e ++ [Ascii.zero] ++ skipn (length e + 1) mem)) (length e) = Some Ascii.zero).
  { rewrite <- (firstn_skipn 256 (e ++ [Ascii.zero] ++ skipn (length e + 1) mem)) in h3. rewrite nth_error_app1 in h3; [exact h3|]. rewrite firstn_length, h1. lia. }
  exact (nth_error_In _ _ hn).
Qed.
Lemma copy_short mem msg past : length msg < 256 -> nonul msg = true -> 256 <= length mem ->
  let m := copy_c_str 256 mem msg past in
  length m = length mem /\ (forall i, 256 <= i -> nth_error m i = nth_error mem i) /\ c_str (firstn 256 m) = msg.
Proof.
  intros h hn hm. unfold copy_c_str, copied. destruct (Nat.ltb_spec (length msg) 256); [|lia]. cbv zeta. destruct (overlay_spec msg mem ltac:(lia)) as (h1 & h2 & h3). cbv zeta in *. split; [exact h1|].
  split; [intros i hi; apply h2; lia|]. cbn [app]. rewrite c_str_firstn by exact h. apply c_str_nonul, hn.
Qed.
Lemma nth_firstn {A} n (l : list A) : forall i, i < n -> nth_error (firstn n l) i = nth_error l i.
Proof. revert l. induction n as [|n IH]; intros l i h; [lia|]. destruct l as [|a l]; [reflexivity|]. destruct i as [|i]; [reflexivity|]. cbn [firstn nth_error]. apply IH. lia. Qed.
Lemma copy_long mem msg past : 257 <= length msg -> 258 <= length mem -> nth_error (copy_c_str 256 mem msg past) 256 = nth_error msg 256 /\ nth_error (copy_c_str 256 mem msg past) 257 = Some Ascii.zero.
Proof.
  intros h hm. unfold copy_c_str, copied. destruct (Nat.ltb_spec (length msg) 256); [lia|]. cbv zeta.
  assert (hl : length (firstn (256 + 1) (msg ++ past)) = 257) by (rewrite firstn_length, app_length; lia). split.
  - rewrite nth_error_app1 by lia. rewrite nth_firstn by lia. apply nth_error_app1. lia.
  - rewrite nth_error_app2, hl by lia. reflexivity.
Qed.

(** ** members of a legacy group *)
Lemma lm_loop_spec f : forall rest before fuel, length rest < fuel ->
  (forall p, lm_loop f fuel (mkIter before rest false) = Ok (rest, before ++ filter (fun p => negb (f (fst p) (snd p))) rest) /\
             lm_loop f fuel (mkIter before (p :: rest) true) = Ok (rest, before ++ p :: filter (fun p => negb (f (fst p) (snd p))) rest)).
Proof.
  induction rest as [|q rest IH]; intros before fuel hf p; (destruct fuel as [|fuel]; [lia|]).
  - cbn [filter]. split; cbn [lm_loop]; unfold lm_next, lm_move; cbn [li_advance li_rest li_before bind]; unfold lm_map; cbn [li_before li_rest]; rewrite app_nil_r; reflexivity.
  - cbn [length] in hf. split.
    + cbn [lm_loop]. unfold lm_next, lm_move. cbn [li_advance li_rest li_before bind]. cbn [filter]. destruct (f (fst q) (snd q)); cbn [lm_erase li_rest li_before bind negb].
      * destruct (IH before fuel ltac:(lia) p) as [-> _]. reflexivity.
      * destruct (IH before fuel ltac:(lia) q) as [_ ->]. reflexivity.
    + cbn [lm_loop]. unfold lm_next, lm_move. cbn [li_advance li_rest li_before bind]. cbn [filter]. destruct (f (fst q) (snd q)); cbn [lm_erase li_rest li_before bind negb].
      * destruct (IH (before ++ [p]) fuel ltac:(lia) p) as [-> _]. cbn [bind]. rewrite <- app_assoc. reflexivity.
      * destruct (IH (before ++ [p]) fuel ltac:(lia) q) as [_ ->]. cbn [bind]. rewrite <- app_assoc. reflexivity.
Qed.
Lemma lm_count_spec m : lm_count m = (length m, length (filter (fun p => negb (snd p)) m), length (filter snd m)).
Proof.
  unfold lm_count. assert (h : forall n a, fold_left (fun na (p : bytes * bool) => if snd p then (fst na, S (snd na)) else (S (fst na), snd na)) m (n, a) =
    (n + length (filter (fun p => negb (snd p)) m), a + length (filter snd m))).
  { induction m as [|[s x] m IH]; intros n a; [cbn; rewrite !Nat.add_0_r; reflexivity|]. cbn [fold_left filter fst snd]. destruct x; rewrite IH; cbn [negb length]; f_equal; lia. }
  rewrite h. reflexivity.
Qed.
Lemma lm_add_spec sid admin m : msorted m ->
  let '(x, m') := lm_add sid admin m in
  msorted m' /\ (session_id_ok sid (b "05") = false -> x = false /\ m' = m) /\
  (session_id_ok sid (b "05") = true -> (x = false <-> lookup sid m = Some admin) /\ (forall s, lookup s m' = if eqb s sid then Some admin else lookup s m)).
Proof.
  intros hm. unfold lm_add. destruct (session_id_ok sid (b "05")) eqn:e.
  2: { split; [exact hm|]. split; [auto|discriminate]. }
  destruct (lookup sid m) as [y|] eqn:el.
  - destruct (Bool.eqb y admin) eqn:ea.
    + apply eqb_prop in ea. subst y. split; [exact hm|]. split; [discriminate|]. intros _. split; [tauto|]. intros s. destruct (eqb s sid) eqn:es; [apply eqb_eq in es; subst s; exact el|reflexivity].
    + apply eqb_false_iff in ea. split; [apply msorted_insert, hm|]. split; [discriminate|]. intros _. split; [split; [discriminate|congruence]|]. intros s. apply lookup_insert, hm.
  - split; [apply msorted_emplace, hm|]. split; [discriminate|]. intros _. split; [split; discriminate|]. intros s. rewrite lookup_emplace by exact hm. destruct (eqb s sid) eqn:es; [|destruct (lookup s m); reflexivity]. apply eqb_eq in es. subst s. rewrite el. reflexivity.
Qed.

(** ** structs *)
Lemma first66 (sid r : bytes) : length sid = 66 -> firstn 66 (sid ++ r) = sid.
Proof. intros h. rewrite <- h. rewrite firstn_app, Nat.sub_diag, firstn_all. apply app_nil_r. Qed.
Lemma copy_id (mem sid : bytes) : length sid = 66 -> firstn 66 (copy_c_str 67 mem sid []) = sid.
Proof. intros h. unfold copy_c_str, copied. rewrite h. change (Nat.ltb 66 67) with true. cbv beta iota zeta. apply first66, h. Qed.
Lemma fits_lt n s : length s < n -> fits n s = true.
Proof. intros h. apply Nat.ltb_lt. exact h. Qed.
Lemma legacy_struct sid g o : session_id_ok sid (b "05") = true -> length (lg_name g) <= 100 -> nonul (lg_name g) = true ->
  exists k, legacy_into sid g o = Ok k /\
    legacy_of_c k = (sid, if two_keys (lg_pub g) (lg_sec g) then g else mkLegacy (lg_base g) (lg_name g) [] [] (lg_timer g) (lg_members g)) /\ c_str (cl_id k) = sid.
Proof.
  intros h1 h2 h3. pose proof (sid_ok_length _ _ h1) as hl. change (length sid = 66) in hl. unfold legacy_into. rewrite (fits_lt 67 sid) by lia. rewrite (fits_lt 101 (lg_name g)) by lia. cbn [andb].
  eexists. split; [reflexivity|]. unfold legacy_of_c. cbn [cl_id cl_name cl_have_keys cl_pub cl_sec cl_timer cl_base cl_internal or_else]. rewrite copy_id by exact hl.
  rewrite c_str_copy by (exact h3 || apply fits_lt; lia). split.
  - destruct (two_keys (lg_pub g) (lg_sec g)); [destruct g; reflexivity|reflexivity].
  - apply c_str_copy; [apply fits_lt; lia|exact (sid_ok_nonul _ _ h1)].
Qed.
Lemma group_struct sid g o : session_id_ok sid (b "03") = true -> length (gr_name g) <= 100 -> nonul (gr_name g) = true ->
  exists k, group_into sid g o = Ok k /\
    group_of_c k = (sid, mkGroup (gr_base g) (gr_name g) (if Nat.eqb (length (gr_secret g)) 64 then gr_secret g else []) (if Nat.eqb (length (gr_auth g)) 100 then gr_auth g else [])) /\
    c_str (cg_id k) = sid /\ c_is_kicked k = negb (Nat.eqb (length (gr_auth g)) 100) && negb (Nat.eqb (length (gr_secret g)) 64).
Proof.
  intros h1 h2 h3. pose proof (sid_ok_length _ _ h1) as hl. change (length sid = 66) in hl. unfold group_into. rewrite (fits_lt 67 sid) by lia. rewrite (fits_lt 101 (gr_name g)) by lia. cbn [andb].
  eexists. split; [reflexivity|]. unfold group_of_c, c_is_kicked. cbn [cg_id cg_name cg_have_secret cg_secret cg_have_auth cg_auth cg_base]. rewrite copy_id by exact hl.
  rewrite c_str_copy by (exact h3 || apply fits_lt; lia). split; [|split].
  - destruct (Nat.eqb (length (gr_secret g)) 64), (Nat.eqb (length (gr_auth g)) 100); reflexivity.
  - apply c_str_copy; [apply fits_lt; lia|exact (sid_ok_nonul _ _ h1)].
  - apply negb_orb.
Qed.
Lemma comm_struct c o : comm_ok c -> length (co_pub c) = 32 -> exists k, comm_into c o = Ok k /\ comm_of_c k = Ok c.
Proof.
  intros [h1 h2] h3. destruct (url_nonul _ _ h1) as [n1 l1]. destruct (room_nonul _ _ h2) as (n2 & _ & l2 & _). unfold comm_into.
  rewrite (fits_lt 268 (co_url c)) by exact l1. rewrite (fits_lt 65 (co_room c)) by exact l2. rewrite h3. cbn [andb Nat.leb]. rewrite firstn_all2 by lia. eexists. split; [reflexivity|].
  unfold comm_of_c. cbn [cu_url cu_room cu_pub cu_base]. rewrite !c_str_copy by (assumption || apply fits_lt; assumption). unfold new_comm. rewrite h1, h2. cbn [bind]. unfold set_pubkey. rewrite h3. cbn [Nat.eqb bind co_url co_norm co_room co_pub].
  destruct c; reflexivity.
Qed.
Lemma convo_struct sid c : length sid = 66 -> exists k, convo_into sid c = Ok k /\ convo_of_c k = (sid, c) /\ length (cx_id k) = 67 /\ (nonul sid = true -> c_str (cx_id k) = sid).
Proof.
  intros h. unfold convo_into. rewrite h. cbn [Nat.leb]. eexists. split; [reflexivity|]. unfold convo_of_c. cbn [cx_id cx_base].
  assert (e : firstn 67 (sid ++ [Ascii.zero]) = sid ++ [Ascii.zero]) by (apply firstn_all2; rewrite app_length, h; cbn; lia). rewrite e, first66 by exact h. split; [reflexivity|]. split.
  - rewrite app_length, h. reflexivity.
  - intros hn. exact (c_str_app sid hn []).
Qed.
Lemma ccomm_struct c o : canonical_url (co_url (cc_comm c)) = Ok (co_url (cc_comm c)) -> canonical_room (co_norm (cc_comm c)) = Ok (co_norm (cc_comm c)) -> length (co_pub (cc_comm c)) = 32 ->
  exists k, ccomm_into c o = Ok k /\ exists c', ccomm_of_c k = Ok c' /\ cc_base c' = cc_base c /\ co_url (cc_comm c') = co_url (cc_comm c) /\ co_norm (cc_comm c') = co_norm (cc_comm c) /\
    co_room (cc_comm c') = co_norm (cc_comm c) /\ co_pub (cc_comm c') = co_pub (cc_comm c) /\ co_base (cc_comm c') = new_gbase.
Proof.
  intros h1 h2 h3. destruct (url_nonul _ _ h1) as [n1 l1]. destruct (room_nonul _ _ h2) as (n2 & _ & l2 & _). unfold ccomm_into. cbv zeta.
  rewrite (fits_lt 268) by exact l1. rewrite (fits_lt 65) by exact l2. rewrite h3. cbn [andb Nat.leb]. rewrite firstn_all2 by lia. eexists. split; [reflexivity|].
  unfold ccomm_of_c. cbn [cy_url cy_room cy_pub cy_base]. rewrite !c_str_copy by (assumption || apply fits_lt; assumption). unfold new_comm. rewrite h1, h2. cbn [bind]. unfold set_pubkey. rewrite h3. cbn [Nat.eqb bind co_url co_norm co_room co_pub].
  eexists. split; [reflexivity|]. cbn [cc_base cc_comm co_url co_norm co_room co_pub co_base]. auto 8.
Qed.
