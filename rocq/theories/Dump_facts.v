(** Dumping and restoring a ConfigBase. *)
From Verif Require Import BaseSpec Data_facts Diff_facts Bt_facts Message_facts Parse_facts Merge_facts Replay_facts Resolve_facts Wire_facts Reach_facts Round_facts Redeliver_facts Adopt_facts Base_facts.

Lemma skip_until_here f k v es r : str_ok k = true -> ltb k k = false ->
  skip_until (S f) k (enc_entries ((k, v) :: es) ++ r) = Some (true, enc_entries ((k, v) :: es) ++ r).
Proof. intros hk hl. cbn [skip_until]. rewrite next_key_enc, hl by exact hk. rewrite eqb_refl. reflexivity. Qed.
Lemma str_list_map l : str_list (map BStr l) = Some l.
Proof. unfold str_list. induction l as [|x l IH]; [reflexivity|]. cbn [map map_opt]. rewrite IH. reflexivity. Qed.
Lemma enc_str_len s : length s <= length (enc_str s).
Proof. unfold enc_str. rewrite !app_length. cbn [length]. lia. Qed.
Lemma enc_list_len l s : In s l -> length s <= length (enc (BList (map BStr l))).
Proof.
  intros h. cbn [enc length]. rewrite app_length. enough (length s <= length (flat_map enc (map BStr l))) by lia.
  induction l as [|x l IH]; [destruct h|]. cbn [map flat_map]. rewrite app_length. destruct h as [->|h]; [|apply IH in h; lia].
  cbn [enc]. pose proof (enc_str_len s). lia.
Qed.
Definition dump_bytes (n : Z) (s curr : bytes) (old : list bytes) : bytes :=
  enc (BDict [(b "!", BInt n); (b "$", BStr s); (b "(", BStr curr); (b ")", BList (map BStr old))]).
Lemma restore_bytes B ks st s curr old : (N.of_nat (length (dump_bytes (state_no st) s curr old)) <= uint64_max)%N ->
  restore B ks (dump_bytes (state_no st) s curr old) =
  (conf <- match st with Dirty => mutable_of (store_env (b_env B)) s | _ => m <- parse_msg (store_env (b_env B)) true s ;; Ok (Plain m) end ;;
   Ok (mkBase conf st curr (fold_left (fun l h => sadd h l) old []) false ks)).
Proof.
  intros hlen.
  assert (hl : length s + length curr + length (enc (BList (map BStr old))) <= length (dump_bytes (state_no st) s curr old)).
  { unfold dump_bytes. pose proof (enc_str_len s). pose proof (enc_str_len curr).
    change (length s + length curr + length (enc (BList (map BStr old))) <=
      length ("d"%char :: (enc_entries [(b "!", BInt (state_no st)); (b "$", BStr s); (b "(", BStr curr); (b ")", BList (map BStr old))] ++ b "e"))).
    rewrite !enc_entries_cons. cbn [length]. rewrite !app_length. change (enc (BStr s)) with (enc_str s). change (enc (BStr curr)) with (enc_str curr). lia. }
  assert (hs : bt_ok (BStr s) = true) by (cbn [bt_ok]; unfold str_ok; apply N.leb_le; lia).
  assert (hc : bt_ok (BStr curr) = true) by (cbn [bt_ok]; unfold str_ok; apply N.leb_le; lia).
  assert (ho : bt_ok (BList (map BStr old)) = true).
  { cbn [bt_ok]. apply forallb_forall. intros x hx. apply in_map_iff in hx as (y & <- & hy). cbn [bt_ok]. unfold str_ok. apply N.leb_le.
    apply enc_list_len in hy. lia. }
  assert (hn : bt_ok (BInt (state_no st)) = true) by (destruct st; reflexivity).
  clear hl hlen.
  set (e4 := [(b ")", BList (map BStr old))]). set (e3 := (b "(", BStr curr) :: e4). set (e2 := (b "$", BStr s) :: e3).
  change (dump_bytes (state_no st) s curr old) with ("d"%char :: (enc_entries ((b "!", BInt (state_no st)) :: e2) ++ b "e")).
  unfold restore. cbn match. rewrite skip_until_here by reflexivity. rewrite consume_enc by (exact hn || reflexivity). cbn [bind].
  assert (hst : (if (state_no st =? 0)%Z then Ok Clean else if (state_no st =? 1)%Z then Ok Dirty else if (state_no st =? 2)%Z then Ok Waiting else Throw) = Ok st)
    by (destruct st; reflexivity).
  rewrite hst. cbn [bind]. unfold e2 at 2. rewrite skip_until_here by reflexivity. rewrite consume_enc by (exact hs || reflexivity). cbn [bind].
  fold (store_env (b_env B)). destruct (match st with Dirty => _ | _ => _ end) as [conf| | | |]; cbn [bind]; try reflexivity.
  unfold e3 at 2. rewrite skip_until_here by reflexivity. rewrite consume_enc by (exact hc || reflexivity). cbn [bind].
  unfold e4 at 2. rewrite skip_until_here by reflexivity. rewrite consume_enc by (exact ho || reflexivity). cbn [bind].
  rewrite str_list_map. unfold skip_extra. reflexivity.
Qed.
Lemma dump_spec B st x st' : dump B st = (x, st') ->
  let st0 := if readonly B then set_old [] st else st in
  (exists s c', serialize (b_env B) (s_conf st) false = Ok (s, c') /\ x = Ok (dump_bytes (state_no (s_state st)) s (s_curr st) (s_old st0)) /\
     st' = mkBase c' (s_state st) (s_curr st) (s_old st0) false (s_keys st)) \/
  ((forall y, x <> Ok y) /\ st' = st0).
Proof.
  intros h st0. unfold dump in h. fold st0 in h. unfold make_dump in h.
  assert (h0 : s_conf st0 = s_conf st /\ s_state st0 = s_state st /\ s_curr st0 = s_curr st /\ s_keys st0 = s_keys st)
    by (unfold st0; destruct (readonly B); auto).
  destruct h0 as (h1 & h2 & h3 & h4). rewrite h1, h2, h3, h4 in h.
  destruct (serialize (b_env B) (s_conf st) false) as [[s c']| | | |]; cbn [bind fst snd] in h; injection h as <- <-.
  1: left; exists s, c'; auto.
  all: right; split; [discriminate|reflexivity].
Qed.
