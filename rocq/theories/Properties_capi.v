(** C81: blocks of memory the C interface hands out.  Statements; proofs are in CMem_facts. *)
From Verif Require Import Bytes Message Base BaseSpec Spec Contacts CMem Base_facts Life4_facts Life2_facts Reach_facts Dump_facts Conf2_facts CMem_facts Properties_sync Properties_base ToyBase Toy ToyCrypt.

(** malloc returned [n] bytes of any content at [base] *)
Definition malloc_ok (junk : nat -> bytes) : Prop := forall n, length (junk n) = n.
(** the block lies inside of the address space *)
Definition fits_at (base : Z) (size : nat) : Prop := (0 <= base)%Z /\ (base + Z.of_nat size < 2 ^ 64)%Z.
(** room for a config_string_list, its pointers, and its strings with their terminators *)
Definition list_bytes (l : list bytes) : nat := 16 + 8 * length l + list_sum (map (fun s => S (length s)) l).
(** the same for config_push_data, whose data comes in between *)
Definition push_bytes (data : bytes) (l : list bytes) : nat := 40 + 8 * length l + length data + list_sum (map (fun s => S (length s)) l).
Lemma sum_strs l : list_sum (map (fun s : bytes => S (length s)) l) = strs_size l.
Proof. induction l as [|v r IH]; [reflexivity|]. cbn [map list_sum fold_right strs_size]. fold (list_sum (map (fun s : bytes => S (length s)) r)). fold (strs_size r). rewrite IH. lia. Qed.
Lemma list_bytes_eq l : list_bytes l = list_size l.
Proof. unfold list_bytes, list_size. rewrite sum_strs. unfold bytes. lia. Qed.
Lemma push_bytes_eq d l : push_bytes d l = push_size d l.
Proof. unfold push_bytes, push_size. rewrite sum_strs. unfold bytes. lia. Qed.

(** ** C81 *)
(** A string list is written without a write outside of its block, and the caller finds every string, in order, up to its first NUL. *)
Theorem C81_string_list junk base vals : malloc_ok junk -> fits_at base (list_bytes vals) ->
  exists blk, make_string_list junk base vals = Ok blk /\ length blk = list_bytes vals /\ c_read_list base blk = Ok (map c_str vals).
Proof. rewrite list_bytes_eq. intros hj [h1 h2]. exact (string_list_readable junk base vals hj h1 h2). Qed.
(** config_merge: the caller finds exactly the hashes merge() accepted, which are hashes it passed in. *)
Theorem C81_config_merge B junk base msgs st acc st' : malloc_ok junk -> fits_at base (list_bytes acc) ->
  merge B (map (fun p => (c_str (fst p), snd p)) msgs) st = (Ok acc, st') ->
  exists blk, c_config_merge B junk base msgs st = (Ok blk, st') /\ length blk = list_bytes acc /\ c_read_list base blk = Ok acc /\
    (forall h, In h acc -> exists p, In p msgs /\ h = c_str (fst p)).
Proof.
  intros hj [h1 h2] hm. rewrite list_bytes_eq in *. destruct (string_list_readable junk base acc hj h1 h2) as (blk & e1 & e2 & e3).
  pose proof (C68_accepted _ _ _ _ _ hm) as ha.
  assert (hin : forall h, In h acc -> exists p, In p msgs /\ h = c_str (fst p)).
  { intros h hh. rewrite ha in hh. apply in_map_iff in hh as (q & hq & hh). apply filter_In in hh as [hh _]. apply in_map_iff in hh as (p & hp & hh).
    exists p. split; [exact hh|]. rewrite <- hq, <- hp. reflexivity. }
  exists blk. unfold c_config_merge. rewrite hm, e1. split; [reflexivity|]. split; [exact e2|]. split; [|exact hin].
  rewrite e3. f_equal. clear - hin. induction acc as [|a r IH]; [reflexivity|]. cbn [map]. f_equal.
  - destruct (hin a (or_introl eq_refl)) as (p & _ & ->). apply c_str_fix.
  - apply IH. intros h hh. apply hin. right. exact hh.
Qed.
(** config_push of any object over its life: the caller finds the sequence number, the data byte for byte, and the obsolete hashes. *)
Theorem C81_config_push B junk base st seqno data obs st' : benv_ok B -> life B tame st -> malloc_ok junk ->
  push B st = (Ok (seqno, data, obs), st') -> fits_at base (push_bytes data obs) ->
  exists blk, c_config_push B junk base st = (Ok blk, st') /\ length blk = push_bytes data obs /\ c_read_push base blk = Ok (seqno, data, map c_str obs).
Proof.
  intros hB hl hj hp [h1 h2]. rewrite push_bytes_eq in *.
  assert (hq : int64_ok seqno = true).
  { pose proof (i1_cfg _ _ (life_inv1 _ _ hB hl)) as hc. assert (hs : seqno = s_seqno st).
    { clear - hp. unfold push in hp. destruct (s_keys st) as [|k ks]; [discriminate|]. destruct (serialize (b_env B) (s_conf st) true) as [[s c]| | | |]; try discriminate.
      cbv zeta in hp. destruct (encrypt _ _ _ _) as [e| | | |]; try discriminate. destruct (_ <? _)%N; [discriminate|].
      destruct (if is_dirty (set_conf c st) then set_state B Waiting (set_conf c st) else (Ok tt, set_conf c st)) as [[u| | | |] s2]; try discriminate hp; injection hp as hp _ _ _; symmetry; exact hp. }
    rewrite hs. unfold s_seqno, s_msg. destruct (s_conf st) as [m|m o]; cbn [c_msg cfg_ok] in *; apply hc. }
  destruct (push_readable junk base seqno data obs hj h1 h2 hq) as (blk & e1 & e2 & e3). exists blk. unfold c_config_push. rewrite hp, e1. auto.
Qed.
(** config_get_keys *)
Theorem C81_config_get_keys junk base ks : malloc_ok junk -> (forall k, In k ks -> length k = 32) ->
  match ks with
  | [] => keys_block junk base ks = Ok (0%Z, None)
  | _ => exists blk, keys_block junk base ks = Ok (Z.of_nat (length ks), Some blk) /\ length blk = (32 * length ks)%nat /\ c_read_keys base blk base (length ks) = Ok ks
  end.
Proof.
  intros hj hk. destruct ks as [|k r]; [reflexivity|]. apply keys_readable; [exact hj| |discriminate]. apply Forall_forall. exact hk.
Qed.
(** config_current_hashes: the caller finds the hashes of the current message, each up to its first NUL. *)
Theorem C81_config_current_hashes junk base st : malloc_ok junk -> fits_at base (list_bytes (current_hashes st)) ->
  exists blk, c_config_current_hashes junk base st = Ok blk /\ length blk = list_bytes (current_hashes st) /\ c_read_list base blk = Ok (map c_str (current_hashes st)).
Proof. intros hj hf. exact (C81_string_list junk base (current_hashes st) hj hf). Qed.
(** config_dump: the block is as long as the caller is told and contains the dump, and whoever opens a config from the
    bytes the caller was given gets the object as it was: data, state and current hash; the version is the next one if there
    were unpushed changes. *)
Theorem C81_config_dump B junk base st : malloc_ok junk -> (0 <= base)%Z ->
  match dump B st with
  | (Ok d, st1) => c_config_dump B junk base st = (Ok (length d, d), st1)
  | (x, st1) => c_config_dump B junk base st = (failed x, st1)
  end.
Proof.
  intros hj h0. unfold c_config_dump. destruct (dump B st) as [[d| | | |] st1]; try reflexivity. rewrite <- (app_nil_r (junk (length d))). rewrite poke_head by apply hj. cbn [bind]. rewrite app_nil_r. reflexivity.
Qed.
Theorem C81_dump_reopened B junk base st n blk st1 ks st' : benv_ok B -> life B tame st -> malloc_ok junk -> (0 <= base)%Z ->
  c_config_dump B junk base st = (Ok (n, blk), st1) -> (N.of_nat n < 2 ^ 64)%N -> restore B ks (firstn n blk) = Ok st' ->
  length blk = n /\ s_data st' = fst (prune (s_data st)) /\ s_state st' = s_state st /\ s_curr st' = s_curr st /\ s_keys st' = ks /\
  s_seqno st' = (s_seqno st + (if is_dirty st then 1 else 0))%Z.
Proof.
  intros hB hl hj h0 hc hn hr. pose proof (C81_config_dump B junk base st hj h0) as hd. destruct (dump B st) as [[d| | | |] st2] eqn:E; try (rewrite hc in hd; discriminate hd).
  rewrite hd in hc. injection hc as <- <- <-. rewrite firstn_all in hr. split; [reflexivity|]. destruct (restore_same B st d st2 ks st' hB hl E hn hr) as (h1 & h2 & h3 & h4 & h5 & h6 & h7). auto.
Qed.
Print Assumptions C81_config_current_hashes.
Print Assumptions C81_config_dump.
Print Assumptions C81_dump_reopened.
Print Assumptions C81_string_list.
Print Assumptions C81_config_merge.
Print Assumptions C81_config_push.
Print Assumptions C81_config_get_keys.

Definition junkx (n : nat) : bytes := repeat "x"%char n.
Lemma junkx_ok : malloc_ok junkx.
Proof. intros n. apply repeat_length. Qed.
(** a merge of rubbish and a good message, and a push, through the C interface *)
Example ex_C81_list : match c_config_merge tb junkx 4096 [(b "g", b "rubbish"); (b "h", sent1)] (start tb) with
  | (Ok blk, _) => blk = word 4112 ++ word 1 ++ word 4120 ++ b "h" ++ [Ascii.zero] /\ c_read_list 4096 blk = Ok [b "h"]
  | _ => False end.
Proof. vm_compute. split; reflexivity. Qed.
Example ex_C81_dump : match c_config_dump tb junkx 4096 w3 with
  | (Ok (n, blk), _) => n = length blk /\ 0 < n /\ exists st', restore tb [toy_key] (firstn n blk) = Ok st' /\ s_data st' = [(b "n", VScal (SStr (b "y")))] /\ s_seqno st' = 3%Z
  | _ => False end.
Proof. vm_compute. split; [reflexivity|]. split; [lia|]. eexists. repeat split; reflexivity. Qed.
Example ex_C81_push : match push_block junkx 65536 (-2) (b "data") [b "hash1"; []; b "h2"] with
  | Ok blk => length blk = push_bytes (b "data") [b "hash1"; []; b "h2"] /\ c_read_push 65536 blk = Ok ((-2)%Z, b "data", [b "hash1"; []; b "h2"])
  | _ => False end.
Proof. vm_compute. split; reflexivity. Qed.
Example ex_C81_keys : match keys_block junkx 4096 [repeat "k"%char 32; repeat "l"%char 32] with
  | Ok (n, Some blk) => n = 2%Z /\ c_read_keys 4096 blk 4096 2 = Ok [repeat "k"%char 32; repeat "l"%char 32] /\ c_read_keys 4096 blk 4096 3 = UB
  | _ => False end.
Proof. vm_compute. auto. Qed.
