(** C104: arrays for secrets; C105: string helpers.  Statements only; proofs in Array_facts.v, vocabulary in ArraySpec.v. *)
From Verif Require Import ArraySpec Array_facts Hex_facts.
From Coq Require Import Lia.

(** [room] says when sodium_malloc can give memory and [junk] what is in it; [arun] is any program that makes arrays, moves, loads,
    resets, writes and ends them, in any order, and goes on after exceptions.  What each array shows is what the specification says,
    where an array is a variable that holds bytes; in particular no two arrays share memory.  Nothing throws unless memory runs out. *)
Theorem C104_values room junk l s w o r s' : arun room junk l s -> shows s w -> astep room junk o s = Some (r, s') -> ~ undefined_use o w ->
  exists enough : bool, r = (if enough then Ok tt else Throw) /\ (allocates o = false \/ (forall p n, room p n = true) -> enough = true) /\ shows s' (effect o enough w).
Proof.
  intros hr hw h hu. pose proof (run_sound _ _ _ _ hr) as hs. destruct (step_good room junk o s w r s' hs (shows_has _ _ hs hw) h hu) as (e & -> & h2 & h3 & h4).
  exists e. split; [reflexivity|]. split; [exact h2|apply has_shows, h4].
Qed.
Print Assumptions C104_values.
(** every state shows something, so the theorem applies to each *)
Theorem C104_shown room junk l s : arun room junk l s -> exists w, shows s w.
Proof. intros hr. destruct (sound_has s (run_sound _ _ _ _ hr)) as (w & h). exists w. apply has_shows, h. Qed.
Print Assumptions C104_shown.
(** exactly the non-empty arrays have a buffer: no leak, no double free; when all arrays are gone nothing is allocated *)
Theorem C104_no_leak room junk l s : arun room junk l s ->
  length (pl_live (as_pool s)) = length (nonempty s) /\ (as_vars s = [] -> pl_live (as_pool s) = []).
Proof.
  intros hr. pose proof (live_count s (run_sound _ _ _ _ hr)) as h. split; [exact h|]. intros e. unfold nonempty in h. rewrite e in h. destruct (pl_live (as_pool s)); [reflexivity|discriminate].
Qed.
Print Assumptions C104_no_leak.

(** Not so: move assignment, which is part of the interface, has no return statement. *)
Theorem C104_assign_refuted : ~ (forall room junk l s w x y r s', arun room junk l s -> shows s w -> astep room junk (AAssign x y) s = Some (r, s') -> r = Ok tt).
Proof.
  intros h. set (room := fun _ _ : nat => true). set (junk := fun _ _ : nat => @nil Ascii.ascii).
  assert (r1 : arun room junk [ANew 0; ANew 1] (mkA [(1, empty_arr); (0, empty_arr)] (mkPool 0 []))).
  { apply (arun_step room junk [ANew 0] (mkA [(0, empty_arr)] (mkPool 0 [])) (ANew 1) (Ok tt)); [|reflexivity|left; reflexivity].
    apply (arun_step room junk [] astart (ANew 0) (Ok tt)); [constructor|reflexivity|left; reflexivity]. }
  destruct (C104_shown _ _ _ _ r1) as (w & hw). specialize (h room junk _ _ w 0 1 _ _ r1 hw eq_refl). discriminate.
Qed.
Print Assumptions C104_assign_refuted.
(** whatever it is used on *)
Theorem C104_assign_partial room junk l s x y r s' : arun room junk l s -> astep room junk (AAssign x y) s = Some (r, s') -> r = UB.
Proof.
  intros hr h. pose proof (run_sound _ _ _ _ hr) as hs. destruct (sound_has s hs) as (w & hw). exact (undefined_ub room junk _ s w r s' hs hw h Logic.I).
Qed.
Print Assumptions C104_assign_partial.

(** a program: a key is loaded, moved to another array, cut by running out of memory, and everything ends *)
Definition ex_room (p n : nat) : bool := (n <=? 4)%nat.
Definition ex_prog : list aop := [ANew 0; ALoad 0 (b "key"); AMove 1 0; APut 1 0 "K"%char; ALoad 0 (b "ab"); ALoad 0 (b "too long")].
Fixpoint exec (ops : list aop) (s : astate) : option astate :=
  match ops with [] => Some s | o :: r => match astep ex_room (fun _ _ => b "????") o s with Some (Ok _, s') | Some (Throw, s') => exec r s' | _ => None end end.
Lemma exec_run ops : forall l s s', arun ex_room (fun _ _ => b "????") l s -> exec ops s = Some s' -> arun ex_room (fun _ _ => b "????") (l ++ ops) s'.
Proof.
  induction ops as [|o r IH]; intros l s s' h e; cbn in e; [injection e as <-; rewrite app_nil_r; exact h|].
  destruct (astep _ _ o s) as [[y s1]|] eqn:es; [|discriminate]. replace (l ++ o :: r) with ((l ++ [o]) ++ r) by (rewrite <- app_assoc; reflexivity).
  destruct y as [[]| | | |]; try discriminate; (apply (IH _ s1); [|exact e]); eapply arun_step; try exact h; try exact es; auto.
Qed.
Example ex_C104 : exists s, arun ex_room (fun _ _ => b "????") ex_prog s /\
  match at_ 1 (as_vars s) with Some a => arr_view a (as_pool s) = Ok (b "Key") | None => False end /\
  match at_ 0 (as_vars s) with Some a => arr_view a (as_pool s) = Ok [] | None => False end /\ length (pl_live (as_pool s)) = 1%nat.
Proof.
  destruct (exec ex_prog astart) as [s|] eqn:e; [|vm_compute in e; discriminate]. exists s. split; [apply (exec_run ex_prog [] astart s); [constructor|exact e]|].
  vm_compute in e. injection e as <-. vm_compute. repeat split.
Qed.

(** end_with is what its name says *)
Theorem C105_end_with s x : end_with s x = true <-> exists p, s = p ++ x.
Proof.
  unfold end_with. rewrite Bool.andb_true_iff, Nat.leb_le, eqb_eq. split.
  - intros [_ h]. exists (firstn (length s - length x) s). rewrite <- h at 2. symmetry. apply firstn_skipn.
  - intros (p & ->). rewrite app_length. split; [lia|]. replace (length p + length x - length x)%nat with (length p) by lia. rewrite skipn_app, skipn_all, Nat.sub_diag. reflexivity.
Qed.
Print Assumptions C105_end_with.
(** starts_with is not: it compares the rest of the string instead of its beginning *)
Theorem C105_starts_with_refuted : ~ (forall s p, starts_with s p = true <-> exists x, s = p ++ x).
Proof. intros h. assert (e : starts_with (b "http://a") (b "http://") = true) by (apply h; exists (b "a"); reflexivity). discriminate. Qed.
Print Assumptions C105_starts_with_refuted.
(** what it says: the string is as long as the prefix and then equals the prefix *)
Theorem C105_starts_with_partial s p : starts_with s p = true <-> exists q, length q = length p /\ s = q ++ p.
Proof.
  unfold starts_with. rewrite Bool.andb_true_iff, Nat.leb_le, eqb_eq. split.
  - intros [hl h]. exists (firstn (length p) s). rewrite firstn_length. split; [lia|]. rewrite <- h at 2. symmetry. apply firstn_skipn.
  - intros (q & hq & ->). rewrite app_length. split; [lia|]. rewrite <- hq, skipn_app, skipn_all, Nat.sub_diag. reflexivity.
Qed.
Print Assumptions C105_starts_with_partial.
(** string_iequal: the same length, and at each place the same letter up to case or the same character *)
Theorem C105_iequal x y : string_iequal x y = true <-> Forall2 same_letter x y.
Proof. unfold string_iequal. rewrite eqb_eq. apply iequal_iff. Qed.
Print Assumptions C105_iequal.
(** SessionID::hex is documented to give the id in hex with its prefix *)
Theorem C105_session_id_refuted : ~ (forall pk, length pk = 32%nat -> session_id_hex pk = b "05" ++ to_hex pk).
Proof. intros h. specialize (h (repeat NUL 32) eq_refl). discriminate. Qed.
Print Assumptions C105_session_id_refuted.
(** it gives a character that is not a digit and the key in hex; nothing that takes a session id accepts that *)
Theorem C105_session_id_partial pk : length pk = 32%nat ->
  (exists c, session_id_hex pk = c :: to_hex pk) /\ forall p, session_id_to_bytes (session_id_hex pk) p = Throw /\ session_id_pk (session_id_hex pk) p = Throw.
Proof.
  intros h. split; [eexists; reflexivity|]. intros p. unfold session_id_to_bytes, session_id_pk.
  assert (e : session_id_ok (session_id_hex pk) p = false).
  { unfold session_id_ok, is_hex, session_id_hex. destruct (Nat.eqb _ _ && _) eqn:e1; [|reflexivity]. exfalso. apply Bool.andb_true_iff in e1 as [_ e1]. destruct pk; cbn in e1; discriminate. }
  rewrite e. split; reflexivity.
Qed.
Print Assumptions C105_session_id_partial.
Example ex_C105 : end_with (b "a.snode") (b ".snode") = true /\ string_iequal (b "HttpS") (b "hTTps") = true /\ string_iequal (b "@") (b "`") = false /\ starts_with (b "aa") (b "a") = true.
Proof. vm_compute. repeat split. Qed.
