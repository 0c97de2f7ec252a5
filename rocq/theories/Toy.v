(** A small executable environment, used only in examples and counterexamples: a toy 32-byte hash, and a toy
    "signature" (the hash twice). *)
From Verif Require Import Spec.

Definition axor (x y : ascii) : ascii :=
  let (a0, a1, a2, a3, a4, a5, a6, a7) := x in let (b0, b1, b2, b3, b4, b5, b6, b7) := y in
  Ascii (xorb a0 b1) (xorb a1 b2) (xorb a2 b3) (xorb a3 b4) (xorb a4 b5) (xorb a5 b6) (xorb a6 b7) (xorb a7 b0).
(** fold the string into a ring of 32 bytes *)
Fixpoint toy_ring (s acc : bytes) (todo : bytes) : bytes :=
  match s with
  | [] => todo ++ rev acc
  | c :: s => match todo with
              | h :: t => toy_ring s (axor h c :: acc) t
              | [] => match rev acc with h :: t => toy_ring s [axor h c] t | [] => [] end
              end
  end.
Definition toy_seed : bytes := Eval vm_compute in b "qwertyuiopasdfghjklzxcvbnm012345".
Definition toy_hash (s : bytes) : bytes := toy_ring s [] toy_seed.
Definition toy_sign (s : bytes) : bytes := toy_hash s ++ toy_hash s.
Definition toy_verify (s sig : bytes) : bool := eqb sig (toy_sign s).
(** lag 5 is the library's default, base.hpp config_lags() *)
Definition toy : env := mkEnv toy_hash None None 5.
Definition toy_admin : env := mkEnv toy_hash (Some toy_verify) (Some toy_sign) 5.
Definition toy_reader : env := mkEnv toy_hash (Some toy_verify) None 5.
Lemma toy_ring_length s : forall acc todo, length acc + length todo = 32 -> length (toy_ring s acc todo) = 32.
Proof.
  induction s as [|c s IH]; intros acc todo h; cbn [toy_ring].
  - rewrite app_length, rev_length. lia.
  - destruct todo as [|x t]; [|apply IH; cbn [length] in *; lia].
    pose proof (rev_length acc) as hr. destruct (rev acc) as [|x t]; cbn [length] in *; [lia|]. apply IH. cbn [length]. lia.
Qed.
Lemma toy_hash32 v s l : hash32 (mkEnv toy_hash v s l).
Proof. intros x. apply toy_ring_length. reflexivity. Qed.
Lemma toy_signer_ok : signer_ok toy_admin.
Proof. intros v g x hv hg. injection hv as <-. injection hg as <-. unfold toy_verify. apply eqb_eq. reflexivity. Qed.

(** decidable version of [no_collision] *)
Definition no_collisionb (E : env) (l : list bytes) : bool :=
  forallb (fun s => forallb (fun t => negb (eqb (e_hash E s) (e_hash E t)) || eqb s t) l) l.
Lemma no_collisionb_ok E l : no_collisionb E l = true -> no_collision E l.
Proof.
  intros h s t hs ht he. unfold no_collisionb in h. rewrite forallb_forall in h. specialize (h s hs). rewrite forallb_forall in h.
  specialize (h t ht). rewrite he in h. assert (eqb (e_hash E t) (e_hash E t) = true) as e by (apply eqb_eq; reflexivity). rewrite e in h.
  cbn [negb orb] in h. apply eqb_eq. exact h.
Qed.
Definition get_ok {A} (d : A) (x : outcome A) : A := match x with Ok a => a | _ => d end.
(** start from a message, apply an edit, publish: the bytes *)
Definition edit_of (E : env) (m : msg) (d : dict) : outcome bytes :=
  c <- increment E (Plain m) ;;
  sc <- serialize E (match c with Mut m o => Mut (set_data m d) o | c => c end) true ;;
  Ok (fst sc).
Definition consistentb (E : env) (ms : list msg) : bool :=
  forallb (fun x => forallb (fun y => forallb (fun z =>
    negb (has_key (m_sh x) (m_lagged y)) || negb (has_key (m_sh y) (m_lagged z)) || has_key (m_sh x) (m_lagged z) || (m_seqno x + e_lag E <=? m_seqno z)%Z) ms) ms) ms.
Lemma has_key_listed x y : has_key (m_sh x) (m_lagged y) = true <-> listed x y.
Proof.
  unfold has_key, listed. rewrite lookup_keys. destruct (lookup (m_sh x) (m_lagged y)); split; eauto; try discriminate. intros [v h]; discriminate.
Qed.
Lemma consistentb_ok E ms : consistentb E ms = true -> consistent E ms.
Proof.
  intros h x y z hx hy hz h1 h2. unfold consistentb in h. rewrite forallb_forall in h. specialize (h x hx). rewrite forallb_forall in h.
  specialize (h y hy). rewrite forallb_forall in h. specialize (h z hz). apply has_key_listed in h1. apply has_key_listed in h2. rewrite h1, h2 in h.
  cbn [negb orb] in h. apply orb_true_iff in h as [h|h]; [left; apply has_key_listed; exact h|right; apply Z.leb_le; exact h].
Qed.
Definition parsed (E : env) (s : bytes) : msg := get_ok (empty_msg E) (parse_msg E false s).
(** decidable versions of [reconciled] and [unchallenged] *)
Definition reconciledb (E : env) (ms : list msg) (c : msg) : bool :=
  forallb (fun m2 => negb (has_key (m_sh c) (m_lagged m2)) && (m_seqno m2 <? m_seqno c + e_lag E)%Z) ms.
Lemma reconciledb_ok E ms c : In c ms -> reconciledb E ms c = true -> reconciled E ms c.
Proof.
  intros hin h. unfold reconciledb in h. rewrite forallb_forall in h. split; [exact hin|]. split; intros m2 hm; specialize (h m2 hm); apply andb_true_iff in h as [h1 h2].
  - intros hk. assert (hk2 : has_key (m_sh c) (m_lagged m2) = true); [|rewrite hk2 in h1; discriminate]. apply has_key_listed. exact hk.
  - apply Z.ltb_lt, h2.
Qed.
Definition unchallengedb (ms : list msg) (k : shash) (p : list bytes) : bool :=
  forallb (fun c => forallb (fun q => negb (ltb k (fst q)) || (negb (touches p (snd q)) && agrees p (snd q) (m_data c))) ((m_sh c, m_diff c) :: m_lagged c)) ms.
Lemma unchallengedb_ok E ms k p : unchallengedb ms k p = true -> unchallenged E ms k p.
Proof.
  intros h c k' df (hc & _) hr hlt. unfold unchallengedb in h. rewrite forallb_forall in h. specialize (h c hc). rewrite forallb_forall in h.
  assert (hin : In (k', df) ((m_sh c, m_diff c) :: m_lagged c)).
  { destruct hr as [[-> ->]|hl]; [left; reflexivity|right; apply lookup_In; exact hl]. }
  specialize (h _ hin). cbn [fst snd] in h. apply ltb_lt in hlt. rewrite hlt in h. cbn [negb orb] in h. apply andb_true_iff in h as [h1 h2].
  apply negb_true_iff in h1. split; assumption.
Qed.
