(** Byte strings, their order, and small shared vocabulary.  Definitions only (plus the order laws, which the
    typeclass instances need). *)
From Coq Require Export Ascii String.
From Coq Require Export Bool Arith NArith ZArith Lia Sorted Permutation List.
From Coq Require Import ZifyBool ZifyNat ZifyN.
Export ListNotations.
#[global] Open Scope list_scope.
#[global] Open Scope Z_scope.
#[global] Open Scope nat_scope.
#[global] Arguments N.add : simpl never.
#[global] Arguments N.mul : simpl never.
#[global] Arguments Z.add : simpl never.
#[global] Arguments Z.mul : simpl never.
#[global] Arguments Z.sub : simpl never.
#[global] Arguments N.sub : simpl never.

(** `std::string`, `ustring`, `std::string_view`, ...: arbitrary sequences of 8-bit bytes. *)
Definition bytes := list ascii.

(** String literals in the model are written as Coq strings and converted. *)
Coercion list_ascii_of_string : string >-> list.
Definition b (s : string) : bytes := list_ascii_of_string s.
Arguments b s%string.

(** Orders.  A [Cmp] is a three-way comparison (C++ operator< on the type); [CmpLaws] says it is a total
    order whose equality is Leibniz equality. *)
Class Cmp (K : Type) := cmp : K -> K -> comparison.
Class CmpLaws (K : Type) `{Cmp K} := {
  cmp_eq : forall a c, cmp a c = Eq <-> a = c;
  cmp_opp : forall a c, cmp c a = CompOpp (cmp a c);
  cmp_lt_trans : forall a c d, cmp a c = Lt -> cmp c d = Lt -> cmp a d = Lt
}.

Definition ltb {K} `{Cmp K} (a c : K) : bool := match cmp a c with Lt => true | _ => false end.
Definition leb {K} `{Cmp K} (a c : K) : bool := match cmp a c with Gt => false | _ => true end.
Definition eqb {K} `{Cmp K} (a c : K) : bool := match cmp a c with Eq => true | _ => false end.
Definition lt {K} `{Cmp K} (a c : K) : Prop := cmp a c = Lt.

(** Unsigned byte comparison (std::char_traits<char>::compare is memcmp). *)
#[global] Instance cmp_ascii : Cmp ascii := fun a c => N.compare (N_of_ascii a) (N_of_ascii c).
#[global] Instance cmp_Z : Cmp Z := Z.compare.
#[global] Instance cmp_N : Cmp N := N.compare.

(** Lexicographic comparison: std::string::operator<, std::array::operator<. *)
Fixpoint lex {K} `{Cmp K} (a c : list K) : comparison :=
  match a, c with
  | [], [] => Eq
  | [], _ :: _ => Lt
  | _ :: _, [] => Gt
  | x :: a', y :: c' => match cmp x y with Eq => lex a' c' | r => r end
  end.
#[global] Instance cmp_list {K} `{Cmp K} : Cmp (list K) := lex.

(** std::pair / std::tuple comparison. *)
#[global] Instance cmp_prod {A B} `{Cmp A} `{Cmp B} : Cmp (A * B) :=
  fun p q => match cmp (fst p) (fst q) with Eq => cmp (snd p) (snd q) | r => r end.

#[global] Instance cmp_ascii_laws : CmpLaws ascii.
Proof.
  split; unfold cmp, cmp_ascii.
  - intros a c; rewrite N.compare_eq_iff; split; [|intros ->; reflexivity].
    intros E. rewrite <- (ascii_N_embedding a), <- (ascii_N_embedding c), E. reflexivity.
  - intros a c. apply N.compare_antisym.
  - intros a c d. rewrite !N.compare_lt_iff. lia.
Qed.
#[global] Instance cmp_Z_laws : CmpLaws Z.
Proof.
  split; unfold cmp, cmp_Z.
  - intros; apply Z.compare_eq_iff.
  - intros a c. apply Z.compare_antisym.
  - intros a c d. rewrite !Z.compare_lt_iff. lia.
Qed.
#[global] Instance cmp_N_laws : CmpLaws N.
Proof.
  split; unfold cmp, cmp_N.
  - intros; apply N.compare_eq_iff.
  - intros a c. apply N.compare_antisym.
  - intros a c d. rewrite !N.compare_lt_iff. lia.
Qed.

Section laws.
  Context {K} `{CmpLaws K}.
  Lemma cmp_refl (a : K) : cmp a a = Eq. Proof. apply cmp_eq; reflexivity. Qed.
  Lemma cmp_gt_lt (a c : K) : cmp a c = Gt <-> cmp c a = Lt.
  Proof. rewrite (cmp_opp a c). destruct (cmp a c); cbn; split; congruence. Qed.
  Lemma lt_irrefl (a : K) : ~ lt a a.
  Proof. unfold lt; rewrite cmp_refl; congruence. Qed.
  Lemma lt_trans (a c d : K) : lt a c -> lt c d -> lt a d.
  Proof. apply cmp_lt_trans. Qed.
  Lemma lt_asym (a c : K) : lt a c -> ~ lt c a.
  Proof. intros h1 h2. apply (lt_irrefl a). eapply lt_trans; eauto. Qed.
  Lemma ltb_lt (a c : K) : ltb a c = true <-> lt a c.
  Proof. unfold ltb, lt. destruct (cmp a c); split; congruence. Qed.
  Lemma ltb_nlt (a c : K) : ltb a c = false <-> ~ lt a c.
  Proof. unfold ltb, lt. destruct (cmp a c); split; congruence. Qed.
  Lemma eqb_eq (a c : K) : eqb a c = true <-> a = c.
  Proof. unfold eqb. rewrite <- cmp_eq. destruct (cmp a c); split; congruence. Qed.
  Lemma eqb_neq (a c : K) : eqb a c = false <-> a <> c.
  Proof. unfold eqb. rewrite <- cmp_eq. destruct (cmp a c); split; congruence. Qed.
  Lemma eqb_refl (a : K) : eqb a a = true.
  Proof. apply eqb_eq; reflexivity. Qed.
  Lemma leb_nlt (a c : K) : leb a c = true <-> ~ lt c a.
  Proof. unfold leb, lt. rewrite (cmp_opp a c). destruct (cmp a c); cbn; split; congruence. Qed.
  Lemma leb_lt (a c : K) : leb a c = false <-> lt c a.
  Proof. unfold leb, lt. rewrite (cmp_opp a c). destruct (cmp a c); cbn; split; congruence. Qed.
  Lemma lt_total (a c : K) : lt a c \/ a = c \/ lt c a.
  Proof.
    unfold lt. destruct (cmp a c) eqn:E; [right; left; apply cmp_eq; exact E | left; reflexivity |].
    right; right. apply cmp_gt_lt; exact E.
  Qed.
  Lemma eq_dec_cmp (a c : K) : {a = c} + {a <> c}.
  Proof. destruct (eqb a c) eqn:E; [left; apply eqb_eq; exact E | right; apply eqb_neq; exact E]. Qed.
End laws.

#[global] Instance cmp_list_laws {K} `{CmpLaws K} : CmpLaws (list K).
Proof.
  split; unfold cmp, cmp_list.
  - induction a as [|x a IH]; intros [|y c]; cbn [lex]; split; try congruence.
    + destruct (cmp x y) eqn:E; try congruence. intros E2. apply cmp_eq in E. apply IH in E2. congruence.
    + intros [= -> ->]. rewrite cmp_refl. apply IH; reflexivity.
  - induction a as [|x a IH]; intros [|y c]; cbn [lex]; try reflexivity.
    rewrite (cmp_opp x y). destruct (cmp x y); cbn; try reflexivity. apply IH.
  - induction a as [|x a IH]; intros [|y c] [|z d]; cbn [lex]; try congruence.
    destruct (cmp x y) eqn:E1; destruct (cmp y z) eqn:E2; try congruence; intros h1 h2.
    + apply cmp_eq in E1, E2; subst. rewrite cmp_refl. eapply IH; eauto.
    + apply cmp_eq in E1; subst. rewrite E2. reflexivity.
    + apply cmp_eq in E2; subst. rewrite E1. reflexivity.
    + rewrite (cmp_lt_trans _ _ _ E1 E2). reflexivity.
Qed.

Lemma cmp_pair {A B} `{Cmp A} `{Cmp B} (x1 x2 : A) (y1 y2 : B) :
  cmp (x1, y1) (x2, y2) = match cmp x1 x2 with Eq => cmp y1 y2 | r => r end.
Proof. reflexivity. Qed.
#[global] Instance cmp_prod_laws {A B} `{CmpLaws A} `{CmpLaws B} : CmpLaws (A * B).
Proof.
  split.
  - intros [x1 y1] [x2 y2]. rewrite cmp_pair. split.
    + destruct (cmp x1 x2) eqn:E; try congruence. intros E2. apply cmp_eq in E, E2. congruence.
    + intros [= -> ->]. rewrite !cmp_refl. reflexivity.
  - intros [x1 y1] [x2 y2]. rewrite !cmp_pair.
    rewrite (cmp_opp x1 x2). destruct (cmp x1 x2); cbn; try reflexivity. apply cmp_opp.
  - intros [x1 y1] [x2 y2] [x3 y3]. rewrite !cmp_pair.
    destruct (cmp x1 x2) eqn:E1; destruct (cmp x2 x3) eqn:E2; try congruence; intros h1 h2.
    + apply cmp_eq in E1, E2; subst. rewrite cmp_refl. eapply cmp_lt_trans; eauto.
    + apply cmp_eq in E1; subst. rewrite E2. reflexivity.
    + apply cmp_eq in E2; subst. rewrite E1. reflexivity.
    + rewrite (cmp_lt_trans _ _ _ E1 E2). reflexivity.
Qed.
