(** Merging helpers: src/bt_merge.cpp, include/session/bt_merge.hpp.  Definitions only. *)
From Verif Require Export Bt.

(** bt_merge.cpp 4-19 merge.  The arguments after [a] and [b2] are what the two iterators still have to visit and what is in
    `result`; std::map::insert with a hint keeps an existing entry ([emplace]). *)
Fixpoint merge_loop (a : btdict) {struct a} : btdict -> btdict -> btdict :=
  fix go (b2 : btdict) {struct b2} : btdict -> btdict := fun result =>
    match a, b2 with
    | [], [] => result                                                                       (* 8 *)
    | x :: a', [] => merge_loop a' [] (emplace (fst x) (snd x) result)                       (* 9: c = -1 *)
    | [], y :: b' => go b' (emplace (fst y) (snd y) result)                                  (* 9: c = 1 *)
    | x :: a', y :: b' =>
        match cmp (fst x) (fst y) with
        | Lt => merge_loop a' b2 (emplace (fst x) (snd x) result)                            (* 11 *)
        | Eq => merge_loop a' b' (emplace (fst x) (snd x) result)                            (* 12-13 *)
        | Gt => go b' (emplace (fst y) (snd y) result)                                       (* 15 *)
        end
    end.
Definition bt_merge (a b2 : btdict) : btdict := merge_loop a b2 [].

(** bt_merge.hpp 26-55 merge_sorted, with the comparison as a parameter.  (The element type does not matter: in C++ it is
    bt_value.) *)
Section merge_sorted.
  Context {T : Type} (less : T -> T -> bool).
  (** 35-41, then 51-54 *)
  Fixpoint merge_dups (a : list T) {struct a} : list T -> list T :=
    fix go (b2 : list T) {struct b2} : list T :=
      match a, b2 with
      | [], _ => b2
      | _, [] => a
      | x :: a', y :: b' => if negb (less x y) then y :: go b' else x :: merge_dups a' b2
      end.
  (** 42-50, then 51-54 *)
  Fixpoint merge_nodups (a : list T) {struct a} : list T -> list T :=
    fix go (b2 : list T) {struct b2} : list T :=
      match a, b2 with
      | [], _ => b2
      | _, [] => a
      | x :: a', y :: b' => if less y x then y :: go b' else if less x y then x :: merge_nodups a' b2 else go b'
      end.
  Definition merge_sorted (a b2 : list T) (duplicates : bool) : list T := if duplicates then merge_dups a b2 else merge_nodups a b2.
End merge_sorted.
