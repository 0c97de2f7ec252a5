(** What it means to walk with an iterator. *)
From Verif Require Import Bytes Message.

(** a complete walk: for (it = begin; !done(it); ++it) visit( *it ) *)
Inductive walk {I A} (done : I -> bool) (cur : I -> outcome A) (adv : I -> outcome I) : I -> list A -> Prop :=
| walk_end i : done i = true -> walk done cur adv i []
| walk_step i a j l : done i = false -> cur i = Ok a -> adv i = Ok j -> walk done cur adv j l -> walk done cur adv i (a :: l).

(** the positions met on the way *)
Inductive reached {I} (done : I -> bool) (adv : I -> outcome I) (i0 : I) : I -> Prop :=
| reached_begin : reached done adv i0 i0
| reached_next i j : reached done adv i0 i -> done i = false -> adv i = Ok j -> reached done adv i0 j.
(** the walk visits exactly [l]: it can be completed, and in one way *)
Definition visits {I A} (done : I -> bool) (cur : I -> outcome A) (adv : I -> outcome I) (i : I) (l : list A) : Prop :=
  walk done cur adv i l /\ forall l', walk done cur adv i l' -> l' = l.
