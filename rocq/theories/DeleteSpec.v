(** Vocabulary of C110: the hashes a config is told about. *)
From Verif Require Export BaseSpec.
(** the hashes an application gives to the object in a call: those of messages fetched, and that of a message stored *)
Definition told (o : op) : list bytes := match o with OpMerge l => map fst l | OpConfirm _ h => [h] | _ => [] end.
(** all hashes given to the object are in [K] *)
Definition told_only (K : bytes -> Prop) (B : benv) (o : op) (st st' : bstate) : Prop := tame B o st st' /\ forall h, In h (told o) -> K h.
