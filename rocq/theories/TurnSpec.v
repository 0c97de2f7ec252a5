(** Specification of C101: devices that take turns.  Definitions only. *)
From Verif Require Export SoloSpec.

(** nothing that the server could hand to the device would bring it a newer version *)
Definition newest {I : Type} (B : I -> benv) (N : net I) (i : I) : Prop :=
  forall l x st', from_server (sent N) (B i) (dev N i) l -> merge (B i) l (dev N i) = (x, st') -> s_seqno st' = s_seqno (dev N i).
(** Schedules in which the devices take turns: a device edits only when no other device has edits it has not pushed yet, and
    when it has the newest version (or has edits of its own to push, made when it had the newest version).  Everything else is
    free: pushes, confirmations, fetches of anything the server has, dumps, restarts.  A restart is from a dump of the present state
    or, if the device has nothing to push, of any earlier state in which it had nothing to push. *)
Inductive turn_run {I : Type} (B : I -> benv) (key : bytes) : net I -> Prop :=
| turn_start N : net_start B key N -> turn_run B key N
| turn_edit N i o x N' : turn_run B key N -> (forall j, s_state (dev N j) = Dirty -> j = i) -> s_state (dev N i) = Dirty \/ newest B N i ->
    is_edit o = true -> op_ok (B i) o (dev N i) -> run (B i) o (dev N i) = (x, dev N' i) -> returned x ->
    net_step B key N N' i (match x with Ok _ => [o] | _ => [] end) [] -> turn_run B key N'
| turn_call N i cs N' : turn_run B key N ->
    listens (B i) key (sent N) (fun y => y = dev N i \/ s_state (dev N i) <> Dirty /\ past N i y /\ s_state y <> Dirty) (dev N i) cs (dev N' i) ->
    net_step B key N N' i [] cs -> turn_run B key N'.
(** the edits, newest first, made one after the other on an empty config *)
Definition replayed (l : list op) : dict := fold_right edited [] l.
(** the same values are shown everywhere *)
Definition same_shows (d d' : dict) : Prop := forall elem p x, shows elem p x d <-> shows elem p x d'.
