(** Specification of C100: what becomes of an edit that no other device contradicts.  Definitions only. *)
From Verif Require Export NetSpec.

(** ** any schedule *)
(** what can come about from [N] *)
Inductive net_later {I : Type} (B : I -> benv) (key : bytes) (N : net I) : net I -> Prop :=
| later_same : net_later B key N N
| later_more N1 i es cs N2 : net_later B key N N1 -> net_step B key N1 N2 i es cs -> net_later B key N N2.
(** the edit leaves this field alone *)
Definition spares (p : list bytes) (o : op) : Prop := forall d, wf d = true -> get_path p (edited o d) = get_path p d.
(** all devices hold the same config, and none has anything to push *)
Definition in_step {I : Type} (B : I -> benv) (N : net I) : Prop := forall i j, s_state (dev N i) <> Dirty /\ agree (B i) (dev N i) (B j) (dev N j).

(** ** one device edits *)
(** any call but an edit, or a restart from a dump of any state [H] the device was in *)
Inductive listens (B : benv) (key : bytes) (S : bytes -> Prop) (H : bstate -> Prop) (st : bstate) : list bytes -> bstate -> Prop :=
| listens_push x st' : push B st = (x, st') -> returned x -> listens B key S H st (match x with Ok (_, c, _) => [c] | _ => [] end) st'
| listens_confirm n h x st' : confirm_pushed B n h st = (x, st') -> returned x -> listens B key S H st [] st'
| listens_merge l x st' : from_server S B st l -> merge B l st = (x, st') -> returned x -> listens B key S H st [] st'
| listens_dump x st' : dump B st = (x, st') -> returned x -> listens B key S H st [] st'
| listens_restart y d st1 st' : H y -> dump B y = (Ok d, st1) -> (N.of_nat (length d) <= uint64_max)%N -> restore B [key] d = Ok st' -> listens B key S H st [] st'.
(** Schedules in which only the device [w] edits.  It saves before it is closed: when it restarts, it is from a dump of the
    state it is in.  The other devices may do everything else, and lose anything in crashes. *)
Inductive solo_run {I : Type} (B : I -> benv) (key : bytes) (w : I) : net I -> Prop :=
| solo_start N : net_start B key N -> solo_run B key w N
| solo_edit N o x N' : solo_run B key w N -> is_edit o = true -> op_ok (B w) o (dev N w) -> run (B w) o (dev N w) = (x, dev N' w) -> returned x ->
    net_step B key N N' w (match x with Ok _ => [o] | _ => [] end) [] -> solo_run B key w N'
| solo_own N cs N' : solo_run B key w N -> listens (B w) key (sent N) (fun y => y = dev N w) (dev N w) cs (dev N' w) -> net_step B key N N' w [] cs -> solo_run B key w N'
| solo_other N i cs N' : solo_run B key w N -> i <> w -> listens (B i) key (sent N) (past N i) (dev N i) cs (dev N' i) -> net_step B key N N' i [] cs -> solo_run B key w N'.
