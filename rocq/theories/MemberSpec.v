(** Specification of C102: the members of a group who hold no signing key, and the administrators whose messages they fetch,
    under every schedule.  Definitions only. *)
From Verif Require Export NetSpec.

(** A member of the group administered by the devices [B]: the same config class, the same key to check signatures with, no
    key to sign with. *)
Record member {I : Type} (B : I -> benv) (R : benv) : Prop := {
  me_env : benv_ok R;
  me_peer : forall i, peer (B i) R;
  me_reads : readonly R = true
}.
(** An administrator's push returned version [n] and the encrypted message [c], and its config then said [d]; [c] is on the server. *)
Definition posted {I : Type} (B : I -> benv) (N : net I) (n : Z) (c : bytes) (d : dict) : Prop :=
  sent N c /\ exists i x o x', past N i x /\ push (B i) x = (Ok (n, c, o), x') /\ d = s_data x'.
(** Everything a member went through, latest first, while the administrators did what [net_step] allows: its state, and what
    it had merged until then.  It fetches what it likes, tries to edit, pushes, confirms, dumps, and restarts from any dump it
    made, with that dump's content. *)
Inductive reads {I : Type} (B : I -> benv) (key : bytes) (R : benv) : net I -> list (bstate * list bytes) -> Prop :=
| reads_start N : net_start B key N -> reads B key R N [(fresh R [key], [])]
| reads_net N N' i es cs H : reads B key R N H -> net_step B key N N' i es cs -> reads B key R N' H
| reads_fetch N y g H l x y' : reads B key R N ((y, g) :: H) -> from_server (sent N) R y l -> merge R l y = (x, y') -> returned x ->
    reads B key R N ((y', match x with Ok _ => map snd l ++ g | _ => g end) :: (y, g) :: H)
| reads_call N y g H o x y' : reads B key R N ((y, g) :: H) -> is_edit o = true \/ o = OpPush \/ (exists n h, o = OpConfirm n h) \/ o = OpDump -> run R o y = (x, y') -> returned x ->
    reads B key R N ((y', g) :: (y, g) :: H)
| reads_restart N H z g d z1 y' : reads B key R N H -> In (z, g) H -> dump R z = (Ok d, z1) -> (N.of_nat (length d) <= uint64_max)%N -> restore R [key] d = Ok y' ->
    reads B key R N ((y', g) :: H).
