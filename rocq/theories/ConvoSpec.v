(** What the calls on conversations are meant to do, in terms of what can be read back.  Definitions only. *)
From Verif Require Export UserGroupsSpec Convo.

(** the conversations the user sees *)
Record cview := mkCView { v_conv : ckind -> bytes -> option cbase; v_ccomm : bytes -> bytes -> outcome (option ccomm) }.
Definition sees_convos (st : bstate) (v : cview) : Prop :=
  (forall k sid, session_id_ok sid (prefix_of k) = true -> convo_get st k sid = Ok (v_conv v k sid)) /\
  (forall url room, ccomm_get st url room = v_ccomm v url room).

(** not more than 30 days old *)
Definition is_recent (now ms : Z) : bool := (now - 30 * 86400 * 10 ^ 9 <? ms * 10 ^ 6)%Z.
(** more than 45 days old (to the millisecond), and not marked unread *)
Definition is_stale (now : Z) (c : cbase) : bool := negb (cv_unread c) && (cv_read c <? (now - 45 * 86400 * 10 ^ 9) / 10 ^ 6)%Z.
(** What is there after storing [c]: the mark always; the time if it is recent, or goes back.  A conversation that was not
    there, is not recent and not marked unread is not stored. *)
Definition stored_over (now : Z) (c : cbase) (old : option cbase) : option cbase :=
  let r := match old with Some o => cv_read o | None => 0%Z end in
  let new := mkCBase (if (cv_read c <? r)%Z || is_recent now (cv_read c) then cv_read c else r) (cv_unread c) in
  match old with
  | Some _ => Some new
  | None => if is_recent now (cv_read c) || cv_unread c then Some new else None
  end.

Definition ckey (pk : bytes) (c : comm) : comm := mkComm (co_url c) (co_norm c) (co_room c) (kept_key pk) (co_base c).
Definition cwith_key (pk : bytes) (o : outcome (option ccomm)) : outcome (option ccomm) :=
  match o with Ok (Some c) => Ok (Some (mkCC (ckey pk (cc_comm c)) (cc_base c))) | x => x end.
Definition ccomm_over (now : Z) (c : ccomm) (o : outcome (option ccomm)) : outcome (option ccomm) :=
  Ok match stored_over now (cc_base c) match o with Ok (Some x) => Some (cc_base x) | _ => None end with
     | Some x => Some (mkCC (mkComm (co_url (cc_comm c)) (co_norm (cc_comm c)) (co_norm (cc_comm c)) (kept_key (co_pub (cc_comm c))) new_gbase) x)
     | None => None
     end.

Inductive ccmd := CSet (now : Z) (k : ckind) (sid : bytes) (c : cbase) | CErase (k : ckind) (sid : bytes)
| CSetComm (now : Z) (c : ccomm) | CEraseComm (url room : bytes) | CPrune (now : Z).
Definition run_ccmd (B : benv) (m : ccmd) (st : bstate) : call unit :=
  match m with
  | CSet now k sid c => convo_set B now k sid c st
  | CErase k sid => ignore (convo_erase B k sid st)
  | CSetComm now c => ccomm_set B now c st
  | CEraseComm url room => ignore (ccomm_erase B url room st)
  | CPrune now => prune_stale B now st
  end.
(** times from 1970 on that fit the clock (until 2262); for pruning, a clock after February 1970 *)
Definition cbase_fits (c : cbase) : Prop := (0 <= cv_read c)%Z /\ (cv_read c * 10 ^ 6 < 2 ^ 63)%Z.
Definition ccmd_fits (m : ccmd) : Prop :=
  match m with
  | CSet _ _ _ c => cbase_fits c
  | CSetComm _ c => cbase_fits (cc_base c) /\ comm_ok (cc_comm c)
  | CPrune now => (45 * 86400 * 10 ^ 9 <= now)%Z
  | _ => True
  end.
Definition kind_eqb (j k : ckind) : bool := match j, k with KOne, KOne | KGroup, KGroup | KLegacy, KLegacy => true | _, _ => false end.
(** groups are never pruned; a community without a valid server key is not either *)
Definition drop_stale (now : Z) (o : option cbase) : option cbase := match o with Some c => if is_stale now c then None else o | None => None end.
Definition drop_stale_comm (now : Z) (o : outcome (option ccomm)) : outcome (option ccomm) :=
  match o with Ok (Some c) => if is_stale now (cc_base c) && negb (is_nil (co_pub (cc_comm c))) then Ok None else o | _ => o end.
Definition after_ccmd (m : ccmd) (v : cview) : cview :=
  match v with
  | mkCView vk vc =>
    match m with
    | CSet now k id c => mkCView (fun j sid => if kind_eqb j k && same_id sid id then stored_over now c (vk j sid) else vk j sid) vc
    | CErase k id => mkCView (fun j sid => if kind_eqb j k && same_id sid id then None else vk j sid) vc
    | CSetComm now c => mkCView vk (fun url room => if same_room url room (cc_comm c) then ccomm_over now c (vc url room)
                                                    else if same_server url (cc_comm c) then cwith_key (co_pub (cc_comm c)) (vc url room) else vc url room)
    | CEraseComm u r => mkCView vk (fun url room => match new_comm u r with Ok c => if same_room url room c then Ok None else vc url room | _ => vc url room end)
    | CPrune now => mkCView (fun j sid => match j with KGroup => vk j sid | _ => drop_stale now (vk j sid) end) (fun url room => drop_stale_comm now (vc url room))
    end
  end.
Fixpoint run_ccmds (B : benv) (l : list ccmd) (st : bstate) : call unit :=
  match l with [] => (Ok tt, st) | m :: r => match run_ccmd B m st with (Ok _, st1) => run_ccmds B r st1 | x => x end end.

(** servers and rooms are stored under their canonical names *)
Definition canonical_keys (st : bstate) : Prop :=
  forall u r v, field [b "o"; u; b "R"] r (s_data st) = Some v -> canonical_url u = Ok u /\ canonical_room r = Ok r.
