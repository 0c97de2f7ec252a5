(** Specification of C95: what becomes of one field when devices that were in step each change their config. *)
From Verif Require Export ConvergeSpec.

(** Nothing but a scalar is stored at path [p], and nothing but dicts on the way to it: the shape the typed config classes
    keep ([["c"; session id; "n"]] of Contacts, say). *)
Fixpoint shaped (p : list bytes) (d : dict) : bool :=
  match p with
  | [] => true
  | k :: rest =>
      match lookup k d with
      | None => true
      | Some (VScal _) => is_nil rest
      | Some (VDict sub) => negb (is_nil rest) && shaped rest sub
      | Some (VSet _) => false
      end
  end.
(** the same for a change set: a marker (set or removed) at [p], nested change sets on the way *)
Fixpoint shaped_df (p : list bytes) (df : btdict) : bool :=
  match p with
  | [] => true
  | k :: rest =>
      match lookup k df with
      | None => true
      | Some (BStr m) => (eqb m (b "") || eqb m (b "-")) && is_nil rest
      | Some (BDict sub) => negb (is_nil rest) && shaped_df rest sub
      | Some _ => false
      end
  end.
(** what the change set says about the field: [Some true] set, [Some false] removed, [None] nothing *)
Fixpoint mentions (p : list bytes) (df : btdict) : option bool :=
  match p with
  | [] => None
  | k :: rest =>
      match lookup k df with
      | Some (BStr m) => if is_nil rest then Some (eqb m (b "")) else None
      | Some (BDict sub) => mentions rest sub
      | _ => None
      end
  end.
(** every dict on the way to the field is still there *)
Fixpoint keeps (p : list bytes) (old new : dict) : bool :=
  match p with
  | [] => true
  | k :: rest =>
      match rest, lookup k old with
      | _ :: _, Some (VDict od) => match lookup k new with Some (VDict nd) => keeps rest od nd | _ => false end
      | _, _ => true
      end
  end.
(** what the last of the listed earlier changes that mentions the field says *)
Fixpoint last_mention (p : list bytes) (l : lagged_t) : option bool :=
  match l with
  | [] => None
  | (_, df) :: r => match last_mention p r with Some x => Some x | None => mentions p df end
  end.
(** A message whose change history fits its data, as far as the field goes: it only lists older messages, and if the last
    word of its history on the field is that it was removed, the field is not there. *)
Record orderly (p : list bytes) (m : msg) : Prop := {
  or_data : shaped p (m_data m) = true;
  or_diff : shaped_df p (m_diff m) = true;
  or_lag : forall k df, In (k, df) (m_lagged m) -> (fst k < m_seqno m)%Z /\ shaped_df p df = true;
  or_last : match mentions p (m_diff m) with Some x => Some x | None => last_mention p (m_lagged m) end = Some false ->
            get_path p (m_data m) = None
}.
(** calls that keep the shape of the field; the messages received are of this kind *)
Definition steadily (p : list bytes) (B : benv) (o : op) (st st' : bstate) : Prop :=
  plainly B o st st' /\ (is_edit o = true -> shaped p (s_data st') = true) /\
  match o with
  | OpMerge l => forall mine inc, merge_sees B l st mine inc -> forall h s m, In (h, s) inc -> parse_msg (b_env B) false s = Ok m -> orderly p m
  | _ => True
  end.

(** ** a round: devices in step, each edits its config, all push, all fetch and merge *)
Definition in_step {I : Type} (B : I -> benv) (st : I -> bstate) : Prop := forall i j, in_sync (B i) (st i) (B j) (st j).
Definition each_edits {I : Type} (p : list bytes) (B : I -> benv) (st st' : I -> bstate) : Prop :=
  forall i, exists l, steps (B i) (steadily p (B i)) (st i) l (st' i) /\ forallb is_edit l = true.
(** the value of the field on a device *)
Definition value_at (p : list bytes) (st : bstate) : option value := get_path p (s_data st).
Record round {I : Type} (p : list bytes) (B : I -> benv) (st0 st : I -> bstate) (c : I -> bytes) (st1 : I -> bstate) (l : I -> list (bytes * bytes)) (st2 : I -> bstate) : Prop := {
  ro_life : forall i, life (B i) (steadily p) (st0 i);
  ro_step : in_step B st0;
  ro_edit : each_edits p B st0 st;
  ro_group : plain_group B st;
  ro_some : exists i, (0 < s_seqno (st i))%Z;
  ro_push : all_push B st c st1;
  ro_fetch : all_fetch B st c st1 l;
  ro_merge : all_merge B l st1 st2
}.
