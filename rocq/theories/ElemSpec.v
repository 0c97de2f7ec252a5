(** Specification of C96: what becomes of the elements of a set (the members of a legacy group, say) when devices that
    were in step each change their config. *)
From Verif Require Export FieldSpec.

(** Nothing but a set is stored at path [p], and nothing but dicts on the way to it: the shape the typed config classes
    keep ([["C"; group id; "m"]] of UserGroups, say). *)
Fixpoint set_shaped (p : list bytes) (d : dict) : bool :=
  match p with
  | [] => true
  | k :: rest =>
      match lookup k d with
      | None => true
      | Some (VSet _) => is_nil rest
      | Some (VDict sub) => negb (is_nil rest) && set_shaped rest sub
      | Some (VScal _) => false
      end
  end.
(** the same for a change set: the lists of added and of removed elements at [p], nested change sets on the way *)
Fixpoint set_shaped_df (p : list bytes) (df : btdict) : bool :=
  match p with
  | [] => true
  | k :: rest =>
      match lookup k df with
      | None => true
      | Some (BList (BList _ :: BList _ :: _)) => is_nil rest
      | Some (BDict sub) => negb (is_nil rest) && set_shaped_df rest sub
      | Some _ => false
      end
  end.
(** is [x] in the set at [p]? *)
Definition has (p : list bytes) (x : scalar) (d : dict) : bool :=
  match get_path p d with Some (VSet l) => mem x l | _ => false end.
Definition listed (x : scalar) (l : list bt) : bool := match scalars_of_bt l with Some l => mem x l | None => false end.
(** what the change set says about [x]: [Some true] added, [Some false] removed, [None] nothing *)
Fixpoint says (p : list bytes) (x : scalar) (df : btdict) : option bool :=
  match p with
  | [] => None
  | k :: rest =>
      match lookup k df with
      | Some (BList (BList add :: BList rem :: _)) =>
          if is_nil rest then (if listed x rem then Some false else if listed x add then Some true else None) else None
      | Some (BDict sub) => says rest x sub
      | _ => None
      end
  end.
(** every dict that the change set names on the way to the set, and the set if it names it, is in the data *)
Fixpoint backed (p : list bytes) (df : btdict) (d : dict) : bool :=
  match p with
  | [] => true
  | k :: rest =>
      match lookup k df, lookup k d with
      | None, _ => true
      | Some (BDict sub), Some (VDict sd) => backed rest sub sd
      | Some (BList _), Some (VSet _) => true
      | Some _, _ => false
      end
  end.
(** every dict on the way to the set, and the set, that was there still is *)
Fixpoint remains (p : list bytes) (old new : dict) : bool :=
  match p with
  | [] => true
  | k :: rest =>
      match lookup k old with
      | Some (VDict od) => match lookup k new with Some (VDict nd) => remains rest od nd | _ => false end
      | Some (VSet _) => match lookup k new with Some (VSet _) => true | _ => false end
      | _ => true
      end
  end.
(** what the last of the listed earlier changes that mentions the element says *)
Fixpoint last_says (p : list bytes) (x : scalar) (l : lagged_t) : option bool :=
  match l with
  | [] => None
  | (_, df) :: r => match last_says p x r with Some v => Some v | None => says p x df end
  end.
(** A message whose change history fits its data, as far as the element goes: it only lists older messages, it has the set
    if its history touches the set, and the element is there, or not, as the last word of its history has it. *)
Record regular (p : list bytes) (x : scalar) (m : msg) : Prop := {
  rg_pruned : fst (prune (m_data m)) = m_data m;
  rg_data : set_shaped p (m_data m) = true;
  rg_diff : set_shaped_df p (m_diff m) = true /\ backed p (m_diff m) (m_data m) = true;
  rg_lag : forall k df, In (k, df) (m_lagged m) -> (fst k < m_seqno m)%Z /\ set_shaped_df p df = true /\ backed p df (m_data m) = true;
  rg_last : forall v, match says p x (m_diff m) with Some v => Some v | None => last_says p x (m_lagged m) end = Some v -> has p x (m_data m) = v
}.
(** A device holding the result of a merge that it has not pushed yet.  Such a config records nothing of what it was merged
    from (base.cpp 214-219, config.cpp 493-502): nothing removed from it before the push is recorded as removed. *)
Definition awaiting (st : bstate) : bool :=
  match s_state st, s_conf st with
  | Dirty, Mut m o => is_nil o && existsb (fun q => negb (is_nil (snd q))) (m_lagged m)
  | _, _ => false
  end.
(** the data of a device without its empty dicts and sets, as it is published *)
Definition tidied (st : bstate) : dict := fst (prune (s_data st)).
(** Calls that keep the shape of the set and never lose it: edits leave the set in place and do not remove the element from
    a merge result that is not pushed yet; the messages received are regular, and merging them does not lose the set. *)
Definition carefully (p : list bytes) (x : scalar) (B : benv) (o : op) (st st' : bstate) : Prop :=
  plainly B o st st' /\
  (is_edit o = true -> set_shaped p (s_data st') = true /\ remains p (tidied st) (tidied st') = true /\
    (awaiting st = true -> has p x (s_data st) = true -> has p x (s_data st') = true)) /\
  match o with
  | OpMerge l => forall mine inc, merge_sees B l st mine inc ->
      (forall h s m, In (h, s) inc -> parse_msg (b_env B) false s = Ok m -> regular p x m) /\
      (forall s m, In s (map snd (mine ++ inc)) -> parse_msg (b_env B) false s = Ok m -> remains p (m_data m) (s_data st') = true)
  | _ => True
  end.

(** ** a round: devices in step, each edits its config, all push, all fetch and merge *)
Definition each_changes {I : Type} (p : list bytes) (x : scalar) (B : I -> benv) (st st' : I -> bstate) : Prop :=
  forall i, exists l, steps (B i) (carefully p x (B i)) (st i) l (st' i) /\ forallb is_edit l = true.
(** is the element in the set on a device? *)
Definition holds (p : list bytes) (x : scalar) (st : bstate) : bool := has p x (s_data st).
Record set_round {I : Type} (p : list bytes) (x : scalar) (B : I -> benv) (st0 st : I -> bstate) (c : I -> bytes) (st1 : I -> bstate) (l : I -> list (bytes * bytes)) (st2 : I -> bstate) : Prop := {
  sr_life : forall i, life (B i) (carefully p x) (st0 i);
  sr_step : in_step B st0;
  sr_edit : each_changes p x B st0 st;
  sr_group : plain_group B st;
  sr_some : exists i, (0 < s_seqno (st i))%Z;
  sr_push : all_push B st c st1;
  sr_fetch : all_fetch B st c st1 l;
  sr_merge : all_merge B l st1 st2
}.
(** the same without conditions on the edits, the history or the state the devices start from, other than what every round
    in this development has *)
Definition each_plainly {I : Type} (B : I -> benv) (st st' : I -> bstate) : Prop :=
  forall i, exists l, steps (B i) (plainly (B i)) (st i) l (st' i) /\ forallb is_edit l = true.
Record free_round {I : Type} (B : I -> benv) (st0 st : I -> bstate) (c : I -> bytes) (st1 : I -> bstate) (l : I -> list (bytes * bytes)) (st2 : I -> bstate) : Prop := {
  fr_life : forall i, life (B i) plainly (st0 i);
  fr_edit : each_plainly B st0 st;
  fr_group : plain_group B st;
  fr_some : exists i, (0 < s_seqno (st i))%Z;
  fr_push : all_push B st c st1;
  fr_fetch : all_fetch B st c st1 l;
  fr_merge : all_merge B l st1 st2
}.
(** all devices hold the same data *)
Definition same_data {I : Type} (st : I -> bstate) : Prop := forall i j, s_data (st i) = s_data (st j).
