(** Config data trees, pruning, diffing and diff application: src/config.cpp lines 28-157 and 359-429.
    Definitions only. *)
From Verif Require Export Maps.

(** include/session/config.hpp 23-32: `scalar`, `set`, `dict`, `dict_value`.  A set is a strictly sorted list,
    a dict a strictly sorted association list (see [wf]).  [int64] ranges are part of [wf]. *)
Inductive scalar := SInt (z : Z) | SStr (s : bytes).
Inductive value :=
| VScal (s : scalar)
| VSet (l : list scalar)
| VDict (d : list (bytes * value)).
Definition dict := list (bytes * value).

(** oxenc::bt_value: what diffs and unknown fields are made of (bt_dict = std::map, bt_list = std::list). *)
Inductive bt :=
| BInt (z : Z)
| BStr (s : bytes)
| BList (l : list bt)
| BDict (d : list (bytes * bt)).
Definition btdict := list (bytes * bt).

(** std::variant<int64_t, std::string>::operator< : integers before strings. *)
#[global] Instance cmp_scalar : Cmp scalar := fun x y =>
  match x, y with
  | SInt p, SInt q => cmp p q
  | SInt _, SStr _ => Lt
  | SStr _, SInt _ => Gt
  | SStr p, SStr q => cmp p q
  end.

Definition int64_min : Z := (- 2 ^ 63)%Z.
Definition int64_max : Z := (2 ^ 63 - 1)%Z.
Definition int64_ok (z : Z) : bool := (int64_min <=? z)%Z && (z <=? int64_max)%Z.
Definition scalar_ok (s : scalar) : bool := match s with SInt z => int64_ok z | SStr _ => true end.

(** What the C++ types guarantee by construction: map keys and set elements strictly sorted, 64-bit ints. *)
Fixpoint wf_v (v : value) : bool :=
  match v with
  | VScal s => scalar_ok s
  | VSet l => ssortedb l && forallb scalar_ok l
  | VDict d => ssortedb (map fst d) && forallb (fun p => wf_v (snd p)) d
  end.
Definition wf (d : dict) : bool := wf_v (VDict d).

Definition is_nil {A} (l : list A) : bool := match l with [] => true | _ => false end.

(** No empty set or dict anywhere inside (and the value itself is not an empty container). *)
Fixpoint full_v (v : value) : bool :=
  match v with
  | VScal _ => true
  | VSet l => negb (is_nil l)
  | VDict d => negb (is_nil d) && forallb (fun p => full_v (snd p)) d
  end.
(** A top-level data dict (itself possibly empty) without empty containers inside. *)
Definition pruned (d : dict) : bool := forallb (fun p => full_v (snd p)) d.

(** src/config.cpp 28-55, prune_: returns the pruned value and the pair
    (should be removed from its parent, some nested subkey was removed). *)
Fixpoint prune_v (v : value) : value * (bool * bool) :=
  match v with
  | VScal _ => (v, (false, false))                                         (* 46-48 *)
  | VSet l => (v, (is_nil l, false))                                       (* 49-51 *)
  | VDict d =>                                                             (* 32-45 *)
      let '(d', removed_subkeys) :=
        (fix go (d : list (bytes * value)) : list (bytes * value) * bool :=
           match d with
           | [] => ([], false)
           | (k, x) :: r =>
               let '(x', (rm_key, rm_subkeys)) := prune_v x in
               let '(r', removed) := go r in
               (if rm_key then r' else (k, x') :: r', rm_key || rm_subkeys || removed)
           end) d in
      (VDict d', (is_nil d', removed_subkeys))
  end.
(** 459-461, MutableConfigMessage::prune on the data: new data and "data was changed". *)
Definition prune (d : dict) : dict * bool :=
  match prune_v (VDict d) with
  | (VDict d', (_, changed)) => (d', changed)
  | _ => (d, false)
  end.

(** Set diff walk, 58-78: (added, removed). *)
Fixpoint set_walk (old : list scalar) {struct old} : list scalar -> list scalar * list scalar :=
  fix aux (new : list scalar) {struct new} :=
    match old, new with
    | [], [] => ([], [])
    | [], n :: new' => let '(a, r) := aux new' in (n :: a, r)
    | o :: old', [] => let '(a, r) := set_walk old' [] in (a, o :: r)
    | o :: old', n :: new' =>
        match cmp n o with
        | Lt => let '(a, r) := aux new' in (n :: a, r)
        | Gt => let '(a, r) := set_walk old' new in (a, o :: r)
        | Eq => set_walk old' new'
        end
    end.
Definition bt_of_scalar (s : scalar) : bt := match s with SInt z => BInt z | SStr x => BStr x end.
(** 58-87: std::nullopt when nothing changed. *)
Definition diff_set (old new : list scalar) : option bt :=
  let '(added, removed) := set_walk old new in
  if is_nil added && is_nil removed then None
  else Some (BList [BList (map bt_of_scalar added); BList (map bt_of_scalar removed)]).

Definition opt_cons {A} (k : bytes) (x : option A) (r : option (list (bytes * A))) : option (list (bytes * A)) :=
  match x, r with Some x, Some r => Some ((k, x) :: r) | _, _ => None end.

(** 104-109 (value removed: [added = false]) and 142-148 (value new: [added = true]).  `*diff_impl({}, d)` and
    `*diff_impl(d, {})` dereference the optional: for an empty dict/set this is undefined behaviour, here [None].
    This is the same recursion as [diff_v] with one side empty (see Data_facts.diff_only_dict). *)
Fixpoint diff_only (added : bool) (v : value) : option bt :=
  match v with
  | VScal _ => Some (BStr (if added then b "" else b "-"))
  | VSet l => if added then diff_set [] l else diff_set l []
  | VDict d =>
      match (fix go (d : list (bytes * value)) : option (list (bytes * bt)) :=
               match d with
               | [] => Some []
               | (k, x) :: r => opt_cons k (diff_only added x) (go r)
               end) d with
      | None => None
      | Some [] => None
      | Some df => Some (BDict df)
      end
  end.

(** 89-157, diff_impl for two values under the same key.  Outer [None]: undefined behaviour; inner [None]:
    std::nullopt, i.e. no difference. *)
Fixpoint diff_v (o n : value) {struct o} : option (option bt) :=
  match o, n with
  | VScal a, VScal c => Some (if eqb a c then None else Some (BStr (b "")))      (* 125-127 *)
  | VSet a, VSet c => Some (diff_set a c)                                        (* 131-133 *)
  | VDict a, VDict c =>                                                          (* 128-130 *)
      match
        (fix walk (od : list (bytes * value)) {struct od} : list (bytes * value) -> option (list (bytes * bt)) :=
           fix walk2 (nd : list (bytes * value)) {struct nd} : option (list (bytes * bt)) :=
             match od, nd with
             | [], [] => Some []
             | [], (kn, n) :: nd' => opt_cons kn (diff_only true n) (walk2 nd')
             | (ko, o) :: od', [] => opt_cons ko (diff_only false o) (walk od' [])
             | (ko, o) :: od', (kn, n) :: nd' =>
                 match cmp kn ko with
                 | Lt => opt_cons kn (diff_only true n) (walk2 nd')
                 | Gt => opt_cons ko (diff_only false o) (walk od' nd)
                 | Eq => match diff_v o n with
                         | None => None
                         | Some None => walk od' nd'
                         | Some (Some e) => opt_cons kn (Some e) (walk od' nd')
                         end
                 end
             end) a c with
      | None => None
      | Some [] => Some None
      | Some df => Some (Some (BDict df))
      end
  | _, _ =>                                                                      (* 117-122: type changed *)
      match diff_only true n with None => None | Some e => Some (Some e) end
  end.
(** MutableConfigMessage::diff 725-730: `diff_impl(orig_data_, data_).value_or({})`.  [None]: undefined behaviour. *)
Definition diff (old new : dict) : option btdict :=
  match diff_v (VDict old) (VDict new) with
  | None => None
  | Some None => Some []
  | Some (Some (BDict df)) => Some df
  | Some (Some _) => Some []  (* unreachable: a dict/dict diff is a dict *)
  end.

(** 160-181: get_bt_int / get_bt_str / get_bt_scalar.  A bt integer outside int64 makes oxenc::get_int throw
    std::overflow_error: [None] here, as for a non-scalar (both are exceptions to the callers). *)
Definition scalar_of_bt (v : bt) : option scalar :=
  match v with
  | BInt z => if int64_ok z then Some (SInt z) else None
  | BStr s => Some (SStr s)
  | _ => None
  end.
Fixpoint scalars_of_bt (l : list bt) : option (list scalar) :=
  match l with
  | [] => Some []
  | x :: r => match scalar_of_bt x, scalars_of_bt r with Some x, Some r => Some (x :: r) | _, _ => None end
  end.

Definition as_dict (v : option value) : dict := match v with Some (VDict d) => d | _ => [] end.
Definition as_set (v : option value) : list scalar := match v with Some (VSet l) => l | _ => [] end.

(** One iteration of the loop of apply_diff, 360-428: given the diff entry, the current value at the key in the
    data being updated and the value at the key in the source data, the new value at the key ([Some None] =
    erased).  Outer [None]: an exception was thrown.  The C++ loop body reads and writes `data` only at key k. *)
Fixpoint apply1 (e : bt) (tgt src : option value) {struct e} : option (option value) :=
  match e, src with
  | BStr m, Some (VScal s) =>                                               (* 387-394 *)
      if eqb m (b "-") then Some None
      else if eqb m (b "") then Some (Some (VScal s))
      else None
  | BDict df, Some (VDict sd) =>                                            (* 395-402 *)
      match
        (fix go (df : list (bytes * bt)) (data : dict) {struct df} : option dict :=
           match df with
           | [] => Some data
           | (k, e) :: r =>
               match apply1 e (lookup k data) (lookup k sd) with
               | None => None
               | Some None => go r (erase k data)
               | Some (Some v) => go r (insert k v data)
               end
           end) df (as_dict tgt) with
      | None => None
      | Some d => Some (Some (VDict d))
      end
  | BList sub, Some (VSet _) =>                                             (* 403-424 *)
      match sub with
      | BList add :: BList rem :: _ =>
          match scalars_of_bt add, scalars_of_bt rem with
          | Some add, Some rem =>
              Some (Some (VSet (fold_left (fun l x => sdel x l) rem (fold_left (fun l x => sadd x l) add (as_set tgt)))))
          | _, _ => None
          end
      | _ => None
      end
  | BInt _, Some _ => None                                                  (* 425-427 *)
  | _, _ => Some None                                                       (* 368-383: source lacks it / other type *)
  end.
Fixpoint apply_diff (df : btdict) (source data : dict) {struct df} : option dict :=
  match df with
  | [] => Some data
  | (k, e) :: r =>
      match apply1 e (lookup k data) (lookup k source) with
      | None => None
      | Some None => apply_diff r source (erase k data)
      | Some (Some v) => apply_diff r source (insert k v data)
      end
  end.

(** Reading a field by path (include/session/config/base.hpp 238-266, get_clean_pair): all but the last key must
    be dicts. *)
Fixpoint get_path (p : list bytes) (d : dict) : option value :=
  match p with
  | [] => Some (VDict d)
  | [k] => lookup k d
  | k :: r => match lookup k d with Some (VDict d') => get_path r d' | _ => None end
  end.
