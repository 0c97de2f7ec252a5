(** Field access by path on a data tree: include/session/config/base.hpp 216-388, 646-658, DictFieldProxy.  A proxy is
    the list [inter] of intermediate keys and the last key.  Definitions only. *)
From Verif Require Export Data.

(** get_clean_pair 238-266: the value, if all intermediate values are dicts *)
Definition field (inter : list bytes) (last : bytes) (d : dict) : option value := get_path (inter ++ [last]) d.

(** get_dirty 293-318: creates dicts on the way (replacing anything else), then hands out a reference to the value;
    [f] is what is done through that reference (None: the value is new). *)
Fixpoint upd_field (inter : list bytes) (last : bytes) (f : option value -> value) (d : dict) : dict :=
  match inter with
  | [] => insert last (f (lookup last d)) d
  | k :: r => insert k (VDict (upd_field r last f (as_dict (lookup k d)))) d
  end.
(** 366-388 and 646-658: descend only through existing dicts; [f]: what happens to the existing value (None: erased) *)
Fixpoint mod_field (inter : list bytes) (last : bytes) (f : value -> option value) (d : dict) : dict :=
  match inter with
  | [] => match lookup last d with
          | Some v => match f v with Some v' => insert last v' d | None => erase last d end
          | None => d
          end
  | k :: r => match lookup k d with Some (VDict s) => insert k (VDict (mod_field r last f s)) d | _ => d end
  end.
Definition set_field (inter : list bytes) (last : bytes) (v : value) (d : dict) : dict := upd_field inter last (fun _ => v) d.
Definition erase_field (inter : list bytes) (last : bytes) (d : dict) : dict := mod_field inter last (fun _ => None) d.
(** 355: get_dirty<set>().insert(x) *)
Definition insert_elem (inter : list bytes) (last : bytes) (x : scalar) (d : dict) : dict :=
  upd_field inter last (fun o => VSet (sadd x (as_set o))) d.
(** 380-387: erase from the set; anything that is not a set becomes an empty set *)
Definition erase_elem (inter : list bytes) (last : bytes) (x : scalar) (d : dict) : dict :=
  mod_field inter last (fun v => Some (VSet (match v with VSet l => sdel x l | _ => [] end))) d.
