(** Making config objects: the constructors (src/config/base.cpp 344-377, 528-534 and those of the classes) and the C functions
    around them (src/config/internal.hpp 18-75), the C functions for keys (base.cpp 715-737) and config_free.  Definitions only. *)
From Verif Require Import Bytes Message Base BaseSpec GroupKeys Sig CStruct COut.

(** base.cpp 528-534 load_key; add_key's defaults are high priority and not dirtying (base.hpp 1129) *)
Definition load_key (B : benv) (sk : bytes) (st : bstate) : call unit :=
  if negb (Nat.eqb (length sk) 64 || Nat.eqb (length sk) 32) then (Throw, st) else add_key B (firstn 32 sk) true false st.
(** 349-363 ConfigBase::ConfigBase: sodium_init is taken to succeed *)
Definition base_new (B : benv) (d : option bytes) (pk sk : option bytes) : outcome (sigs * bstate) :=
  st <- match d with Some d => restore B [] d | None => Ok (fresh B []) end ;;
  s <- init_sig_keys pk sk no_sigs ;;
  Ok (s, st).
(** user_profile.cpp 15-19, contacts.cpp 53-57, user_groups.cpp 263-267, convo_info_volatile.cpp 94-98: no signing keys, then the
    account's key is loaded *)
Definition open_user (B : benv) (sk : bytes) (d : option bytes) : outcome bstate :=
  x <- base_new B d None None ;;
  match load_key B sk (snd x) with (Ok _, st) => Ok st | (y, _) => failed y end.
(** groups/info.cpp 19-24, groups/members.cpp 12-16: signing keys, no encryption keys (those come from the Keys object) *)
Definition open_group (B : benv) (pk : bytes) (sk d : option bytes) : outcome (sigs * bstate) := base_new B d (Some pk) sk.

(** ** C *)
(** What a C caller gets: the code, the object stored in *conf (if it was written), and the error buffer. *)
Record c_made (A : Type) := mkMade { cm_code : Z; cm_obj : option A; cm_error : option bytes }.
Arguments mkMade {A}.
Arguments cm_code {A}.
Arguments cm_obj {A}.
Arguments cm_error {A}.
(** internal.hpp 18-37 c_wrapper_init_generic; [what] is the exception's message.  The codes are those of error.h 9-14. *)
Definition c_make {A} (r : outcome A) (what : bytes) (err : option bytes) : outcome (c_made A) :=
  match r with
  | Ok x => Ok (mkMade 0 (Some x) err)
  | Err | Throw => match err with None => Ok (mkMade 1 None None) | Some buf => buf' <- put buf (cz (firstn 255 what)) ;; Ok (mkMade 1 None (Some buf')) end
  | y => failed y
  end.
(** 46-49, 68-71: a pointer (null or to readable memory) and a length *)
Definition c_bytes (p : option bytes) (len : nat) : outcome (option bytes) :=
  match p with None => Ok None | Some m => if Nat.eqb len 0 then Ok None else x <- view len m ;; Ok (Some x) end.
(** 39-53 c_wrapper_init *)
Definition c_open_user (B : benv) (sk : bytes) (p : option bytes) (len : nat) (what : bytes) (err : option bytes) : outcome (c_made bstate) :=
  k <- view 64 sk ;;
  d <- c_bytes p len ;;
  c_make (open_user B k d) what err.
(** 55-75 c_group_wrapper_init *)
Definition c_open_group (B : benv) (pk : bytes) (sk : option bytes) (p : option bytes) (len : nat) (what : bytes) (err : option bytes) : outcome (c_made (sigs * bstate)) :=
  k <- view 32 pk ;;
  s <- match sk with None => Ok None | Some m => x <- view 64 m ;; Ok (Some x) end ;;
  d <- c_bytes p len ;;
  c_make (open_group B k s d) what err.

(** base.cpp 715-737: the key functions.  A pointer to a key is to readable memory. *)
Inductive ckey_cmd := CAddKey (k : bytes) | CAddKeyLow (k : bytes) | CRemoveKey (k : bytes) | CClearKeys.
Definition c_key_call (B : benv) (c : ckey_cmd) (st : bstate) : call Z :=
  match c with
  | CAddKey m => match view 32 m with Ok k => match add_key B k true false st with (Ok _, st') => (Ok 0%Z, st') | (y, st') => (failed y, st') end | y => (failed y, st) end
  | CAddKeyLow m => match view 32 m with Ok k => match add_key B k false false st with (Ok _, st') => (Ok 0%Z, st') | (y, st') => (failed y, st') end | y => (failed y, st) end
  | CRemoveKey m => match view 32 m with Ok k => match remove_key B k 0 false st with (Ok r, st') => (Ok (if r then 1%Z else 0%Z), st') | (y, st') => (failed y, st') end | y => (failed y, st) end
  | CClearKeys => match clear_keys B false st with (Ok n, st') => (Ok (Z.of_nat n), st') | (y, st') => (failed y, st') end
  end.
(** 727-737 config_key_count (the count as it is; int is wide enough for any list that fits in memory twice over), config_has_key, config_key:
    base.hpp 1223-1226 key(i) reads past the end of the list if [i] is too large (the assert is not in a release build) *)
Definition c_key_count (st : bstate) : Z := Z.of_nat (length (s_keys st)).
Definition c_has_key (st : bstate) (m : bytes) : outcome bool := k <- view 32 m ;; has_key_ st k.
Definition c_key (st : bstate) (i : nat) : outcome bytes := match nth_error (s_keys st) i with Some k => Ok k | None => UB end.

(** ** What is allocated.  Addresses are numbers; an object consists of the config_object and its internals (internal.hpp 19-20). *)
Record cheap := mkHeap { h_next : nat; h_live : list nat }.
Record cobj := mkObj { o_conf : nat; o_internals : nat }.
(** internal.hpp 19-36: both are allocated first; on failure both unique_ptrs free them *)
Definition heap_init (ok : bool) (h : cheap) : option cobj * cheap :=
  let i := h_next h in
  if ok then (Some (mkObj (S i) i), mkHeap (S (S i)) (S i :: i :: h_live h)) else (None, mkHeap (S (S i)) (h_live h)).
(** base.cpp 613-615 config_free: deletes the config_object.  [None]: not allocated, undefined *)
Definition heap_free (o : cobj) (h : cheap) : option cheap :=
  if existsb (Nat.eqb (o_conf o)) (h_live h) then Some (mkHeap (h_next h) (filter (fun x => negb (Nat.eqb (o_conf o) x)) (h_live h))) else None.
