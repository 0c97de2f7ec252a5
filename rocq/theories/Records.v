(** The helpers through which the config classes store their records: src/config/internal.cpp 62-136 and
    src/config/internal.hpp 182-196.  Definitions only. *)
From Verif Require Export Base BaseSpec Hex.

(** ** reading, internal.cpp 62-101 *)
Definition as_int (v : option value) : option Z := match v with Some (VScal (SInt z)) => Some z | _ => None end.
Definition as_str (v : option value) : option bytes := match v with Some (VScal (SStr s)) => Some s | _ => None end.
Definition maybe_int (d : dict) (k : bytes) : option Z := as_int (lookup k d).                                           (* 82-86 *)
Definition maybe_str (d : dict) (k : bytes) : option bytes := as_str (lookup k d).                                        (* 88-105: maybe_string, maybe_sv, maybe_ustring *)
Definition maybe_set (d : dict) (k : bytes) : option (list scalar) := match lookup k d with Some (VSet l) => Some l | _ => None end.  (* 75-80 *)
Definition or_else {A} (o : option A) (x : A) : A := match o with Some y => y | None => x end.                             (* value_or *)
(** conversion of an int64_t to `int` (two's complement, C++20; what every compiler does before) *)
Definition to_int32 (z : Z) : Z := ((z + 2 ^ 31) mod 2 ^ 32 - 2 ^ 31)%Z.
Definition int32_ok (z : Z) : Prop := (- 2 ^ 31 <= z < 2 ^ 31)%Z.
(** conversion to bool *)
Definition to_bool (z : Z) : bool := negb (z =? 0)%Z.

(** ** writing.  A script is what is done to the fields of one dict: [Some v] assigned, [None] erased. *)
Definition script := list (bytes * option value).
Definition op_at (pre : list bytes) (p : bytes * option value) : op :=
  match snd p with Some v => OpAssign pre (fst p) v | None => OpErase pre (fst p) end.
Definition vint (z : Z) : value := VScal (SInt z).
Definition vstr (s : bytes) : value := VScal (SStr s).
Definition set_flag (k : bytes) (x : bool) : script := [(k, if x then Some (vint 1) else None)].                           (* 103-108 *)
Definition set_positive_int (k : bytes) (z : Z) : script := [(k, if (0 <? z)%Z then Some (vint z) else None)].             (* 110-115 *)
Definition set_nonzero_int (k : bytes) (z : Z) : script := [(k, if negb (z =? 0)%Z then Some (vint z) else None)].         (* 117-122 *)
Definition set_nonempty_str (k : bytes) (s : bytes) : script := [(k, if is_nil s then None else Some (vstr s))].           (* 124-136 *)
Definition set_pair_if (c : bool) (k1 : bytes) (v1 : value) (k2 : bytes) (v2 : value) : script :=                          (* internal.hpp 182-196 *)
  if c then [(k1, Some v1); (k2, Some v2)] else [(k1, None); (k2, None)].
(** the calls one after the other, until one throws *)
Fixpoint run_ops (B : benv) (l : list op) (st : bstate) : call unit :=
  match l with
  | [] => (Ok tt, st)
  | o :: r => match run B o st with (Ok _, st1) => run_ops B r st1 | x => x end
  end.
Definition run_script (B : benv) (pre : list bytes) (s : script) (st : bstate) : call unit := run_ops B (map (op_at pre) s) st.

(** profile_pic.hpp: a url and a key; [pic_set] is its conversion to bool (not empty(), line 39) *)
Record pic := mkPic { pic_url : bytes; pic_key : bytes }.
Definition no_pic : pic := mkPic [] [].
Definition pic_set (p : pic) : bool := negb (is_nil (pic_url p)) && Nat.eqb (length (pic_key p)) 32.
(** the common way of reading "p" and "q": contacts.cpp 72-79, members.cpp *)
Definition load_pic (d : dict) : pic :=
  match maybe_str d (b "p"), maybe_str d (b "q") with
  | Some u, Some k => if pic_set (mkPic u k) then mkPic u k else no_pic
  | _, _ => no_pic
  end.
Definition set_pic (p : pic) : script := set_pair_if (pic_set p) (b "p") (vstr (pic_url p)) (b "q") (vstr (pic_key p)).
(** substr(0, n) *)
Definition trunc (n : nat) (s : bytes) : bytes := firstn n s.
(** a dict_value read as dict *)
Definition dict_at (inter : list bytes) (last : bytes) (d : dict) : option dict := match field inter last d with Some (VDict x) => Some x | _ => None end.

(** ** collections keyed by the 33 bytes of a session id *)
(** The iterators visit the entries in key order and skip what is not a dict under a 33-byte key.  A key with the wrong
    first byte is skipped as well ([skips]: user_groups.cpp, convo_info_volatile.cpp) or handed to a constructor whose
    check_session_id throws (contacts.cpp 346-378, members.cpp 76-110). *)
Fixpoint walk_ids {A} (skips : bool) (prefix : bytes) (load : dict -> A) (d : dict) : outcome (list (bytes * A)) :=
  match d with
  | [] => Ok []
  | (k, v) :: r =>
      match (if Nat.eqb (length k) 33 then v else VSet []) with
      | VDict info =>
          if session_id_ok (to_hex k) prefix then t <- walk_ids skips prefix load r ;; Ok ((to_hex k, load info) :: t)
          else if skips then walk_ids skips prefix load r else Throw
      | _ => walk_ids skips prefix load r
      end
  end.
