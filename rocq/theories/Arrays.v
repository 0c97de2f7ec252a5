(** sodium_array<unsigned char> (the type of signing keys): include/session/util.hpp 150-277, and the string helpers of that file and
    of fields.cpp.  Definitions only.
    Memory is a list of allocated buffers; an address is a number and is not used again, so that a use after free is visible. *)
From Verif Require Export Message Hex Community Contacts.

(** what sodium_malloc has given out and sodium_free has not taken back *)
Record pool := mkPool { pl_next : nat; pl_live : list (nat * bytes) }.
(** util.hpp 151-153: buf and len *)
Record arr := mkArr { a_buf : option nat; a_len : nat }.
Definition empty_arr : arr := mkArr None 0.                                      (* 157 *)
(** the contents of a buffer; [None]: it is not allocated *)
Fixpoint at_ {V} (p : nat) (l : list (nat * V)) : option V := match l with [] => None | (q, v) :: r => if Nat.eqb p q then Some v else at_ p r end.
Fixpoint set_at (p : nat) (v : bytes) (l : list (nat * bytes)) : list (nat * bytes) :=
  match l with [] => [] | (q, w) :: r => if Nat.eqb p q then (q, v) :: r else (q, w) :: set_at p v r end.
Definition drop_at {V} (p : nat) (l : list (nat * V)) : list (nat * V) := filter (fun x => negb (Nat.eqb p (fst x))) l.

Section Pool.
(** whether sodium_malloc can give so many bytes at this point, and what they contain *)
Variable room : nat -> nat -> bool.
Variable junk : nat -> nat -> bytes.

(** util.cpp 6-10 sodium_buffer_allocate *)
Definition pool_get (n : nat) (h : pool) : outcome nat * pool :=
  if room (pl_next h) n then (Ok (pl_next h), mkPool (Datatypes.S (pl_next h)) ((pl_next h, firstn n (junk (pl_next h) n ++ repeat NUL n)) :: pl_live h))
  else (Throw, mkPool (Datatypes.S (pl_next h)) (pl_live h)).
(** 12-15 sodium_buffer_deallocate; a buffer that is not allocated is undefined behaviour *)
Definition pool_free (m : option nat) (h : pool) : outcome pool :=
  match m with
  | None => Ok h
  | Some p => match at_ p (pl_live h) with Some _ => Ok (mkPool (pl_next h) (drop_at p (pl_live h))) | None => UB end
  end.
(** memset / memcpy of [x] to the front of a buffer *)
Definition pool_write (p : nat) (i : nat) (x : bytes) (h : pool) : outcome pool :=
  match at_ p (pl_live h) with
  | Some v => if Nat.leb (i + length x) (length v) then Ok (mkPool (pl_next h) (set_at p (firstn i v ++ x ++ skipn (i + length x) v) (pl_live h))) else UB
  | None => UB
  end.

(** a call on an array: outcome, the array, the memory *)
Definition acall := (outcome unit * arr * pool)%type.
(** util.hpp 211-221 reset() *)
Definition arr_reset (a : arr) (h : pool) : acall :=
  match pool_free (a_buf a) h with Ok h' => (Ok tt, empty_arr, h') | y => (failed y, a, h) end.
(** 225-237 reset(length), and 160-182 the constructor with a length (which starts from nothing) *)
Definition arr_make (n : nat) (h : pool) : acall :=
  if Nat.eqb n 0 then (Ok tt, empty_arr, h)
  else match pool_get n h with
  | (Ok p, h1) => match pool_write p 0 (repeat NUL n) h1 with Ok h2 => (Ok tt, mkArr (Some p) n, h2) | y => (failed y, mkArr (Some p) 0, h1) end
  | (y, h1) => (failed y, empty_arr, h1)
  end.
Definition arr_reset_n (n : nat) (a : arr) (h : pool) : acall :=
  match arr_reset a h with (Ok _, _, h1) => arr_make n h1 | r => r end.
(** 243-253 load; [data] does not point into the array (the comment at 241 excludes it) *)
Definition arr_load (data : bytes) (a : arr) (h : pool) : acall :=
  match arr_reset_n (length data) a h with
  | (Ok _, a1, h1) =>
      match data, a_buf a1 with
      | [], _ => (Ok tt, a1, h1)
      | _, Some p => match pool_write p 0 data h1 with Ok h2 => (Ok tt, a1, h2) | y => (failed y, a1, h1) end
      | _, None => (UB, a1, h1)
      end
  | r => r
  end.
(** 187-190 the move constructor: the new array, and what is left of the old one *)
Definition arr_move (other : arr) : arr * arr := (mkArr (a_buf other) (a_len other), empty_arr).
(** 191-197 move assignment.  The function is declared to return a reference and does not return: undefined behaviour, whatever
    happened before.  (g++ -O2 compiles nothing after the last assignment; execution continues with whatever code follows.) *)
Definition arr_assign (a other : arr) (h : pool) : acall :=
  match pool_free (a_buf a) h with Ok h' => (UB, mkArr (a_buf other) (a_len other), h') | y => (failed y, a, h) end.
(** 255-262 operator[]: the assert is not in a release build *)
Definition arr_get (a : arr) (i : nat) (h : pool) : outcome ascii :=
  match a_buf a with
  | Some p => match at_ p (pl_live h) with Some v => of_opt (nth_error v i) UB | None => UB end
  | None => UB
  end.
Definition arr_put (a : arr) (i : nat) (c : ascii) (h : pool) : outcome pool :=
  match a_buf a with Some p => pool_write p i [c] h | None => UB end.
(** 264-274 size, and the bytes from begin() to end() *)
Definition arr_view (a : arr) (h : pool) : outcome bytes :=
  match a_buf a with
  | Some p => match at_ p (pl_live h) with Some v => if Nat.leb (a_len a) (length v) then Ok (firstn (a_len a) v) else UB | None => UB end
  | None => if Nat.eqb (a_len a) 0 then Ok [] else UB
  end.

(** ** Programs: arrays with names.  Names are made by constructors and unmade by the destructor. *)
Inductive aop :=
  | ANew (x : nat)                          (* sodium_array x; *)
  | AMake (x n : nat)                       (* sodium_array x(n); *)
  | AMove (x y : nat)                       (* sodium_array x(std::move(y)); *)
  | AReset (x : nat)                        (* x.reset(); *)
  | AResetN (x n : nat)                     (* x.reset(n); *)
  | ALoad (x : nat) (data : bytes)          (* x.load(data, length); *)
  | APut (x i : nat) (c : ascii)            (* x[i] = c; *)
  | AAssign (x y : nat)                     (* x = std::move(y); *)
  | AEnd (x : nat).                         (* x goes out of scope: 184 *)
Record astate := mkA { as_vars : list (nat * arr); as_pool : pool }.
Definition astart : astate := mkA [] (mkPool 0 []).
(** a program that uses a name out of its scope is not a program: [None] *)
Definition bind_name (x : nat) (a : arr) (l : list (nat * arr)) : list (nat * arr) := (x, a) :: drop_at x l.
Definition on_arr (x : nat) (f : arr -> pool -> acall) (s : astate) : option (outcome unit * astate) :=
  match at_ x (as_vars s) with
  | Some a => let '(r, a', h) := f a (as_pool s) in Some (r, mkA (bind_name x a' (as_vars s)) h)
  | None => None
  end.
Definition new_arr (x : nat) (r : acall) (s : astate) : option (outcome unit * astate) :=
  match at_ x (as_vars s) with
  | Some _ => None
  | None => match r with (Ok _, a, h) => Some (Ok tt, mkA (bind_name x a (as_vars s)) h) | (y, _, h) => Some (y, mkA (as_vars s) h) end
  end.
Definition astep (o : aop) (s : astate) : option (outcome unit * astate) :=
  match o with
  | ANew x => new_arr x (Ok tt, empty_arr, as_pool s) s
  | AMake x n => new_arr x (arr_make n (as_pool s)) s
  | AMove x y =>
      match at_ x (as_vars s), at_ y (as_vars s) with
      | None, Some a => let '(n, o) := arr_move a in Some (Ok tt, mkA (bind_name x n (bind_name y o (as_vars s))) (as_pool s))
      | _, _ => None
      end
  | AReset x => on_arr x arr_reset s
  | AResetN x n => on_arr x (arr_reset_n n) s
  | ALoad x d => on_arr x (arr_load d) s
  | APut x i c => on_arr x (fun a h => match arr_put a i c h with Ok h' => (Ok tt, a, h') | y => (failed y, a, h) end) s
  | AAssign x y =>
      match at_ x (as_vars s), at_ y (as_vars s) with
      | Some a, Some c => let '(r, a', h) := arr_assign a c (as_pool s) in Some (r, mkA (bind_name x a' (bind_name y empty_arr (as_vars s))) h)
      | _, _ => None
      end
  | AEnd x =>
      match at_ x (as_vars s) with
      | Some a => match arr_reset a (as_pool s) with (Ok _, _, h) => Some (Ok tt, mkA (drop_at x (as_vars s)) h) | (y, a', h) => Some (y, s) end
      | None => None
      end
  end.
(** a run: exceptions are caught by the program, which goes on *)
Inductive arun : list aop -> astate -> Prop :=
  | arun_nil : arun [] astart
  | arun_step l s o r s' : arun l s -> astep o s = Some (r, s') -> r = Ok tt \/ r = Throw -> arun (l ++ [o]) s'.
End Pool.

(** ** String helpers *)
(** util.hpp 82-84 *)
Definition starts_with (str prefix : bytes) : bool := Nat.leb (length prefix) (length str) && eqb (skipn (length prefix) str) prefix.
(** 86-88 *)
Definition end_with (str suffix : bytes) : bool := Nat.leb (length suffix) (length str) && eqb (skipn (length str - length suffix) str) suffix.
(** fields.cpp 9-15 SessionID::hex *)
Definition session_id_hex (pubkey : bytes) : bytes := ascii_of_N 5 :: to_hex pubkey.
