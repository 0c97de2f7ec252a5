(** What a sodium_array is to its user: a variable that holds bytes.  Independent of buffers. *)
From Verif Require Export Arrays.

(** the arrays in scope and what they hold *)
Definition contents := nat -> option bytes.
Definition holds_now (x : nat) (v : option bytes) (w : contents) : contents := fun y => if Nat.eqb y x then v else w y.
(** the effect of a statement; [enough]: memory could be allocated *)
Definition effect (o : aop) (enough : bool) (w : contents) : contents :=
  match o with
  | ANew x | AReset x => holds_now x (Some []) w
  | AMake x n => if enough then holds_now x (Some (repeat NUL n)) w else w
  | AResetN x n => holds_now x (Some (if enough then repeat NUL n else [])) w
  | ALoad x d => holds_now x (Some (if enough then d else [])) w
  | AMove x y => holds_now x (w y) (holds_now y (Some []) w)
  | APut x i c => match w x with Some v => holds_now x (Some (firstn i v ++ [c] ++ skipn (Datatypes.S i) v)) w | None => w end
  | AAssign x y => holds_now x (w y) (holds_now y (Some []) w)
  | AEnd x => holds_now x None w
  end.
(** the statements that allocate something *)
Definition allocates (o : aop) : bool :=
  match o with AMake _ n | AResetN _ n => negb (Nat.eqb n 0) | ALoad _ d => negb (Nat.eqb (length d) 0) | _ => false end.
(** what the arrays of the program show: the bytes from begin() to end(), the size, every element *)
Definition shows (s : astate) (w : contents) : Prop :=
  forall x, match at_ x (as_vars s), w x with
            | None, None => True
            | Some a, Some v => arr_view a (as_pool s) = Ok v /\ a_len a = length v /\ forall i, (i < length v)%nat -> exists c, nth_error v i = Some c /\ arr_get a i (as_pool s) = Ok c
            | _, _ => False
            end.
(** the arrays of the program that hold something *)
Definition nonempty (s : astate) : list nat := map fst (filter (fun x => negb (Nat.eqb (a_len (snd x)) 0)) (as_vars s)).
(** what the documentation does not allow (an index beyond the size), and move assignment *)
Definition undefined_use (o : aop) (w : contents) : Prop :=
  match o with AAssign _ _ => True | APut x i _ => match w x with Some v => (length v <= i)%nat | None => False end | _ => False end.

(** the same letter up to case, or the same character *)
Definition same_letter (c d : Ascii.ascii) : Prop :=
  c = d \/ exists n, (n < 26)%N /\ ((c = Ascii.ascii_of_N (65 + n) /\ d = Ascii.ascii_of_N (97 + n)) \/ (c = Ascii.ascii_of_N (97 + n) /\ d = Ascii.ascii_of_N (65 + n))).
