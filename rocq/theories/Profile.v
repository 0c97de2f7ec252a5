(** The user profile (src/config/user_profile.cpp) and a group's info (src/config/groups/info.cpp): scalar fields at the
    top of the data.  Definitions only. *)
From Verif Require Export Records.

(** base.hpp 449, 507, 519: data[k].string(), .integer() *)
Definition top_str (st : bstate) (k : bytes) : option bytes := as_str (field [] k (s_data st)).
Definition top_int (st : bstate) (k : bytes) : option Z := as_int (field [] k (s_data st)).
(** user_profile.cpp 30-34, info.cpp 26-30, 38-42: a string, if not empty *)
Definition top_name (st : bstate) (k : bytes) : option bytes := match top_str st k with Some [] => None | o => o end.
(** user_profile.cpp 53-60, info.cpp 50-57 *)
Definition top_pic (st : bstate) : pic :=
  mkPic (or_else (top_name st (b "p")) [])
        (match top_str st (b "q") with Some k => if Nat.eqb (length k) 32 then k else [] | None => [] end).

(** ** UserProfile *)
Definition get_name (st : bstate) : option bytes := top_name st (b "n").                                               (* 30-34 *)
Definition get_nts_priority (st : bstate) : Z := to_int32 (or_else (top_int st (b "+")) 0%Z).                           (* 99-101 *)
Definition get_nts_expiry (st : bstate) : option Z := match top_int st (b "e") with Some e => if (0 <? e)%Z then Some e else None | None => None end.   (* 114-118 *)
Definition get_blinded (st : bstate) : option bool := match top_int st (b "M") with Some m => Some (to_bool m) | None => None end.          (* 135-139 *)
Inductive profile_cmd := PName (s : bytes) | PPic (p : pic) | PPriority (z : Z) | PExpiry (z : Z) | PBlinded (o : option bool).
Definition run_profile (B : benv) (c : profile_cmd) (st : bstate) : call unit :=
  run_script B []
    match c with
    | PName s => set_nonempty_str (b "n") s                                       (* 41-43 *)
    | PPic p => set_pic p                                                          (* 73-79 *)
    | PPriority z => set_nonzero_int (b "+") z                                     (* 95-97 *)
    | PExpiry z => set_positive_int (b "e") z                                      (* 110-112 *)
    | PBlinded None => [(b "M", None)]                                             (* 128-133 *)
    | PBlinded (Some x) => [(b "M", Some (vint (if x then 1 else 0)%Z))]
    end st.

(** ** groups::Info *)
Definition get_description (st : bstate) : option bytes := top_name st (b "o").                                        (* 38-42 *)
Definition get_expiry_timer (st : bstate) : option Z := top_int st (b "E").                                             (* 67-71 *)
Definition get_created (st : bstate) : option Z := top_int st (b "c").                                                  (* 81-85 *)
Definition get_delete_before (st : bstate) : option Z := top_int st (b "d").                                            (* 91-95 *)
Definition get_delete_attach_before (st : bstate) : option Z := top_int st (b "D").                                     (* 101-105 *)
Definition is_destroyed (st : bstate) : bool := match top_int st (b "!") with Some z => (0 <? z)%Z | None => false end.  (* 111-115 *)
Inductive info_cmd := IName (s : bytes) | IDesc (s : bytes) | IPic (p : pic) | IExpiry (z : Z) | ICreated (z : Z)
| IDeleteBefore (z : Z) | IDeleteAttach (z : Z) | IDestroy.
Definition run_info (B : benv) (c : info_cmd) (st : bstate) : call unit :=
  run_script B []
    match c with
    | IName s => set_nonempty_str (b "n") (if Nat.ltb 100 (length s) then trunc 100 s else s)         (* 32-36 *)
    | IDesc s => set_nonempty_str (b "o") (if Nat.ltb 2000 (length s) then trunc 2000 s else s)       (* 44-48 *)
    | IPic p => set_pic p                                                                              (* 59-65 *)
    | IExpiry z => set_positive_int (b "E") z                                                          (* 73-75 *)
    | ICreated z => set_positive_int (b "c") z                                                         (* 77-79 *)
    | IDeleteBefore z => set_positive_int (b "d") z                                                    (* 87-89 *)
    | IDeleteAttach z => set_positive_int (b "D") z                                                    (* 97-99 *)
    | IDestroy => set_flag (b "!") true                                                                (* 107-109 *)
    end st.
