(** The C interface of the config types: error buffers, structs and the member list of a legacy group.  Definitions only.
    src/config/internal.hpp 18-83, src/config/groups/keys.cpp 1384-1390, src/config/user_groups.cpp 30-125, 605-850,
    src/config/convo_info_volatile.cpp 24-90, 478-660, and the structs of include/session/config/user_groups.h 17-92 and
    convo_info_volatile.h 10-42.  A struct is a record; a char array is the bytes it holds. *)
From Verif Require Import Bytes Message Base Contacts Members UserGroups Convo.

(** ** error messages *)
(** base.h 23, keys.h: char _error_buf[256] *)
Definition ERROR_BUF : nat := 256.
(** internal.cpp 14-20: what check_session_id throws *)
Definition sid_error (sid prefix : bytes) : bytes :=
  b "Invalid session ID: expected 66 hex digits starting with " ++ prefix ++ b "; got " ++ sid.
(** internal.hpp 24-28 and groups/keys.cpp 1384-1390: cut at 255 bytes.  [mem]: the buffer and what lies after it *)
Definition put_error (mem msg : bytes) : bytes :=
  let e := firstn 255 msg in e ++ [Ascii.zero] ++ skipn (length e + 1) mem.
(** The pattern of contacts.cpp 176-188, 195-208, convo_info_volatile.cpp 498-615, user_groups.cpp 623-717 and
    groups/members.cpp 192-218: [r] is the C++ call with the struct filled in, [what] the message of the exception.  Result: what
    the function returns ([Ok None]: false or nullptr), the error buffer with what lies after it, and whether last_error is set. *)
Definition c_getter {A} (r : outcome (option A)) (what mem past : bytes) : outcome (option A) * bytes * bool :=
  match r with
  | Ok x => (Ok x, mem, false)
  | UB => (UB, mem, false)
  | Hang => (Hang, mem, false)
  | _ => (Ok None, copy_c_str ERROR_BUF mem (c_str what) past, true)
  end.

(** ** members of a legacy group *)
(** user_groups.cpp 770-800 ugroups_legacy_members_iterator: the entries before [it], those from it on, need_advance *)
Record lm_iter := mkIter { li_before : list (bytes * bool); li_rest : list (bytes * bool); li_advance : bool }.
Definition lm_map (i : lm_iter) : list (bytes * bool) := li_before i ++ li_rest i.
Definition lm_begin (m : list (bytes * bool)) : lm_iter := mkIter [] m false.                       (* 777-781 *)
(** 783-797; ++ on end() is undefined *)
Definition lm_move (i : lm_iter) : outcome lm_iter :=
  if li_advance i then match li_rest i with [] => UB | p :: r => Ok (mkIter (li_before i ++ [p]) r true) end
  else Ok (mkIter (li_before i) (li_rest i) true).
Definition lm_next (i : lm_iter) : outcome (option (bytes * bool) * lm_iter) :=
  i <- lm_move i ;; Ok (match li_rest i with [] => None | p :: _ => Some p end, i).
(** 799-803; erase(end()) is undefined *)
Definition lm_erase (i : lm_iter) : outcome lm_iter := match li_rest i with [] => UB | _ :: r => Ok (mkIter (li_before i) r false) end.
(** 810-826 add, 828-831 remove, 833-850 count (all, members, admins) *)
Definition lm_add (sid : bytes) (admin : bool) (m : list (bytes * bool)) : bool * list (bytes * bool) :=
  if session_id_ok sid (b "05") then
    match lookup sid m with
    | None => (true, emplace sid admin m)
    | Some x => if Bool.eqb x admin then (false, m) else (true, insert sid admin m)
    end
  else (false, m).
Definition lm_remove (sid : bytes) (m : list (bytes * bool)) : bool * list (bytes * bool) :=
  (match lookup sid m with Some _ => true | None => false end, erase sid m).
Definition lm_count (m : list (bytes * bool)) : nat * nat * nat :=
  let '(n, a) := fold_left (fun na (p : bytes * bool) => if snd p then (fst na, S (snd na)) else (S (fst na), snd na)) m (0, 0) in (length m, n, a).

(** the loop of the documentation, user_groups.h 538-549: while (next(it, &sid, &admin)) if (f(sid, admin)) erase(it);
    with at most [fuel] rounds.  Result: the members seen and the members left. *)
Fixpoint lm_loop (f : bytes -> bool -> bool) (fuel : nat) (i : lm_iter) : outcome (list (bytes * bool) * list (bytes * bool)) :=
  match fuel with
  | O => Hang
  | S n =>
      '(x, i) <- lm_next i ;;
      match x with
      | None => Ok ([], lm_map i)
      | Some p =>
          i <- (if f (fst p) (snd p) then lm_erase i else Ok i) ;;
          '(seen, kept) <- lm_loop f n i ;; Ok (p :: seen, kept)
      end
  end.

(** ** structs of user_groups.h *)
(** the common fields have the types of base_group_info: base_into and base_from (37-53) copy them *)
Record c_legacy := mkCL { cl_id : bytes; cl_name : bytes; cl_have_keys : bool; cl_pub : bytes; cl_sec : bytes; cl_timer : Z; cl_base : gbase;
  cl_internal : option (list (bytes * bool)) }.
(** 105-125 into a struct that held [o]; [UB]: a string does not fit *)
Definition legacy_into (sid : bytes) (g : legacy) (o : c_legacy) : outcome c_legacy :=
  if fits 67 sid && fits 101 (lg_name g) then
    let k := two_keys (lg_pub g) (lg_sec g) in
    Ok (mkCL (copy_c_str 67 (cl_id o) sid []) (copy_c_str 101 (cl_name o) (lg_name g) []) k (if k then lg_pub g else cl_pub o) (if k then lg_sec g else cl_sec o)
          (lg_timer g) (lg_base g) (Some (lg_members g)))
  else UB.
(** 78-98 legacy_group_info(const ugroups_legacy_group_info&) *)
Definition legacy_of_c (k : c_legacy) : bytes * legacy :=
  (firstn 66 (cl_id k), mkLegacy (cl_base k) (c_str (cl_name k)) (if cl_have_keys k then cl_pub k else []) (if cl_have_keys k then cl_sec k else []) (cl_timer k)
     (or_else (cl_internal k) [])).
Record c_group := mkCG { cg_id : bytes; cg_name : bytes; cg_have_secret : bool; cg_secret : bytes; cg_have_auth : bool; cg_auth : bytes; cg_base : gbase }.
(** 227-236 *)
Definition group_into (sid : bytes) (g : group) (o : c_group) : outcome c_group :=
  if fits 67 sid && fits 101 (gr_name g) then
    let s := Nat.eqb (length (gr_secret g)) 64 in let a := Nat.eqb (length (gr_auth g)) 100 in
    Ok (mkCG (copy_c_str 67 (cg_id o) sid []) (copy_c_str 101 (cg_name o) (gr_name g) []) s (if s then gr_secret g else cg_secret o) a (if a then gr_auth g else cg_auth o) (gr_base g))
  else UB.
(** 213-225 *)
Definition group_of_c (k : c_group) : bytes * group :=
  (firstn 66 (cg_id k), mkGroup (cg_base k) (c_str (cg_name k)) (if cg_have_secret k then cg_secret k else []) (if cg_have_auth k then cg_auth k else [])).
(** 752-759 ugroups_group_set_kicked, ugroups_group_is_kicked *)
Definition c_set_kicked (k : c_group) : c_group := mkCG (cg_id k) (cg_name k) false (cg_secret k) false (cg_auth k) (cg_base k).
Definition c_is_kicked (k : c_group) : bool := negb (cg_have_auth k || cg_have_secret k).

Record c_comm := mkCU { cu_url : bytes; cu_room : bytes; cu_pub : bytes; cu_base : gbase }.
(** 67-74: 32 bytes are read from the key, which may be shorter *)
Definition comm_into (c : comm) (o : c_comm) : outcome c_comm :=
  if fits 268 (co_url c) && fits 65 (co_room c) && Nat.leb 32 (length (co_pub c)) then
    Ok (mkCU (copy_c_str 268 (cu_url o) (co_url c) []) (copy_c_str 65 (cu_room o) (co_room c) []) (firstn 32 (co_pub c)) (co_base c))
  else UB.
(** 62-65 community_info(const ugroups_community_info&) *)
Definition comm_of_c (k : c_comm) : outcome comm :=
  og <- new_comm (c_str (cu_url k)) (c_str (cu_room k)) ;; og <- set_pubkey (cu_pub k) og ;;
  Ok (mkComm (co_url og) (co_norm og) (co_room og) (co_pub og) (cu_base k)).

(** ** structs of convo_info_volatile.h *)
Record c_convo := mkCV { cx_id : bytes; cx_base : cbase }.
(** convo_info_volatile.cpp 34-43, 60-82: 67 bytes of the id and its terminator are copied *)
Definition convo_into (sid : bytes) (c : cbase) : outcome c_convo :=
  if Nat.leb 66 (length sid) then Ok (mkCV (firstn 67 (sid ++ [Ascii.zero])) c) else UB.
Definition convo_of_c (k : c_convo) : bytes * cbase := (firstn 66 (cx_id k), cx_base k).
Record c_ccomm := mkCX { cy_url : bytes; cy_room : bytes; cy_pub : bytes; cy_base : cbase }.
(** 45-58 *)
Definition ccomm_into (c : ccomm) (o : c_ccomm) : outcome c_ccomm :=
  let og := cc_comm c in
  if fits 268 (co_url og) && fits 65 (co_norm og) && Nat.leb 32 (length (co_pub og)) then
    Ok (mkCX (copy_c_str 268 (cy_url o) (co_url og) []) (copy_c_str 65 (cy_room o) (co_norm og) []) (firstn 32 (co_pub og)) (cc_base c))
  else UB.
Definition ccomm_of_c (k : c_ccomm) : outcome ccomm :=
  og <- new_comm (c_str (cy_url k)) (c_str (cy_room k)) ;; og <- set_pubkey (cy_pub k) og ;; Ok (mkCC og (cy_base k)).

(** ** the C functions *)
Definition filled {A B} (into : A -> outcome B) (r : outcome (option A)) : outcome (option B) :=
  match r with Ok (Some x) => k <- into x ;; Ok (Some k) | Ok None => Ok None | x => failed x end.
(** contacts.cpp 176-188, groups/members.cpp 192-205, convo_info_volatile.cpp 498-511 and 561-615, user_groups.cpp 687-703 *)
Definition c_contacts_get_buf (st : bstate) (sid : bytes) (o : c_contact) (mem past : bytes) : outcome (option c_contact) * bytes * bool :=
  c_getter (filled (fun c => contact_into c o) (contacts_get st (c_str sid))) (sid_error (c_str sid) (b "05")) mem past.
Definition c_members_get (st : bstate) (sid : bytes) (o : c_member) (mem past : bytes) : outcome (option c_member) * bytes * bool :=
  c_getter (filled (fun m => member_into m o) (members_get st (c_str sid))) (sid_error (c_str sid) (b "05")) mem past.
Definition c_convo_get (st : bstate) (k : ckind) (sid : bytes) (mem past : bytes) : outcome (option c_convo) * bytes * bool :=
  c_getter (filled (convo_into (c_str sid)) (convo_get st k (c_str sid))) (sid_error (c_str sid) (prefix_of k)) mem past.
Definition c_legacy_get (st : bstate) (sid : bytes) (o : c_legacy) (mem past : bytes) : outcome (option c_legacy) * bytes * bool :=
  c_getter (filled (fun g => legacy_into (c_str sid) g o) (legacy_get st (c_str sid))) (sid_error (c_str sid) (b "05")) mem past.
(** user_groups.cpp 656-668: std::string error message *)
Definition c_group_get (pub : bytes -> bytes) (st : bstate) (sid : bytes) (o : c_group) : outcome (option c_group) :=
  match filled (fun g => group_into (c_str sid) g o) (group_get pub st (c_str sid)) with Throw => Ok None | Err => Ok None | x => x end.
(** user_groups.cpp 623-637, without the error buffer: the messages of canonical_url and canonical_room are short *)
Definition c_comm_get (st : bstate) (url room : bytes) (o : c_comm) : outcome (option c_comm) :=
  match filled (fun c => comm_into c o) (comm_get st (c_str url) (c_str room)) with Throw => Ok None | Err => Ok None | x => x end.
Definition c_ccomm_get (st : bstate) (url room : bytes) (o : c_ccomm) : outcome (option c_ccomm) :=      (* convo_info_volatile.cpp 526-542 *)
  match filled (fun c => ccomm_into c o) (ccomm_get st (c_str url) (c_str room)) with Throw => Ok None | Err => Ok None | x => x end.
(** user_groups.cpp 719-736 and convo_info_volatile.cpp 617-640: set; an exception leaves the function *)
Definition c_legacy_set (B : benv) (k : c_legacy) (st : bstate) : call unit := legacy_set B (fst (legacy_of_c k)) (snd (legacy_of_c k)) st.
Definition c_group_set (B : benv) (k : c_group) (st : bstate) : call unit := group_set B (fst (group_of_c k)) (snd (group_of_c k)) st.
Definition c_comm_set (B : benv) (k : c_comm) (st : bstate) : call unit := match comm_of_c k with Ok c => comm_set B c st | x => (failed x, st) end.
Definition c_convo_set (B : benv) (now : Z) (kd : ckind) (k : c_convo) (st : bstate) : call unit := convo_set B now kd (fst (convo_of_c k)) (snd (convo_of_c k)) st.
Definition c_ccomm_set (B : benv) (now : Z) (k : c_ccomm) (st : bstate) : call unit :=
  match ccomm_of_c k with Ok c => ccomm_set B now c st | x => (failed x, st) end.
