(** The iterators over contacts, members, groups and conversations, step by step: begin, done, comparison with end(),
    dereference and ++, as a C++ or C caller uses them; src/config/contacts.cpp, groups/members.cpp, user_groups.cpp,
    convo_info_volatile.cpp, include/session/config/community.hpp.  Definitions only.  A dict::const_iterator is the list of the
    entries from its position on, so [] is the end of the map; incrementing at the end is [UB].  The config is not edited
    during a walk (contacts.hpp 338-342 forbids it).  An iterator keeps its last value when it reaches the end; here
    dereferencing it then is [UB]. *)
From Verif Require Import Bytes Message Base Contacts Members UserGroups Convo CStruct.

Definition next (p : dict) : outcome dict := match p with _ :: r => Ok r | [] => UB end.
(** std::optional<dict::const_iterator> ==, for two positions in the same map *)
Definition same_pos (x y : option dict) : bool :=
  match x, y with None, None => true | Some a, Some c => Nat.eqb (length a) (length c) | _, _ => false end.
Definition is_some {A} (x : option A) : bool := match x with Some _ => true | None => false end.
Definition at_end (p : dict) : bool := match p with [] => true | _ => false end.

(** ** contacts and members *)
(** contacts.hpp 368-381, groups/members.hpp likewise: [None] is the tombstone made by end() and by begin() without contacts *)
Record rec_it (A : Type) := mkRI { ri_at : option dict; ri_val : option A }.
Arguments mkRI {A}. Arguments ri_at {A}. Arguments ri_val {A}.
(** contacts.cpp 335-351, members.cpp 77-95 _load_info: from the position [p] on *)
Fixpoint load_info {A} (load : dict -> A) (p : dict) (val : option (bytes * A)) : outcome (rec_it (bytes * A)) :=
  match p with
  | [] => Ok (mkRI (Some []) val)
  | (k, v) :: r =>
      if Nat.eqb (length k) 33 then
        match v with
        | VDict info => if session_id_ok (to_hex k) (b "05") then Ok (mkRI (Some p) (Some (to_hex k, load info))) else Throw
        | _ => load_info load r val
        end
      else load_info load r val
  end.
(** contacts.hpp 350, 374-379 *)
Definition ri_begin {A} (load : dict -> A) (top : bytes) (st : bstate) : outcome (rec_it (bytes * A)) :=
  match dict_at [] top (s_data st) with Some d => load_info load d None | None => Ok (mkRI None None) end.
Definition ri_end {A} : rec_it A := mkRI None None.                                                    (* 360 *)
(** contacts.cpp 353-363, members.cpp 97-107 operator== *)
Definition ri_eq {A} (x y : rec_it A) : bool :=
  match ri_at x, ri_at y with
  | None, None => true
  | Some p, None => at_end p
  | None, Some q => at_end q
  | Some p, Some q => Nat.eqb (length p) (length q)
  end.
Definition ri_done {A} (x : rec_it A) : bool := match ri_at x with None => true | Some p => at_end p end.   (* 365-367, 109-111 *)
(** 369-373, 113-117 operator++ *)
Definition ri_advance {A} (load : dict -> A) (x : rec_it (bytes * A)) : outcome (rec_it (bytes * A)) :=
  match ri_at x with Some p => q <- next p ;; load_info load q (ri_val x) | None => UB end.
Definition ri_deref {A} (x : rec_it A) : outcome A := if ri_done x then UB else match ri_val x with Some v => Ok v | None => UB end.
Definition contacts_begin (st : bstate) : outcome (rec_it (bytes * contact)) := ri_begin load_contact (b "c") st.
Definition members_begin (st : bstate) : outcome (rec_it (bytes * member)) := ri_begin load_member (b "m") st.
(** contacts.cpp 386-392, members.cpp 248-255: done() in C fills the struct when there is a record *)
Definition c_rec_done {A K} (into : A -> outcome K) (x : rec_it (bytes * A)) : outcome (option (bytes * K)) :=
  if ri_done x then Ok None else p <- ri_deref x ;; k <- into (snd p) ;; Ok (Some (fst p, k)).

(** ** community.hpp 295-400 comm_iterator_helper *)
Record comm_it := mkCI { ci_server : option dict; ci_room : option dict }.
Definition ci_new (d : dict) : comm_it := mkCI (Some d) None.                                          (* 297-298 *)
Definition ci_eq (x y : comm_it) : bool := same_pos (ci_server x) (ci_server y) && same_pos (ci_room x) (ci_room y).   (* 302-304 *)
Definition ci_done (x : comm_it) : bool := match ci_server x with None => true | Some p => at_end p end.   (* 312 *)
(** 355-381: the rooms of one server; [mk] makes the value of a room, an exception skips it; the position is where the
    loop stops, [None] when the rooms are used up *)
Fixpoint load_rooms {A} (mk : bytes -> dict -> outcome A) (rooms : dict) : option (A * dict) :=
  match rooms with
  | [] => None
  | (name, VDict d) :: r => match mk name d with Ok c => Some (c, rooms) | _ => load_rooms mk r end
  | _ :: r => load_rooms mk r
  end.
(** 315-387 load, from server position [s] and room position [room] *)
Fixpoint load_servers {A} (mk : bytes -> bytes -> bytes -> dict -> outcome A) (s : dict) (room : option dict) : option A * comm_it :=
  match s with
  | [] => (None, mkCI None room)                                            (* 317-321 *)
  | (url, v) :: r =>
      match v with
      | VDict info =>
          match maybe_str info (b "#") with                                 (* 330-338 *)
          | Some pk =>
              match (match room with Some x => Some x | None => match lookup (b "R") info with Some (VDict x) => Some x | _ => None end end) with
              | Some rooms =>                                               (* 343-353 *)
                  match load_rooms (mk url pk) rooms with
                  | Some (c, at_) => (Some c, mkCI (Some s) (Some at_))
                  | None => load_servers mk r None                          (* 384 *)
                  end
              | None => load_servers mk r None
              end
          | None => load_servers mk r None
          end
      | _ => load_servers mk r None
      end
  end.
Definition ci_load {A} (mk : bytes -> bytes -> bytes -> dict -> outcome A) (x : comm_it) : option A * comm_it :=
  match ci_server x with Some s => load_servers mk s (ci_room x) | None => (None, x) end.
(** 389-399 advance *)
Definition ci_advance (x : comm_it) : outcome comm_it :=
  match ci_room x, ci_server x with
  | Some r, s => q <- next r ;; Ok (mkCI s (Some q))
  | None, Some s => q <- next s ;; Ok (mkCI (Some q) None)
  | None, None => Ok x
  end.
(** user_groups.cpp 532-559 check_it, convo_info_volatile.cpp 396-424 val_loader::load: the value found and the iterator after *)
Fixpoint load_ids {A} (first : ascii) (load : bytes -> dict -> A) (p : dict) : option (bytes * A) * option dict :=
  match p with
  | [] => (None, None)
  | (k, v) :: r =>
      if Nat.eqb (length k) 33 && match k with c :: _ => Ascii.eqb c first | [] => false end then
        match v with VDict d => (Some (to_hex k, load (to_hex k) d), Some p) | _ => load_ids first load r end
      else load_ids first load r
  end.
Definition opt_load_ids {A} (first : ascii) (load : bytes -> dict -> A) (p : option dict) : option (bytes * A) * option dict :=
  match p with Some p => load_ids first load p | None => (None, None) end.

(** ** user groups *)
Record group_it := mkGI { gi_val : option any_group; gi_group : option dict; gi_comm : option comm_it; gi_legacy : option dict }.
Definition mk_room (url pk name : bytes) (d : dict) : outcome comm := og <- new_comm url name ;; og <- set_pubkey pk og ;; load_comm d og.
(** user_groups.cpp 567-580 _load_val *)
Definition gi_load (pub : bytes -> bytes) (x : group_it) : group_it :=
  match opt_load_ids (ascii_of_N 3) (load_group pub) (gi_group x) with
  | (Some (id, g), p) => mkGI (Some (AGroup id g)) p (gi_comm x) (gi_legacy x)
  | (None, p) =>
      match (match gi_comm x with Some c => ci_load mk_room c | None => (None, mkCI None None) end) with
      | (Some c, h) => mkGI (Some (AComm c)) p (Some h) (gi_legacy x)
      | (None, _) =>
          match opt_load_ids (ascii_of_N 5) (fun _ => load_legacy) (gi_legacy x) with
          | (Some (id, g), q) => mkGI (Some (ALegacy id g)) p None q
          | (None, q) => mkGI (gi_val x) p None q
          end
      end
  end.
(** 513-529, user_groups.hpp 592-632: begin(), begin_groups(), begin_communities(), begin_legacy_groups() *)
Definition gi_begin (pub : bytes -> bytes) (groups communities legacies : bool) (st : bstate) : group_it :=
  gi_load pub (mkGI None
    (if groups then dict_at [] (b "g") (s_data st) else None)
    (if communities then match dict_at [] (b "o") (s_data st) with Some d => Some (ci_new d) | None => None end else None)
    (if legacies then dict_at [] (b "C") (s_data st) else None)).
Definition gi_end : group_it := mkGI None None None None.                                              (* 602 *)
Definition same_comm (x y : option comm_it) : bool :=
  match x, y with None, None => true | Some a, Some c => ci_eq a c | _, _ => false end.
Definition gi_eq (x y : group_it) : bool :=                                                            (* 582-585 *)
  same_pos (gi_group x) (gi_group y) && same_comm (gi_comm x) (gi_comm y) && same_pos (gi_legacy x) (gi_legacy y).
Definition gi_done (x : group_it) : bool := negb (is_some (gi_group x)) && negb (is_some (gi_comm x)) && negb (is_some (gi_legacy x)).   (* 587-589 *)
(** 591-602 operator++ *)
Definition gi_advance (pub : bytes -> bytes) (x : group_it) : outcome group_it :=
  y <- match gi_group x, gi_comm x, gi_legacy x with
       | Some p, c, l => q <- next p ;; Ok (mkGI (gi_val x) (Some q) c l)
       | None, Some c, l => q <- ci_advance c ;; Ok (mkGI (gi_val x) None (Some q) l)
       | None, None, Some p => q <- next p ;; Ok (mkGI (gi_val x) None None (Some q))
       | None, None, None => UB
       end ;;
  Ok (gi_load pub y).
Definition gi_deref (x : group_it) : outcome any_group := if gi_done x then UB else match gi_val x with Some v => Ok v | None => UB end.
(** 893-918 user_groups_it_is_community, _group, _legacy_group into a struct that held [o] *)
Definition c_it_is_group (x : group_it) (o : c_group) : outcome (option c_group) :=
  v <- gi_deref x ;; match v with AGroup id g => k <- group_into id g o ;; Ok (Some k) | _ => Ok None end.
Definition c_it_is_comm (x : group_it) (o : c_comm) : outcome (option c_comm) :=
  v <- gi_deref x ;; match v with AComm c => k <- comm_into c o ;; Ok (Some k) | _ => Ok None end.
Definition c_it_is_legacy (x : group_it) (o : c_legacy) : outcome (option c_legacy) :=
  v <- gi_deref x ;; match v with ALegacy id g => k <- legacy_into id g o ;; Ok (Some k) | _ => Ok None end.

(** ** conversations *)
Record convo_it := mkVI { vi_val : option any_convo; vi_one : option dict; vi_group : option dict; vi_comm : option comm_it; vi_legacy : option dict }.
Definition mk_croom (url pk name : bytes) (d : dict) : outcome ccomm := og <- new_comm url name ;; og <- set_pubkey pk og ;; Ok (mkCC og (load_cbase d)).
Definition load_kind (k : ckind) (p : option dict) : option (bytes * cbase) * option dict := opt_load_ids (first_of k) (fun _ => load_cbase) p.
(** convo_info_volatile.cpp 435-451 _load_val *)
Definition vi_load (x : convo_it) : convo_it :=
  match load_kind KOne (vi_one x) with
  | (Some (id, c), p) => mkVI (Some (AConvo KOne id c)) p (vi_group x) (vi_comm x) (vi_legacy x)
  | (None, p) =>
      match load_kind KGroup (vi_group x) with
      | (Some (id, c), q) => mkVI (Some (AConvo KGroup id c)) p q (vi_comm x) (vi_legacy x)
      | (None, q) =>
          match (match vi_comm x with Some c => ci_load mk_croom c | None => (None, mkCI None None) end) with
          | (Some c, h) => mkVI (Some (ACommunity c)) p q (Some h) (vi_legacy x)
          | (None, _) =>
              match load_kind KLegacy (vi_legacy x) with
              | (Some (id, c), r) => mkVI (Some (AConvo KLegacy id c)) p q None r
              | (None, r) => mkVI (vi_val x) p q None r
              end
          end
      end
  end.
(** 373-394, convo_info_volatile.hpp 572-592: begin(), begin_1to1(), begin_communities(), begin_groups(), begin_legacy_groups() *)
Definition vi_begin (one communities groups legacies : bool) (st : bstate) : convo_it :=
  vi_load (mkVI None
    (if one then dict_at [] (top_of KOne) (s_data st) else None)
    (if groups then dict_at [] (top_of KGroup) (s_data st) else None)
    (if communities then match dict_at [] (b "o") (s_data st) with Some d => Some (ci_new d) | None => None end else None)
    (if legacies then dict_at [] (top_of KLegacy) (s_data st) else None)).
Definition vi_end : convo_it := mkVI None None None None None.
Definition vi_eq (x y : convo_it) : bool :=                                                            (* 453-456 *)
  same_pos (vi_one x) (vi_one y) && same_pos (vi_group x) (vi_group y) && same_comm (vi_comm x) (vi_comm y) && same_pos (vi_legacy x) (vi_legacy y).
Definition vi_done (x : convo_it) : bool :=                                                            (* 458-460 *)
  negb (is_some (vi_one x)) && negb (is_some (vi_group x)) && (match vi_comm x with None => true | Some c => ci_done c end) && negb (is_some (vi_legacy x)).
(** 462-475 operator++ *)
Definition vi_advance (x : convo_it) : outcome convo_it :=
  y <- match vi_one x, vi_group x, (match vi_comm x with Some c => if ci_done c then None else Some c | None => None end), vi_legacy x with
       | Some p, _, _, _ => q <- next p ;; Ok (mkVI (vi_val x) (Some q) (vi_group x) (vi_comm x) (vi_legacy x))
       | None, Some p, _, _ => q <- next p ;; Ok (mkVI (vi_val x) None (Some q) (vi_comm x) (vi_legacy x))
       | None, None, Some c, _ => q <- ci_advance c ;; Ok (mkVI (vi_val x) None None (Some q) (vi_legacy x))
       | None, None, None, Some p => q <- next p ;; Ok (mkVI (vi_val x) None None (vi_comm x) (Some q))
       | None, None, None, None => UB
       end ;;
  Ok (vi_load y).
Definition vi_deref (x : convo_it) : outcome any_convo := if vi_done x then UB else match vi_val x with Some v => Ok v | None => UB end.
(** 731-762 convo_info_volatile_it_is_1to1, _group, _legacy_group and _community *)
Definition same_kind (x y : ckind) : bool := match x, y with KOne, KOne | KGroup, KGroup | KLegacy, KLegacy => true | _, _ => false end.
Definition c_it_is_convo (kd : ckind) (x : convo_it) : outcome (option c_convo) :=
  v <- vi_deref x ;; match v with AConvo k id c => if same_kind k kd then z <- convo_into id c ;; Ok (Some z) else Ok None | _ => Ok None end.
Definition c_it_is_ccomm (x : convo_it) (o : c_ccomm) : outcome (option c_ccomm) :=
  v <- vi_deref x ;; match v with ACommunity c => k <- ccomm_into c o ;; Ok (Some k) | _ => Ok None end.
