(** Group members: src/config/groups/members.cpp and include/session/config/groups/members.hpp.  Definitions only. *)
From Verif Require Export Contacts.

(** members.hpp 40-260 member, without the session id, which is passed beside it *)
Record member := mkMember {
  mb_name : bytes; mb_pic : pic; mb_admin : bool; mb_supplement : bool;
  mb_invite : Z; mb_promotion : Z; mb_removed : Z
}.
Definition new_member : member := mkMember [] no_pic false false 0 0 0.
Definition INVITE_SENT : Z := 1.          (* members.hpp 34-35 *)
Definition INVITE_FAILED : Z := 2.
Definition REMOVED_MEMBER : Z := 1.
Definition REMOVED_MEMBER_AND_MESSAGES : Z := 2.
(** members.hpp: the methods on one member *)
Definition set_invited (failed : bool) (m : member) : member :=
  mkMember (mb_name m) (mb_pic m) (mb_admin m) (mb_supplement m) (if failed then INVITE_FAILED else INVITE_SENT) (mb_promotion m) (mb_removed m).
Definition set_accepted (m : member) : member := mkMember (mb_name m) (mb_pic m) (mb_admin m) false 0 (mb_promotion m) (mb_removed m).
Definition invite_pending (m : member) : bool := (0 <? mb_invite m)%Z.
Definition invite_failed (m : member) : bool := (mb_invite m =? INVITE_FAILED)%Z.
Definition set_promoted (failed : bool) (m : member) : member :=
  mkMember (mb_name m) (mb_pic m) (mb_admin m) (mb_supplement m) (mb_invite m) (if failed then INVITE_FAILED else INVITE_SENT) (mb_removed m).
Definition promotion_pending (m : member) : bool := negb (mb_admin m) && (0 <? mb_promotion m)%Z.
Definition promotion_failed (m : member) : bool := negb (mb_admin m) && (mb_promotion m =? INVITE_FAILED)%Z.
Definition promoted (m : member) : bool := mb_admin m || promotion_pending m.
Definition set_removed (messages : bool) (m : member) : member :=
  mkMember (mb_name m) (mb_pic m) (mb_admin m) (mb_supplement m) (mb_invite m) (mb_promotion m) (if messages then REMOVED_MEMBER_AND_MESSAGES else REMOVED_MEMBER).
Definition is_removed (m : member) : bool := (0 <? mb_removed m)%Z.
Definition should_remove_messages (m : member) : bool := (mb_removed m =? REMOVED_MEMBER_AND_MESSAGES)%Z.

(** members.cpp 57-74 member::load (into a new member) *)
Definition load_member (d : dict) : member :=
  let admin := to_bool (or_else (maybe_int d (b "A")) 0%Z) in
  let inv := if admin then 0%Z else to_int32 (or_else (maybe_int d (b "I")) 0%Z) in
  let prom := if admin then 0%Z else to_int32 (or_else (maybe_int d (b "P")) 0%Z) in
  let rem := to_int32 (or_else (maybe_int d (b "R")) 0%Z) in
  let m := mkMember (or_else (maybe_str d (b "n")) []) (load_pic d) admin false inv prom rem in
  let sup := if invite_pending m && negb (promoted m) then to_bool (or_else (maybe_int d (b "s")) 0%Z) else false in
  mkMember (mb_name m) (mb_pic m) admin sup inv prom rem.
(** 16-26 get; 28-33 get_or_construct *)
Definition members_get (st : bstate) (sid : bytes) : outcome (option member) :=
  pk <- session_id_to_bytes sid (b "05") ;;
  Ok match dict_at [b "m"] pk (s_data st) with Some d => Some (load_member d) | None => None end.
Definition members_get_or_construct (st : bstate) (sid : bytes) : outcome member := o <- members_get st sid ;; Ok (or_else o new_member).
(** 35-55 set *)
Definition member_script (m : member) : script :=
  [(b "n", Some (vstr (trunc MAX_NAME_LENGTH (mb_name m))))] ++
  set_pic (mb_pic m) ++
  set_flag (b "A") (mb_admin m) ++
  set_positive_int (b "P") (if mb_admin m then 0%Z else mb_promotion m) ++
  set_positive_int (b "I") (if mb_admin m then 0%Z else mb_invite m) ++
  set_flag (b "s") (mb_supplement m) ++
  set_positive_int (b "R") (mb_removed m).
Definition members_set (B : benv) (sid : bytes) (m : member) (st : bstate) : call unit :=
  match session_id_to_bytes sid (b "05") with
  | Ok pk => run_script B [b "m"; pk] (member_script m) st
  | x => (failed x, st)
  end.
(** 115-121 erase, 123-127 size, 76-110 the iterator *)
Definition members_erase (B : benv) (sid : bytes) (st : bstate) : call bool :=
  match session_id_to_bytes sid (b "05") with
  | Ok pk =>
      let ret := match field [b "m"] pk (s_data st) with Some _ => true | None => false end in
      match run B (OpErase [b "m"] pk) st with (Ok _, st') => (Ok ret, st') | (x, st') => (failed x, st') end
  | x => (failed x, st)
  end.
Definition members_size (st : bstate) : nat := match dict_at [] (b "m") (s_data st) with Some d => length d | None => 0 end.
Definition members_list (st : bstate) : outcome (list (bytes * member)) :=
  match dict_at [] (b "m") (s_data st) with Some d => walk_ids false (b "05") load_member d | None => Ok [] end.

(** ** the C interface: members.h 15-30, members.cpp 133-170 *)
Record c_member := mkCM {
  cm_name : bytes; cm_url : bytes; cm_key : bytes; cm_admin : bool; cm_invited : Z; cm_promoted : Z; cm_removed : Z; cm_supplement : bool
}.
Definition member_into (m : member) (o : c_member) : outcome c_member :=
  if fits 101 (mb_name m) && (negb (pic_set (mb_pic m)) || fits 224 (pic_url (mb_pic m))) then
    Ok (mkCM (copy_c_str 101 (cm_name o) (mb_name m) [])
          (copy_c_str 224 (cm_url o) (if pic_set (mb_pic m) then pic_url (mb_pic m) else []) [])
          (if pic_set (mb_pic m) then pic_key (mb_pic m) else cm_key o)
          (mb_admin m) (mb_invite m) (mb_promotion m) (mb_removed m) (mb_supplement m))
  else UB.
Definition one_or_two (z : Z) : Z := if (z =? 1)%Z || (z =? 2)%Z then z else 0%Z.
Definition member_of_c (k : c_member) : member :=
  mkMember (c_str (cm_name k)) (if is_nil (c_str (cm_url k)) then no_pic else mkPic (c_str (cm_url k)) (cm_key k))
    (cm_admin k) (cm_supplement k) (one_or_two (cm_invited k)) (one_or_two (cm_promoted k)) (one_or_two (cm_removed k)).
