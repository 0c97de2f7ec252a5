(** The functions that look up a record and make a new one if there is none, and their C wrappers: src/config/user_groups.cpp
    300-372 and 638-717, src/config/convo_info_volatile.cpp 151-215 and 513-615, src/config/contacts.cpp 195-210,
    src/config/groups/members.cpp 28-33 and 207-218.  (For contacts, members, conversations and communities with a raw key the
    C++ functions are in Contacts.v, Members.v, Convo.v, UserGroups.v.)  Definitions only. *)
From Verif Require Export Base Contacts Members UserGroups Convo CStruct Pubkey.

(** user_groups.cpp 337-342, 356-361; the constructors check the id again, which get has done *)
Definition legacy_get_or_construct (st : bstate) (sid : bytes) : outcome legacy := o <- legacy_get st sid ;; Ok (or_else o new_legacy).
Definition group_get_or_construct (pub : bytes -> bytes) (st : bstate) (sid : bytes) : outcome group := o <- group_get pub st sid ;; Ok (or_else o new_group).
(** user_groups.cpp 363-378 create_group, with the random seed of crypto_sign_keypair as argument: the id and the record *)
Definition create_group (pub : bytes -> bytes) (seed : bytes) : bytes * group := (b "03" ++ to_hex (pub seed), mkGroup new_gbase [] (seed ++ pub seed) []).
(** community.cpp 53-55 set_pubkey of a text *)
Definition set_pubkey_text (text : bytes) (c : comm) : outcome comm := pk <- decode_pubkey text ;; Ok (mkComm (co_url c) (co_norm c) (co_room c) pk (co_base c)).
(** user_groups.cpp 310-318 with an encoded key, 320-323 with a full URL *)
Definition comm_get_or_construct_text (st : bstate) (url room text : bytes) : outcome comm :=
  og <- new_comm url room ;; og <- set_pubkey_text text og ;;
  match dict_at [b "o"; co_url og; b "R"] (co_norm og) (s_data st) with Some d => load_comm d og | None => Ok og end.
Definition comm_get_or_construct_url (st : bstate) (url : bytes) : outcome comm :=
  '(base, room, pk) <- parse_full_url url ;; comm_get_or_construct st base room pk.
(** convo_info_volatile.cpp 166-174 (the room is kept as written here) and 161-164 *)
Definition ccomm_get_or_construct_text (st : bstate) (url room text : bytes) : outcome ccomm :=
  og <- new_comm url room ;; og <- set_pubkey_text text og ;;
  Ok (mkCC og match dict_at [b "o"; co_url og; b "R"] (co_norm og) (s_data st) with Some d => load_cbase d | None => new_cbase end).
Definition ccomm_get_or_construct_url (st : bstate) (url : bytes) : outcome ccomm :=
  '(base, room, pk) <- parse_full_url url ;; ccomm_get_or_construct st base room pk.

(** ** the C functions *)
(** the C++ call always has a record when it returns *)
Definition made {A} (r : outcome A) : outcome (option A) := x <- r ;; Ok (Some x).
(** contacts.cpp 197-210, groups/members.cpp 207-218, convo_info_volatile.cpp 513-524, 577-588, 605-616, user_groups.cpp 705-717 *)
Definition c_contacts_make (st : bstate) (sid : bytes) (o : c_contact) (mem past : bytes) : outcome (option c_contact) * bytes * bool :=
  c_getter (filled (fun c => contact_into c o) (made (contacts_get_or_construct st (c_str sid)))) (sid_error (c_str sid) (b "05")) mem past.
Definition c_members_make (st : bstate) (sid : bytes) (o : c_member) (mem past : bytes) : outcome (option c_member) * bytes * bool :=
  c_getter (filled (fun m => member_into m o) (made (members_get_or_construct st (c_str sid)))) (sid_error (c_str sid) (b "05")) mem past.
Definition c_convo_make (st : bstate) (k : ckind) (sid : bytes) (mem past : bytes) : outcome (option c_convo) * bytes * bool :=
  c_getter (filled (convo_into (c_str sid)) (made (convo_get_or_construct st k (c_str sid)))) (sid_error (c_str sid) (prefix_of k)) mem past.
Definition c_legacy_make (st : bstate) (sid : bytes) (o : c_legacy) (mem past : bytes) : outcome (option c_legacy) * bytes * bool :=
  c_getter (filled (fun g => legacy_into (c_str sid) g o) (made (legacy_get_or_construct st (c_str sid)))) (sid_error (c_str sid) (b "05")) mem past.
(** user_groups.cpp 669-680, 638-655; convo_info_volatile.cpp 543-559; without the error buffer (as the getters in CStruct.v).
    [pk]: the 32 bytes at the caller's pointer *)
Definition c_group_make (pub : bytes -> bytes) (st : bstate) (sid : bytes) (o : c_group) : outcome (option c_group) :=
  match filled (fun g => group_into (c_str sid) g o) (made (group_get_or_construct pub st (c_str sid))) with Throw => Ok None | Err => Ok None | x => x end.
Definition c_comm_make (st : bstate) (url room pk : bytes) (o : c_comm) : outcome (option c_comm) :=
  match filled (fun c => comm_into c o) (made (comm_get_or_construct st (c_str url) (c_str room) pk)) with Throw => Ok None | Err => Ok None | x => x end.
Definition c_ccomm_make (st : bstate) (url room pk : bytes) (o : c_ccomm) : outcome (option c_ccomm) :=
  match filled (fun c => ccomm_into c o) (made (ccomm_get_or_construct st (c_str url) (c_str room) pk)) with Throw => Ok None | Err => Ok None | x => x end.
