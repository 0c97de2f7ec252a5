(** Contacts: src/config/contacts.cpp and include/session/config/contacts.hpp.  Definitions only. *)
From Verif Require Export Records.

(** notify.hpp and expiring.hpp.  Only the named values of the enums (a C caller could pass others). *)
Inductive notify_mode := NDefault | NAll | NDisabled | NMentions.
Definition notify_no (n : notify_mode) : Z := match n with NDefault => 0 | NAll => 1 | NDisabled => 2 | NMentions => 3 end%Z.
Inductive exp_mode := ExpNone | ExpSend | ExpRead.
Definition exp_no (e : exp_mode) : Z := match e with ExpNone => 0 | ExpSend => 1 | ExpRead => 2 end%Z.

(** contacts.hpp 50-73 contact_info, without the session id, which is passed beside it *)
Record contact := mkContact {
  ct_name : bytes; ct_nick : bytes; ct_pic : pic;
  ct_approved : bool; ct_approved_me : bool; ct_blocked : bool;
  ct_priority : Z; ct_notify : notify_mode; ct_mute : Z;
  ct_mode : exp_mode; ct_timer : Z; ct_created : Z
}.
Definition new_contact : contact := mkContact [] [] no_pic false false false 0 NDefault 0 ExpNone 0 0.
Definition MAX_NAME_LENGTH : nat := 100.                            (* contacts.hpp 51 *)

(** contacts.cpp 68-117 contact_info::load; all fields of the old value are overwritten.
    85-92: `int notify` and `int exp_mode_` narrow, as does `int secs` (108). *)
Definition load_notify (z : Z) : notify_mode :=
  if (z =? 1)%Z then NAll else if (z =? 2)%Z then NDisabled else if (z =? 3)%Z then NMentions else NDefault.
Definition load_exp (z : Z) : exp_mode := if (z =? 1)%Z then ExpSend else if (z =? 2)%Z then ExpRead else ExpNone.
Definition dm_notify (n : notify_mode) : notify_mode := match n with NMentions => NAll | n => n end.
Definition load_expiry (d : dict) : exp_mode * Z :=
  match load_exp (to_int32 (or_else (maybe_int d (b "e")) 0%Z)) with
  | ExpNone => (ExpNone, 0%Z)
  | m => let secs := to_int32 (or_else (maybe_int d (b "E")) 0%Z) in if (secs <=? 0)%Z then (ExpNone, 0%Z) else (m, secs)
  end.
Definition load_contact (d : dict) : contact :=
  mkContact (or_else (maybe_str d (b "n")) []) (or_else (maybe_str d (b "N")) []) (load_pic d)
    (to_bool (or_else (maybe_int d (b "a")) 0%Z)) (to_bool (or_else (maybe_int d (b "A")) 0%Z)) (to_bool (or_else (maybe_int d (b "b")) 0%Z))
    (to_int32 (or_else (maybe_int d (b "+")) 0%Z)) (dm_notify (load_notify (to_int32 (or_else (maybe_int d (b "@")) 0%Z))))
    (or_else (maybe_int d (b "!")) 0%Z) (fst (load_expiry d)) (snd (load_expiry d)) (or_else (maybe_int d (b "j")) 0%Z).

(** 163-173 Contacts::get.  The session_id of the result is the argument. *)
Definition contacts_get (st : bstate) (sid : bytes) : outcome (option contact) :=
  pk <- session_id_to_bytes sid (b "05") ;;
  Ok match dict_at [b "c"] pk (s_data st) with Some d => Some (load_contact d) | None => None end.
(** 190-195 *)
Definition contacts_get_or_construct (st : bstate) (sid : bytes) : outcome contact :=
  o <- contacts_get st sid ;; Ok (or_else o new_contact).
(** 210-246 Contacts::set: the fields written *)
Definition contact_script (c : contact) : script :=
  [(b "n", Some (vstr (trunc MAX_NAME_LENGTH (ct_name c))))] ++
  set_nonempty_str (b "N") (trunc MAX_NAME_LENGTH (ct_nick c)) ++
  set_pic (ct_pic c) ++
  set_flag (b "a") (ct_approved c) ++ set_flag (b "A") (ct_approved_me c) ++ set_flag (b "b") (ct_blocked c) ++
  set_nonzero_int (b "+") (ct_priority c) ++
  set_positive_int (b "@") (notify_no (dm_notify (ct_notify c))) ++
  set_positive_int (b "!") (ct_mute c) ++
  set_pair_if (match ct_mode c with ExpNone => false | _ => (0 <? ct_timer c)%Z end) (b "e") (vint (exp_no (ct_mode c))) (b "E") (vint (ct_timer c)) ++
  set_positive_int (b "j") (ct_created c).
Definition contacts_set (B : benv) (sid : bytes) (c : contact) (st : bstate) : call unit :=
  match session_id_to_bytes sid (b "05") with
  | Ok pk => run_script B [b "c"; pk] (contact_script c) st
  | x => (failed x, st)
  end.
(** 252-318: the setters, each get_or_construct, change, set.  41-52: names over the limit are refused. *)
Inductive contact_change :=
| CName (s : bytes) | CNick (s : bytes) | CPic (p : pic) | CApproved (x : bool) | CApprovedMe (x : bool) | CBlocked (x : bool)
| CPriority (z : Z) | CNotify (n : notify_mode) | CExpiry (m : exp_mode) (secs : Z) | CCreated (z : Z).
Definition change_contact (h : contact_change) (c : contact) : outcome contact :=
  match c with
  | mkContact nm nk pc ap am bl pr nt mu md tm cr =>
    match h with
    | CName s => if Nat.ltb MAX_NAME_LENGTH (length s) then Throw else Ok (mkContact s nk pc ap am bl pr nt mu md tm cr)
    | CNick s => if Nat.ltb MAX_NAME_LENGTH (length s) then Throw else Ok (mkContact nm s pc ap am bl pr nt mu md tm cr)
    | CPic p => Ok (mkContact nm nk p ap am bl pr nt mu md tm cr)
    | CApproved x => Ok (mkContact nm nk pc x am bl pr nt mu md tm cr)
    | CApprovedMe x => Ok (mkContact nm nk pc ap x bl pr nt mu md tm cr)
    | CBlocked x => Ok (mkContact nm nk pc ap am x pr nt mu md tm cr)
    | CPriority z => Ok (mkContact nm nk pc ap am bl z nt mu md tm cr)
    | CNotify n => Ok (mkContact nm nk pc ap am bl pr n mu md tm cr)
    | CExpiry m secs => Ok (mkContact nm nk pc ap am bl pr nt mu m (match m with ExpNone => 0%Z | _ => secs end) cr)
    | CCreated z => Ok (mkContact nm nk pc ap am bl pr nt mu md tm z)
    end
  end.
Definition contacts_change (B : benv) (sid : bytes) (h : contact_change) (st : bstate) : call unit :=
  match contacts_get_or_construct st sid with
  | Ok c => match change_contact h c with Ok c' => contacts_set B sid c' st | x => (failed x, st) end
  | x => (failed x, st)
  end.
(** 320-326 erase *)
Definition contacts_erase (B : benv) (sid : bytes) (st : bstate) : call bool :=
  match session_id_to_bytes sid (b "05") with
  | Ok pk =>
      let ret := match field [b "c"] pk (s_data st) with Some _ => true | None => false end in
      match run B (OpErase [b "c"] pk) st with (Ok _, st') => (Ok ret, st') | (x, st') => (failed x, st') end
  | x => (failed x, st)
  end.
(** 336-340 size *)
Definition contacts_size (st : bstate) : nat := match dict_at [] (b "c") (s_data st) with Some d => length d | None => 0 end.

(** ** iteration, 346-378; the contact_info constructor (37-39) checks the id and throws out of the iterator *)
Definition contacts_list (st : bstate) : outcome (list (bytes * contact)) :=
  match dict_at [] (b "c") (s_data st) with Some d => walk_ids false (b "05") load_contact d | None => Ok [] end.

(** ** the C interface *)
(** internal.hpp 77-83 copy_c_str into a buffer of [n] bytes.  [mem]: the buffer and what lies after it.  If the source has
    n bytes or more, n + 1 bytes are copied and the terminator goes to index n + 1 (for exactly n bytes the unsigned
    subtraction wraps and one byte past the source is read: [past]). *)
Definition copied (n : nat) (src past : bytes) : bytes := if Nat.ltb (length src) n then src else firstn (n + 1) (src ++ past).
Definition copy_c_str (n : nat) (mem src past : bytes) : bytes :=
  let c := copied n src past in c ++ [Ascii.zero] ++ skipn (length c + 1) mem.
(** a C string in a buffer: the bytes before the first NUL *)
Fixpoint c_str (mem : bytes) : bytes := match mem with [] => [] | c :: r => if Ascii.eqb c Ascii.zero then [] else c :: c_str r end.

(** contacts.h 21-45 contacts_contact; char arrays of 101, 101 and 224 bytes and a key of 32 bytes *)
Record c_contact := mkCC {
  cc_name : bytes; cc_nick : bytes; cc_url : bytes; cc_key : bytes;
  cc_approved : bool; cc_approved_me : bool; cc_blocked : bool;
  cc_priority : Z; cc_notify : notify_mode; cc_mute : Z;
  cc_mode : exp_mode; cc_seconds : Z; cc_created : Z
}.
(** 119-139 contact_info::into a struct that held [o].  [UB]: a string does not fit.  mute_until is not written. *)
Definition fits (n : nat) (s : bytes) : bool := Nat.ltb (length s) n.
Definition contact_into (c : contact) (o : c_contact) : outcome c_contact :=
  if fits 101 (ct_name c) && fits 101 (ct_nick c) && (negb (pic_set (ct_pic c)) || fits 224 (pic_url (ct_pic c))) then
    let secs := to_int32 (ct_timer c) in
    Ok (mkCC (copy_c_str 101 (cc_name o) (ct_name c) []) (copy_c_str 101 (cc_nick o) (ct_nick c) [])
          (copy_c_str 224 (cc_url o) (if pic_set (ct_pic c) then pic_url (ct_pic c) else []) [])
          (if pic_set (ct_pic c) then pic_key (ct_pic c) else cc_key o)
          (ct_approved c) (ct_approved_me c) (ct_blocked c) (ct_priority c) (ct_notify c) (cc_mute o)
          (if (secs <=? 0)%Z then ExpNone else ct_mode c) secs (ct_created c))
  else UB.
(** 141-161 contact_info(const contacts_contact&) *)
Definition contact_of_c (k : c_contact) : contact :=
  let timer := match cc_mode k with ExpNone => 0%Z | _ => cc_seconds k end in
  mkContact (c_str (cc_name k)) (c_str (cc_nick k))
    (if is_nil (c_str (cc_url k)) then no_pic else mkPic (c_str (cc_url k)) (cc_key k))
    (cc_approved k) (cc_approved_me k) (cc_blocked k) (cc_priority k) (cc_notify k) 0
    (if (timer <=? 0)%Z then ExpNone else cc_mode k) timer (cc_created k).
(** 176-188 contacts_get and 248-250 contacts_set; [Ok None]: contacts_get returned false *)
Definition c_contacts_get (st : bstate) (sid : bytes) (o : c_contact) : outcome (option c_contact) :=
  match contacts_get st sid with
  | Ok (Some c) => k <- contact_into c o ;; Ok (Some k)
  | Ok None => Ok None
  | Throw => Ok None
  | x => failed x
  end.
Definition c_contacts_set (B : benv) (sid : bytes) (k : c_contact) (st : bstate) : call unit := contacts_set B sid (contact_of_c k) st.
