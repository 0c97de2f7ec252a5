(** Volatile conversation info: src/config/convo_info_volatile.cpp, include/session/config/convo_info_volatile.hpp.
    Definitions only.  The clock is an argument: [now] is std::chrono::system_clock::now() in nanoseconds since 1970. *)
From Verif Require Export UserGroups.

(** convo_info_volatile.hpp 60-69 convo::base *)
Record cbase := mkCBase { cv_read : Z; cv_unread : bool }.
Definition new_cbase : cbase := mkCBase 0 false.
(** convo_info_volatile.cpp 85-88 base::load *)
Definition load_cbase (d : dict) : cbase := mkCBase (or_else (maybe_int d (b "r")) 0%Z) (to_bool (or_else (maybe_int d (b "u")) 0%Z)).

(** ** the clock *)
Definition DAY : Z := (24 * 3600 * 10 ^ 9)%Z.
Definition PRUNE_LOW : Z := (30 * DAY)%Z.            (* convo_info_volatile.hpp 200 *)
Definition PRUNE_HIGH : Z := (45 * DAY)%Z.           (* 201 *)
(** milliseconds to the nanoseconds of system_clock::time_point, in int64_t (overflow is undefined in C++; here it wraps, as
    compiled) *)
Definition to_ns (ms : Z) : Z := ((ms * 10 ^ 6 + 2 ^ 63) mod 2 ^ 64 - 2 ^ 63)%Z.
Definition recent (now ms : Z) : bool := (now - PRUNE_LOW <? to_ns ms)%Z.                     (* 229-231 *)
Definition cutoff (now : Z) : Z := Z.quot (now - PRUNE_HIGH) (10 ^ 6).                        (* 238-241 *)
Definition stale (now : Z) (c : cbase) : bool := negb (cv_unread c) && (cv_read c <? cutoff now)%Z.   (* 245 *)

(** 221-235 set_base; [old]: the "r" stored before, if it is an integer *)
Definition makes_older (c : cbase) (old : option Z) : bool := match old with Some v => (cv_read c <? v)%Z | None => false end.
Definition cbase_script (now : Z) (c : cbase) (old : option Z) : script :=
  (if makes_older c old || recent now (cv_read c) then [(b "r", Some (vint (cv_read c)))] else []) ++ set_flag (b "u") (cv_unread c).

(** ** one-to-one conversations, groups and legacy groups *)
Inductive ckind := KOne | KGroup | KLegacy.
Definition top_of (k : ckind) : bytes := match k with KOne => b "1" | KGroup => b "g" | KLegacy => b "C" end.
Definition prefix_of (k : ckind) : bytes := match k with KGroup => b "03" | _ => b "05" end.
Definition first_of (k : ckind) : ascii := match k with KGroup => ascii_of_N 3 | _ => ascii_of_N 5 end.
(** 98-116, 178-196, 198-216 get_1to1, get_group, get_legacy_group *)
Definition convo_get (st : bstate) (k : ckind) (sid : bytes) : outcome (option cbase) :=
  pk <- session_id_to_bytes sid (prefix_of k) ;; Ok match dict_at [top_of k] pk (s_data st) with Some d => Some (load_cbase d) | None => None end.
Definition convo_get_or_construct (st : bstate) (k : ckind) (sid : bytes) : outcome cbase :=
  o <- convo_get st k sid ;; Ok (or_else o new_cbase).
(** 216-219, 279-287 set *)
Definition convo_set (B : benv) (now : Z) (k : ckind) (sid : bytes) (c : cbase) (st : bstate) : call unit :=
  match session_id_to_bytes sid (prefix_of k) with
  | Ok pk => run_script B [top_of k; pk] (cbase_script now c (as_int (field [top_of k; pk] (b "r") (s_data st)))) st
  | x => (failed x, st)
  end.
(** 289-299, 311-333 erase *)
Definition convo_erase (B : benv) (k : ckind) (sid : bytes) (st : bstate) : call bool :=
  match session_id_to_bytes sid (prefix_of k) with Ok pk => erase_impl B [top_of k] pk st | x => (failed x, st) end.

(** ** communities *)
(** convo_info_volatile.hpp 88-107: a config::community (its url, room and key; the other fields of [comm] are not used) and
    the base *)
Record ccomm := mkCC { cc_comm : comm; cc_base : cbase }.
(** 118-145 community_field and get_community *)
Definition ccomm_get (st : bstate) (url room : bytes) : outcome (option ccomm) :=
  room <- canonical_room room ;; og <- new_comm url room ;;
  match dict_at [b "o"; co_url og; b "R"] (co_norm og) (s_data st) with
  | Some d => if is_nil (server_key st (co_url og)) then Ok (Some (mkCC og (load_cbase d)))
              else og <- set_pubkey (server_key st (co_url og)) og ;; Ok (Some (mkCC og (load_cbase d)))
  | None => Ok None
  end.
(** 153-161 get_or_construct_community with a raw key *)
Definition ccomm_get_or_construct (st : bstate) (url room pk : bytes) : outcome ccomm :=
  room <- canonical_room room ;; og <- new_comm url room ;; og <- set_pubkey pk og ;;
  Ok (mkCC og match dict_at [b "o"; co_url og; b "R"] (co_norm og) (s_data st) with Some d => load_cbase d | None => new_cbase end).
(** 273-277 set *)
Definition ccomm_set (B : benv) (now : Z) (c : ccomm) (st : bstate) : call unit :=
  let at_room := [b "o"; co_url (cc_comm c); b "R"; co_norm (cc_comm c)] in
  match run B (OpAssign [b "o"; co_url (cc_comm c)] (b "#") (vstr (co_pub (cc_comm c)))) st with
  | (Ok _, st1) => run_script B at_room (cbase_script now (cc_base c) (as_int (field at_room (b "r") (s_data st1)))) st1
  | x => x
  end.
(** 292-305, 326-328 erase is UserGroups.v [comm_erase]: the two functions are the same *)
Definition ccomm_erase (B : benv) (url room : bytes) (st : bstate) : call bool := comm_erase B url room st.

(** ** sizes, 335-373 *)
Definition size_convos (k : ckind) (st : bstate) : nat := size_at (top_of k) st.
Definition size_ccomms (st : bstate) : nat := size_communities st.
Definition convos_size (st : bstate) : nat := size_convos KOne st + size_ccomms st + size_convos KLegacy st + size_convos KGroup st.

(** ** iteration *)
(** 396-424 val_loader::load *)
Definition convo_list (k : ckind) (st : bstate) : list (bytes * cbase) :=
  match dict_at [] (top_of k) (s_data st) with Some d => flat_map (visit_ids (first_of k) (fun _ => load_cbase)) d | None => [] end.
(** community.hpp 297-400 *)
Definition visit_croom (url pk : bytes) (p : bytes * value) : list ccomm :=
  match snd p with
  | VDict d => match (og <- new_comm url (fst p) ;; set_pubkey pk og) with Ok og => [mkCC og (load_cbase d)] | _ => [] end
  | _ => []
  end.
Definition visit_cserver (p : bytes * value) : list ccomm :=
  match snd p with
  | VDict info => match maybe_str info (b "#") with Some pk => flat_map (visit_croom (fst p) pk) (rooms_of (snd p)) | None => [] end
  | _ => []
  end.
Definition ccomms_list (st : bstate) : list ccomm := match dict_at [] (b "o") (s_data st) with Some d => flat_map visit_cserver d | None => [] end.
(** 375-394, 426-473: begin() to done(): one-to-one, groups, communities, legacy groups *)
Inductive any_convo := AConvo (k : ckind) (id : bytes) (c : cbase) | ACommunity (c : ccomm).
Definition all_convos (st : bstate) : list any_convo :=
  map (fun p => AConvo KOne (fst p) (snd p)) (convo_list KOne st) ++ map (fun p => AConvo KGroup (fst p) (snd p)) (convo_list KGroup st) ++
  map ACommunity (ccomms_list st) ++ map (fun p => AConvo KLegacy (fst p) (snd p)) (convo_list KLegacy st).

(** ** pruning, 237-271.  The argument of prune_stale is not used. *)
Fixpoint erase_each {A} (f : A -> bstate -> call bool) (l : list A) (st : bstate) : call unit :=
  match l with [] => (Ok tt, st) | x :: r => match f x st with (Ok _, st1) => erase_each f r st1 | (y, st1) => (failed y, st1) end end.
Definition stale_ids (now : Z) (k : ckind) (st : bstate) : list bytes := map fst (filter (fun p => stale now (snd p)) (convo_list k st)).
Definition stale_comms (now : Z) (st : bstate) : list (bytes * bytes) :=
  map (fun c => (co_url (cc_comm c), co_room (cc_comm c))) (filter (fun c => stale now (cc_base c)) (ccomms_list st)).
Definition prune_stale (B : benv) (now : Z) (st : bstate) : call unit :=
  match erase_each (convo_erase B KOne) (stale_ids now KOne st) st with
  | (Ok _, st1) =>
      match erase_each (convo_erase B KLegacy) (stale_ids now KLegacy st1) st1 with
      | (Ok _, st2) => erase_each (fun p => ccomm_erase B (fst p) (snd p)) (stale_comms now st2) st2
      | x => x
      end
  | x => x
  end.
Definition convo_push (B : benv) (now : Z) (st : bstate) : call (Z * bytes * list bytes) :=
  match prune_stale B now st with (Ok _, st1) => push B st1 | (x, st1) => (failed x, st1) end.
