(** The user's groups: src/config/user_groups.cpp, include/session/config/user_groups.hpp and the community iterator of
    include/session/config/community.hpp.  Definitions only. *)
From Verif Require Export Contacts Community.

(** user_groups.hpp 68-85 base_group_info (without the name) *)
Record gbase := mkGBase { gb_priority : Z; gb_joined : Z; gb_notify : notify_mode; gb_mute : Z; gb_invited : bool }.
Definition new_gbase : gbase := mkGBase 0 0 NDefault 0 false.
(** user_groups.cpp 127-142 base_group_info::load *)
Definition load_gbase (d : dict) : gbase :=
  mkGBase (to_int32 (or_else (maybe_int d (b "+")) 0%Z)) (Z.max 0 (or_else (maybe_int d (b "j")) 0%Z))
    (load_notify (to_int32 (or_else (maybe_int d (b "@")) 0%Z))) (or_else (maybe_int d (b "!")) 0%Z)
    (to_bool (or_else (maybe_int d (b "i")) 0%Z)).
(** 375-382 set_base *)
Definition gbase_script (g : gbase) : script :=
  set_nonzero_int (b "+") (gb_priority g) ++ set_positive_int (b "j") (gb_joined g) ++
  set_positive_int (b "@") (notify_no (gb_notify g)) ++ set_positive_int (b "!") (gb_mute g) ++ set_flag (b "i") (gb_invited g).
Definition GROUP_NAME_MAX : nat := 100.                (* user_groups.hpp 69 NAME_MAX_LENGTH *)

(** ** legacy groups *)
(** user_groups.hpp 92-210 legacy_group_info, without the session id, which is passed beside it; [lg_members] is the
    std::map from session id to "is an admin" *)
Record legacy := mkLegacy { lg_base : gbase; lg_name : bytes; lg_pub : bytes; lg_sec : bytes; lg_timer : Z; lg_members : list (bytes * bool) }.
Definition new_legacy : legacy := mkLegacy new_gbase [] [] [] 0 [].
(** 186-211 counts (admins, members), insert, erase *)
Definition lg_counts (l : legacy) : nat * nat := (length (filter snd (lg_members l)), length (filter (fun p => negb (snd p)) (lg_members l))).
Definition set_members (m : list (bytes * bool)) (l : legacy) : legacy := mkLegacy (lg_base l) (lg_name l) (lg_pub l) (lg_sec l) (lg_timer l) m.
Definition lg_insert (sid : bytes) (admin : bool) (l : legacy) : outcome (bool * legacy) :=
  if session_id_ok sid (b "05") then
    match lookup sid (lg_members l) with
    | None => Ok (true, set_members (insert sid admin (lg_members l)) l)
    | Some x => if Bool.eqb x admin then Ok (false, l) else Ok (true, set_members (insert sid admin (lg_members l)) l)
    end
  else Throw.
Definition lg_erase (sid : bytes) (l : legacy) : bool * legacy :=
  (match lookup sid (lg_members l) with Some _ => true | None => false end, set_members (erase sid (lg_members l)) l).
(** 169-183: the entries of a stored set that look like session ids, added to the map unless already there *)
Definition member_key (x : scalar) : option bytes :=
  match x with SStr (c :: r) => if Nat.eqb (length (c :: r)) 33 && Ascii.eqb c (ascii_of_N 5) then Some (c :: r) else None | _ => None end.
Definition add_stored (admin : bool) (l : list scalar) (m : list (bytes * bool)) : list (bytes * bool) :=
  fold_left (fun m x => match member_key x with Some k => emplace (to_hex k) admin m | None => m end) l m.
Definition load_members (d : dict) : list (bytes * bool) :=
  add_stored true (or_else (maybe_set d (b "a")) []) (add_stored false (or_else (maybe_set d (b "m")) []) []).
(** 144-184 legacy_group_info::load; all fields of the old value are overwritten *)
Definition two_keys (p s : bytes) : bool := Nat.eqb (length p) 32 && Nat.eqb (length s) 32.
Definition load_keys (d : dict) : bytes * bytes :=
  match maybe_str d (b "k"), maybe_str d (b "K") with
  | Some p, Some s => if two_keys p s then (p, s) else ([], [])
  | _, _ => ([], [])
  end.
Definition load_legacy (d : dict) : legacy :=
  mkLegacy (load_gbase d) (or_else (maybe_str d (b "n")) []) (fst (load_keys d)) (snd (load_keys d))
    (Z.max 0 (or_else (maybe_int d (b "E")) 0%Z)) (load_members d).
(** 384-406 set.  A member that is not hex would be an assertion failure; it is left out here (no way to add one through
    [lg_insert]).  Assigning an empty set erases (Base.v assign_at). *)
Definition stored_ids (admin : bool) (m : list (bytes * bool)) : list scalar :=
  fold_left (fun l p => if Bool.eqb (snd p) admin then match from_hex (fst p) with Some k => sadd (SStr k) l | None => l end else l) m [].
Definition set_ids (k : bytes) (l : list scalar) : script := [(k, if is_nil l then None else Some (VSet l))].
Definition legacy_script (g : legacy) : script :=
  gbase_script (lg_base g) ++ [(b "n", Some (vstr (trunc GROUP_NAME_MAX (lg_name g))))] ++
  set_pair_if (two_keys (lg_pub g) (lg_sec g)) (b "k") (vstr (lg_pub g)) (b "K") (vstr (lg_sec g)) ++
  set_ids (b "m") (stored_ids false (lg_members g)) ++ set_ids (b "a") (stored_ids true (lg_members g)) ++
  set_positive_int (b "E") (lg_timer g).
Definition legacy_get (st : bstate) (sid : bytes) : outcome (option legacy) :=             (* 340-350 *)
  pk <- session_id_to_bytes sid (b "05") ;; Ok match dict_at [b "C"] pk (s_data st) with Some d => Some (load_legacy d) | None => None end.
Definition legacy_set (B : benv) (sid : bytes) (g : legacy) (st : bstate) : call unit :=
  match session_id_to_bytes sid (b "05") with Ok pk => run_script B [b "C"; pk] (legacy_script g) st | x => (failed x, st) end.
(** 436-441 erase_impl *)
Definition erase_impl (B : benv) (inter : list bytes) (last : bytes) (st : bstate) : call bool :=
  let ret := match field inter last (s_data st) with Some _ => true | None => false end in
  match run B (OpErase inter last) st with (Ok _, st') => (Ok ret, st') | (x, st') => (failed x, st') end.
Definition legacy_erase (B : benv) (sid : bytes) (st : bstate) : call bool :=              (* 461-463 *)
  match session_id_to_bytes sid (b "05") with Ok pk => erase_impl B [b "C"] pk st | x => (failed x, st) end.

(** ** groups *)
(** user_groups.hpp 215-290 group_info, without the id *)
Record group := mkGroup { gr_base : gbase; gr_name : bytes; gr_secret : bytes; gr_auth : bytes }.
Definition new_group : group := mkGroup new_gbase [] [] [].
Definition set_kicked (g : group) : group := mkGroup (gr_base g) (gr_name g) [] [].          (* 261-264 *)
Definition kicked (g : group) : bool := is_nil (gr_secret g) && is_nil (gr_auth g).          (* 266-268 *)
(** 238-259 group_info::load into a new group with this id.  [pub]: crypto_sign_seed_keypair, the public key of a seed; the
    64-byte secret key is seed and public key. *)
Definition load_secret (pub : bytes -> bytes) (id : bytes) (d : dict) : bytes :=
  match maybe_str d (b "K") with
  | Some seed => if Nat.eqb (length seed) 32 && eqb id (to_hex (ascii_of_N 3 :: pub seed)) then seed ++ pub seed else []
  | None => []
  end.
Definition load_auth (d : dict) : bytes := match maybe_str d (b "s") with Some s => if Nat.eqb (length s) 100 then s else [] | None => [] end.
Definition load_group (pub : bytes -> bytes) (id : bytes) (d : dict) : group :=
  mkGroup (load_gbase d) (or_else (maybe_str d (b "n")) []) (load_secret pub id d) (load_auth d).
Definition group_get (pub : bytes -> bytes) (st : bstate) (sid : bytes) : outcome (option group) :=   (* 359-369 *)
  pk <- session_id_to_bytes sid (b "03") ;; Ok match dict_at [b "g"] pk (s_data st) with Some d => Some (load_group pub sid d) | None => None end.
(** 408-434 set; [pk]: the 33 bytes of the id *)
Definition own_secret (pk : bytes) (g : group) : bool := Nat.eqb (length (gr_secret g)) 64 && eqb (skipn 32 (gr_secret g)) (skipn 1 pk).
Definition group_script (pk : bytes) (g : group) : script :=
  gbase_script (gr_base g) ++ set_nonempty_str (b "n") (trunc GROUP_NAME_MAX (gr_name g)) ++
  (if own_secret pk g then [(b "K", Some (vstr (firstn 32 (gr_secret g))))]
   else [(b "K", Some (vstr [])); (b "s", if Nat.eqb (length (gr_auth g)) 100 then Some (vstr (gr_auth g)) else None)]).
Definition group_set (B : benv) (sid : bytes) (g : group) (st : bstate) : call unit :=
  match session_id_to_bytes sid (b "03") with Ok pk => run_script B [b "g"; pk] (group_script pk g) st | x => (failed x, st) end.
Definition group_erase (B : benv) (sid : bytes) (st : bstate) : call bool :=               (* 458-460 *)
  match session_id_to_bytes sid (b "03") with Ok pk => erase_impl B [b "g"] pk st | x => (failed x, st) end.

(** ** communities *)
(** community.hpp 14-330 and user_groups.hpp 295-330: canonical url, canonical room, room as written, server key *)
Record comm := mkComm { co_url : bytes; co_norm : bytes; co_room : bytes; co_pub : bytes; co_base : gbase }.
(** community.cpp 20-24 community(base_url, room) *)
Definition new_comm (url room : bytes) : outcome comm := u <- canonical_url url ;; r <- canonical_room room ;; Ok (mkComm u r room [] new_gbase).
(** 73-76 set_room, 48-52 set_pubkey *)
Definition set_room (room : bytes) (c : comm) : outcome comm := r <- canonical_room room ;; Ok (mkComm (co_url c) r room (co_pub c) (co_base c)).
Definition set_pubkey (pk : bytes) (c : comm) : outcome comm :=
  if Nat.eqb (length pk) 32 then Ok (mkComm (co_url c) (co_norm c) (co_room c) pk (co_base c)) else Throw.
(** user_groups.cpp 270-275 community_info::load *)
Definition load_comm (d : dict) (c : comm) : outcome comm :=
  let c1 := mkComm (co_url c) (co_norm c) (co_room c) (co_pub c) (load_gbase d) in
  match maybe_str d (b "n") with Some n => set_room n c1 | None => Ok c1 end.
(** 282-311 community_field and get_community *)
Definition server_key (st : bstate) (url : bytes) : bytes :=
  match as_str (field [b "o"; url] (b "#") (s_data st)) with Some pk => if Nat.eqb (length pk) 32 then pk else [] | None => [] end.
Definition comm_get (st : bstate) (url room : bytes) : outcome (option comm) :=
  og <- new_comm url room ;;
  match dict_at [b "o"; co_url og; b "R"] (co_norm og) (s_data st) with
  | Some d => c <- load_comm d og ;;
              if is_nil (server_key st (co_url og)) then Ok (Some c) else c' <- set_pubkey (server_key st (co_url og)) c ;; Ok (Some c')
  | None => Ok None
  end.
(** 313-331 get_or_construct_community with a raw key *)
Definition comm_get_or_construct (st : bstate) (url room pk : bytes) : outcome comm :=
  og <- new_comm url room ;; og <- set_pubkey pk og ;;
  match dict_at [b "o"; co_url og; b "R"] (co_norm og) (s_data st) with Some d => load_comm d og | None => Ok og end.
(** 368-373 set *)
Definition comm_ops (c : comm) : list op :=
  OpAssign [b "o"; co_url c] (b "#") (vstr (co_pub c)) ::
  map (op_at [b "o"; co_url c; b "R"; co_norm c]) (gbase_script (co_base c) ++ [(b "n", Some (vstr (co_room c)))]).
Definition comm_set (B : benv) (c : comm) (st : bstate) : call unit := run_ops B (comm_ops c) st.
(** 443-457 erase; 468-470 erase_community *)
Definition no_rooms (url : bytes) (st : bstate) : bool := match dict_at [b "o"; url] (b "R") (s_data st) with Some d => is_nil d | None => true end.
Definition comm_erase_at (B : benv) (url norm : bytes) (st : bstate) : call bool :=
  match erase_impl B [b "o"; url; b "R"] norm st with
  | (Ok true, st1) =>
      if no_rooms url st1 then
        match run_ops B [OpErase [b "o"; url] (b "R"); OpErase [b "o"] url] st1 with
        | (Ok _, st2) => (Ok true, st2)
        | (x, st2) => (failed x, st2)
        end
      else (Ok true, st1)
  | r => r
  end.
Definition comm_erase (B : benv) (url room : bytes) (st : bstate) : call bool :=
  match new_comm url room with Ok og => comm_erase_at B (co_url og) (co_norm og) st | x => (failed x, st) end.

(** ** sizes, 482-512 *)
Definition size_at (k : bytes) (st : bstate) : nat := match dict_at [] k (s_data st) with Some d => length d | None => 0 end.
Definition rooms_of (v : value) : dict :=
  match v with
  | VDict info => match maybe_str info (b "#"), lookup (b "R") info with Some _, Some (VDict rooms) => rooms | _, _ => [] end
  | _ => []
  end.
Definition size_communities (st : bstate) : nat :=
  match dict_at [] (b "o") (s_data st) with Some d => fold_left (fun n p => n + length (rooms_of (snd p))) d 0 | None => 0 end.
Definition size_groups (st : bstate) : nat := size_at (b "g") st.
Definition size_legacy (st : bstate) : nat := size_at (b "C") st.
Definition groups_size (st : bstate) : nat := size_communities st + size_legacy st + size_groups st.

(** ** iteration *)
(** community.hpp 352-390: one room; an exception skips it *)
Definition visit_room (url pk : bytes) (p : bytes * value) : list comm :=
  match snd p with
  | VDict d => match (og <- new_comm url (fst p) ;; og <- set_pubkey pk og ;; load_comm d og) with Ok c => [c] | _ => [] end
  | _ => []
  end.
(** 312-400: the servers in order, and for each the rooms in order; servers that are no dict, have no key or no rooms are
    skipped *)
Definition visit_server (p : bytes * value) : list comm :=
  match snd p with
  | VDict info => match maybe_str info (b "#") with Some pk => flat_map (visit_room (fst p) pk) (rooms_of (snd p)) | None => [] end
  | _ => []
  end.
Definition comms_list (st : bstate) : list comm := match dict_at [] (b "o") (s_data st) with Some d => flat_map visit_server d | None => [] end.
(** user_groups.cpp 533-561 check_it *)
Definition visit_ids {A} (first : ascii) (load : bytes -> dict -> A) (p : bytes * value) : list (bytes * A) :=
  match p with
  | (k, VDict d) => if Nat.eqb (length k) 33 && match k with c :: _ => Ascii.eqb c first | [] => false end then [(to_hex k, load (to_hex k) d)] else []
  | _ => []
  end.
Definition groups_list (pub : bytes -> bytes) (st : bstate) : list (bytes * group) :=
  match dict_at [] (b "g") (s_data st) with Some d => flat_map (visit_ids (ascii_of_N 3) (load_group pub)) d | None => [] end.
Definition legacy_list (st : bstate) : list (bytes * legacy) :=
  match dict_at [] (b "C") (s_data st) with Some d => flat_map (visit_ids (ascii_of_N 5) (fun _ => load_legacy)) d | None => [] end.
(** 514-531, 563-607: begin() to done(): groups, communities, legacy groups *)
Inductive any_group := AGroup (id : bytes) (g : group) | AComm (c : comm) | ALegacy (id : bytes) (g : legacy).
Definition all_groups (pub : bytes -> bytes) (st : bstate) : list any_group :=
  map (fun p => AGroup (fst p) (snd p)) (groups_list pub st) ++ map AComm (comms_list st) ++ map (fun p => ALegacy (fst p) (snd p)) (legacy_list st).
