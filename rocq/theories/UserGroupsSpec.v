(** What the calls on the user's groups are meant to do, in terms of what can be read back.  Definitions only. *)
From Verif Require Export RecordsSpec UserGroups.

(** ** what is kept of a record *)
(** no times before 1970 *)
Definition kept_gbase (g : gbase) : gbase := mkGBase (gb_priority g) (Z.max 0 (gb_joined g)) (gb_notify g) (Z.max 0 (gb_mute g)) (gb_invited g).
(** members are known by the lower-case spelling of their id; one listed under two spellings is an admin only if both are *)
Definition kept_members (l : list (bytes * bool)) : list (bytes * bool) :=
  fold_left (fun m p => emplace (make_lc (fst p)) (snd p) m) (filter (fun p => negb (snd p)) l ++ filter snd l) [].
(** the name cut at 100 bytes, the two keys only together and of 32 bytes each, no negative timer *)
Definition kept_legacy (g : legacy) : legacy :=
  mkLegacy (kept_gbase (lg_base g)) (firstn 100 (lg_name g))
    (if two_keys (lg_pub g) (lg_sec g) then lg_pub g else []) (if two_keys (lg_pub g) (lg_sec g) then lg_sec g else [])
    (Z.max 0 (lg_timer g)) (kept_members (lg_members g)).
(** A secret key is kept if it is the key of this very group; then the auth data that was stored before ([prev]) stays.
    Otherwise auth data of 100 bytes is kept. *)
Definition id_key (sid : bytes) : bytes := match from_hex sid with Some pk => skipn 1 pk | None => [] end.
Definition has_secret (sid : bytes) (g : group) : bool := Nat.eqb (length (gr_secret g)) 64 && eqb (skipn 32 (gr_secret g)) (id_key sid).
Definition kept_group (pub : bytes -> bytes) (sid : bytes) (prev : option group) (g : group) : group :=
  mkGroup (kept_gbase (gr_base g)) (firstn 100 (gr_name g))
    (if has_secret sid g && eqb (pub (firstn 32 (gr_secret g))) (id_key sid) then gr_secret g else [])
    (if has_secret sid g then match prev with Some p => gr_auth p | None => [] end
     else if Nat.eqb (length (gr_auth g)) 100 then gr_auth g else []).
Definition kept_key (pk : bytes) : bytes := if Nat.eqb (length pk) 32 then pk else [].
Definition kept_comm (c : comm) : comm := mkComm (co_url c) (co_norm c) (co_room c) (kept_key (co_pub c)) (kept_gbase (co_base c)).

(** ** the groups the user sees *)
Record gview := mkView { v_group : bytes -> option group; v_comm : bytes -> bytes -> outcome (option comm); v_legacy : bytes -> option legacy }.
(** ids in lower case; communities under any url and room *)
Definition sees (pub : bytes -> bytes) (st : bstate) (v : gview) : Prop :=
  (forall sid, session_id_ok sid (b "03") = true -> make_lc sid = sid -> group_get pub st sid = Ok (v_group v sid)) /\
  (forall url room, comm_get st url room = v_comm v url room) /\
  (forall sid, session_id_ok sid (b "05") = true -> legacy_get st sid = Ok (v_legacy v sid)).

(** a community object: canonical url and room *)
Definition comm_ok (c : comm) : Prop := canonical_url (co_url c) = Ok (co_url c) /\ canonical_room (co_room c) = Ok (co_norm c).
Definition same_server (url : bytes) (c : comm) : bool := match canonical_url url with Ok u => eqb u (co_url c) | _ => false end.
Definition same_room (url room : bytes) (c : comm) : bool :=
  same_server url c && match canonical_room room with Ok r => eqb r (co_norm c) | _ => false end.
(** there is one key per server *)
Definition with_key (pk : bytes) (o : outcome (option comm)) : outcome (option comm) :=
  match o with Ok (Some c) => Ok (Some (mkComm (co_url c) (co_norm c) (co_room c) (kept_key pk) (co_base c))) | x => x end.

Inductive gcmd := GSetGroup (sid : bytes) (g : group) | GEraseGroup (sid : bytes) | GSetComm (c : comm) | GEraseComm (url room : bytes)
| GSetLegacy (sid : bytes) (g : legacy) | GEraseLegacy (sid : bytes).
Definition run_gcmd (B : benv) (m : gcmd) (st : bstate) : call unit :=
  match m with
  | GSetGroup sid g => group_set B sid g st
  | GEraseGroup sid => ignore (group_erase B sid st)
  | GSetComm c => comm_set B c st
  | GEraseComm url room => ignore (comm_erase B url room st)
  | GSetLegacy sid g => legacy_set B sid g st
  | GEraseLegacy sid => ignore (legacy_erase B sid st)
  end.
(** the values the C++ fields can hold *)
Definition gbase_fits (g : gbase) : Prop := int32_ok (gb_priority g) /\ int64_ok (gb_joined g) = true /\ int64_ok (gb_mute g) = true.
Definition gcmd_fits (m : gcmd) : Prop :=
  match m with
  | GSetGroup _ g => gbase_fits (gr_base g)
  | GSetComm c => gbase_fits (co_base c) /\ comm_ok c
  | GSetLegacy _ g => gbase_fits (lg_base g) /\ int64_ok (lg_timer g) = true /\ forall sid a, In (sid, a) (lg_members g) -> session_id_ok sid (b "05") = true
  | _ => True
  end.
Definition after_gcmd (pub : bytes -> bytes) (m : gcmd) (v : gview) : gview :=
  match v with
  | mkView vg vc vl =>
    match m with
    | GSetGroup id g => mkView (fun sid => if same_id sid id then Some (kept_group pub sid (vg sid) g) else vg sid) vc vl
    | GEraseGroup id => mkView (fun sid => if same_id sid id then None else vg sid) vc vl
    | GSetComm c => mkView vg (fun url room => if same_room url room c then Ok (Some (kept_comm c))
                                               else if same_server url c then with_key (co_pub c) (vc url room) else vc url room) vl
    | GEraseComm u r => mkView vg (fun url room => match new_comm u r with Ok c => if same_room url room c then Ok None else vc url room | _ => vc url room end) vl
    | GSetLegacy id g => mkView vg vc (fun sid => if same_id sid id then Some (kept_legacy g) else vl sid)
    | GEraseLegacy id => mkView vg vc (fun sid => if same_id sid id then None else vl sid)
    end
  end.
Fixpoint run_gcmds (B : benv) (l : list gcmd) (st : bstate) : call unit :=
  match l with [] => (Ok tt, st) | m :: r => match run_gcmd B m st with (Ok _, st1) => run_gcmds B r st1 | x => x end end.

(** ** stored data in which every entry is one this library writes *)
Definition tidy (st : bstate) : Prop :=
  (forall k v, field [b "g"] k (s_data st) = Some v -> session_id_ok (to_hex k) (b "03") = true /\ exists d, v = VDict d) /\
  (forall k v, field [b "C"] k (s_data st) = Some v -> session_id_ok (to_hex k) (b "05") = true /\ exists d, v = VDict d) /\
  (forall u v, field [b "o"] u (s_data st) = Some v -> canonical_url u = Ok u /\ exists d, v = VDict d /\
     (exists pk, lookup (b "#") d = Some (vstr pk) /\ length pk = 32) /\
     exists rooms, lookup (b "R") d = Some (VDict rooms) /\
       forall r w, lookup r rooms = Some w -> canonical_room r = Ok r /\ exists i n, w = VDict i /\ lookup (b "n") i = Some (vstr n) /\ canonical_room n = Ok r).

(** ** visiting the communities *)
(** what is stored under server [u] and room [r], if it is a valid record *)
Definition stored_comm (st : bstate) (k : bytes * bytes) (c : comm) : Prop :=
  exists pk d og, as_str (field [b "o"; fst k] (b "#") (s_data st)) = Some pk /\ length pk = 32 /\
    dict_at [b "o"; fst k; b "R"] (snd k) (s_data st) = Some d /\ new_comm (fst k) (snd k) = Ok og /\
    load_comm d (mkComm (co_url og) (co_norm og) (co_room og) pk (co_base og)) = Ok c.
