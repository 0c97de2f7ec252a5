(** The C interface of the user profile and of the group info, the setters of the group members, and the setters of the
    onion-request builder.  Definitions only.
    src/config/user_profile.cpp 35-154, src/config/groups/info.cpp 148-386, src/config/groups/members.cpp 220-222,
    src/onionreq/builder.cpp 188-242.  A char array is the bytes it holds; a `const char*` argument is the memory it points to. *)
From Verif Require Import Bytes Message Base Contacts Members Profile.
From Verif Require Onion.

(** profile_pic.h 14-21 user_profile_pic: a char array of 224 bytes and a key of 32 *)
Record c_pic := mkCP { cp_url : bytes; cp_key : bytes }.
(** user_profile.cpp 82-85, info.cpp 246-249: url and key views; without a url the key is empty *)
Definition pic_of_c (p : c_pic) : pic := mkPic (c_str (cp_url p)) (if is_nil (c_str (cp_url p)) then [] else cp_key p).
(** user_profile.cpp 62-71, info.cpp 224-233: into an uninitialised struct [o].  [UB]: the url does not fit *)
Definition c_get_pic (p : pic) (o : c_pic) : outcome c_pic :=
  if pic_set p then
    if fits 224 (pic_url p) then Ok (mkCP (copy_c_str 224 (cp_url o) (pic_url p) []) (pic_key p)) else UB
  else Ok (mkCP (Ascii.zero :: skipn 1 (cp_url o)) (cp_key o)).
(** how a C caller reads it: a picture if the url is not empty *)
Definition read_pic (p : c_pic) : option (bytes * bytes) := if is_nil (c_str (cp_url p)) then None else Some (c_str (cp_url p), cp_key p).

(** error.h 11-15: 0 and SESSION_ERR_BAD_VALUE *)
Definition BAD_VALUE : Z := 2.
(** try { ... } catch (const std::exception& e) { return set_error(...); } return 0 *)
Definition guarded (r : call unit) : call Z :=
  match r with
  | (Ok _, st) => (Ok 0%Z, st)
  | (Err, st) | (Throw, st) => (Ok BAD_VALUE, st)
  | (x, st) => (failed x, st)
  end.
(** no try block: [Err] and [Throw] leave the function *)
Definition unguarded (r : call unit) : call Z := match r with (Ok _, st) => (Ok 0%Z, st) | (x, st) => (failed x, st) end.

(** ** user profile *)
Inductive c_profile_cmd := CPName (s : bytes) | CPPic (p : c_pic) | CPPriority (z : Z) | CPExpiry (z : Z) | CPBlinded (z : Z).
(** user_profile.cpp 44-51, 81-94, 108-110, 126-128, 149-154 *)
Definition c_run_profile (B : benv) (c : c_profile_cmd) (st : bstate) : call Z :=
  match c with
  | CPName s => guarded (run_profile B (PName (c_str s)) st)
  | CPPic p => guarded (run_profile B (PPic (pic_of_c p)) st)
  | CPPriority z => unguarded (run_profile B (PPriority z) st)
  | CPExpiry z => unguarded (run_profile B (PExpiry (Z.max 0 z)) st)
  | CPBlinded z => unguarded (run_profile B (PBlinded (if (z <? 0)%Z then None else Some (to_bool z))) st)
  end.
(** user_profile.cpp 35-39, 62-71, 104-106, 122-124, 143-147 *)
Definition c_profile_name (st : bstate) : option bytes := option_map c_str (get_name st).
Definition c_profile_pic (st : bstate) (o : c_pic) : outcome c_pic := c_get_pic (top_pic st) o.
Definition c_profile_priority (st : bstate) : Z := get_nts_priority st.
Definition c_profile_expiry (st : bstate) : Z := to_int32 (or_else (get_nts_expiry st) 0%Z).
Definition c_profile_blinded (st : bstate) : Z := match get_blinded st with Some true => 1 | Some false => 0 | None => -1 end%Z.

(** ** group info *)
Inductive c_info_cmd := CIName (s : bytes) | CIDesc (s : bytes) | CIPic (p : c_pic) | CIExpiry (z : Z) | CICreated (z : Z)
| CIDeleteBefore (z : Z) | CIDeleteAttach (z : Z) | CIDestroy.
(** info.cpp 165-172, 203-210, 245-258, 283-285, 308-310, 334-336, 360-362, 384-386 *)
Definition c_run_info (B : benv) (c : c_info_cmd) (st : bstate) : call Z :=
  match c with
  | CIName s => guarded (run_info B (IName (c_str s)) st)
  | CIDesc s => guarded (run_info B (IDesc (c_str s)) st)
  | CIPic p => guarded (run_info B (IPic (pic_of_c p)) st)
  | CIExpiry z => unguarded (run_info B (IExpiry (Z.max 0 z)) st)
  | CICreated z => unguarded (run_info B (ICreated (Z.max 0 z)) st)
  | CIDeleteBefore z => unguarded (run_info B (IDeleteBefore (Z.max 0 z)) st)
  | CIDeleteAttach z => unguarded (run_info B (IDeleteAttach (Z.max 0 z)) st)
  | CIDestroy => unguarded (run_info B IDestroy st)
  end.
(** 148-152, 186-190, 224-233, 269-273, 296-298, 322-324, 348-350, 374-376 (is_destroyed is the C++ function) *)
Definition c_info_name (st : bstate) : option bytes := option_map c_str (get_name st).
Definition c_info_desc (st : bstate) : option bytes := option_map c_str (get_description st).
Definition c_info_pic (st : bstate) (o : c_pic) : outcome c_pic := c_get_pic (top_pic st) o.
Definition c_info_expiry (st : bstate) : Z := match get_expiry_timer st with Some t => if (0 <? t)%Z then to_int32 t else 0%Z | None => 0%Z end.
Definition c_info_created (st : bstate) : Z := or_else (get_created st) 0%Z.
Definition c_info_before (st : bstate) : Z := or_else (get_delete_before st) 0%Z.
Definition c_info_attach (st : bstate) : Z := or_else (get_delete_attach_before st) 0%Z.

(** ** group members, members.cpp 220-222 and the constructor 135-150: 66 bytes of the id are taken *)
Definition c_members_set (B : benv) (id : bytes) (k : c_member) (st : bstate) : call unit := members_set B (firstn 66 id) (member_of_c k) st.

(** ** the onion-request builder *)
(** `{p, 64}`: 64 bytes are read whatever is there; [UB]: the caller's memory is shorter.  builder.cpp 212-213, 230, 240-241 *)
Definition hex_arg (p : bytes) : outcome bytes := if Nat.leb 64 (length p) then Onion.key_from_hex (firstn 64 p) else UB.
(** 205-214 *)
Definition c_set_snode (ed pk : bytes) (x : Onion.builder) : outcome Onion.builder :=
  e <- hex_arg ed ;; p <- hex_arg pk ;; Ok (Onion.set_snode e p x).
(** 216-231; the port is always given *)
Definition c_set_server (host target proto : bytes) (port : N) (pk : bytes) (x : Onion.builder) : outcome Onion.builder :=
  p <- hex_arg pk ;; Ok (Onion.set_server (c_str host) (c_str target) (c_str proto) (Some port) p x).
(** 233-242 *)
Definition c_add_hop (ed pk : bytes) (x : Onion.builder) : outcome Onion.builder :=
  e <- hex_arg ed ;; p <- hex_arg pk ;; Ok (Onion.add_hop e p x).
(** 188-203; builder.h: ENCRYPT_TYPE_AES_GCM = 0, ENCRYPT_TYPE_X_CHA_CHA_20 = 1; other values throw *)
Definition c_set_enc_type (t : Z) (x : Onion.builder) : outcome Onion.builder :=
  if (t =? 0)%Z then Ok (Onion.set_enc_type Onion.AesGcm x) else if (t =? 1)%Z then Ok (Onion.set_enc_type Onion.XChaCha20 x) else Throw.
