(** What the record calls are meant to do, in terms of what can be read back.  Definitions only. *)
From Verif Require Export Records Contacts Members Profile.

(** two spellings (upper or lower case) of the same session id *)
Definition same_id (x y : bytes) : bool := match from_hex x, from_hex y with Some p, Some q => eqb p q | _, _ => false end.
Definition kept_pic (p : pic) : pic := if pic_set p then p else no_pic.

(** ** contacts *)
(** What of a contact is kept: names cut at 100 bytes, a picture only with url and 32-byte key, mentions-only means all in
    a conversation of two, no times before 1970, an expiry only with mode and positive time. *)
Definition kept_contact (c : contact) : contact :=
  let expiring := match ct_mode c with ExpNone => false | _ => (0 <? ct_timer c)%Z end in
  mkContact (firstn 100 (ct_name c)) (firstn 100 (ct_nick c)) (kept_pic (ct_pic c)) (ct_approved c) (ct_approved_me c) (ct_blocked c)
    (ct_priority c) (match ct_notify c with NMentions => NAll | n => n end) (Z.max 0 (ct_mute c))
    (if expiring then ct_mode c else ExpNone) (if expiring then ct_timer c else 0%Z) (Z.max 0 (ct_created c)).
(** the values the C++ fields can hold, and the timer below 2^31 seconds (68 years) *)
Definition contact_fits (c : contact) : Prop :=
  int32_ok (ct_priority c) /\ int64_ok (ct_mute c) = true /\ int64_ok (ct_created c) = true /\ (int64_min <= ct_timer c < 2 ^ 31)%Z.

Inductive contact_cmd := CtSet (sid : bytes) (c : contact) | CtChange (sid : bytes) (h : contact_change) | CtErase (sid : bytes).
Definition run_contact (B : benv) (m : contact_cmd) (st : bstate) : call unit :=
  match m with
  | CtSet sid c => contacts_set B sid c st
  | CtChange sid h => contacts_change B sid h st
  | CtErase sid => ignore (contacts_erase B sid st)
  end.
Definition contact_cmd_fits (m : contact_cmd) : Prop :=
  match m with
  | CtSet _ c => contact_fits c
  | CtChange _ (CPriority z) => int32_ok z
  | CtChange _ (CExpiry _ z) => (int64_min <= z < 2 ^ 31)%Z
  | CtChange _ (CCreated z) => int64_ok z = true
  | _ => True
  end.
(** what the single-field setters are meant to change: that field, and nothing else *)
Definition changed (h : contact_change) (c : contact) : contact :=
  mkContact (match h with CName s => s | _ => ct_name c end) (match h with CNick s => s | _ => ct_nick c end) (match h with CPic p => p | _ => ct_pic c end)
    (match h with CApproved x => x | _ => ct_approved c end) (match h with CApprovedMe x => x | _ => ct_approved_me c end) (match h with CBlocked x => x | _ => ct_blocked c end)
    (match h with CPriority z => z | _ => ct_priority c end) (match h with CNotify n => n | _ => ct_notify c end) (ct_mute c)
    (match h with CExpiry m _ => m | _ => ct_mode c end) (match h with CExpiry ExpNone _ => 0%Z | CExpiry _ z => z | _ => ct_timer c end) (match h with CCreated z => z | _ => ct_created c end).
(** the address book the user sees *)
Definition book := bytes -> option contact.
Definition after_contact (m : contact_cmd) (g : book) : book := fun sid =>
  match m with
  | CtSet id c => if same_id sid id then Some (kept_contact c) else g sid
  | CtChange id h =>
      if same_id sid id then
        Some (kept_contact (changed h (match g id with Some c => c | None => new_contact end)))
      else g sid
  | CtErase id => if same_id sid id then None else g sid
  end.
Fixpoint run_contacts (B : benv) (l : list contact_cmd) (st : bstate) : call unit :=
  match l with [] => (Ok tt, st) | m :: r => match run_contact B m st with (Ok _, st1) => run_contacts B r st1 | x => x end end.

(** ** group members *)
(** An administrator has no pending invitation or promotion; "supplement" means something only while an invitation (not a
    promotion) is pending. *)
Definition kept_member (m : member) : member :=
  let inv := if mb_admin m then 0%Z else Z.max 0 (mb_invite m) in
  let prom := if mb_admin m then 0%Z else Z.max 0 (mb_promotion m) in
  mkMember (firstn 100 (mb_name m)) (kept_pic (mb_pic m)) (mb_admin m)
    (mb_supplement m && (0 <? inv)%Z && (prom =? 0)%Z) inv prom (Z.max 0 (mb_removed m)).
Definition member_fits (m : member) : Prop := int32_ok (mb_invite m) /\ int32_ok (mb_promotion m) /\ int32_ok (mb_removed m).
Inductive member_cmd := MbSet (sid : bytes) (m : member) | MbErase (sid : bytes).
Definition run_member (B : benv) (c : member_cmd) (st : bstate) : call unit :=
  match c with MbSet sid m => members_set B sid m st | MbErase sid => ignore (members_erase B sid st) end.
Definition member_cmd_fits (c : member_cmd) : Prop := match c with MbSet _ m => member_fits m | _ => True end.
Definition roster := bytes -> option member.
Definition after_member (c : member_cmd) (g : roster) : roster := fun sid =>
  match c with
  | MbSet id m => if same_id sid id then Some (kept_member m) else g sid
  | MbErase id => if same_id sid id then None else g sid
  end.
Fixpoint run_members (B : benv) (l : list member_cmd) (st : bstate) : call unit :=
  match l with [] => (Ok tt, st) | m :: r => match run_member B m st with (Ok _, st1) => run_members B r st1 | x => x end end.
(** what the documented methods do to a member *)
Inductive member_act := Invite (failed : bool) | Accept | Promote (failed : bool) | MakeAdmin | Remove (messages : bool).
Definition act (a : member_act) (m : member) : member :=
  match a with
  | Invite f => set_invited f m
  | Accept => set_accepted m
  | Promote f => set_promoted f m
  | MakeAdmin => mkMember (mb_name m) (mb_pic m) true (mb_supplement m) (mb_invite m) (mb_promotion m) (mb_removed m)
  | Remove x => set_removed x m
  end.

(** what the methods report: admin; invitation pending (and whether sending it failed); promotion pending (failed); removed
    (with messages) *)
Record status := mkStatus { su_admin : bool; su_invited : option bool; su_promoted : option bool; su_removed : option bool }.
Definition status_of (m : member) : status :=
  mkStatus (mb_admin m) (if invite_pending m then Some (invite_failed m) else None)
    (if promotion_pending m then Some (promotion_failed m) else None)
    (if is_removed m then Some (should_remove_messages m) else None).
Definition stat_act (a : member_act) (s : status) : status :=
  match s, a with
  | mkStatus ad i p r, Invite f => mkStatus ad (Some f) p r
  | mkStatus ad i p r, Accept => mkStatus ad None p r
  | mkStatus ad i p r, Promote f => mkStatus ad i (if ad then None else Some f) r
  | mkStatus ad i p r, MakeAdmin => mkStatus true i None r
  | mkStatus ad i p r, Remove x => mkStatus ad i p (Some x)
  end.
(** an administrator's invitation is not kept *)
Definition saved (s : status) : status := if su_admin s then mkStatus true None None (su_removed s) else s.

(** ** user profile *)
Record profile := mkProfile { pf_name : option bytes; pf_pic : pic; pf_priority : Z; pf_expiry : option Z; pf_blinded : option bool }.
Definition see_profile (st : bstate) : profile := mkProfile (get_name st) (top_pic st) (get_nts_priority st) (get_nts_expiry st) (get_blinded st).
Definition nonempty (s : bytes) : option bytes := match s with [] => None | _ => Some s end.
Definition if_positive (z : Z) : option Z := if (0 <? z)%Z then Some z else None.
Definition after_profile (c : profile_cmd) (p : profile) : profile :=
  match p with
  | mkProfile n pc pr ex bl =>
    match c with
    | PName s => mkProfile (nonempty s) pc pr ex bl
    | PPic x => mkProfile n (kept_pic x) pr ex bl
    | PPriority z => mkProfile n pc z ex bl
    | PExpiry z => mkProfile n pc pr (if_positive z) bl
    | PBlinded o => mkProfile n pc pr ex o
    end
  end.
Definition profile_cmd_fits (c : profile_cmd) : Prop := match c with PPriority z => int32_ok z | PExpiry z => int64_ok z = true | _ => True end.
Fixpoint run_profiles (B : benv) (l : list profile_cmd) (st : bstate) : call unit :=
  match l with [] => (Ok tt, st) | m :: r => match run_profile B m st with (Ok _, st1) => run_profiles B r st1 | x => x end end.

(** ** group info *)
Record ginfo := mkInfo { gi_name : option bytes; gi_desc : option bytes; gi_pic : pic; gi_expiry : option Z; gi_created : option Z;
  gi_before : option Z; gi_attach : option Z; gi_destroyed : bool }.
Definition see_info (st : bstate) : ginfo :=
  mkInfo (get_name st) (get_description st) (top_pic st) (get_expiry_timer st) (get_created st) (get_delete_before st) (get_delete_attach_before st) (is_destroyed st).
Definition after_info (c : info_cmd) (i : ginfo) : ginfo :=
  match i with
  | mkInfo n o p e cr be at_ de =>
    match c with
    | IName s => mkInfo (nonempty (firstn 100 s)) o p e cr be at_ de
    | IDesc s => mkInfo n (nonempty (firstn 2000 s)) p e cr be at_ de
    | IPic x => mkInfo n o (kept_pic x) e cr be at_ de
    | IExpiry z => mkInfo n o p (if_positive z) cr be at_ de
    | ICreated z => mkInfo n o p e (if_positive z) be at_ de
    | IDeleteBefore z => mkInfo n o p e cr (if_positive z) at_ de
    | IDeleteAttach z => mkInfo n o p e cr be (if_positive z) de
    | IDestroy => mkInfo n o p e cr be at_ true
    end
  end.
Definition info_cmd_fits (c : info_cmd) : Prop :=
  match c with IExpiry z | ICreated z | IDeleteBefore z | IDeleteAttach z => int64_ok z = true | _ => True end.
Fixpoint run_infos (B : benv) (l : list info_cmd) (st : bstate) : call unit :=
  match l with [] => (Ok tt, st) | m :: r => match run_info B m st with (Ok _, st1) => run_infos B r st1 | x => x end end.
