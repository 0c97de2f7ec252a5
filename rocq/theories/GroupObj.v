(** The three objects of a group on one device, the Keys object and the info and member configs with their signing keys, and the
    calls that touch more than one of them: src/config/groups/keys.cpp 34-62, 211-233, 265-410, 892-1118 and the C function
    groups_keys_init (1392-1433).  Definitions only. *)
From Verif Require Import Bytes Message Base BaseSpec GroupKeys Contacts Members Sig CStruct COut Open.

Inductive part := Info | Members.
Definition same_part (p q : part) : bool := match p, q with Info, Info | Members, Members => true | _, _ => false end.
Definition set_part {A} (p : part) (x : A) (f : part -> A) : part -> A := fun q => if same_part p q then x else f q.
(** the Keys object; the signing keys and the states of the two configs *)
Record gobjs := mkObjs { q_keys : kobj; q_sigs : part -> sigs; q_conf : part -> bstate }.
Definition gcall (A : Type) := (outcome A * gobjs)%type.
(** the environment in which a config's calls run: that of its class ([B]) with the signing keys it has now (base.cpp 537-569) *)
Definition part_env (G : gcrypt) (B : part -> benv) (q : gobjs) (p : part) : benv := signing_env G (q_sigs q p) (B p).

(** keys.cpp 59-60, 402-403, 1107-1108: members.replace_keys, then info.replace_keys *)
Definition hand_out (E : part -> benv) (ks : list bytes) (dirty_config : bool) (c : part -> bstate) : outcome unit * (part -> bstate) :=
  match replace_keys (E Members) ks dirty_config (c Members) with
  | (Ok _, m) =>
      match replace_keys (E Info) ks dirty_config (c Info) with
      | (Ok _, i) => (Ok tt, set_part Info i (set_part Members m c))
      | (y, i) => (failed y, set_part Info i (set_part Members m c))
      end
  | (y, m) => (failed y, set_part Members m c)
  end.
(** 34-62 Keys::Keys: the configs exist already; sodium_init is taken to succeed.  The Keys object's own verifier and signer
    (53 init_sig_keys) are those of GroupKeys. *)
Definition keys_open (G : gcrypt) (E : part -> benv) (user pk : bytes) (sk d : option bytes) (c : part -> bstate) : outcome kobj * (part -> bstate) :=
  if negb (Nat.eqb (length user) 64) then (Throw, c)
  else if negb (Nat.eqb (length pk) 32) then (Throw, c)
  else if match sk with Some s => negb (Nat.eqb (length s) 64) | None => false end then (Throw, c)
  else match init_sig_keys (Some pk) sk no_sigs with
  | Ok _ =>
      match d with
      | None => (Ok (new_keys user pk sk), c)
      | Some d =>
          match load_dump d (new_keys user pk sk) with
          | Ok o => match hand_out E (group_keys o) false c with (Ok _, c') => (Ok o, c') | (y, c') => (failed y, c') end
          | y => (failed y, c)
          end
      end
  | y => (failed y, c)
  end.
(** groups/info.cpp 19-24, groups/members.cpp 12-16, then Keys::Keys: how an application opens a group, with what it has saved *)
Definition group_open (G : gcrypt) (B : part -> benv) (user pk : bytes) (sk di dm dk : option bytes) : outcome gobjs :=
  i <- open_group (B Info) pk sk di ;;
  m <- open_group (B Members) pk sk dm ;;
  let s := fun p => match p with Info => fst i | Members => fst m end in
  let c := fun p => match p with Info => snd i | Members => snd m end in
  match keys_open G (fun p => signing_env G (s p) (B p)) user pk sk dk c with
  | (Ok o, c') => Ok (mkObjs o s c')
  | (y, _) => failed y
  end.
(** 892-1118 load_key_message with its effect on the configs *)
Definition group_load (G : gcrypt) (B : part -> benv) (hash data : bytes) (ts : Z) (q : gobjs) : gcall bool :=
  match load_key_message G hash data ts (q_keys q) with
  | Ok (true, o) => match hand_out (part_env G B q) (group_keys o) false (q_conf q) with (Ok _, c) => (Ok true, mkObjs o (q_sigs q) c) | (y, c) => (failed y, mkObjs o (q_sigs q) c) end
  | Ok (false, o) => (Ok false, mkObjs o (q_sigs q) (q_conf q))
  | y => (failed y, q)
  end.
(** 254-410 rekey with its effect on the configs.  The session ids of the members are those of the members config, iterated
    over twice (301-303 and 352-355); the iterator throws on a malformed record (C59). *)
Definition group_rekey (G : gcrypt) (B : part -> benv) (q : gobjs) : gcall bytes :=
  if negb (admin (q_keys q)) then (Throw, q)
  else match members_list (q_conf q Members) with
  | Ok l =>
      match rekey G (map fst l) (q_keys q) with
      | Ok (m, o) => match hand_out (part_env G B q) (group_keys o) true (q_conf q) with (Ok _, c) => (Ok m, mkObjs o (q_sigs q) c) | (y, c) => (failed y, mkObjs o (q_sigs q) c) end
      | y => (failed y, q)
      end
  | y => (failed y, q)
  end.
(** 423-537 key_supplement: the Keys object's own part is unchanged (GroupKeys.key_supplement), nor do the configs change *)
Definition group_supplement (G : gcrypt) (sids : list bytes) (q : gobjs) : outcome bytes := key_supplement G sids (q_keys q).
(** 211-233 load_admin_key: nothing happens if the Keys object can sign already; otherwise all three objects get the key *)
Definition group_admin (G : gcrypt) (secret : bytes) (q : gobjs) : gcall unit :=
  if admin (q_keys q) then (Ok tt, q)
  else match load_admin_key G secret (q_keys q) with
  | Ok o =>
      match ko_sk o with
      | Some sk =>
          match set_sig_keys sk (q_sigs q Info) with
          | Ok si =>
              match set_sig_keys sk (q_sigs q Members) with
              | Ok sm => (Ok tt, mkObjs o (fun p => match p with Info => si | Members => sm end) (q_conf q))
              | y => (failed y, mkObjs o (set_part Info si (q_sigs q)) (q_conf q))
              end
          | y => (failed y, mkObjs o (q_sigs q) (q_conf q))
          end
      | None => (UB, q)
      end
  | y => (failed y, q)
  end.
(** 67-73 dump of the Keys object *)
Definition group_dump (q : gobjs) : bytes * gobjs := (kdump (q_keys q), mkObjs (dumped (q_keys q)) (q_sigs q) (q_conf q)).
(** any call on one of the configs *)
Definition group_conf (G : gcrypt) (B : part -> benv) (p : part) (o : op) (q : gobjs) : gcall unit :=
  match run (part_env G B q p) o (q_conf q p) with (x, st) => (x, mkObjs (q_keys q) (q_sigs q) (set_part p st (q_conf q))) end.
(** 1392-1433 groups_keys_init: the pointers are to readable memory (the assert is not in a release build); the struct is freed if
    the constructor throws *)
Definition c_keys_init (G : gcrypt) (E : part -> benv) (user pk : bytes) (sk p : option bytes) (len : nat) (what : bytes) (err : option bytes) (c : part -> bstate) : outcome (c_made kobj) * (part -> bstate) :=
  match (u <- view 64 user ;; k <- view 32 pk ;; s <- match sk with None => Ok None | Some m => x <- view 64 m ;; Ok (Some x) end ;; d <- c_bytes p len ;; Ok (u, k, s, d)) with
  | Ok (u, k, s, d) => match keys_open G E u k s d c with (r, c') => (c_make r what err, c') end
  | y => (failed y, c)
  end.
