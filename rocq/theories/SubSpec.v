(** Specification of subaccount signing values and tokens (C46 and C108), after the comments of src/config/groups/keys.cpp
    539-600 and include/session/config/groups/keys.hpp 357-491; independent of the definitions of Sub.v.  Definitions only. *)
From Verif Require Export Sub.

(** [sid] is the hexadecimal account id, with prefix [p] (05: people, 03: groups), of the 32-byte public key [pk]; letters
    in either case *)
Definition account_of (p sid pk : bytes) : Prop := length pk = 32 /\ make_lc sid = p ++ to_hex pk.
Definition bit_set (i : N) (c : ascii) : Prop := N.testbit (N_of_ascii c) i = true.
(** |S|: the public key with its sign bit cleared *)
Definition positive_key (pk : bytes) : bytes := firstn 31 pk ++ map (fun c => ascii_of_N (N.land (N_of_ascii c) 127)) (skipn 31 pk).
(** "p || f || 0 || 0" with p = 03: bit 0 read, bit 1 write, bit 2 delete *)
Definition rights_mark (write del : bool) : bytes :=
  [ascii_of_nat 3; ascii_of_nat (match write, del with false, false => 1 | true, false => 3 | false, true => 5 | true, true => 7 end); ascii_of_nat 0; ascii_of_nat 0].
(** "k is the blinding factor, which is: H(\x05...[sessionid]\x03...[groupid], key=M) mod L, where: H is 64-byte blake2b", M
    "derived from the group's seed" under the name SessionGroupSubaccountMask *)
Definition factor_key (C : scrypt) (seed : bytes) : bytes := g_hash (s_g C) 32 (b "SessionGroupSubaccountMask") seed.
Definition factor_text (X gid : bytes) : bytes := [ascii_of_nat 5] ++ X ++ [ascii_of_nat 3] ++ gid.
Definition factor (C : scrypt) (seed X gid : bytes) : bytes := s_reduce C (g_hash (s_g C) 64 (factor_key C seed) (factor_text X gid)).
(** [v] grants the holder of the public key [pk] the rights asked for in the group [gid] *)
Definition grants (C : scrypt) (gid pk v : bytes) (write del : bool) : Prop :=
  length v = 100 /\ (nth 0 v NUL = ascii_of_nat 3 \/ bit_set 3 (nth 1 v NUL)) /\ bit_set 0 (nth 1 v NUL) /\
  (write = true -> bit_set 1 (nth 1 v NUL)) /\ (del = true -> bit_set 2 (nth 1 v NUL)) /\
  exists group kT, account_of (b "03") gid group /\ s_mul C (firstn 32 (skipn 4 v)) (positive_key pk) = Some kT /\
    g_verify (s_g C) (skipn 36 v) (firstn 4 v ++ kT) group = true.
(** A membership: the group's seed, the member's X25519 key and the group's public key. *)
Definition membership : Type := bytes * bytes * bytes.
Definition factor_of (C : scrypt) (m : membership) : bytes := let '(seed, X, gid) := m in factor C seed X gid.
(** reducing the hash modulo L has no collision among these memberships *)
Definition collision_free (C : scrypt) (ms : list membership) : Prop :=
  forall seed X gid seed' X' gid', In (seed, X, gid) ms -> In (seed', X', gid') ms -> factor C seed X gid = factor C seed' X' gid' -> factor_text X gid = factor_text X' gid'.
