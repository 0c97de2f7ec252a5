(** Specification of C93: the devices of an account. *)
From Verif Require Export BaseSpec ConvergeSpec Open.

(** A state that a device of the account with this 32-byte seed can be in: its config was made with the account's secret key (given
    as 64-byte secret key, or as its seed), then used in any way that does not touch its keys, dumped and made again from the dump. *)
Inductive device (R : benv -> op -> bstate -> bstate -> Prop) (B : benv) (seed : bytes) : bstate -> Prop :=
| dev_new sk st : firstn 32 sk = seed -> open_user B sk None = Ok st -> device R B seed st
| dev_use st o st' : device R B seed st -> key_op o = false -> step B (R B) st o st' -> device R B seed st'
| dev_reopen st d st1 sk st' : device R B seed st -> dump B st = (Ok d, st1) -> (N.of_nat (length d) <= uint64_max)%N ->
    firstn 32 sk = seed -> open_user B sk (Some d) = Ok st' -> device R B seed st'.
(** the environment of a class without signatures *)
Definition unsigned (B : benv) : Prop := e_verifier (b_env B) = None /\ e_signer (b_env B) = None.
(** Devices of one account. *)
Record account {I : Type} (B : I -> benv) (st : I -> bstate) (seed : bytes) : Prop := {
  ac_aead : forall i, aead_ok (b_aead (B i));
  ac_env : forall i, benv_ok (B i);
  ac_unsigned : forall i, unsigned (B i);
  ac_same : forall i j, b_env (B i) = b_env (B j);
  ac_peer : forall i j, peer (B i) (B j);
  ac_device : forall i, device plainly (B i) seed (st i);
  ac_apart : forall i j, apart_hashes (B i) (st i) (B j) (st j);
  ac_room : forall i, (s_seqno (st i) + e_lag (b_env (B i)) < 2 ^ 63)%Z
}.
(** [l i], what device [i] fetches: what the devices pushed, in any order, under any hashes; its own may be missing *)
Definition fetched {I : Type} (st : I -> bstate) (c : I -> bytes) (l : I -> list (bytes * bytes)) : Prop :=
  (forall i h x, In (h, x) (l i) -> exists j, x = c j) /\ forall i j, In (c j) (map snd (l i)) \/ j = i /\ (0 < s_seqno (st i))%Z.

(** the keys after C calls, most recent first *)
Definition c_keys_after (c : ckey_cmd) (ks : list bytes) : list bytes :=
  match c with
  | CAddKey m => let k := firstn 32 m in k :: without k ks
  | CAddKeyLow m => let k := firstn 32 m in if mem k ks then ks else ks ++ [k]
  | CRemoveKey m => without (firstn 32 m) ks
  | CClearKeys => []
  end.
Definition c_arg_ok (c : ckey_cmd) : Prop := match c with CAddKey m | CAddKeyLow m | CRemoveKey m => 32 <= length m | CClearKeys => True end.
