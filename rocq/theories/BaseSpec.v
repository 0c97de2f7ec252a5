(** What a user can do with a config object, and the histories that result.  Definitions only. *)
From Verif Require Export Base Spec.

Inductive op :=
| OpAssign (inter : list bytes) (last : bytes) (v : value)
| OpErase (inter : list bytes) (last : bytes)
| OpSetInsert (inter : list bytes) (last : bytes) (x : scalar)
| OpSetErase (inter : list bytes) (last : bytes) (x : scalar)
| OpPush
| OpConfirm (seqno : Z) (hash : bytes)
| OpMerge (l : list (bytes * bytes))
| OpDump
| OpAddKey (k : bytes) (high_priority dirty_config : bool)
| OpRemoveKey (k : bytes) (from : nat) (dirty_config : bool)
| OpClearKeys (dirty_config : bool)
| OpReplaceKeys (ks : list bytes) (dirty_config : bool).
Definition ignore {A} (c : call A) : call unit := (match fst c with Ok _ => Ok tt | x => failed x end, snd c).
Definition run (B : benv) (o : op) (st : bstate) : call unit :=
  match o with
  | OpAssign i l v => assign_at B i l v st
  | OpErase i l => erase_at B i l st
  | OpSetInsert i l x => set_insert_at B i l x st
  | OpSetErase i l x => set_erase_at B i l x st
  | OpPush => ignore (push B st)
  | OpConfirm s h => confirm_pushed B s h st
  | OpMerge l => ignore (merge B l st)
  | OpDump => ignore (dump B st)
  | OpAddKey k h d => add_key B k h d st
  | OpRemoveKey k f d => ignore (remove_key B k f d st)
  | OpClearKeys d => ignore (clear_keys B d st)
  | OpReplaceKeys ks d => replace_keys B ks d st
  end.
Definition is_edit (o : op) : bool :=
  match o with OpAssign _ _ _ | OpErase _ _ | OpSetInsert _ _ _ | OpSetErase _ _ _ => true | _ => false end.

(** the call came back: normally, or with an exception *)
Definition returned {A} (x : outcome A) : Prop := x <> UB /\ x <> Hang.

(** the messages a merge call sees: our own one (if any) and the ones received, decrypted and unpacked *)
Definition merge_sees (B : benv) (l : list (bytes * bytes)) (st : bstate) (mine : list (bytes * bytes)) (inc : list (bytes * bytes)) : Prop :=
  (exists st1, own_part B st = Ok (mine, st1)) /\ incoming B (s_keys st) (map (unwrap1 B st) l) = Ok inc.
(** loading this message and publishing it again gives the same bytes *)
Definition canonical (E : env) (s : bytes) : Prop :=
  forall m, parse_msg E false s = Ok m -> exists c, serialize E (Plain m) true = Ok (s, c).

(** Arguments and situations covered: values that fit the C++ types; no BLAKE2b collision among the messages of one
    merge; received messages have seqno 0 or more; when signatures are checked, received messages are in the library's
    own encoding; afterwards the data is less than 2^64 bytes. *)
Definition op_ok (B : benv) (o : op) (st : bstate) : Prop :=
  match o with
  | OpAssign _ _ v => wf_v v = true
  | OpSetInsert _ _ x => scalar_ok x = true
  | OpMerge l => forall mine inc, merge_sees B l st mine inc ->
      no_collision (b_env B) (map snd (mine ++ inc)) /\
      (forall h s m, In (h, s) inc -> parse_msg (b_env B) false s = Ok m -> (0 <= m_seqno m)%Z) /\
      (e_verifier (b_env B) <> None -> forall h s, In (h, s) inc -> canonical (b_env B) s)
  | _ => True
  end.
Definition tame (B : benv) (o : op) (st st' : bstate) : Prop := op_ok B o st /\ sendable (s_data st').
Definition any (o : op) (st st' : bstate) : Prop := True.

Definition every (_ : benv) : op -> bstate -> bstate -> Prop := any.

(** the same environment with a function that signs *)
Definition with_signer (g : bytes -> bytes) (B : benv) : benv :=
  mkBenv (mkEnv (e_hash (b_env B)) (e_verifier (b_env B)) (Some g) (e_lag (b_env B))) (b_aead B) (b_domain B) (b_level B) (b_zstd B) (b_unzstd B) (b_proto B) (b_wrap B) (b_unwrap B).

(** One call that came back, any number of calls, and the states of an object over its life: created empty, used,
    dumped and restored, and given the key to sign with when it could only verify before.  [R] restricts the calls considered
    ([any], [every]: not at all). *)
Inductive step (B : benv) (R : op -> bstate -> bstate -> Prop) (st : bstate) : op -> bstate -> Prop :=
| step_run o x st' : run B o st = (x, st') -> returned x -> R o st st' -> step B R st o st'.
Inductive steps (B : benv) (R : op -> bstate -> bstate -> Prop) (st : bstate) : list op -> bstate -> Prop :=
| steps_nil : steps B R st [] st
| steps_cons o st1 l st2 : step B R st o st1 -> steps B R st1 l st2 -> steps B R st (o :: l) st2.
Inductive life_of (R : benv -> op -> bstate -> bstate -> Prop) (B : benv) : bstate -> Prop :=
| life_fresh keys : life_of R B (fresh B keys)
| life_step st o st' : life_of R B st -> step B (R B) st o st' -> life_of R B st'
| life_restore st d st1 keys st' : life_of R B st -> dump B st = (Ok d, st1) -> (N.of_nat (length d) <= uint64_max)%N ->
    restore B keys d = Ok st' -> life_of R B st'
| life_promote A g st : life_of R A st -> readonly A = true -> B = with_signer g A -> life_of R B st.
Notation life B R := (life_of R B).

(** the same object later: after any calls, dumps and restarts *)
Inductive later (B : benv) (R : op -> bstate -> bstate -> Prop) (st : bstate) : bstate -> Prop :=
| later_refl : later B R st st
| later_step st1 o st2 : later B R st st1 -> step B R st1 o st2 -> later B R st st2
| later_restore st1 d st2 keys st3 : later B R st st1 -> dump B st1 = (Ok d, st2) -> (N.of_nat (length d) <= uint64_max)%N ->
    restore B keys d = Ok st3 -> later B R st st3.

(** the assumptions on the environment *)
Record benv_ok (B : benv) : Prop := {
  bo_hash : hash32 (b_env B);
  bo_lag : (1 <= e_lag (b_env B))%Z;
  bo_signer : signer_ok (b_env B);
  bo_sig64 : forall g x, e_signer (b_env B) = Some g -> length (g x) = 64
}.

(** ** fields *)
(** neither path runs through the other *)
Fixpoint apart (p q : list bytes) : bool :=
  match p, q with k :: p', k' :: q' => if eqb k k' then apart p' q' else true | _, _ => false end.
(** what the edit operations are meant to do to the data *)
Definition edited (o : op) (d : dict) : dict :=
  match o with
  | OpAssign i l v => if empty_container v then erase_field i l d else set_field i l v d
  | OpErase i l => erase_field i l d
  | OpSetInsert i l x => insert_elem i l x d
  | OpSetErase i l x => erase_elem i l x d
  | _ => d
  end.
Definition edit_path (o : op) : list bytes :=
  match o with OpAssign i l _ | OpErase i l | OpSetInsert i l _ | OpSetErase i l _ => i ++ [l] | _ => [] end.

(** ** encryption keys *)
Definition without (k : bytes) (l : list bytes) : list bytes := filter (fun x => negb (eqb k x)) l.
(** the list without repetitions, first occurrences kept in order *)
Fixpoint nub (l : list bytes) : list bytes := match l with [] => [] | k :: r => k :: without k (nub r) end.
Definition key_op (o : op) : bool := match o with OpAddKey _ _ _ | OpRemoveKey _ _ _ | OpClearKeys _ | OpReplaceKeys _ _ => true | _ => false end.
(** the key list each call is meant to leave, when its arguments are 32-byte keys *)
Definition keys_after (o : op) (ks : list bytes) : list bytes :=
  match o with
  | OpAddKey k true _ => k :: without k ks
  | OpAddKey k false _ => if mem k ks then ks else ks ++ [k]
  | OpRemoveKey k from _ => firstn from ks ++ without k (skipn from ks)
  | OpClearKeys _ => []
  | OpReplaceKeys new _ => nub new
  | _ => ks
  end.
Definition keys_arg_ok (o : op) : Prop :=
  match o with
  | OpAddKey k _ _ | OpRemoveKey k _ _ => length k = 32
  | OpReplaceKeys new _ => forall k, In k new -> length k = 32
  | _ => True
  end.
Definition wants_dirty (o : op) : bool :=
  match o with OpAddKey _ _ d | OpRemoveKey _ _ d | OpClearKeys d | OpReplaceKeys _ d => d | _ => false end.

(** ** two clients of one config *)
(** They agree on the hash, verification, lag, encryption and wrapping; the second may or may not be able to sign. *)
Record peer (A R : benv) : Prop := {
  pe_hash : e_hash (b_env R) = e_hash (b_env A);
  pe_verifier : e_verifier (b_env R) = e_verifier (b_env A);
  pe_lag : e_lag (b_env R) = e_lag (b_env A);
  pe_signer : e_verifier (b_env A) = None -> e_signer (b_env A) = None /\ e_signer (b_env R) = None;
  pe_aead : b_aead R = b_aead A;
  pe_domain : b_domain R = b_domain A;
  pe_zstd : forall x, b_unzstd R (b_zstd A x) = Some x;
  pe_proto : b_proto R = b_proto A;
  pe_wrap : forall k n c, b_proto A = true -> length k = 32 -> (N.of_nat (length (b_wrap A k n c)) <= MAX_MESSAGE_SIZE)%N -> b_unwrap R k (b_wrap A k n c) = Some c
}.
(** the receiver's key list opens what the sender encrypts with [k]: [k] is in it (first, if messages are wrapped), and no
    key that is tried before it opens the ciphertext *)
Definition opens (A R : benv) (r : bstate) (k c : bytes) : Prop :=
  exists l1 l2 : list bytes, s_keys r = l1 ++ k :: l2 /\ (b_proto A = true -> l1 = []) /\
    forall k', In k' l1 -> decrypt (b_aead R) (snd (unwrap1 R r ([], c))) k' (b_domain R) = Err.
(** both hold the same message: publishing would give the same bytes, and the hash under which the writer will list it in
    its next message is the hash of those bytes *)
Definition in_sync (A : benv) (st : bstate) (R : benv) (r : bstate) : Prop :=
  s_state st <> Dirty /\ s_state r <> Dirty /\
  exists s c c', serialize (b_env A) (s_conf st) true = Ok (s, c) /\ serialize (b_env R) (s_conf r) true = Ok (s, c') /\
    match s_conf st with Plain m => m_sh m = (m_seqno m, e_hash (b_env A) s) | Mut _ _ => True end.
(** BLAKE2b maps the bytes of the two configs' current messages to the same hash only if they are the same *)
Definition apart_hashes (A : benv) (st : bstate) (R : benv) (r : bstate) : Prop :=
  forall s c s0 c0, serialize (b_env A) (s_conf st) true = Ok (s, c) -> serialize (b_env R) (s_conf r) true = Ok (s0, c0) -> no_collision (b_env R) [s0; s].
(** The server hands out every message once and under its own hash: a merge call brings no hash twice, nor the current
    one, nor one waiting to be deleted; and the hash of a stored push is not one waiting to be deleted.  A client that cannot
    sign gets no rival of its current message: another message with the same seqno. *)
Definition once (B : benv) (o : op) (st st' : bstate) : Prop :=
  tame B o st st' /\
  match o with
  | OpMerge l => NoDup (map fst l) /\ (forall h, In h (map fst l) -> h <> s_curr st /\ ~ In h (s_old st)) /\
      (readonly B = true -> forall mine inc, merge_sees B l st mine inc -> forall h s m, In (h, s) inc -> parse_msg (b_env B) false s = Ok m ->
         m_seqno m = s_seqno st -> In s (map snd mine))
  | OpConfirm _ h => ~ In h (s_old st)
  | _ => True
  end.
(** every received message is in the library's own encoding *)
Definition tidy (B : benv) (o : op) (st st' : bstate) : Prop :=
  tame B o st st' /\
  match o with
  | OpMerge l => forall mine inc, merge_sees B l st mine inc -> forall h s, In (h, s) inc -> canonical (b_env B) s
  | _ => True
  end.

(** ** what a merge can make sense of (C68) *)
Definition parses (E : env) (s : bytes) : bool := match parse_msg E false s with Ok _ => true | _ => false end.
(** one of our keys opens the message, and what is inside (decompressed if need be) is a valid, properly signed config *)
Definition acceptable (B : benv) (st : bstate) (p : bytes * bytes) : bool :=
  match decrypt_any B (s_keys st) (snd (unwrap1 B st p)) with
  | Ok (Some plain) => match unpack B plain with Some s => parses (b_env B) s | None => false end
  | _ => false
  end.
(** ... or at least open *)
Definition openable (B : benv) (st : bstate) (p : bytes * bytes) : bool :=
  match decrypt_any B (s_keys st) (snd (unwrap1 B st p)) with
  | Ok (Some plain) => match unpack B plain with Some _ => true | None => false end
  | _ => false
  end.
