(** ConfigBase: src/config/base.cpp 26-534 and include/session/config/base.hpp 140-388, 646-780.  Definitions only. *)
From Verif Require Export Merge Crypt Fields.

(** Everything a ConfigBase subclass or the library below supplies: the message environment (hash, verifier, signer,
    lag), the AEAD, encryption_domain(), compression_level(), zstd, and the protobuf wrapping of protos.cpp (used when
    accepts_protobuf()).  All are pure functions here. *)
Record benv := mkBenv {
  b_env : env;
  b_aead : aead;
  b_domain : bytes;
  b_level : option Z;
  b_zstd : bytes -> bytes;
  b_unzstd : bytes -> option bytes;
  b_proto : bool;
  b_wrap : bytes -> Z -> bytes -> bytes;
  b_unwrap : bytes -> bytes -> option bytes
}.
Definition MAX_MESSAGE_SIZE : N := 76800.                           (* config.hpp 19 *)

(** base.hpp 34-47.  Only the three named states: a dump carrying another number is not modelled (see [restore]). *)
Inductive cstate := Clean | Dirty | Waiting.
(** base.hpp 140-183.  [s_old] (std::unordered_set) is kept sorted here; nothing below depends on its order. *)
Record bstate := mkBase {
  s_conf : config;
  s_state : cstate;
  s_curr : bytes;
  s_old : list bytes;
  s_needs_dump : bool;
  s_keys : list bytes
}.
Definition s_msg (st : bstate) : msg := c_msg (s_conf st).
Definition s_seqno (st : bstate) : Z := m_seqno (s_msg st).           (* _config->seqno() *)
Definition s_data (st : bstate) : dict := m_data (s_msg st).          (* _config->data() *)
Definition is_dirty (st : bstate) : bool := match s_state st with Dirty => true | _ => false end.
Definition is_clean (st : bstate) : bool := match s_state st with Clean => true | _ => false end.
Definition readonly (B : benv) : bool := read_only (b_env B).         (* base.hpp 986 *)
Definition needs_push (st : bstate) : bool := negb (is_clean st).     (* base.cpp 261-263 *)
Definition current_hashes (st : bstate) : list bytes :=               (* 254-259 *)
  if is_nil (s_curr st) then [] else [s_curr st].
Definition set_conf (c : config) (st : bstate) : bstate := mkBase c (s_state st) (s_curr st) (s_old st) (s_needs_dump st) (s_keys st).
Definition set_keys (ks : list bytes) (st : bstate) : bstate := mkBase (s_conf st) (s_state st) (s_curr st) (s_old st) (s_needs_dump st) ks.
Definition set_old (l : list bytes) (st : bstate) : bstate := mkBase (s_conf st) (s_state st) (s_curr st) l (s_needs_dump st) (s_keys st).

(** A call: what it returns or throws, and the object afterwards. *)
Definition call (A : Type) := (outcome A * bstate)%type.
Definition failed {A B} (x : outcome A) : outcome B :=
  match x with Ok _ => UB | Err => Err | Throw => Throw | Hang => Hang | UB => UB end.

(** 26-36 set_state *)
Definition set_state (B : benv) (s : cstate) (st : bstate) : call unit :=
  if match s with Dirty => readonly B | _ => false end then (Throw, st)
  else
    let move := is_clean st && negb (is_nil (s_curr st)) in
    (Ok tt, mkBase (s_conf st) s (if move then [] else s_curr st) (if move then sadd (s_curr st) (s_old st) else s_old st) true (s_keys st)).
(** 38-47 dirty, up to the returned reference *)
Definition dirty (B : benv) (st : bstate) : call unit :=
  if is_dirty st then
    match s_conf st with Mut _ _ => (Ok tt, st) | Plain _ => (Throw, st) end
  else
    match set_state B Dirty st with
    | (Ok _, st1) => match increment (b_env B) (s_conf st1) with
                     | Ok c => (Ok tt, set_conf c st1)
                     | x => (failed x, st1)
                     end
    | (x, st1) => (x, st1)
    end.
(** dirty().data() = f(data) *)
Definition edit (B : benv) (f : dict -> dict) (st : bstate) : call unit :=
  match dirty B st with
  | (Ok _, st1) => match s_conf st1 with
                   | Mut m o => (Ok tt, set_conf (Mut (set_data m (f (m_data m))) o) st1)
                   | Plain _ => (Throw, st1)
                   end
  | r => r
  end.

(** ** field proxies, base.hpp 320-388, 646-658 *)
Definition erase_at (B : benv) (inter : list bytes) (last : bytes) (st : bstate) : call unit :=
  if negb (is_dirty st) && match field inter last (s_data st) with None => true | _ => false end then (Ok tt, st)
  else edit B (erase_field inter last) st.
Definition empty_container (v : value) : bool := match v with VSet [] => true | VDict [] => true | _ => false end.
(** `*current == value`: equality of the trees; decided by [value_eqb] *)
Fixpoint value_eqb (x y : value) : bool :=
  match x, y with
  | VScal a, VScal c => eqb a c
  | VSet a, VSet c => eqb a c
  | VDict a, VDict c =>
      (fix go (a c : list (bytes * value)) : bool :=
         match a, c with
         | [], [] => true
         | (k, v) :: a, (k', w) :: c => eqb k k' && value_eqb v w && go a c
         | _, _ => false
         end) a c
  | _, _ => false
  end.
Definition assign_at (B : benv) (inter : list bytes) (last : bytes) (v : value) (st : bstate) : call unit :=
  if empty_container v then erase_at B inter last st
  else if negb (is_dirty st) && match field inter last (s_data st) with Some w => value_eqb w v | None => false end then (Ok tt, st)
  else edit B (set_field inter last v) st.
Definition set_insert_at (B : benv) (inter : list bytes) (last : bytes) (x : scalar) (st : bstate) : call unit :=
  if negb (is_dirty st) && match field inter last (s_data st) with Some (VSet l) => mem x l | _ => false end then (Ok tt, st)
  else edit B (insert_elem inter last x) st.
Definition set_erase_at (B : benv) (inter : list bytes) (last : bytes) (x : scalar) (st : bstate) : call unit :=
  if negb (is_dirty st) && match field inter last (s_data st) with Some (VSet l) => negb (mem x l) | _ => false end then (Ok tt, st)
  else edit B (erase_elem inter last x) st.

(** ** merging *)
(** 127-141: try every key in order.  [Throw]: make_encrypt_key's std::invalid_argument is not caught *)
Fixpoint decrypt_any (B : benv) (keys : list bytes) (c : bytes) : outcome (option bytes) :=
  match keys with
  | [] => Ok None
  | k :: r => match decrypt (b_aead B) c k (b_domain B) with
              | Ok m => Ok (Some m)
              | Err => decrypt_any B r c
              | x => failed x
              end
  end.
(** 151-190: padding, multipart, decompression.  [None]: skipped.  A plaintext that does not start with 'd' is only
    logged. *)
Definition unpack (B : benv) (plain : bytes) : option bytes :=
  match strip_nul plain with
  | [] => None
  | c :: r =>
      if Ascii.eqb c "m" then None
      else if Ascii.eqb c "z" then match b_unzstd B r with Some (x :: y) => Some (x :: y) | _ => None end
      else Some (c :: r)
  end.
(** 120-190: the (hash, message) pairs added to the ones to merge *)
Fixpoint incoming (B : benv) (keys : list bytes) (l : list (bytes * bytes)) : outcome (list (bytes * bytes)) :=
  match l with
  | [] => Ok []
  | (h, c) :: r =>
      d <- decrypt_any B keys c ;;
      t <- incoming B keys r ;;
      Ok match d with
         | Some p => match unpack B p with Some m => (h, m) :: t | None => t end
         | None => t
         end
  end.
Definition memn (i : nat) (l : list nat) : bool := existsb (Nat.eqb i) l.
(** 204-214: every hash that is not the adopted message's and not of an unparsable message *)
Fixpoint obsolete (i : nat) (super : option nat) (bad : list nat) (hs : list bytes) : list bytes :=
  match hs with
  | [] => []
  | h :: r =>
      let rest := obsolete (S i) super bad r in
      if negb (match super with Some j => Nat.eqb i j | None => false end) && negb (memn i bad) && negb (is_nil h) then h :: rest else rest
  end.
(** 245-249: the hashes reported back *)
Fixpoint good_hashes (i : nat) (bad : list nat) (hs : list bytes) : list bytes :=
  match hs with [] => [] | h :: r => if memn i bad then good_hashes (S i) bad r else h :: good_hashes (S i) bad r end.
(** 192-202: new_conf and bad_confs *)
Definition merge_confs (B : benv) (from_dirty : bool) (l : list bytes) : outcome (config * list nat) :=
  if from_dirty then merge_mutable (b_env B) l
  else rb <- merge_msgs (b_env B) l ;; Ok (Plain (fst rb), snd rb).
(** 216-242: what happens to the object.  The assertions are not modelled (release build). *)
Definition adopt (B : benv) (old_seqno : Z) (new : config) (hashes : list bytes) (st : bstate) : call unit :=
  let m := c_msg new in
  if (m_seqno m =? old_seqno)%Z then (Ok tt, st)
  else match m_unmerged m with
       | None => set_state B Dirty (set_conf (if is_dirty st then new else retain new) st)
       | Some i =>
           if is_dirty st && Nat.eqb i 0 && (m_seqno m =? old_seqno + 1)%Z then (Ok tt, st)
           else match set_state B Clean (set_conf new st) with
                | (Ok _, st1) => (Ok tt, mkBase (s_conf st1) (s_state st1) (nth i hashes []) (s_old st1) (s_needs_dump st1) (s_keys st1))
                | r => r
                end
       end.
(** 96-117: our own message goes first, unless the config is still empty; the object after serialising *)
Definition own_part (B : benv) (st : bstate) : outcome (list (bytes * bytes) * bstate) :=
  if negb (s_seqno st =? 0)%Z || is_dirty st then
    sc <- serialize (b_env B) (s_conf st) true ;; Ok ([(s_curr st, fst sc)], set_conf (snd sc) st)
  else Ok ([], st).
(** 90-252 _merge *)
Definition merge_plain (B : benv) (configs : list (bytes * bytes)) (st : bstate) : call (list bytes) :=
  match s_keys st with
  | [] => (Throw, st)
  | _ :: _ =>
      match own_part B st with
      | Ok (mine, st1) =>
          match incoming B (s_keys st) configs with
          | Ok inc =>
              match merge_confs B (is_dirty st) (map snd (mine ++ inc)) with
              | Ok (new, bad) =>
                  let hashes := map fst (mine ++ inc) in
                  let st2 := set_old (fold_left (fun l h => sadd h l) (obsolete 0 (m_unmerged (c_msg new)) bad hashes) (s_old st1)) st1 in
                  match adopt B (s_seqno st) new hashes st2 with
                  | (Ok _, st3) => (Ok (good_hashes (length mine) bad (map fst inc)), st3)
                  | (x, st3) => (failed x, st3)
                  end
              | x => (failed x, st1)
              end
          | x => (failed x, st1)
          end
      | x => (failed x, st)
      end
  end.
(** 65-88 merge: unwrap what can be unwrapped with the first key *)
Definition unwrap1 (B : benv) (st : bstate) (p : bytes * bytes) : bytes * bytes :=
  match s_keys st with
  | k :: _ => if b_proto B then match b_unwrap B k (snd p) with Some c => (fst p, c) | None => p end else p
  | [] => p
  end.
Definition merge (B : benv) (configs : list (bytes * bytes)) (st : bstate) : call (list bytes) :=
  merge_plain B (map (unwrap1 B st) configs) st.

(** ** pushing *)
(** 277-311 push: seqno, message, obsolete hashes.  The bytes are computed before anything changes. *)
Definition push (B : benv) (st : bstate) : call (Z * bytes * list bytes) :=
  match s_keys st with
  | [] => (Throw, st)
  | k :: _ =>
      match serialize (b_env B) (s_conf st) true with
      | Ok (s, conf) =>
          let st1 := set_conf conf st in
          match encrypt (b_aead B) (pad_message (compress_message (b_zstd B) (b_level B) s) OVERHEAD) k (b_domain B) with
          | Ok c =>
              let c := if b_proto B then b_wrap B k (s_seqno st) c else c in
              if (MAX_MESSAGE_SIZE <? N.of_nat (length c))%N then (Throw, st1)
              else
                match (if is_dirty st1 then set_state B Waiting st1 else (Ok tt, st1)) with
                | (Ok _, st2) => (Ok (s_seqno st, c, if readonly B then [] else s_old st2), set_old [] st2)
                | (x, st2) => (failed x, st2)
                end
          | x => (failed x, st1)
          end
      | x => (failed x, st)
      end
  end.
(** 313-320 *)
Definition confirm_pushed (B : benv) (seqno : Z) (hash : bytes) (st : bstate) : call unit :=
  match s_state st with
  | Waiting =>
      if (seqno =? s_seqno st)%Z then
        match set_state B Clean st with
        | (Ok _, st1) => (Ok tt, mkBase (s_conf st1) (s_state st1) hash (s_old st1) (s_needs_dump st1) (s_keys st1))
        | r => r
        end
      else (Ok tt, st)
  | _ => (Ok tt, st)
  end.

(** ** dump and restore *)
Definition state_no (s : cstate) : Z := match s with Clean => 0 | Dirty => 1 | Waiting => 2 end%Z.
(** 330-347 make_dump (no subclass has extra_data); returns the bytes and the refreshed message *)
Definition make_dump (B : benv) (st : bstate) : outcome (bytes * config) :=
  sc <- serialize (b_env B) (s_conf st) false ;;
  Ok (enc (BDict [(b "!", BInt (state_no (s_state st))); (b "$", BStr (fst sc)); (b "(", BStr (s_curr st)); (b ")", BList (map BStr (s_old st)))]), snd sc).
(** 322-328 dump *)
Definition dump (B : benv) (st : bstate) : call bytes :=
  let st := if readonly B then set_old [] st else st in
  match make_dump B st with
  | Ok (d, conf) => (Ok d, mkBase conf (s_state st) (s_curr st) (s_old st) false (s_keys st))
  | x => (failed x, st)
  end.
(** oxenc bt_dict_consumer::skip_until at cursor [s]: found or not, and the cursor; [None]: exception *)
Fixpoint skip_until (fuel : nat) (k : bytes) (s : bytes) : option (bool * bytes) :=
  match fuel with
  | O => None
  | S f =>
      match next_key s with
      | None => None
      | Some None => Some (false, s)
      | Some (Some (k', r)) =>
          if ltb k' k then match parse1 r with Some (_, t) => skip_until f k t | None => None end
          else Some (eqb k' k, s)
      end
  end.
Definition str_list (l : list bt) : option (list bytes) := map_opt (fun x => match x with BStr s => Some s | _ => None end) l.
(** 349-417: the constructor given a dump, without a verifier and signer until the end, then the keys are loaded by
    the subclass.  [Throw]: any exception while reading the dump's own fields.  A state number other than 0, 1, 2 is
    [Throw] here (the C++ keeps the number). *)
(** 414-416: "+" must hold a dict; no class has extra data (base.hpp 795, 804), so it is dropped *)
Definition skip_extra (s : bytes) (st : bstate) : outcome bstate :=
  match skip_until (S (length s)) (b "+") s with
  | Some (true, s') => kv <- consume s' ;; match kv with (_, BDict _, _) => Ok st | _ => Throw end
  | Some (false, _) => Ok st
  | None => Throw
  end.
Definition restore (B : benv) (keys : list bytes) (d : bytes) : outcome bstate :=
  let E := mkEnv (e_hash (b_env B)) None None (e_lag (b_env B)) in
  match d with
  | "d"%char :: s0 =>
      match skip_until (S (length s0)) (b "!") s0 with
      | Some (true, s1) =>
          kv <- consume s1 ;;
          match kv with
          | (_, BInt z, s2) =>
              st <- (if (z =? 0)%Z then Ok Clean else if (z =? 1)%Z then Ok Dirty else if (z =? 2)%Z then Ok Waiting else Throw) ;;
              match skip_until (S (length s2)) (b "$") s2 with
              | Some (true, s3) =>
                  kv <- consume s3 ;;
                  match kv with
                  | (_, BStr data, s4) =>
                      conf <- match st with
                              | Dirty => mutable_of E data
                              | _ => m <- parse_msg E true data ;; Ok (Plain m)
                              end ;;
                      match skip_until (S (length s4)) (b "(") s4 with
                      | Some (true, s5) =>
                          kv <- consume s5 ;;
                          match kv with
                          | (_, BStr curr, s6) =>
                              match skip_until (S (length s6)) (b ")") s6 with
                              | Some (true, s7) =>
                                  kv <- consume s7 ;;
                                  match kv with
                                  | (_, BList l, s8) =>
                                      match str_list l with
                                      | Some old => skip_extra s8 (mkBase conf st curr (fold_left (fun l h => sadd h l) old []) false keys)
                                      | None => Throw
                                      end
                                  | _ => Throw
                                  end
                              | _ => Throw
                              end
                          | _ => Throw
                          end
                      | Some (false, s5) => skip_extra s5 (mkBase conf st [] [] false keys)
                      | None => Throw
                      end
                  | _ => Throw
                  end
              | _ => Throw
              end
          | _ => Throw
          end
      | _ => Throw
      end
  | _ => Throw
  end.
(** 349-364: the constructor without a dump *)
Definition fresh (B : benv) (keys : list bytes) : bstate := mkBase (Plain (empty_msg (b_env B))) Clean [] [] false keys.

(** ** encryption keys, 419-526 *)
Definition has_key_ (st : bstate) (k : bytes) : outcome bool :=                  (* 423-433 *)
  if negb (Nat.eqb (length k) 32) then Throw else Ok (mem k (s_keys st)).
(** 505-526 remove_key; a key shorter than 32 bytes is read past its end *)
Definition remove_key (B : benv) (k : bytes) (from : nat) (dirty_config : bool) (st : bstate) : call bool :=
  if Nat.leb (length (s_keys st)) from then (Ok false, st)
  else if Nat.ltb (length k) 32 then (UB, st)
  else
    let k := firstn 32 k in
    let d := dirty_config && negb (readonly B) && match s_keys st with f :: _ => eqb k f | [] => false end in
    let ks := firstn from (s_keys st) ++ filter (fun x => negb (eqb k x)) (skipn from (s_keys st)) in
    let r := Nat.ltb (length ks) (length (s_keys st)) in
    let st1 := set_keys ks st in
    if d then match dirty B st1 with (Ok _, st2) => (Ok r, st2) | (x, st2) => (failed x, st2) end else (Ok r, st1).
(** 442-468 add_key *)
Definition add_key (B : benv) (k : bytes) (high_priority dirty_config : bool) (st : bstate) : call unit :=
  if negb (Nat.eqb (length k) 32) then (Throw, st)
  else if match s_keys st with f :: _ => eqb f k | [] => false end then (Ok tt, st)
  else if negb high_priority && mem k (s_keys st) then (Ok tt, st)
  else
    let ks := if high_priority then k :: (match s_keys st with f :: r => f :: filter (fun x => negb (eqb k x)) r | [] => [] end)
              else s_keys st ++ [k] in
    let st1 := set_keys ks st in
    if dirty_config && negb (readonly B) && (Nat.eqb (length ks) 1 || high_priority) then dirty B st1 else (Ok tt, st1).
(** 470-479 *)
Definition clear_keys (B : benv) (dirty_config : bool) (st : bstate) : call nat :=
  let n := length (s_keys st) in
  let st1 := set_keys [] st in
  if dirty_config && negb (readonly B) && Nat.ltb 0 n then
    match dirty B st1 with (Ok _, st2) => (Ok n, st2) | (x, st2) => (failed x, st2) end
  else (Ok n, st1).
(** 481-503 *)
Definition replace_keys (B : benv) (new : list bytes) (dirty_config : bool) (st : bstate) : call unit :=
  match new with
  | [] => match s_keys st with
          | [] => (Ok tt, st)
          | _ => match clear_keys B dirty_config st with (Ok _, st1) => (Ok tt, st1) | (x, st1) => (failed x, st1) end
          end
  | f :: _ =>
      if negb (forallb (fun k => Nat.eqb (length k) 32) new) then (Throw, st)
      else
        let d := dirty_config && negb (readonly B) && match s_keys st with [] => true | g :: _ => negb (eqb g f) end in
        let st1 := fold_left (fun st k => snd (add_key B k false false st)) new (set_keys [] st) in
        if d then dirty B st1 else (Ok tt, st1)
  end.
