(** The group keys object: src/config/groups/keys.cpp 30-560, 833-1366, include/session/config/groups/keys.hpp 72-200,
    and ConfigSig in src/config/base.cpp 536-598.  Definitions only. *)
From Verif Require Export Multi Hex.

(** keys.hpp 79-92 key_info: (generation, (timestamp, key)), ordered by operator< = std::tie(generation, timestamp, key).
    Timestamps are milliseconds. *)
Definition key_info := (Z * (Z * bytes))%type.
Definition k_gen (k : key_info) : Z := fst k.
Definition k_ts (k : key_info) : Z := fst (snd k).
Definition k_key (k : key_info) : bytes := snd (snd k).
Definition KEY_EXPIRY : Z := 2 * 30 * 24 * 3600 * 1000.              (* keys.hpp 151 *)
Definition MESSAGE_KEY_MULTIPLE : nat := 75.                          (* keys.hpp 133 *)
Definition MAX_PLAINTEXT : N := 1000000.                              (* keys.hpp 154 *)
(** A time_point counts nanoseconds in an int64: making one, or adding KEY_EXPIRY to one, outside that range is undefined.
    Simplification: checked once when a timestamp is read, for both. *)
Definition ts_ok (ms : Z) : bool := (int64_min <=? ms * 1000000)%Z && ((ms + KEY_EXPIRY) * 1000000 <=? int64_max)%Z.

(** libsodium and zstd, as parameters *)
Record gcrypt := mkGcrypt {
  g_x : xcrypt;
  g_hash : nat -> bytes -> bytes -> bytes;            (* keyed BLAKE2b: output size, key, input *)
  g_xpk : bytes -> option bytes;                      (* crypto_sign_ed25519_pk_to_curve25519 *)
  g_xsk : bytes -> bytes;                             (* crypto_sign_ed25519_sk_to_curve25519 *)
  g_sign : bytes -> bytes -> bytes;                   (* crypto_sign_ed25519_detached: secret key, message *)
  g_verify : bytes -> bytes -> bytes -> bool;         (* crypto_sign_ed25519_verify_detached: signature, message, public key *)
  g_rng : bytes -> nat -> bytes;                      (* randombytes_buf_deterministic: seed, size *)
  g_edpk : bytes -> bytes;                            (* crypto_sign_ed25519_seed_keypair: the public key of a seed; the secret key is seed ++ public key *)
  g_zstd : bytes -> bytes;
  g_unzstd : N -> bytes -> option bytes               (* internal.cpp 207-231 zstd_decompress: maximum size, data *)
}.

(** keys.hpp 76-110.  [ko_active]: std::map from generation to a set of hashes (kept sorted here; nothing depends on the
    order).  Public keys are 32 bytes, secret keys 64 (seed, public key). *)
Record kobj := mkK {
  ko_user : bytes;
  ko_pk : bytes;
  ko_sk : option bytes;
  ko_keys : list key_info;
  ko_active : list (Z * list bytes);
  ko_pconf : bytes;
  ko_pgen : Z;
  ko_pkey : bytes;
  ko_needs_dump : bool
}.
Definition admin (o : kobj) : bool := match ko_sk o with Some _ => true | None => false end.
Definition user_pk (o : kobj) : bytes := skipn 32 (ko_user o).
(** keys.cpp 35-63: a new object without a dump *)
Definition new_keys (user pk : bytes) (sk : option bytes) : kobj := mkK user pk sk [] [] [] (-1) (repeat NUL 32) false.
Definition with_keys (o : kobj) (ks : list key_info) (act : list (Z * list bytes)) (nd : bool) : kobj :=
  mkK (ko_user o) (ko_pk o) (ko_sk o) ks act (ko_pconf o) (ko_pgen o) (ko_pkey o) nd.

(** 184-209 *)
Definition group_keys (o : kobj) : list bytes :=
  (if is_nil (ko_pconf o) then [] else [ko_pkey o]) ++ map k_key (rev (ko_keys o)).
Definition group_enc_key (o : kobj) : outcome bytes :=
  if negb (is_nil (ko_pconf o)) then Ok (ko_pkey o)
  else match rev (ko_keys o) with [] => Throw | k :: _ => Ok (k_key k) end.
(** base.cpp 586-598 seed_hash *)
Definition seed_hash (G : gcrypt) (sk key : bytes) : bytes := g_hash G 32 (firstn 64 key) (firstn 32 sk).

(** 211-233 load_admin_key.  The info and members configs get the same secret key. *)
Definition load_admin_key (G : gcrypt) (secret : bytes) (o : kobj) : outcome kobj :=
  if admin o then Ok o
  else if negb (Nat.eqb (length secret) 64 || Nat.eqb (length secret) 32) then Throw
  else
    let seed := firstn 32 secret in
    if negb (eqb (ko_pk o) (g_edpk G seed)) then Throw
    else Ok (mkK (ko_user o) (g_edpk G seed) (Some (seed ++ g_edpk G seed)) (ko_keys o) (ko_active o) (ko_pconf o) (ko_pgen o) (ko_pkey o) (ko_needs_dump o)).

(** ** the key list *)
(** 1120-1157: the suffix of the (sorted) list that is kept.  A whole generation goes when the first key of the next
    one is more than KEY_EXPIRY older than the last key of the list. *)
Fixpoint skip_gen (g : Z) (l : list key_info) : list key_info :=
  match l with k :: r => if (k_gen k =? g)%Z then skip_gen g r else l | [] => [] end.
Fixpoint unexpired (fuel : nat) (newest : Z) (l : list key_info) : list key_info :=
  match fuel, l with
  | S f, k :: r =>
      match skip_gen (k_gen k) r with
      | n :: _ => if (k_ts n + KEY_EXPIRY <? newest)%Z then unexpired f newest (skip_gen (k_gen k) r) else l
      | [] => l
      end
  | _, _ => l
  end.
Definition newest_ts (l : list key_info) : Z := match rev l with k :: _ => k_ts k | [] => 0%Z end.
Definition expire_keys (l : list key_info) : list key_info :=
  match l with _ :: _ :: _ => unexpired (length l) (newest_ts l) l | _ => l end.
(** 1159-1172 *)
Definition expire_active (ks : list key_info) (act : list (Z * list bytes)) : list (Z * list bytes) :=
  match ks with k :: _ => filter (fun p => (k_gen k <=? fst p)%Z) act | [] => [] end.
Definition remove_expired (o : kobj) : kobj :=
  let ks := expire_keys (ko_keys o) in with_keys o ks (expire_active ks (ko_active o)) (ko_needs_dump o).
(** active_msgs_[gen].emplace(hash) *)
Definition add_active (g : Z) (h : bytes) (act : list (Z * list bytes)) : list (Z * list bytes) :=
  insert g (sadd h (match lookup g act with Some l => l | None => [] end)) act.
(** std::lower_bound and vector::insert *)
Fixpoint place (x : key_info) (l : list key_info) : list key_info :=
  match l with y :: r => if ltb y x then y :: place x r else x :: l | [] => [x] end.
(** 840-866 insert_key.  The list is sorted, so std::equal_range by generation is all keys of that generation. *)
Definition same_key (x y : key_info) : bool := (k_gen x =? k_gen y)%Z && eqb (k_key x) (k_key y).
Definition stale (x : key_info) (l : list key_info) : bool :=
  match l with
  | f :: _ :: _ => negb (ltb f x) && (k_gen x <? k_gen f)%Z && (k_ts f + KEY_EXPIRY <? newest_ts l)%Z
  | _ => false
  end.
Definition insert_key (h : bytes) (x : key_info) (o : kobj) : kobj :=
  if existsb (fun y => same_key y x) (ko_keys o) then with_keys o (ko_keys o) (add_active (k_gen x) h (ko_active o)) (ko_needs_dump o)
  else if stale x (ko_keys o) then o
  else
    let o' := remove_expired (with_keys o (place x (ko_keys o)) (add_active (k_gen x) h (ko_active o)) (ko_needs_dump o)) in
    with_keys o' (ko_keys o') (ko_active o') true.
(** 1175-1184 *)
Definition needs_rekey (o : kobj) : bool :=
  admin o && match rev (ko_keys o) with k :: k' :: _ => (k_gen k =? k_gen k')%Z | _ => false end.
(** 1120-1125 *)
Definition current_msgs (o : kobj) : list bytes := flat_map snd (ko_active o).

(** ** dump, 66-182 *)
Definition key_entry (k : key_info) : bt := BDict [(b "g", BInt (k_gen k)); (b "k", BStr (k_key k)); (b "t", BInt (k_ts k))].
Definition kdump (o : kobj) : bytes :=
  enc (BDict ([(b "active", BList (map (fun p => BList (BInt (fst p) :: map BStr (snd p))) (ko_active o)));
               (b "keys", BList (map key_entry (ko_keys o)))] ++
              if is_nil (ko_pconf o) then [] else [(b "pending", BDict [(b "c", BStr (ko_pconf o)); (b "g", BInt (ko_pgen o)); (b "k", BStr (ko_pkey o))])])).
Definition dumped (o : kobj) : kobj := with_keys o (ko_keys o) (ko_active o) false.
(** skip_until in a dict that has been validated as a whole *)
Fixpoint seek (k : bytes) (d : btdict) : bool * btdict :=
  match d with
  | (k', v) :: r => if ltb k' k then seek k r else (eqb k' k, d)
  | [] => (false, [])
  end.
Definition seek_val (k : bytes) (d : btdict) : outcome (bt * btdict) :=
  match seek k d with (true, (_, v) :: r) => Ok (v, r) | _ => Throw end.
Definition seek_int (k : bytes) (d : btdict) : outcome (Z * btdict) :=
  vr <- seek_val k d ;; match fst vr with BInt z => if int64_ok z then Ok (z, snd vr) else Throw | _ => Throw end.
Definition seek_str (k : bytes) (d : btdict) : outcome (bytes * btdict) :=
  vr <- seek_val k d ;; match fst vr with BStr s => Ok (s, snd vr) | _ => Throw end.
(** one key: "g", "k" (32 bytes), "t"; 1002-1020 and 130-147 *)
Definition read_key (v : bt) : outcome key_info :=
  match v with
  | BDict d =>
      g <- seek_int (b "g") d ;;
      k <- seek_str (b "k") (snd g) ;;
      if negb (Nat.eqb (length (fst k)) 32) then Throw else
      t <- seek_int (b "t") (snd k) ;;
      if negb (ts_ok (fst t)) then UB else Ok (fst g, (fst t, fst k))
  | _ => Throw
  end.
Fixpoint read_keys (prev : option key_info) (l : list bt) : outcome (list key_info) :=
  match l with
  | [] => Ok []
  | v :: r =>
      k <- read_key v ;;
      if match prev with Some p => leb k p | None => false end then Throw
      else ks <- read_keys (Some k) r ;; Ok (k :: ks)
  end.
Fixpoint read_active (act : list (Z * list bytes)) (l : list bt) : outcome (list (Z * list bytes)) :=
  match l with
  | [] => Ok act
  | BList (BInt g :: hs) :: r =>
      if negb (int64_ok g) then Throw
      else hs <- of_opt (str_list hs) Throw ;;
           read_active (insert g (fold_left (fun l h => sadd h l) hs (match lookup g act with Some l => l | None => [] end)) act) r
  | _ => Throw
  end.
(** 114-182 load_dump, into a new object *)
Definition load_dump (d : bytes) (o : kobj) : outcome kobj :=
  match d with
  | "d"%char :: s0 =>
      al <- require (b "active") s0 take_list ;;
      act <- read_active [] (fst al) ;;
      kl <- require (b "keys") (snd al) take_list ;;
      ks <- read_keys None (fst kl) ;;
      p <- find_key (b "pending") (snd kl) ;;
      if fst p then
        match consume (snd p) with
        | Ok (_, BDict pd, _) =>
            c <- seek_str (b "c") pd ;;
            g <- seek_int (b "g") (snd c) ;;
            k <- seek_str (b "k") (snd g) ;;
            if negb (Nat.eqb (length (fst k)) 32) then Throw
            else Ok (mkK (ko_user o) (ko_pk o) (ko_sk o) ks act (fst c) (fst g) (fst k) false)
        | _ => Throw
        end
      else Ok (mkK (ko_user o) (ko_pk o) (ko_sk o) ks act [] (ko_pgen o) (ko_pkey o) false)
  | _ => Throw
  end.

(** ** making key messages *)
Definition SEED_KEY : bytes := b "SessionGroupKeySeed".
Definition GEN_KEY : bytes := b "SessionGroupKeyGen".
Definition ADMIN_KEY : bytes := b "SessionGroupKeyAdminKey".
Definition MEMBER_KEY : bytes := b "SessionGroupKeyMemberKey".
Definition JUNK_KEY : bytes := b "SessionGroupJunkMembers".
Definition dec_z (z : Z) : bytes := if (z <? 0)%Z then "-"%char :: dec (Z.to_N (- z)) else dec (Z.to_N z).   (* std::to_string *)
Fixpoint chunks (n : nat) (size : nat) (s : bytes) : list bytes :=
  match n with O => [] | S n => firstn size s :: chunks n size (skipn size s) end.
Fixpoint all_pks (sids : list bytes) : outcome (list bytes) :=
  match sids with [] => Ok [] | s :: r => p <- session_id_pk s (b "05") ;; ps <- all_pks r ;; Ok (p :: ps) end.
(** signing 407-412 and oxenc append_signature *)
Definition signed (G : gcrypt) (sk : bytes) (d : btdict) : bytes :=
  let bd := "d"%char :: enc_entries d in with_sig bd (g_sign G sk bd).
(** 254-405 rekey.  [sids]: the session ids of the members, in iteration order.  Afterwards [group_keys] is given to the
    info and members configs with replace_keys(..., dirty = true). *)
Definition rekey (G : gcrypt) (sids : list bytes) (o : kobj) : outcome (bytes * kobj) :=
  match ko_sk o with
  | None => Throw
  | Some sk =>
      xpk <- of_opt (g_xpk G (ko_pk o)) Throw ;;
      let gen := match rev (ko_keys o) with [] => 0%Z | k :: _ => (k_gen k + 1)%Z end in
      if negb (int64_ok gen) then UB else
      let h1 := g_hash G 56 GEN_KEY (concat sids ++ dec_z gen ++ seed_hash G sk SEED_KEY) in
      let key := firstn 32 h1 in
      let nonce := firstn 24 (skipn 32 h1) in
      pks <- all_pks sids ;;
      cs <- encrypt_for_multiple (g_x G) [key] pks nonce (g_xsk G sk) xpk MEMBER_KEY true ;;
      let n_junk := junk_count (length cs) (Z.of_nat MESSAGE_KEY_MULTIPLE) in
      let junk := chunks n_junk 48 (g_rng G (g_hash G 32 JUNK_KEY (h1 ++ sk)) (48 * n_junk)) in
      let conf := signed G sk [(b "#", BStr nonce); (b "G", BInt gen);
                               (b "K", BStr (x_seal (g_x G) (seed_hash G sk ADMIN_KEY) nonce key)); (b "k", BList (map BStr (cs ++ junk)))] in
      Ok (conf, mkK (ko_user o) (ko_pk o) (ko_sk o) (ko_keys o) (ko_active o) conf gen key true)
  end.
(** 423-537 key_supplement *)
Definition key_supplement (G : gcrypt) (sids : list bytes) (o : kobj) : outcome bytes :=
  match ko_sk o with
  | None => Throw
  | Some sk =>
      match rev (ko_keys o) with
      | [] => Throw
      | newest :: _ =>
          xpk <- of_opt (g_xpk G (ko_pk o)) Throw ;;
          let supp := enc (BList (map key_entry (ko_keys o))) in
          let nonce := g_hash G 24 GEN_KEY (concat sids ++ supp ++ seed_hash G sk SEED_KEY) in
          pks <- all_pks sids ;;
          cs <- encrypt_for_multiple (g_x G) [supp] pks nonce (g_xsk G sk) xpk MEMBER_KEY true ;;
          match cs with
          | [] => Throw
          | _ => Ok (signed G sk [(b "#", BStr nonce); (b "+", BList (map BStr cs)); (b "G", BInt (k_gen newest))])
          end
      end
  end.

(** ** loading key messages, 908-1118 *)
(** 993-1021: the decrypted list, element by element *)
Fixpoint read_infos (fuel : nat) (s : bytes) : outcome (list key_info) :=
  match fuel with
  | O => Throw
  | S f =>
      match s with
      | [] => Throw
      | c :: _ =>
          if Ascii.eqb c "e" then Ok []
          else match parse1 s with
               | Some (v, t) => k <- read_key v ;; ks <- read_infos f t ;; Ok (k :: ks)
               | None => Throw
               end
      end
  end.
(** the ciphertext meant for us, if any.  An administrator does not look for one (the code then calls
    decrypt_for_multiple with uninitialised keys and no ciphertext; only its nonce check can matter). *)
Definition for_us (G : gcrypt) (o : kobj) (xpk nonce : bytes) (cs : list bytes) : outcome (option bytes) :=
  if admin o then (if Nat.leb 24 (length nonce) then Ok None else Throw)
  else upk <- of_opt (g_xpk G (user_pk o)) Throw ;;
       decrypt_for_multiple (g_x G) cs nonce (g_xsk G (ko_user o)) upk xpk MEMBER_KEY.
(** the keys found, the generation to associate the hash with if there are none, and the cursor *)
Definition read_message (G : gcrypt) (o : kobj) (data : bytes) (ts : Z) : outcome (list key_info * Z * bytes) :=
  match data with
  | "d"%char :: s0 =>
      xpk <- of_opt (g_xpk G (ko_pk o)) Throw ;;
      ns <- require (b "#") s0 take_str ;;
      let '(nonce, s1) := ns in
      pl <- find_key (b "+") s1 ;;
      let '(supplement, s2) := pl in
      if supplement : bool then
        ls <- take_list s2 ;;
        let '(l, s3) := ls in
        cs <- of_opt (str_list l) Throw ;;
        if existsb (fun c => Nat.ltb (length c) (52 + ABYTES)) cs then Throw else
        m <- for_us G o xpk nonce cs ;;
        ks <- match m with
              | Some ("l"%char :: p) => read_infos (S (length p)) p
              | Some _ => Throw
              | None => Ok []
              end ;;
        gs <- require (b "G") s3 take_int ;;
        Ok (ks, fst gs, snd gs)
      else
        if negb (ts_ok ts) then UB else
        gs <- require (b "G") s2 take_int ;;
        let '(gen, s3) := gs in
        if (gen <? 0)%Z then Throw else
        ks <- require (b "K") s3 take_str ;;
        let '(ak, s4) := ks in
        if negb (Nat.eqb (length ak) 48) then Throw else
        own <- match ko_sk o with
               | Some sk => k <- of_opt (x_open (g_x G) (seed_hash G sk ADMIN_KEY) (firstn 24 nonce) ak) Throw ;; Ok (Some k)
               | None => Ok None
               end ;;
        ls <- require (b "k") s4 take_list ;;
        let '(l, s5) := ls in
        cs <- of_opt (str_list l) Throw ;;
        if existsb (fun c => negb (Nat.eqb (length c) 48)) cs then Throw else
        m <- for_us G o xpk nonce cs ;;
        if negb (Nat.eqb (length cs mod MESSAGE_KEY_MULTIPLE) 0) then Throw else
        Ok (match own, m with
            | Some k, _ => [(gen, (ts, k))]
            | None, Some k => [(gen, (ts, k))]
            | None, None => []
            end, gen, s5)
  | _ => Throw
  end.
(** the environment in which config.cpp 432-457 verify_config_sig is run *)
Definition sig_env (G : gcrypt) (pk : bytes) : env := mkEnv (fun x => x) (Some (fun m sig => g_verify G sig m pk)) None 0.
(** Returns whether there were keys for us, and the object; when there were, [group_keys] of it is given to the info and
    members configs with replace_keys(..., dirty = false). *)
Definition load_key_message (G : gcrypt) (h data : bytes) (ts : Z) (o : kobj) : outcome (bool * kobj) :=
  r <- read_message G o data ts ;;
  let '(ks, gen, s) := r in
  _ <- verify_sig (sig_env G (ko_pk o)) false data s ;;
  let done := match ks with
              | k :: _ => admin o && negb (is_nil (ko_pconf o)) && ((ko_pgen o <? k_gen k)%Z || eqb (k_key k) (ko_pkey o))
              | [] => false
              end in
  let o1 := if done then mkK (ko_user o) (ko_pk o) (ko_sk o) (ko_keys o) (ko_active o) [] (ko_pgen o) (ko_pkey o) true else o in
  match ks with
  | _ :: _ => Ok (true, fold_left (fun o k => insert_key h k o) ks o1)
  | [] =>
      let o2 := remove_expired (with_keys o1 (ko_keys o1) (add_active gen h (ko_active o1)) (ko_needs_dump o1)) in
      Ok (false, with_keys o2 (ko_keys o2) (ko_active o2) true)
  end.

(** ** group messages, 1192-1366.  [nonce]: the 24 random bytes. *)
Definition encrypt_message (G : gcrypt) (nonce plaintext : bytes) (compress : bool) (padding : N) (o : kobj) : outcome bytes :=
  if (MAX_PLAINTEXT <? N.of_nat (length plaintext))%N then Throw else
  let z := g_zstd G plaintext in
  let use := compress && Nat.ltb (length z) (length plaintext) in
  let body := if use then z else plaintext in
  let sig := g_sign G (ko_user o) body in
  let encoded := enc (BDict ((b "", BInt 1) :: (b "a", BStr (user_pk o)) ::
                             (if use then [(b "s", BStr sig); (b "z", BStr body)] else [(b "d", BStr body); (b "s", BStr sig)]))) in
  let final := (OVERHEAD + N.of_nat (length encoded))%N in
  let extra := if (1 <? padding)%N && negb (final mod padding =? 0)%N then (padding - final mod padding)%N else 0%N in
  k <- group_enc_key o ;;
  Ok (nonce ++ x_seal (g_x G) k nonce (encoded ++ repeat NUL (N.to_nat extra))).
Fixpoint open_any (G : gcrypt) (keys : list bytes) (nonce c : bytes) : option bytes :=
  match keys with
  | [] => None
  | k :: r => match x_open (g_x G) k nonce c with Some m => Some m | None => open_any G r nonce c end
  end.
(** 1289-1290: remove the NUL suffix, unless there is nothing else *)
Definition strip_end (s : bytes) : bytes := match drop_nul (rev s) with [] => s | t => rev t end.
Definition decrypt_message (G : gcrypt) (c : bytes) (o : kobj) : outcome (bytes * bytes) :=
  if Nat.ltb (length c) (NPUBBYTES + ABYTES) then Throw else
  let nonce := firstn NPUBBYTES c in
  plain <- of_opt (open_any G ((if is_nil (ko_pconf o) then [] else [ko_pkey o]) ++ map k_key (ko_keys o)) nonce (skipn NPUBBYTES c)) Throw ;;
  let plain := strip_end plain in
  match plain with
  | "d"%char :: s0 =>
      if negb (Ascii.eqb (last plain NUL) "e") then Throw else
      v <- require (b "") s0 take_int ;;
      let '(version, s1) := v in
      if negb (version =? 1)%Z then Throw else
      a <- require (b "a") s1 take_str ;;
      let '(pk, s2) := a in
      if negb (Nat.eqb (length pk) 32) then Throw else
      xpk <- of_opt (g_xpk G pk) Throw ;;
      hd <- find_key (b "d") s2 ;;
      d <- (if fst hd : bool then
              ds <- take_str (snd hd) ;; if is_nil (fst ds) then Throw else Ok ds
            else Ok ([], snd hd)) ;;
      let '(raw, s3) := d in
      sg <- require (b "s") s3 take_str ;;
      let '(sig, s4) := sg in
      if negb (Nat.eqb (length sig) 64) then Throw else
      hz <- find_key (b "z") s4 ;;
      rz <- (if fst hz : bool then
               if negb (is_nil raw) then Throw
               else zs <- take_str (snd hz) ;; if is_nil (fst zs) then Throw else Ok (fst zs, true)
             else if is_nil raw then Throw else Ok (raw, false)) ;;
      let '(data, compressed) := rz in
      if negb (g_verify G sig data pk) then Throw else
      out <- (if compressed : bool then of_opt (g_unzstd G MAX_PLAINTEXT data) Throw else Ok data) ;;
      Ok (b "05" ++ to_hex xpk, out)
  | _ => Throw
  end.
