(** Config messages: src/config.cpp 160-345 (diff / data loading), 432-565 (verification, increment, parsing),
    720-800 (serialisation).  Definitions only. *)
From Verif Require Export Bt.

(** What a C++ call can do.  [Err]: throws a config_error (config_parse_error, missing_signature,
    signature_error, and oxenc::bt_deserialize_invalid, which the parsing constructor rethrows as
    config_parse_error, 562-564).  [Throw]: throws any other exception.  [Hang]: does not terminate.
    [UB]: undefined behaviour (signed overflow, dereferencing an empty optional, ...). *)
Inductive outcome (A : Type) := Ok (a : A) | Err | Throw | Hang | UB.
Arguments Ok {A} a. Arguments Err {A}. Arguments Throw {A}. Arguments Hang {A}. Arguments UB {A}.
Definition bind {A B} (x : outcome A) (f : A -> outcome B) : outcome B :=
  match x with Ok a => f a | Err => Err | Throw => Throw | Hang => Hang | UB => UB end.
Notation "x <- e ;; f" := (bind e (fun x => f)) (at level 61, e at next level, right associativity).
Definition of_opt {A} (x : option A) (e : outcome A) : outcome A := match x with Some a => Ok a | None => e end.

(** The environment: BLAKE2b (hash_msg 351-355), the verify/sign callables and the lag (config.hpp 118-150).
    The callables are pure functions here. *)
Record env := mkEnv {
  e_hash : bytes -> bytes;
  e_verifier : option (bytes -> bytes -> bool);
  e_signer : option (bytes -> bytes);
  e_lag : Z
}.

(** seqno_hash_t = pair<int64, array<unsigned char, 32>> *)
Definition shash := (Z * bytes)%type.
Definition lagged_t := list (shash * btdict).

(** The fields of ConfigMessage, config.hpp 78-104.  [m_unmerged = None] is the C++ -1. *)
Record msg := mkMsg {
  m_sh : shash;
  m_data : dict;
  m_diff : btdict;
  m_lagged : lagged_t;
  m_unknown : btdict;
  m_vsig : option bytes;
  m_unmerged : option nat
}.
Definition m_seqno (m : msg) : Z := fst (m_sh m).
(** A ConfigMessage object: plain, or a MutableConfigMessage with its orig_data_ (config.hpp 283-285). *)
Inductive config := Plain (m : msg) | Mut (m : msg) (orig : dict).
Definition c_msg (c : config) : msg := match c with Plain m => m | Mut m _ => m end.

(** ** Loading *)
(** oxenc::get_int throws std::overflow_error for a uint64 above int64 max: [Throw]. *)
Definition get_bt_scalar (v : bt) : outcome scalar :=             (* config.cpp 160-181 *)
  match v with
  | BInt z => if int64_ok z then Ok (SInt z) else Throw
  | BStr s => Ok (SStr s)
  | _ => Err
  end.
Definition check_scalar_order (x y : bt) : outcome unit :=        (* 186-203; both ints are read first *)
  match x, y with
  | BInt p, _ => if int64_ok p then
                   match y with
                   | BInt q => if int64_ok q then (if (p >=? q)%Z then Err else Ok tt) else Throw
                   | BStr _ => Ok tt
                   | _ => Err
                   end
                 else Throw
  | _, BInt q => if int64_ok q then Err else Throw
  | BStr p, BStr q => if ltb p q then Ok tt else Err
  | _, _ => Err
  end.
(** 230-235: adjacent elements only, so a list of one element is not checked at all *)
Fixpoint check_sublist (l : list bt) : outcome unit :=
  match l with
  | x :: ((y :: _) as r) => _ <- check_scalar_order x y ;; check_sublist r
  | _ => Ok tt
  end.
(** One diff value; 206-246, load_diff.  The value has been syntax checked by the consumer already. *)
Fixpoint load_diff_v (e : bt) : outcome bt :=
  match e with
  | BStr m => if eqb m (b "") || eqb m (b "-") then Ok e else Err            (* 212-217 *)
  | BList l =>                                                              (* 218-237 *)
      match map norm l with
      | [x; y] =>
          _ <- match x with BList xs => check_sublist xs | _ => Err end ;;
          _ <- match y with BList ys => check_sublist ys | _ => Err end ;;
          Ok (BList [x; y])
      | _ => Err
      end
  | BDict d =>                                                              (* 238-242 *)
      r <- (fix go (prev : option bytes) (d : list (bytes * bt)) : outcome (list (bytes * bt)) :=
              match d with
              | [] => Ok []
              | (k, x) :: d' =>
                  if match prev with Some p => leb k p | None => false end then Err
                  else x' <- load_diff_v x ;; r <- go (Some k) d' ;; Ok ((k, x') :: r)
              end) None d ;;
      Ok (BDict r)
  | BInt _ => Hang     (* no branch consumes an integer: `while (!dict.is_finished())` never advances *)
  end.
Definition load_diff (d : list (bytes * bt)) : outcome btdict :=
  match load_diff_v (BDict d) with
  | Ok (BDict r) => Ok r | Ok _ => Err | Err => Err | Throw => Throw | Hang => Hang | UB => UB
  end.

(** 248-269 serialize_data *)
Fixpoint bt_of_value (v : value) : bt :=
  match v with
  | VScal s => bt_of_scalar s
  | VSet l => BList (map bt_of_scalar l)
  | VDict d => BDict (map (fun p => (fst p, bt_of_value (snd p))) d)
  end.
Definition bt_of_dict (d : dict) : btdict := map (fun p => (fst p, bt_of_value (snd p))) d.

(** 271-313 parse_data.  Every failure is an [Err]-class exception; the element-by-element order checks of the
    C++ loop are stated here as "the keys / elements read are strictly increasing". *)
Fixpoint map_opt {A B} (f : A -> option B) (l : list A) : option (list B) :=
  match l with
  | [] => Some []
  | x :: r => match f x, map_opt f r with Some y, Some s => Some (y :: s) | _, _ => None end
  end.
Fixpoint value_of_bt (v : bt) : option value :=
  match v with
  | BStr s => Some (VScal (SStr s))
  | BInt z => if int64_ok z then Some (VScal (SInt z)) else None
  | BList l =>
      match map_opt scalar_of_bt l with
      | Some xs => if is_nil xs then None else if ssortedb xs then Some (VSet xs) else None
      | None => None
      end
  | BDict d =>
      match (fix go (d : list (bytes * bt)) : option (list (bytes * value)) :=
               match d with
               | [] => Some []
               | (k, x) :: r => match value_of_bt x, go r with Some y, Some s => Some ((k, y) :: s) | _, _ => None end
               end) d with
      | Some ds => if is_nil ds then None else if ssortedb (map fst ds) then Some (VDict ds) else None
      | None => None
      end
  end.
Definition dict_of_bt (d : list (bytes * bt)) : option dict :=       (* top_level = true *)
  match map_opt (fun p => match value_of_bt (snd p) with Some y => Some (fst p, y) | None => None end) d with
  | Some ds => if ssortedb (map fst ds) then Some ds else None
  | None => None
  end.

(** 314-345 parse_lagged_diffs.  [last]: key of the last diff kept so far. *)
Fixpoint parse_lagged (curr lag : Z) (last : option shash) (l : list bt) : outcome lagged_t :=
  match l with
  | [] => Ok []
  | BList (BInt s :: rest) :: l' =>
      if negb (int64_ok s) then Err
      else if (s >=? curr)%Z then Err
      else if negb (int64_ok (curr - lag)) then UB
      else if (s <=? curr - lag)%Z then parse_lagged curr lag last l'
      else match rest with
           | BStr h :: rest' =>
               if negb (Nat.eqb (length h) 32) then Err
               else if match last with Some p => leb (s, h) p | None => false end then Err
               else match rest' with
                    | BDict d :: rest'' =>
                        df <- load_diff d ;;
                        if negb (is_nil rest'') then Err
                        else r <- parse_lagged curr lag (Some (s, h)) l' ;; Ok (((s, h), df) :: r)
                    | _ => Err
                    end
           | _ => Err
           end
  | _ => Err
  end.

(** oxenc::bt_dict_consumer at byte level.  [None]: bt_deserialize_invalid; [Some None]: at the closing 'e';
    [Some (Some (k, r))]: next key k, its value starts at r. *)
Definition next_key (s : bytes) : option (option (bytes * bytes)) :=
  match s with
  | [] => None
  | c :: _ =>
      if Ascii.eqb c "e" then Some None
      else match parse_str s with
           | Some (k, r) =>
               match r with
               | [] => None
               | c' :: _ => if Ascii.eqb c' "e" then None else Some (Some (k, r))
               end
           | None => None
           end
  end.

(** src/config/internal.cpp 154-176 load_unknowns.  [None]: Err. *)
Fixpoint load_unknowns (fuel : nat) (unknown : btdict) (prev until : bytes) (s : bytes) : option (btdict * bytes) :=
  match fuel with
  | O => None
  | S f =>
      match next_key s with
      | None => None
      | Some None => Some (unknown, s)
      | Some (Some (k, r)) =>
          if ltb k until then
            if leb k prev || match last (map Some (keys unknown)) None with Some u => leb k u | None => false end
            then None
            else match parse1 r with
                 | Some (v, r') => load_unknowns f (unknown ++ [(k, norm v)]) prev until r'
                 | None => None
                 end
          else Some (unknown, s)
      end
  end.
Definition unknowns (unknown : btdict) (prev until : bytes) (s : bytes) : outcome (btdict * bytes) :=
  of_opt (load_unknowns (S (length s)) unknown prev until s) Err.

(** dict.key() == k : at the end of the dict key() throws *)
Definition key_is (k : bytes) (s : bytes) : outcome bool :=
  match next_key s with Some (Some (k', _)) => Ok (eqb k' k) | _ => Err end.
Definition consume (s : bytes) : outcome (bytes * bt * bytes) :=
  match next_key s with
  | Some (Some (k, r)) => match parse1 r with Some (v, t) => Ok (k, v, t) | None => Err end
  | _ => Err
  end.

(** 432-457 verify_config_sig, at cursor [s] in the message [whole]: the signature kept, or an exception. *)
Definition verify_sig (E : env) (trust : bool) (whole s : bytes) : outcome (option bytes) :=
  match next_key s with
  | None => Err
  | Some None => if match e_verifier E with Some _ => true | None => false end then Err else Ok None
  | Some (Some (k, _)) =>
      if eqb k (b "~") then
        match consume s with
        | Ok (_, BStr sig, t) =>
            if negb (Nat.eqb (length sig) 64) then Err
            else
              let to_verify := firstn (length whole - length s) whole in
              if match e_verifier E with Some v => negb (v to_verify sig) | None => false end then Err
              else match next_key t with
                   | Some None => Ok (if (match e_verifier E with Some _ => true | None => trust end) then Some sig else None)
                   | _ => Err
                   end
        | _ => Err
        end
      else Err                                  (* keys after "~", or missing signature *)
  end.

(** 526-565: the parsing constructor.  A first byte other than 'd' makes the bt_dict_consumer constructor throw
    outside the try block: [Throw]. *)
Definition parse_msg (E : env) (trust : bool) (s : bytes) : outcome msg :=
  match s with
  | "d"%char :: s0 =>
      kv <- consume s0 ;;
      match kv with
      | (k, BInt seqno, s1) =>
          if negb (eqb k (b "#") && int64_ok seqno) then Err else
          us <- unknowns [] (b "#") (b "&") s1 ;;
          let '(u1, s2) := us in
          kv <- consume s2 ;;
          match kv with
          | (k, BDict d, s3) =>
              if negb (eqb k (b "&")) then Err else
              data <- of_opt (dict_of_bt d) Err ;;
              us <- unknowns u1 (b "&") (b "<") s3 ;;
              let '(u2, s4) := us in
              has_lag <- key_is (b "<") s4 ;;
              ls <- (if has_lag : bool then
                       kv <- consume s4 ;;
                       match kv with
                       | (_, BList l, s5) => lg <- parse_lagged seqno (e_lag E) None l ;; Ok (lg, s5)
                       | _ => Err
                       end
                     else Ok ([], s4)) ;;
              let '(lagged, s5) := ls in
              us <- unknowns u2 (b "<") (b "=") s5 ;;
              let '(u3, s6) := us in
              has_diff <- key_is (b "=") s6 ;;
              ds <- (if has_diff : bool then
                       kv <- consume s6 ;;
                       match kv with
                       | (_, BDict d, s7) => df <- load_diff d ;; Ok (df, s7)
                       | _ => Err
                       end
                     else Ok ([], s6)) ;;
              let '(df, s7) := ds in
              us <- unknowns u3 (b "=") (b "~") s7 ;;
              let '(u4, s8) := us in
              sig <- verify_sig E trust s s8 ;;
              Ok (mkMsg (seqno, e_hash E s) data df lagged u4 sig None)
          | _ => Err
          end
      | _ => Err
      end
  | _ => Throw
  end.

(** ** Serialising: 738-787 serialize_impl *)
(** src/config/internal.cpp 140-150 append_unknown: (written, left) *)
Fixpoint split_unknown (until : bytes) (u : btdict) : btdict * btdict :=
  match u with
  | (k, v) :: r => if ltb k until then let '(p, q) := split_unknown until r in ((k, v) :: p, q) else ([], u)
  | [] => ([], [])
  end.
(** 753-756 *)
Definition in_window (E : env) (seqno lag_seqno : Z) : bool :=
  negb ((lag_seqno <=? seqno - e_lag E)%Z || (lag_seqno >=? seqno)%Z).
Definition lag_entry (p : shash * btdict) : bt := BList [BInt (fst (fst p)); BStr (snd (fst p)); BDict (snd p)].
Definition body_entries (E : env) (m : msg) (df : btdict) : btdict :=
  let '(u1, r1) := split_unknown (b "&") (m_unknown m) in
  let '(u2, r2) := split_unknown (b "<") r1 in
  let '(u3, r3) := split_unknown (b "=") r2 in
  let '(u4, _) := split_unknown (b "~") r3 in
  (b "#", BInt (m_seqno m)) ::
  u1 ++ (b "&", BDict (bt_of_dict (m_data m))) ::
  u2 ++ (b "<", BList (map lag_entry (filter (fun p => in_window E (m_seqno m) (fst (fst p))) (m_lagged m)))) ::
  u3 ++ (b "=", BDict df) :: u4.
Definition body (E : env) (m : msg) (df : btdict) : bytes := "d"%char :: enc_entries (body_entries E m df).
Definition with_sig (bd sig : bytes) : bytes := bd ++ enc_str (b "~") ++ enc_str sig ++ ["e"%char].
(** `seqno() - lag` is evaluated once per lagged diff; overflow is undefined behaviour. *)
Definition serialize_impl (E : env) (m : msg) (df : btdict) (enable_signing : bool) : outcome bytes :=
  if negb (is_nil (m_lagged m)) && negb (int64_ok (m_seqno m - e_lag E)) then UB else
  let bd := body E m df in
  match m_vsig m with
  | Some sig => Ok (with_sig bd sig)
  | None =>
      match (if enable_signing then e_signer E else None) with
      | Some sign =>
          let sig := sign bd in
          if Nat.eqb (length sig) 64 then Ok (with_sig bd sig) else Throw
      | None => Ok (bd ++ ["e"%char])
      end
  end.

Definition set_data (m : msg) (d : dict) : msg :=
  mkMsg (m_sh m) d (m_diff m) (m_lagged m) (m_unknown m) (m_vsig m) (m_unmerged m).
(** 721-730: ConfigMessage::diff is a getter; MutableConfigMessage::diff drops the signature, prunes and recomputes *)
Definition refresh (c : config) : outcome config :=
  match c with
  | Plain m => Ok c
  | Mut m orig =>
      let data := fst (prune (m_data m)) in
      match diff orig data with
      | None => UB
      | Some df => Ok (Mut (mkMsg (m_sh m) data df (m_lagged m) (m_unknown m) None (m_unmerged m)) orig)
      end
  end.
(** 732-736 serialize: returns the bytes and the (possibly updated) object *)
Definition serialize (E : env) (c : config) (enable_signing : bool) : outcome (bytes * config) :=
  c' <- refresh c ;;
  s <- serialize_impl E (c_msg c') (m_diff (c_msg c')) enable_signing ;;
  Ok (s, c').

(** 465-491 increment_impl *)
Fixpoint drop_old (bound : Z) (l : lagged_t) : lagged_t :=           (* 474-476: from the front *)
  match l with
  | (s, d) :: r => if (fst s <=? bound)%Z then drop_old bound r else l
  | [] => []
  end.
Fixpoint drop_new (bound : Z) (l : lagged_t) : lagged_t :=           (* 480-485: from the back *)
  match l with
  | [] => []
  | (s, d) :: r =>
      match drop_new bound r with
      | [] => if (fst s >=? bound)%Z then [] else [(s, d)]
      | r' => (s, d) :: r'
      end
  end.
Definition zero_hash : bytes := repeat Ascii.zero 32.
(** emplace_hint into the std::map: no effect when the key is present *)
Definition increment_impl (E : env) (m : msg) : outcome config :=
  let s := m_seqno m in
  if negb (int64_ok (s + 1)) || (negb (is_nil (m_lagged m)) && negb (int64_ok (s - e_lag E))) then UB else
  Ok (Mut (mkMsg ((s + 1)%Z, zero_hash) (m_data m) []
            (emplace (m_sh m) (m_diff m) (drop_new s (drop_old (s - e_lag E)%Z (m_lagged m))))
            (m_unknown m) (m_vsig m) (m_unmerged m))
          (m_data m)).
(** 504-515 MutableConfigMessage(m, increment_seqno) *)
Definition increment (E : env) (c : config) : outcome config :=
  match c with
  | Plain m => increment_impl E m
  | Mut _ _ =>
      sc <- serialize E c true ;;
      let '(s, c') := sc in
      let m := c_msg c' in
      increment_impl E (mkMsg (m_seqno m, e_hash E s) (m_data m) (m_diff m) (m_lagged m) (m_unknown m) (m_vsig m) (m_unmerged m))
  end.
(** 493-502 MutableConfigMessage(m, retain_seqno): for a plain message orig_data_ was initialised from the still
    empty base (config.hpp 285), so it is empty. *)
Definition retain (c : config) : config :=
  match c with Mut m o => Mut m o | Plain m => Mut m [] end.
(** 517-519 the default constructor: hash of the serialisation of the empty message *)
Definition empty_msg (E : env) : msg :=
  let m0 := mkMsg (0%Z, zero_hash) [] [] [] [] None None in
  mkMsg (0%Z, e_hash E (body E m0 [] ++ ["e"%char])) [] [] [] [] None None.
