(** The protobuf wrapping of config messages: src/config/protos.cpp, with the protobuf wire format it relies on (proto/*.pb.cc
    of the messages Content, SharedConfigMessage, Envelope, WebSocketMessage, WebSocketRequestMessage).  Definitions only.
    Simplified: the other message types a Content can hold are treated as unknown fields; sizes of 2 GiB and more, for which
    protobuf refuses to serialise, are not modelled on the sending side. *)
From Verif Require Export SessEnc.

(** ** the wire format *)
(** little-endian groups of 7 bits; at most ten for 64 bits *)
Fixpoint varint (n : nat) (v : N) : bytes :=
  match n with
  | O => []
  | S n => if (v <? 128)%N then [byte v] else byte (128 + v mod 128) :: varint n (v / 128)
  end.
Definition varint64 (v : N) : bytes := varint 10 v.
(** at most [n] bytes *)
Fixpoint read_varint (n : nat) (s : bytes) : option (N * bytes) :=
  match n, s with
  | S n, c :: r =>
      let x := N_of_ascii c in
      if (x <? 128)%N then Some (x, r)
      else match read_varint n r with Some (v, t) => Some (x - 128 + 128 * v, t)%N | None => None end
  | _, _ => None
  end.
(** a field's contents; fixed-size ones only occur as unknown fields *)
Inductive wire := WVar (v : N) | WBytes (s : bytes) | WFixed.
Definition enc_field (f : N * wire) : bytes :=
  match snd f with
  | WVar v => varint64 (8 * fst f) ++ varint64 v
  | WBytes s => varint64 (8 * fst f + 2) ++ varint64 (N.of_nat (length s)) ++ s
  | WFixed => []
  end.
Definition enc_fields (l : list (N * wire)) : bytes := flat_map enc_field l.
(** ReadSize: INT_MAX less the slop of 16 bytes *)
Definition MAX_SIZE : N := 2147483631.
Definition take (n : nat) (s : bytes) : option (bytes * bytes) := if Nat.leb n (length s) then Some (firstn n s, skipn n s) else None.
(** the _InternalParse loops and UnknownFieldParse.  [groups]: the unknown groups we are inside of, whose fields are skipped;
    [depth]: how deeply they may still nest.  [None]: parsing fails. *)
Fixpoint parse_fields (fuel depth : nat) (groups : list N) (s : bytes) : option (list (N * wire)) :=
  match s with
  | [] => match groups with [] => Some [] | _ => None end
  | _ =>
      match fuel with
      | O => None
      | S fuel =>
          match read_varint 5 s with
          | None => None
          | Some (tag, r) =>
              let num := (tag mod 2 ^ 32 / 8)%N in
              let keep w t := match parse_fields fuel depth groups t with
                              | Some l => Some (match groups with [] => (num, w) :: l | _ => l end)
                              | None => None
                              end in
              if (num =? 0)%N then None
              else match (tag mod 8)%N with
                   | 0%N => match read_varint 10 r with Some (v, t) => keep (WVar (v mod 2 ^ 64)%N) t | None => None end
                   | 1%N => match take 8 r with Some (_, t) => keep WFixed t | None => None end
                   | 2%N =>
                       match read_varint 5 r with
                       | Some (n, t) => if (n <=? MAX_SIZE)%N then match take (N.to_nat n) t with Some (x, t) => keep (WBytes x) t | None => None end else None
                       | None => None
                       end
                   | 3%N => if Nat.ltb (length groups) depth then parse_fields fuel depth (num :: groups) r else None
                   | 4%N => match groups with g :: gs => if (g =? num)%N then parse_fields fuel depth gs r else None | [] => None end
                   | 5%N => match take 4 r with Some (_, t) => keep WFixed t | None => None end
                   | _ => None
                   end
          end
      end
  end.
Definition parse_message (depth : nat) (s : bytes) : option (list (N * wire)) := parse_fields (length s) depth [] s.

(** ** reading fields: of an optional field the last occurrence counts, sub-messages are merged, an enum value outside the
    enum is an unknown field *)
Definition vars (n : N) (l : list (N * wire)) : list N := flat_map (fun f => match snd f with WVar v => if (fst f =? n)%N then [v] else [] | _ => [] end) l.
Definition strs (n : N) (l : list (N * wire)) : list bytes := flat_map (fun f => match snd f with WBytes s => if (fst f =? n)%N then [s] else [] | _ => [] end) l.
Definition last_of {A} (l : list A) : option A := match rev l with x :: _ => Some x | [] => None end.
Definition enums (n : N) (valid : N -> bool) (l : list (N * wire)) : list N := filter valid (map (fun v => v mod 2 ^ 32)%N (vars n l)).
(** the fields of the merged sub-message number [n], if all its occurrences parse *)
Fixpoint parse_all (depth : nat) (l : list bytes) : option (list (N * wire)) :=
  match l with
  | [] => Some []
  | s :: r => match parse_message depth s, parse_all depth r with Some f, Some g => Some (f ++ g) | _, _ => None end
  end.
Definition DEPTH : nat := 100.
(** SessionProtos::SharedConfigMessage and Content, SessionProtos.pb.cc 9801-9861, 2607-2708, 2932, 9989.  Result: kind and data of the shared
    config message, if there is one. *)
Definition valid_kind (v : N) : bool := (1 <=? v)%N && (v <=? 4)%N.
Definition parse_content (s : bytes) : option (option (N * bytes)) :=
  match parse_message DEPTH s with
  | None => None
  | Some l =>
      match strs 11 l with
      | [] => Some None
      | subs =>
          match parse_all (DEPTH - 1) subs with
          | None => None
          | Some f =>
              match last_of (enums 1 valid_kind f), vars 2 f, last_of (strs 3 f) with
              | Some k, _ :: _, Some d => Some (Some (k, d))
              | _, _, _ => None                                   (* a required field is missing *)
              end
          end
      end
  end.
(** SessionProtos::Envelope, 1249-1336, 1508; the content *)
Definition valid_type (v : N) : bool := (v =? 6)%N || (v =? 7)%N.
Definition or_empty (o : option bytes) : bytes := match o with Some s => s | None => [] end.
Definition parse_envelope (s : bytes) : option bytes :=
  match parse_message DEPTH s with
  | None => None
  | Some l => match enums 1 valid_type l, vars 5 l with _ :: _, _ :: _ => Some (or_empty (last_of (strs 8 l))) | _, _ => None end
  end.
(** WebSocketProtos::WebSocketMessage, WebSocketResources.pb.cc 1011-1069; the type and the body of the request *)
Definition parse_websocket (s : bytes) : option (N * bytes) :=
  match parse_message DEPTH s with
  | None => None
  | Some l =>
      match parse_all (DEPTH - 1) (strs 2 l), parse_all (DEPTH - 1) (strs 3 l) with
      | Some f, Some _ =>
          Some (match last_of (enums 1 (fun v => v <=? 2)%N l) with Some t => t | None => 0%N end, or_empty (last_of (strs 3 f)))
      | _, _ => None
      end
  end.

(** ** protos.cpp *)
(** 17-31 encode_namespace, with namespaces.hpp 7-20 *)
Definition encode_namespace (ns : Z) : outcome N :=
  if (ns =? 2)%Z then Ok 1%N else if (ns =? 3)%Z then Ok 2%N else if (ns =? 4)%Z then Ok 3%N else if (ns =? 5)%Z then Ok 4%N else Throw.
(** int64 as protobuf writes it *)
Definition as_uint64 (z : Z) : N := Z.to_N (z mod 2 ^ 64).
(** 55-61: the Content, SharedConfigMessage 9863-9900 *)
Definition content_of (kind : N) (seqno : Z) (data : bytes) : bytes :=
  enc_fields [(11%N, WBytes (enc_fields [(1%N, WVar kind); (2%N, WVar (as_uint64 seqno)); (3%N, WBytes data)]))].
(** 99-117: Envelope and WebSocketMessage *)
Definition envelope_of (content : bytes) : bytes := enc_fields [(1%N, WVar 6); (5%N, WVar 1); (8%N, WBytes content)].
Definition websocket_of (body : bytes) : bytes :=
  enc_fields [(1%N, WVar 1); (2%N, WBytes (enc_fields [(1%N, WBytes []); (2%N, WBytes []); (3%N, WBytes body); (4%N, WVar 0)]))].
(** 35-120 wrap_config *)
Definition PAD : ascii := byte 128.
Definition wrap_config (E : ecrypt) (sk data : bytes) (seqno ns : Z) : outcome bytes :=
  sk <- full_sk E sk ;;
  xpk <- of_opt (pk_to_x E (skipn 32 sk)) Throw ;;
  if (5 <? ns)%Z then Throw
  else
    kind <- encode_namespace ns ;;
    enc <- encrypt_deterministic E sk xpk (content_of kind seqno data ++ [PAD]) ;;
    Ok (websocket_of (envelope_of enc)).
(** 153-163: the padding is 0x80 and then any number of zeros; [None]: there is none *)
Definition unpad (s : bytes) : option bytes :=
  match drop_nul (rev s) with c :: r => if Ascii.eqb c PAD then Some (rev r) else None | [] => None end.
(** 123-179 unwrap_config.  153-157 reject an empty string and one that does not end in 0x80 or 0x00; [unpad] rejects those, too. *)
Definition unwrap_config (E : ecrypt) (sk data : bytes) (ns : Z) : outcome bytes :=
  sk <- full_sk E sk ;;
  req <- of_opt (parse_websocket data) Throw ;;
  if negb (fst req =? 1)%N then Throw
  else
    content <- of_opt (parse_envelope (snd req)) Throw ;;
    x <- decrypt_incoming E sk content ;;
    if negb (eqb (snd x) (skipn 32 sk)) then Throw
    else
      plain <- of_opt (unpad (fst x)) Throw ;;
      sh <- of_opt (parse_content plain) Throw ;;
      match sh with
      | None => Throw
      | Some (k, d) => kind <- encode_namespace ns ;; if (k =? kind)%N then Ok d else Throw
      end.
