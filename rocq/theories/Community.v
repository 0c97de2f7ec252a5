(** Community URLs: src/config/community.cpp and include/session/config/community.hpp.  Definitions only. *)
From Verif Require Export Pubkey Bt.

Notation "' p <- e ;; f" := (bind e (fun p => f)) (at level 61, p pattern, e at next level, right associativity).

(** std::string_view helpers *)
Definition starts (pat s : bytes) : bool := eqb (firstn (length pat) s) pat.
(** find / rfind: what lies before and after the first / last occurrence *)
Fixpoint split_first (pat s : bytes) : option (bytes * bytes) :=
  if starts pat s then Some ([], skipn (length pat) s)
  else match s with [] => None | c :: r => match split_first pat r with Some (x, y) => Some (c :: x, y) | None => None end end.
Fixpoint split_last (pat s : bytes) : option (bytes * bytes) :=
  match s with
  | [] => if starts pat s then Some ([], skipn (length pat) s) else None
  | c :: r => match split_last pat r with
              | Some (x, y) => Some (c :: x, y)
              | None => if starts pat s then Some ([], skipn (length pat) s) else None
              end
  end.
(** util.hpp 74-79 string_iequal (tolower of the C locale) *)
Definition string_iequal (x y : bytes) : bool := eqb (make_lc x) (make_lc y).

Definition BASE_URL_MAX_LENGTH : nat := 267.            (* community.hpp 16-17 *)
Definition ROOM_MAX_LENGTH : nat := 64.

(** community.cpp 111-127: the host and what follows *)
Definition host_char (c : ascii) : bool :=              (* 113 *)
  let n := N_of_ascii c in ((48 <=? n)%N && (n <=? 57)%N) || ((97 <=? n)%N && (n <=? 122)%N) || Ascii.eqb c "-".
Definition host_upper (c : ascii) : bool := let n := N_of_ascii c in (65 <=? n)%N && (n <=? 90)%N.   (* 116 *)
Fixpoint scan_host (next_allow_dot has_dot : bool) (s : bytes) : bytes * bool * bytes :=
  match s with
  | [] => ([], has_dot, [])
  | c :: r =>
      if host_char c then let '(h, d, t) := scan_host true has_dot r in (c :: h, d, t)
      else if host_upper c then let '(h, d, t) := scan_host true has_dot r in (lower c :: h, d, t)
      else if next_allow_dot && Ascii.eqb c "." then let '(h, d, t) := scan_host false true r in ("."%char :: h, d, t)
      else ([], has_dot, s)
  end.
(** 131-136: std::from_chars into a uint16_t *)
Definition from_chars_u16 (s : bytes) : outcome (N * bytes) :=
  match take_digits s with
  | (Decimal.Nil, _) => Throw
  | (u, t) => if (N.of_uint u <? 65536)%N then Ok (N.of_uint u, t) else Throw
  end.
(** 98-108: the protocol and the rest *)
Definition parse_proto (url : bytes) : outcome (bytes * bytes) :=
  match split_first (b "://") url with
  | Some (p, r) => if string_iequal p (b "http") then Ok (b "http://", r)
                   else if string_iequal p (b "https") then Ok (b "https://", r) else Throw
  | None => Throw
  end.
(** 130-139: the port (0 if it is not there or is the default one) and the rest *)
Definition parse_port (proto url : bytes) : outcome (N * bytes) :=
  match url with
  | c :: r => if Ascii.eqb c ":" then
                '(p, t) <- from_chars_u16 r ;;
                Ok (if ((p =? 80)%N && eqb proto (b "http://")) || ((p =? 443)%N && eqb proto (b "https://")) then 0%N else p, t)
              else Ok (0%N, url)
  | [] => Ok (0%N, url)
  end.
(** 141-146: what is left after an optional slash must be empty *)
Definition ended (url : bytes) : bool := is_nil match url with c :: r => if Ascii.eqb c "/" then r else url | [] => url end.
(** 97-152 parse_url: protocol, host, port *)
Definition parse_url (url : bytes) : outcome (bytes * bytes * N) :=
  '(proto, url) <- parse_proto url ;;
  let '(host, has_dot, url) := scan_host false false url in
  if Nat.ltb (length host) 4 || negb has_dot || Ascii.eqb (last host Ascii.zero) "." then Throw else
  '(port, url) <- parse_port proto url ;;
  if ended url then Ok (proto, host, port) else Throw.
(** 172-184 canonical_url *)
Definition canonical_url (url : bytes) : outcome bytes :=
  '(proto, host, port) <- parse_url url ;;
  let result := proto ++ host ++ (if (port =? 0)%N then [] else b ":" ++ dec port) in
  if Nat.ltb BASE_URL_MAX_LENGTH (length result) then Throw else Ok result.
(** 159-170, 186-190 canonical_room *)
Definition room_char (c : ascii) : bool := existsb (Ascii.eqb c) (b "-0123456789_abcdefghijklmnopqrstuvwxyz").
Definition canonical_room (room : bytes) : outcome bytes :=
  let r := make_lc room in
  if Nat.ltb ROOM_MAX_LENGTH (length r) then Throw else if is_nil r then Throw else if forallb room_char r then Ok r else Throw.
(** 77, 83-91 full_url *)
Definition qs_pubkey : bytes := b "?public_key=".
Definition full_url (base room pubkey : bytes) : bytes := base ++ b "/" ++ room ++ qs_pubkey ++ to_hex pubkey.
(** 192-216 parse_partial_url *)
Definition parse_partial_url (url : bytes) : outcome (bytes * bytes * option bytes) :=
  '(pk, url) <- match split_last qs_pubkey url with
                | Some (x, y) => p <- decode_pubkey y ;; Ok (Some p, x)
                | None => Ok (None, url)
                end ;;
  let '(room, url) := match split_last (b "/r/") url with
                      | Some (x, y) => (y, x)
                      | None => match split_last (b "/") url with Some (x, y) => (y, x) | None => ([], url) end
                      end in
  base <- canonical_url url ;; Ok (base, room, pk).
(** 218-224 parse_full_url *)
Definition parse_full_url (url : bytes) : outcome (bytes * bytes * bytes) :=
  '(base, room, pk) <- parse_partial_url url ;;
  match pk with Some p => Ok (base, room, p) | None => Throw end.
(** 37-42 set_full_url, as a construction from a full URL: base url, normalised room, room as given, pubkey *)
Definition community_of_url (url : bytes) : outcome (bytes * bytes * bytes * bytes) :=
  '(base, room, pk) <- parse_full_url url ;; r <- canonical_room room ;; Ok (base, r, room, pk).
