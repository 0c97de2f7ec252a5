(** Hex strings and session ids: src/config/internal.cpp 14-34 and 56-60, and what they use of oxenc/hex.h.
    Definitions only. *)
From Verif Require Export Message.

(** oxenc::from_hex_digit; [None]: not a hex digit *)
Definition hex_digit (c : ascii) : option N :=
  let n := N_of_ascii c in
  if (48 <=? n)%N && (n <=? 57)%N then Some (n - 48)%N
  else if (97 <=? n)%N && (n <=? 102)%N then Some (n - 87)%N
  else if (65 <=? n)%N && (n <=? 70)%N then Some (n - 55)%N
  else None.
(** oxenc::is_hex (even length, hex digits only) together with oxenc::from_hex; [None]: not hex *)
Fixpoint from_hex (s : bytes) : option bytes :=
  match s with
  | [] => Some []
  | [_] => None
  | x :: y :: r =>
      match hex_digit x, hex_digit y, from_hex r with
      | Some p, Some q, Some t => Some (ascii_of_N (16 * p + q) :: t)
      | _, _, _ => None
      end
  end.
Definition is_hex (s : bytes) : bool := match from_hex s with Some _ => true | None => false end.
Definition hex_char (n : N) : ascii := ascii_of_N (if (n <? 10)%N then 48 + n else 87 + n)%N.
(** oxenc::to_hex *)
Definition to_hex (s : bytes) : bytes := flat_map (fun c => [hex_char (N_of_ascii c / 16); hex_char (N_of_ascii c mod 16)]) s.

(** internal.cpp 14-20 check_session_id; false: std::invalid_argument *)
Definition session_id_ok (sid prefix : bytes) : bool :=
  Nat.eqb (length sid) (64 + length prefix) && is_hex sid && eqb (firstn (length prefix) sid) prefix.
(** 22-25 session_id_to_bytes *)
Definition session_id_to_bytes (sid prefix : bytes) : outcome bytes :=
  if session_id_ok sid prefix then of_opt (from_hex sid) Throw else Throw.
(** 27-33 session_id_pk: drops two characters whatever the prefix *)
Definition session_id_pk (sid prefix : bytes) : outcome bytes :=
  if session_id_ok sid prefix then of_opt (from_hex (skipn 2 sid)) Throw else Throw.
(** 56-60 make_lc *)
Definition lower (c : ascii) : ascii := let n := N_of_ascii c in if (65 <=? n)%N && (n <=? 90)%N then ascii_of_N (n + 32) else c.
Definition make_lc (s : bytes) : bytes := map lower s.
(** the session id of an X25519 public key, as the library prints it *)
Definition sid_of (pk : bytes) : bytes := b "05" ++ to_hex pk.
