(** The part of nlohmann::json that src/onionreq/builder.cpp (dump) and src/onionreq/parser.cpp (parse) use.  Its sources are not
    part of /repo; this follows its documented behaviour: RFC 8259, objects are std::map, of equal keys the last counts, strings must be UTF-8,
    a NUL where a token is expected is the end of the input, a number must fit a double, a byte order mark is skipped.  Definitions only. *)
From Verif Require Export Hex.

(** ** UTF-8 (Unicode 15, table 3-7): the ranges of the bytes that follow the first *)
Definition in_range (lo hi : N) (c : ascii) : bool := (lo <=? N_of_ascii c)%N && (N_of_ascii c <=? hi)%N.
Definition utf8_tail (c : ascii) : option (list (N * N)) :=
  if in_range 0 127 c then Some []
  else if in_range 194 223 c then Some [(128, 191)%N]
  else if in_range 224 224 c then Some [(160, 191); (128, 191)]%N
  else if in_range 237 237 c then Some [(128, 159); (128, 191)]%N
  else if in_range 225 239 c then Some [(128, 191); (128, 191)]%N
  else if in_range 240 240 c then Some [(144, 191); (128, 191); (128, 191)]%N
  else if in_range 241 243 c then Some [(128, 191); (128, 191); (128, 191)]%N
  else if in_range 244 244 c then Some [(128, 143); (128, 191); (128, 191)]%N
  else None.
Fixpoint take_ranges (rs : list (N * N)) (s : bytes) : option (bytes * bytes) :=
  match rs, s with
  | [], _ => Some ([], s)
  | (lo, hi) :: rs, c :: s => if in_range lo hi c then match take_ranges rs s with Some (t, r) => Some (c :: t, r) | None => None end else None
  | _ :: _, [] => None
  end.
(** the next character and what follows it *)
Definition utf8_next (s : bytes) : option (bytes * bytes) :=
  match s with
  | [] => None
  | c :: r => match utf8_tail c with Some rs => match take_ranges rs r with Some (t, r') => Some (c :: t, r') | None => None end | None => None end
  end.
(** the UTF-8 encoding of a code point below 0x110000 *)
Definition utf8_enc (n : N) : bytes :=
  let c x := ascii_of_N x in
  if (n <? 128)%N then [c n]
  else if (n <? 2048)%N then [c (192 + n / 64)%N; c (128 + n mod 64)%N]
  else if (n <? 65536)%N then [c (224 + n / 4096)%N; c (128 + n / 64 mod 64)%N; c (128 + n mod 64)%N]
  else [c (240 + n / 262144)%N; c (128 + n / 4096 mod 64)%N; c (128 + n / 64 mod 64)%N; c (128 + n mod 64)%N].

(** ** values *)
Inductive json := JNull | JBool (x : bool) | JNum (literal : bytes) | JStr (s : bytes) | JArr (l : list json) | JObj (m : list (bytes * json)).

(** ** dump() *)
Definition QUOTE : ascii := """"%char.
Definition BACKSLASH : ascii := "\"%char.
Definition hex2 (n : N) : bytes := [hex_char (n / 16); hex_char (n mod 16)].
Definition short_escape (n : N) : option ascii :=
  if (n =? 8)%N then Some "b"%char else if (n =? 9)%N then Some "t"%char else if (n =? 10)%N then Some "n"%char else if (n =? 12)%N then Some "f"%char
  else if (n =? 13)%N then Some "r"%char else if (n =? 34)%N then Some QUOTE else if (n =? 92)%N then Some BACKSLASH else None.
(** one ASCII character; others are copied *)
Definition dump_char (c : ascii) : bytes :=
  match short_escape (N_of_ascii c) with
  | Some e => [BACKSLASH; e]
  | None => if (N_of_ascii c <? 32)%N then b "\u00" ++ hex2 (N_of_ascii c) else [c]
  end.
(** [None]: not UTF-8, dump() throws *)
Fixpoint dump_chars (fuel : nat) (s : bytes) : option bytes :=
  match fuel with
  | 0 => None
  | S f =>
      match s with
      | [] => Some []
      | _ => match utf8_next s with
             | Some (u, r) => match dump_chars f r with Some t => Some ((match u with [c] => dump_char c | _ => u end) ++ t) | None => None end
             | None => None
             end
      end
  end.
Definition dump_str (s : bytes) : option bytes := match dump_chars (S (length s)) s with Some t => Some ([QUOTE] ++ t ++ [QUOTE]) | None => None end.
Definition join (l : list bytes) : bytes := match l with [] => [] | x :: r => x ++ flat_map (fun y => "," :: y)%char r end.
Fixpoint all_some {A} (l : list (option A)) : option (list A) :=
  match l with [] => Some [] | Some x :: r => match all_some r with Some t => Some (x :: t) | None => None end | None :: _ => None end.
Fixpoint jdump (j : json) : option bytes :=
  match j with
  | JNull => Some (b "null")
  | JBool x => Some (if x then b "true" else b "false")
  | JNum l => Some l
  | JStr s => dump_str s
  | JArr l => match all_some (map jdump l) with Some t => Some (b "[" ++ join t ++ b "]") | None => None end
  | JObj m =>
      match all_some (map (fun p => match dump_str (fst p), jdump (snd p) with Some k, Some v => Some (k ++ ":"%char :: v) | _, _ => None end) m) with
      | Some t => Some (b "{" ++ join t ++ b "}")
      | None => None
      end
  end.

(** ** parse() *)
Definition is_ws (c : ascii) : bool := let n := N_of_ascii c in (n =? 32)%N || (n =? 9)%N || (n =? 10)%N || (n =? 13)%N.
Fixpoint skip_ws (s : bytes) : bytes := match s with c :: r => if is_ws c then skip_ws r else s | [] => [] end.
(** four hex digits *)
Definition hex4 (s : bytes) : option (N * bytes) :=
  match s with
  | x :: y :: z :: w :: r =>
      match hex_digit x, hex_digit y, hex_digit z, hex_digit w with
      | Some x, Some y, Some z, Some w => Some (((x * 16 + y) * 16 + z) * 16 + w, r)%N
      | _, _, _, _ => None
      end
  | _ => None
  end.
(** after the backslash and the u *)
Definition unescape_u (s : bytes) : option (bytes * bytes) :=
  match hex4 s with
  | None => None
  | Some (n, r) =>
      if (55296 <=? n)%N && (n <=? 56319)%N then
        match r with
        | c :: d :: r => if Ascii.eqb c BACKSLASH && Ascii.eqb d "u" then
                           match hex4 r with
                           | Some (m, r) => if (56320 <=? m)%N && (m <=? 57343)%N then Some (utf8_enc (65536 + (n - 55296) * 1024 + (m - 56320)), r) else None
                           | None => None
                           end
                         else None
        | _ => None
        end
      else if (56320 <=? n)%N && (n <=? 57343)%N then None
      else Some (utf8_enc n, r)
  end.
Definition unescape (s : bytes) : option (bytes * bytes) :=
  match s with
  | [] => None
  | c :: r =>
      if Ascii.eqb c QUOTE || Ascii.eqb c BACKSLASH || Ascii.eqb c "/" then Some ([c], r)
      else if Ascii.eqb c "b" then Some ([ascii_of_N 8], r)
      else if Ascii.eqb c "f" then Some ([ascii_of_N 12], r)
      else if Ascii.eqb c "n" then Some ([ascii_of_N 10], r)
      else if Ascii.eqb c "r" then Some ([ascii_of_N 13], r)
      else if Ascii.eqb c "t" then Some ([ascii_of_N 9], r)
      else if Ascii.eqb c "u" then unescape_u r
      else None
  end.
(** a string after its opening quote, and what follows the closing one *)
Fixpoint scan_str (fuel : nat) (s : bytes) : option (bytes * bytes) :=
  match fuel, s with
  | S f, c :: r =>
      if Ascii.eqb c QUOTE then Some ([], r)
      else
        match (if Ascii.eqb c BACKSLASH then unescape r else if (N_of_ascii c <? 32)%N then None else utf8_next s) with
        | Some (u, r) => match scan_str f r with Some (t, r) => Some (u ++ t, r) | None => None end
        | None => None
        end
  | _, _ => None
  end.
(** numbers: -? (0 | 1-9 digits) (. digits)? (e +-? digits)? *)
Definition is_digit (c : ascii) : bool := in_range 48 57 c.
Fixpoint digits (s : bytes) : bytes * bytes :=
  match s with c :: r => if is_digit c then let p := digits r in (c :: fst p, snd p) else ([], s) | [] => ([], []) end.
Definition digits1 (s : bytes) : option (bytes * bytes) := let p := digits s in match fst p with [] => None | _ => Some p end.
Definition dec_value (s : bytes) : Z := fold_left (fun a c => 10 * a + (Z.of_N (N_of_ascii c) - 48))%Z s 0%Z.
Definition scan_int (s : bytes) : option (bytes * bytes) :=
  match s with
  | c :: r => if Ascii.eqb c "0" then Some ([c], r) else digits1 s
  | [] => None
  end.
Definition scan_frac (s : bytes) : option (bytes * bytes) :=
  match s with
  | c :: r => if Ascii.eqb c "." then digits1 r else Some ([], s)
  | [] => Some ([], [])
  end.
Definition scan_sign (s : bytes) : bytes * bytes :=
  match s with c :: r => if Ascii.eqb c "-" || Ascii.eqb c "+" then ([c], r) else ([], s) | [] => ([], []) end.
(** the exponent *)
Definition scan_exp (s : bytes) : option (Z * bytes) :=
  match s with
  | c :: r =>
      if Ascii.eqb c "e" || Ascii.eqb c "E" then
        let p := scan_sign r in
        match digits1 (snd p) with Some (d, r) => Some (if eqb (fst p) (b "-") then - dec_value d else dec_value d, r)%Z | None => None end
      else Some (0%Z, s)
  | [] => Some (0%Z, [])
  end.
(** is mantissa * 10^e less than what is rounded to infinity? *)
Definition finite (m e : Z) : bool :=
  ((m =? 0) || (if e <? 0 then m <? (2 ^ 1024 - 2 ^ 970) * 10 ^ (- e) else m * 10 ^ e <? 2 ^ 1024 - 2 ^ 970))%Z.
Definition scan_num (s : bytes) : option (json * bytes) :=
  let s1 := match s with c :: r => if Ascii.eqb c "-" then r else s | [] => [] end in
  match scan_int s1 with
  | None => None
  | Some (i, s2) =>
      match scan_frac s2 with
      | None => None
      | Some (f, s3) =>
          match scan_exp s3 with
          | None => None
          | Some (e, s4) => if finite (dec_value (i ++ f)) (e - Z.of_nat (length f)) then Some (JNum (firstn (length s - length s4) s), s4) else None
          end
      end
  end.
Definition scan_literal (w : bytes) (j : json) (s : bytes) : option (json * bytes) :=
  if eqb (firstn (length w) s) w then Some (j, skipn (length w) s) else None.
(** what must be the next token *)
Definition expect (c : ascii) (s : bytes) : option bytes := match skip_ws s with d :: r => if Ascii.eqb c d then Some r else None | [] => None end.
Fixpoint scan_val (fuel : nat) (s : bytes) : option (json * bytes) :=
  match fuel with
  | 0 => None
  | S f =>
      match skip_ws s with
      | [] => None
      | c :: r =>
          if Ascii.eqb c "{" then match expect "}" r with Some r' => Some (JObj [], r') | None => scan_members f [] r end
          else if Ascii.eqb c "[" then match expect "]" r with Some r' => Some (JArr [], r') | None => scan_items f [] r end
          else if Ascii.eqb c QUOTE then match scan_str f r with Some (t, r) => Some (JStr t, r) | None => None end
          else if Ascii.eqb c "-" || is_digit c then scan_num (c :: r)
          else if Ascii.eqb c "t" then scan_literal (b "true") (JBool true) (c :: r)
          else if Ascii.eqb c "f" then scan_literal (b "false") (JBool false) (c :: r)
          else if Ascii.eqb c "n" then scan_literal (b "null") JNull (c :: r)
          else None
      end
  end
with scan_members (fuel : nat) (m : list (bytes * json)) (s : bytes) : option (json * bytes) :=
  match fuel with
  | 0 => None
  | S f =>
      match expect QUOTE s with
      | None => None
      | Some r =>
          match scan_str f r with
          | None => None
          | Some (k, r) =>
              match expect ":" r with
              | None => None
              | Some r =>
                  match scan_val f r with
                  | None => None
                  | Some (v, r) =>
                      let m := insert k v m in
                      match expect "," r with
                      | Some r => scan_members f m r
                      | None => match expect "}" r with Some r => Some (JObj m, r) | None => None end
                      end
                  end
              end
          end
      end
  end
with scan_items (fuel : nat) (l : list json) (s : bytes) : option (json * bytes) :=
  match fuel with
  | 0 => None
  | S f =>
      match scan_val f s with
      | None => None
      | Some (v, r) =>
          match expect "," r with
          | Some r => scan_items f (l ++ [v]) r
          | None => match expect "]" r with Some r => Some (JArr (l ++ [v]), r) | None => None end
          end
      end
  end.
Definition skip_bom (s : bytes) : option bytes :=
  match s with
  | c :: r => if (N_of_ascii c =? 239)%N then match r with d :: e :: r => if (N_of_ascii d =? 187)%N && (N_of_ascii e =? 191)%N then Some r else None | _ => None end else Some s
  | [] => Some []
  end.
(** [None]: json::parse throws.  The fuel is enough, see Json_facts.v. *)
Definition json_parse (s : bytes) : option json :=
  match skip_bom s with
  | None => None
  | Some s =>
      match scan_val (2 * length s + 1) s with
      | None => None
      | Some (j, r) => match skip_ws r with [] => Some j | c :: _ => if (N_of_ascii c =? 0)%N then Some j else None end
      end
  end.
(** json::find *)
Definition jfind (k : bytes) (j : json) : option json := match j with JObj m => lookup k m | _ => None end.
(** get<std::string>, get<std::string_view> *)
Definition jstring (j : json) : outcome bytes := match j with JStr s => Ok s | _ => Throw end.
