(** Bencoding at byte level.  This models the oxenc library (bt_producer / bt_serialize / bt consumers), which
    is a dependency and not part of /repo: the format is the one described in docs/config-merge-logic.md 27-62 and
    relied on by src/config.cpp 248-345, 526-565, 738-787.  Definitions only. *)
From Verif Require Export Data.
From Coq Require Decimal DecimalN.

(** Decimal digits, via the standard library's decimal numerals. *)
Fixpoint uint_bytes (u : Decimal.uint) : bytes :=
  match u with
  | Decimal.Nil => []
  | Decimal.D0 u => "0"%char :: uint_bytes u
  | Decimal.D1 u => "1"%char :: uint_bytes u
  | Decimal.D2 u => "2"%char :: uint_bytes u
  | Decimal.D3 u => "3"%char :: uint_bytes u
  | Decimal.D4 u => "4"%char :: uint_bytes u
  | Decimal.D5 u => "5"%char :: uint_bytes u
  | Decimal.D6 u => "6"%char :: uint_bytes u
  | Decimal.D7 u => "7"%char :: uint_bytes u
  | Decimal.D8 u => "8"%char :: uint_bytes u
  | Decimal.D9 u => "9"%char :: uint_bytes u
  end.
Definition dec (n : N) : bytes := uint_bytes (N.to_uint n).

Definition enc_str (s : bytes) : bytes := dec (N.of_nat (length s)) ++ ":"%char :: s.
Definition enc_int (z : Z) : bytes :=
  "i"%char :: (if (z <? 0)%Z then "-"%char :: dec (Z.to_N (- z)) else dec (Z.to_N z)) ++ ["e"%char].
(** bt_list_producer / bt_dict_producer / append_bt output *)
Fixpoint enc (v : bt) : bytes :=
  match v with
  | BInt z => enc_int z
  | BStr s => enc_str s
  | BList l => "l"%char :: flat_map enc l ++ ["e"%char]
  | BDict d => "d"%char :: flat_map (fun p => enc_str (fst p) ++ enc (snd p)) d ++ ["e"%char]
  end.
Definition enc_entries (d : btdict) : bytes := flat_map (fun p => enc_str (fst p) ++ enc (snd p)) d.

(** Leading digits of a byte string. *)
Fixpoint take_digits (s : bytes) : Decimal.uint * bytes :=
  match s with
  | [] => (Decimal.Nil, [])
  | c :: r =>
      let k (f : Decimal.uint -> Decimal.uint) := let '(u, t) := take_digits r in (f u, t) in
      if Ascii.eqb c "0" then k Decimal.D0
      else if Ascii.eqb c "1" then k Decimal.D1
      else if Ascii.eqb c "2" then k Decimal.D2
      else if Ascii.eqb c "3" then k Decimal.D3
      else if Ascii.eqb c "4" then k Decimal.D4
      else if Ascii.eqb c "5" then k Decimal.D5
      else if Ascii.eqb c "6" then k Decimal.D6
      else if Ascii.eqb c "7" then k Decimal.D7
      else if Ascii.eqb c "8" then k Decimal.D8
      else if Ascii.eqb c "9" then k Decimal.D9
      else (Decimal.Nil, s)
  end.
Definition uint64_max : N := (2 ^ 64 - 1)%N.
(** a non-empty run of digits whose value fits in 64 bits *)
Definition parse_uint (s : bytes) : option (N * bytes) :=
  match take_digits s with
  | (Decimal.Nil, _) => None
  | (u, t) => let n := N.of_uint u in if (n <=? uint64_max)%N then Some (n, t) else None
  end.
Definition parse_str (s : bytes) : option (bytes * bytes) :=
  match parse_uint s with
  | Some (n, c :: t) =>
      if Ascii.eqb c ":" && (n <=? N.of_nat (length t))%N
      then Some (firstn (N.to_nat n) t, skipn (N.to_nat n) t) else None
  | _ => None
  end.
(** after the leading 'i' *)
Definition parse_int (s : bytes) : option (Z * bytes) :=
  match s with
  | "-"%char :: r =>
      match parse_uint r with
      | Some (n, "e"%char :: t) => if (Z.of_N n <=? 2 ^ 63)%Z then Some ((- Z.of_N n)%Z, t) else None
      | _ => None
      end
  | _ =>
      match parse_uint s with
      | Some (n, "e"%char :: t) => Some (Z.of_N n, t)
      | _ => None
      end
  end.

(** One complete value (what consume_*_data / consume_list / consume_dict / skip_value accept), entries in the
    order they occur.  The fuel used is [fuel_for s], which Bt_facts.parse_fuel shows to be always enough. *)
Fixpoint parse_value (fuel : nat) (s : bytes) {struct fuel} : option (bt * bytes) :=
  match fuel with
  | O => None
  | S f =>
      match s with
      | [] => None
      | c :: r =>
          if Ascii.eqb c "i" then
            match parse_int r with Some (z, t) => Some (BInt z, t) | None => None end
          else if Ascii.eqb c "l" then
            match parse_list f r with Some (l, t) => Some (BList l, t) | None => None end
          else if Ascii.eqb c "d" then
            match parse_entries f r with Some (d, t) => Some (BDict d, t) | None => None end
          else
            match parse_str s with Some (x, t) => Some (BStr x, t) | None => None end
      end
  end
with parse_list (fuel : nat) (s : bytes) {struct fuel} : option (list bt * bytes) :=
  match fuel with
  | O => None
  | S f =>
      match s with
      | [] => None
      | c :: r =>
          if Ascii.eqb c "e" then Some ([], r)
          else match parse_value f s with
               | None => None
               | Some (x, t) => match parse_list f t with Some (l, t') => Some (x :: l, t') | None => None end
               end
      end
  end
with parse_entries (fuel : nat) (s : bytes) {struct fuel} : option (list (bytes * bt) * bytes) :=
  match fuel with
  | O => None
  | S f =>
      match s with
      | [] => None
      | c :: r =>
          if Ascii.eqb c "e" then Some ([], r)
          else match parse_str s with
               | None => None
               | Some (k, t) =>
                   match parse_value f t with
                   | None => None
                   | Some (x, t') =>
                       match parse_entries f t' with Some (d, t'') => Some ((k, x) :: d, t'') | None => None end
                   end
               end
      end
  end.
Definition fuel_for (s : bytes) : nat := 2 * length s + 2.
Definition parse1 (s : bytes) : option (bt * bytes) := parse_value (fuel_for s) s.

(** Loading a value into bt_value containers: dicts become std::map (sorted, first occurrence of a key kept). *)
Fixpoint norm (v : bt) : bt :=
  match v with
  | BInt _ | BStr _ => v
  | BList l => BList (map norm l)
  | BDict d => BDict ((fix go (d : list (bytes * bt)) (acc : list (bytes * bt)) {struct d} :=
                         match d with [] => acc | (k, x) :: r => go r (emplace k (norm x) acc) end) d [])
  end.

(** Values the producers can emit and the consumers can hold: 64-bit integers (signed or unsigned), lengths that
    fit in 64 bits, dict keys strictly sorted (std::map). *)
Definition str_ok (s : bytes) : bool := (N.of_nat (length s) <=? uint64_max)%N.
Definition btint_ok (z : Z) : bool := (- 2 ^ 63 <=? z)%Z && (z <=? Z.of_N uint64_max)%Z.
Fixpoint bt_ok (v : bt) : bool :=
  match v with
  | BInt z => btint_ok z
  | BStr s => str_ok s
  | BList l => forallb bt_ok l
  | BDict d => ssortedb (map fst d) && forallb (fun p => str_ok (fst p) && bt_ok (snd p)) d
  end.
