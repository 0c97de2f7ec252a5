(** Memory handed to C callers: blocks made with one malloc, and how a C caller reads them.
    src/config/internal.hpp 85-126 (make_string_list), src/config/base.cpp 644-728, include/session/config/base.h 100-103, 165-176.
    Layout of x86-64 / arm64: pointers, size_t and int64_t take 8 bytes, little-endian.  A block is its [base] address and its
    bytes; addresses are integers, base + size < 2^64.  [UB]: an access outside of the block. *)
From Verif Require Import Bytes Message Base Contacts.

(** an 8-byte word *)
Fixpoint le_n (n : nat) (z : Z) : bytes := match n with O => [] | S k => ascii_of_N (Z.to_N (z mod 256)) :: le_n k (z / 256)%Z end.
Fixpoint of_le (s : bytes) : Z := match s with [] => 0%Z | c :: r => (Z.of_N (N_of_ascii c) + 256 * of_le r)%Z end.
Definition word (z : Z) : bytes := le_n 8 (z mod 2 ^ 64)%Z.
Definition signed_word (s : bytes) : Z := let z := of_le s in if (z <? 2 ^ 63)%Z then z else (z - 2 ^ 64)%Z.

(** memcpy of [x] to address [a] of the block at [base] *)
Definition poke (base : Z) (blk : bytes) (a : Z) (x : bytes) : outcome bytes :=
  let off := Z.to_nat (a - base) in
  if (base <=? a)%Z && (off + length x <=? length blk)%nat
  then Ok (firstn off blk ++ x ++ skipn (off + length x) blk) else UB.
(** reading [n] bytes at address [a] *)
Definition peek (base : Z) (blk : bytes) (a : Z) (n : nat) : outcome bytes :=
  let off := Z.to_nat (a - base) in
  if (base <=? a)%Z && (off + n <=? length blk)%nat then Ok (firstn n (skipn off blk)) else UB.
(** strlen and reading up to there; running off the end of the block is [UB] *)
Fixpoint term (s : bytes) : outcome bytes :=
  match s with [] => UB | c :: r => if Ascii.eqb c Ascii.zero then Ok [] else x <- term r ;; Ok (c :: x) end.
Definition peek_str (base : Z) (blk : bytes) (a : Z) : outcome bytes :=
  if (base <=? a)%Z then term (skipn (Z.to_nat (a - base)) blk) else UB.

(** bytes of the strings, with their terminators *)
Definition strs_size (vals : list bytes) : nat := fold_right (fun v n => length v + 1 + n) 0 vals.
Definition zsize (x : bytes) : Z := Z.of_nat (length x).

(** internal.hpp 118-122: the loop *)
Fixpoint fill (base : Z) (vals : list bytes) (next_ptr next_str : Z) (blk : bytes) : outcome bytes :=
  match vals with
  | [] => Ok blk
  | v :: r =>
      blk <- poke base blk next_ptr (word next_str) ;;
      blk <- poke base blk next_str (v ++ [Ascii.zero]) ;;
      fill base r (next_ptr + 8) (next_str + zsize v + 1) blk
  end.
(** internal.hpp 91-126 make_string_list.  [junk n]: the n uninitialised bytes malloc returned, at address [base].
    (value at offset 0, len at offset 8; malloc is assumed to succeed, as the code does.) *)
Definition make_string_list (junk : nat -> bytes) (base : Z) (vals : list bytes) : outcome bytes :=
  let sz := (16 + length vals * 8 + strs_size vals)%nat in
  let n := Z.of_nat (length vals) in
  blk <- poke base (junk sz) (base + 8) (word n) ;;
  blk <- poke base blk base (word (base + 16)) ;;
  fill base vals (base + 16) (base + 16 + n * 8) blk.

(** base.cpp 671-675: the loop of config_push, which writes the string before the pointer *)
Fixpoint fill_push (base : Z) (obs : list bytes) (ptr obsptr : Z) (blk : bytes) : outcome bytes :=
  match obs with
  | [] => Ok blk
  | v :: r =>
      blk <- poke base blk obsptr (v ++ [Ascii.zero]) ;;
      blk <- poke base blk ptr (word obsptr) ;;
      fill_push base r (ptr + 8) (obsptr + zsize v + 1) blk
  end.
(** base.cpp 644-678 config_push, from what push() returned.  Offsets in config_push_data: seqno 0, config 8, config_len 16,
    obsolete 24, obsolete_len 32; 40 bytes. *)
Definition push_block (junk : nat -> bytes) (base : Z) (seqno : Z) (data : bytes) (obs : list bytes) : outcome bytes :=
  let n := Z.of_nat (length obs) in
  let sz := (40 + length obs * 8 + length data + fold_right (fun v n => length v + n) 0 obs + length obs)%nat in
  blk <- poke base (junk sz) base (word seqno) ;;
  blk <- poke base blk (base + 24) (word (base + 40)) ;;
  blk <- poke base blk (base + 32) (word n) ;;
  blk <- poke base blk (base + 8) (word (base + 40 + n * 8)) ;;
  blk <- poke base blk (base + 16) (word (zsize data)) ;;
  blk <- poke base blk (base + 40 + n * 8) data ;;
  fill_push base obs (base + 40) (base + 40 + n * 8 + zsize data) blk.

(** base.cpp 704-721 config_get_keys: the count and the buffer (nullptr if there is no key) *)
Fixpoint fill_keys (base : Z) (ks : list bytes) (cur : Z) (blk : bytes) : outcome bytes :=
  match ks with
  | [] => Ok blk
  | k :: r => x <- peek 0 k 0 32 ;; blk <- poke base blk cur x ;; fill_keys base r (cur + 32) blk
  end.
Definition keys_block (junk : nat -> bytes) (base : Z) (ks : list bytes) : outcome (Z * option bytes) :=
  match ks with
  | [] => Ok (0%Z, None)
  | _ => blk <- fill_keys base ks base (junk (32 * length ks)%nat) ;; Ok (Z.of_nat (length ks), Some blk)
  end.

(** ** the C caller *)
(** for (i = 0; i < len; i++) use(value[i]) *)
Fixpoint c_strings (base : Z) (blk : bytes) (value : Z) (n : nat) : outcome (list bytes) :=
  match n with
  | O => Ok []
  | S k =>
      w <- peek base blk value 8 ;;
      s <- peek_str base blk (of_le w) ;;
      r <- c_strings base blk (value + 8) k ;;
      Ok (s :: r)
  end.
Definition c_read_list (base : Z) (blk : bytes) : outcome (list bytes) :=
  v <- peek base blk base 8 ;;
  n <- peek base blk (base + 8) 8 ;;
  c_strings base blk (of_le v) (Z.to_nat (of_le n)).
Definition c_read_push (base : Z) (blk : bytes) : outcome (Z * bytes * list bytes) :=
  s <- peek base blk base 8 ;;
  c <- peek base blk (base + 8) 8 ;;
  cl <- peek base blk (base + 16) 8 ;;
  d <- peek base blk (of_le c) (Z.to_nat (of_le cl)) ;;
  o <- peek base blk (base + 24) 8 ;;
  ol <- peek base blk (base + 32) 8 ;;
  l <- c_strings base blk (of_le o) (Z.to_nat (of_le ol)) ;;
  Ok (signed_word s, d, l).
(** keys[i] = buf + 32 * i *)
Fixpoint c_read_keys (base : Z) (blk : bytes) (a : Z) (n : nat) : outcome (list bytes) :=
  match n with O => Ok [] | S k => x <- peek base blk a 32 ;; r <- c_read_keys base blk (a + 32) k ;; Ok (x :: r) end.

(** ** the C functions *)
(** base.cpp 622-636 config_merge and 644-678 config_push; the hashes are C strings.  An exception of merge or push leaves the
    C function: [Throw]. *)
Definition c_config_merge (B : benv) (junk : nat -> bytes) (base : Z) (msgs : list (bytes * bytes)) (st : bstate) : call bytes :=
  match merge B (map (fun p => (c_str (fst p), snd p)) msgs) st with
  | (Ok good, st') => (make_string_list junk base good, st')
  | (x, st') => (failed x, st')
  end.
Definition c_config_push (B : benv) (junk : nat -> bytes) (base : Z) (st : bstate) : call bytes :=
  match push B st with
  | (Ok (seqno, data, obs), st') => (push_block junk base seqno data obs, st')
  | (x, st') => (failed x, st')
  end.
(** base.cpp 700-702 config_current_hashes *)
Definition c_config_current_hashes (junk : nat -> bytes) (base : Z) (st : bstate) : outcome bytes := make_string_list junk base (current_hashes st).
(** base.cpp 685-691 config_dump: the length, and a block of that length which memcpy fills.  An exception of dump leaves the
    C function: [Throw]. *)
Definition c_config_dump (B : benv) (junk : nat -> bytes) (base : Z) (st : bstate) : call (nat * bytes) :=
  match dump B st with
  | (Ok data, st') => (blk <- poke base (junk (length data)) base data ;; Ok (length data, blk), st')
  | (x, st') => (failed x, st')
  end.
