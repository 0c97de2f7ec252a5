(** Conflict resolution: src/config.cpp 567-718, the merging constructors.  Definitions only. *)
From Verif Require Export Message.

(** 575-588: parse every message; one that throws a config_error is reported by index and skipped.  Result:
    parsed messages and the indices given to error_handler. *)
Fixpoint parse_all (E : env) (i : nat) (l : list bytes) : outcome (list msg * list nat) :=
  match l with
  | [] => Ok ([], [])
  | s :: r =>
      match parse_msg E false s with
      | Ok m => rs <- parse_all E (S i) r ;; let '(ms, bad) := rs in Ok (m :: ms, bad)
      | Err => rs <- parse_all E (S i) r ;; let '(ms, bad) := rs in Ok (ms, i :: bad)
      | Throw => Throw | Hang => Hang | UB => UB
      end
  end.

(** std::map::count *)
Definition has_key (k : shash) (l : lagged_t) : bool := match lookup k l with Some _ => true | None => false end.
(** 601-609: included in another message, or equal to an earlier one *)
Definition superseded (before : list msg) (m : msg) (after : list msg) : bool :=
  existsb (fun m2 => has_key (m_sh m) (m_lagged m2)) (before ++ after) ||
  existsb (fun m2 => eqb (m_sh m2) (m_sh m)) before.
Fixpoint mark (before after : list msg) : list (msg * bool) :=
  match after with
  | [] => []
  | m :: r => (m, superseded before m r) :: mark (before ++ [m]) r
  end.
(** 592-598 *)
Definition max_seqno (l : list msg) : Z := fold_left (fun x m => if (m_seqno m >? x)%Z then m_seqno m else x) l int64_min.
(** 613-615 *)
Definition mark_old (lag mx : Z) (l : list (msg * bool)) : list (msg * bool) :=
  map (fun p => (fst p, snd p || (m_seqno (fst p) + lag <=? mx)%Z)) l.
Definition marked (E : env) (l : list msg) : list (msg * bool) := mark_old (e_lag E) (max_seqno l) (mark [] l).

Definition set_unmerged (i : option nat) (m : msg) : msg :=
  mkMsg (m_sh m) (m_data m) (m_diff m) (m_lagged m) (m_unknown m) (m_vsig m) i.
(** 623-630: the first non-redundant message *)
Fixpoint first_current (i : nat) (l : list (msg * bool)) : option (nat * msg) :=
  match l with
  | [] => None
  | (m, red) :: r => if red then first_current (S i) r else Some (i, m)
  end.
(** 641-648: std::max_element with this order (the first of the largest) *)
Definition rank_lt (p q : msg * bool) : bool :=
  if Bool.eqb (snd p) (snd q) then ltb (m_sh (fst p)) (m_sh (fst q)) else snd p.
Fixpoint max_elt (i : nat) (besti : nat) (best : msg * bool) (l : list (msg * bool)) : nat * msg :=
  match l with
  | [] => (besti, fst best)
  | p :: r => if rank_lt best p then max_elt (S i) i p r else max_elt (S i) besti best r
  end.

(** 664-666: sorted in descending (seqno, hash) order; insertion sort stands for std::sort (the keys are distinct,
    see Merge_facts, so every sorting algorithm gives this list) *)
Fixpoint insert_desc (m : msg) (l : list msg) : list msg :=
  match l with
  | [] => [m]
  | m' :: r => if ltb (m_sh m) (m_sh m') then m' :: insert_desc m r else m :: l
  end.
Definition sort_desc (l : list msg) : list msg := fold_right insert_desc [] l.

(** 672-683: the replay map; for every (seqno, hash) the data to take values from and the diff *)
Definition replay_t := list (shash * (dict * btdict)).
Definition add_conf (rp : replay_t) (m : msg) : replay_t :=
  fold_left (fun rp p => emplace (fst p) (m_data m, snd p) rp) (m_lagged m)
            (emplace (m_sh m) (m_data m, m_diff m) rp).
Definition replay_of (l : list msg) : replay_t := fold_left add_conf l [].
(** 687-691: ascending; [None]: apply_diff threw *)
Fixpoint run_replay (rp : replay_t) (data : dict) : option dict :=
  match rp with
  | [] => Some data
  | (_, (src, df)) :: r => match apply_diff df src data with Some d => run_replay r d | None => None end
  end.

(** 650-697: merging two or more current messages.  An exception out of apply_diff is not caught: [Throw]. *)
Definition resolve (E : env) (mx : Z) (current : list msg) : outcome msg :=
  if negb (int64_ok (mx + 1)) then UB else
  match sort_desc current with
  | [] => UB
  | (top :: _) as confs =>
      let rp := replay_of confs in
      match run_replay rp (m_data top) with
      | None => Throw
      | Some d =>
          let m0 := mkMsg ((mx + 1)%Z, zero_hash) (fst (prune d)) [] (map (fun p => (fst p, snd (snd p))) rp) [] None None in
          s <- serialize_impl E m0 [] true ;;
          Ok (mkMsg ((mx + 1)%Z, e_hash E s) (m_data m0) [] (m_lagged m0) [] None None)
      end
  end.

Definition read_only (E : env) : bool :=
  match e_verifier E, e_signer E with Some _, None => true | _, _ => false end.

(** 590-697 on the parsed messages *)
Definition merge_parsed (E : env) (confs : list msg) : outcome msg :=
  match confs with
  | [] => Err                                                        (* 589-590: config_error *)
  | _ =>
      if existsb (fun m => negb (int64_ok (m_seqno m + e_lag E))) confs then UB else
      let cs := marked E confs in
      match filter (fun p => negb (snd p)) cs with
      | [] => UB                                                     (* 620: assert(curr_confs >= 1) *)
      | [_] => match first_current 0 cs with
               | Some (i, m) => Ok (set_unmerged (Some i) m)
               | None => UB
               end
      | cur =>
          if read_only E then
            match cs with
            | p :: r => let '(i, m) := max_elt 1 0 p r in Ok (set_unmerged (Some i) m)
            | [] => UB
            end
          else resolve E (max_seqno confs) (map fst cur)
      end
  end.

(** 567-697: result and the indices reported to error_handler *)
Definition merge_msgs (E : env) (l : list bytes) : outcome (msg * list nat) :=
  ps <- parse_all E 0 l ;;
  let '(ms, bad) := ps in
  m <- merge_parsed E ms ;; Ok (m, bad).

(** 699-712 MutableConfigMessage(configs...): orig_data_ is initialised from the merged data (config.hpp 285) *)
Definition merge_mutable (E : env) (l : list bytes) : outcome (config * list nat) :=
  rb <- merge_msgs E l ;;
  let '(m, bad) := rb in
  match m_unmerged m with
  | None => Ok (Mut m (m_data m), bad)
  | Some _ => c <- increment_impl E m ;; Ok (c, bad)
  end.
(** 714-718 MutableConfigMessage(one config): the error handler rethrows *)
Definition mutable_of (E : env) (s : bytes) : outcome config :=
  m <- parse_msg E false s ;;
  m' <- merge_parsed E [m] ;;
  increment_impl E m'.
