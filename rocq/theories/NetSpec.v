(** Specification of C97, C98 and C99: the devices of one account and a server that keeps what they push, under every
    schedule.  Definitions only. *)
From Verif Require Export ConvergeSpec.

(** The devices, named by the elements of [I]: the same config class, all able to write, talking to the same server. *)
Record fleet {I : Type} (B : I -> benv) : Prop := {
  fl_aead : forall i, aead_ok (b_aead (B i));
  fl_env : forall i, benv_ok (B i);
  fl_same : forall i j, b_env (B i) = b_env (B j);
  fl_peer : forall i j, peer (B i) (B j);
  fl_write : forall i, readonly (B i) = false
}.
(** The whole system: the state of every device, everything that was ever pushed (encrypted), the edits made, the number
    of calls made, and the states each device was ever in. *)
Record net (I : Type) := mkNet { dev : I -> bstate; sent : bytes -> Prop; did : list op; calls : nat; past : I -> bstate -> Prop }.
Arguments dev {I}. Arguments sent {I}. Arguments did {I}. Arguments calls {I}. Arguments past {I}.

(** rubbish: none of the device's keys opens it *)
Definition rubbish (B : benv) (st : bstate) (p : bytes * bytes) : Prop := incoming B (s_keys st) (map (unwrap1 B st) [p]) = Ok [].
(** What the server may hand to a device: anything pushed, by any device at any time, the device itself included; in any
    order, any number of times, under any message hashes, with anything left out; and rubbish. *)
Definition from_server (S : bytes -> Prop) (B : benv) (st : bstate) (l : list (bytes * bytes)) : Prop :=
  forall h x, In (h, x) l -> S x \/ rubbish B st (h, x).
(** One call on one device, or a restart of it: from a dump of the state it is in or, as after a crash, of any state [H] it was
    once in.  [S] is what the server has; [es]: the edit made; [cs]: what is sent. *)
Inductive does (B : benv) (key : bytes) (S : bytes -> Prop) (H : bstate -> Prop) (st : bstate) : list op -> list bytes -> bstate -> Prop :=
| does_edit o x st' : is_edit o = true -> op_ok B o st -> run B o st = (x, st') -> returned x -> does B key S H st (match x with Ok _ => [o] | _ => [] end) [] st'
| does_push x st' : push B st = (x, st') -> returned x -> does B key S H st [] (match x with Ok (_, c, _) => [c] | _ => [] end) st'
| does_confirm n h x st' : confirm_pushed B n h st = (x, st') -> returned x -> does B key S H st [] [] st'
| does_merge l x st' : from_server S B st l -> merge B l st = (x, st') -> returned x -> does B key S H st [] [] st'
| does_dump x st' : dump B st = (x, st') -> returned x -> does B key S H st [] [] st'
| does_restart y d st1 st' : H y -> dump B y = (Ok d, st1) -> (N.of_nat (length d) <= uint64_max)%N -> restore B [key] d = Ok st' -> does B key S H st [] [] st'.
(** one device does something; afterwards its data is less than 2^64 bytes *)
Record net_step {I : Type} (B : I -> benv) (key : bytes) (N N' : net I) (i : I) (es : list op) (cs : list bytes) : Prop := {
  ns_does : does (B i) key (sent N) (past N i) (dev N i) es cs (dev N' i);
  ns_size : sendable (s_data (dev N' i));
  ns_other : forall j, j = i \/ dev N' j = dev N j;
  ns_sent : forall c, sent N' c <-> In c cs \/ sent N c;
  ns_did : did N' = es ++ did N;
  ns_calls : calls N' = S (calls N);
  ns_past : forall j x, past N' j x <-> past N j x \/ (j = i /\ x = dev N' i)
}.
(** new devices with the account's key, and nothing on the server *)
Record net_start {I : Type} (B : I -> benv) (key : bytes) (N : net I) : Prop := {
  n0_dev : forall i, dev N i = fresh (B i) [key];
  n0_sent : forall c, ~ sent N c;
  n0_did : did N = [];
  n0_calls : calls N = 0;
  n0_past : forall i x, past N i x <-> x = fresh (B i) [key]
}.
(** the systems that can come about, by any schedule *)
Inductive net_run {I : Type} (B : I -> benv) (key : bytes) : net I -> Prop :=
| run_start N : net_start B key N -> net_run B key N
| run_more N i es cs N' : net_run B key N -> net_step B key N N' i es cs -> net_run B key N'.
(** BLAKE2b had no collision among the messages of the system *)
Definition no_clash {I : Type} (B : I -> benv) (N : net I) : Prop := forall i x j y, past N i x -> past N j y -> apart_hashes (B i) x (B j) y.
(** what some device published at some time, or would have published if it had pushed then *)
Definition seen {I : Type} (B : I -> benv) (N : net I) (s : bytes) : Prop := exists j x, past N j x /\ publishes (B j) x s.
(** a config class without signatures (all but the group configs) *)
Definition unsigned_fleet {I : Type} (B : I -> benv) : Prop := forall i, e_verifier (b_env (B i)) = None.
(** fewer calls than would bring a version number near the end of the 64-bit range *)
Definition few_calls {I : Type} (B : I -> benv) (N : net I) : Prop := forall i, (Z.of_nat (calls N) + 2 + e_lag (b_env (B i)) < 2 ^ 63)%Z.

(** ** all devices sync *)
(** Every device fetches the same messages, old ones included: [Q] is what the server has besides what was just pushed.
    (Its own last message may be missing.) *)
Record all_fetch_from {I : Type} (B : I -> benv) (S : bytes -> Prop) (st : I -> bstate) (c : I -> bytes) (st1 : I -> bstate) (Q : bytes -> Prop) (l : I -> list (bytes * bytes)) : Prop := {
  ff_old : forall x, Q x -> S x;
  ff_only : forall i h x, In (h, x) (l i) -> (exists j, x = c j) \/ Q x \/ rubbish (B i) (st1 i) (h, x);
  ff_new : forall i j, In (c j) (map snd (l i)) \/ j = i /\ (0 < s_seqno (st i))%Z;
  ff_all : forall i x, Q x -> In x (map snd (l i))
}.
(** Old news, after that exchange: what was pushed in it, what the server had, what the devices pushed since ([c']), rubbish;
    any of it, in any order, any number of times. *)
Definition old_news {I : Type} (c c' : I -> bytes) (Q : bytes -> Prop) (B : benv) (st : bstate) (l : list (bytes * bytes)) : Prop :=
  forall h x, In (h, x) l -> (exists j, x = c j) \/ (exists j, x = c' j) \/ Q x \/ rubbish B st (h, x).
(** any number of fetches *)
Inductive fetches (B : benv) (P : bstate -> list (bytes * bytes) -> Prop) : bstate -> bstate -> Prop :=
| fetched_none st : fetches B P st st
| fetched_more st st1 l x st2 : fetches B P st st1 -> P st1 l -> merge B l st1 = (x, st2) -> fetches B P st st2.

(** ** where content comes from *)
(** the value [x] is at [p]; for [elem]: it is in the set at [p] *)
Definition shows (elem : bool) (p : list bytes) (x : scalar) (d : dict) : Prop :=
  match get_path p d with
  | Some (VScal y) => elem = false /\ y = x
  | Some (VSet l) => elem = true /\ In x l
  | _ => False
  end.
(** one of the edits wrote it there *)
Definition written (log : list op) (elem : bool) (p : list bytes) (x : scalar) : Prop := exists o, In o log /\ shows elem p x (edited o []).
