(** What a community URL is.  Definitions only. *)
From Verif Require Export Community.

Definition label_char (c : ascii) : bool := existsb (Ascii.eqb c) (b "0123456789abcdefghijklmnopqrstuvwxyzABCDEFGHIJKLMNOPQRSTUVWXYZ-").
Definition good_label (l : bytes) : Prop := l <> [] /\ forallb label_char l = true.
Fixpoint join (labels : list bytes) : bytes := match labels with [] => [] | [l] => l | l :: r => l ++ b "." ++ join r end.
Definition default_port (proto : bytes) : N := if eqb proto (b "http") then 80 else 443.
(** how the port is shown: not at all if it is 0 or the default *)
Definition shown_port (proto : bytes) (n : N) : bytes := if (n =? 0)%N || (n =? default_port proto)%N then [] else b ":" ++ dec n.
(** [url_means u v]: [u] is a community URL (http or https, a host of at least two labels and four characters, perhaps a
    port below 65536, perhaps a final slash), and [v] is its canonical form, of at most 267 characters *)
Inductive url_means : bytes -> bytes -> Prop :=
| url_parts proto labels port n tail :
    (make_lc proto = b "http" \/ make_lc proto = b "https") ->
    2 <= length labels -> Forall good_label labels -> 4 <= length (join labels) ->
    (port = [] /\ n = 0%N \/ exists k, port = b ":" ++ repeat "0"%char k ++ dec n) -> (n < 65536)%N ->
    (tail = [] \/ tail = b "/") ->
    length (make_lc proto ++ b "://" ++ make_lc (join labels) ++ shown_port (make_lc proto) n) <= 267 ->
    url_means (proto ++ b "://" ++ join labels ++ port ++ tail)
              (make_lc proto ++ b "://" ++ make_lc (join labels) ++ shown_port (make_lc proto) n).
(** a room name: up to 64 letters, digits, dashes and underscores *)
Definition good_room (room : bytes) : Prop := 1 <= length room <= 64 /\ forallb (fun c => label_char c || Ascii.eqb c "_") room = true.
