(** What the properties of onion requests talk about. *)
From Verif Require Export Onion EdSpec.

(** what is assumed of the ciphers *)
Record o_ok (O : ocrypt) : Prop := {
  oo_ec : ec_ok O;
  oo_gcm : forall k n m, o_ungcm O k n (o_gcm O k n m) = Some m;
  oo_gcm_len : forall k n m, length (o_gcm O k n m) = length m + 16;
  (* key and nonce determine the keystream and, with the ciphertext, the tag *)
  oo_gcm_inv : forall k n c m, o_ungcm O k n c = Some m -> c = o_gcm O k n m;
  oo_open_inv : forall k n c m, ec_open O k n c = Some m -> c = ec_seal O k n m
}.
(** well-formed UTF-8: a sequence of encoded Unicode scalar values *)
Inductive utf8 : bytes -> Prop :=
| utf8_nil : utf8 []
| utf8_cons n s : (n < 55296 \/ 57344 <= n < 1114112)%N -> utf8 s -> utf8 (utf8_enc n ++ s).

(** ** the calls on a builder *)
Inductive bop := AddHop (ed pk : bytes) | ToSnode (ed pk : bytes) | ToServer (host target proto : bytes) (port : option N) (pk : bytes) | SetEnc (t : enc_type).
Definition bapply (x : builder) (o : bop) : builder :=
  match o with
  | AddHop ed pk => add_hop ed pk x
  | ToSnode ed pk => set_snode ed pk x
  | ToServer host target proto port pk => set_server host target proto port pk x
  | SetEnc t => set_enc_type t x
  end.
Definition brun (t : enc_type) (ops : list bop) : builder := fold_left bapply ops (new_builder t).
(** the hops in order, the encryption type set last, the destination set last *)
Definition hops_of (ops : list bop) : list (bytes * bytes) := flat_map (fun o => match o with AddHop ed pk => [(ed, pk)] | _ => [] end) ops.
Definition enc_of (t : enc_type) (ops : list bop) : enc_type := fold_left (fun t o => match o with SetEnc t' => t' | _ => t end) ops t.
Definition dest_of (ops : list bop) : option bop := fold_left (fun d o => match o with ToSnode _ _ | ToServer _ _ _ _ _ => Some o | _ => d end) ops None.
Definition is_snode (o : bop) : Prop := match o with ToSnode _ _ => True | _ => False end.
Definition is_server (o : bop) : Prop := match o with ToServer _ _ _ _ _ => True | _ => False end.
Definition gives_port (o : bop) : Prop := match o with ToServer _ _ _ (Some _) _ => True | _ => False end.

(** ** what the nodes do *)
(** a node: its Ed25519 public key, under which others know it, and its X25519 secret key *)
Definition node := (bytes * bytes)%type.
Definition as_hop (O : ocrypt) (n : node) : bytes * bytes := (fst n, x_base O (snd n)).
(** the JSON at the end of a request *)
Definition metadata (req : bytes) : option json := json_parse (skipn (4 + Z.to_nat (le (firstn 4 req))) req).
(** [forwarded O t max req nodes out]: the first of the nodes gets [req], decrypts it and finds the key of the next one, and nothing else, to
    whom it passes on what it decrypted, and so on; [out] is the request as the last one parsed it. *)
Inductive forwarded (O : ocrypt) (t : enc_type) (max : nat) : bytes -> list node -> request -> Prop :=
| fw_last req n q : parse_request O (x_base O (snd n)) (snd n) req max = Ok q -> forwarded O t max req [n] q
| fw_next req n n' nodes q A out : parse_request O (x_base O (snd n)) (snd n) req max = Ok q -> length A = 32 ->
    metadata (rq_payload q) = Some (JObj [(b "destination", JStr (to_hex (fst n'))); (b "enc_type", JStr (enc_name t)); (b "ephemeral_key", JStr (to_hex A))]) ->
    forwarded O t max (rq_payload q) (n' :: nodes) out -> forwarded O t max req (n :: n' :: nodes) out.
(** the randomness of a layer: a secret key and a nonce *)
Definition rnd_ok (r : layer_rnd) : Prop := length (fst r) = 32 /\ length (snd r) = 24.
Definition node_ok (n : node) : Prop := length (snd n) = 32.
Definition fits (req : bytes) (max : nat) : Prop := (Z.of_nat (length req) < 2 ^ 32)%Z /\ length req <= max.
Definition no_nul (s : bytes) : Prop := ~ In (ascii_of_N 0) s.
