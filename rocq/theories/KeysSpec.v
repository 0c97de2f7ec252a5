(** Vocabulary for the statements about group keys. *)
From Verif Require Export GroupKeys.

(** a key message: hash, content, swarm timestamp *)
Definition kmsg := (bytes * bytes * Z)%type.
(** a client that receives a message; one that is refused changes nothing *)
Definition receive (G : gcrypt) (o : kobj) (m : kmsg) : kobj :=
  match load_key_message G (fst (fst m)) (snd (fst m)) (snd m) o with Ok (_, o') => o' | _ => o end.
Definition receive_all (G : gcrypt) (ms : list kmsg) (o : kobj) : kobj := fold_left (receive G) ms o.
(** the same user's object after a restart from the saved dump *)
Definition fresh (o : kobj) : kobj := new_keys (ko_user o) (ko_pk o) (ko_sk o).

(** everything that can happen to a Keys object; a call that throws leaves it as it was *)
Inductive kstep (G : gcrypt) : kobj -> kobj -> Prop :=
| ks_load h data ts o r o' : load_key_message G h data ts o = Ok (r, o') -> kstep G o o'
| ks_rekey sids o m o' : rekey G sids o = Ok (m, o') -> kstep G o o'
| ks_dump o : kstep G o (dumped o)
| ks_admin secret o o' : load_admin_key G secret o = Ok o' -> kstep G o o'
| ks_restart o o' : (N.of_nat (length (kdump o)) <= uint64_max)%N -> load_dump (kdump o) (fresh o) = Ok o' -> kstep G o o'.
Inductive klife (G : gcrypt) (o : kobj) : kobj -> Prop :=
| kl_new : klife G o o
| kl_step p q : klife G o p -> kstep G p q -> klife G o q.
(** the states of an object that started empty *)
Definition kreach (G : gcrypt) (o : kobj) : Prop :=
  exists user pk sk, length user = 64 /\ length pk = 32 /\ match sk with Some s => length s = 64 | None => True end /\ klife G (new_keys user pk sk) o.

(** (generation, key), the identity of a key *)
Definition key_id (k : key_info) : Z * bytes := (k_gen k, k_key k).
(** hash [h] is kept for generation [g] *)
Definition has_hash (act : list (Z * list bytes)) (g : Z) (h : bytes) : Prop := exists l, lookup g act = Some l /\ In h l.

(** ** what the crypto library promises, as far as it is used *)
(** authenticated encryption: what was sealed opens; a ciphertext is 16 bytes longer than its content *)
Record seal_ok (X : xcrypt) : Prop := {
  so_open : forall k n m, x_open X k n (x_seal X k n m) = Some m;
  so_len : forall k n m, length (x_seal X k n m) = length m + ABYTES;
  so_olen : forall k n c m, x_open X k n c = Some m -> length c = length m + ABYTES
}.
(** fixed sizes *)
Record sizes_ok (G : gcrypt) : Prop := {
  z_hash : forall n k m, length (g_hash G n k m) = n;
  z_xpk : forall pk x, g_xpk G pk = Some x -> length x = 32;
  z_xsk : forall sk, length (g_xsk G sk) = 32;
  z_sign : forall sk m, length (g_sign G sk m) = 64;
  z_rng : forall s n, length (g_rng G s n) = n;
  z_edpk : forall s, length (g_edpk G s) = 32
}.
Definition lib_ok (G : gcrypt) : Prop := seal_ok (g_x G) /\ sizes_ok G.

(** ** keys and times *)
(** more than the expiry time (60 days) before the time [newest] *)
Definition expired (newest : Z) (k : key_info) : Prop := (k_ts k + KEY_EXPIRY < newest)%Z.
(** timestamps never go down from one generation to the next *)
Definition in_step (S : key_info -> Prop) : Prop := forall x y, S x -> S y -> (k_gen x < k_gen y)%Z -> (k_ts x <= k_ts y)%Z.
(** a key of a generation always comes with the same timestamp *)
Definition one_time (S : key_info -> Prop) : Prop := forall x y, S x -> S y -> k_gen x = k_gen y -> k_key x = k_key y -> k_ts x = k_ts y.

(** ** what a message has for a client *)
(** the keys a message has for us, if it is valid *)
Definition contents (G : gcrypt) (o : kobj) (m : kmsg) : option (list key_info) :=
  match read_message G o (snd (fst m)) (snd m) with
  | Ok (ks, _, s) => match verify_sig (sig_env G (ko_pk o)) false (snd (fst m)) s with Ok _ => Some ks | _ => None end
  | _ => None
  end.
(** no valid message is without keys for us *)
Definition readable (G : gcrypt) (o : kobj) (ms : list kmsg) : Prop := forall m, In m ms -> contents G o m <> Some [].
(** the keys all these messages have for the holder of [o] *)
Definition offered (G : gcrypt) (o : kobj) (ms : list kmsg) (k : key_info) : Prop := exists m ks, In m ms /\ contents G o m = Some ks /\ In k ks.

(** ** further promises of the crypto library *)
(** nothing sealed under another key opens as something else *)
Definition binding (X : xcrypt) : Prop := forall k k' n m m', x_open X k n (x_seal X k' n m) = Some m' -> m' = m.
(** two parties that agree on a shared secret *)
Definition agree (X : xcrypt) (a A c C : bytes) : Prop := exists s, x_dh X a C = Some s /\ x_dh X c A = Some s.
(** signatures made with the group's secret key verify *)
Definition key_pair (G : gcrypt) (sk pk : bytes) : Prop := forall m, g_verify G (g_sign G sk m) m pk = true.
(** [p] is a member (not an administrator) of the group of [o], whose X25519 key is [upk] and who shares a secret with the group *)
Record member_in (G : gcrypt) (o p : kobj) (sk xpk upk : bytes) : Prop := {
  mi_pk : ko_pk p = ko_pk o;
  mi_not_admin : ko_sk p = None;
  mi_upk : g_xpk G (user_pk p) = Some upk;
  mi_agree : agree (g_x G) (g_xsk G sk) xpk (g_xsk G (ko_user p)) upk
}.
(** what was compressed decompresses, and is not empty *)
Definition zstd_ok (G : gcrypt) : Prop := forall m, (N.of_nat (length m) <= MAX_PLAINTEXT)%N -> g_unzstd G MAX_PLAINTEXT (g_zstd G m) = Some m /\ g_zstd G m <> [].
(** the keys a client can decrypt with: a pending one and the list *)
Definition decrypt_keys (o : kobj) : list bytes := (if is_nil (ko_pconf o) then [] else [ko_pkey o]) ++ map k_key (ko_keys o).
(** the message for the i-th recipient *)
Definition message_for (ms : list bytes) (i : nat) : option bytes := match ms with [m] => Some m | _ => nth_error ms i end.

(** ** the order of keys: generation, then timestamp, then the bytes of the key *)
Definition before (x y : key_info) : Prop :=
  (k_gen x < k_gen y)%Z \/ k_gen x = k_gen y /\ ((k_ts x < k_ts y)%Z \/ k_ts x = k_ts y /\ lt (k_key x) (k_key y)).

(** ** histories together with what was last saved.  [P o m]: which messages may be loaded in which state. *)
Inductive khist (G : gcrypt) (P : kobj -> kmsg -> Prop) : bytes -> kobj -> Prop :=
| kh_new u p s : khist G P (kdump (new_keys u p s)) (new_keys u p s)
| kh_load d o h data ts r o' : khist G P d o -> P o (h, data, ts) -> load_key_message G h data ts o = Ok (r, o') -> khist G P d o'
| kh_rekey d o sids m o' : khist G P d o -> rekey G sids o = Ok (m, o') -> khist G P d o'
| kh_admin d o secret o' : khist G P d o -> load_admin_key G secret o = Ok o' -> khist G P d o'
| kh_dump d o : khist G P d o -> khist G P (kdump o) (dumped o)
| kh_restart d o o' : khist G P d o -> (N.of_nat (length d) <= uint64_max)%N -> load_dump d (fresh o) = Ok o' -> khist G P d o'.
(** none of the keys in the message is in the list already *)
Definition only_news (G : gcrypt) (o : kobj) (m : kmsg) : Prop :=
  forall ks, contents G o m = Some ks -> forall k y, In k ks -> In y (ko_keys o) -> key_id k <> key_id y.
