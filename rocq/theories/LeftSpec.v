(** Vocabulary: somebody who is left out of the key messages of a group. *)
From Verif Require Export KeysSpec.

(** the session id of the holder of this X25519 key is not in the list, however it is written *)
Definition left_out (sids : list bytes) (upk : bytes) : Prop := forall s, In s sids -> session_id_pk s (b "05") <> Ok upk.
(** the symmetric key with which the holder of [p] opens entries of key messages: the hash (with the fixed domain) of the
    secret its X25519 key and the group's agree on, the group's public key and its own.  keys.cpp 974-986 and 1046-1058,
    multi_encrypt.cpp 22-53 *)
Definition shared_key (G : gcrypt) (upk : bytes) (p : kobj) (kp : bytes) : Prop :=
  exists xpk secret, g_xpk G (user_pk p) = Some upk /\ g_xpk G (ko_pk p) = Some xpk /\
    x_dh (g_x G) (g_xsk G (ko_user p)) xpk = Some secret /\ kp = x_kdf (g_x G) MEMBER_KEY (secret ++ xpk ++ upk).
(** [kr] is the key under which the administrator with secret key [sk] seals for the listed holder of [r] *)
Definition listed_key (G : gcrypt) (sk xpk : bytes) (sids : list bytes) (r kr : bytes) : Prop :=
  exists s secret, In s sids /\ session_id_pk s (b "05") = Ok r /\ x_dh (g_x G) (g_xsk G sk) r = Some secret /\
    kr = x_kdf (g_x G) MEMBER_KEY (secret ++ xpk ++ r).
(** What is assumed of the encryption: what is sealed for those of the listed whose public key is another does not open
    under the key [kp] of the holder of [upk]. *)
Definition closed_to (G : gcrypt) (sk xpk : bytes) (sids : list bytes) (upk kp : bytes) : Prop :=
  forall r kr n t, listed_key G sk xpk sids r kr -> r <> upk -> x_open (g_x G) kp n (x_seal (g_x G) kr n t) = None.
(** ... and that the random blocks which fill up the list of a full key message do not open under [kp] either: every
    entry is sealed for somebody in the list or does not open. *)
Definition filler_closed (G : gcrypt) (sk xpk : bytes) (sids : list bytes) (kp m : bytes) : Prop :=
  forall nonce gen ak es sig, let d := BDict [(b "#", BStr nonce); (b "G", BInt gen); (b "K", BStr ak); (b "k", BList (map BStr es)); (b "~", BStr sig)] in
  m = enc d -> bt_ok d = true -> forall c, In c es -> (exists r kr t, listed_key G sk xpk sids r kr /\ c = x_seal (g_x G) kr nonce t) \/ x_open (g_x G) kp nonce c = None.
(** key messages which some administrator of the group of [p] made without the holder of [p] *)
Inductive sent_without (G : gcrypt) (p : kobj) (upk kp : bytes) : kmsg -> Prop :=
| sw_rekey o sk xpk sids m o' h ts : ko_pk o = ko_pk p -> ko_sk o = Some sk -> g_xpk G (ko_pk o) = Some xpk ->
    left_out sids upk -> closed_to G sk xpk sids upk kp -> filler_closed G sk xpk sids kp m ->
    rekey G sids o = Ok (m, o') -> sent_without G p upk kp (h, m, ts)
| sw_supplement o sk xpk sids m h ts : ko_pk o = ko_pk p -> ko_sk o = Some sk -> g_xpk G (ko_pk o) = Some xpk ->
    left_out sids upk -> closed_to G sk xpk sids upk kp ->
    key_supplement G sids o = Ok m -> (N.of_nat (length m) <= uint64_max)%N -> sent_without G p upk kp (h, m, ts).
(** the key a rekey makes: keys.cpp 264-300, derived from the list, the next generation and the group's seed *)
Definition next_generation (o : kobj) : Z := match rev (ko_keys o) with [] => 0%Z | k :: _ => (k_gen k + 1)%Z end.
Definition new_key (G : gcrypt) (sids : list bytes) (o : kobj) (sk : bytes) : bytes :=
  firstn 32 (g_hash G 56 GEN_KEY (concat sids ++ dec_z (next_generation o) ++ g_hash G 32 SEED_KEY (firstn 32 sk))).
