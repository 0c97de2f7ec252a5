(** C57: the protobuf wrapping of config messages.  Proofs of the wire format are in Proto_facts.v. *)
From Verif Require Import SessSpec Proto Proto_facts SessEnc_facts Ed_facts ToyEd ToyKeys.
From Coq Require Import Lia.

(** Padding is 0x80 and then any number of zeros.  Removing it gives back exactly what was padded, whatever that ends in,
    and nothing is accepted that was not padded so. *)
Theorem C57_padding p n : unpad (p ++ byte 128 :: repeat NUL n) = Some p.
Proof. apply unpad_pad. Qed.
Print Assumptions C57_padding.
Theorem C57_padding_only s p : unpad s = Some p <-> exists n, s = p ++ byte 128 :: repeat NUL n.
Proof. split; [apply unpad_inv|intros (n & ->); apply unpad_pad]. Qed.
Print Assumptions C57_padding_only.

(** the namespaces with a protobuf kind: UserProfile, Contacts, ConvoInfoVolatile, UserGroups *)
Definition wrappable (ns : Z) : Prop := (2 <= ns <= 5)%Z.
Lemma wrappable_kind ns k : encode_namespace ns = Ok k -> wrappable ns /\ valid_kind k = true.
Proof.
  unfold encode_namespace, wrappable. destruct (Z.eqb_spec ns 2); [intros h; injection h as <-; split; [lia|reflexivity]|]. destruct (Z.eqb_spec ns 3); [intros h; injection h as <-; split; [lia|reflexivity]|].
  destruct (Z.eqb_spec ns 4); [intros h; injection h as <-; split; [lia|reflexivity]|]. destruct (Z.eqb_spec ns 5); [intros h; injection h as <-; split; [lia|reflexivity]|]. discriminate.
Qed.
Lemma kind_inj ns ns' k : encode_namespace ns = Ok k -> encode_namespace ns' = Ok k -> ns = ns'.
Proof.
  unfold encode_namespace. destruct (Z.eqb_spec ns 2), (Z.eqb_spec ns 3), (Z.eqb_spec ns 4), (Z.eqb_spec ns 5), (Z.eqb_spec ns' 2), (Z.eqb_spec ns' 3), (Z.eqb_spec ns' 4), (Z.eqb_spec ns' 5);
    intros h h'; try discriminate h; try discriminate h'; try lia; exfalso; congruence.
Qed.
Lemma encode_ok ns : (exists k, encode_namespace ns = Ok k) \/ encode_namespace ns = Throw.
Proof. unfold encode_namespace. destruct (ns =? 2)%Z; [eauto|]. destruct (ns =? 3)%Z; [eauto|]. destruct (ns =? 4)%Z; [eauto|]. destruct (ns =? 5)%Z; eauto. Qed.
(** the text that is signed when wrapping: the padded content, our key, us as recipient *)
Definition wrapped_text (E : ecrypt) (seed data : bytes) (seqno : Z) (k : N) : bytes := (content_of k seqno data ++ [byte 128]) ++ ed_pub E seed ++ x_of E seed.
Lemma wrap_inv E seed sk data seqno ns w : ec_ok E -> account E seed sk -> wrap_config E sk data seqno ns = Ok w ->
  exists k c, encode_namespace ns = Ok k /\ encrypt_deterministic E (seed ++ ed_pub E seed) (x_of E seed) (content_of k seqno data ++ [PAD]) = Ok c /\ w = websocket_of (envelope_of c).
Proof.
  intros H h. unfold wrap_config. rewrite (full_sk_account E H seed sk h). cbn [bind]. rewrite (pk_account E seed (proj1 h)), (ed_pub_x E H). cbn [of_opt bind]. destruct (5 <? ns)%Z; [discriminate|].
  destruct (encode_namespace ns) as [k| | | |]; try discriminate. cbn [bind]. fold (x_of E seed).
  destruct (encrypt_deterministic E _ _ _) as [c| | | |] eqn:ec; try discriminate. cbn [bind]. intros hw. exists k, c. split; [reflexivity|]. split; [exact ec|congruence].
Qed.
Lemma unwrap_wrapped E seed sk sk' data seqno ns k ns' w : ec_ok E -> account E seed sk -> account E seed sk' -> (N.of_nat (length data) <= MAX_SIZE - 1000)%N -> encode_namespace ns = Ok k ->
  nonce_ok E seed (wrapped_text E seed data seqno k) -> wrap_config E sk data seqno ns = Ok w ->
  unwrap_config E sk' w ns' = (kind <- encode_namespace ns' ;; if (k =? kind)%N then Ok data else Throw).
Proof.
  intros H h h' hd hk hn hw. destruct (wrap_inv E seed sk data seqno ns w H h hw) as (k0 & c & hk0 & hc & ->). assert (k0 = k) by congruence. subst k0.
  pose proof (proj2 (wrappable_kind ns k hk)) as hv.
  assert (hr := sealed_roundtrip E H seed _ seed (x_of E seed) sk' (content_of k seqno data ++ [PAD]) (fun y => det_esk E (seed ++ ed_pub E seed) y (content_of k seqno data ++ [PAD])) c (account_full E seed sk h) h' (or_introl eq_refl) hn hc).
  destruct hr as (e1 & _ & e3). rewrite app_length in e3. cbn [length] in e3. pose proof (content_len k seqno data) as hl. pose proof (envelope_len c) as he.
  unfold unwrap_config. rewrite (full_sk_account E H seed sk' h'). cbn [bind]. rewrite websocket_parse by (unfold MAX_SIZE in *; lia). cbn [of_opt bind fst snd N.eqb Pos.eqb negb].
  rewrite envelope_parse by (unfold MAX_SIZE in *; lia). cbn [of_opt bind].
  assert (e1' : decrypt_incoming E (seed ++ ed_pub E seed) c = Ok (content_of k seqno data ++ [PAD], ed_pub E seed)).
  { destruct h' as (h1 & h2). apply (sealed_roundtrip E H seed _ seed (x_of E seed) (seed ++ ed_pub E seed) (content_of k seqno data ++ [PAD]) (fun y => det_esk E (seed ++ ed_pub E seed) y (content_of k seqno data ++ [PAD])) c (account_full E seed sk h) (account_full E seed sk h) (or_introl eq_refl) hn hc). }
  rewrite e1'. cbn [bind fst snd]. rewrite (pk_account E seed (proj1 h)), eqb_refl. cbn [negb]. rewrite (unpad_pad (content_of k seqno data) 0 : unpad (content_of k seqno data ++ [PAD]) = _). cbn [of_opt bind].
  rewrite content_parse; [|exact hv|unfold MAX_SIZE in *; lia]. cbn [of_opt bind]. reflexivity.
Qed.
(** What an account wraps, the same account unwraps, whatever the data end in, and under that namespace only. *)
Theorem C57_wrap_unwrap E seed sk sk' data seqno ns k w : ec_ok E -> account E seed sk -> account E seed sk' -> (N.of_nat (length data) <= MAX_SIZE - 1000)%N -> encode_namespace ns = Ok k ->
  nonce_ok E seed (wrapped_text E seed data seqno k) -> wrap_config E sk data seqno ns = Ok w ->
  unwrap_config E sk' w ns = Ok data /\ forall ns', ns' <> ns -> unwrap_config E sk' w ns' = Throw.
Proof.
  intros H h h' hd hk hn hw. split.
  - rewrite (unwrap_wrapped E seed sk sk' data seqno ns k ns w) by assumption. rewrite hk. cbn [bind]. rewrite N.eqb_refl. reflexivity.
  - intros ns' hne. rewrite (unwrap_wrapped E seed sk sk' data seqno ns k ns' w) by assumption. destruct (encode_ok ns') as [(k' & ek)|ek]; rewrite ek; cbn [bind]; [|reflexivity].
    destruct (N.eqb_spec k k') as [<-|]; [|reflexivity]. elim hne. apply (kind_inj ns' ns k); assumption.
Qed.
Print Assumptions C57_wrap_unwrap.
(** Only the four user namespaces can be wrapped, and a key that is neither 32 nor 64 bytes is refused. *)
Theorem C57_wrap_refuses E sk data seqno ns w : wrap_config E sk data seqno ns = Ok w -> wrappable ns /\ (length sk = 32 \/ length sk = 64).
Proof.
  unfold wrap_config, full_sk. intros h. assert (hs : length sk = 32 \/ length sk = 64).
  { destruct (Nat.eqb_spec (length sk) 32); [left; assumption|]. destruct (Nat.eqb_spec (length sk) 64); [right; assumption|]. discriminate. }
  split; [|exact hs]. destruct (if Nat.eqb _ _ then _ else _) as [s| | | |]; try discriminate. cbn [bind] in h. destruct (pk_to_x E (skipn 32 s)) as [x|]; [|discriminate]. cbn [of_opt bind] in h.
  destruct (5 <? ns)%Z; [discriminate|]. destruct (encode_namespace ns) as [k| | | |] eqn:ek; try discriminate. apply (wrappable_kind ns k ek).
Qed.
Print Assumptions C57_wrap_refuses.
(** Whatever is unwrapped was signed by our own key, for us, as a config message of the namespace asked for. *)
Theorem C57_unwrap_own E seed sk w ns d : ec_ok E -> account E seed sk -> unwrap_config E sk w ns = Ok d ->
  exists c p n sig k, encode_namespace ns = Ok k /\ parse_content p = Some (Some (k, d)) /\
    open_box E (x_of E seed) (ed_scalar E seed) c = Some ((p ++ byte 128 :: repeat NUL n) ++ ed_pub E seed ++ sig) /\
    ed_verify E sig ((p ++ byte 128 :: repeat NUL n) ++ ed_pub E seed ++ x_of E seed) (ed_pub E seed) = true.
Proof.
  intros H h. unfold unwrap_config. rewrite (full_sk_account E H seed sk h). cbn [bind]. destruct (parse_websocket w) as [req|]; [|discriminate]. cbn [of_opt bind].
  destruct (negb (fst req =? 1)%N); [discriminate|]. destruct (parse_envelope (snd req)) as [c|]; [|discriminate]. cbn [of_opt bind].
  destruct (decrypt_incoming E (seed ++ ed_pub E seed) c) as [[m A]| | | |] eqn:ed; try discriminate. cbn [bind fst snd]. rewrite (pk_account E seed (proj1 h)).
  destruct (eqb A (ed_pub E seed)) eqn:eA; [|discriminate]. apply eqb_eq in eA. subst A. cbn [negb]. destruct (unpad m) as [p|] eqn:ep; [|discriminate]. cbn [of_opt bind].
  destruct (parse_content p) as [sh|] eqn:eq; [|discriminate]. cbn [of_opt bind]. destruct sh as [[k d0]|]; [|discriminate].
  destruct (encode_namespace ns) as [k'| | | |] eqn:ek; try discriminate. cbn [bind]. destruct (N.eqb_spec k k') as [<-|]; [|discriminate]. intros hd. assert (d0 = d) by congruence. subst d0.
  apply unpad_inv in ep as (n & ->). unfold decrypt_incoming in ed. rewrite (full_sk_account E H seed _ (account_full E seed sk h)) in ed. cbn [bind] in ed. cbv zeta in ed.
  rewrite (scalar_account E seed _ (account_full E seed sk h)) in ed. fold (x_of E seed) in ed. apply (incoming_inv E H) in ed as (sig & h1 & _ & _ & h4).
  exists c, p, n, sig, k. repeat split; assumption.
Qed.
Print Assumptions C57_unwrap_own.

Definition sd0 : bytes := repeat "a"%char 32.
Definition pdata : bytes := b "x" ++ [byte 128; NUL; NUL].
Example ex_C57 : account toy_e sd0 sd0 /\ encode_namespace 3 = Ok 2%N /\ nonce_ok toy_e sd0 (wrapped_text toy_e sd0 pdata 7 2) /\
  exists w, wrap_config toy_e sd0 pdata 7 3 = Ok w /\ unwrap_config toy_e sd0 w 3 = Ok pdata /\ unwrap_config toy_e (repeat "c"%char 32) w 3 = Throw.
Proof.
  split; [split; [reflexivity|left; reflexivity]|]. split; [reflexivity|]. split; [apply same0_false; vm_compute; reflexivity|].
  eexists. split; [vm_compute; reflexivity|]. split; vm_compute; reflexivity.
Qed.
