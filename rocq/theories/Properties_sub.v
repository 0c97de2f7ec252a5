(** C46 in full, and C108: what subaccount signing values and tokens are.  Statements; proofs in Sub_facts.v, definitions of the
    claims in SubSpec.v. *)
From Verif Require Import SubSpec Sub_facts Keys6_facts ToyKeys Properties_keys.

(** ** C46: acceptance, exactly *)
(** swarm_verify_subaccount returns true for the values that grant the rights to the holder of the key, and for no others:
    100 bytes, network prefix 03 unless bit 3 (any prefix) is set, the read bit, the bits of the rights required, and the
    group's signature on the first four bytes and the blinded key. *)
Theorem C46_exact C gid user_sk v write del : verify_subaccount C gid user_sk v write del = Ok true <-> grants C gid (skipn 32 user_sk) v write del.
Proof. exact (grants_iff C gid user_sk v write del). Qed.
Print Assumptions C46_exact.
(** Fewer requirements never turn an accepted value away; the network prefix does not matter to a value valid for any. *)
Theorem C46_fewer C gid user_sk v write del write' del' : verify_subaccount C gid user_sk v write del = Ok true ->
  (write' = true -> write = true) -> (del' = true -> del = true) -> verify_subaccount C gid user_sk v write' del' = Ok true.
Proof.
  intros h hw hd. apply grants_iff in h. apply grants_iff. destruct h as (h1 & h2 & h3 & h4 & h5 & h6).
  split; [exact h1|]. split; [exact h2|]. split; [exact h3|]. split; [intros e; apply h4, hw, e|]. split; [intros e; apply h5, hd, e|exact h6].
Qed.
Print Assumptions C46_fewer.
(** A group id that is not 03 and 64 hex digits is refused with an exception, never answered. *)
Theorem C46_group_id C gid user_sk v write del a : (forall pk, ~ account_of (b "03") gid pk) -> verify_subaccount C gid user_sk v write del <> Ok a.
Proof.
  intros h e. unfold verify_subaccount in e. destruct (session_id_pk gid (b "03")) as [g| | | |] eqn:Eg; try discriminate. apply account_iff in Eg; [|right; reflexivity]. exact (h g Eg).
Qed.
Print Assumptions C46_group_id.

(** ** C108: the value and the token are the documented ones *)
(** What swarm_make_subaccount returns: the rights, the blinding factor of member and group, and the group's signature on the
    rights and the blinded key. *)
Theorem C108_value C o sid write del v : make_subaccount C sid write del o = Ok v <->
  exists sk X kT, ko_sk o = Some sk /\ account_of (b "05") sid X /\ s_mul C (factor C (firstn 32 sk) X (ko_pk o)) (s_xed C X) = Some kT /\
    v = rights_mark write del ++ factor C (firstn 32 sk) X (ko_pk o) ++ g_sign (s_g C) sk (rights_mark write del ++ kT).
Proof. exact (value_iff C o sid write del v). Qed.
Print Assumptions C108_value.
(** The token for revocation is exactly what the signature in the value covers. *)
Theorem C108_token C o sid write del t : subaccount_token C sid write del o = Ok t <->
  exists sk X kT, ko_sk o = Some sk /\ account_of (b "05") sid X /\ s_mul C (factor C (firstn 32 sk) X (ko_pk o)) (s_xed C X) = Some kT /\ t = rights_mark write del ++ kT.
Proof. exact (token_iff C o sid write del t). Qed.
Print Assumptions C108_token.
Theorem C108_token_signed C o sk sid write del t : ko_sk o = Some sk -> subaccount_token C sid write del o = Ok t ->
  exists k, make_subaccount C sid write del o = Ok (firstn 4 t ++ k ++ g_sign (s_g C) sk t).
Proof.
  intros hs ht. apply token_iff in ht as (sk' & X & kT & h1 & h2 & h3 & ->). assert (sk' = sk) by congruence. subst sk'.
  exists (factor C (firstn 32 sk) X (ko_pk o)). apply value_iff. exists sk, X, kT. split; [exact h1|]. split; [exact h2|]. split; [exact h3|]. reflexivity.
Qed.
Print Assumptions C108_token_signed.
(** "The signing value produced will be the same when constructed by any admin of the group"; so is the token. *)
Theorem C108_any_admin C o o' sid write del : ko_sk o = ko_sk o' -> ko_pk o = ko_pk o' ->
  make_subaccount C sid write del o = make_subaccount C sid write del o' /\ subaccount_token C sid write del o = subaccount_token C sid write del o'.
Proof. intros h1 h2. unfold make_subaccount, subaccount_token. rewrite h1, h2. split; reflexivity. Qed.
Print Assumptions C108_any_admin.
(** Only admins make either. *)
Theorem C108_admin_only C o sid write del : ko_sk o = None -> make_subaccount C sid write del o = Throw /\ subaccount_token C sid write del o = Throw.
Proof. intros h. unfold make_subaccount, subaccount_token. rewrite h. split; reflexivity. Qed.
Print Assumptions C108_admin_only.
(** The letters' case in the session id does not matter. *)
Theorem C108_case C o sid sid' write del v : make_lc sid = make_lc sid' -> make_subaccount C sid write del o = Ok v -> make_subaccount C sid' write del o = Ok v.
Proof.
  intros h hv. apply value_iff in hv as (sk & X & kT & h1 & [h2 h2'] & h3 & ->). apply value_iff. exists sk, X, kT. split; [exact h1|]. split; [split; [exact h2|congruence]|]. split; [exact h3|reflexivity].
Qed.
Print Assumptions C108_case.
(** Different members, or different groups, get different blinding factors, unless the hash collides on them. *)
Theorem C108_apart C ms seed X gid seed' X' gid' : collision_free C ms -> In (seed, X, gid) ms -> In (seed', X', gid') ms -> length X = length X' ->
  factor C seed X gid = factor C seed' X' gid' -> X = X' /\ gid = gid'.
Proof. intros hc h1 h2 hl h. apply text_apart; [exact hl|]. exact (hc _ _ _ _ _ _ h1 h2 h). Qed.
Print Assumptions C108_apart.

Example ex_C108 : exists sk X kT, ko_sk adm = Some sk /\ account_of (b "05") (sid_of pk_m) X /\
  s_mul toy_c (factor toy_c (firstn 32 sk) X (ko_pk adm)) (s_xed toy_c X) = Some kT /\
  subaccount_token toy_c (sid_of pk_m) true false adm = Ok (rights_mark true false ++ kT) /\ length kT = 32 /\ rights_mark true false = [byte 3; byte 3; byte 0; byte 0] /\
  ko_sk mem = None.
Proof.
  exists gsk, pk_m, (fill 32 (factor toy_c (firstn 32 gsk) pk_m (ko_pk adm) ++ clear_sign pk_m)). split; [reflexivity|]. split; [split; reflexivity|].
  split; [reflexivity|]. split; [vm_compute; reflexivity|]. split; [vm_compute; reflexivity|]. split; reflexivity.
Qed.
(** a value for any network prefix, and one for another network *)
Definition strange (flags : N) : bytes := [byte 7; byte flags; byte 0; byte 0] ++ repeat "k"%char 32 ++
  g_sign toy_g gsk ([byte 7; byte flags; byte 0; byte 0] ++ fill 32 (repeat "k"%char 32 ++ positive_key (skipn 32 (ko_user mem)))).
Example ex_C46_exact : verify_subaccount toy_c (b "03" ++ to_hex (ko_pk mem)) (ko_user mem) (strange 9) false false = Ok true /\
  verify_subaccount toy_c (b "03" ++ to_hex (ko_pk mem)) (ko_user mem) (strange 9) true false = Ok false /\
  verify_subaccount toy_c (b "03" ++ to_hex (ko_pk mem)) (ko_user mem) (strange 1) false false = Ok false.
Proof. repeat split; vm_compute; reflexivity. Qed.
(** a member of two groups, and another member of the first *)
Definition toy_d : scrypt := mkScrypt toy_g (firstn 32) clear_sign (s_mul toy_c).
Definition some_members : list membership := [(firstn 32 gsk, pk_m, ko_pk adm); (firstn 32 gsk, pk_m, repeat "g"%char 32); (firstn 32 gsk, repeat "x"%char 32, ko_pk adm)].
Example ex_C108_apart : NoDup (map (factor_of toy_d) some_members) /\ collision_free toy_d some_members.
Proof.
  assert (h : NoDup (map (factor_of toy_d) some_members)).
  { repeat constructor; vm_compute; intuition discriminate. }
  split; [exact h|]. intros seed X gid seed' X' gid' h1 h2 e.
  assert (hs : forall l, NoDup (map (factor_of toy_d) l) -> forall m m', In m l -> In m' l -> factor_of toy_d m = factor_of toy_d m' -> m = m').
  { clear. induction l as [|a l IH]; intros hn m m' h1 h2 e; [contradiction|]. cbn [map] in hn. inversion hn as [|? ? ha hl]; subst. destruct h1 as [-> | h1], h2 as [-> | h2].
    - reflexivity.
    - exfalso. apply ha. rewrite e. apply in_map, h2.
    - exfalso. apply ha. rewrite <- e. apply in_map, h1.
    - apply IH; assumption. }
  pose proof (hs _ h _ _ h1 h2 e) as hm. injection hm as -> -> ->. reflexivity.
Qed.
