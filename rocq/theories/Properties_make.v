(** C109: looking up a record that may not be there yet; and what C46 and C39 say of two more functions.  Statements and proofs. *)
From Verif Require Import Make SubSpec Sub_facts Hex_facts Community_facts Records_facts Pubkey_facts UserGroups_facts UserGroups4_facts Properties_cstruct Properties_keys Properties_records Properties_sub COut COut_facts ToyBase CStruct_facts CStruct_facts.

(** ** the blank records, field by field *)
Definition blank_contact : contact := mkContact [] [] (mkPic [] []) false false false 0 NDefault 0 ExpNone 0 0.
Definition blank_member : member := mkMember [] (mkPic [] []) false false 0 0 0.
Definition blank_base : gbase := mkGBase 0 0 NDefault 0 false.
Definition blank_legacy : legacy := mkLegacy blank_base [] [] [] 0 [].
Definition blank_group : group := mkGroup blank_base [] [] [].
Definition blank_convo : cbase := mkCBase 0 false.
(** [made_or_found blank got r]: the function returned [r], where the lookup without construction says [got] *)
Definition made_or_found {A} (blank : A) (got : outcome (option A)) (r : A) : Prop := got = Ok (Some r) \/ got = Ok None /\ r = blank.

Lemma made_iff {A} (blank : A) got r : (o <- got ;; Ok (or_else o blank)) = Ok r <-> made_or_found blank got r.
Proof.
  unfold made_or_found. split.
  - destruct got as [[x|]| | | |]; cbn [bind or_else]; intros h; try discriminate; injection h as <-; auto.
  - intros [-> | [-> ->]]; reflexivity.
Qed.
(** A function that looks up or constructs returns what the lookup finds, and a blank record exactly if it finds none. *)
Theorem C109_records pub st sid k c m l g v :
  (contacts_get_or_construct st sid = Ok c <-> made_or_found blank_contact (contacts_get st sid) c) /\
  (members_get_or_construct st sid = Ok m <-> made_or_found blank_member (members_get st sid) m) /\
  (legacy_get_or_construct st sid = Ok l <-> made_or_found blank_legacy (legacy_get st sid) l) /\
  (group_get_or_construct pub st sid = Ok g <-> made_or_found blank_group (group_get pub st sid) g) /\
  (convo_get_or_construct st k sid = Ok v <-> made_or_found blank_convo (convo_get st k sid) v).
Proof. split; [apply made_iff|]. split; [apply made_iff|]. split; [apply made_iff|]. split; apply made_iff. Qed.
Print Assumptions C109_records.
(** They return for every well-formed id of the kind (05 for people and legacy groups, 03 for groups), and throw for any other
    text; nothing else can happen. *)
Definition answers {A} (valid : Prop) (r : outcome A) : Prop := (valid -> exists x, r = Ok x) /\ (~ valid -> r = Throw).
Lemma sid_ok_account p sid : p = b "05" \/ p = b "03" -> session_id_ok sid p = true <-> exists X, account_of p sid X.
Proof.
  intros hp. assert (hp2 : length p = 2) by (destruct hp; subst p; reflexivity). split.
  - intros h. assert (hx : exists X, session_id_pk sid p = Ok X).
    { unfold session_id_pk. rewrite h. unfold session_id_ok in h. apply andb_true_iff in h as [h h3]. apply andb_true_iff in h as [h1 h2]. unfold is_hex in h2.
      destruct (from_hex sid) as [t|] eqn:et; [|discriminate]. destruct sid as [|x [|y r]]; try (rewrite hp2 in h1; discriminate h1). cbn [from_hex] in et. cbn [skipn].
      destruct (hex_digit x); [|discriminate]. destruct (hex_digit y); [|discriminate]. destruct (from_hex r) as [u|]; [|discriminate]. exists u. reflexivity. }
    destruct hx as [X hx]. exists X. apply account_iff; assumption.
  - intros [X hX]. apply account_iff in hX; [|exact hp]. unfold session_id_pk in hX. destruct (session_id_ok sid p); [reflexivity|discriminate].
Qed.
Lemma answers_get {A} p sid (f : bytes -> option A) blank : p = b "05" \/ p = b "03" ->
  answers (exists X, account_of p sid X) (o <- (pk <- session_id_to_bytes sid p ;; Ok (f pk)) ;; Ok (or_else o blank)).
Proof.
  intros hp. split.
  - intros h. apply sid_ok_account in h; [|exact hp]. destruct (sid_ok_key _ _ h) as [pk e]. rewrite e. cbn [bind]. eauto.
  - intros h. unfold session_id_to_bytes. destruct (session_id_ok sid p) eqn:e; [|reflexivity]. exfalso. apply h, sid_ok_account; assumption.
Qed.
Theorem C109_ids pub st sid k : let person := exists X, account_of (b "05") sid X in let team := exists X, account_of (b "03") sid X in
  answers person (contacts_get_or_construct st sid) /\ answers person (members_get_or_construct st sid) /\ answers person (legacy_get_or_construct st sid) /\
  answers team (group_get_or_construct pub st sid) /\ answers (match k with KGroup => team | _ => person end) (convo_get_or_construct st k sid).
Proof.
  cbv zeta. split; [apply (answers_get _ sid _ _); auto|]. split; [apply (answers_get _ sid _ _); auto|]. split; [apply (answers_get _ sid _ _); auto|].
  split; [apply (answers_get _ sid _ _); auto|]. destruct k; apply (answers_get _ sid _ _); auto.
Qed.
Print Assumptions C109_ids.

(** ** communities *)
Definition with_key (pk : bytes) (c : comm) : comm := mkComm (co_url c) (co_norm c) (co_room c) pk (co_base c).
(** A community that is found comes with the key given, not the stored one; one that is not found has the room as written, the
    canonical URL and the key, and is blank otherwise.  A room or URL that is not valid, or a key of another size, throws. *)
Theorem C109_community st url room pk : length pk = 32 ->
  (forall c, comm_get st url room = Ok (Some c) -> comm_get_or_construct st url room pk = Ok (with_key pk c)) /\
  (forall u r, comm_get st url room = Ok None -> canonical_url url = Ok u -> canonical_room room = Ok r -> comm_get_or_construct st url room pk = Ok (mkComm u r room pk blank_base)) /\
  (forall c, comm_get_or_construct st url room pk = Ok c -> co_pub c = pk /\ (comm_get st url room = Ok None \/ exists c', comm_get st url room = Ok (Some c') /\ c = with_key pk c')).
Proof.
  intros hl. assert (hk : forall og, set_pubkey pk og = Ok (with_key pk og)) by (intros og; unfold set_pubkey; rewrite hl; reflexivity).
  assert (hs : forall s og c, set_pubkey s og = Ok c -> c = with_key s og) by (intros s og c; unfold set_pubkey; destruct (Nat.eqb (length s) 32); [intros h; injection h as <-; reflexivity|discriminate]).
  assert (hload : forall d og c, load_comm d og = Ok c -> load_comm d (with_key pk og) = Ok (with_key pk c)).
  { intros d og c. unfold load_comm, set_room, with_key. cbn [co_url co_norm co_room co_pub co_base]. destruct (maybe_str d (b "n")); [|intros h; injection h as <-; reflexivity].
    destruct (canonical_room _); cbn [bind]; try discriminate. intros h; injection h as <-; reflexivity. }
  assert (hback : forall d og c, load_comm d (with_key pk og) = Ok c -> exists c', load_comm d og = Ok c' /\ c = with_key pk c').
  { intros d og c. unfold load_comm, set_room, with_key. cbn [co_url co_norm co_room co_pub co_base]. destruct (maybe_str d (b "n")); [|intros h; injection h as <-; eexists; split; reflexivity].
    destruct (canonical_room _); cbn [bind]; try discriminate. intros h; injection h as <-; eexists; split; reflexivity. }
  unfold comm_get, comm_get_or_construct. split; [|split].
  - intros c h. destruct (new_comm url room) as [og| | | |]; cbn [bind] in *; try discriminate. rewrite hk. cbn [bind with_key co_url co_norm]. destruct (dict_at _ _ _) as [d|]; [|discriminate].
    destruct (load_comm d og) as [c0| | | |] eqn:e0; cbn [bind] in h; try discriminate. pose proof (hload _ _ _ e0) as e1. destruct (is_nil _).
    + injection h as <-. exact e1.
    + destruct (set_pubkey _ c0) as [c2| | | |] eqn:e2; cbn [bind] in h; try discriminate. injection h as <-. apply hs in e2. subst c2. exact e1.
  - intros u r h hu hr. unfold new_comm in *. rewrite hu, hr in *. cbn [bind] in *. rewrite hk. cbn [bind with_key co_url co_norm]. cbn [co_url co_norm] in h. destruct (dict_at _ _ _) as [d|]; [|reflexivity].
    destruct (load_comm _ _) as [c0| | | |]; cbn [bind] in h; try discriminate. destruct (is_nil _); [discriminate|]. destruct (set_pubkey _ c0); discriminate.
  - intros c h. destruct (new_comm url room) as [og| | | |]; cbn [bind] in *; try discriminate. rewrite hk in h. cbn [bind with_key co_url co_norm] in h. destruct (dict_at _ _ _) as [d|].
    + apply hback in h as (c' & e & ->). split; [reflexivity|]. right. rewrite e. cbn [bind]. destruct (is_nil _) eqn:en; [eexists; split; reflexivity|].
      unfold set_pubkey. assert (h32 : length (server_key st (co_url og)) = 32).
      { unfold server_key in *. destruct (as_str _) as [s|]; [|discriminate]. destruct (Nat.eqb_spec (length s) 32); [assumption|discriminate]. }
      rewrite h32. cbn [Nat.eqb bind]. eexists. split; reflexivity.
    + injection h as <-. split; [reflexivity|left; reflexivity].
Qed.
Print Assumptions C109_community.
Theorem C109_community_key st url room pk : length pk <> 32 -> forall c, comm_get_or_construct st url room pk <> Ok c.
Proof.
  intros h c. unfold comm_get_or_construct, set_pubkey. destruct (new_comm url room); cbn [bind]; try discriminate. destruct (Nat.eqb_spec (length pk) 32); [contradiction|discriminate].
Qed.
Print Assumptions C109_community_key.
(** The key may be given as text, and everything as one full URL. *)
Theorem C109_community_text st url room text pk : decode_pubkey text = Ok pk -> length pk = 32 -> comm_get_or_construct_text st url room text = comm_get_or_construct st url room pk.
Proof. intros hd hl. unfold comm_get_or_construct_text, comm_get_or_construct, set_pubkey_text, set_pubkey. rewrite hd, hl. reflexivity. Qed.
Print Assumptions C109_community_text.
Theorem C109_community_url st u base room nroom pk : canonical_url u = Ok base -> canonical_room room = Ok nroom -> length pk = 32 ->
  comm_get_or_construct_url st (full_url base room pk) = comm_get_or_construct st u room pk /\
  ccomm_get_or_construct_url st (full_url base room pk) = ccomm_get_or_construct st u room pk.
Proof.
  intros h1 h2 h3. unfold comm_get_or_construct_url, ccomm_get_or_construct_url. rewrite (proj1 (full_url_parses u base room nroom pk h1 h2 h3)). cbn [bind].
  unfold comm_get_or_construct, ccomm_get_or_construct, new_comm. rewrite h1, (url_fixed _ _ h1). split; reflexivity.
Qed.
Print Assumptions C109_community_url.
(** In the volatile info, too. *)
Theorem C109_convo_community st url room pk : length pk = 32 ->
  (forall c, ccomm_get st url room = Ok (Some c) -> ccomm_get_or_construct st url room pk = Ok (mkCC (with_key pk (cc_comm c)) (cc_base c))) /\
  (forall u r, ccomm_get st url room = Ok None -> canonical_url url = Ok u -> canonical_room room = Ok r -> ccomm_get_or_construct st url room pk = Ok (mkCC (mkComm u r r pk blank_base) blank_convo)).
Proof.
  intros hl. assert (hk : forall og, set_pubkey pk og = Ok (with_key pk og)) by (intros og; unfold set_pubkey; rewrite hl; reflexivity). unfold ccomm_get, ccomm_get_or_construct. split.
  - intros c h. destruct (canonical_room room) as [r| | | |]; cbn [bind] in *; try discriminate. destruct (new_comm url r) as [og| | | |]; cbn [bind] in *; try discriminate. rewrite hk. cbn [bind with_key co_url co_norm].
    destruct (dict_at _ _ _) as [d|]; [|discriminate]. destruct (is_nil _); [injection h as <-; reflexivity|]. unfold set_pubkey in h. destruct (Nat.eqb _ 32); [|discriminate]. cbn [bind] in h. injection h as <-. reflexivity.
  - intros u r h hu hr. rewrite hr in *. cbn [bind] in *. unfold new_comm in *. rewrite hu in *. pose proof (proj1 (room_fixed _ _ hr)) as hr2. rewrite hr2 in *. cbn [bind] in *. rewrite hk. cbn [bind with_key co_url co_norm]. cbn [co_url co_norm] in h.
    destruct (dict_at _ _ _) as [d|]; [|reflexivity]. destruct (is_nil _); [discriminate|]. unfold set_pubkey in h. destruct (Nat.eqb _ 32); discriminate.
Qed.
Print Assumptions C109_convo_community.

(** Given the key as text, the conversation is the same except that its room is kept as written (the other overload lower-cases it). *)
Theorem C109_convo_community_text st url room text pk : decode_pubkey text = Ok pk -> length pk = 32 ->
  (forall c, ccomm_get_or_construct st url room pk = Ok c ->
     ccomm_get_or_construct_text st url room text = Ok (mkCC (mkComm (co_url (cc_comm c)) (co_norm (cc_comm c)) room pk blank_base) (cc_base c))) /\
  ((forall c, ccomm_get_or_construct st url room pk <> Ok c) -> forall c, ccomm_get_or_construct_text st url room text <> Ok c).
Proof.
  intros hd hl. unfold ccomm_get_or_construct, ccomm_get_or_construct_text, set_pubkey_text, set_pubkey, new_comm. rewrite hd, hl. cbn [Nat.eqb bind].
  destruct (canonical_url url) as [u| | | |]; cbn [bind]; [|destruct (canonical_room room); cbn [bind]; (split; [discriminate|intros _ c; discriminate])..].
  destruct (canonical_room room) as [r| | | |] eqn:hr; cbn [bind]; [|split; [discriminate|intros _ c; discriminate]..].
  rewrite (proj1 (room_fixed _ _ hr)). cbn [bind co_url co_norm co_room co_pub co_base cc_comm cc_base].
  split; [|intros h; exfalso; eapply h; reflexivity]. intros c h. injection h as <-. reflexivity.
Qed.
Print Assumptions C109_convo_community_text.

(** ** new groups *)
(** create_group: the id is that of the public key of the new secret key, which is its owner's to sign with; everything else is blank *)
Theorem C109_created pub seed : length seed = 32 -> length (pub seed) = 32 -> let '(id, g) := create_group pub seed in
  account_of (b "03") id (pub seed) /\ length (gr_secret g) = 64 /\ firstn 32 (gr_secret g) = seed /\ skipn 32 (gr_secret g) = pub seed /\
  mkGroup (gr_base g) (gr_name g) [] (gr_auth g) = blank_group.
Proof.
  intros h1 h2. unfold create_group. cbn [gr_secret gr_base gr_name gr_auth]. split.
  { split; [exact h2|]. rewrite lc_app, <- (to_from_hex _ _ (from_to_hex (pub seed))). reflexivity. }
  split; [rewrite app_length, h1, h2; reflexivity|]. split; [rewrite <- h1; rewrite firstn_app, Nat.sub_diag, firstn_all; apply app_nil_r|].
  split; [|reflexivity]. rewrite <- h1. rewrite skipn_app, skipn_all, Nat.sub_diag. reflexivity.
Qed.
Print Assumptions C109_created.
(** Whoever is kicked has neither key nor auth data, keeps the rest, and a group is kicked exactly if it has neither. *)
Theorem C109_kicked g : kicked (set_kicked g) = true /\ gr_base (set_kicked g) = gr_base g /\ gr_name (set_kicked g) = gr_name g /\ (kicked g = true <-> gr_secret g = [] /\ gr_auth g = []).
Proof. split; [reflexivity|]. split; [reflexivity|]. split; [reflexivity|]. unfold kicked. destruct (gr_secret g), (gr_auth g); cbn; split; intros h; try discriminate; try (split; reflexivity); try reflexivity; destruct h; discriminate. Qed.
Print Assumptions C109_kicked.

(** ** the C functions *)
Lemma c_getter_some {A} (r : outcome (option A)) what mem past x : c_getter r what mem past = (Ok (Some x), mem, false) -> r = Ok (Some x).
Proof. unfold c_getter. destruct r; intros h; try discriminate; try congruence. Qed.
Lemma filled_found {A C} (into : A -> outcome C) (got : outcome (option A)) blank k : filled into got = Ok (Some k) -> filled into (made (o <- got ;; Ok (or_else o blank))) = Ok (Some k).
Proof. destruct got as [[x|]| | | |]; cbn; intros h; try discriminate. exact h. Qed.
(** If the C function that looks up finds a record, the one that also constructs gives the same struct. *)
Theorem C109_c_found pub st sid o om ol og kd mem past :
  (forall k, c_contacts_get_buf st sid o mem past = (Ok (Some k), mem, false) -> c_contacts_make st sid o mem past = (Ok (Some k), mem, false)) /\
  (forall k, c_members_get st sid om mem past = (Ok (Some k), mem, false) -> c_members_make st sid om mem past = (Ok (Some k), mem, false)) /\
  (forall k, c_legacy_get st sid ol mem past = (Ok (Some k), mem, false) -> c_legacy_make st sid ol mem past = (Ok (Some k), mem, false)) /\
  (forall k, c_convo_get st kd sid mem past = (Ok (Some k), mem, false) -> c_convo_make st kd sid mem past = (Ok (Some k), mem, false)) /\
  (forall k, c_group_get pub st sid og = Ok (Some k) -> c_group_make pub st sid og = Ok (Some k)).
Proof.
  split; [|split; [|split; [|split]]]; intros k h.
  - apply c_getter_some in h. unfold c_contacts_make, contacts_get_or_construct. rewrite (filled_found _ _ _ _ h). reflexivity.
  - apply c_getter_some in h. unfold c_members_make, members_get_or_construct. rewrite (filled_found _ _ _ _ h). reflexivity.
  - apply c_getter_some in h. unfold c_legacy_make, legacy_get_or_construct. rewrite (filled_found _ _ _ _ h). reflexivity.
  - apply c_getter_some in h. unfold c_convo_make, convo_get_or_construct. rewrite (filled_found _ _ _ _ h). reflexivity.
  - unfold c_group_get in h. assert (h' : filled (fun g => group_into (c_str sid) g og) (group_get pub st (c_str sid)) = Ok (Some k)) by (destruct (filled _ _); try discriminate; exact h).
    unfold c_group_make, group_get_or_construct. rewrite (filled_found _ _ _ _ h'). reflexivity.
Qed.
Print Assumptions C109_c_found.
(** If there is no record, the struct holds the id and, for the rest, a blank record. *)
Theorem C109_c_new pub st sid ol og kd mem past :
  (legacy_get st (c_str sid) = Ok None -> exists k, c_legacy_make st sid ol mem past = (Ok (Some k), mem, false) /\ legacy_of_c k = (c_str sid, blank_legacy)) /\
  (group_get pub st (c_str sid) = Ok None -> exists k, c_group_make pub st sid og = Ok (Some k) /\ group_of_c k = (c_str sid, blank_group) /\ c_is_kicked k = true) /\
  (convo_get st kd (c_str sid) = Ok None -> exists k, c_convo_make st kd sid mem past = (Ok (Some k), mem, false) /\ convo_of_c k = (c_str sid, blank_convo)).
Proof.
  assert (hok : forall A p (f : bytes -> option A), (pk <- session_id_to_bytes (c_str sid) p ;; Ok (f pk)) = Ok None -> session_id_ok (c_str sid) p = true).
  { intros A p f h. unfold session_id_to_bytes in h. destruct (session_id_ok (c_str sid) p); [reflexivity|discriminate]. }
  destruct (C84_structs (c_str sid) blank_legacy ol (c_str sid) blank_group og (mkComm [] [] [] [] blank_base) (mkCU [] [] [] blank_base) (c_str sid) blank_convo (mkCC (mkComm [] [] [] [] blank_base) blank_convo) (mkCX [] [] [] blank_convo)) as (s1 & s2 & _ & s4 & _).
  split; [|split]; intros h.
  - pose proof (hok _ _ _ h) as hs. destruct (s1 hs ltac:(cbn; lia) eq_refl (or_intror (conj eq_refl eq_refl))) as (k & e1 & e2). exists k. split; [|exact e2].
    unfold c_legacy_make, legacy_get_or_construct. rewrite h. cbn [bind or_else made filled]. change new_legacy with blank_legacy. rewrite e1. reflexivity.
  - pose proof (hok _ _ _ h) as hs. destruct (s2 hs ltac:(cbn; lia) eq_refl (or_intror eq_refl) (or_intror eq_refl)) as (k & e1 & e2 & e3). exists k. split; [|split; [exact e2|apply e3; split; reflexivity]].
    unfold c_group_make, group_get_or_construct. rewrite h. cbn [bind or_else made filled]. change new_group with blank_group. rewrite e1. reflexivity.
  - pose proof (hok _ _ _ h) as hs. assert (hl : length (c_str sid) = 66) by (rewrite (sid_ok_length _ _ hs); destruct kd; reflexivity). destruct (s4 hl) as (k & e1 & e2). exists k. split; [|exact e2].
    unfold c_convo_make, convo_get_or_construct. rewrite h. cbn [bind or_else made filled]. change new_cbase with blank_convo. rewrite e1. reflexivity.
Qed.
Print Assumptions C109_c_new.
(** With an id that is not one, of up to 190 characters, the caller gets false and the message, and nothing else changes (C82 for longer ids) *)
Theorem C109_c_errors_partial st sid oc om ol k mem past : 256 <= length mem -> length (c_str sid) <= 190 ->
  error_kept (sid_error (c_str sid) (b "05")) mem (c_contacts_make st sid oc mem past) /\
  error_kept (sid_error (c_str sid) (b "05")) mem (c_members_make st sid om mem past) /\
  error_kept (sid_error (c_str sid) (b "05")) mem (c_legacy_make st sid ol mem past) /\
  error_kept (sid_error (c_str sid) (prefix_of k)) mem (c_convo_make st k sid mem past).
Proof.
  intros hm hl. destruct (sid_error_short sid (b "05") hl eq_refl eq_refl) as [a1 a2].
  assert (hp : length (prefix_of k) = 2 /\ nonul (prefix_of k) = true) by (destruct k; split; reflexivity). destruct (sid_error_short sid (prefix_of k) hl (proj1 hp) (proj2 hp)) as [b1 b2].
  split; [|split; [|split]]; apply c_getter_kept; assumption.
Qed.
Print Assumptions C109_c_errors_partial.
(** Communities: the C functions give what the C++ functions give, as structs; text that is no URL or room: false, no exception *)
Theorem C109_c_community st url room pk o oc : length pk = 32 ->
  c_comm_make st url room pk o <> Throw /\ c_comm_make st url room pk o <> Err /\ c_ccomm_make st url room pk oc <> Throw /\ c_ccomm_make st url room pk oc <> Err /\
  (forall u r, comm_get st (c_str url) (c_str room) = Ok None -> canonical_url (c_str url) = Ok u -> canonical_room (c_str room) = Ok r ->
     exists k, c_comm_make st url room pk o = Ok (Some k) /\ comm_of_c k = Ok (mkComm u r (c_str room) pk blank_base)) /\
  (forall u r, ccomm_get st (c_str url) (c_str room) = Ok None -> canonical_url (c_str url) = Ok u -> canonical_room (c_str room) = Ok r ->
     exists k, c_ccomm_make st url room pk oc = Ok (Some k) /\ ccomm_of_c k = Ok (mkCC (mkComm u r r pk blank_base) blank_convo)).
Proof.
  intros hl. unfold c_comm_make, c_ccomm_make. split; [destruct (filled _ _); discriminate|]. split; [destruct (filled _ _); discriminate|]. split; [destruct (filled _ _); discriminate|]. split; [destruct (filled _ _); discriminate|].
  split; intros u r h hu hr.
  - rewrite (proj1 (proj2 (C109_community st (c_str url) (c_str room) pk hl)) u r h hu hr). cbn [made bind filled].
    destruct (comm_struct (mkComm u r (c_str room) pk blank_base) o) as (k & e1 & e2); [split; [exact (url_fixed _ _ hu)|exact hr]|exact hl|]. rewrite e1. cbn [bind]. exists k. split; [reflexivity|exact e2].
  - rewrite (proj2 (C109_convo_community st (c_str url) (c_str room) pk hl) u r h hu hr). cbn [made bind filled].
    pose proof (proj1 (room_fixed _ _ hr)) as hr2. set (cc := mkCC (mkComm u r r pk blank_base) blank_convo).
    destruct (C84_structs [] blank_legacy (mkCL [] [] false [] [] 0 blank_base None) [] blank_group (mkCG [] [] false [] false [] blank_base) (mkComm [] [] [] [] blank_base) (mkCU [] [] [] blank_base) [] blank_convo cc oc) as (_ & _ & _ & _ & s5).
    destruct s5 as (k & e1 & e2); [split; [exact (url_fixed _ _ hu)|exact hr2]|reflexivity|exact hl|reflexivity|]. rewrite e1. cbn [bind]. exists k. split; [reflexivity|exact e2].
Qed.
Print Assumptions C109_c_community.
Lemma room_settled r : canonical_room r = Throw \/ exists x, canonical_room r = Ok x.
Proof. unfold canonical_room. destruct (Nat.ltb _ _); [auto|]. destruct (is_nil _); [auto|]. destruct (forallb _ _); eauto. Qed.
Lemma url_settled u : canonical_url u = Throw \/ exists x, canonical_url u = Ok x.
Proof.
  assert (hport : forall p t, parse_port p t = Throw \/ exists x, parse_port p t = Ok x).
  { intros p t. unfold parse_port. destruct t as [|c r]; [eauto|]. destruct (Ascii.eqb c ":"); [|eauto]. unfold from_chars_u16. destruct (take_digits r) as [d t]. destruct d; cbn [bind]; auto; destruct (_ <? _)%N; cbn [bind]; eauto. }
  unfold canonical_url, parse_url, parse_proto. destruct (split_first _ u) as [[p r]|]; cbn [bind]; [|auto].
  assert (ht : forall proto, let rest := '(p0, url) <- Ok (proto, r) ;; (let '(host, has_dot, url0) := scan_host false false url in if Nat.ltb (length host) 4 || negb has_dot || Ascii.eqb (last host Ascii.zero) "." then Throw else '(port, url1) <- parse_port p0 url0 ;; (if ended url1 then Ok (p0, host, port) else Throw)) in
     rest = Throw \/ exists x, rest = Ok x).
  { intros proto. cbv zeta. cbn [bind]. destruct (scan_host false false r) as [[host d] t]. destruct (_ || _); [auto|]. destruct (hport proto t) as [-> | ([n t2] & ->)]; cbn [bind]; [auto|]. destruct (ended t2); eauto. }
  assert (hq : forall x : outcome (bytes * bytes * N), (x = Throw \/ exists y, x = Ok y) -> let z := '(proto, host, port) <- x ;; (let result := proto ++ host ++ (if (port =? 0)%N then [] else b ":" ++ dec port) in if Nat.ltb BASE_URL_MAX_LENGTH (length result) then Throw else Ok result) in z = Throw \/ exists y, z = Ok y).
  { intros x [-> | ([[p0 h0] n0] & ->)]; cbv zeta; cbn [bind]; [auto|]. destruct (Nat.ltb _ _); eauto. }
  destruct (string_iequal p (b "http")); [exact (hq _ (ht (b "http://")))|]. destruct (string_iequal p (b "https")); [exact (hq _ (ht (b "https://")))|]. left. reflexivity.
Qed.
(** On a bad argument (a malformed id; a URL or room that the library refuses) they return false and leave the structure as it is. *)
Theorem C109_c_refused pub st sid og url room pk oc oo :
  (~ (exists X, account_of (b "03") (c_str sid) X) -> c_group_make pub st sid og = Ok None) /\
  ((forall u, canonical_url (c_str url) <> Ok u) \/ (forall r, canonical_room (c_str room) <> Ok r) ->
     c_comm_make st url room pk oc = Ok None /\ c_ccomm_make st url room pk oo = Ok None).
Proof.
  split.
  - intros h. destruct (C109_ids pub st (c_str sid) KOne) as (_ & _ & _ & [_ h4] & _). unfold c_group_make. rewrite (h4 h). reflexivity.
  - intros h. unfold c_comm_make, c_ccomm_make, comm_get_or_construct, ccomm_get_or_construct, new_comm.
    destruct (url_settled (c_str url)) as [e|(u & e)]; destruct (room_settled (c_str room)) as [e'|(r & e')]; rewrite e, e'; cbn [bind made filled]; try (split; reflexivity).
    exfalso. destruct h as [h|h]; [exact (h _ e)|exact (h _ e')].
Qed.
Print Assumptions C109_c_refused.
(** The function that checks a signing value from C. *)
Theorem C46_c C gid user_sk v write del :
  (exists a, c_verify_subaccount_flags C gid user_sk v write del = Ok a) /\ (c_verify_subaccount_flags C gid user_sk v write del = Ok true <-> grants C gid (skipn 32 user_sk) v write del) /\
  (c_verify_subaccount C gid user_sk v = Ok true <-> grants C gid (skipn 32 user_sk) v true false).
Proof.
  pose proof (verify_sub_settled C gid user_sk v write del) as hs. split; [|split].
  - unfold c_verify_subaccount_flags. destruct (verify_subaccount C gid user_sk v write del); try contradiction; eauto.
  - rewrite <- C46_exact. unfold c_verify_subaccount_flags. destruct (verify_subaccount C gid user_sk v write del); try tauto; split; discriminate.
  - exact (C46_exact C gid user_sk v true false).
Qed.
Print Assumptions C46_c.

(** ** a concrete case: [ct1] holds the contact [id1]; another id has none; a malformed id throws; a well-formed community URL *)
Example ex_C109 :
  contacts_get_or_construct ct1 id1 = Ok (mkContact (b "Joe") (b "J") (mkPic (b "http://x") (repeat "k"%char 32)) true false true (-1) NAll 5 ExpRead 3600 1700000000) /\
  contacts_get_or_construct ct1 id2 = Ok blank_contact /\ contacts_get_or_construct ct1 (b "05ab") = Throw /\
  comm_get_or_construct ct1 (b "HTTP://Example.com:80") (b "Room") (repeat "k"%char 32) = Ok (mkComm (b "http://example.com") (b "room") (b "Room") (repeat "k"%char 32) blank_base).
Proof. repeat split; vm_compute; reflexivity. Qed.
