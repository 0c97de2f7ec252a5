(** C47 and C58: community URLs, session ids and encoded public keys.  Statements only; proofs are in Community_facts.v and
    Pubkey_facts.v, the vocabulary is in CommunitySpec.v. *)
From Verif Require Import CommunitySpec Toy Community_facts Pubkey_facts.

(** ** C47 *)
(** canonical_url accepts exactly the community URLs and returns their canonical form (lower case, no default port, no
    slash). *)
Theorem C47_meaning u v : canonical_url u = Ok v <-> url_means u v.
Proof. exact (canonical_iff u v). Qed.
Print Assumptions C47_meaning.
Theorem C47_idempotent u v : canonical_url u = Ok v -> canonical_url v = Ok v.
Proof. rewrite !canonical_iff. exact (means_fixed u v). Qed.
Print Assumptions C47_idempotent.
Theorem C47_case u u' v : make_lc u' = make_lc u -> canonical_url u = Ok v -> canonical_url u' = Ok v.
Proof. rewrite !canonical_iff. exact (means_case u u' v). Qed.
Print Assumptions C47_case.
Theorem C47_slash u v : canonical_url u = Ok v -> last u Ascii.zero <> "/"%char -> canonical_url (u ++ b "/") = Ok v.
Proof. rewrite !canonical_iff. exact (means_slash u v). Qed.
Print Assumptions C47_slash.
Theorem C47_default_port proto host : make_lc proto = b "http" \/ make_lc proto = b "https" -> ~ In ":"%char host -> ~ In "/"%char host ->
  canonical_url (proto ++ b "://" ++ host ++ b ":" ++ (if eqb (make_lc proto) (b "http") then b "80" else b "443")) = canonical_url (proto ++ b "://" ++ host).
Proof.
  intros hp h1 h2. rewrite <- (explicit_default proto host hp h1 h2). unfold default_port. destruct hp as [hp|hp]; rewrite hp; reflexivity.
Qed.
Print Assumptions C47_default_port.
(** A full URL, in the form the library writes (without /r/) or the other (with it), parses back to its parts. *)
Theorem C47_full_url u base room nroom pk : canonical_url u = Ok base -> canonical_room room = Ok nroom -> length pk = 32 ->
  parse_full_url (full_url base room pk) = Ok (base, room, pk) /\
  parse_full_url (base ++ b "/r/" ++ room ++ b "?public_key=" ++ to_hex pk) = Ok (base, room, pk).
Proof. exact (full_url_parses u base room nroom pk). Qed.
Print Assumptions C47_full_url.
(** A room is normalised by lower-casing it. *)
Theorem C47_room room r : canonical_room room = Ok r -> r = make_lc room /\ canonical_room r = Ok r.
Proof. intros h. destruct (room_fixed room r h) as [h1 h2]. split; assumption. Qed.
Print Assumptions C47_room.
(** The rooms accepted are exactly the names of 1 to 64 letters, digits, dashes and underscores. *)
Theorem C47_room_accepted room : canonical_room room = Ok (make_lc room) <-> good_room room.
Proof. exact (room_accepted room). Qed.
Print Assumptions C47_room_accepted.
Example ex_C47 : canonical_url (b "HTTP://Example.ORG:080/") = Ok (b "http://example.org") /\ canonical_url (b "https://Example.ORG:80") = Ok (b "https://example.org:80") /\
  canonical_url (b "https://example..org") = Throw /\ canonical_url (b "https://example.org:65536") = Throw /\ canonical_url (b "https://example.org/x") = Throw /\
  canonical_room (b "Some-Room_1") = Ok (b "some-room_1") /\
  parse_full_url (b "https://Example.org/r/Room?public_key=" ++ to_hex (repeat "k"%char 32)) = Ok (b "https://example.org", b "Room", repeat "k"%char 32).
Proof. repeat split; vm_compute; reflexivity. Qed.

(** ** C58 *)
(** A session id is accepted exactly if it has 66 hex digits and starts with 05; its bytes are the 33 bytes it spells. *)
Theorem C58_session_id sid k : session_id_to_bytes sid (b "05") = Ok k <->
  length sid = 66 /\ Forall (fun c => In c (b "0123456789abcdefABCDEF")) sid /\ firstn 2 sid = b "05" /\ length k = 33 /\ to_hex k = make_lc sid.
Proof. exact (sid_iff sid k). Qed.
Print Assumptions C58_session_id.
(** An encoded pubkey is accepted exactly if it is 64 hex digits, 43 base64 digits (perhaps with one '='), 42 base64 digits
    with two '=', or 52 base32z digits (in either case). *)
Theorem C58_accepted s : (exists pk, decode_pubkey s = Ok pk) <->
  length s = 64 /\ Forall (fun c => In c (b "0123456789abcdefABCDEF")) s \/
  (exists t e, s = t ++ e /\ Forall (fun c => In c b64_alphabet) t /\ (length t = 43 /\ (e = [] \/ e = b "=") \/ length t = 42 /\ e = b "==")) \/
  length s = 52 /\ Forall (fun c => In c b32z_alphabet) (make_lc s).
Proof.
  rewrite <- (accepted_iff s). split; intros [pk h]; exists pk; apply decode_iff; exact h.
Qed.
Print Assumptions C58_accepted.
(** Every printed form of a 32-byte key decodes to it. *)
Theorem C58_printed pk : length pk = 32 ->
  decode_pubkey (to_hex pk) = Ok pk /\ decode_pubkey (to_b64_pk pk) = Ok pk /\ decode_pubkey (encode_with b64_alphabet 6 pk) = Ok pk /\ decode_pubkey (to_b32z pk) = Ok pk.
Proof. intros h. destruct (printed pk h) as (h1 & h2 & h3 & h4). repeat split; apply decode_iff; assumption. Qed.
Print Assumptions C58_printed.
(** What is decoded has 32 bytes, unless the string ends in two '='; *)
Theorem C58_32_bytes_partial s pk : decode_pubkey s = Ok pk -> (forall t, s <> t ++ b "==") -> length pk = 32.
Proof. intros h hn. apply decode_iff in h. destruct (encoded_length s pk h) as [h1|[[t ->] _]]; [exact h1|]. exfalso. exact (hn t eq_refl). Qed.
Print Assumptions C58_32_bytes_partial.
(** then it has 31. *)
Theorem C58_short_key_refuted : ~ (forall s pk, decode_pubkey s = Ok pk -> length pk = 32).
Proof.
  intros h. specialize (h (repeat "A"%char 42 ++ b "==") (repeat Ascii.zero 31)). assert (e : length (repeat Ascii.zero 31) = 32); [|discriminate]. apply h. vm_compute. reflexivity.
Qed.
Print Assumptions C58_short_key_refuted.
Example ex_C58 : (exists k, session_id_to_bytes (b "05" ++ repeat "A"%char 64) (b "05") = Ok k) /\ decode_pubkey (repeat "y"%char 52) = Ok (repeat Ascii.zero 32) /\ decode_pubkey (b "xyz") = Throw.
Proof. split; [eexists; vm_compute; reflexivity|]. split; vm_compute; reflexivity. Qed.
