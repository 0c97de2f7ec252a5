{
 "C03": [
  "partial",
  "True for top-level fields (C03_top_level) and for nested ones whose containing dict survives (C03_nested); C03_nested_refuted shows a nested change that is lost."
 ],
 "C07": [
  "partial",
  "Proved for stored messages and for published ones; C07_foreign_signature_refuted: a validly signed but non-canonical message re-serialises with a signature that no longer fits."
 ],
 "C10": [
  "partial",
  "The claim is false of the code; the refutation is proved for one input and in general (a resolution has no unknown fields at all). Proved instead: when the merge adopts one of the inputs, exactly its unknown fields survive in everything stored or published later."
 ],
 "C14": [
  "partial",
  "Adoption of the message is proved for all inputs; the reported index is right when all inputs parse (C14_index_all_parsed) and wrong otherwise (C14_index_refuted)."
 ],
 "C18": [
  "partial",
  "Rejected (config_parse_error) inputs are ignored and reported; other bad inputs (integer in a set change, non-dict bytes) abort or hang the merge: C18_bad_input_aborts_refuted."
 ],
 "C20": [
  "partial",
  "Highest-ranked change wins per field, proved for assignments, removals, set elements; 'no independent change is lost' is false: C20_independent_change_lost_refuted."
 ],
 "C21": [
  "partial",
  "False of the code (C21_parsing_terminates_refuted); terminates whenever no change set contains an integer (_partial)."
 ],
 "C22": [
  "partial",
  "False for extreme seqnos (C22_overflow_refuted); proved for seqnos at least lag away from the int64 limits."
 ],
 "C61": [
  "partial",
  "False of the code; the refutation is proved (trailing bytes are accepted and change the hash). Proved instead: two accepted messages over the same signed bytes have the same content."
 ],
 "C62": [
  "partial",
  "False of the code; the refutation is proved. Proved exactly: a resolver with unsaved changes lists no change, one without lists every top-level field."
 ],
 "C23": [
  "partial",
  "Proved for every history of one read-only object, including dumps and restores; C23_dirty_dump_refuted: a read-only object restored from a dump a writer made with unsaved changes is dirty."
 ],
 "C25": [
  "partial",
  "Proved for every history in which received messages have seqno >= 0 and, for signed configs, are in the library's own encoding; both restrictions are needed (C25_negative_refuted, C25_noncanonical_refuted)."
 ],
 "C31": [
  "partial",
  "All parts proved; the one exception is remove_key with from > 0 naming the first key, which dirties although the key stays (C31_remove_later_refuted)."
 ],
 "C32": [
  "partial",
  "Proved for all the listed cases except erasing an element of a set that does not exist, which dirties (C32_erase_no_set_refuted)."
 ],
 "C27": [
  "partial",
  "Proved for histories in which no message is delivered twice; C27_redelivered_refuted: merging the live message again makes push list it for deletion.  C27_promoted_refuted: a reader that saw a rival of its current message lists the current message as obsolete, and after promotion its push says so."
 ],
 "C29": [
  "partial",
  "Proved for unsigned configs (all but groups) over every history of canonical messages; C29_signed_refuted: an administrator's own message is dumped unsigned, so its hash changes."
 ],
 "C30": [
  "partial",
  "Proved except for the list of obsolete hashes and for edits made on top of unsaved changes; both exceptions are real (C30_obsolete_list_refuted, C30_unsaved_changes_refuted)."
 ],
 "C36": [
  "proved",
  ""
 ],
 "C37": [
  "proved",
  "C37_converge is the property as stated (one merge call, any order and repetition); C37_batches_refuted is an additional fact: with several calls a read-only client keeps whichever conflicting message came first."
 ],
 "C40": [
  "partial",
  "True when timestamps rise with generations, a (generation,key) pair always comes with one timestamp and every valid message has a key for us; each of the three conditions is needed (three _refuted theorems)."
 ],
 "C43": [
  "partial",
  "True as long as no message repeats a known key; C43_known_key_refuted: a new message with a known key adds its hash to the dump without setting the flag."
 ],
 "C44": [
  "partial",
  "Count, sizes and delivery proved; 'positive' fails for an empty member list (C44_no_members_refuted). Uses the idealised AEAD law `binding`."
 ],
 "C45": [
  "partial",
  "Every non-empty plaintext; the empty one is encrypted but can never be decrypted (C45_empty_refuted). Uses the idealised AEAD law `binding` and zstd round trip."
 ],
 "C60": [
  "partial",
  "Decryption and copy count proved; padding copies are 16 bytes short (C60_padding_size_refuted) and an empty message gets none (C60_empty_refuted)."
 ],
 "C65": [
  "proved",
  "For administrators whose key timestamps do not go down from one generation to the next (key expiry is decided by them)."
 ],
 "C48": [
  "partial",
  "Proved for all command sequences with timers below 2^31 seconds; C48_long_timer_refuted: a longer timer is stored but not read back."
 ],
 "C49": [
  "partial",
  "Struct round trip proved for contacts without a mute time, names/urls that fit and have no NUL; C49_mute_lost_refuted: the mute time is lost (and the struct field left unset)."
 ],
 "C50": [
  "partial",
  "In bounds when the source is shorter than the buffer; false otherwise (C50_overflow_refuted), and reachable with a received name (C50_received_name_refuted)."
 ],
 "C51": [
  "proved",
  "All command sequences, any reachable state."
 ],
 "C54": [
  "proved",
  "All command sequences; statuses follow the documented state machine; C struct round trip."
 ],
 "C55": [
  "proved",
  "All command sequences, any reachable state."
 ],
 "C59": [
  "partial",
  "Contacts, members, groups, legacy groups, communities and conversations: sorted, no duplicates, exactly what get finds; one record under a 33-byte key with another prefix makes iteration of contacts and members throw (C59_bad_record_refuted), size counts invalid entries (C59_size_refuted)."
 ],
 "C47": [
  "proved",
  "canonical_url accepts exactly the URLs of CommunitySpec.url_means; idempotence, case, slash, default port and full-URL round trip for all inputs."
 ],
 "C58": [
  "partial",
  "Acceptance characterised exactly; C58_short_key_refuted: a 44-character base64 string ending in two '=' is accepted and gives a 31-byte key."
 ],
 "C52": [
  "partial",
  "All command sequences over the three kinds at any point of a life: reads back exactly as specified, kinds do not interfere, sizes and erase results exact for own data. Refuted for the code: stale auth data survives set with a secret key; secret key lost under an upper-case id; admin lost when a member is listed under two spellings; the server key is shared by all rooms of a server; get_community throws on an invalid stored room name."
 ],
 "C53": [
  "partial",
  "All sequences of set, erase and prune over the three id kinds and communities, at any clock and point of a life, read back exactly as specified; push drops exactly the stale ones. Hypotheses: last_read fits the clock, community records stored under canonical names. Refuted for the code: groups are never pruned; the last_read of an unread conversation older than 30 days is lost; times after 2262 overflow; a stale community leaves its server behind; with a non-canonical stored name pruning removes a fresh conversation."
 ],
 "C72": [
  "partial",
  "All accounts, servers and both versions, up to a blinding factor of zero (a 2^-252 event); C72_short_id_refuted: a blinded id of fewer than two characters is read out of bounds. Ids are compared with case, so an upper-case id never matches (C72_matches_only)."
 ],
 "C73": [
  "proved",
  "All accounts, servers and messages, up to a zero factor or nonce (2^-252 events)."
 ],
 "C74": [
  "partial",
  "Round trip and sender authenticity for all accounts, servers, versions and messages; C74_alternative_id_refuted: of the two 15-blinded ids that match a session id, messages to the one that is not the key pair's cannot be decrypted. C74_sender: for 15-blinding the code flips a bit of byte 31 instead of the sign bit in byte 32, so an id that differs there is also accepted."
 ],
 "C75": [
  "partial",
  "All clamped secret keys; C75_unclamped_refuted: with an unclamped key, which the API accepts, the signature does not verify."
 ],
 "C76": [
  "proved",
  "All groups, members, flags and requests; C76_sub_ok discharges the assumption of C46 for libsodium's functions as in Ed.v."
 ],
 "C77": [
  "partial",
  "Holds for histories that set one kind of destination. Refuted: payloads for servers are cut at the first NUL (C77_server_payload_refuted), a service node destination set after a server one is ignored (C77_switch_destination_refuted), a port given earlier stays (C77_stale_port_refuted). JSON is modelled after nlohmann::json's documented behaviour."
 ],
 "C78": [
  "proved",
  "The fallback to AES-GCM is tried only if XChaCha20 does not open the reply (C78_fallback)."
 ],
 "C79": [
  "proved",
  "The size limit is the parser's argument. nlohmann::json stops at a NUL after the value, so bytes after it are ignored."
 ],
 "C80": [
  "partial",
  "A base64 string with two padding characters holds 31 bytes but is read as a key (C80_short_base64_refuted)."
 ],
 "C81": [
  "proved",
  "x86-64/arm64 layout; malloc assumed to succeed as the code does. Strings are read back up to their first NUL (hashes that came in through the C interface have none)."
 ],
 "C82": [
  "partial",
  "Proved for the keys object for every message and for the other getters for ids of at most 190 characters; an id of 192 characters or more writes past the buffer (C82_long_id_refuted)."
 ],
 "C83": [
  "proved",
  "Calling next again after it returned false is undefined (C83_past_end_refuted), as is erasing without a preceding next."
 ],
 "C84": [
  "partial",
  "Proved for everything this library writes. Two ways for another device to make a C getter read or write out of bounds: names over 100 bytes (C84_long_name_refuted) and servers without a key (C84_missing_key_refuted)."
 ],
 "C85": [
  "partial",
  "Proved for rooms of at most 64 characters and complete keys; C85_long_room_refuted: a longer room is written beyond the documented buffer; C85_short_key_refuted: a key that decodes to fewer bytes leaves the rest of the key buffer unset although the function reports success. C85_round_trip: what the C functions make is read back."
 ],
 "C86": [
  "partial",
  "Proved for every function listed; C86_matches_short_refuted: session_id_matches_blinded_id reads past the end of an id shorter than 66 characters."
 ],
 "C87": [
  "partial",
  "Proved for the setters with valid arguments on a writable config, for read-only configs where the wrapper catches, for merge of unusable batches on a config with data, and for push up to the exact size limit. Refuted where the wrapper does not catch: C87_bad_id_refuted, C87_readonly_refuted, C87_merge_new_refuted (config_merge of an empty or unusable batch on a brand-new config), C87_merge_poison_refuted, C87_push_no_keys_refuted, C87_onion_refuted, C87_subaccount_refuted."
 ],
 "C88": [
  "partial",
  "Proved for values the C interface itself set. C88_long_url_refuted and C88_long_timer_refuted: a picture url of 224 characters or a timer of 2^31 set through C++ is not read back through C."
 ],
 "C89": [
  "partial",
  "Groups and conversations in full.  Contacts and members: C89_contacts_partial and C89_members_partial need every 33-byte record key to be a session id; otherwise C59_bad_record_refuted: a malformed record stored by another device makes begin() or ++ throw."
 ],
 "C90": [
  "partial",
  "Everything but the last sentence in full.  C90_one_key proves the last sentence when all keys set belong to one key pair; C90_other_key_refuted: set_sig_pubkey after set_sig_keys leaves the old signer in place."
 ],
 "C92": [
  "partial",
  "Proved for messages whose change record has the form the library itself writes.  C92_odd_refuted: load_diff does not look at the element of a one-element list, so a message with a dict there is accepted but makes any merge that has to resolve a conflict with it throw."
 ],
 "C93": [
  "partial",
  "Full except for malformed dumps: C93_any_dump_partial excludes dumps whose message has an integer in a change set or a seqno at the ends of the 64-bit range, and C93_dump_hangs_refuted, C93_dump_overflow_refuted show that these hang or are undefined.  A dump with an unknown state number is taken as rejected (the C++ keeps the number).  C93_free_refuted: config_free leaks the internals."
 ],
 "C94": [
  "proved",
  "For configs whose keys are only changed through the Keys object (C93 covers direct key calls), libsodium and zstd as in C31/C44, and Ed25519 seeds that give key pairs.  The reading theorems are for a member that has no newer keys; in C94_invited the administrator's keys are in step with their times, as in C65."
 ],
 "C95": [
  "partial",
  "Proved under the proviso on removed dicts (`keeps`), which C95_last_erased_refuted shows to be needed: the code loses a record added on one device when another erases the last record of that kind at the same time.  The fields are those reached through dicts and holding scalars, the shape the typed classes keep; set-valued fields and the contents of messages of other clients are covered by C91 and C92 only.  For C95_record every other device must leave the record alone; when two devices edit different fields of one record, C95_one_changer applies to each field.  C95_contacts_set/erase and C95_members_set/erase show that the calls of these classes are edits of the kind the rounds are made of.  C100_lost_refuted shows the limit of the rounds: a merge published inside a round overrides a concurrent edit of another field."
 ],
 "C96": [
  "partial",
  "Proved for sets reached through dicts, for edits that leave the set in place (do not remove its last element or the record that holds it) and that do not remove the element from a merge result that is not pushed yet.  Both provisos are needed: C96_last_removed_refuted (removing the last element on one device loses what another adds at the same time), C96_returns_refuted (an element lost that way comes back on all devices when unrelated fields are changed concurrently), C96_pending_refuted and C96_pending_field_refuted (an element removed, or a field erased, after a conflict was merged and before the result was pushed comes back: the config made by the merge does not know what it was merged from).  C96_legacy_set and C96_members tie the rounds to the calls of the legacy group records."
 ],
 "C97": [
  "partial",
  "Proved for devices that can all write and have one encryption key (every config of a user account), with no BLAKE2b collision among the messages and version numbers that do not reach the end of the 64-bit range.  C97_quiet is for configs without signatures (see C29_signed_refuted for what signatures change)."
 ],
 "C99": [
  "partial",
  "For configs without signatures: a dump holds the unsigned message, so after a restart a signed config includes a message under another hash."
 ],
 "C98": [
  "proved",
  "For devices that can all write and have one encryption key, with no BLAKE2b collision among the messages.  An edit that failed is not counted as made."
 ],
 "C15": [
  "proved",
  "C99 shows that `consistent` holds of the messages of every history (configs without signatures)."
 ],
 "C100": [
  "partial",
  "Proved for configs without signatures and schedules in which one device edits, and restarts from a dump of the state it is in; the other devices do everything else, and restart from any state they were in.  When several devices edit, C95 and C96 cover rounds in which each field has one editor.  C100_lost_refuted: over several rounds the claim is false of the code.  A config made by merging a conflict does not know what it was merged from (orig_data_ is initialised from the still empty data_, config.hpp 248), so the change record of the published merge names every field as newly set, and overrides a concurrent edit of a field that nobody else touched."
 ],
 "C101": [
  "proved",
  "For configs whose class does not sign; a restart is from a dump of the present state or, when there is nothing to push, of any earlier state with nothing to push."
 ],
 "C102": [
  "partial",
  "All parts are proved but the last for rival versions: members that have fetched everything show the same when the newest message is one (C102_same, C102_follows).  C102_tie_refuted: of two rival messages with the same version number a reader keeps the one it fetched first (base.cpp 216-242 replaces nothing when the version number stays the same, though the merging constructor picked the one with the higher hash), so members who fetched both one by one in different orders go on showing different things until an administrator reconciles them."
 ],
 "C103": [
  "proved",
  "Conversations are outside: one that was never read and is not marked unread is an empty record, which is dropped (C53_push)."
 ],
 "C104": [
  "partial",
  "Proved for everything but move assignment, whose code has no return statement: C104_assign_refuted."
 ],
 "C105": [
  "partial",
  "end_with and string_iequal are proved right; starts_with and SessionID::hex are wrong (C105_starts_with_refuted, C105_session_id_refuted), and the _partial theorems say exactly what they do."
 ],
 "C109": [
  "partial",
  "The C error text is proved for ids of up to 190 characters only: a longer id makes the message overflow the 256-byte error buffer (C82_long_id_refuted). Everything else is proved in full."
 ],
 "C110": [
  "partial",
  "The last clause is false of the code (C110_retry_refuted): push() forgets the list when it returns it, so a push repeated after a failed upload lists nothing (C110_retry_empty) and the obsolete messages stay on the server. Everything else is proved in full."
 ]
}