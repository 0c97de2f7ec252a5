{
 "claims": [
  {
   "property": "C01",
   "status": "proved",
   "theorems": [
    "C01_diff_roundtrip",
    "C01_published"
   ],
   "note": ""
  },
  {
   "property": "C02",
   "status": "proved",
   "theorems": [
    "C02_diff_empty",
    "C02_published"
   ],
   "note": ""
  },
  {
   "property": "C03",
   "status": "partial",
   "theorems": [
    "C03_top_level",
    "C03_nested",
    "C03_nested_refuted"
   ],
   "note": "True for top-level fields (C03_top_level) and for nested ones whose containing dict survives (C03_nested); C03_nested_refuted shows a nested change that is lost."
  },
  {
   "property": "C04",
   "status": "proved",
   "theorems": [
    "C04_prune"
   ],
   "note": ""
  },
  {
   "property": "C05",
   "status": "proved",
   "theorems": [
    "C05_diff_defined"
   ],
   "note": ""
  },
  {
   "property": "C06",
   "status": "proved",
   "theorems": [
    "C06_encode_decode",
    "C06_injective"
   ],
   "note": ""
  },
  {
   "property": "C07",
   "status": "partial",
   "theorems": [
    "C07_store",
    "C07_publish",
    "C07_foreign_signature_refuted"
   ],
   "note": "Proved for stored messages and for published ones; C07_foreign_signature_refuted: a validly signed but non-canonical message re-serialises with a signature that no longer fits."
  },
  {
   "property": "C08",
   "status": "proved",
   "theorems": [
    "C08_accepts_canonical"
   ],
   "note": ""
  },
  {
   "property": "C09",
   "status": "proved",
   "theorems": [
    "C09_unknown_survives"
   ],
   "note": ""
  },
  {
   "property": "C10",
   "status": "partial",
   "theorems": [
    "C10_adopted_keeps_unknown_partial",
    "C10_resolution_has_no_unknown_refuted",
    "C10_unknown_dropped_by_merge_refuted"
   ],
   "note": "The claim is false of the code; the refutation is proved for one input and in general (a resolution has no unknown fields at all). Proved instead: when the merge adopts one of the inputs, exactly its unknown fields survive in everything stored or published later."
  },
  {
   "property": "C11",
   "status": "proved",
   "theorems": [
    "C11_only_signed"
   ],
   "note": ""
  },
  {
   "property": "C12",
   "status": "proved",
   "theorems": [
    "C12_signed_verifies",
    "C12_mutable_unsigned"
   ],
   "note": ""
  },
  {
   "property": "C13",
   "status": "proved",
   "theorems": [
    "C13_order_independent"
   ],
   "note": ""
  },
  {
   "property": "C14",
   "status": "partial",
   "theorems": [
    "C14_single_adopted",
    "C14_unmerged_is_input",
    "C14_index_all_parsed",
    "C14_index_refuted"
   ],
   "note": "Adoption of the message is proved for all inputs; the reported index is right when all inputs parse (C14_index_all_parsed) and wrong otherwise (C14_index_refuted)."
  },
  {
   "property": "C15",
   "status": "proved",
   "theorems": [
    "C15_resolution_seqno",
    "C15_resolved_once"
   ],
   "note": "C99 shows that `consistent` holds of the messages of every history (configs without signatures)."
  },
  {
   "property": "C16",
   "status": "proved",
   "theorems": [
    "C16_stale_ignored"
   ],
   "note": ""
  },
  {
   "property": "C17",
   "status": "proved",
   "theorems": [
    "C17_duplicates_ignored"
   ],
   "note": ""
  },
  {
   "property": "C18",
   "status": "partial",
   "theorems": [
    "C18_rejected_ignored_partial",
    "C18_reported",
    "C18_bad_input_aborts_refuted"
   ],
   "note": "Rejected (config_parse_error) inputs are ignored and reported; other bad inputs (integer in a set change, non-dict bytes) abort or hang the merge: C18_bad_input_aborts_refuted."
  },
  {
   "property": "C19",
   "status": "proved",
   "theorems": [
    "C19_reader_follows_highest"
   ],
   "note": ""
  },
  {
   "property": "C20",
   "status": "partial",
   "theorems": [
    "C20_assignment_wins",
    "C20_own_assignment_wins",
    "C20_removal_wins",
    "C20_set_element_wins",
    "C20_untouched_kept",
    "C20_independent_change_lost_refuted"
   ],
   "note": "Highest-ranked change wins per field, proved for assignments, removals, set elements; 'no independent change is lost' is false: C20_independent_change_lost_refuted."
  },
  {
   "property": "C21",
   "status": "partial",
   "theorems": [
    "C21_parsing_terminates_refuted",
    "C21_parsing_terminates_partial"
   ],
   "note": "False of the code (C21_parsing_terminates_refuted); terminates whenever no change set contains an integer (_partial)."
  },
  {
   "property": "C22",
   "status": "partial",
   "theorems": [
    "C22_no_overflow_partial",
    "C22_overflow_refuted"
   ],
   "note": "False for extreme seqnos (C22_overflow_refuted); proved for seqnos at least lag away from the int64 limits."
  },
  {
   "property": "C23",
   "status": "partial",
   "theorems": [
    "C23_never_dirty",
    "C23_edits_refused",
    "C23_only_verified_messages",
    "C23_dirty_dump_refuted"
   ],
   "note": "Proved for every history of one read-only object, including dumps and restores; C23_dirty_dump_refuted: a read-only object restored from a dump a writer made with unsaved changes is dirty."
  },
  {
   "property": "C24",
   "status": "proved",
   "theorems": [
    "C24_change_needs_push",
    "C24_ends",
    "C24_confirm",
    "C24_confirmed_is_pushed"
   ],
   "note": ""
  },
  {
   "property": "C25",
   "status": "partial",
   "theorems": [
    "C25_monotone",
    "C25_edit_increases",
    "C25_negative_refuted",
    "C25_noncanonical_refuted"
   ],
   "note": "Proved for every history in which received messages have seqno >= 0 and, for signed configs, are in the library's own encoding; both restrictions are needed (C25_negative_refuted, C25_noncanonical_refuted)."
  },
  {
   "property": "C26",
   "status": "proved",
   "theorems": [
    "C26_only_while_clean"
   ],
   "note": ""
  },
  {
   "property": "C27",
   "status": "partial",
   "theorems": [
    "C27_promoted_refuted",
    "C27_live_message_kept_partial",
    "C27_redelivered_refuted"
   ],
   "note": "Proved for histories in which no message is delivered twice; C27_redelivered_refuted: merging the live message again makes push list it for deletion.  C27_promoted_refuted: a reader that saw a rival of its current message lists the current message as obsolete, and after promotion its push says so."
  },
  {
   "property": "C28",
   "status": "proved",
   "theorems": [
    "C28_dump_succeeds",
    "C28_restore_succeeds",
    "C28_same"
   ],
   "note": ""
  },
  {
   "property": "C29",
   "status": "partial",
   "theorems": [
    "C29_restart_same_partial",
    "C29_signed_refuted"
   ],
   "note": "Proved for unsigned configs (all but groups) over every history of canonical messages; C29_signed_refuted: an administrator's own message is dumped unsigned, so its hash changes."
  },
  {
   "property": "C30",
   "status": "partial",
   "theorems": [
    "C30_needs_dump_partial",
    "C30_unchanged_partial",
    "C30_obsolete_list_refuted",
    "C30_unsaved_changes_refuted"
   ],
   "note": "Proved except for the list of obsolete hashes and for edits made on top of unsaved changes; both exceptions are real (C30_obsolete_list_refuted, C30_unsaved_changes_refuted)."
  },
  {
   "property": "C31",
   "status": "partial",
   "theorems": [
    "C31_no_duplicates",
    "C31_key_list",
    "C31_other_calls",
    "C31_dirties",
    "C31_remove_later_refuted"
   ],
   "note": "All parts proved; the one exception is remove_key with from > 0 naming the first key, which dirties although the key stays (C31_remove_later_refuted)."
  },
  {
   "property": "C32",
   "status": "partial",
   "theorems": [
    "C32_assign_same",
    "C32_erase_missing",
    "C32_assign_empty_missing",
    "C32_insert_present",
    "C32_erase_absent_partial",
    "C32_erase_no_set_refuted"
   ],
   "note": "Proved for all the listed cases except erasing an element of a set that does not exist, which dirties (C32_erase_no_set_refuted)."
  },
  {
   "property": "C33",
   "status": "proved",
   "theorems": [
    "C33_data",
    "C33_read",
    "C33_others"
   ],
   "note": ""
  },
  {
   "property": "C34",
   "status": "proved",
   "theorems": [
    "C34_roundtrip",
    "C34_refuses_bad_parameters",
    "C34_short_rejected",
    "C34_decrypts_only_encryptions"
   ],
   "note": ""
  },
  {
   "property": "C35",
   "status": "proved",
   "theorems": [
    "C35_bucket",
    "C35_monotone",
    "C35_idempotent",
    "C35_pads",
    "C35_removable"
   ],
   "note": ""
  },
  {
   "property": "C36",
   "status": "proved",
   "theorems": [
    "C36_replicates",
    "C36_joins"
   ],
   "note": ""
  },
  {
   "property": "C37",
   "status": "proved",
   "theorems": [
    "C37_converge",
    "C37_batches_refuted"
   ],
   "note": "C37_converge is the property as stated (one merge call, any order and repetition); C37_batches_refuted is an additional fact: with several calls a read-only client keeps whichever conflicting message came first."
  },
  {
   "property": "C38",
   "status": "proved",
   "theorems": [
    "C38_ordered",
    "C38_encryption_key"
   ],
   "note": ""
  },
  {
   "property": "C39",
   "status": "proved",
   "theorems": [
    "C39_expiry",
    "C39_hashes",
    "C39_current_hashes",
    "C39_hashes_to_keep"
   ],
   "note": ""
  },
  {
   "property": "C40",
   "status": "partial",
   "theorems": [
    "C40_any_order_partial",
    "C40_two_times_refuted",
    "C40_back_in_time_refuted",
    "C40_unreadable_refuted"
   ],
   "note": "True when timestamps rise with generations, a (generation,key) pair always comes with one timestamp and every valid message has a key for us; each of the three conditions is needed (three _refuted theorems)."
  },
  {
   "property": "C41",
   "status": "proved",
   "theorems": [
    "C41_restore"
   ],
   "note": ""
  },
  {
   "property": "C42",
   "status": "proved",
   "theorems": [
    "C42_needs_rekey"
   ],
   "note": ""
  },
  {
   "property": "C43",
   "status": "partial",
   "theorems": [
    "C43_dump_flag_partial",
    "C43_known_key_refuted"
   ],
   "note": "True as long as no message repeats a known key; C43_known_key_refuted: a new message with a known key adds its hash to the dump without setting the flag."
  },
  {
   "property": "C44",
   "status": "partial",
   "theorems": [
    "C44_entries_partial",
    "C44_members_get_the_key",
    "C44_admins_get_the_key",
    "C44_no_members_refuted"
   ],
   "note": "Count, sizes and delivery proved; 'positive' fails for an empty member list (C44_no_members_refuted). Uses the idealised AEAD law `binding`."
  },
  {
   "property": "C45",
   "status": "partial",
   "theorems": [
    "C45_round_trip_partial",
    "C45_empty_refuted",
    "C45_padding"
   ],
   "note": "Every non-empty plaintext; the empty one is encrypted but can never be decrypted (C45_empty_refuted). Uses the idealised AEAD law `binding` and zstd round trip."
  },
  {
   "property": "C46",
   "status": "proved",
   "theorems": [
    "C46_rights",
    "C46_sound",
    "C46_c",
    "C46_exact",
    "C46_fewer",
    "C46_group_id"
   ],
   "note": ""
  },
  {
   "property": "C47",
   "status": "proved",
   "theorems": [
    "C47_from_full_url",
    "C47_meaning",
    "C47_idempotent",
    "C47_case",
    "C47_slash",
    "C47_default_port",
    "C47_full_url",
    "C47_room",
    "C47_room_accepted"
   ],
   "note": "canonical_url accepts exactly the URLs of CommunitySpec.url_means; idempotence, case, slash, default port and full-URL round trip for all inputs."
  },
  {
   "property": "C48",
   "status": "partial",
   "theorems": [
    "C48_contacts",
    "C48_bad_id",
    "C48_saving_again",
    "C48_long_timer_refuted"
   ],
   "note": "Proved for all command sequences with timers below 2^31 seconds; C48_long_timer_refuted: a longer timer is stored but not read back."
  },
  {
   "property": "C49",
   "status": "partial",
   "theorems": [
    "C49_struct_partial",
    "C49_mute_lost_refuted"
   ],
   "note": "Struct round trip proved for contacts without a mute time, names/urls that fit and have no NUL; C49_mute_lost_refuted: the mute time is lost (and the struct field left unset)."
  },
  {
   "property": "C50",
   "status": "partial",
   "theorems": [
    "C50_copy_partial",
    "C50_overflow_refuted",
    "C50_received_name_refuted"
   ],
   "note": "In bounds when the source is shorter than the buffer; false otherwise (C50_overflow_refuted), and reachable with a received name (C50_received_name_refuted)."
  },
  {
   "property": "C51",
   "status": "proved",
   "theorems": [
    "C51_profile"
   ],
   "note": "All command sequences, any reachable state."
  },
  {
   "property": "C52",
   "status": "partial",
   "theorems": [
    "C52_groups",
    "C52_kept_legacy",
    "C52_kept_group",
    "C52_kept_community",
    "C52_bad_id",
    "C52_stale_auth_refuted",
    "C52_upper_case_refuted",
    "C52_admin_lost_refuted",
    "C52_shared_key_refuted",
    "C52_throws_refuted",
    "C52_tidy",
    "C52_sizes",
    "C52_erase_group",
    "C52_erase_legacy",
    "C52_erase_community",
    "C52_joined"
   ],
   "note": "All command sequences over the three kinds at any point of a life: reads back exactly as specified, kinds do not interfere, sizes and erase results exact for own data. Refuted for the code: stale auth data survives set with a secret key; secret key lost under an upper-case id; admin lost when a member is listed under two spellings; the server key is shared by all rooms of a server; get_community throws on an invalid stored room name."
  },
  {
   "property": "C53",
   "status": "partial",
   "theorems": [
    "C53_convos",
    "C53_kept",
    "C53_stale_not_stored",
    "C53_push",
    "C53_bad_id",
    "C53_erase",
    "C53_group_pruned_refuted",
    "C53_unread_time_refuted",
    "C53_far_future_refuted",
    "C53_stale_community_refuted",
    "C53_prune_fresh_refuted"
   ],
   "note": "All sequences of set, erase and prune over the three id kinds and communities, at any clock and point of a life, read back exactly as specified; push drops exactly the stale ones. Hypotheses: last_read fits the clock, community records stored under canonical names. Refuted for the code: groups are never pruned; the last_read of an unread conversation older than 30 days is lost; times after 2262 overflow; a stale community leaves its server behind; with a non-canonical stored name pruning removes a fresh conversation."
  },
  {
   "property": "C54",
   "status": "proved",
   "theorems": [
    "C54_members",
    "C54_bad_id",
    "C54_saving_again",
    "C54_statuses",
    "C54_struct"
   ],
   "note": "All command sequences; statuses follow the documented state machine; C struct round trip."
  },
  {
   "property": "C55",
   "status": "proved",
   "theorems": [
    "C55_info"
   ],
   "note": "All command sequences, any reachable state."
  },
  {
   "property": "C56",
   "status": "proved",
   "theorems": [
    "C56_dict",
    "C56_list",
    "C56_list_set"
   ],
   "note": ""
  },
  {
   "property": "C57",
   "status": "proved",
   "theorems": [
    "C57_padding",
    "C57_padding_only",
    "C57_wrap_unwrap",
    "C57_wrap_refuses",
    "C57_unwrap_own"
   ],
   "note": ""
  },
  {
   "property": "C58",
   "status": "partial",
   "theorems": [
    "C58_session_id",
    "C58_accepted",
    "C58_printed",
    "C58_32_bytes_partial",
    "C58_short_key_refuted"
   ],
   "note": "Acceptance characterised exactly; C58_short_key_refuted: a 44-character base64 string ending in two '=' is accepted and gives a 31-byte key."
  },
  {
   "property": "C59",
   "status": "partial",
   "theorems": [
    "C59_convos",
    "C59_convo_communities",
    "C59_convo_sizes",
    "C59_all_convos",
    "C59_groups",
    "C59_legacy_groups",
    "C59_communities",
    "C59_own_communities",
    "C59_group_sizes",
    "C59_all_groups",
    "C59_more_sizes",
    "C59_contacts",
    "C59_members",
    "C59_contacts_total_partial",
    "C59_members_total_partial",
    "C59_bad_record_refuted",
    "C59_size_refuted"
   ],
   "note": "Contacts, members, groups, legacy groups, communities and conversations: sorted, no duplicates, exactly what get finds; one record under a 33-byte key with another prefix makes iteration of contacts and members throw (C59_bad_record_refuted), size counts invalid entries (C59_size_refuted)."
  },
  {
   "property": "C60",
   "status": "partial",
   "theorems": [
    "C60_recipients_decrypt",
    "C60_common_message",
    "C60_copies_partial",
    "C60_padding_size_refuted",
    "C60_empty_refuted"
   ],
   "note": "Decryption and copy count proved; padding copies are 16 bytes short (C60_padding_size_refuted) and an empty message gets none (C60_empty_refuted)."
  },
  {
   "property": "C61",
   "status": "partial",
   "theorems": [
    "C61_one_message_per_signature_refuted",
    "C61_same_content_partial"
   ],
   "note": "False of the code; the refutation is proved (trailing bytes are accepted and change the hash). Proved instead: two accepted messages over the same signed bytes have the same content."
  },
  {
   "property": "C62",
   "status": "partial",
   "theorems": [
    "C62_clean_resolution_has_empty_change_set_refuted",
    "C62_dirty_resolver_lists_nothing_partial",
    "C62_clean_resolver_lists_everything_partial"
   ],
   "note": "False of the code; the refutation is proved. Proved exactly: a resolver with unsaved changes lists no change, one without lists every top-level field."
  },
  {
   "property": "C63",
   "status": "proved",
   "theorems": [
    "C63_domain_separation"
   ],
   "note": ""
  },
  {
   "property": "C64",
   "status": "proved",
   "theorems": [
    "C64_only_signed",
    "C64_well_formed",
    "C64_well_formed_supplement"
   ],
   "note": ""
  },
  {
   "property": "C65",
   "status": "proved",
   "theorems": [
    "C65_new_member_gets_all_keys",
    "C65_same_encryption_key"
   ],
   "note": "For administrators whose key timestamps do not go down from one generation to the next (key expiry is decided by them)."
  },
  {
   "property": "C66",
   "status": "proved",
   "theorems": [
    "C66_same_rekey"
   ],
   "note": ""
  },
  {
   "property": "C67",
   "status": "proved",
   "theorems": [
    "C67_configs_have_the_keys"
   ],
   "note": ""
  },
  {
   "property": "C68",
   "status": "proved",
   "theorems": [
    "C68_accepted",
    "C68_unopened_ignored"
   ],
   "note": ""
  },
  {
   "property": "C69",
   "status": "proved",
   "theorems": [
    "C69_sends",
    "C69_round_trip",
    "C69_round_trip_x",
    "C69_deterministic_keys"
   ],
   "note": ""
  },
  {
   "property": "C70",
   "status": "proved",
   "theorems": [
    "C70_authentic",
    "C70_session_id",
    "C70_sign_verify"
   ],
   "note": ""
  },
  {
   "property": "C71",
   "status": "proved",
   "theorems": [
    "C71_push",
    "C71_push_only",
    "C71_push_all_nul",
    "C71_ons",
    "C71_ons_only"
   ],
   "note": ""
  },
  {
   "property": "C72",
   "status": "partial",
   "theorems": [
    "C72_blind25_agrees",
    "C72_blind15_agrees",
    "C72_blind15_one_account",
    "C72_matches_only",
    "C72_short_id_refuted"
   ],
   "note": "All accounts, servers and both versions, up to a blinding factor of zero (a 2^-252 event); C72_short_id_refuted: a blinded id of fewer than two characters is read out of bounds. Ids are compared with case, so an upper-case id never matches (C72_matches_only)."
  },
  {
   "property": "C73",
   "status": "proved",
   "theorems": [
    "C73_blind15_sign",
    "C73_blind25_sign"
   ],
   "note": "All accounts, servers and messages, up to a zero factor or nonce (2^-252 events)."
  },
  {
   "property": "C74",
   "status": "partial",
   "theorems": [
    "C74_round_trip",
    "C74_sender",
    "C74_alternative_id_refuted"
   ],
   "note": "Round trip and sender authenticity for all accounts, servers, versions and messages; C74_alternative_id_refuted: of the two 15-blinded ids that match a session id, messages to the one that is not the key pair's cannot be decrypted. C74_sender: for 15-blinding the code flips a bit of byte 31 instead of the sign bit in byte 32, so an id that differs there is also accepted."
  },
  {
   "property": "C75",
   "status": "partial",
   "theorems": [
    "C75_sign_verify",
    "C75_pubkey",
    "C75_unclamped_refuted"
   ],
   "note": "All clamped secret keys; C75_unclamped_refuted: with an unclamped key, which the API accepts, the signature does not verify."
  },
  {
   "property": "C76",
   "status": "proved",
   "theorems": [
    "C76_sub_ok",
    "C76_subaccount_sign"
   ],
   "note": "All groups, members, flags and requests; C76_sub_ok discharges the assumption of C46 for libsodium's functions as in Ed.v."
  },
  {
   "property": "C77",
   "status": "partial",
   "theorems": [
    "C77_snode",
    "C77_snode_builds",
    "C77_server",
    "C77_server_direct",
    "C77_server_builds",
    "C77_server_payload_refuted",
    "C77_switch_destination_refuted",
    "C77_stale_port_refuted",
    "C77_no_destination"
   ],
   "note": "Holds for histories that set one kind of destination. Refuted: payloads for servers are cut at the first NUL (C77_server_payload_refuted), a service node destination set after a server one is ignored (C77_switch_destination_refuted), a port given earlier stays (C77_stale_port_refuted). JSON is modelled after nlohmann::json's documented behaviour."
  },
  {
   "property": "C78",
   "status": "proved",
   "theorems": [
    "C78_snode_reply",
    "C78_server_reply",
    "C78_fallback",
    "C78_authentic",
    "C78_not_before"
   ],
   "note": "The fallback to AES-GCM is tried only if XChaCha20 does not open the reply (C78_fallback)."
  },
  {
   "property": "C79",
   "status": "proved",
   "theorems": [
    "C79_accepts",
    "C79_total",
    "C79_authentic",
    "C79_can_reply"
   ],
   "note": "The size limit is the parser's argument. nlohmann::json stops at a NUL after the value, so bytes after it are ignored."
  },
  {
   "property": "C80",
   "status": "partial",
   "theorems": [
    "C80_printed",
    "C80_read",
    "C80_short_base64_refuted",
    "C80_from_hex",
    "C80_hex_back",
    "C80_from_bytes",
    "C80_snode_address"
   ],
   "note": "A base64 string with two padding characters holds 31 bytes but is read as a key (C80_short_base64_refuted)."
  },
  {
   "property": "C81",
   "status": "proved",
   "theorems": [
    "C81_string_list",
    "C81_config_merge",
    "C81_config_push",
    "C81_config_get_keys",
    "C81_config_current_hashes",
    "C81_config_dump",
    "C81_dump_reopened"
   ],
   "note": "x86-64/arm64 layout; malloc assumed to succeed as the code does. Strings are read back up to their first NUL (hashes that came in through the C interface have none)."
  },
  {
   "property": "C82",
   "status": "partial",
   "theorems": [
    "C82_set_error",
    "C82_getters_partial",
    "C82_when",
    "C82_long_id_refuted"
   ],
   "note": "Proved for the keys object for every message and for the other getters for ids of at most 190 characters; an id of 192 characters or more writes past the buffer (C82_long_id_refuted)."
  },
  {
   "property": "C83",
   "status": "proved",
   "theorems": [
    "C83_walk",
    "C83_add",
    "C83_remove",
    "C83_count",
    "C83_insert",
    "C83_erase",
    "C83_same",
    "C83_past_end_refuted"
   ],
   "note": "Calling next again after it returned false is undefined (C83_past_end_refuted), as is erasing without a preceding next."
  },
  {
   "property": "C84",
   "status": "partial",
   "theorems": [
    "C84_structs",
    "C84_legacy",
    "C84_group",
    "C84_kicked",
    "C84_community",
    "C84_convo",
    "C84_long_name_refuted",
    "C84_missing_key_refuted",
    "C84_convo_community_get",
    "C84_convo_missing_key_refuted"
   ],
   "note": "Proved for everything this library writes. Two ways for another device to make a C getter read or write out of bounds: names over 100 bytes (C84_long_name_refuted) and servers without a key (C84_missing_key_refuted)."
  },
  {
   "property": "C85",
   "status": "partial",
   "theorems": [
    "C85_parse_partial",
    "C85_parse_no_key_partial",
    "C85_round_trip",
    "C85_long_room_refuted",
    "C85_short_key_refuted"
   ],
   "note": "Proved for rooms of at most 64 characters and complete keys; C85_long_room_refuted: a longer room is written beyond the documented buffer; C85_short_key_refuted: a key that decodes to fewer bytes leaves the rest of the key buffer unset although the function reports success. C85_round_trip: what the C functions make is read back."
  },
  {
   "property": "C86",
   "status": "partial",
   "theorems": [
    "C86_decrypt",
    "C86_decrypt_legacy",
    "C86_decrypt_blinded",
    "C86_decrypt_ons",
    "C86_blocks",
    "C86_blind",
    "C86_matches",
    "C86_matches_short_refuted",
    "C86_ed",
    "C86_x",
    "C86_hash",
    "C86_keys_decrypt",
    "C86_keys_encrypt",
    "C86_subaccount",
    "C86_subaccount_sign",
    "C86_base64",
    "C86_onion_build",
    "C86_onion_decrypt"
   ],
   "note": "Proved for every function listed; C86_matches_short_refuted: session_id_matches_blinded_id reads past the end of an id shorter than 66 characters."
  },
  {
   "property": "C87",
   "status": "partial",
   "theorems": [
    "C87_edits",
    "C87_setters_partial",
    "C87_communities_partial",
    "C87_bad_id_refuted",
    "C87_readonly",
    "C87_readonly_refuted",
    "C87_merge_unusable_partial",
    "C87_merge_new_refuted",
    "C87_merge_poison_refuted",
    "C87_push_partial",
    "C87_push_no_keys_refuted",
    "C87_onion_partial",
    "C87_onion_refuted",
    "C87_subaccount",
    "C87_subaccount_refuted"
   ],
   "note": "Proved for the setters with valid arguments on a writable config, for read-only configs where the wrapper catches, for merge of unusable batches on a config with data, and for push up to the exact size limit. Refuted where the wrapper does not catch: C87_bad_id_refuted, C87_readonly_refuted, C87_merge_new_refuted (config_merge of an empty or unusable batch on a brand-new config), C87_merge_poison_refuted, C87_push_no_keys_refuted, C87_onion_refuted, C87_subaccount_refuted."
  },
  {
   "property": "C88",
   "status": "partial",
   "theorems": [
    "C88_profile_partial",
    "C88_info_partial",
    "C88_long_url_refuted",
    "C88_long_timer_refuted"
   ],
   "note": "Proved for values the C interface itself set. C88_long_url_refuted and C88_long_timer_refuted: a picture url of 224 characters or a timer of 2^31 set through C++ is not read back through C."
  },
  {
   "property": "C89",
   "status": "partial",
   "theorems": [
    "C89_groups",
    "C89_c_groups",
    "C89_convos",
    "C89_c_convos",
    "C89_contacts_partial",
    "C89_members_partial",
    "C89_c_records"
   ],
   "note": "Groups and conversations in full.  Contacts and members: C89_contacts_partial and C89_members_partial need every 33-byte record key to be a session id; otherwise C59_bad_record_refuted: a malformed record stored by another device makes begin() or ++ throw."
  },
  {
   "property": "C90",
   "status": "partial",
   "theorems": [
    "C90_seed_hash",
    "C90_secret_key",
    "C90_public_key",
    "C90_cleared",
    "C90_constructor",
    "C90_promotion",
    "C90_promoted_replicates",
    "C90_load_admin_key",
    "C90_one_key",
    "C90_other_key_refuted"
   ],
   "note": "Everything but the last sentence in full.  C90_one_key proves the last sentence when all keys set belong to one key pair; C90_other_key_refuted: set_sig_pubkey after set_sig_keys leaves the old signer in place."
  },
  {
   "property": "C91",
   "status": "proved",
   "theorems": [
    "C91_same_messages",
    "C91_exchange",
    "C91_again",
    "C91_two_rounds"
   ],
   "note": ""
  },
  {
   "property": "C92",
   "status": "partial",
   "theorems": [
    "C92_merge_succeeds",
    "C92_published",
    "C92_odd_refuted"
   ],
   "note": "Proved for messages whose change record has the form the library itself writes.  C92_odd_refuted: load_diff does not look at the element of a one-element list, so a message with a dict there is accepted but makes any merge that has to resolve a conflict with it throw."
  },
  {
   "property": "C93",
   "status": "partial",
   "theorems": [
    "C93_new",
    "C93_seed_or_secret",
    "C93_reopen",
    "C93_any_dump_partial",
    "C93_dump_hangs_refuted",
    "C93_dump_overflow_refuted",
    "C93_device",
    "C93_account_converges",
    "C93_group",
    "C93_group_peers",
    "C93_c_user",
    "C93_c_group",
    "C93_c_keys",
    "C93_c_key_results",
    "C93_free_refuted"
   ],
   "note": "Full except for malformed dumps: C93_any_dump_partial excludes dumps whose message has an integer in a change set or a seqno at the ends of the 64-bit range, and C93_dump_hangs_refuted, C93_dump_overflow_refuted show that these hang or are undefined.  A dump with an unknown state number is taken as rejected (the C++ keeps the number).  C93_free_refuted: config_free leaks the internals."
  },
  {
   "property": "C94",
   "status": "proved",
   "theorems": [
    "C94_signing_keys",
    "C94_encryption_keys",
    "C94_rekey_republishes",
    "C94_reads",
    "C94_rekey_reaches_members",
    "C94_invited",
    "C94_promotion",
    "C94_open",
    "C94_c_init"
   ],
   "note": "For configs whose keys are only changed through the Keys object (C93 covers direct key calls), libsodium and zstd as in C31/C44, and Ed25519 seeds that give key pairs.  The reading theorems are for a member that has no newer keys; in C94_invited the administrator's keys are in step with their times, as in C65."
  },
  {
   "property": "C95",
   "status": "partial",
   "theorems": [
    "C95_published",
    "C95_no_invention",
    "C95_unanimous",
    "C95_change_wins",
    "C95_one_changer",
    "C95_record",
    "C95_contacts",
    "C95_contacts_set",
    "C95_contacts_erase",
    "C95_members_set",
    "C95_members_erase",
    "C95_in_step",
    "C95_settles",
    "C95_last_erased_refuted"
   ],
   "note": "Proved under the proviso on removed dicts (`keeps`), which C95_last_erased_refuted shows to be needed: the code loses a record added on one device when another erases the last record of that kind at the same time.  The fields are those reached through dicts and holding scalars, the shape the typed classes keep; set-valued fields and the contents of messages of other clients are covered by C91 and C92 only.  For C95_record every other device must leave the record alone; when two devices edit different fields of one record, C95_one_changer applies to each field.  C95_contacts_set/erase and C95_members_set/erase show that the calls of these classes are edits of the kind the rounds are made of.  C100_lost_refuted shows the limit of the rounds: a merge published inside a round overrides a concurrent edit of another field."
  },
  {
   "property": "C96",
   "status": "partial",
   "theorems": [
    "C96_published",
    "C96_element",
    "C96_set",
    "C96_stays",
    "C96_in_step",
    "C96_settles",
    "C96_member_role",
    "C96_legacy_set",
    "C96_members",
    "C96_last_removed_refuted",
    "C96_returns_refuted",
    "C96_pending_refuted",
    "C96_pending_field_refuted"
   ],
   "note": "Proved for sets reached through dicts, for edits that leave the set in place (do not remove its last element or the record that holds it) and that do not remove the element from a merge result that is not pushed yet.  Both provisos are needed: C96_last_removed_refuted (removing the last element on one device loses what another adds at the same time), C96_returns_refuted (an element lost that way comes back on all devices when unrelated fields are changed concurrently), C96_pending_refuted and C96_pending_field_refuted (an element removed, or a field erased, after a conflict was merged and before the result was pushed comes back: the config made by the merge does not know what it was merged from).  C96_legacy_set and C96_members tie the rounds to the calls of the legacy group records."
  },
  {
   "property": "C97",
   "status": "partial",
   "theorems": [
    "C97_edit_succeeds",
    "C97_restart_succeeds",
    "C97_merge_succeeds",
    "C97_agree",
    "C97_quiet"
   ],
   "note": "Proved for devices that can all write and have one encryption key (every config of a user account), with no BLAKE2b collision among the messages and version numbers that do not reach the end of the 64-bit range.  C97_quiet is for configs without signatures (see C29_signed_refuted for what signatures change)."
  },
  {
   "property": "C98",
   "status": "proved",
   "theorems": [
    "C98_no_invention"
   ],
   "note": "For devices that can all write and have one encryption key, with no BLAKE2b collision among the messages.  An edit that failed is not counted as made."
  },
  {
   "property": "C99",
   "status": "partial",
   "theorems": [
    "C99_consistent",
    "C99_resolved_once"
   ],
   "note": "For configs without signatures: a dump holds the unsigned message, so after a restart a signed config includes a message under another hash."
  },
  {
   "property": "C100",
   "status": "partial",
   "theorems": [
    "C100_lost_refuted",
    "C100_kept",
    "C100_reader",
    "C100_follows"
   ],
   "note": "Proved for configs without signatures and schedules in which one device edits, and restarts from a dump of the state it is in; the other devices do everything else, and restart from any state they were in.  When several devices edit, C95 and C96 cover rounds in which each field has one editor.  C100_lost_refuted: over several rounds the claim is false of the code.  A config made by merging a conflict does not know what it was merged from (orig_data_ is initialised from the still empty data_, config.hpp 248), so the change record of the published merge names every field as newly set, and overrides a concurrent edit of a field that nobody else touched."
  },
  {
   "property": "C101",
   "status": "proved",
   "theorems": [
    "C101_sequential",
    "C101_prefix",
    "C101_first",
    "C101_pushed",
    "C101_follows"
   ],
   "note": "For configs whose class does not sign; a restart is from a dump of the present state or, when there is nothing to push, of any earlier state with nothing to push."
  },
  {
   "property": "C102",
   "status": "partial",
   "theorems": [
    "C102_exact",
    "C102_fetch",
    "C102_same",
    "C102_follows",
    "C102_tie_refuted"
   ],
   "note": "All parts are proved but the last for rival versions: members that have fetched everything show the same when the newest message is one (C102_same, C102_follows).  C102_tie_refuted: of two rival messages with the same version number a reader keeps the one it fetched first (base.cpp 216-242 replaces nothing when the version number stays the same, though the merging constructor picked the one with the higher hash), so members who fetched both one by one in different orders go on showing different things until an administrator reconciles them."
  },
  {
   "property": "C103",
   "status": "proved",
   "theorems": [
    "C103_contacts",
    "C103_members",
    "C103_groups",
    "C103_fields",
    "C103_default"
   ],
   "note": "Conversations are outside: one that was never read and is not marked unread is an empty record, which is dropped (C53_push)."
  },
  {
   "property": "C104",
   "status": "partial",
   "theorems": [
    "C104_values",
    "C104_shown",
    "C104_no_leak",
    "C104_assign_refuted",
    "C104_assign_partial"
   ],
   "note": "Proved for everything but move assignment, whose code has no return statement: C104_assign_refuted."
  },
  {
   "property": "C105",
   "status": "partial",
   "theorems": [
    "C105_end_with",
    "C105_starts_with_refuted",
    "C105_starts_with_partial",
    "C105_iequal",
    "C105_session_id_refuted",
    "C105_session_id_partial"
   ],
   "note": "end_with and string_iequal are proved right; starts_with and SessionID::hex are wrong (C105_starts_with_refuted, C105_session_id_refuted), and the _partial theorems say exactly what they do."
  },
  {
   "property": "C106",
   "status": "proved",
   "theorems": [
    "C106_no_key",
    "C106_cannot_read",
    "C106_removed",
    "C106_configs_unread",
    "C106_removed_configs"
   ],
   "note": ""
  },
  {
   "property": "C107",
   "status": "proved",
   "theorems": [
    "C107_distinct",
    "C107_group_kinds",
    "C107_user_kinds",
    "C107_push_wraps",
    "C107_same_kind"
   ],
   "note": ""
  },
  {
   "property": "C108",
   "status": "proved",
   "theorems": [
    "C108_value",
    "C108_token",
    "C108_token_signed",
    "C108_any_admin",
    "C108_admin_only",
    "C108_case",
    "C108_apart"
   ],
   "note": ""
  },
  {
   "property": "C109",
   "status": "partial",
   "theorems": [
    "C109_records",
    "C109_ids",
    "C109_community",
    "C109_community_key",
    "C109_community_text",
    "C109_community_url",
    "C109_convo_community",
    "C109_convo_community_text",
    "C109_created",
    "C109_kicked",
    "C109_c_found",
    "C109_c_new",
    "C109_c_errors_partial",
    "C109_c_community",
    "C109_c_refused"
   ],
   "note": "The C error text is proved for ids of up to 190 characters only: a longer id makes the message overflow the 256-byte error buffer (C82_long_id_refuted). Everything else is proved in full."
  },
  {
   "property": "C110",
   "status": "partial",
   "theorems": [
    "C110_source",
    "C110_not_twice",
    "C110_retry_empty",
    "C110_retry_refuted",
    "C110_superseded"
   ],
   "note": "The last clause is false of the code (C110_retry_refuted): push() forgets the list when it returns it, so a push repeated after a failed upload lists nothing (C110_retry_empty) and the obsolete messages stay on the server. Everything else is proved in full."
  }
 ]
}