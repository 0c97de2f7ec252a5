{"id": "C01", "title": "Diff/apply round trip", "statement": "If config data goes from an old value to a new value and the change set published with the new message is replayed on top of the old data (taking values from the new data), the result is exactly the new data: nothing lost, nothing extra.", "quantifier": "every pair of well-formed, pruned config data trees (any nesting, any mix of ints, strings, sets and dicts, including type changes)", "why_tests_cant": "data trees and edits are unbounded; tests compare a handful of fixed documents", "anchors": ["src/config.cpp: diff_impl, apply_diff", "src/config.cpp: MutableConfigMessage::diff"]}
{"id": "C02", "title": "A diff is empty exactly when nothing changed", "statement": "The published change set of a message is empty if and only if the (pruned) data equals the data it started from.", "quantifier": "every pair of well-formed pruned data trees", "why_tests_cant": "unbounded trees", "anchors": ["src/config.cpp: diff_impl"]}
{"id": "C03", "title": "Replaying a change set only touches the fields it names", "statement": "When a change set is replayed onto any data, every top-level field (and, recursively, every nested field) not named by the change set keeps its value.", "quantifier": "every target data tree, every change set, every source data tree", "why_tests_cant": "three unbounded independent inputs", "anchors": ["src/config.cpp: apply_diff"]}
{"id": "C04", "title": "Pruning removes exactly the empty containers", "statement": "Pruning leaves no empty set or dict below the top level, never changes a scalar or a set element, is idempotent, and reports 'changed' exactly when the data changed.", "quantifier": "every data tree", "why_tests_cant": "unbounded nesting depth", "anchors": ["src/config.cpp: prune_, MutableConfigMessage::prune"]}
{"id": "C05", "title": "Computing the change set never dereferences an empty optional", "statement": "Along any history of edits, increments, serialisations, loads and merges, computing the change set of a message never reaches the undefined dereference of an absent sub-diff.", "quantifier": "every reachable mutable message and every edit history", "why_tests_cant": "the undefined branch needs an unpruned base document; tests cannot show it is unreachable from every history", "anchors": ["src/config.cpp: diff_impl, increment_impl, MutableConfigMessage::diff"]}
{"id": "C06", "title": "Encoded config data decodes to itself", "statement": "Encoding any well-formed, pruned config data tree and decoding the bytes gives back the same tree; so two different data trees never have the same encoding.", "quantifier": "every well-formed pruned data tree with 64-bit integers", "why_tests_cant": "unbounded trees and byte strings", "anchors": ["src/config.cpp: serialize_data, parse_data"]}
{"id": "C07", "title": "Config message serialise/parse round trip", "statement": "Serialising a config message and parsing the bytes yields the same seqno, data, change set, unknown fields and in-window lagged change sets, and serialising that parsed message gives the identical bytes.", "quantifier": "every well-formed message, with or without signature", "why_tests_cant": "unbounded message content", "anchors": ["src/config.cpp: ConfigMessage::serialize_impl, ConfigMessage parse constructor"]}
{"id": "C08", "title": "The parser accepts only canonical data", "statement": "Whatever bytes are received, if parsing succeeds then the resulting data has strictly sorted unique keys, strictly sorted unique sets, no empty nested container and only 64-bit integers and strings; lagged change sets are strictly sorted, older than the message and inside the lag window.", "quantifier": "every byte string", "why_tests_cant": "byte strings are unbounded and adversarial", "anchors": ["src/config.cpp: parse_data, parse_lagged_diffs, ConfigMessage parse constructor"]}
{"id": "C09", "title": "Unknown top-level fields survive edit and re-serialisation", "statement": "Top-level fields a client does not understand are kept when a message is loaded, incremented, edited and serialised again.", "quantifier": "every message with unknown fields, every edit", "why_tests_cant": "future fields are by definition unknown to tests", "anchors": ["src/config.cpp: serialize_impl", "src/config/internal.cpp: load_unknowns, append_unknown"]}
{"id": "C10", "title": "Unknown top-level fields survive conflict merging", "statement": "When conflicting messages are merged, the unknown top-level fields carried by the inputs are preserved in the merged message (the class comment says they are preserved).", "quantifier": "every set of conflicting messages with unknown fields", "why_tests_cant": "needs a multi-client history with a newer client", "anchors": ["src/config.cpp: ConfigMessage merge constructor", "include/session/config.hpp: unknown_"]}
{"id": "C11", "title": "With a verifier, only validly signed messages are accepted", "statement": "If a message is parsed with a verifier and accepted, it ends in a 64-byte signature field that the verifier accepted over exactly the bytes preceding that field, and no field follows it.", "quantifier": "every byte string, every verifier", "why_tests_cant": "adversarial byte strings", "anchors": ["src/config.cpp: verify_config_sig, ConfigMessage parse constructor"]}
{"id": "C12", "title": "A message signed on serialisation verifies on receipt", "statement": "A message serialised with a signer parses successfully under a verifier that accepts that signer's signatures, and the signature covers everything except itself.", "quantifier": "every well-formed message, every matching signer/verifier pair", "why_tests_cant": "unbounded message content", "anchors": ["src/config.cpp: serialize_impl, verify_config_sig"]}
{"id": "C13", "title": "Merging does not depend on the order messages arrive", "statement": "Merging the same messages in any order gives a config with the same seqno, data, lagged change sets and serialisation.", "quantifier": "every list of messages and every permutation of it (messages with distinct bytes having distinct hashes)", "why_tests_cant": "factorially many orders of unbounded lists", "anchors": ["src/config.cpp: ConfigMessage merge constructor"]}
{"id": "C14", "title": "A message that already includes all others is adopted unchanged", "statement": "If exactly one current message remains after dropping stale, included and duplicate ones, the merge result is that message, bit for bit, with its index reported.", "quantifier": "every list of messages", "why_tests_cant": "unbounded lists", "anchors": ["src/config.cpp: ConfigMessage merge constructor, unmerged_index"]}
{"id": "C15", "title": "A conflict resolution supersedes its inputs", "statement": "When a merge had to resolve a conflict, the result's seqno is one more than the largest input seqno, and merging the published result again with any of the inputs gives the result back unchanged (conflicts are resolved once).", "quantifier": "every list of conflicting messages, every sublist re-delivered later in any order", "why_tests_cant": "needs unbounded multi-client histories", "anchors": ["src/config.cpp: ConfigMessage merge constructor"]}
{"id": "C16", "title": "Stale messages have no effect", "statement": "A message whose seqno is lag or more behind the highest seqno does not influence the result of a merge.", "quantifier": "every list of messages, every stale message, every lag", "why_tests_cant": "unbounded lists", "anchors": ["src/config.cpp: ConfigMessage merge constructor (seqno + lag <= max_seqno)"]}
{"id": "C17", "title": "Duplicate deliveries have no effect", "statement": "Delivering a message more than once gives the same merge result as delivering it once.", "quantifier": "every list of messages and any repetition", "why_tests_cant": "unbounded lists", "anchors": ["src/config.cpp: ConfigMessage merge constructor"]}
{"id": "C18", "title": "Unparseable messages are ignored", "statement": "A message that cannot be parsed or fails verification does not change the result of merging the others and cannot make the merge fail while a valid message is present.", "quantifier": "every list mixing valid and invalid byte strings", "why_tests_cant": "adversarial byte strings", "anchors": ["src/config.cpp: ConfigMessage merge constructor, load_diff, apply_diff", "src/config/base.cpp: ConfigBase::_merge"]}
{"id": "C19", "title": "A client that cannot sign follows the highest message", "statement": "With a verifier but no signer, merging never creates new content: the result is always one of the input messages, the highest (seqno, hash) among the non-redundant ones.", "quantifier": "every list of messages", "why_tests_cant": "unbounded lists", "anchors": ["src/config.cpp: ConfigMessage merge constructor"]}
{"id": "C20", "title": "The highest-ranked change wins and no independent change is lost", "statement": "In a conflict merge, a scalar field set by several messages ends with the value from the highest (seqno, hash) message that changed it; a field changed by only one message ends with that message's value.", "quantifier": "every set of conflicting messages and every field", "why_tests_cant": "all combinations of concurrent edits", "anchors": ["src/config.cpp: ConfigMessage merge constructor, apply_diff"]}
{"id": "C21", "title": "Parsing always terminates", "statement": "Parsing a received message terminates for every input.", "quantifier": "every byte string", "why_tests_cant": "non-termination on a crafted input is exactly what samples miss", "anchors": ["src/config.cpp: load_diff"]}
{"id": "C22", "title": "Sequence arithmetic never overflows", "statement": "Merging messages with any parseable seqno never overflows the 64-bit sequence arithmetic.", "quantifier": "every list of messages with 64-bit seqnos", "why_tests_cant": "needs extreme values in the right slot", "anchors": ["src/config.cpp: ConfigMessage merge constructor"]}
{"id": "C23", "title": "A read-only config never has changes", "statement": "A config that can verify but not sign never becomes dirty and never needs a push; every attempt to modify it throws and leaves it unchanged.", "quantifier": "every sequence of operations on a read-only config", "why_tests_cant": "unbounded histories", "anchors": ["src/config/base.cpp: set_state, dirty, _merge, push"]}
{"id": "C24", "title": "Push/confirm protocol", "statement": "needs_push is true from the moment of a change until a confirm_pushed carrying the seqno of the latest pushed data; a confirmation for any other seqno, or when nothing is awaiting confirmation, changes nothing; a change made after push makes the pending confirmation a no-op.", "quantifier": "every interleaving of edits, pushes, merges and confirmations", "why_tests_cant": "all interleavings", "anchors": ["src/config/base.cpp: push, confirm_pushed, needs_push, dirty"]}
{"id": "C25", "title": "The sequence number never goes backwards", "statement": "Over any history of edits, merges, pushes, confirmations, dumps and restores the seqno never decreases, and any edit made while not dirty strictly increases it.", "quantifier": "every operation history", "why_tests_cant": "unbounded histories", "anchors": ["src/config/base.cpp: dirty, _merge, init_from_dump"]}
{"id": "C26", "title": "A current hash exists only while clean", "statement": "current_hashes() is non-empty only in the clean state.", "quantifier": "every operation history", "why_tests_cant": "unbounded histories", "anchors": ["src/config/base.cpp: set_state, confirm_pushed, _merge"]}
{"id": "C27", "title": "Obsolete hashes never include the live message", "statement": "The hashes push() asks the client to delete never include the hash of the message that is currently live.", "quantifier": "every operation history", "why_tests_cant": "needs a history in which the live message is re-delivered", "anchors": ["src/config/base.cpp: push, _merge"]}
{"id": "C28", "title": "Dump and restore", "statement": "Restoring from a dump gives a config with the same data, state, current hash, obsolete hashes and seqno (one higher if the dump was dirty).", "quantifier": "every reachable state", "why_tests_cant": "unbounded state", "anchors": ["src/config/base.cpp: make_dump, init_from_dump"]}
{"id": "C29", "title": "Restart does not change message identity", "statement": "After a dump and restore, the next edit produces the same message as it would have without the restart.", "quantifier": "every reachable clean or awaiting state, with and without signing keys", "why_tests_cant": "needs comparison of two histories", "anchors": ["src/config/base.cpp: make_dump, init_from_dump", "src/config.cpp: increment_impl"]}
{"id": "C30", "title": "needs_dump tells when a dump would differ", "statement": "If needs_dump() is false then a dump taken now equals the last dump taken.", "quantifier": "every operation history", "why_tests_cant": "unbounded histories", "anchors": ["src/config/base.cpp: _merge, push, needs_dump"]}
{"id": "C31", "title": "Encryption key list", "statement": "The key list never contains duplicates; adding with high priority puts the key first and keeps the relative order of the others; low priority never changes the first key; remove/replace/clear do what they say and re-dirty only when the encrypting key changes.", "quantifier": "every sequence of key operations", "why_tests_cant": "unbounded sequences", "anchors": ["src/config/base.cpp: add_key, remove_key, replace_keys, clear_keys, has_key"]}
{"id": "C32", "title": "Assigning the current value does not dirty", "statement": "Assigning a field its existing value (or an empty container to a missing field, or inserting an element already present, or erasing an element that is not there) leaves a clean config clean with the same seqno.", "quantifier": "every state, path and value", "why_tests_cant": "all states and paths", "anchors": ["include/session/config/base.hpp: assign_if_changed, insert_if_missing, set_erase_impl, erase"]}
{"id": "C33", "title": "Field access behaves like a map", "statement": "After assigning a path, reading it gives the value; every path not passing through it is unchanged; erasing makes it unreadable and changes nothing else.", "quantifier": "every state, path and value", "why_tests_cant": "all states and paths", "anchors": ["include/session/config/base.hpp: DictFieldProxy"]}
{"id": "C34", "title": "Config encryption round trip and length", "statement": "decrypt(encrypt(m,k,d),k,d)=m for every message; ciphertext is exactly 40 bytes longer; equal inputs give equal ciphertexts; inputs shorter than the overhead are rejected, not misread.", "quantifier": "every message, 32-byte key and domain", "why_tests_cant": "unbounded messages", "anchors": ["src/config/encrypt.cpp: encrypt_inplace, decrypt_inplace"]}
{"id": "C35", "title": "Padding reaches the bucket size and is removable", "statement": "Padding a message only prepends NULs, brings message plus overhead to a whole number of buckets, adds less than one bucket, and the receiver strips exactly the padding of any message that starts with a non-NUL byte.", "quantifier": "every message length", "why_tests_cant": "all lengths including bucket boundaries", "anchors": ["include/session/config/encrypt.hpp: padded_size", "src/config/encrypt.cpp: pad_message", "src/config/base.cpp: _merge (prefix removal)"]}
{"id": "C36", "title": "Push then merge transfers the data", "statement": "If a client pushes and another client holding the key (with no conflicting changes) merges the pushed message, it ends clean with exactly the pusher's data, seqno and the message's hash as current hash, and reports the hash as accepted.", "quantifier": "every reachable pusher state and every receiver whose own message is empty or included in the pushed one", "why_tests_cant": "unbounded state", "anchors": ["src/config/base.cpp: push, merge, _merge"]}
{"id": "C37", "title": "Two clients that receive the same conflicting messages converge", "statement": "Two non-dirty clients in the same state that merge the same set of messages in different orders have equal data, seqno and serialisation afterwards.", "quantifier": "every state, message set and order", "why_tests_cant": "all orders", "anchors": ["src/config/base.cpp: _merge", "src/config.cpp: merge constructor"]}
{"id": "C38", "title": "Group key list stays ordered and duplicate free", "statement": "Whatever key messages are loaded and in whatever order, the group's key list is strictly ordered by (generation, timestamp, key) with no key entry twice, and the encryption key is the pending key if any, else the last one.", "quantifier": "every sequence of key insertions, expiries, rekeys and loads", "why_tests_cant": "unbounded histories", "anchors": ["src/config/groups/keys.cpp: insert_key, group_keys, group_enc_key"]}
{"id": "C39", "title": "Key expiry keeps what is needed", "statement": "Expiry never removes the newest key, only removes a key when a later key is older than the expiry time, and afterwards the hash list contains no generation older than the oldest kept key and never loses a kept generation's hashes.", "quantifier": "every key list and hash table", "why_tests_cant": "all boundary combinations of timestamps", "anchors": ["src/config/groups/keys.cpp: remove_expired"]}
{"id": "C40", "title": "Loading key messages in any order gives the same keys", "statement": "Inserting the same set of keys (with expiry applied as the code does) in any order gives the same key list.", "quantifier": "every set of keys and every order", "why_tests_cant": "factorially many orders", "anchors": ["src/config/groups/keys.cpp: insert_key, remove_expired"]}
{"id": "C41", "title": "Group keys dump and restore", "statement": "Restoring a dumped Keys object gives the same keys, hashes and pending key.", "quantifier": "every reachable Keys state", "why_tests_cant": "unbounded state", "anchors": ["src/config/groups/keys.cpp: make_dump, load_dump"]}
{"id": "C42", "title": "needs_rekey detects generation collisions", "statement": "needs_rekey() is true exactly when the two newest keys share a generation.", "quantifier": "every key list", "why_tests_cant": "all lists", "anchors": ["src/config/groups/keys.cpp: needs_rekey"]}
{"id": "C43", "title": "Key dump flag", "statement": "If Keys::needs_dump() is false then a dump taken now equals the last dump.", "quantifier": "every history of Keys operations", "why_tests_cant": "unbounded histories", "anchors": ["src/config/groups/keys.cpp: insert_key, needs_dump, dump"]}
{"id": "C44", "title": "Rekey hides the member count", "statement": "The number of encrypted key entries in a rekey message is a positive multiple of 75 and less than 75 more than needed, and every current member's entry is included.", "quantifier": "every member list", "why_tests_cant": "all sizes including multiples of 75", "anchors": ["src/config/groups/keys.cpp: rekey"]}
{"id": "C45", "title": "Group message encryption round trip", "statement": "decrypt_message(encrypt_message(m)) returns m and the sender's session id for every plaintext the encrypter accepts, using any key still in the list.", "quantifier": "every plaintext, padding value, compression choice and key list", "why_tests_cant": "unbounded plaintexts", "anchors": ["src/config/groups/keys.cpp: encrypt_message, decrypt_message"]}
{"id": "C46", "title": "Subaccount tokens verify only for the flags they were made with or fewer", "statement": "A subaccount token made with given write/delete flags verifies exactly when the required flags are a subset.", "quantifier": "every flag combination", "why_tests_cant": "finite but stated for all token values", "anchors": ["src/config/groups/keys.cpp: subaccount flags, swarm_verify_subaccount"]}
{"id": "C47", "title": "Community URL canonicalisation", "statement": "Canonicalising a URL is idempotent; a full URL built from (base, room, pubkey) parses back to the canonical base, the room and the pubkey; default ports are dropped; two URLs that differ only in case, trailing slash or explicit default port canonicalise the same.", "quantifier": "every URL string", "why_tests_cant": "unbounded strings", "anchors": ["src/config/community.cpp: parse_url, canonical_url, parse_full_url, full_url"]}
{"id": "C48", "title": "Contact record round trip", "statement": "Storing a contact and reading it back gives the same record (fields normalised as documented); storing another contact does not affect it; erasing removes exactly it.", "quantifier": "every contact record and store state", "why_tests_cant": "unbounded records", "anchors": ["src/config/contacts.cpp: set, get, erase, contact_info::load"]}
{"id": "C49", "title": "C-API contact round trip preserves every field", "statement": "Reading a contact through the C API, and writing the same struct back, changes nothing.", "quantifier": "every stored contact", "why_tests_cant": "every field must be covered", "anchors": ["src/config/contacts.cpp: into, contact_info(const contacts_contact&)"]}
{"id": "C50", "title": "Copying strings into C buffers stays in bounds", "statement": "Copying any string into a fixed-size C buffer writes only inside the buffer and NUL-terminates it.", "quantifier": "every string length and buffer size", "why_tests_cant": "the overflowing length is one specific relation", "anchors": ["src/config/internal.hpp: copy_c_str"]}
{"id": "C51", "title": "User profile round trip", "statement": "Name, picture, note-to-self priority/expiry and blinded-message-request settings read back as last set; clearing a field removes it.", "quantifier": "every sequence of profile operations", "why_tests_cant": "unbounded histories", "anchors": ["src/config/user_profile.cpp"]}
{"id": "C52", "title": "User group record round trip", "statement": "Storing a community, legacy group or group and reading it back gives the same record; the three kinds never interfere; sizes equal the number of records.", "quantifier": "every record and store state", "why_tests_cant": "unbounded records", "anchors": ["src/config/user_groups.cpp"]}
{"id": "C53", "title": "Conversation volatile state", "statement": "set/get round trip per kind; last_read/unread kept; stale entries (older than the prune window and not unread) are not stored and are removed on push; anything newer is kept.", "quantifier": "every entry, clock value and store state", "why_tests_cant": "all boundary timestamps", "anchors": ["src/config/convo_info_volatile.cpp"]}
{"id": "C54", "title": "Group member record round trip", "statement": "Storing a member and reading it back gives the same record for every record reachable through the setters; invite/promotion/removal statuses follow the documented state machine.", "quantifier": "every member record", "why_tests_cant": "all status combinations", "anchors": ["src/config/groups/members.cpp"]}
{"id": "C55", "title": "Group info fields", "statement": "Name, description (truncated as documented), picture, expiry, created, delete-before and destroyed flags read back as last set, and setting one does not affect the others.", "quantifier": "every sequence of info operations", "why_tests_cant": "unbounded histories", "anchors": ["src/config/groups/info.cpp"]}
{"id": "C56", "title": "Sorted list/dict merging helper", "statement": "Merging two bt lists or dicts gives the union with the documented precedence, sorted, for every input.", "quantifier": "every pair of dicts/lists", "why_tests_cant": "unbounded inputs", "anchors": ["src/bt_merge.cpp", "include/session/bt_merge.hpp"]}
{"id": "C57", "title": "Session protocol padding round trip", "statement": "Unwrapping a wrapped message removes exactly the padding that was added, for every payload including ones that end in zeros or 0x80.", "quantifier": "every payload", "why_tests_cant": "all trailing-byte patterns", "anchors": ["src/config/protos.cpp: wrap_config, unwrap_config", "src/session_encrypt.cpp"]}
{"id": "C58", "title": "Session id and public key decoding", "statement": "A session id is accepted exactly when it is 66 hex digits starting with 05; encoded pubkeys are accepted in exactly the documented encodings and decode to 32 bytes.", "quantifier": "every string", "why_tests_cant": "unbounded strings", "anchors": ["src/config/internal.cpp: check_session_id, session_id_to_bytes, decode_pubkey"]}
{"id": "C59", "title": "Iterating a collection visits each valid record exactly once", "statement": "Iterating contacts, members, groups, communities or conversations visits every valid stored record exactly once, in order, skips invalid ones and always terminates.", "quantifier": "every stored data tree, including data written by other clients", "why_tests_cant": "adversarial stored data", "anchors": ["src/config/contacts.cpp: iterator", "src/config/user_groups.cpp: iterator", "src/config/convo_info_volatile.cpp: iterator", "src/config/groups/members.cpp: iterator"]}
{"id": "C60", "title": "Multi-recipient encryption", "statement": "Every intended recipient can decrypt its copy, the number of copies is padded as requested, and padding copies are the same size as real ones.", "quantifier": "every recipient list and message list", "why_tests_cant": "unbounded lists", "anchors": ["src/multi_encrypt.cpp"]}
{"id": "C61", "title": "One accepted message per signature", "statement": "A party that holds no signing key cannot turn a validly signed message into a different byte string that is still accepted: every byte of an accepted message is covered by the signature or is the signature.", "quantifier": "every byte string, every verifier", "why_tests_cant": "adversarial byte strings", "anchors": ["src/config.cpp: ConfigMessage parse constructor, verify_config_sig"]}
{"id": "C62", "title": "Resolving a conflict without own changes publishes no changes of its own", "statement": "When a client that had no unsaved changes resolves a conflict and publishes the result, the published change set is empty (as the merge documentation says), so the resolution itself never overrides somebody's concurrent change.", "quantifier": "every clean client and every set of conflicting messages", "why_tests_cant": "needs a three-client history", "anchors": ["src/config.cpp: MutableConfigMessage retain_seqno constructor, diff", "docs/config-merge-logic.md"]}
{"id": "C63", "title": "Config encryption key derivation separates keys, sizes and domains", "statement": "The key under which a message is encrypted differs whenever the base key, the message size or the encryption domain differs (up to collisions of the hash), so a message of one config type or size can never be decrypted as another.", "quantifier": "every pair of keys, sizes and domains", "why_tests_cant": "all pairs", "anchors": ["src/config/encrypt.cpp: make_encrypt_key"]}
{"id": "C64", "title": "Only the group's signed key messages have an effect", "statement": "A key message changes a Keys object only if it carries a signature by the group's key over everything before the signature; everything else is refused without a trace.", "quantifier": "every byte string and every state", "why_tests_cant": "adversarial byte strings", "anchors": ["src/config/groups/keys.cpp: load_key_message"]}
{"id": "C65", "title": "A key supplement brings a new member level", "statement": "A new member that receives the administrator's supplement message ends up with exactly the administrator's keys (generations and timestamps included) and encrypts with the same key.", "quantifier": "every reachable administrator state and every new member in the list", "why_tests_cant": "unbounded key lists", "anchors": ["src/config/groups/keys.cpp: key_supplement, load_key_message"]}
{"id": "C66", "title": "Concurrent rekeys for the same members agree", "statement": "Two administrators that rekey for the same members from the same newest generation produce the identical message, key and generation.", "quantifier": "every pair of administrator states", "why_tests_cant": "needs comparison of two executions", "anchors": ["src/config/groups/keys.cpp: rekey"]}
{"id": "C67", "title": "Info and member configs follow the group keys", "statement": "After any sequence of operations on the group's three objects, the info and member configs hold exactly the keys of the Keys object and encrypt with its encryption key.", "quantifier": "every history of a group's objects", "why_tests_cant": "unbounded histories", "anchors": ["src/config/groups/keys.cpp: load_key_message, rekey, load_dump, load_admin_key", "src/config/base.cpp: replace_keys"]}
{"id": "C68", "title": "merge() reports exactly the messages it could use", "statement": "The hashes merge() returns as accepted are exactly those of the messages that some key opens, that decompress and that parse as a config message; messages that cannot be opened leave no trace.", "quantifier": "every batch of incoming messages and every state", "why_tests_cant": "adversarial batches in every order", "anchors": ["src/config/base.cpp: ConfigBase::merge, _merge"]}
{"id": "C69", "title": "Messages between accounts round trip", "statement": "What one account encrypts for another with encrypt_for_recipient or its deterministic variant, the recipient decrypts to the same message and to the sender's Ed25519 key (or session id); either key form and either way of writing the recipient works, and the ciphertext is the message plus 144 bytes. The same holds for recipients that only have X25519 keys.", "quantifier": "every pair of accounts, every message, every ephemeral key", "why_tests_cant": "all keys and messages", "anchors": ["src/session_encrypt.cpp: sign_for_recipient, encrypt_for_recipient, encrypt_for_recipient_deterministic, decrypt_incoming, decrypt_incoming_session_id"]}
{"id": "C70", "title": "Incoming messages are authentic", "statement": "A message is accepted only if the box opens for us and holds the message, the claimed sender's key and that key's valid signature over message, sender and recipient, and the session id reported is derived from that key; signatures made with either form of the secret key verify.", "quantifier": "every byte string, every account", "why_tests_cant": "adversarial byte strings", "anchors": ["src/session_encrypt.cpp: decrypt_incoming, decrypt_incoming_session_id", "src/ed25519.cpp: sign, verify"]}
{"id": "C71", "title": "Push notifications and ONS responses", "statement": "Decrypting a push notification gives the message without its zero padding and accepts nothing but what was sealed under the key; decrypting an ONS response gives the 33-byte session id in hex, only for the right name, nonce and size.", "quantifier": "every key, nonce, payload and name", "why_tests_cant": "all byte strings", "anchors": ["src/session_encrypt.cpp: decrypt_push_notification, decrypt_ons_response"]}
{"id": "C72", "title": "Everyone computes the same blinded id", "statement": "The blinded id of an account on a server is the same whether computed from the session id (raw or hex, with or without prefix), from the Ed25519 public key or from the secret key's blinded key pair; for 15-blinding the two candidates differ only in the sign bit and the key pair's is one of them; and session_id_matches_blinded_id accepts exactly such pairs, so no id belongs to two accounts on a server.", "quantifier": "every account, every server key, both blinding versions", "why_tests_cant": "all keys, including those with a negative public key", "anchors": ["src/blinding.cpp: blind15_id, blind25_id, blind15_key_pair, blind25_key_pair, blinded15_id_from_ed, blinded25_id_from_ed, session_id_matches_blinded_id"]}
{"id": "C73", "title": "Blinded signatures verify", "statement": "What blind15_sign or blind25_sign signs verifies, as an ordinary Ed25519 signature, under the public key of the account's blinded id on that server, with either form of the secret key and of the server key.", "quantifier": "every account, server and message", "why_tests_cant": "all keys and messages", "anchors": ["src/blinding.cpp: blind15_sign, blind25_sign"]}
{"id": "C74", "title": "Blinded messages round trip and name their sender", "statement": "What one account encrypts for another's blinded id decrypts, for the recipient and for the sender itself, to the same message and the sender's real session id; a message is accepted only if the sealed Ed25519 key belongs to the blinded sender id it came with.", "quantifier": "every pair of accounts, every server, both blinding versions, every message; for acceptance every byte string", "why_tests_cant": "all keys and messages, adversarial byte strings", "anchors": ["src/session_encrypt.cpp: blinded_shared_secret, encrypt_for_blinded_recipient, decrypt_from_blinded_recipient"]}
{"id": "C75", "title": "XEd25519 signatures verify", "statement": "A signature made with an X25519 secret key verifies under its X25519 public key, whatever the sign of the corresponding Ed25519 key, and the Ed25519 key computed from an X25519 key converts back to it.", "quantifier": "every X25519 key pair, every message, every random value", "why_tests_cant": "all keys and messages", "anchors": ["src/xed25519.cpp: sign, verify, pubkey"]}
{"id": "C76", "title": "Subaccounts can sign requests", "statement": "A member that signs a request with the value the group's administrator made for it presents the token the administrator knows and can revoke, the administrator's valid signature of it, and a signature of the request that verifies under the key in the token.", "quantifier": "every group, member, flag combination and request", "why_tests_cant": "all keys and messages, including negative public keys", "anchors": ["src/config/groups/keys.cpp: swarm_make_subaccount, swarm_subaccount_token, swarm_subaccount_sign"]}
{"id": "C77", "title": "Onion requests reach their destination", "statement": "After any calls on a request builder that name hops and a destination, the request it builds is opened by each hop in turn, which learns the next hop's key (or, for the last hop before a server, the URL) and the next layer; the destination opens the innermost layer with its own key and finds the payload.", "quantifier": "every history of builder calls, every list of hops of any length, every set of keys, both encryption types, every payload and all randomness", "why_tests_cant": "paths of any length, any payload and any order of calls", "anchors": ["src/onionreq/builder.cpp: Builder::build, encode_size", "src/onionreq/hop_encryption.cpp: HopEncryption", "include/session/onionreq/builder.hpp: set_snode_destination, set_server_destination, add_hop"]}
{"id": "C78", "title": "Replies to onion requests come back", "statement": "Whatever the destination answers through the parser of the request, the builder that made the request decrypts; what it accepts was encrypted with the key it shares with the destination; nothing is decrypted before a request was built.", "quantifier": "every request of C77 and every reply; for acceptance every byte string", "why_tests_cant": "all keys and replies, adversarial byte strings", "anchors": ["src/onionreq/response_parser.cpp: ResponseParser::decrypt", "src/onionreq/parser.cpp: OnionReqParser::encrypt_reply"]}
{"id": "C79", "title": "The onion request parser accepts exactly well-formed requests", "statement": "The parser of a node accepts exactly the inputs that consist of a size, a ciphertext of that size and JSON that names a known encryption type (or none) and an ephemeral key with which the ciphertext opens; it throws for all others, never reads outside its input, and an accepted request can always be answered.", "quantifier": "every byte string, every key pair, every size limit", "why_tests_cant": "adversarial byte strings", "anchors": ["src/onionreq/parser.cpp: OnionReqParser"]}
{"id": "C80", "title": "Onion request keys are read as they were written", "statement": "A 32-byte key is read back from its raw, hex, base64 and base32z forms; from_hex and from_bytes take exactly keys; the .snode address determines the key; and everything parse_*_pubkey does not recognise gives the null key.", "quantifier": "every byte string", "why_tests_cant": "all byte strings", "anchors": ["src/onionreq/key_types.cpp: parse_x25519_pubkey, parse_ed25519_pubkey, parse_legacy_pubkey, snode_address", "include/session/onionreq/key_types.hpp: from_hex, from_bytes"]}
{"id": "C81", "title": "Memory blocks handed to C callers are exact", "statement": "Every block the C interface allocates for its caller (the string lists of config_merge and config_current_hashes, config_push_data, config_get_keys) is as large as what is put into it, is written only inside, and a C caller reading it finds exactly what the C++ call returned: the same strings in order, the sequence number, the message byte for byte.", "quantifier": "every list of strings, every message and sequence number, every address and every previous content of the memory, every state of a config object over its life", "why_tests_cant": "all sizes and contents; an out-of-bounds write need not be visible in a test", "anchors": ["src/config/internal.hpp: make_string_list", "src/config/base.cpp: config_push, config_merge, config_current_hashes, config_get_keys"]}
{"id": "C82", "title": "Errors of C functions stay inside the error buffer", "statement": "When a C function on a config or keys object fails, it leaves a terminated message in the object's 256-byte error buffer and writes nothing after it; when it does not fail the buffer is as it was.", "quantifier": "every id a C caller can pass and every message", "why_tests_cant": "the overflowing length is one specific relation", "anchors": ["src/config/internal.hpp: set_error, copy_c_str", "src/config/groups/keys.cpp: set_error", "src/config/contacts.cpp, members.cpp, user_groups.cpp, convo_info_volatile.cpp: C getters"]}
{"id": "C83", "title": "Walking over and editing the members of a legacy group from C", "statement": "Walking over a legacy group's members with the C iterator visits each member once, in order, and erasing during the walk removes exactly the members erased; add, remove and count do what they say.", "quantifier": "every member list and every choice of members to erase", "why_tests_cant": "unbounded lists", "anchors": ["src/config/user_groups.cpp: ugroups_legacy_members_*"]}
{"id": "C84", "title": "C structs of groups and conversations round trip", "statement": "A group, legacy group, community or conversation written through the C interface is read back through it with every field as the C++ documentation says it is kept; a group marked as kicked reads as kicked and without keys.", "quantifier": "every struct, every config state", "why_tests_cant": "every field of every record", "anchors": ["src/config/user_groups.cpp: into, base_into, base_from, ugroups_*", "src/config/convo_info_volatile.cpp: into and constructors from C structs"]}
{"id": "C85", "title": "Community URLs through the C interface", "statement": "Parsing a community URL in C gives the same base URL, room and key as in C++, as terminated strings in buffers of the documented sizes, with nothing written beyond them and the old contents kept when parsing fails; a URL made by the C functions is read back to what it was made of.", "quantifier": "every URL a C caller can pass and every previous content of the buffers", "why_tests_cant": "all strings; an out-of-bounds write need not be visible in a test", "anchors": ["src/config/community.cpp: community_parse_full_url, community_parse_partial_url, community_make_full_url"]}
{"id": "C86", "title": "C functions return what the C++ functions return", "statement": "Each C function of the encryption, signing, blinding, hashing, group-keys and onion-request interfaces returns true exactly when the C++ function returns, and then writes exactly its results at the front of the caller's buffers, in the documented sizes, and nothing else; otherwise it returns false and leaves the buffers alone; no exception escapes.", "quantifier": "every input, every previous content of the buffers", "why_tests_cant": "all inputs; an out-of-bounds write need not be visible in a test", "anchors": ["src/session_encrypt.cpp, blinding.cpp, ed25519.cpp, curve25519.cpp, xed25519.cpp, hash.cpp, multi_encrypt.cpp: C functions", "src/config/groups/keys.cpp: groups_keys_*", "src/onionreq/builder.cpp, response_parser.cpp: C functions"]}
{"id": "C87", "title": "No exception escapes a C function", "statement": "A C function that has no error to report returns, on a config that can be edited; a function that refuses its argument reports it by its result and changes nothing; nothing is thrown through a C caller.", "quantifier": "every argument, every reachable config, every batch of incoming messages", "why_tests_cant": "requires every way a C++ exception can arise in any state to be followed through the wrapper", "anchors": ["src/config/base.cpp: config_merge, config_push, LIBSESSION_EC_API functions", "src/config/user_profile.cpp", "src/config/groups/info.cpp", "src/config/contacts.cpp: contacts_set", "src/config/groups/members.cpp: groups_members_set", "src/config/user_groups.cpp", "src/config/convo_info_volatile.cpp", "src/onionreq/builder.cpp", "src/config/groups/keys.cpp: groups_keys_swarm_verify_subaccount"]}
{"id": "C88", "title": "User profile and group info through the C interface", "statement": "After any sequence of C setter calls on a config that can be edited, the C getters of the user profile and of the group info return exactly the values last set (strings up to their terminator, cut at the documented lengths, pictures in the caller's struct).", "quantifier": "every sequence of setter calls, every starting state", "why_tests_cant": "unbounded sequences over unbounded states", "anchors": ["src/config/user_profile.cpp: user_profile_*", "src/config/groups/info.cpp: groups_info_*"]}
{"id": "C89", "title": "Iterators visit each stored record once", "statement": "Stepping through contacts, group members, groups or conversations with the iterators, in C++ or in C, visits exactly the records the getters find, of the wanted kinds, each once and in order; the walk ends, by done() and by comparison with end() at the same point, and at each position exactly one C is-a function recognises the record and fills the struct the C getter would fill.", "quantifier": "every reachable config and every choice of kinds", "why_tests_cant": "every stored tree", "anchors": ["src/config/contacts.cpp: iterator", "src/config/groups/members.cpp: iterator", "src/config/user_groups.cpp: iterator", "src/config/convo_info_volatile.cpp: iterator", "include/session/config/community.hpp: comm_iterator_helper"]}
{"id": "C90", "title": "Signing keys, and readers that become writers", "statement": "After any sequence of calls that set or clear signing keys, messages are checked with the public key and signed with the secret key set last; keys of the wrong size are refused without effect.  A client that could only read and is given the secret key (load_admin_key) keeps its state, can then be edited, and what it pushes is accepted by every other client, which ends with its data.  An object accepts what it signs itself.", "quantifier": "every sequence of key calls, every reachable reader and every sequence of edits after the promotion", "why_tests_cant": "unbounded histories and all keys", "anchors": ["src/config/base.cpp: set_sig_keys, set_sig_pubkey, clear_sig_keys, init_sig_keys, seed_hash", "src/config/groups/keys.cpp: load_admin_key"]}
{"id": "C91", "title": "One exchange brings all devices of an account together", "statement": "Any number of devices that can write, each with any edits of its own, push what they have and merge what the others pushed: every merge succeeds and all devices hold the same config (data, change record, hash); a second exchange changes no data and leaves no device with anything to push.  Two devices that merge the same set of messages, in any order and with any own state among them, hold the same config.", "quantifier": "every number of devices, every reachable state of each, every order of the messages", "why_tests_cant": "histories of several devices with unbounded states and orders", "anchors": ["src/config/base.cpp: push, merge, _merge, confirm_pushed", "src/config.cpp: ConfigMessage::ConfigMessage (merging)"]}
{"id": "C92", "title": "Merging valid messages succeeds", "statement": "A merge whose messages are each either of the form the library writes or rejected as invalid returns, unless a seqno is at the end of the 64-bit range; what such a client publishes is again of this form.", "quantifier": "every reachable state and every batch of messages", "why_tests_cant": "every combination of conflicting change records", "anchors": ["src/config.cpp: ConfigMessage::ConfigMessage (merging), load_diff, apply_diff", "src/config/base.cpp: _merge"]}
{"id": "C93", "title": "Opening a config", "statement": "A user's config is made from the account's secret key or seed, and a group's from its public key and, for administrators, the matching secret key; other keys are refused; a dump made earlier brings everything back.  All devices of an account have the same one key, however they were opened and restarted, so they understand each other without further assumptions.  In C the call stores the object and returns 0 exactly if the C++ constructor returns it, and otherwise reports the error inside of the caller's 256-byte buffer and stores nothing; the C key functions change and show the key list as documented.", "quantifier": "every key, every dump (also malformed ones), every history of a device, every sequence of key calls", "why_tests_cant": "all byte strings as dumps, unbounded histories", "anchors": ["src/config/base.cpp: ConfigBase::ConfigBase, init_from_dump, load_key, config_add_key, config_remove_key, config_free", "src/config/internal.hpp: c_wrapper_init, c_group_wrapper_init", "src/config/contacts.cpp, user_groups.cpp, user_profile.cpp, convo_info_volatile.cpp, groups/info.cpp, groups/members.cpp: constructors"]}
{"id": "C94", "title": "A group's keys and configs work together", "statement": "On every device of a group the Keys object and the info and member configs always have the same signing key and the same encryption keys, through opening, loading key messages, rekeying, promotion, use of the configs, and closing and reopening.  After a rekey both configs have the new key and, unless they had it already, are waiting to be pushed with a higher seqno.  A member that the member config lists loads the rekey message and then reads whatever the administrator pushes next; a newly invited member that loads the supplement reads what was pushed before.  A member given the right secret key can sign with all three objects, another key is refused without effect.  Opening a Keys object (also from C) either succeeds or leaves the configs as they were.", "quantifier": "every history of the devices, every dump, key message and config content, every member list", "why_tests_cant": "unbounded histories of three objects on two devices", "anchors": ["src/config/groups/keys.cpp: Keys::Keys, rekey, key_supplement, load_key_message, load_admin_key, groups_keys_init", "src/config/base.cpp: replace_keys, set_sig_keys", "src/config/groups/info.cpp, members.cpp: constructors"]}
{"id": "C95", "title": "Concurrent changes are merged field by field", "statement": "Devices of an account that are in step each make any edits, push, fetch what the others pushed and merge.  Then every field has, on every device, a value some device had before the exchange: a value all agree on stays.  If some devices changed the field, the result is the value of one of those, provided no other device removed the dict the field lives in; in particular a field or record (such as a contact) that only one device edited, added or erased ends up everywhere as on that device, and changes to different fields all survive.  The devices are in step again, at once or after one more exchange, so this holds round after round.  (Without the proviso it fails: a contact added on one device is lost when another device meanwhile erases the last contact.)", "quantifier": "every number of devices, all edits, all fields, all histories, any delivery order and duplication", "why_tests_cant": "the outcome depends on the hashes of the messages, and the rounds and histories are unbounded", "anchors": ["src/config.cpp: apply_diff, diff_impl, ConfigMessage::ConfigMessage (merging), MutableConfigMessage::increment", "src/config/base.cpp: ConfigBase::push, merge, _merge"]}
{"id": "C96", "title": "Concurrent changes to sets are merged element by element", "statement": "Devices of an account that are in step each add elements to a stored set (the members of a legacy group, say) and remove some, push, fetch what the others pushed and merge.  Then, on every device, the set is the old one with everything any device added and without everything any device removed; an element nobody touched is neither lost nor brought back, now or in any later round.  The devices are then in step again, after at most one more exchange, which changes nothing.", "quantifier": "every number of devices, every history, every set and every sequence of edits on each device, every element", "why_tests_cant": "unbounded histories of several devices; lost or returning elements show only for particular message hashes and histories", "anchors": ["src/config.cpp: apply_diff, diff_impl, MutableConfigMessage::MutableConfigMessage, MutableConfigMessage::increment_impl", "src/config/base.cpp: _merge, push"]}
{"id": "C97", "title": "Devices come together under every schedule", "statement": "Start with new devices of one account and let anything happen, in any order: edits, pushes that are confirmed or not, merges of any subset of what was ever pushed (late, repeated, reordered, mixed with rubbish), dumps, and crashes after which a device comes back with a dump of any state it was once in.  At every point every edit, dump, restart and merge succeeds; and if then every device pushes and fetches the same messages, all hold the same config.  For configs without signatures that is the end: no delivery of old messages, in any order and number, changes any device's content again or leaves it with something to push.", "quantifier": "every number of devices, every schedule of calls, deliveries and crashes of any length", "why_tests_cant": "unbounded schedules of several devices", "anchors": ["src/config/base.cpp: push, confirm_pushed, _merge, dump, ConfigBase::ConfigBase", "src/config.cpp: ConfigMessage::ConfigMessage (merging)"]}
{"id": "C98", "title": "No schedule invents content", "statement": "Whatever value or set element any device holds at any time, one of the edits that were made wrote it, at that place: merging, conflicts, crashes and restarts never make up content or move it elsewhere.", "quantifier": "every number of devices, every schedule, every path, value and element", "why_tests_cant": "unbounded schedules of several devices", "anchors": ["src/config.cpp: ConfigMessage::ConfigMessage (merging), apply_diff, diff_impl"]}
{"id": "C99", "title": "Histories are transitive, so conflicts are resolved once", "statement": "Under every schedule, a published message that includes another also includes everything recent enough that the other one includes; so once a conflict among published messages was resolved, everyone who gets the published resolution with any of those messages adopts it as it is.", "quantifier": "every number of devices, every schedule, every set of published messages", "why_tests_cant": "unbounded schedules of several devices", "anchors": ["src/config.cpp: MutableConfigMessage::increment_impl, ConfigMessage::ConfigMessage (merging)"]}
{"id": "C100", "title": "An edit nobody contradicts survives", "statement": "An edit that no other device contradicts is never undone by synchronising: whatever is pushed, fetched, re-delivered or lost in crashes, the device that made it keeps showing it, every other device shows at all times exactly some version the editing device had, and one fetch of the editing device's latest message brings another device to it.", "quantifier": "every number of devices, every schedule of calls, deliveries, saves and crashes, every fetch", "why_tests_cant": "unbounded schedules of several devices; no finite set of test histories covers them", "anchors": ["src/config.cpp: ConfigMessage::ConfigMessage (merging), MutableConfigMessage::increment_impl", "include/session/config.hpp: MutableConfigMessage (orig_data_)", "src/config/base.cpp: _merge, push, dump, dirty"]}
{"id": "C101", "title": "Devices that take turns act as one config", "statement": "When a device edits only while it has the newest version and no other device has edits left to push, all devices together behave like one config: the device whose turn it is shows exactly what a single config shows in which every edit of every device was made in order, every other device shows at all times the edits up to some point, and pushing, or fetching the newest message, passes the turn on.", "quantifier": "every number of devices, every schedule of edits in turn, pushes, deliveries, saves and crashes, every fetch", "why_tests_cant": "unbounded schedules of several devices; no finite set of test histories covers them", "anchors": ["src/config.cpp: ConfigMessage::ConfigMessage (merging), MutableConfigMessage::increment_impl", "src/config/base.cpp: _merge, push, dump, dirty"]}
{"id": "C102", "title": "Group members who can only read follow the administrators", "statement": "A member of a group without the signing key shows, at all times, either nothing or exactly what some administrator's config said at a push the member has fetched, with that push's version number, and no message it has fetched is newer; it never has anything to push.  Fetches succeed, a member that fetches the newest message shows it whatever else it fetched and in whatever order, and members that have fetched everything show the same.", "quantifier": "every number of administrators, every schedule of theirs, every member's history of fetches, calls, crashes and restarts", "why_tests_cant": "unbounded schedules; a reader resolves conflicts by another rule than a writer", "anchors": ["src/config.cpp: ConfigMessage::ConfigMessage (merging, 632-648)", "src/config/base.cpp: ConfigBase::_merge, set_state, dump, make_dump, push", "include/session/config/base.hpp: is_readonly"]}
{"id": "C103", "title": "Saved records survive publishing", "statement": "Whatever contacts, group members, groups, legacy groups and communities were saved, changed and erased: pushing the config, closing and reopening it from a dump, and fetching it on another device leave every record as it was, even one whose fields all have their default values; the profile and a group's info are kept as well, and iterating gives the same records.", "quantifier": "every sequence of commands, every reachable state with nothing unsaved, every push, dump and fetch", "why_tests_cant": "all records, including those with nothing in them, which the pruning of empty containers would drop if one field were not always written", "anchors": ["src/config.cpp: prune_", "src/config/contacts.cpp: Contacts::set", "src/config/groups/members.cpp: Members::set", "src/config/user_groups.cpp: UserGroups::set", "include/session/config/base.hpp: MutableConfigMessage::prune"]}
{"id": "C104", "title": "Arrays for secrets hold what was put in, once", "statement": "In any program that makes sodium_arrays, moves them, loads, resets and writes them and ends them, also when memory runs out in between, each array shows exactly the bytes last put into it (zeros where nothing was written), no two arrays share memory, nothing is freed twice or used after it was freed, and nothing stays allocated; no statement in documented use is undefined.", "quantifier": "every program over any number of arrays, every size, every point where an allocation fails", "why_tests_cant": "every order of moves, failures and frees; a double free or leak need not be visible", "anchors": ["include/session/util.hpp: sodium_array", "src/util.cpp: sodium_buffer_allocate, sodium_buffer_deallocate"]}
{"id": "C105", "title": "String helpers say what their names say", "statement": "starts_with is true exactly for strings with that beginning, end_with exactly for those with that end, string_iequal exactly for strings equal up to the case of letters, and SessionID::hex gives the id in hex with its prefix.", "quantifier": "every pair of strings, every key", "why_tests_cant": "all strings", "anchors": ["include/session/util.hpp: starts_with, end_with, string_iequal", "src/fields.cpp: SessionID::hex"]}
{"id": "C106", "title": "Who is left out of a group's key messages learns no key and cannot read", "statement": "A member that is not an administrator and receives only rekeys and supplements made for lists of session ids without it (however written) never gets a key it did not have, none of these messages counts as having keys for it, and it cannot decrypt messages encrypted with a key it did not have: so a rekey removes a member.  Nor can its device follow the group's configs: key messages that leave it out do not change the keys of its configs, and a config message pushed with a key it does not have changes nothing about a merge, whatever else is merged with it.  Assumed of the encryption: what is sealed for others, and random filler, does not open under the member's key.", "quantifier": "every member, every sequence of rekeys and supplements from administrators in any state, every message sent afterwards", "why_tests_cant": "It ranges over unbounded sequences of messages from administrators in any state, and says what can never be had.", "anchors": ["src/config/groups/keys.cpp:rekey", "src/config/groups/keys.cpp:key_supplement", "src/config/groups/keys.cpp:load_key_message", "src/config/groups/keys.cpp:decrypt_message", "src/config/base.cpp:ConfigBase::_merge"]}
{"id": "C107", "title": "The kinds of configs do not mix", "statement": "No two kinds of config share a storage namespace or an encryption domain.  A message that one kind pushes, given to an object of another kind with the same keys, takes no part in its merge: a group's info and members configs do not decrypt each other's messages, and an account's own configs do not unwrap a message wrapped for another namespace, while the kind it is meant for gets exactly what was wrapped, so that two devices of one account with the same kind of config meet the assumptions about wrapping in the theorems on several devices.  Assumed: derived keys for different domains differ and do not open each other's messages; a wrapped message as such does not decrypt.", "quantifier": "every pair of kinds, every state of the writer and the reader, every message pushed, every other message merged with it", "why_tests_cant": "Tests use each kind with its own messages; this ranges over all pairs, states and messages.", "anchors": ["include/session/config/namespaces.hpp:Namespace", "include/session/config/base.hpp:encryption_domain", "src/config/base.cpp:ConfigBase::merge", "src/config/base.cpp:config_storage_namespace", "src/config/protos.cpp:unwrap_config"]}
{"id": "C108", "title": "Subaccount signing values and tokens are the documented ones", "statement": "The signing value an admin makes for a member consists of the rights, the blinding factor derived from the group's secret, the member and the group, and the group's signature on the rights and the member's blinded key; the revocation token is exactly what that signature covers; every admin of the group makes the same; nobody else makes any; and different members or groups get different blinding factors unless the hash collides.", "quantifier": "every session id, group, admin and choice of rights", "why_tests_cant": "all ids and keys, with the libraries abstract", "anchors": ["src/config/groups/keys.cpp: subaccount_blind_factor, swarm_make_subaccount, swarm_subaccount_token", "include/session/config/groups/keys.hpp 357-491"]}
{"id": "C109", "title": "Looking up a record or making a blank one", "statement": "The functions that look a record up or make it return what the lookup finds, and otherwise a blank record of which every field is the documented default; they accept exactly the well-formed ids of the kind and throw for everything else; a community comes back with the key the caller gave, in its canonical form; a new group has a fresh key pair whose public half is its id; the C functions fill the structure with exactly that record, and on a bad argument leave it alone and say what is wrong.", "quantifier": "every config state, id, url, room, key and caller structure", "why_tests_cant": "Tests look up a few ids; this ranges over all states and texts, including malformed ones.", "anchors": ["src/config/contacts.cpp:Contacts::get_or_construct", "src/config/groups/members.cpp:Members::get_or_construct", "src/config/user_groups.cpp:get_or_construct_*, create_group", "src/config/convo_info_volatile.cpp:get_or_construct_*"]}
{"id": "C110", "title": "What a push asks to delete", "statement": "A push lists only hashes that the application gave to the object at some time (of messages fetched, or of its own messages stored), never an empty one and none twice; a hash is listed again by a later push only if the application mentioned it again or it was still the hash of the current message; after a merge in which every message was reported good, each of those messages is the current one or is listed by the next push; and a push repeated because the upload failed lists the same hashes.", "quantifier": "every history of calls, dumps, restarts and promotions of a config", "why_tests_cant": "Tests look at the lists of a few histories; this ranges over all of them.", "anchors": ["src/config/base.cpp:ConfigBase::push", "src/config/base.cpp:ConfigBase::_merge", "include/session/config/base.hpp:ConfigBase::set_state"]}
