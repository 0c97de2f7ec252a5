#!/usr/bin/env python3
# Regenerates /verif/properties.jsonl (kept as a script only so that the list is easy to edit).
import json
P=[]
def p(id,title,statement,quantifier,why,anchors):
    P.append(dict(id=id,title=title,statement=statement,quantifier=quantifier,why_tests_cant=why,anchors=anchors))
CFG="src/config.cpp"; BASE="src/config/base.cpp"
p("C01","Diff/apply round trip","If config data goes from an old value to a new value and the change set published with the new message is replayed on top of the old data (taking values from the new data), the result is exactly the new data: nothing lost, nothing extra.","every pair of well-formed, pruned config data trees (any nesting, any mix of ints, strings, sets and dicts, including type changes)","data trees and edits are unbounded; tests compare a handful of fixed documents",[CFG+": diff_impl, apply_diff",CFG+": MutableConfigMessage::diff"])
p("C02","A diff is empty exactly when nothing changed","The published change set of a message is empty if and only if the (pruned) data equals the data it started from.","every pair of well-formed pruned data trees","unbounded trees",[CFG+": diff_impl"])
p("C03","Replaying a change set only touches the fields it names","When a change set is replayed onto any data, every top-level field (and, recursively, every nested field) not named by the change set keeps its value.","every target data tree, every change set, every source data tree","three unbounded independent inputs",[CFG+": apply_diff"])
p("C04","Pruning removes exactly the empty containers","Pruning leaves no empty set or dict below the top level, never changes a scalar or a set element, is idempotent, and reports 'changed' exactly when the data changed.","every data tree","unbounded nesting depth",[CFG+": prune_, MutableConfigMessage::prune"])
p("C05","Computing the change set never dereferences an empty optional","Along any history of edits, increments, serialisations, loads and merges, computing the change set of a message never reaches the undefined dereference of an absent sub-diff.","every reachable mutable message and every edit history","the undefined branch needs an unpruned base document; tests cannot show it is unreachable from every history",[CFG+": diff_impl, increment_impl, MutableConfigMessage::diff"])
p("C06","Encoded config data decodes to itself","Encoding any well-formed, pruned config data tree and decoding the bytes gives back the same tree; so two different data trees never have the same encoding.","every well-formed pruned data tree with 64-bit integers","unbounded trees and byte strings",[CFG+": serialize_data, parse_data"])
p("C07","Config message serialise/parse round trip","Serialising a config message and parsing the bytes yields the same seqno, data, change set, unknown fields and in-window lagged change sets, and serialising that parsed message gives the identical bytes.","every well-formed message, with or without signature","unbounded message content",[CFG+": ConfigMessage::serialize_impl, ConfigMessage parse constructor"])
p("C08","The parser accepts only canonical data","Whatever bytes are received, if parsing succeeds then the resulting data has strictly sorted unique keys, strictly sorted unique sets, no empty nested container and only 64-bit integers and strings; lagged change sets are strictly sorted, older than the message and inside the lag window.","every byte string","byte strings are unbounded and adversarial",[CFG+": parse_data, parse_lagged_diffs, ConfigMessage parse constructor"])
p("C09","Unknown top-level fields survive edit and re-serialisation","Top-level fields a client does not understand are kept when a message is loaded, incremented, edited and serialised again.","every message with unknown fields, every edit","future fields are by definition unknown to tests",[CFG+": serialize_impl","src/config/internal.cpp: load_unknowns, append_unknown"])
p("C10","Unknown top-level fields survive conflict merging","When conflicting messages are merged, the unknown top-level fields carried by the inputs are preserved in the merged message (the class comment says they are preserved).","every set of conflicting messages with unknown fields","needs a multi-client history with a newer client",[CFG+": ConfigMessage merge constructor","include/session/config.hpp: unknown_"])
p("C11","With a verifier, only validly signed messages are accepted","If a message is parsed with a verifier and accepted, it ends in a 64-byte signature field that the verifier accepted over exactly the bytes preceding that field, and no field follows it.","every byte string, every verifier","adversarial byte strings",[CFG+": verify_config_sig, ConfigMessage parse constructor"])
p("C12","A message signed on serialisation verifies on receipt","A message serialised with a signer parses successfully under a verifier that accepts that signer's signatures, and the signature covers everything except itself.","every well-formed message, every matching signer/verifier pair","unbounded message content",[CFG+": serialize_impl, verify_config_sig"])
p("C13","Merging does not depend on the order messages arrive","Merging the same messages in any order gives a config with the same seqno, data, lagged change sets and serialisation.","every list of messages and every permutation of it (messages with distinct bytes having distinct hashes)","factorially many orders of unbounded lists",[CFG+": ConfigMessage merge constructor"])
p("C14","A message that already includes all others is adopted unchanged","If exactly one current message remains after dropping stale, included and duplicate ones, the merge result is that message, bit for bit, with its index reported.","every list of messages","unbounded lists",[CFG+": ConfigMessage merge constructor, unmerged_index"])
p("C15","A conflict resolution supersedes its inputs","When a merge had to resolve a conflict, the result's seqno is one more than the largest input seqno, and merging the published result again with any of the inputs gives the result back unchanged (conflicts are resolved once).","every list of conflicting messages, every sublist re-delivered later in any order","needs unbounded multi-client histories",[CFG+": ConfigMessage merge constructor"])
p("C16","Stale messages have no effect","A message whose seqno is lag or more behind the highest seqno does not influence the result of a merge.","every list of messages, every stale message, every lag","unbounded lists",[CFG+": ConfigMessage merge constructor (seqno + lag <= max_seqno)"])
p("C17","Duplicate deliveries have no effect","Delivering a message more than once gives the same merge result as delivering it once.","every list of messages and any repetition","unbounded lists",[CFG+": ConfigMessage merge constructor"])
p("C18","Unparseable messages are ignored","A message that cannot be parsed or fails verification does not change the result of merging the others and cannot make the merge fail while a valid message is present.","every list mixing valid and invalid byte strings","adversarial byte strings",[CFG+": ConfigMessage merge constructor, load_diff, apply_diff",BASE+": ConfigBase::_merge"])
p("C19","A client that cannot sign follows the highest message","With a verifier but no signer, merging never creates new content: the result is always one of the input messages, the highest (seqno, hash) among the non-redundant ones.","every list of messages","unbounded lists",[CFG+": ConfigMessage merge constructor"])
p("C20","The highest-ranked change wins and no independent change is lost","In a conflict merge, a scalar field set by several messages ends with the value from the highest (seqno, hash) message that changed it; a field changed by only one message ends with that message's value.","every set of conflicting messages and every field","all combinations of concurrent edits",[CFG+": ConfigMessage merge constructor, apply_diff"])
p("C21","Parsing always terminates","Parsing a received message terminates for every input.","every byte string","non-termination on a crafted input is exactly what samples miss",[CFG+": load_diff"])
p("C22","Sequence arithmetic never overflows","Merging messages with any parseable seqno never overflows the 64-bit sequence arithmetic.","every list of messages with 64-bit seqnos","needs extreme values in the right slot",[CFG+": ConfigMessage merge constructor"])
p("C23","A read-only config never has changes","A config that can verify but not sign never becomes dirty and never needs a push; every attempt to modify it throws and leaves it unchanged.","every sequence of operations on a read-only config","unbounded histories",[BASE+": set_state, dirty, _merge, push"])
p("C24","Push/confirm protocol","needs_push is true from the moment of a change until a confirm_pushed carrying the seqno of the latest pushed data; a confirmation for any other seqno, or when nothing is awaiting confirmation, changes nothing; a change made after push makes the pending confirmation a no-op.","every interleaving of edits, pushes, merges and confirmations","all interleavings",[BASE+": push, confirm_pushed, needs_push, dirty"])
p("C25","The sequence number never goes backwards","Over any history of edits, merges, pushes, confirmations, dumps and restores the seqno never decreases, and any edit made while not dirty strictly increases it.","every operation history","unbounded histories",[BASE+": dirty, _merge, init_from_dump"])
p("C26","A current hash exists only while clean","current_hashes() is non-empty only in the clean state.","every operation history","unbounded histories",[BASE+": set_state, confirm_pushed, _merge"])
p("C27","Obsolete hashes never include the live message","The hashes push() asks the client to delete never include the hash of the message that is currently live.","every operation history","needs a history in which the live message is re-delivered",[BASE+": push, _merge"])
p("C28","Dump and restore","Restoring from a dump gives a config with the same data, state, current hash, obsolete hashes and seqno (one higher if the dump was dirty).","every reachable state","unbounded state",[BASE+": make_dump, init_from_dump"])
p("C29","Restart does not change message identity","After a dump and restore, the next edit produces the same message as it would have without the restart.","every reachable clean or awaiting state, with and without signing keys","needs comparison of two histories",[BASE+": make_dump, init_from_dump",CFG+": increment_impl"])
p("C30","needs_dump tells when a dump would differ","If needs_dump() is false then a dump taken now equals the last dump taken.","every operation history","unbounded histories",[BASE+": _merge, push, needs_dump"])
p("C31","Encryption key list","The key list never contains duplicates; adding with high priority puts the key first and keeps the relative order of the others; low priority never changes the first key; remove/replace/clear do what they say and re-dirty only when the encrypting key changes.","every sequence of key operations","unbounded sequences",[BASE+": add_key, remove_key, replace_keys, clear_keys, has_key"])
p("C32","Assigning the current value does not dirty","Assigning a field its existing value (or an empty container to a missing field, or inserting an element already present, or erasing an element that is not there) leaves a clean config clean with the same seqno.","every state, path and value","all states and paths",["include/session/config/base.hpp: assign_if_changed, insert_if_missing, set_erase_impl, erase"])
p("C33","Field access behaves like a map","After assigning a path, reading it gives the value; every path not passing through it is unchanged; erasing makes it unreadable and changes nothing else.","every state, path and value","all states and paths",["include/session/config/base.hpp: DictFieldProxy"])
p("C34","Config encryption round trip and length","decrypt(encrypt(m,k,d),k,d)=m for every message; ciphertext is exactly 40 bytes longer; equal inputs give equal ciphertexts; inputs shorter than the overhead are rejected, not misread.","every message, 32-byte key and domain","unbounded messages",["src/config/encrypt.cpp: encrypt_inplace, decrypt_inplace"])
p("C35","Padding reaches the bucket size and is removable","Padding a message only prepends NULs, brings message plus overhead to a whole number of buckets, adds less than one bucket, and the receiver strips exactly the padding of any message that starts with a non-NUL byte.","every message length","all lengths including bucket boundaries",["include/session/config/encrypt.hpp: padded_size","src/config/encrypt.cpp: pad_message",BASE+": _merge (prefix removal)"])
p("C36","Push then merge transfers the data","If a client pushes and another client holding the key (with no conflicting changes) merges the pushed message, it ends clean with exactly the pusher's data, seqno and the message's hash as current hash, and reports the hash as accepted.","every reachable pusher state and every receiver whose own message is empty or included in the pushed one","unbounded state",[BASE+": push, merge, _merge"])
p("C37","Two clients that receive the same conflicting messages converge","Two non-dirty clients in the same state that merge the same set of messages in different orders have equal data, seqno and serialisation afterwards.","every state, message set and order","all orders",[BASE+": _merge",CFG+": merge constructor"])

KEYS="src/config/groups/keys.cpp"
p("C38","Group key list stays ordered and duplicate free","Whatever key messages are loaded and in whatever order, the group's key list is strictly ordered by (generation, timestamp, key) with no key entry twice, and the encryption key is the pending key if any, else the last one.","every sequence of key insertions, expiries, rekeys and loads","unbounded histories",[KEYS+": insert_key, group_keys, group_enc_key"])
p("C39","Key expiry keeps what is needed","Expiry never removes the newest key, only removes a key when a later key is older than the expiry time, and afterwards the hash list contains no generation older than the oldest kept key and never loses a kept generation's hashes.","every key list and hash table","all boundary combinations of timestamps",[KEYS+": remove_expired"])
p("C40","Loading key messages in any order gives the same keys","Inserting the same set of keys (with expiry applied as the code does) in any order gives the same key list.","every set of keys and every order","factorially many orders",[KEYS+": insert_key, remove_expired"])
p("C41","Group keys dump and restore","Restoring a dumped Keys object gives the same keys, hashes and pending key.","every reachable Keys state","unbounded state",[KEYS+": make_dump, load_dump"])
p("C42","needs_rekey detects generation collisions","needs_rekey() is true exactly when the two newest keys share a generation.","every key list","all lists",[KEYS+": needs_rekey"])
p("C43","Key dump flag","If Keys::needs_dump() is false then a dump taken now equals the last dump.","every history of Keys operations","unbounded histories",[KEYS+": insert_key, needs_dump, dump"])
p("C44","Rekey hides the member count","The number of encrypted key entries in a rekey message is a positive multiple of 75 and less than 75 more than needed, and every current member's entry is included.","every member list","all sizes including multiples of 75",[KEYS+": rekey"])
p("C45","Group message encryption round trip","decrypt_message(encrypt_message(m)) returns m and the sender's session id for every plaintext the encrypter accepts, using any key still in the list.","every plaintext, padding value, compression choice and key list","unbounded plaintexts",[KEYS+": encrypt_message, decrypt_message"])
p("C46","Subaccount tokens verify only for the flags they were made with or fewer","A subaccount token made with given write/delete flags verifies exactly when the required flags are a subset.","every flag combination","finite but stated for all token values",[KEYS+": subaccount flags, swarm_verify_subaccount"])
p("C47","Community URL canonicalisation","Canonicalising a URL is idempotent; a full URL built from (base, room, pubkey) parses back to the canonical base, the room and the pubkey; default ports are dropped; two URLs that differ only in case, trailing slash or explicit default port canonicalise the same.","every URL string","unbounded strings",["src/config/community.cpp: parse_url, canonical_url, parse_full_url, full_url"])
p("C48","Contact record round trip","Storing a contact and reading it back gives the same record (fields normalised as documented); storing another contact does not affect it; erasing removes exactly it.","every contact record and store state","unbounded records",["src/config/contacts.cpp: set, get, erase, contact_info::load"])
p("C49","C-API contact round trip preserves every field","Reading a contact through the C API, and writing the same struct back, changes nothing.","every stored contact","every field must be covered",["src/config/contacts.cpp: into, contact_info(const contacts_contact&)"])
p("C50","Copying strings into C buffers stays in bounds","Copying any string into a fixed-size C buffer writes only inside the buffer and NUL-terminates it.","every string length and buffer size","the overflowing length is one specific relation",["src/config/internal.hpp: copy_c_str"])
p("C51","User profile round trip","Name, picture, note-to-self priority/expiry and blinded-message-request settings read back as last set; clearing a field removes it.","every sequence of profile operations","unbounded histories",["src/config/user_profile.cpp"])
p("C52","User group record round trip","Storing a community, legacy group or group and reading it back gives the same record; the three kinds never interfere; sizes equal the number of records.","every record and store state","unbounded records",["src/config/user_groups.cpp"])
p("C53","Conversation volatile state","set/get round trip per kind; last_read/unread kept; stale entries (older than the prune window and not unread) are not stored and are removed on push; anything newer is kept.","every entry, clock value and store state","all boundary timestamps",["src/config/convo_info_volatile.cpp"])
p("C54","Group member record round trip","Storing a member and reading it back gives the same record for every record reachable through the setters; invite/promotion/removal statuses follow the documented state machine.","every member record","all status combinations",["src/config/groups/members.cpp"])
p("C55","Group info fields","Name, description (truncated as documented), picture, expiry, created, delete-before and destroyed flags read back as last set, and setting one does not affect the others.","every sequence of info operations","unbounded histories",["src/config/groups/info.cpp"])
p("C56","Sorted list/dict merging helper","Merging two bt lists or dicts gives the union with the documented precedence, sorted, for every input.","every pair of dicts/lists","unbounded inputs",["src/bt_merge.cpp","include/session/bt_merge.hpp"])
p("C57","Session protocol padding round trip","Unwrapping a wrapped message removes exactly the padding that was added, for every payload including ones that end in zeros or 0x80.","every payload","all trailing-byte patterns",["src/config/protos.cpp: wrap_config, unwrap_config","src/session_encrypt.cpp"])
p("C58","Session id and public key decoding","A session id is accepted exactly when it is 66 hex digits starting with 05; encoded pubkeys are accepted in exactly the documented encodings and decode to 32 bytes.","every string","unbounded strings",["src/config/internal.cpp: check_session_id, session_id_to_bytes, decode_pubkey"])
p("C59","Iterating a collection visits each valid record exactly once","Iterating contacts, members, groups, communities or conversations visits every valid stored record exactly once, in order, skips invalid ones and always terminates.","every stored data tree, including data written by other clients","adversarial stored data",["src/config/contacts.cpp: iterator","src/config/user_groups.cpp: iterator","src/config/convo_info_volatile.cpp: iterator","src/config/groups/members.cpp: iterator"])
p("C60","Multi-recipient encryption","Every intended recipient can decrypt its copy, the number of copies is padded as requested, and padding copies are the same size as real ones.","every recipient list and message list","unbounded lists",["src/multi_encrypt.cpp"])
p("C61","One accepted message per signature","A party that holds no signing key cannot turn a validly signed message into a different byte string that is still accepted: every byte of an accepted message is covered by the signature or is the signature.","every byte string, every verifier","adversarial byte strings",[CFG+": ConfigMessage parse constructor, verify_config_sig"])
p("C62","Resolving a conflict without own changes publishes no changes of its own","When a client that had no unsaved changes resolves a conflict and publishes the result, the published change set is empty (as the merge documentation says), so the resolution itself never overrides somebody's concurrent change.","every clean client and every set of conflicting messages","needs a three-client history",[CFG+": MutableConfigMessage retain_seqno constructor, diff","docs/config-merge-logic.md"])
p("C63","Config encryption key derivation separates keys, sizes and domains","The key under which a message is encrypted differs whenever the base key, the message size or the encryption domain differs (up to collisions of the hash), so a message of one config type or size can never be decrypted as another.","every pair of keys, sizes and domains","all pairs",["src/config/encrypt.cpp: make_encrypt_key"])
p("C64","Only the group's signed key messages have an effect","A key message changes a Keys object only if it carries a signature by the group's key over everything before the signature; everything else is refused without a trace.","every byte string and every state","adversarial byte strings",[KEYS+": load_key_message"])
p("C65","A key supplement brings a new member level","A new member that receives the administrator's supplement message ends up with exactly the administrator's keys (generations and timestamps included) and encrypts with the same key.","every reachable administrator state and every new member in the list","unbounded key lists",[KEYS+": key_supplement, load_key_message"])
p("C66","Concurrent rekeys for the same members agree","Two administrators that rekey for the same members from the same newest generation produce the identical message, key and generation.","every pair of administrator states","needs comparison of two executions",[KEYS+": rekey"])
p("C67","Info and member configs follow the group keys","After any sequence of operations on the group's three objects, the info and member configs hold exactly the keys of the Keys object and encrypt with its encryption key.","every history of a group's objects","unbounded histories",[KEYS+": load_key_message, rekey, load_dump, load_admin_key",BASE+": replace_keys"])
p("C68","merge() reports exactly the messages it could use","The hashes merge() returns as accepted are exactly those of the messages that some key opens, that decompress and that parse as a config message; messages that cannot be opened leave no trace.","every batch of incoming messages and every state","adversarial batches in every order",[BASE+": ConfigBase::merge, _merge"])
p("C69","Messages between accounts round trip","What one account encrypts for another with encrypt_for_recipient or its deterministic variant, the recipient decrypts to the same message and to the sender's Ed25519 key (or session id); either key form and either way of writing the recipient works, and the ciphertext is the message plus 144 bytes. The same holds for recipients that only have X25519 keys.","every pair of accounts, every message, every ephemeral key","all keys and messages",["src/session_encrypt.cpp: sign_for_recipient, encrypt_for_recipient, encrypt_for_recipient_deterministic, decrypt_incoming, decrypt_incoming_session_id"])
p("C70","Incoming messages are authentic","A message is accepted only if the box opens for us and holds the message, the claimed sender's key and that key's valid signature over message, sender and recipient, and the session id reported is derived from that key; signatures made with either form of the secret key verify.","every byte string, every account","adversarial byte strings",["src/session_encrypt.cpp: decrypt_incoming, decrypt_incoming_session_id","src/ed25519.cpp: sign, verify"])
p("C71","Push notifications and ONS responses","Decrypting a push notification gives the message without its zero padding and accepts nothing but what was sealed under the key; decrypting an ONS response gives the 33-byte session id in hex, only for the right name, nonce and size.","every key, nonce, payload and name","all byte strings",["src/session_encrypt.cpp: decrypt_push_notification, decrypt_ons_response"])
BL="src/blinding.cpp"
p("C72","Everyone computes the same blinded id","The blinded id of an account on a server is the same whether computed from the session id (raw or hex, with or without prefix), from the Ed25519 public key or from the secret key's blinded key pair; for 15-blinding the two candidates differ only in the sign bit and the key pair's is one of them; and session_id_matches_blinded_id accepts exactly such pairs, so no id belongs to two accounts on a server.","every account, every server key, both blinding versions","all keys, including those with a negative public key",[BL+": blind15_id, blind25_id, blind15_key_pair, blind25_key_pair, blinded15_id_from_ed, blinded25_id_from_ed, session_id_matches_blinded_id"])
p("C73","Blinded signatures verify","What blind15_sign or blind25_sign signs verifies, as an ordinary Ed25519 signature, under the public key of the account's blinded id on that server, with either form of the secret key and of the server key.","every account, server and message","all keys and messages",[BL+": blind15_sign, blind25_sign"])
p("C74","Blinded messages round trip and name their sender","What one account encrypts for another's blinded id decrypts, for the recipient and for the sender itself, to the same message and the sender's real session id; a message is accepted only if the sealed Ed25519 key belongs to the blinded sender id it came with.","every pair of accounts, every server, both blinding versions, every message; for acceptance every byte string","all keys and messages, adversarial byte strings",["src/session_encrypt.cpp: blinded_shared_secret, encrypt_for_blinded_recipient, decrypt_from_blinded_recipient"])
p("C75","XEd25519 signatures verify","A signature made with an X25519 secret key verifies under its X25519 public key, whatever the sign of the corresponding Ed25519 key, and the Ed25519 key computed from an X25519 key converts back to it.","every X25519 key pair, every message, every random value","all keys and messages",["src/xed25519.cpp: sign, verify, pubkey"])
p("C76","Subaccounts can sign requests","A member that signs a request with the value the group's administrator made for it presents the token the administrator knows and can revoke, the administrator's valid signature of it, and a signature of the request that verifies under the key in the token.","every group, member, flag combination and request","all keys and messages, including negative public keys",[KEYS+": swarm_make_subaccount, swarm_subaccount_token, swarm_subaccount_sign"])
OR="src/onionreq/"
p("C77","Onion requests reach their destination","After any calls on a request builder that name hops and a destination, the request it builds is opened by each hop in turn, which learns the next hop's key (or, for the last hop before a server, the URL) and the next layer; the destination opens the innermost layer with its own key and finds the payload.","every history of builder calls, every list of hops of any length, every set of keys, both encryption types, every payload and all randomness","paths of any length, any payload and any order of calls",[OR+"builder.cpp: Builder::build, encode_size", OR+"hop_encryption.cpp: HopEncryption", "include/session/onionreq/builder.hpp: set_snode_destination, set_server_destination, add_hop"])
p("C78","Replies to onion requests come back","Whatever the destination answers through the parser of the request, the builder that made the request decrypts; what it accepts was encrypted with the key it shares with the destination; nothing is decrypted before a request was built.","every request of C77 and every reply; for acceptance every byte string","all keys and replies, adversarial byte strings",[OR+"response_parser.cpp: ResponseParser::decrypt", OR+"parser.cpp: OnionReqParser::encrypt_reply"])
p("C79","The onion request parser accepts exactly well-formed requests","The parser of a node accepts exactly the inputs that consist of a size, a ciphertext of that size and JSON that names a known encryption type (or none) and an ephemeral key with which the ciphertext opens; it throws for all others, never reads outside its input, and an accepted request can always be answered.","every byte string, every key pair, every size limit","adversarial byte strings",[OR+"parser.cpp: OnionReqParser"])
p("C80","Onion request keys are read as they were written","A 32-byte key is read back from its raw, hex, base64 and base32z forms; from_hex and from_bytes take exactly keys; the .snode address determines the key; and everything parse_*_pubkey does not recognise gives the null key.","every byte string","all byte strings",[OR+"key_types.cpp: parse_x25519_pubkey, parse_ed25519_pubkey, parse_legacy_pubkey, snode_address", "include/session/onionreq/key_types.hpp: from_hex, from_bytes"])
p("C81","Memory blocks handed to C callers are exact","Every block the C interface allocates for its caller (the string lists of config_merge and config_current_hashes, config_push_data, config_get_keys) is as large as what is put into it, is written only inside, and a C caller reading it finds exactly what the C++ call returned: the same strings in order, the sequence number, the message byte for byte.","every list of strings, every message and sequence number, every address and every previous content of the memory, every state of a config object over its life","all sizes and contents; an out-of-bounds write need not be visible in a test",["src/config/internal.hpp: make_string_list","src/config/base.cpp: config_push, config_merge, config_current_hashes, config_get_keys"])
p("C82","Errors of C functions stay inside the error buffer","When a C function on a config or keys object fails, it leaves a terminated message in the object's 256-byte error buffer and writes nothing after it; when it does not fail the buffer is as it was.","every id a C caller can pass and every message","the overflowing length is one specific relation",["src/config/internal.hpp: set_error, copy_c_str","src/config/groups/keys.cpp: set_error","src/config/contacts.cpp, members.cpp, user_groups.cpp, convo_info_volatile.cpp: C getters"])
p("C83","Walking over and editing the members of a legacy group from C","Walking over a legacy group's members with the C iterator visits each member once, in order, and erasing during the walk removes exactly the members erased; add, remove and count do what they say.","every member list and every choice of members to erase","unbounded lists",["src/config/user_groups.cpp: ugroups_legacy_members_*"])
p("C84","C structs of groups and conversations round trip","A group, legacy group, community or conversation written through the C interface is read back through it with every field as the C++ documentation says it is kept; a group marked as kicked reads as kicked and without keys.","every struct, every config state","every field of every record",["src/config/user_groups.cpp: into, base_into, base_from, ugroups_*","src/config/convo_info_volatile.cpp: into and constructors from C structs"])
p("C85","Community URLs through the C interface","Parsing a community URL in C gives the same base URL, room and key as in C++, as terminated strings in buffers of the documented sizes, with nothing written beyond them and the old contents kept when parsing fails; a URL made by the C functions is read back to what it was made of.","every URL a C caller can pass and every previous content of the buffers","all strings; an out-of-bounds write need not be visible in a test",["src/config/community.cpp: community_parse_full_url, community_parse_partial_url, community_make_full_url"])
p("C86","C functions return what the C++ functions return","Each C function of the encryption, signing, blinding, hashing, group-keys and onion-request interfaces returns true exactly when the C++ function returns, and then writes exactly its results at the front of the caller's buffers, in the documented sizes, and nothing else; otherwise it returns false and leaves the buffers alone; no exception escapes.","every input, every previous content of the buffers","all inputs; an out-of-bounds write need not be visible in a test",["src/session_encrypt.cpp, blinding.cpp, ed25519.cpp, curve25519.cpp, xed25519.cpp, hash.cpp, multi_encrypt.cpp: C functions","src/config/groups/keys.cpp: groups_keys_*","src/onionreq/builder.cpp, response_parser.cpp: C functions"])
p("C87","No exception escapes a C function","A C function that has no error to report returns, on a config that can be edited; a function that refuses its argument reports it by its result and changes nothing; nothing is thrown through a C caller.","every argument, every reachable config, every batch of incoming messages","requires every way a C++ exception can arise in any state to be followed through the wrapper",["src/config/base.cpp: config_merge, config_push, LIBSESSION_EC_API functions","src/config/user_profile.cpp","src/config/groups/info.cpp","src/config/contacts.cpp: contacts_set","src/config/groups/members.cpp: groups_members_set","src/config/user_groups.cpp","src/config/convo_info_volatile.cpp","src/onionreq/builder.cpp","src/config/groups/keys.cpp: groups_keys_swarm_verify_subaccount"])
p("C88","User profile and group info through the C interface","After any sequence of C setter calls on a config that can be edited, the C getters of the user profile and of the group info return exactly the values last set (strings up to their terminator, cut at the documented lengths, pictures in the caller's struct).","every sequence of setter calls, every starting state","unbounded sequences over unbounded states",["src/config/user_profile.cpp: user_profile_*","src/config/groups/info.cpp: groups_info_*"])
p("C89","Iterators visit each stored record once","Stepping through contacts, group members, groups or conversations with the iterators, in C++ or in C, visits exactly the records the getters find, of the wanted kinds, each once and in order; the walk ends, by done() and by comparison with end() at the same point, and at each position exactly one C is-a function recognises the record and fills the struct the C getter would fill.","every reachable config and every choice of kinds","every stored tree",["src/config/contacts.cpp: iterator","src/config/groups/members.cpp: iterator","src/config/user_groups.cpp: iterator","src/config/convo_info_volatile.cpp: iterator","include/session/config/community.hpp: comm_iterator_helper"])
p("C90","Signing keys, and readers that become writers","After any sequence of calls that set or clear signing keys, messages are checked with the public key and signed with the secret key set last; keys of the wrong size are refused without effect.  A client that could only read and is given the secret key (load_admin_key) keeps its state, can then be edited, and what it pushes is accepted by every other client, which ends with its data.  An object accepts what it signs itself.","every sequence of key calls, every reachable reader and every sequence of edits after the promotion","unbounded histories and all keys",["src/config/base.cpp: set_sig_keys, set_sig_pubkey, clear_sig_keys, init_sig_keys, seed_hash","src/config/groups/keys.cpp: load_admin_key"])
p("C91","One exchange brings all devices of an account together","Any number of devices that can write, each with any edits of its own, push what they have and merge what the others pushed: every merge succeeds and all devices hold the same config (data, change record, hash); a second exchange changes no data and leaves no device with anything to push.  Two devices that merge the same set of messages, in any order and with any own state among them, hold the same config.","every number of devices, every reachable state of each, every order of the messages","histories of several devices with unbounded states and orders",["src/config/base.cpp: push, merge, _merge, confirm_pushed","src/config.cpp: ConfigMessage::ConfigMessage (merging)"])
p("C92","Merging valid messages succeeds","A merge whose messages are each either of the form the library writes or rejected as invalid returns, unless a seqno is at the end of the 64-bit range; what such a client publishes is again of this form.","every reachable state and every batch of messages","every combination of conflicting change records",["src/config.cpp: ConfigMessage::ConfigMessage (merging), load_diff, apply_diff","src/config/base.cpp: _merge"])
p("C93","Opening a config","A user's config is made from the account's secret key or seed, and a group's from its public key and, for administrators, the matching secret key; other keys are refused; a dump made earlier brings everything back.  All devices of an account have the same one key, however they were opened and restarted, so they understand each other without further assumptions.  In C the call stores the object and returns 0 exactly if the C++ constructor returns it, and otherwise reports the error inside of the caller's 256-byte buffer and stores nothing; the C key functions change and show the key list as documented.","every key, every dump (also malformed ones), every history of a device, every sequence of key calls","all byte strings as dumps, unbounded histories",["src/config/base.cpp: ConfigBase::ConfigBase, init_from_dump, load_key, config_add_key, config_remove_key, config_free","src/config/internal.hpp: c_wrapper_init, c_group_wrapper_init","src/config/contacts.cpp, user_groups.cpp, user_profile.cpp, convo_info_volatile.cpp, groups/info.cpp, groups/members.cpp: constructors"])
p("C94","A group's keys and configs work together","On every device of a group the Keys object and the info and member configs always have the same signing key and the same encryption keys, through opening, loading key messages, rekeying, promotion, use of the configs, and closing and reopening.  After a rekey both configs have the new key and, unless they had it already, are waiting to be pushed with a higher seqno.  A member that the member config lists loads the rekey message and then reads whatever the administrator pushes next; a newly invited member that loads the supplement reads what was pushed before.  A member given the right secret key can sign with all three objects, another key is refused without effect.  Opening a Keys object (also from C) either succeeds or leaves the configs as they were.","every history of the devices, every dump, key message and config content, every member list","unbounded histories of three objects on two devices",["src/config/groups/keys.cpp: Keys::Keys, rekey, key_supplement, load_key_message, load_admin_key, groups_keys_init","src/config/base.cpp: replace_keys, set_sig_keys","src/config/groups/info.cpp, members.cpp: constructors"])
p("C95","Concurrent changes are merged field by field","Devices of an account that are in step each make any edits, push, fetch what the others pushed and merge.  Then every field has, on every device, a value some device had before the exchange: a value all agree on stays.  If some devices changed the field, the result is the value of one of those, provided no other device removed the dict the field lives in; in particular a field or record (such as a contact) that only one device edited, added or erased ends up everywhere as on that device, and changes to different fields all survive.  The devices are in step again, at once or after one more exchange, so this holds round after round.  (Without the proviso it fails: a contact added on one device is lost when another device meanwhile erases the last contact.)","every number of devices, all edits, all fields, all histories, any delivery order and duplication","the outcome depends on the hashes of the messages, and the rounds and histories are unbounded",["src/config.cpp: apply_diff, diff_impl, ConfigMessage::ConfigMessage (merging), MutableConfigMessage::increment","src/config/base.cpp: ConfigBase::push, merge, _merge"])
p("C96","Concurrent changes to sets are merged element by element","Devices of an account that are in step each add elements to a stored set (the members of a legacy group, say) and remove some, push, fetch what the others pushed and merge.  Then, on every device, the set is the old one with everything any device added and without everything any device removed; an element nobody touched is neither lost nor brought back, now or in any later round.  The devices are then in step again, after at most one more exchange, which changes nothing.","every number of devices, every history, every set and every sequence of edits on each device, every element","unbounded histories of several devices; lost or returning elements show only for particular message hashes and histories",["src/config.cpp: apply_diff, diff_impl, MutableConfigMessage::MutableConfigMessage, MutableConfigMessage::increment_impl","src/config/base.cpp: _merge, push"])
p("C97","Devices come together under every schedule","Start with new devices of one account and let anything happen, in any order: edits, pushes that are confirmed or not, merges of any subset of what was ever pushed (late, repeated, reordered, mixed with rubbish), dumps, and crashes after which a device comes back with a dump of any state it was once in.  At every point every edit, dump, restart and merge succeeds; and if then every device pushes and fetches the same messages, all hold the same config.  For configs without signatures that is the end: no delivery of old messages, in any order and number, changes any device's content again or leaves it with something to push.","every number of devices, every schedule of calls, deliveries and crashes of any length","unbounded schedules of several devices",["src/config/base.cpp: push, confirm_pushed, _merge, dump, ConfigBase::ConfigBase","src/config.cpp: ConfigMessage::ConfigMessage (merging)"])
p("C98","No schedule invents content","Whatever value or set element any device holds at any time, one of the edits that were made wrote it, at that place: merging, conflicts, crashes and restarts never make up content or move it elsewhere.","every number of devices, every schedule, every path, value and element","unbounded schedules of several devices",["src/config.cpp: ConfigMessage::ConfigMessage (merging), apply_diff, diff_impl"])
p("C99","Histories are transitive, so conflicts are resolved once","Under every schedule, a published message that includes another also includes everything recent enough that the other one includes; so once a conflict among published messages was resolved, everyone who gets the published resolution with any of those messages adopts it as it is.","every number of devices, every schedule, every set of published messages","unbounded schedules of several devices",["src/config.cpp: MutableConfigMessage::increment_impl, ConfigMessage::ConfigMessage (merging)"])
p("C100","An edit nobody contradicts survives","An edit that no other device contradicts is never undone by synchronising: whatever is pushed, fetched, re-delivered or lost in crashes, the device that made it keeps showing it, every other device shows at all times exactly some version the editing device had, and one fetch of the editing device's latest message brings another device to it.","every number of devices, every schedule of calls, deliveries, saves and crashes, every fetch","unbounded schedules of several devices; no finite set of test histories covers them",["src/config.cpp: ConfigMessage::ConfigMessage (merging), MutableConfigMessage::increment_impl","include/session/config.hpp: MutableConfigMessage (orig_data_)","src/config/base.cpp: _merge, push, dump, dirty"])
p("C101","Devices that take turns act as one config","When a device edits only while it has the newest version and no other device has edits left to push, all devices together behave like one config: the device whose turn it is shows exactly what a single config shows in which every edit of every device was made in order, every other device shows at all times the edits up to some point, and pushing, or fetching the newest message, passes the turn on.","every number of devices, every schedule of edits in turn, pushes, deliveries, saves and crashes, every fetch","unbounded schedules of several devices; no finite set of test histories covers them",["src/config.cpp: ConfigMessage::ConfigMessage (merging), MutableConfigMessage::increment_impl","src/config/base.cpp: _merge, push, dump, dirty"])
p("C102","Group members who can only read follow the administrators","A member of a group without the signing key shows, at all times, either nothing or exactly what some administrator's config said at a push the member has fetched, with that push's version number, and no message it has fetched is newer; it never has anything to push.  Fetches succeed, a member that fetches the newest message shows it whatever else it fetched and in whatever order, and members that have fetched everything show the same.","every number of administrators, every schedule of theirs, every member's history of fetches, calls, crashes and restarts","unbounded schedules; a reader resolves conflicts by another rule than a writer",["src/config.cpp: ConfigMessage::ConfigMessage (merging, 632-648)","src/config/base.cpp: ConfigBase::_merge, set_state, dump, make_dump, push","include/session/config/base.hpp: is_readonly"])
p("C103","Saved records survive publishing","Whatever contacts, group members, groups, legacy groups and communities were saved, changed and erased: pushing the config, closing and reopening it from a dump, and fetching it on another device leave every record as it was, even one whose fields all have their default values; the profile and a group's info are kept as well, and iterating gives the same records.","every sequence of commands, every reachable state with nothing unsaved, every push, dump and fetch","all records, including those with nothing in them, which the pruning of empty containers would drop if one field were not always written",["src/config.cpp: prune_","src/config/contacts.cpp: Contacts::set","src/config/groups/members.cpp: Members::set","src/config/user_groups.cpp: UserGroups::set","include/session/config/base.hpp: MutableConfigMessage::prune"])
p("C104","Arrays for secrets hold what was put in, once","In any program that makes sodium_arrays, moves them, loads, resets and writes them and ends them, also when memory runs out in between, each array shows exactly the bytes last put into it (zeros where nothing was written), no two arrays share memory, nothing is freed twice or used after it was freed, and nothing stays allocated; no statement in documented use is undefined.","every program over any number of arrays, every size, every point where an allocation fails","every order of moves, failures and frees; a double free or leak need not be visible",["include/session/util.hpp: sodium_array","src/util.cpp: sodium_buffer_allocate, sodium_buffer_deallocate"])
p("C105","String helpers say what their names say","starts_with is true exactly for strings with that beginning, end_with exactly for those with that end, string_iequal exactly for strings equal up to the case of letters, and SessionID::hex gives the id in hex with its prefix.","every pair of strings, every key","all strings",["include/session/util.hpp: starts_with, end_with, string_iequal","src/fields.cpp: SessionID::hex"])
p("C106","Who is left out of a group's key messages learns no key and cannot read","A member that is not an administrator and receives only rekeys and supplements made for lists of session ids without it (however written) never gets a key it did not have, none of these messages counts as having keys for it, and it cannot decrypt messages encrypted with a key it did not have: so a rekey removes a member.  Nor can its device follow the group's configs: key messages that leave it out do not change the keys of its configs, and a config message pushed with a key it does not have changes nothing about a merge, whatever else is merged with it.  Assumed of the encryption: what is sealed for others, and random filler, does not open under the member's key.","every member, every sequence of rekeys and supplements from administrators in any state, every message sent afterwards","It ranges over unbounded sequences of messages from administrators in any state, and says what can never be had.",["src/config/groups/keys.cpp:rekey","src/config/groups/keys.cpp:key_supplement","src/config/groups/keys.cpp:load_key_message","src/config/groups/keys.cpp:decrypt_message","src/config/base.cpp:ConfigBase::_merge"])
p("C107","The kinds of configs do not mix","No two kinds of config share a storage namespace or an encryption domain.  A message that one kind pushes, given to an object of another kind with the same keys, takes no part in its merge: a group's info and members configs do not decrypt each other's messages, and an account's own configs do not unwrap a message wrapped for another namespace, while the kind it is meant for gets exactly what was wrapped, so that two devices of one account with the same kind of config meet the assumptions about wrapping in the theorems on several devices.  Assumed: derived keys for different domains differ and do not open each other's messages; a wrapped message as such does not decrypt.","every pair of kinds, every state of the writer and the reader, every message pushed, every other message merged with it","Tests use each kind with its own messages; this ranges over all pairs, states and messages.",["include/session/config/namespaces.hpp:Namespace","include/session/config/base.hpp:encryption_domain","src/config/base.cpp:ConfigBase::merge","src/config/base.cpp:config_storage_namespace","src/config/protos.cpp:unwrap_config"])
p("C108","Subaccount signing values and tokens are the documented ones","The signing value an admin makes for a member consists of the rights, the blinding factor derived from the group's secret, the member and the group, and the group's signature on the rights and the member's blinded key; the revocation token is exactly what that signature covers; every admin of the group makes the same; nobody else makes any; and different members or groups get different blinding factors unless the hash collides.","every session id, group, admin and choice of rights","all ids and keys, with the libraries abstract",["src/config/groups/keys.cpp: subaccount_blind_factor, swarm_make_subaccount, swarm_subaccount_token","include/session/config/groups/keys.hpp 357-491"])
p("C109","Looking up a record or making a blank one","The functions that look a record up or make it return what the lookup finds, and otherwise a blank record of which every field is the documented default; they accept exactly the well-formed ids of the kind and throw for everything else; a community comes back with the key the caller gave, in its canonical form; a new group has a fresh key pair whose public half is its id; the C functions fill the structure with exactly that record, and on a bad argument leave it alone and say what is wrong.","every config state, id, url, room, key and caller structure","Tests look up a few ids; this ranges over all states and texts, including malformed ones.",["src/config/contacts.cpp:Contacts::get_or_construct","src/config/groups/members.cpp:Members::get_or_construct","src/config/user_groups.cpp:get_or_construct_*, create_group","src/config/convo_info_volatile.cpp:get_or_construct_*"])
p("C110","What a push asks to delete","A push lists only hashes that the application gave to the object at some time (of messages fetched, or of its own messages stored), never an empty one and none twice; a hash is listed again by a later push only if the application mentioned it again or it was still the hash of the current message; after a merge in which every message was reported good, each of those messages is the current one or is listed by the next push; and a push repeated because the upload failed lists the same hashes.","every history of calls, dumps, restarts and promotions of a config","Tests look at the lists of a few histories; this ranges over all of them.",["src/config/base.cpp:ConfigBase::push","src/config/base.cpp:ConfigBase::_merge","include/session/config/base.hpp:ConfigBase::set_state"])
open('/verif/properties.jsonl','w').write(''.join(json.dumps(x)+'\n' for x in P))
print(len(P))
