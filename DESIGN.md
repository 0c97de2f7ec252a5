# Formal model of libsession-util in Rocq (Coq 8.16.1)

Source: `/repo` (C++), read as text.  Nothing is built or run; the tie between model and code is the
citation (file and lines) carried by every definition, and the seeded-bug log (`seeded/LOG.jsonl`).

## Trusted base

* Coq's kernel (and `coqchk`, which `vcheck` runs).
* Axioms: **none**.  `Print Assumptions` follows every property theorem and prints "Closed under the global
  context" for each.  vcheck lists seven constants `Coq.ssr.ssrunder.Under_rel.*`: they are the fields of a module
  parameter in Coq's own `ssrunder.v`, which the standard library loads (through `Lia`/`Zify`'s ssreflect
  dependencies); no theorem here depends on them.  Only Coq's standard library is used.
* The model itself: that each definition does what the cited lines do.
* What is not in `/repo` and therefore modelled from its documentation (see below): oxenc (bencode, hex, base64,
  base32z), libsodium, nettle, zstd, protobuf's wire format, nlohmann::json.
* The laws assumed of cryptographic primitives.  They are never axioms: each is a field of a record
  (`env_ok`, `aead_ok`, `benv_ok`, `ec_ok`, `o_ok`, ...) that appears as an explicit hypothesis of the theorems that need it,
  and a small executable instance (`Toy*.v`) is proved to satisfy every such record, so the hypotheses are consistent.

## Layout (`/verif/rocq/theories`)

Model files contain definitions only.  `*Spec.v` files contain the vocabulary the statements use, independent of the
model's helpers.  `*_facts.v` files contain lemmas.  `Properties_*.v` contain the property theorems (`Cnn_...`), each followed by
`Print Assumptions`, and examples showing that the hypotheses are met by concrete cases.  A suffix `_partial` marks a
theorem weaker than the English property; `_refuted` marks a proof that the English property is false of the code.

| model | vocabulary | properties | what it models |
|---|---|---|---|
| `Bytes`, `Maps` | | | byte strings, their unsigned order, `std::map`/`std::set` as strictly sorted lists |
| `Data` | `Spec` | `Properties_data` (C01-C04, C06) | `dict/set/scalar`, prune, diff, apply_diff: src/config.cpp 28-157, 359-429 |
| `Bt` | `Spec` | `Properties_data` | bencode producer and consumers (oxenc) at byte level |
| `Message` | `Spec` | `Properties_message` (C05, C07-C12, C21) | ConfigMessage: src/config.cpp 160-345, 432-565, 720-800 |
| `Merge` | `Spec` | `Properties_merge` (C13-C20, C22, C61, C62) | the merging constructor: src/config.cpp 567-718 |
| `Crypt` | | `Properties_crypt` (C34, C35, C63) | src/config/encrypt.cpp, padding, compression marker |
| `Fields`, `Base` | `BaseSpec` | `Properties_base` (C23-C26, C28, C31-C33), `Properties_sync` (C27, C29, C30, C36, C37, C68) | ConfigBase and its field proxies: src/config/base.cpp 26-598, base.hpp |
| `Hex`, `Pubkey` | `CommunitySpec` | `Properties_urls` (C58) | src/config/internal.cpp 14-60, hex/base64/base32z |
| `Multi` | `KeysSpec` | `Properties_keys` (C60) | src/multi_encrypt.cpp, multi_encrypt.hpp |
| `GroupKeys`, `Sub`, `Group` | `KeysSpec` | `Properties_keys` (C38-C46, C64-C67) | src/config/groups/keys.cpp |
| `Records`, `Contacts`, `Members`, `Profile` | `RecordsSpec` | `Properties_records` (C48-C51, C54, C55, C59) | contacts.cpp, groups/members.cpp, user_profile.cpp, groups/info.cpp, internal.cpp 62-136 |
| `Community` | `CommunitySpec` | `Properties_urls` (C47) | community.cpp |
| `UserGroups` | `UserGroupsSpec` | `Properties_groups` (C52, C59) | user_groups.cpp |
| `Convo` | `ConvoSpec` | `Properties_convo` (C53, C59) | convo_info_volatile.cpp; the clock is an argument |
| `BtMerge` | | `Properties_btmerge` (C56) | bt_merge.cpp |
| `Ed` | `EdSpec` | (used below) | the parts of libsodium the protocols are built on |
| `SessEnc` | `SessSpec` | `Properties_session` (C69-C71) | session_encrypt.cpp, ed25519.cpp, curve25519.cpp, hash.cpp |
| `Proto` | `SessSpec` | `Properties_protos` (C57) | protos.cpp and the protobuf wire format of five messages |
| `Blind` | `BlindSpec` | `Properties_blind` (C72-C76) | blinding.cpp, the blinded parts of session_encrypt.cpp, xed25519.cpp, keys.cpp 656-773 |
| `Json` | | (used below) | nlohmann::json dump and parse |
| `Onion` | `OnionSpec` | `Properties_onion` (C77-C80) | src/onionreq/*.cpp |
| `Prime`, `PrimeL` | | | Pocklington's criterion; the order of the Ed25519 base point is prime |
| `Toy`, `ToyCrypt`, `ToyBase`, `ToyKeys`, `ToyEd` | | | executable instances of the crypto laws, used in examples and refutations |

## Modelling conventions

* Bytes are `list ascii`; `std::string`/`ustring` comparison is unsigned lexicographic.
* `std::map`/`std::set` are strictly sorted lists, so equal maps are equal terms.
* Integers are `Z`/`N`/`nat`; where the C++ type is bounded and the bound matters the range is a hypothesis or an
  explicit check in the model.
* Outcomes of a call: `Ok`, `Err` (an exception the caller catches), `Throw` (any other exception), `UB` (undefined
  behaviour), `Hang` (non-termination).
* Randomness and the clock are arguments.  Callbacks and subclass hooks are fields of an environment record.
* Histories: `BaseSpec.v` defines the calls on a config object (edits, merge, push, confirm, dump + restart, key calls) and
  what a life is; "every history" theorems are inductions over lists of those calls.  The same for groups (`Group.v`),
  records (`RecordsSpec.v`, `UserGroupsSpec.v`, `ConvoSpec.v`) and builders (`OnionSpec.v`).

## Simplifications and idealisations

* Hashes (BLAKE2b, SHA-512, HMAC) are functions with given output lengths; collision resistance is a hypothesis only where
  a theorem says so (e.g. `consistent` in C15: equal hashes mean equal messages).
* AEADs decrypt what they encrypted, have 16 bytes of overhead and (`ao_only`, `oo_*_inv`) accept only the ciphertexts they
  produce for the same key and nonce, which holds for XChaCha20-Poly1305 and AES-GCM.  `binding` in the group key and
  multi-recipient theorems says more: a ciphertext opens under one key only.  That is an idealisation (these AEADs are not
  key-committing); it is a hypothesis of exactly the theorems that need it.  `closed_to`, `filler_closed`, `sealed_off`, `keys_apart` and `collision_free` (C106-C108) say
  the same of the keys and messages concerned only; being about every text, they too are idealisations (2^-128 per text).
* Signatures in `Message`/`Base`/`GroupKeys` are verification predicates with the law "what was signed verifies"; in
  `Ed.v` signing and verification are the Schnorr equations over the scalar field.
* `Ed.v`: the prime-order subgroup is Z/L with an abstract injective encoding; `ec_log` is the discrete logarithm, so a
  point outside the subgroup is one without logarithm; X25519 is the map that forgets the sign.  L is proved prime.
  Scalars zero modulo L (2^-252 events: nonces, blinding factors) are excluded by `nonce_ok`/`factor_ok`.  Non-canonical encodings
  of public keys are not modelled.
* zstd: decompression inverts compression (`zstd_ok`).
* `Proto.v`: sub-messages of Content other than SharedConfigMessage are unknown fields; messages are below 2 GiB.
* `Blind.v`: the base64 output of swarm_subaccount_sign is the three byte strings before encoding.
* `Json.v` follows nlohmann::json's documentation (RFC 8259; last of equal keys counts; NUL ends the input; numbers must fit a double).
* `Onion.v`: that `build` keeps the key pair also when a later step throws is not modelled.
* oxenc: `consume_key`/`is_finished` and integer range errors throw `bt_deserialize_invalid`; nested values are validated in
  full when skipped; constructing a dict consumer on something that is not a dict throws `std::runtime_error`;
  `get_int` overflow throws `std::overflow_error`.
* Memory exhaustion, threads and logging are not modelled.  The library is single-threaded by contract.

## Not modelled

The C API except where a property says so (C49, C50, C81-C90, C93, C94, C104, C107: all the config, group, keys, community, encryption and
onion wrappers that do more than pass values through), `src/random.cpp`, `sodium_array.hpp`'s sodium_ptr, the loggers.  Not expressible in the model: secrecy and unforgeability of the
cryptography, side channels, memory zeroing, third-party code.

## How each property is proved

* C01-C05: structural induction on data trees; C05 by the invariant that data is pruned.
* C06-C08: encoder and parser are inverse, by induction on values; canonicality by induction on the parse.
* C09-C12: message level on top of the codec.  C10 is false of the code (refuted by a witness).
* C13-C20: the merging constructor as a function of the list of messages; order independence because each stage depends only on
  the set of messages.  C18, C20, C21, C22 false in part (witnesses), with the true part proved.
* C23-C33, C36, C37, C68: ConfigBase as a state machine, invariants by induction over histories.
* C34, C35, C63: framing arithmetic.
* C38-C46, C64-C67: group keys as functions on sorted lists; order independence by permutation arguments; delivery through the
  multi-recipient codec; subaccount tokens by the laws of `Ed.v` (C76 discharges the law C67 assumes).
* C47, C58: string functions; grammar given separately in `CommunitySpec.v`.
* C48-C55, C59: records as functions into and out of data trees; a refinement from command sequences to an abstract store.
* C56, C57, C60: list and byte-level induction.
* C61, C62: refuted by witnesses.
* C69-C76: algebra over Z/L, Diffie-Hellman symmetry, Schnorr equation; primality of L excludes zero divisors.
* C77-C80: induction over the path; JSON reader inverse to writer; key decoding exact.
* C81: blocks of memory as byte lists with the pointers inside them; reading them back as a C caller does; config_dump and reopening from its block.
* C82-C84: C structs as records of byte arrays (`CStruct.v`), error buffers as the bytes of the buffer and what lies after it; the member iterator by
  induction on what is left; round trips by composing the conversions with C52 and C53.
* C85, C86: a C function is the C++ function followed by writes into the caller's buffers (`COut.v`), a write past the end being `UB`; sizes of
  every result from the laws of the cryptographic operations.
* C87, C88: the C setters of the record configs, the user profile and the group info (`CInfo.v`) are total on every editable reachable state, from the
  totality of `edit`; each uncaught exception gets a refutation. C88 is a refinement of the command-list theorems of C51 and C55 to C strings and structs.
* C89: the iterators of the record configs (`Iter.v`) are modelled as positions with begin/done/deref/advance/compare, deref and advance at the end being
  UB; the walk relation and `visits` (`IterSpec.v`) are independent of the code, and `Iter_facts.v` proves by induction over the stored dicts that a walk is C59's list.
* C90: the key state of ConfigSig (`Sig.v`) determines the environment the object's calls run in; `life` (BaseSpec.v) has a constructor for a reader that gets the
  signing key, so every theorem about reachable objects covers promoted ones; promotion keeps the invariants (`inv1_promote`), and C36 then gives replication.
* C91: families of devices indexed by any type (`ConvergeSpec.v`: `group`, `all_push`, `all_fetch`, `all_merge`); order independence (C05) applied to the set of the published messages, which each device's own
  message belongs to; the merged seqno makes the second exchange a plain adoption.
* C92: `plain_msg` describes the change records the library writes; replaying such records never throws (`Plain_facts.v`), and an invariant over a life keeps own messages plain.  `decent`: plain or rejected.
* C93: the constructors (`Open.v`) put together from `restore`, `add_key` and `init_sig_keys`; `device` (OpenSpec.v) is the history of one device of an account, shown to be a `life` with one key, so that C91
  applies without assumptions on keys.  The C functions as in C86: buffers as byte lists, `UB` for a write outside.  A heap of block numbers for init/free.
* C94: the three objects of a group as one record (`GroupObj.v`: the calls that touch several of them, made from the models of Keys, of the
  configs and of the signing keys); `device3` (GroupObjSpec.v) is the history of one device, shown to keep each config a `life`, with the keys and signing keys of the Keys object;
  then C31/C44/C65 apply.  The session ids a rekey encrypts for are read from the member config itself.
* C95: one field as a path (`FieldSpec.v`: `shaped`, `value_at`, `keeps`, `round`); an invariant of every life says that the change history in a config fits its
  data at that path (`orderly`); what a device publishes after edits lists the change from the common base, so in the replay the last change that mentions
  the field decides and an untouched field is not mentioned (`Field_facts.v`, `Field3_facts.v: round_field`).  Records are handled by extensionality over all fields
  `[k; id; f]`.  Rounds chain because the hash each config would list for its own message is that of the bytes it publishes (`Field4_facts.v: hashed`).
* C96: one element of one set (`ElemSpec.v`: `has`, `says`, `remains`, `set_round`); an invariant of every life (`inv10`) says that the last word of the change history
  about the element agrees with the data and that sets the history touches are still there; from it, replaying any conflict gives the base with all additions and
  removals (`round_elem`).  The two provisos on edits are shown necessary by two-device histories computed in the model (`C96_*_refuted`).
* C97, C98, C99: the whole system (`NetSpec.v`: `net`, `net_step`, `net_run`) is the devices, everything ever pushed, and every state each device was ever in; a step is any call on any
  device, or a restart of it from a dump of any of its past states (a crash that loses work).  Invariants over all runs: every past state is a `plainly` life with seqno at most the number
  of calls, and everything pushed is what some past state publishes (`net_inv`, C97); the messages any state includes are published ones and closed under inclusion within the lag window
  (`inv11`, C99); every leaf of the data, of the base of the next diff, and of each recorded change is in `edited o []` for an edit `o` of the log (`inv12`, C98).  Assumed: one
  key per account (shown in C93), no collision of BLAKE2b among published messages, room in the 64-bit seqno.
* C100: schedules of the same system in which one device edits (`SoloSpec.v`: `solo_run`).  Invariant (`solo_inv`): the published messages are totally ordered by "lists the other one, or
  is at least the lag window newer" (`over`), the editing device's present message is on top, and every other device holds a published one; `top_wins` shows that merging a list with a
  top adopts it.  `C100_lost_refuted` runs three devices through a lost update.
* C101: schedules of the same system in which the devices take turns (`TurnSpec.v`: `turn_run`; `newest` says in terms of `merge` that nothing on the server would bring the device a newer version).  The
  invariant (`turn_inv` in `Turn_facts.v`) is that of C100 with the writer replaced by whoever has edits to push, plus: the message on top, or the state of the device with edits, shows what the
  edits of all devices show when made one after the other (`replayed`); edits respect "shows the same" (`edited_same`).
* C102: the administrators are a `fleet` under every schedule (`NetSpec.v`); a member (`MemberSpec.v`: `reads`) has a verifier and no signer, and keeps for each of its states what it had merged by then, so that a restart from an old dump goes back to what that dump had merged.  `posted` says what an administrator's config said when it pushed.  Invariant (`Member_facts.follows`): the member's config is the fresh one or re-serialises to the bytes of one fetched message, and its version number bounds those of all fetched messages; kept by merging (the merging constructor of a reader picks the highest (seqno, hash) of the messages not included in others), by the calls that do not change it and by dump and restore, which keep the signature.  The counterexample runs the model with two rival messages.
* C103: no new model.  Pruning (Data.v `prune`) keeps every scalar, so reading a record commutes with it (`Keep_facts.contact_prune` etc.) unless the record itself vanishes; invariant `lively`: every stored record has something left after pruning.  It holds when nothing is unsaved (the data are then pruned) and every setter writes at least one scalar (the name, or a group's key field).  Push, dump and restore, and a fetch (C36_joins) give the data up to pruning (`handed_on`).

- **C104** (Arrays.v, ArraySpec.v, Array_facts.v, Properties_array.v): sodium_array<unsigned char> over a pool of buffers whose addresses are
  not reused; programs are lists of statements on named arrays, with exceptions when memory runs out.  Refinement to "a variable that holds
  bytes", by an invariant (the arrays' buffers are a permutation of what is allocated).  Move assignment lacks its return statement, so it is
  undefined behaviour: C104_assign_refuted.  Not modelled: element types other than bytes, self-aliasing load (excluded by its comment),
  sodium_ptr (does not compile when used), the zeroing done by libsodium.
- **C105** (same files): exact characterisations of the three string helpers and of SessionID::hex; starts_with and hex are wrong
  (C105_starts_with_refuted, C105_session_id_refuted).
- **C106** (LeftSpec, Left_facts, Properties_left): the key messages are those the model's rekey and key_supplement really make; reading one
  without an entry that opens gives no keys, expiry only removes keys.  The encryption hypotheses (closed_to, filler_closed) speak about the
  finitely many people listed in each message and about the entries of each message, since with 16-byte tags they cannot hold for all
  keys and texts at once; the example meets them.  Left2Spec, Left2_facts, Properties_removed carry this to the group's configs: the device
  states are those of C94 (device3), the config message is one that push really makes, and the merge with it equals the merge without it.
- **C107** (Kinds, KindSpec, Properties_kinds): Kinds.v has the overrides of the six ConfigBase subclasses and instantiates the ConfigBase environment
  with them and with the modelled protobuf wrapping (Proto.v).  The key derivation is injective in (key, size, domain), so different domains
  give different hash inputs; what is assumed of BLAKE2b and the AEAD is keys_apart.  C107_same_kind discharges the wrapping
  assumption of `peer` (several devices of one config) with the library's own wrap_config and unwrap_config.
- **C108** (Sub, SubSpec, Properties_sub): the signing value, the token and the accepted values are spelled out in SubSpec from the comments of keys.cpp
  and keys.hpp (rights, blinding factor, account ids as hex) and each function is shown to return exactly them; C46_exact says which values are accepted.
  That different members and groups get different factors is stated for any finite set of memberships on which the hash does not collide.
- C109: `Make.v` models the get-or-construct functions in C++ and C, `create_group`, `set_kicked` and the community overloads that
  take a key as text or a full URL. `Properties_make.v` states them against the lookups already modelled and blank records written out
  field by field; validity of an id is `account_of` of SubSpec. It also holds C46_c, the C form of checking a signing value.
- `Properties_more.v`: C39_current_hashes and C39_hashes_to_keep (which hashes a client is told to keep alive, in terms of the messages
  it received), C47_from_full_url, C59_more_sizes, C84_convo_community_get and its refutation for a conversation without a key, C90_seed_hash.
- C110: `DeleteSpec.v` says which hashes a call gives to the object; an invariant over `life` (Delete_facts.v) says that the current hash
  and the obsolete ones are among them. C110_retry_refuted is the finding that a repeated push lists nothing.
  C110_superseded is the converse (nothing superseded is forgotten), for merges in which every message was reported good.

## Testing the theorems

`tools/seed.py` copies the development, applies one edit to a model definition and rebuilds (facts that fail are
reported with the property theorems that can no longer be proved); results are in `seeded/LOG.jsonl`, with the theorems tightened.

## Bugs and surprises found in the code

Each is a `_refuted` theorem unless marked (note): see MANIFEST.json for the list by property.  Not in the model (notes): the community C API does not
validate room lengths; `starts_with` in util.hpp compares the wrong way round for prefixes longer than the string;
`sodium_array`'s move assignment lacks a return; loading an administrator's keys reads uninitialised members; `set_full_url`
assigns the base URL before the room is validated; response_parser.cpp rethrows by value, slicing the exception; setters
of the onion request C API let exceptions escape.
