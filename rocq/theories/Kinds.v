(** The kinds of configs and what tells them apart: the overrides of storage_namespace(), encryption_domain(),
    accepts_protobuf() in include/session/config/*.hpp, and how ConfigBase uses them (src/config/base.cpp 65-88, 127-141,
    286-297, 617-619, 737-739).  Definitions only. *)
From Verif Require Export Base Proto.

(** the subclasses of ConfigBase *)
Inductive kind := UserProfile | ContactList | ConvoInfo | UserGroupList | GroupInfo | GroupMembers.
(** encryption_domain(): user_profile.hpp 70, contacts.hpp 141, convo_info_volatile.hpp 194, user_groups.hpp 285,
    groups/info.hpp 80, groups/members.hpp 315 *)
Definition domain_of (K : kind) : bytes :=
  match K with
  | UserProfile => b "UserProfile"
  | ContactList => b "Contacts"
  | ConvoInfo => b "ConvoInfoVolatile"
  | UserGroupList => b "UserGroups"
  | GroupInfo => b "groups::Info"
  | GroupMembers => b "groups::Members"
  end.
(** storage_namespace(): user_profile.hpp 60, contacts.hpp 131, convo_info_volatile.hpp 184, user_groups.hpp 275,
    groups/info.hpp 70, groups/members.hpp 305, with the numbers of namespaces.hpp 7-20 *)
Definition namespace_of (K : kind) : Z :=
  match K with
  | UserProfile => 2
  | ContactList => 3
  | ConvoInfo => 4
  | UserGroupList => 5
  | GroupInfo => 13
  | GroupMembers => 14
  end%Z.
(** namespaces.hpp 14-17: GroupMessages, and GroupKeys (groups/keys.hpp 198) *)
Definition GROUP_MESSAGES : Z := 11.
Definition GROUP_KEYS : Z := 12.
(** accepts_protobuf(): base.hpp 207 (false), user_profile.hpp 191, contacts.hpp 326, convo_info_volatile.hpp 527,
    user_groups.hpp 564 (true) *)
Definition accepts_protobuf (K : kind) : bool := match K with GroupInfo | GroupMembers => false | _ => true end.
(** base.hpp 869, 882: compression_level() and config_lags() are overridden nowhere *)
Definition LEVEL : option Z := Some 1%Z.
Definition LAG : Z := 5.
(** base.cpp 292-300: wrap_config threw, so push throws: any message above the limit does the same here *)
Definition unwrappable : bytes := repeat NUL (N.to_nat (MAX_MESSAGE_SIZE + 1)).
(** base.hpp: the object of each kind.  [S], [A]: libsodium; [z], [unz]: zstd; the signing functions are those of
    set_sig_keys.  An exception of wrap_config leaves push as one: here, as the result is too long to be pushed (base.cpp 292-300). *)
Definition kind_env (K : kind) (S : ecrypt) (A : aead) (hash : bytes -> bytes) (verifier : option (bytes -> bytes -> bool)) (signer : option (bytes -> bytes))
    (z : bytes -> bytes) (unz : bytes -> option bytes) : benv :=
  mkBenv (mkEnv hash verifier signer LAG) A (domain_of K) LEVEL z unz (accepts_protobuf K)
    (fun k n c => match wrap_config S k c n (namespace_of K) with Ok w => w | _ => unwrappable end)
    (fun k w => match unwrap_config S k w (namespace_of K) with Ok c => Some c | _ => None end).
(** base.cpp 617-619 config_storage_namespace (the enum is an int16_t), 737-739 config_encryption_domain *)
Definition c_storage_namespace (K : kind) : Z := namespace_of K.
Definition c_encryption_domain (K : kind) : bytes := domain_of K.
