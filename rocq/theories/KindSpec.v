(** Vocabulary: messages for one kind of config given to another. *)
From Verif Require Export Left2Spec Kinds SessSpec.

(** What is assumed of the libraries about the keys derived from [k] under domain [d] and from the reader's [ks] under domain
    [d']: BLAKE2b gives different keys for different inputs (each the key, the size and the domain, one after the other), and what
    is encrypted with one does not open under the other, if they are different. *)
Record keys_apart (A : aead) (ks : list bytes) (d' k d : bytes) : Prop := {
  ka_hash : forall k' size, In k' ks -> k' ++ be64 size ++ d' <> k ++ be64 size ++ d -> a_hash32 A (k' ++ be64 size ++ d') <> a_hash32 A (k ++ be64 size ++ d);
  ka_open : forall k' n t, In k' ks -> config_key A k' (length t) d' <> config_key A k (length t) d ->
    a_open A (config_key A k' (length t) d') n (a_seal A (config_key A k (length t) d) n t) = None
}.
(** the merge is what it would be if the message were not there *)
Definition no_part (B : benv) (st : bstate) (m : bytes * bytes) : Prop := forall l1 l2, merge B (l1 ++ m :: l2) st = merge B (l1 ++ l2) st.
