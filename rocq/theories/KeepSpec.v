(** Vocabulary of C103.  Definitions only. *)
From Verif Require Export RecordsSpec UserGroupsSpec.
From Verif Require Export BaseSpec.
From Verif Require Import Crypt_facts.

(** everything the application can read, before and after *)
Definition same_contacts (st st' : bstate) : Prop := (forall sid, contacts_get st' sid = contacts_get st sid) /\ contacts_list st' = contacts_list st.
Definition same_members (st st' : bstate) : Prop := (forall sid, members_get st' sid = members_get st sid) /\ members_list st' = members_list st.
Definition same_groups (pub : bytes -> bytes) (st st' : bstate) : Prop :=
  (forall sid, group_get pub st' sid = group_get pub st sid) /\ (forall sid, legacy_get st' sid = legacy_get st sid) /\
  (forall url room, comm_get st' url room = comm_get st url room) /\ all_groups pub st' = all_groups pub st.

(** [st'] is [st] after a push; or an object made from a dump of [st]; or another device, on which nothing was unsaved, after
    it fetched what [st] published, which was new to it (the conditions are those of C36_joins) *)
Inductive handed_on (B : benv) (st st' : bstate) : Prop :=
| on_push x : push B st = (Ok x, st') -> handed_on B st st'
| on_restart ks d st1 : dump B st = (Ok d, st1) -> (N.of_nat (length d) < 2 ^ 64)%N -> restore B ks d = Ok st' -> handed_on B st st'
| on_fetch R n c o st2 r h hs : aead_ok (b_aead B) -> benv_ok R -> peer B R -> life R tame r -> readonly B = false -> s_state r <> Dirty -> s_state st = Dirty ->
    push B st = (Ok (n, c, o), st2) -> (forall k rest, s_keys st = k :: rest -> opens B R r k c) -> (s_seqno r < n)%Z ->
    (s_seqno r = 0%Z \/ (s_seqno r + e_lag (b_env B) <= n)%Z \/ readonly R = true) -> (n + e_lag (b_env B) < 2 ^ 63)%Z -> apart_hashes B st R r ->
    merge R [(h, c)] r = (Ok hs, st') -> handed_on B st st'.
