(** A group: the keys object together with its info and members configs, which it hands the key list to
    (src/config/groups/keys.cpp 56-62, 396-403, 1106-1110), and what can happen to the three.  Definitions only. *)
From Verif Require Export KeysSpec BaseSpec.

Record group := mkGroup { gr_keys : kobj; gr_info : bstate; gr_members : bstate }.
(** replace_keys on one of the two configs; an exception (which cannot happen: see C67) would leave it as it is *)
Definition give (B : benv) (ks : list bytes) (dirty_config : bool) (st : bstate) : bstate := snd (replace_keys B ks dirty_config st).
(** one call on one of the three objects.  [Bi], [Bm]: the environments of the two configs at that moment (whether they
    can sign changes with load_admin_key).  Loading a dump comes with freshly constructed configs. *)
Inductive gstep (G : gcrypt) : group -> group -> Prop :=
| gs_load Bi Bm h data ts g found o' : load_key_message G h data ts (gr_keys g) = Ok (found, o') ->
    gstep G g (if found then mkGroup o' (give Bi (group_keys o') false (gr_info g)) (give Bm (group_keys o') false (gr_members g))
               else mkGroup o' (gr_info g) (gr_members g))
| gs_rekey Bi Bm sids g m o' : rekey G sids (gr_keys g) = Ok (m, o') ->
    gstep G g (mkGroup o' (give Bi (group_keys o') true (gr_info g)) (give Bm (group_keys o') true (gr_members g)))
| gs_dump g : gstep G g (mkGroup (dumped (gr_keys g)) (gr_info g) (gr_members g))
| gs_admin secret g o' : load_admin_key G secret (gr_keys g) = Ok o' -> gstep G g (mkGroup o' (gr_info g) (gr_members g))
| gs_restart Bi Bm g i m o' : (N.of_nat (length (kdump (gr_keys g))) <= uint64_max)%N -> load_dump (kdump (gr_keys g)) (KeysSpec.fresh (gr_keys g)) = Ok o' ->
    NoDup (s_keys i) -> NoDup (s_keys m) ->
    gstep G g (mkGroup o' (give Bi (group_keys o') false i) (give Bm (group_keys o') false m))
| gs_info Bi o x g i' : key_op o = false -> run Bi o (gr_info g) = (x, i') -> gstep G g (mkGroup (gr_keys g) i' (gr_members g))
| gs_members Bm o x g m' : key_op o = false -> run Bm o (gr_members g) = (x, m') -> gstep G g (mkGroup (gr_keys g) (gr_info g) m').
Inductive greach (G : gcrypt) : group -> Prop :=
| gr_start user pk sk i m : length user = 64 -> length pk = 32 -> match sk with Some s => length s = 64 | None => True end ->
    s_keys i = [] -> s_keys m = [] -> greach G (mkGroup (new_keys user pk sk) i m)
| gr_step g g' : greach G g -> gstep G g g' -> greach G g'.
