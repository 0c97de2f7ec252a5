(** C102: members of a group who can only read follow the administrators.  The system is described in NetSpec.v and MemberSpec.v. *)
From Coq Require Import Lia.
From Verif Require Import MemberSpec Maps Redeliver_facts Net_facts Member_facts Toy ToyCrypt ToyBase.

(** Whatever the administrators did, and whatever a member fetched, in whatever order, and from whichever dump it restarted: it
    shows nothing, or exactly what one administrator's config said at one push the member fetched, under that version number;
    and no message it fetched has a higher one.  It never has anything to push. *)
Theorem C102_exact {I : Type} (B : I -> benv) key R (N : net I) H y g : fleet B -> member B R -> reads B key R N H -> no_clash B N -> In (y, g) H ->
  needs_push y = false /\
  (forall n c d, posted B N n c d -> In c g -> (n <= s_seqno y)%Z) /\
  (s_seqno y = 0%Z /\ s_data y = [] \/ (0 < s_seqno y)%Z /\ exists c, In c g /\ posted B N (s_seqno y) c (s_data y)).
Proof.
  intros hf hm h hnc hin. destruct (member_exact B key R hf hm N H y g h hnc hin) as (h1 & h2). split; [|exact h2]. unfold needs_push, is_clean. rewrite h1. reflexivity.
Qed.
Print Assumptions C102_exact.
(** a fetch that brings at least one posted message, or one by a member that has one, succeeds *)
Theorem C102_fetch {I : Type} (B : I -> benv) key R (N : net I) H y g l : fleet B -> member B R -> reads B key R N ((y, g) :: H) -> no_clash B N -> few_calls B N -> from_server (sent N) R y l ->
  (s_seqno y <> 0)%Z \/ (exists h c, In (h, c) l /\ sent N c) -> exists hs y', merge R l y = (Ok hs, y').
Proof. intros hf hm. apply (member_fetch B key R hf hm). Qed.
Print Assumptions C102_fetch.
(** Two members: if the newest message both fetched is the same one, they show the same, which is what that administrator had. *)
Theorem C102_same {I : Type} (B : I -> benv) key R R' (N : net I) H H' y g y' g' n c d : fleet B -> member B R -> member B R' -> reads B key R N H -> reads B key R' N H' -> no_clash B N -> In (y, g) H -> In (y', g') H' ->
  posted B N n c d -> (0 < n)%Z -> In c g -> In c g' -> (forall n1 c1 d1, posted B N n1 c1 d1 -> In c1 g \/ In c1 g' -> c1 = c \/ (n1 < n)%Z) ->
  s_data y = d /\ s_data y' = d /\ s_seqno y = n /\ s_seqno y' = n.
Proof.
  intros hf hm hm' h h' hnc hin hin' hp hn hc hc' htop.
  assert (hone : forall R0 H0 y0 g0, member B R0 -> reads B key R0 N H0 -> In (y0, g0) H0 -> In c g0 -> (forall c1, In c1 g0 -> In c1 g \/ In c1 g') -> s_data y0 = d /\ s_seqno y0 = n).
  { intros R0 H0 y0 g0 hm0 h0 hin0 hc0 hsub. destruct (member_exact B key R0 hf hm0 N H0 y0 g0 h0 hnc hin0) as (_ & q2 & q3). pose proof (q2 n c d hp hc0) as hle.
    destruct q3 as [(q3 & _)|(_ & c1 & q3 & q4)]; [lia|]. destruct (htop _ _ _ q4 (hsub _ q3)) as [->|hlt]; [|lia].
    destruct (posted_unique B key R0 hf hm0 N _ _ _ _ _ (reads_run B key R0 N H0 h0) hnc hp q4) as (<- & <-). auto. }
  destruct (hone R H y g hm h hin hc) as (e1 & e2); [auto|]. destruct (hone R' H' y' g' hm' h' hin' hc') as (e3 & e4); [auto|]. auto.
Qed.
Print Assumptions C102_same.
(** A member that fetches the newest message of all, whatever else it fetches and has fetched, shows it. *)
Theorem C102_follows {I : Type} (B : I -> benv) key R (N : net I) H y g l n c d h : fleet B -> member B R -> reads B key R N ((y, g) :: H) -> no_clash B N -> few_calls B N -> from_server (sent N) R y l -> In (h, c) l ->
  posted B N n c d -> (0 < n)%Z -> (forall n1 c1 d1, posted B N n1 c1 d1 -> c1 = c \/ (n1 < n)%Z) ->
  exists hs y', merge R l y = (Ok hs, y') /\ s_data y' = d /\ s_seqno y' = n.
Proof.
  intros hf hm hr hnc hfew hl hin hp hn htop. destruct (member_fetch B key R hf hm N y g H l hr hnc hfew hl) as (hs & y' & e); [right; exists h, c; split; [exact hin|apply hp]|].
  pose proof (reads_fetch B key R N y g H l (Ok hs) y' hr hl e ltac:(split; discriminate)) as hr'. cbn in hr'. exists hs, y'. split; [exact e|].
  destruct (C102_same B key R R N _ _ y' (map snd l ++ g) y' (map snd l ++ g) n c d hf hm hm hr' hr' hnc (or_introl eq_refl) (or_introl eq_refl) hp hn) as (e1 & _ & e2 & _); auto.
  - apply in_app_iff. left. apply in_map_iff. exists (h, c). auto.
  - apply in_app_iff. left. apply in_map_iff. exists (h, c). auto.
  - intros n1 c1 d1 hp1 _. eapply htop; exact hp1.
Qed.
Print Assumptions C102_follows.

(** ** Two administrators, two members *)
Definition m_b : bool -> benv := fun _ => tb_admin.
Definition m_after (N : net bool) (i : bool) (es : list op) (cs : list bytes) (x : bstate) : net bool :=
  mkNet bool (fun j => if Bool.eqb j i then x else dev N j) (fun c => In c cs \/ sent N c) (es ++ did N) (S (calls N)) (fun j z => past N j z \/ (j = i /\ z = x)).
Definition m_a1 : bstate := Eval vm_compute in after tb_admin (set_name "x") (start tb_admin).
Definition m_cx : bytes := Eval vm_compute in match push tb_admin m_a1 with (Ok (_, c, _), _) => c | _ => [] end.
Definition m_a2 : bstate := Eval vm_compute in snd (push tb_admin m_a1).
Definition m_b1 : bstate := Eval vm_compute in after tb_admin (set_name "y") (start tb_admin).
Definition m_cy : bytes := Eval vm_compute in match push tb_admin m_b1 with (Ok (_, c, _), _) => c | _ => [] end.
Definition m_b2 : bstate := Eval vm_compute in snd (push tb_admin m_b1).
Definition m_a3 : bstate := Eval vm_compute in snd (merge tb_admin [(b "hy", m_cy)] m_a2).
Definition m_cz : bytes := Eval vm_compute in match push tb_admin m_a3 with (Ok (_, c, _), _) => c | _ => [] end.
Definition m_a4 : bstate := Eval vm_compute in snd (push tb_admin m_a3).
Definition m_n0 : net bool := mkNet bool (fun _ => start tb_admin) (fun _ => False) [] 0 (fun _ z => z = start tb_admin).
Definition m_n2 : net bool := m_after (m_after m_n0 true [set_name "x"] [] m_a1) true [] [m_cx] m_a2.
Definition m_n4 : net bool := m_after (m_after m_n2 false [set_name "y"] [] m_b1) false [] [m_cy] m_b2.
Definition m_n6 : net bool := m_after (m_after m_n4 true [] [] m_a3) true [] [m_cz] m_a4.
Lemma m_step N i es cs x : does tb_admin toy_key (sent N) (past N i) (dev N i) es cs x -> sendable (s_data x) -> net_step m_b toy_key N (m_after N i es cs x) i es cs.
Proof.
  intros h1 h2. assert (e : (if Bool.eqb i i then x else dev N i) = x) by (destruct i; reflexivity).
  split; unfold m_after; cbn [dev sent did calls past]; rewrite ?e; try assumption; try reflexivity.
  intros j. destruct i, j; cbn; auto.
Qed.
Lemma m_edit N i o x : is_edit o = true -> op_ok tb_admin o (dev N i) -> run tb_admin o (dev N i) = (Ok tt, x) -> sendable (s_data x) -> net_step m_b toy_key N (m_after N i [o] [] x) i [o] [].
Proof. intros h1 h2 h3 h4. apply m_step; [|exact h4]. apply (does_edit _ _ _ _ _ o (Ok tt)); [exact h1|exact h2|exact h3|split; discriminate]. Qed.
Lemma m_push N i n c o x : push tb_admin (dev N i) = (Ok (n, c, o), x) -> sendable (s_data x) -> net_step m_b toy_key N (m_after N i [] [c] x) i [] [c].
Proof. intros h1 h2. apply m_step; [|exact h2]. apply (does_push _ _ _ _ _ (Ok (n, c, o)) x h1). split; discriminate. Qed.
Lemma m_merge N i h c hs x : sent N c -> merge tb_admin [(h, c)] (dev N i) = (Ok hs, x) -> sendable (s_data x) -> net_step m_b toy_key N (m_after N i [] [] x) i [] [].
Proof.
  intros h0 h1 h2. apply m_step; [|exact h2]. apply (does_merge _ _ _ _ _ [(h, c)] (Ok hs)); [|exact h1|split; discriminate].
  intros h' y [e|[]]. left. assert (y = c) by congruence. subst y. exact h0.
Qed.
Lemma m_admins : peer tb_admin tb_admin.
Proof. split; try reflexivity; [discriminate|discriminate]. Qed.
Lemma m_fleet : fleet m_b.
Proof. split; intros; [exact toy_aead_ok|exact tb_admin_ok|reflexivity|exact m_admins|reflexivity]. Qed.
Lemma m_member : member m_b tb_reader.
Proof. split; [exact tb_reader_ok| |reflexivity]. intros i. split; try reflexivity; [discriminate|discriminate]. Qed.
Lemma m_start : net_start m_b toy_key m_n0.
Proof. split; try reflexivity; intros c []. Qed.
Definition m_published : list bytes := Eval vm_compute in
  map (fun x => match serialize (b_env tb_admin) (s_conf x) true with Ok (s, _) => s | _ => [] end) [start tb_admin; m_a1; m_a2; m_b1; m_b2; m_a3; m_a4].
Lemma m_past i x s c : past m_n6 i x -> serialize (b_env tb_admin) (s_conf x) true = Ok (s, c) -> In s m_published.
Proof.
  intros hp e. cbn [past m_n6 m_n4 m_n2 m_after m_n0] in hp.
  repeat match type of hp with _ \/ _ => destruct hp as [hp|(_ & hp)] end; subst x; vm_compute in e; injection e as <- _; vm_compute; tauto.
Qed.
Lemma m_clash6 : no_clash m_b m_n6.
Proof.
  intros i x j y hx hy s c s0 c0 e e0. apply (no_collision_incl _ m_published); [apply no_collisionb_ok; vm_compute; reflexivity|].
  pose proof (m_past i x s c hx e) as h. pose proof (m_past j y s0 c0 hy e0) as h0. intros z [<-|[<-|[]]]; assumption.
Qed.
Lemma m_few N : (calls N < 100)%nat -> few_calls m_b N.
Proof. intros h i. assert (e : (e_lag (b_env (m_b i)) + 1000 < int64_max)%Z) by (apply Z.ltb_lt; vm_compute; reflexivity). unfold int64_max in e. lia. Qed.
Lemma m_reads2 H : reads m_b toy_key tb_reader m_n0 H -> reads m_b toy_key tb_reader m_n2 H.
Proof.
  intros h. apply (reads_net m_b toy_key tb_reader (m_after m_n0 true [set_name "x"] [] m_a1) m_n2 true [] [m_cx]); [apply (reads_net m_b toy_key tb_reader m_n0 _ true [set_name "x"] []); [exact h|]|].
  - apply m_edit; [reflexivity|reflexivity|vm_compute; reflexivity|vm_compute; reflexivity].
  - apply (m_push _ true 1%Z m_cx []); [vm_compute; reflexivity|vm_compute; reflexivity].
Qed.
Lemma m_reads4 H : reads m_b toy_key tb_reader m_n2 H -> reads m_b toy_key tb_reader m_n4 H.
Proof.
  intros h. apply (reads_net m_b toy_key tb_reader (m_after m_n2 false [set_name "y"] [] m_b1) m_n4 false [] [m_cy]); [apply (reads_net m_b toy_key tb_reader m_n2 _ false [set_name "y"] []); [exact h|]|].
  - apply m_edit; [reflexivity|reflexivity|vm_compute; reflexivity|vm_compute; reflexivity].
  - apply (m_push _ false 1%Z m_cy []); [vm_compute; reflexivity|vm_compute; reflexivity].
Qed.
Lemma m_reads6 H : reads m_b toy_key tb_reader m_n4 H -> reads m_b toy_key tb_reader m_n6 H.
Proof.
  intros h. apply (reads_net m_b toy_key tb_reader (m_after m_n4 true [] [] m_a3) m_n6 true [] [m_cz]); [apply (reads_net m_b toy_key tb_reader m_n4 _ true [] []); [exact h|]|].
  - eapply (m_merge _ true (b "hy") m_cy); [cbn; tauto|vm_compute; reflexivity|vm_compute; reflexivity].
  - eapply (m_push _ true 2%Z m_cz); [vm_compute; reflexivity|vm_compute; reflexivity].
Qed.
Lemma m_fetch N y g H h c hs y' : reads m_b toy_key tb_reader N ((y, g) :: H) -> sent N c -> merge tb_reader [(h, c)] y = (Ok hs, y') -> reads m_b toy_key tb_reader N ((y', c :: g) :: (y, g) :: H).
Proof.
  intros h1 h2 h3. apply (reads_fetch m_b toy_key tb_reader N y g H [(h, c)] (Ok hs) y' h1); [|exact h3|split; discriminate].
  intros h' z [e|[]]. left. assert (z = c) by congruence. subst z. exact h2.
Qed.
Definition m_x : bstate := Eval vm_compute in snd (merge tb_reader [(b "hx", m_cx)] (start tb_reader)).
Definition m_xy : bstate := Eval vm_compute in snd (merge tb_reader [(b "hy", m_cy)] m_x).
Definition m_y : bstate := Eval vm_compute in snd (merge tb_reader [(b "hy", m_cy)] (start tb_reader)).
Definition m_yx : bstate := Eval vm_compute in snd (merge tb_reader [(b "hx", m_cx)] m_y).
Lemma m_start4 : reads m_b toy_key tb_reader m_n4 [(start tb_reader, [])].
Proof. apply m_reads4, m_reads2. apply reads_start. exact m_start. Qed.
Lemma m_reads_xy : reads m_b toy_key tb_reader m_n4 [(m_xy, [m_cy; m_cx]); (m_x, [m_cx]); (start tb_reader, [])].
Proof. eapply (m_fetch _ _ _ _ (b "hy")); [eapply (m_fetch _ _ _ _ (b "hx")); [exact m_start4|cbn; tauto|vm_compute; reflexivity]|cbn; tauto|vm_compute; reflexivity]. Qed.
Lemma m_reads_yx : reads m_b toy_key tb_reader m_n4 [(m_yx, [m_cx; m_cy]); (m_y, [m_cy]); (start tb_reader, [])].
Proof. eapply (m_fetch _ _ _ _ (b "hx")); [eapply (m_fetch _ _ _ _ (b "hy")); [exact m_start4|cbn; tauto|vm_compute; reflexivity]|cbn; tauto|vm_compute; reflexivity]. Qed.
Lemma m_clash4 : no_clash m_b m_n4.
Proof. apply (no_clash_earlier m_b m_n4 m_n6); [|exact m_clash6]. intros j x h. cbn in *. tauto. Qed.
(** Two administrators push rival versions.  Two members fetch both, one after the other, in different orders: each keeps
    the one it fetched first, and they go on showing different things. *)
Theorem C102_tie_refuted : ~ (forall (B : bool -> benv) key R R' (N : net bool) H H' y g y' g', fleet B -> member B R -> member B R' -> reads B key R N ((y, g) :: H) -> reads B key R' N ((y', g') :: H') -> no_clash B N -> few_calls B N ->
  (forall c, sent N c -> In c g /\ In c g') -> s_data y = s_data y').
Proof.
  intros h. specialize (h m_b toy_key tb_reader tb_reader m_n4 _ _ _ _ _ _ m_fleet m_member m_member m_reads_xy m_reads_yx m_clash4 (m_few m_n4 ltac:(cbn; lia))).
  assert (e : s_data m_xy = s_data m_yx); [apply h; intros c hc; cbn in *; tauto|]. vm_compute in e. discriminate.
Qed.
Print Assumptions C102_tie_refuted.
(** once an administrator has reconciled them, both follow *)
Example ex_C102 : fleet m_b /\ member m_b tb_reader /\ few_calls m_b m_n6 /\ no_clash m_b m_n6 /\ s_data m_xy = [(b "n", VScal (SStr (b "x")))] /\ s_data m_yx = [(b "n", VScal (SStr (b "y")))] /\
  posted m_b m_n6 2 m_cz (s_data m_a4) /\ s_data m_a4 <> [] /\
  (exists hs y', merge tb_reader [(b "hz", m_cz); (b "hx", m_cx)] m_xy = (Ok hs, y') /\ s_data y' = s_data m_a4 /\ s_seqno y' = 2%Z) /\
  (exists hs y', merge tb_reader [(b "hy", m_cy); (b "hz", m_cz)] m_yx = (Ok hs, y') /\ s_data y' = s_data m_a4 /\ s_seqno y' = 2%Z).
Proof.
  split; [exact m_fleet|]. split; [exact m_member|]. split; [apply m_few; cbn; lia|]. split; [exact m_clash6|]. split; [reflexivity|]. split; [reflexivity|].
  assert (hp : posted m_b m_n6 2 m_cz (s_data m_a4)) by (split; [cbn; tauto|]; exists true, m_a3; do 2 eexists; split; [cbn; tauto|]; split; [vm_compute; reflexivity|vm_compute; reflexivity]).
  split; [exact hp|]. split; [discriminate|].
  assert (htop : forall n1 c1 d1, posted m_b m_n6 n1 c1 d1 -> c1 = m_cz \/ (n1 < 2)%Z).
  { intros n1 c1 d1 (hc & i & x & o & x' & hx & e & _). unfold m_b in e. cbn [past m_n6 m_n4 m_n2 m_after m_n0] in hx.
    repeat match type of hx with _ \/ _ => destruct hx as [hx|(_ & hx)] end; subst x; vm_compute in e; injection e as <- <- _ _; (right; reflexivity) || (left; reflexivity). }
  split.
  - apply (C102_follows m_b toy_key tb_reader m_n6 _ m_xy _ [(b "hz", m_cz); (b "hx", m_cx)] 2 m_cz _ (b "hz") m_fleet m_member (m_reads6 _ m_reads_xy) m_clash6); [apply m_few; cbn; lia| |left; reflexivity|exact hp|reflexivity|exact htop].
    intros h z hin. left. cbn in hin |- *. intuition congruence.
  - apply (C102_follows m_b toy_key tb_reader m_n6 _ m_yx _ [(b "hy", m_cy); (b "hz", m_cz)] 2 m_cz _ (b "hz") m_fleet m_member (m_reads6 _ m_reads_yx) m_clash6); [apply m_few; cbn; lia| |right; left; reflexivity|exact hp|reflexivity|exact htop].
    intros h z hin. left. cbn in hin |- *. intuition congruence.
Qed.
