(** C77 to C80: onion requests.  Statements; proofs in Onion_facts.v. *)
From Verif Require Import OnionSpec Json_facts Ed_facts SessEnc_facts Hex_facts Pubkey_facts Blind_facts CommunitySpec Onion_facts Toy ToyCrypt ToyKeys ToyEd.
From Verif Require Records_facts.
From Coq Require Import Lia ZArith.
Open Scope nat_scope.

(** ** the builder *)
Lemma brun_snoc t ops o : brun t (ops ++ [o]) = bapply (brun t ops) o. Proof. unfold brun. rewrite fold_left_app. reflexivity. Qed.
Lemma brun_hops t ops : bd_hops (brun t ops) = hops_of ops.
Proof.
  induction ops as [|o ops IH] using rev_ind; [reflexivity|]. rewrite brun_snoc. unfold hops_of. rewrite flat_map_app. fold (hops_of ops). rewrite <- IH. destruct o; cbn [bapply flat_map app add_hop set_snode set_server set_enc_type bd_hops]; rewrite ?app_nil_r; reflexivity.
Qed.
Lemma brun_enc t ops : bd_enc (brun t ops) = enc_of t ops.
Proof. induction ops as [|o ops IH] using rev_ind; [reflexivity|]. rewrite brun_snoc. unfold enc_of. rewrite fold_left_app. fold (enc_of t ops). rewrite <- IH. destruct o; reflexivity. Qed.
Lemma dest_snoc ops o : dest_of (ops ++ [o]) = match o with ToSnode _ _ | ToServer _ _ _ _ _ => Some o | _ => dest_of ops end.
Proof. unfold dest_of. rewrite fold_left_app. destruct o; reflexivity. Qed.
Lemma brun_snode t ops ed pk : Forall (fun o => ~ is_server o) ops -> dest_of ops = Some (ToSnode ed pk) -> bd_host (brun t ops) = None /\ bd_ed (brun t ops) = Some ed /\ bd_dest (brun t ops) = Some pk.
Proof.
  intros hf hd. assert (hh : bd_host (brun t ops) = None).
  { clear hd. induction ops as [|o ops IH] using rev_ind; [reflexivity|]. apply Forall_app in hf as [h1 h2]. rewrite brun_snoc. inversion h2 as [|? ? ho _]; subst. destruct o; cbn [bapply add_hop set_snode set_server set_enc_type bd_host]; try (apply IH; exact h1). exfalso. apply ho. exact I. }
  split; [exact hh|]. clear hh. induction ops as [|o ops IH] using rev_ind; [discriminate|]. apply Forall_app in hf as [h1 h2]. rewrite dest_snoc in hd. rewrite brun_snoc. inversion h2 as [|? ? ho _]; subst.
  destruct o as [e k|e k|h tg pr po k|t']; cbn [bapply add_hop set_snode set_server set_enc_type bd_ed bd_dest]; [apply IH; assumption| |exfalso; apply ho; exact I|apply IH; assumption].
  split; congruence.
Qed.
Lemma brun_server t ops host target proto port pk : dest_of ops = Some (ToServer host target proto port pk) -> Forall (fun o => ~ is_snode o) ops -> (port <> None \/ Forall (fun o => ~ gives_port o) ops) ->
  bd_host (brun t ops) = Some host /\ bd_target (brun t ops) = Some target /\ bd_proto (brun t ops) = Some proto /\ bd_port (brun t ops) = port /\ bd_dest (brun t ops) = Some pk.
Proof.
  intros hd hf hp. assert (hno : Forall (fun o => ~ gives_port o) ops -> bd_port (brun t ops) = None).
  { clear. induction ops as [|o ops IH] using rev_ind; intros hf; [reflexivity|]. apply Forall_app in hf as [h1 h2]. inversion h2 as [|? ? ho _]; subst. rewrite brun_snoc. specialize (IH h1). destruct o as [e k|e k|h tg pr [po|] k|t']; cbn [bapply add_hop set_snode set_server set_enc_type bd_port]; try exact IH. exfalso. apply ho. exact I. }
  revert hno. induction ops as [|o ops IH] using rev_ind; intros hno; [discriminate|]. apply Forall_app in hf as [h1 h2]. inversion h2 as [|? ? ho _]; subst. rewrite dest_snoc in hd. 
  assert (hp' : port <> None \/ Forall (fun o => ~ gives_port o) ops) by (destruct hp as [hp|hp]; [left; exact hp|right; apply Forall_app in hp; apply hp]).
  assert (hno' : (forall q, o <> ToServer host target proto port q) -> Forall (fun o => ~ gives_port o) ops -> bd_port (brun t ops) = None).
  { intros _. clear. induction ops as [|o ops IH] using rev_ind; intros hf; [reflexivity|]. apply Forall_app in hf as [h1 h2]. inversion h2 as [|? ? ho _]; subst. rewrite brun_snoc. specialize (IH h1). destruct o as [e k|e k|h tg pr [po|] k|t']; cbn [bapply add_hop set_snode set_server set_enc_type bd_port]; try exact IH. exfalso. apply ho. exact I. }
  destruct o as [e k|e k|h tg pr po k|t'].
  - rewrite brun_snoc. cbn [bapply add_hop bd_host bd_target bd_proto bd_port bd_dest]. apply IH; [exact hd|exact h1|exact hp'|]. apply hno'. discriminate.
  - exfalso. apply ho. exact I.
  - assert (e : ToServer h tg pr po k = ToServer host target proto port pk) by congruence. injection e as -> -> -> -> ->. rewrite brun_snoc in hno |- *. cbn [bapply set_server bd_host bd_target bd_proto bd_port bd_dest] in hno |- *. repeat split. destruct port as [p|]; [reflexivity|]. destruct hp as [hp|hp]; [congruence|]. apply hno. exact hp.
  - rewrite brun_snoc. cbn [bapply set_enc_type bd_host bd_target bd_proto bd_port bd_dest]. apply IH; [exact hd|exact h1|exact hp'|]. apply hno'. discriminate.
Qed.
Lemma c_str_id s : no_nul s -> c_str s = s.
Proof. induction s as [|c s IH]; [reflexivity|]. intros h. cbn [c_str]. destruct (Ascii.eqb c NUL) eqn:e; [apply Ascii.eqb_eq in e; subst c; exfalso; apply h; left; reflexivity|]. f_equal. apply IH. intros hi. apply h. right. exact hi. Qed.

(** ** C77: every node on the path can open its layer *)
(** To a service node: after any calls that name hops and, last, this destination, the request built reaches each hop in order, each of which
    learns the next node's key only, and then the destination, which finds the payload. *)
Definition for_snode (payload : bytes) : bytes := encode_size (length payload) ++ payload ++ b "{""headers"":""""}".
Lemma snode_out O t ops nodes ed sk r rs payload req x max : o_ok O -> Forall (fun o => ~ is_server o) ops -> dest_of ops = Some (ToSnode ed (x_base O sk)) ->
  hops_of ops = map (as_hop O) nodes -> Forall node_ok nodes -> length sk = 32 -> rnd_ok r -> Forall rnd_ok rs ->
  build O r rs (brun t ops) payload = Ok (req, x) -> fits req max ->
  forwarded O (enc_of t ops) max req (nodes ++ [(ed, sk)]) (mkRequest (mkHop sk (x_base O sk) true) (enc_of t ops) (x_base O (fst r)) (for_snode payload)) /\
  bd_enc x = enc_of t ops /\ bd_dest x = Some (x_base O sk) /\ bd_final x = Some (x_base O (fst r), fst r).
Proof.
  intros H hf hd hh hn hsk hr hrs hb hfit. destruct (brun_snode t ops _ _ hf hd) as (e1 & e2 & e3). unfold build in hb. apply bind_ok in hb as (d & hdl & hb). cbv zeta in hb. apply bind_ok in hb as (p & hp & hb). apply bind_ok in hb as (out & hout & hb).
  assert (e : out = req) by congruence. subst out. assert (ex : x = with_final (x_base O (fst r), fst r) (brun t ops)) by congruence. unfold destination_layer in hdl. cbv zeta in hdl. rewrite e1, e2, e3, brun_enc in hdl. apply bind_ok in hdl as (data & hdata & hdl). apply bind_ok in hdl as (blob & hblob & hdl).
  assert (hd2 : d = (blob, snode_route (enc_of t ops) ed (x_base O (fst r)))) by congruence. subst d. cbn [fst snd] in hp.
  assert (hdata2 : data = for_snode payload) by (unfold frame in hdata; vm_compute (of_opt (jdump (jobj [(b "headers", JStr [])])) Throw) in hdata; cbn [bind] in hdata; injection hdata as <-; reflexivity). subst data.
  rewrite brun_hops, brun_enc, hh, <- map_rev in hp.
  pose proof (good_last O H (enc_of t ops) max r sk _ _ (ed, sk) hr eq_refl hsk hblob) as hg.
  pose proof (fun out => layers_good O H (enc_of t ops) max out (rev nodes) rs (ed, sk) [] (x_base O (fst r)) blob p) as hlg. cbn [fst] in hlg. setoid_rewrite rev_involutive in hlg.
  rewrite brun_enc, first_route_is in hout. split; [apply (hlg _ (Forall_rev hn) hrs (x_base_length O (oo_ec O H) _) hg hp req _ hout); [apply first_opens|exact hfit]|].
  subst x. cbn [with_final bd_enc bd_dest bd_final]. rewrite brun_enc. auto.
Qed.
Theorem C77_snode O t ops nodes ed sk r rs payload req x max : o_ok O -> Forall (fun o => ~ is_server o) ops -> dest_of ops = Some (ToSnode ed (x_base O sk)) ->
  hops_of ops = map (as_hop O) nodes -> Forall node_ok nodes -> length sk = 32 -> rnd_ok r -> Forall rnd_ok rs ->
  build O r rs (brun t ops) payload = Ok (req, x) -> fits req max ->
  exists q, forwarded O (enc_of t ops) max req (nodes ++ [(ed, sk)]) q /\ rq_payload q = for_snode payload.
Proof. intros H hf hd hh hn hsk hr hrs hb hfit. destruct (snode_out _ _ _ _ _ _ _ _ _ _ _ max H hf hd hh hn hsk hr hrs hb hfit) as (h & _). eexists. split; [exact h|reflexivity]. Qed.
Print Assumptions C77_snode.
Lemma first_dumps t A : exists s, jdump (JObj (first_fields t A)) = Some s.
Proof. unfold first_fields. cbn [jdump map all_some fst snd]. destruct (utf8_dump _ (hex_utf8 A)) as (t2 & ->). destruct t; eexists; vm_compute; reflexivity. Qed.
Lemma first_frame t A blob : exists req, frame blob (JObj (first_fields t A)) = Ok req.
Proof. destruct (first_dumps t A) as (s & e). unfold frame. rewrite e. eexists. reflexivity. Qed.
Lemma server_dumps t host target proto port A : utf8 host -> utf8 target -> utf8 proto -> exists s, jdump (JObj (server_fields t host target proto port A)) = Some s.
Proof.
  intros h1 h2 h3. unfold server_fields. cbn [jdump map all_some fst snd]. destruct (utf8_dump _ (hex_utf8 A)) as (s1 & ->). destruct (utf8_dump _ h1) as (s2 & ->). destruct (utf8_dump _ h2) as (s3 & ->). destruct (utf8_dump _ h3) as (s4 & ->).
  destruct t; eexists; vm_compute; reflexivity.
Qed.
(** and the request is always built *)
Theorem C77_snode_builds O t ops nodes ed sk r rs payload : o_ok O -> Forall (fun o => ~ is_server o) ops -> dest_of ops = Some (ToSnode ed (x_base O sk)) ->
  hops_of ops = map (as_hop O) nodes -> Forall node_ok nodes -> length rs = length nodes -> exists req x, build O r rs (brun t ops) payload = Ok (req, x).
Proof.
  intros H hf hd hh hn hl. destruct (brun_snode t ops _ _ hf hd) as (e1 & e2 & e3). unfold build, destination_layer. cbv zeta. rewrite e1, e2, e3, brun_enc, brun_hops, hh.
  assert (hfr : exists d, frame payload (jobj [(b "headers", JStr [])]) = Ok d) by (eexists; vm_compute (jobj [(b "headers", JStr [])]); unfold frame; reflexivity). destruct hfr as (d & ->). cbn [bind].
  match goal with |- context [hop_encrypt O ?a ?h ?t ?m ?k] => destruct (encrypt_ok O H a h t m sk) as (c & ->) end. cbn [bind fst snd]. rewrite <- map_rev.
  destruct (layers_some O H (enc_of t ops) (rev nodes) rs ed (x_base O (fst r)) c) as (p & ->); [apply Forall_rev; exact hn|rewrite rev_length; congruence|]. cbn [bind].
  rewrite first_route_is. destruct (first_frame (enc_of t ops) (snd p) (fst p)) as (req & ->). cbn [bind]. eexists. eexists. reflexivity.
Qed.
Print Assumptions C77_snode_builds.

(** To a server: the last hop learns where to send what it decrypted; the server finds the payload there. *)
Definition server_metadata (t : enc_type) (host target proto : bytes) (port : N) (A : bytes) : json :=
  JObj [(b "enc_type", JStr (enc_name t)); (b "ephemeral_key", JStr (to_hex A)); (b "host", JStr host); (b "method", JStr (b "POST")); (b "port", JNum (dec port)); (b "protocol", JStr proto); (b "target", JStr target)].
Definition port_of (proto : bytes) (port : option N) : N := match port with Some p => p | None => if eqb proto (b "https") then 443 else 80 end.
Lemma server_inv O t ops host target proto port pk r rs payload req x : dest_of ops = Some (ToServer host target proto port pk) -> Forall (fun o => ~ is_snode o) ops -> (port <> None \/ Forall (fun o => ~ gives_port o) ops) ->
  build O r rs (brun t ops) payload = Ok (req, x) ->
  exists blob p, hop_encrypt O (snd r) (mkHop (fst r) (x_base O (fst r)) false) (enc_of t ops) (c_str payload) pk = Ok blob /\
    hop_layers O (enc_of t ops) (rev (hops_of ops)) rs (server_route (enc_of t ops) host target proto port (x_base O (fst r))) (x_base O (fst r)) blob = Ok p /\
    frame (fst p) (JObj (first_fields (enc_of t ops) (snd p))) = Ok req.
Proof.
  intros hd hf hp hb. destruct (brun_server t ops _ _ _ _ _ hd hf hp) as (e1 & e2 & e3 & e4 & e5). unfold build in hb. apply bind_ok in hb as (d & hdl & hb). cbv zeta in hb. apply bind_ok in hb as (p & hl & hb). apply bind_ok in hb as (out & hout & hb).
  assert (e : out = req) by congruence. subst out. unfold destination_layer in hdl. cbv zeta in hdl. rewrite e1, e2, e3, e4, e5, brun_enc in hdl. apply bind_ok in hdl as (blob & hblob & hdl). assert (e : d = (blob, server_route (enc_of t ops) host target proto port (x_base O (fst r)))) by congruence.
  subst d. cbn [fst snd] in hl. rewrite brun_enc, brun_hops in hl. rewrite brun_enc, first_route_is in hout. exists blob, p. split; [exact hblob|]. split; [exact hl|exact hout].
Qed.
Lemma layers_grow O (H : o_ok O) t : forall rhops rs route A blob p, Forall rnd_ok rs -> hop_layers O t rhops rs route A blob = Ok p -> length blob <= length (fst p).
Proof.
  induction rhops as [|[ed pk] rhops IH]; intros rs route A blob p hrs h; cbn [hop_layers] in h; [injection h as <-; cbn [fst]; lia|]. destruct rs as [|r rs]; [discriminate|]. inversion hrs as [|? ? hr hrs2]; subst.
  apply bind_ok in h as (data & hdata & h). cbv zeta in h. apply bind_ok in h as (c & hc & h). pose proof (IH _ _ _ _ _ hrs2 h) as h1. pose proof (frame_len _ _ _ hdata) as h2. pose proof (encrypt_len O H _ _ _ _ _ _ (proj2 hr) hc) as h3. lia.
Qed.
Lemma server_out O t ops nodes host target proto port sk r rs payload req x max : o_ok O -> Forall (fun o => ~ is_snode o) ops -> dest_of ops = Some (ToServer host target proto port (x_base O sk)) ->
  (port <> None \/ Forall (fun o => ~ gives_port o) ops) -> (port_of proto port < 65536)%N ->
  hops_of ops = map (as_hop O) nodes -> nodes <> [] -> Forall node_ok nodes -> length sk = 32 -> rnd_ok r -> Forall rnd_ok rs ->
  build O r rs (brun t ops) payload = Ok (req, x) -> fits req max ->
  exists last, forwarded O (enc_of t ops) max req nodes last /\ metadata (rq_payload last) = Some (server_metadata (enc_of t ops) host target proto (port_of proto port) (x_base O (fst r))) /\
    parse_request O (x_base O sk) sk (rq_payload last) max = Ok (mkRequest (mkHop sk (x_base O sk) true) (enc_of t ops) (x_base O (fst r)) (c_str payload)).
Proof.
  intros H hf hd hp hport hh hne hn hsk hr hrs hb hfit. destruct (server_inv _ _ _ _ _ _ _ _ _ _ _ _ _ hd hf hp hb) as (blob & p & hblob & hl & hout). rewrite hh, <- map_rev in hl.
  assert (hex : exists nl rest, nodes = rest ++ [nl]) by (destruct nodes as [|n0 nodes0 _] using rev_ind; [congruence|eauto]). destruct hex as (nl & rest & ->). rewrite rev_app_distr in hl. cbn [rev app map hop_layers] in hl. unfold as_hop at 1 in hl.
  destruct rs as [|r1 rs]; [discriminate|]. apply bind_ok in hl as (data & hdata & hl). cbv zeta in hl. apply bind_ok in hl as (c & hc & hl). inversion hrs as [|? ? hr1 hrs2]; subst. apply Forall_app in hn as [hn1 hn2]. inversion hn2 as [|? ? hn3 _]; subst.
  pose proof (good_last O H (enc_of t ops) max r1 (snd nl) data c nl hr1 eq_refl hn3 hc) as hg.
  pose proof (layers_good O H (enc_of t ops) max _ (rev rest) rs nl [] (x_base O (fst r1)) c p (Forall_rev hn1) hrs2 (x_base_length O (oo_ec O H) _) hg hl) as hlg. rewrite rev_involutive in hlg.
  pose proof (hlg req _ hout (first_opens _ _) hfit) as hfw. rewrite server_route_is in hdata. change (port_num proto port) with (port_of proto port) in hdata.
  pose proof (encrypt_len O H _ _ _ _ _ _ (proj2 hr1) hc) as hlen. pose proof (layers_grow O H _ _ _ _ _ _ _ hrs2 hl) as hgr. pose proof (frame_len _ _ _ hout) as hfl. assert (hfd : fits data max) by (destruct hfit as [h1 h2]; split; lia).
  eexists. split; [exact hfw|]. cbn [rq_payload].
  split; [exact (frame_metadata _ _ _ hdata (server_readable _ _ _ _ _ _ hport) (proj1 hfd))|].
  apply (parse_frame O H blob _ data max sk _ _ _ hdata (server_opens _ _ _ _ _ _ hport) hfd hsk (x_base_length O (oo_ec O H) _)). exact (to_node O H _ _ _ _ _ _ (proj2 hr) hblob).
Qed.
Theorem C77_server O t ops nodes host target proto port sk r rs payload req x max : o_ok O -> Forall (fun o => ~ is_snode o) ops -> dest_of ops = Some (ToServer host target proto port (x_base O sk)) ->
  (port <> None \/ Forall (fun o => ~ gives_port o) ops) -> (port_of proto port < 65536)%N -> no_nul payload ->
  hops_of ops = map (as_hop O) nodes -> nodes <> [] -> Forall node_ok nodes -> length sk = 32 -> rnd_ok r -> Forall rnd_ok rs ->
  build O r rs (brun t ops) payload = Ok (req, x) -> fits req max ->
  exists last q A, forwarded O (enc_of t ops) max req nodes last /\ metadata (rq_payload last) = Some (server_metadata (enc_of t ops) host target proto (port_of proto port) A) /\ length A = 32 /\
    parse_request O (x_base O sk) sk (rq_payload last) max = Ok q /\ rq_payload q = payload.
Proof.
  intros H hf hd hp hport hnul hh hne hn hsk hr hrs hb hfit. destruct (server_out _ _ _ _ _ _ _ _ _ _ _ _ _ _ max H hf hd hp hport hh hne hn hsk hr hrs hb hfit) as (last & h1 & h2 & h3). rewrite (c_str_id _ hnul) in h3.
  eexists. eexists. eexists. split; [exact h1|]. split; [exact h2|]. split; [apply (x_base_length O (oo_ec O H))|]. split; [exact h3|reflexivity].
Qed.
Print Assumptions C77_server.
(** Without hops the server itself gets the request. *)
Theorem C77_server_direct O t ops host target proto port sk r rs payload req x max : o_ok O -> Forall (fun o => ~ is_snode o) ops -> dest_of ops = Some (ToServer host target proto port (x_base O sk)) ->
  no_nul payload -> hops_of ops = [] -> length sk = 32 -> rnd_ok r -> (port <> None \/ Forall (fun o => ~ gives_port o) ops) ->
  build O r rs (brun t ops) payload = Ok (req, x) -> fits req max -> exists q, parse_request O (x_base O sk) sk req max = Ok q /\ rq_payload q = payload.
Proof.
  intros H hf hd hnul hh hsk hr hp hb hfit. destruct (server_inv _ _ _ _ _ _ _ _ _ _ _ _ _ hd hf hp hb) as (blob & p & hblob & hl & hout). rewrite (c_str_id _ hnul) in hblob. rewrite hh in hl. cbn [rev hop_layers] in hl. injection hl as <-. cbn [fst snd] in hout.
  exists (mkRequest (mkHop sk (x_base O sk) true) (enc_of t ops) (x_base O (fst r)) payload). split; [|reflexivity].
  apply (parse_frame O H blob _ req max sk _ _ _ hout (first_opens _ _) hfit hsk (x_base_length O (oo_ec O H) _)). exact (to_node O H _ _ _ _ _ _ (proj2 hr) hblob).
Qed.
Print Assumptions C77_server_direct.
Theorem C77_server_builds O t ops nodes host target proto port sk r rs payload : o_ok O -> Forall (fun o => ~ is_snode o) ops -> dest_of ops = Some (ToServer host target proto port (x_base O sk)) ->
  (port <> None \/ Forall (fun o => ~ gives_port o) ops) -> utf8 host -> utf8 target -> utf8 proto ->
  hops_of ops = map (as_hop O) nodes -> Forall node_ok nodes -> length rs = length nodes -> exists req x, build O r rs (brun t ops) payload = Ok (req, x).
Proof.
  intros H hf hd hp u1 u2 u3 hh hn hl. destruct (brun_server t ops _ _ _ _ _ hd hf hp) as (e1 & e2 & e3 & e4 & e5). unfold build, destination_layer. cbv zeta. rewrite e1, e2, e3, e4, e5, brun_enc, brun_hops, hh.
  match goal with |- context [hop_encrypt O ?a ?h ?t ?m ?k] => destruct (encrypt_ok O H a h t m sk) as (c & ->) end. cbn [bind fst snd]. rewrite <- map_rev.
  assert (hlay : exists p, hop_layers O (enc_of t ops) (map (as_hop O) (rev nodes)) rs (server_route (enc_of t ops) host target proto port (x_base O (fst r))) (x_base O (fst r)) c = Ok p).
  { rewrite <- (rev_length nodes) in hl. apply Forall_rev in hn. destruct (rev nodes) as [|n rn]; [eexists; reflexivity|]. destruct rs as [|r1 rs]; [discriminate|]. pose proof (Forall_inv_tail hn) as hn2. cbn [map hop_layers]. unfold as_hop at 1.
    rewrite server_route_is. unfold frame. destruct (server_dumps (enc_of t ops) host target proto (port_num proto port) (x_base O (fst r)) u1 u2 u3) as (s & ->). cbn [of_opt bind]. cbv zeta.
    match goal with |- context [hop_encrypt O ?a ?h ?t ?m ?k] => destruct (encrypt_ok O H a h t m (snd n)) as (c1 & ->) end. cbn [bind]. apply (layers_some O H); [exact hn2|cbn [length] in hl; lia]. }
  destruct hlay as (p & ->). cbn [bind]. rewrite first_route_is. destruct (first_frame (enc_of t ops) (snd p) (fst p)) as (req & ->). cbn [bind]. eexists. eexists. reflexivity.
Qed.
Print Assumptions C77_server_builds.
(** What does not hold.  A payload for a server ends at its first NUL: the request does not depend on what follows. *)
Lemma c_str_cut p q : c_str (p ++ ascii_of_N 0 :: q) = c_str p.
Proof. induction p as [|c p IH]; [reflexivity|]. cbn [app c_str]. rewrite IH. reflexivity. Qed.
Theorem C77_server_payload_refuted O t ops host target proto port pk r rs p q : Forall (fun o => ~ is_snode o) ops -> dest_of ops = Some (ToServer host target proto port pk) -> (port <> None \/ Forall (fun o => ~ gives_port o) ops) ->
  build O r rs (brun t ops) (p ++ ascii_of_N 0 :: q) = build O r rs (brun t ops) p.
Proof.
  intros hf hd hp. destruct (brun_server t ops _ _ _ _ _ hd hf hp) as (e1 & e2 & e3 & e4 & e5). unfold build, destination_layer. cbv zeta. rewrite e1, e2, e3, e4, e5, c_str_cut. reflexivity.
Qed.
Print Assumptions C77_server_payload_refuted.
(** A service node destination set after a server one is ignored but for its X25519 key: the request goes to the server's URL. *)
Definition bytes_built (o : outcome (bytes * builder)) : outcome bytes := p <- o ;; Ok (fst p).
Theorem C77_switch_destination_refuted O t host target proto port pk ed pk' r rs payload :
  bytes_built (build O r rs (brun t [ToServer host target proto port pk; ToSnode ed pk']) payload) = bytes_built (build O r rs (brun t [ToServer host target proto port pk']) payload).
Proof.
  unfold build, destination_layer. cbv zeta. cbn [brun fold_left bapply set_server set_snode new_builder bd_enc bd_dest bd_final bd_hops bd_ed bd_host bd_target bd_proto bd_port rev hop_layers].
  destruct (hop_encrypt O (snd r) _ t (c_str payload) pk') as [c| | | |]; [|reflexivity..]. cbn [bind fst snd]. destruct (frame c _) as [f| | | |]; reflexivity.
Qed.
Print Assumptions C77_switch_destination_refuted.
(** A port given earlier stays in force for a later destination without one. *)
Theorem C77_stale_port_refuted t host target proto port pk host' target' proto' pk' :
  brun t [ToServer host target proto (Some port) pk; ToServer host' target' proto' None pk'] = brun t [ToServer host' target' proto' (Some port) pk'].
Proof. reflexivity. Qed.
Print Assumptions C77_stale_port_refuted.
(** Without a destination nothing is built. *)
Theorem C77_no_destination O t ops r rs payload : dest_of ops = None -> forall p, build O r rs (brun t ops) payload <> Ok p.
Proof.
  intros hd p h. assert (e : bd_dest (brun t ops) = None).
  { clear h. induction ops as [|o ops IH] using rev_ind; [reflexivity|]. rewrite dest_snoc in hd. rewrite brun_snoc. destruct o; try discriminate hd; apply IH; exact hd. }
  unfold build, destination_layer in h. cbv zeta in h. rewrite e in h. destruct (bd_host (brun t ops)), (bd_target (brun t ops)), (bd_proto (brun t ops)), (bd_ed (brun t ops)); discriminate h.
Qed.
Print Assumptions C77_no_destination.

(** ** C78: the reply *)
Lemma forwarded_one O t max req n q : forwarded O t max req [n] q -> parse_request O (x_base O (snd n)) (snd n) req max = Ok q.
Proof. intros h. inversion h; subst. assumption. Qed.
Lemma forwarded_fun O t max : forall nodes req q1 q2, forwarded O t max req nodes q1 -> forwarded O t max req nodes q2 -> q1 = q2.
Proof.
  induction nodes as [|n nodes IH]; intros req q1 q2 h1 h2; [inversion h1|]. destruct nodes as [|n' nodes].
  - apply forwarded_one in h1, h2. congruence.
  - inversion h1 as [|? ? ? ? qa A1 ? p1 l1 m1 f1]; subst. inversion h2 as [|? ? ? ? qb A2 ? p2 l2 m2 f2]; subst. assert (qa = qb) by congruence. subst qb. exact (IH _ _ _ f1 f2).
Qed.
Lemma reply_opens O sk a t rnd m c x pl : o_ok O -> length rnd = 24 -> bd_enc x = t -> bd_dest x = Some (x_base O sk) -> bd_final x = Some (x_base O a, a) ->
  encrypt_reply O rnd (mkRequest (mkHop sk (x_base O sk) true) t (x_base O a) pl) m = Ok c -> decrypt_response O x c = Ok m.
Proof.
  intros H hr e1 e2 e3 h. unfold encrypt_reply in h. cbn [rq_hop rq_enc rq_remote] in h. pose proof (from_node O H _ _ _ _ _ _ hr h) as hd. unfold decrypt_response. rewrite e1, e2, e3. cbn [fst snd]. rewrite hd. reflexivity.
Qed.
(** Whatever a service node at the end of the path answers, the builder that made the request decrypts. *)
Theorem C78_snode_reply O t ops nodes ed sk r rs payload req x max q rnd m c : o_ok O -> Forall (fun o => ~ is_server o) ops -> dest_of ops = Some (ToSnode ed (x_base O sk)) ->
  hops_of ops = map (as_hop O) nodes -> Forall node_ok nodes -> length sk = 32 -> rnd_ok r -> Forall rnd_ok rs ->
  build O r rs (brun t ops) payload = Ok (req, x) -> fits req max -> forwarded O (enc_of t ops) max req (nodes ++ [(ed, sk)]) q ->
  length rnd = 24 -> encrypt_reply O rnd q m = Ok c -> decrypt_response O x c = Ok m.
Proof.
  intros H hf hd hh hn hsk hr hrs hb hfit hq hrnd hc. destruct (snode_out _ _ _ _ _ _ _ _ _ _ _ max H hf hd hh hn hsk hr hrs hb hfit) as (h & e1 & e2 & e3). pose proof (forwarded_fun _ _ _ _ _ _ _ hq h) as e. subst q.
  exact (reply_opens O sk (fst r) (enc_of t ops) rnd m c x _ H hrnd e1 e2 e3 hc).
Qed.
Print Assumptions C78_snode_reply.
(** The same for a server. *)
Lemma server_final O t ops host target proto port pk r rs payload req x : dest_of ops = Some (ToServer host target proto port pk) -> Forall (fun o => ~ is_snode o) ops -> (port <> None \/ Forall (fun o => ~ gives_port o) ops) ->
  build O r rs (brun t ops) payload = Ok (req, x) -> bd_enc x = enc_of t ops /\ bd_dest x = Some pk /\ bd_final x = Some (x_base O (fst r), fst r).
Proof.
  intros hd hf hp hb. destruct (brun_server t ops _ _ _ _ _ hd hf hp) as (e1 & e2 & e3 & e4 & e5). unfold build in hb. apply bind_ok in hb as (d & hdl & hb). cbv zeta in hb. apply bind_ok in hb as (p & hl & hb). apply bind_ok in hb as (out & hout & hb).
  assert (ex : x = with_final (x_base O (fst r), fst r) (brun t ops)) by congruence. subst x. cbn [with_final bd_enc bd_dest bd_final]. rewrite brun_enc. auto.
Qed.
Theorem C78_server_reply O t ops nodes host target proto port sk r rs payload req x max last q rnd m c : o_ok O -> Forall (fun o => ~ is_snode o) ops -> dest_of ops = Some (ToServer host target proto port (x_base O sk)) ->
  (port <> None \/ Forall (fun o => ~ gives_port o) ops) -> (port_of proto port < 65536)%N ->
  hops_of ops = map (as_hop O) nodes -> nodes <> [] -> Forall node_ok nodes -> length sk = 32 -> rnd_ok r -> Forall rnd_ok rs ->
  build O r rs (brun t ops) payload = Ok (req, x) -> fits req max -> forwarded O (enc_of t ops) max req nodes last -> parse_request O (x_base O sk) sk (rq_payload last) max = Ok q ->
  length rnd = 24 -> encrypt_reply O rnd q m = Ok c -> decrypt_response O x c = Ok m.
Proof.
  intros H hf hd hp hport hh hne hn hsk hr hrs hb hfit hfw hq hrnd hc. destruct (server_out _ _ _ _ _ _ _ _ _ _ _ _ _ _ max H hf hd hp hport hh hne hn hsk hr hrs hb hfit) as (last' & h1 & h2 & h3).
  pose proof (forwarded_fun _ _ _ _ _ _ _ hfw h1) as e. subst last'. assert (e : q = mkRequest (mkHop sk (x_base O sk) true) (enc_of t ops) (x_base O (fst r)) (c_str payload)) by congruence. subst q.
  destruct (server_final _ _ _ _ _ _ _ _ _ _ _ _ _ hd hf hp hb) as (e1 & e2 & e3). exact (reply_opens O sk (fst r) (enc_of t ops) rnd m c x _ H hrnd e1 e2 e3 hc).
Qed.
Print Assumptions C78_server_reply.
(** A node can always reply, also with AES-GCM where XChaCha20 was asked for (an old server), which is tried second. *)
Theorem C78_fallback O a sk rnd m c x : o_ok O -> length rnd = 24 -> bd_enc x = XChaCha20 -> bd_dest x = Some (x_base O sk) -> bd_final x = Some (x_base O a, a) ->
  hop_encrypt O rnd (mkHop sk (x_base O sk) true) AesGcm m (x_base O a) = Ok c ->
  decrypt_response O x c = Ok m \/ exists m', hop_decrypt O (mkHop a (x_base O a) false) XChaCha20 c (x_base O sk) = Ok m'.
Proof.
  intros H hr e1 e2 e3 hc. pose proof (from_node O H _ _ _ _ _ _ hr hc) as hd. unfold decrypt_response. rewrite e1, e2, e3. cbn [fst snd].
  destruct (hop_decrypt O (mkHop a (x_base O a) false) XChaCha20 c (x_base O sk)) as [m'| | | |]; [right; eauto|left; exact hd..].
Qed.
Print Assumptions C78_fallback.
(** Only the destination's replies are accepted: what the builder decrypts is what the holder of the destination's secret key encrypts for
    this builder's key pair (under the type asked for, or AES-GCM). *)
Theorem C78_authentic O a sk x c m : o_ok O -> bd_dest x = Some (x_base O sk) -> bd_final x = Some (x_base O a, a) -> decrypt_response O x c = Ok m ->
  exists t nonce, (t = bd_enc x \/ t = AesGcm) /\ length nonce = 24 /\ hop_encrypt O nonce (mkHop sk (x_base O sk) true) t m (x_base O a) = Ok c.
Proof.
  intros H e2 e3 h. assert (g : forall t, hop_decrypt O (mkHop a (x_base O a) false) t c (x_base O sk) = Ok m -> exists nonce, length nonce = 24 /\ hop_encrypt O nonce (mkHop sk (x_base O sk) true) t m (x_base O a) = Ok c).
  { destruct (keys_agree O H a sk) as [hg hx]. intros [|] hd; unfold hop_decrypt in hd; unfold hop_encrypt.
    - destruct (Nat.ltb (length c) (12 + 16)) eqn:el; [discriminate|]. apply Nat.ltb_ge in el. apply bind_ok in hd as (k & hk & hd). apply of_opt_ok in hd. apply (oo_gcm_inv O H) in hd. exists (firstn 12 c ++ repeat NUL 12).
      assert (h12 : length (firstn 12 c) = 12) by (rewrite firstn_length; lia). split; [rewrite app_length, h12, repeat_length; reflexivity|]. rewrite <- hg, hk. cbn [bind]. rewrite (firstn_exact _ _ _ h12), <- hd, firstn_skipn. reflexivity.
    - destruct (Nat.ltb (length c - 24) 16) eqn:el; [discriminate|]. apply Nat.ltb_ge in el. apply bind_ok in hd as (k & hk & hd). apply of_opt_ok in hd. apply (oo_open_inv O H) in hd. exists (firstn 24 c).
      split; [rewrite firstn_length; lia|]. rewrite <- hx, hk. cbn [bind]. rewrite <- hd, firstn_skipn. reflexivity. }
  unfold decrypt_response in h. rewrite e2, e3 in h. cbn [fst snd] in h. destruct (hop_decrypt O (mkHop a (x_base O a) false) (bd_enc x) c (x_base O sk)) as [m'| | | |] eqn:e.
  { assert (m' = m) by congruence. subst m'. destruct (g _ e) as (nonce & h1 & h2). exists (bd_enc x), nonce. auto. }
  all: destruct (bd_enc x); [discriminate|]; destruct (g _ h) as (nonce & h1 & h2); exists AesGcm, nonce; auto.
Qed.
Print Assumptions C78_authentic.
(** Nothing is decrypted before a request was built. *)
Theorem C78_not_before O t ops c m : decrypt_response O (brun t ops) c <> Ok m.
Proof.
  assert (e : bd_final (brun t ops) = None) by (induction ops as [|o ops IH] using rev_ind; [reflexivity|]; rewrite brun_snoc; destruct o; exact IH).
  unfold decrypt_response. rewrite e. destruct (bd_dest (brun t ops)); discriminate.
Qed.
Print Assumptions C78_not_before.

(** ** C79: the parser *)
Definition names (s : bytes) (t : enc_type) : Prop :=
  match t with XChaCha20 => s = b "xchacha20" \/ s = b "xchacha20-poly1305" | AesGcm => s = b "aes-gcm" \/ s = b "gcm" end.
Lemma names_iff s t : parse_enc_type s = Ok t <-> names s t.
Proof.
  unfold parse_enc_type. split.
  - destruct (eqb s (b "xchacha20")) eqn:e1; [apply eqb_eq in e1; cbn [orb]; intros h; injection h as <-; left; exact e1|]. destruct (eqb s (b "xchacha20-poly1305")) eqn:e2; [apply eqb_eq in e2; cbn [orb]; intros h; injection h as <-; right; exact e2|].
    destruct (eqb s (b "aes-gcm")) eqn:e3; [apply eqb_eq in e3; cbn [orb]; intros h; injection h as <-; left; exact e3|]. destruct (eqb s (b "gcm")) eqn:e4; [apply eqb_eq in e4; cbn [orb]; intros h; injection h as <-; right; exact e4|]. discriminate.
  - destruct t; cbn [names]; intros [-> | ->]; reflexivity.
Qed.
(** Exactly these requests are accepted: four bytes with the size of the ciphertext, the ciphertext, and JSON that names a known encryption type (or
    none) and a key under which, with the node's own, the ciphertext opens. *)
Theorem C79_accepts O pk sk req max q : parse_request O pk sk req max = Ok q <->
  length pk = 32 /\ length sk = 32 /\ length req <= max /\
  exists size blob text j t key payload, req = size ++ blob ++ text /\ length size = 4 /\ le size = Z.of_nat (length blob) /\ json_parse text = Some j /\
    (jfind (b "enc_type") j = None /\ t = AesGcm \/ exists s, jfind (b "enc_type") j = Some (JStr s) /\ names s t) /\
    jfind (b "ephemeral_key") j = Some (JStr key) /\ hop_decrypt O (mkHop sk pk true) t blob (parse_pubkey key) = Ok payload /\
    q = mkRequest (mkHop sk pk true) t (parse_pubkey key) payload.
Proof.
  unfold parse_request, key_from_bytes. split.
  - destruct (Nat.eqb_spec (length pk) 32) as [hpk|]; [|discriminate]. cbn [bind]. destruct (Nat.eqb_spec (length sk) 32) as [hsk|]; [|discriminate]. cbn [bind].
    destruct (Nat.ltb_spec (length req) 4) as [|h4]; [discriminate|]. destruct (Nat.ltb_spec max (length req)) as [|hm]; [discriminate|]. cbv zeta. destruct (Nat.ltb_spec (length (skipn 4 req)) (Z.to_nat (le (firstn 4 req)))) as [|hs]; [discriminate|].
    set (n := Z.to_nat (le (firstn 4 req))) in *. intros h. apply bind_ok in h as (j & hj & h). apply of_opt_ok in hj. apply bind_ok in h as (t & ht & h). apply bind_ok in h as (remote & hr & h). apply bind_ok in h as (m & hd & h).
    split; [exact hpk|]. split; [exact hsk|]. split; [exact hm|]. destruct (jfind (b "ephemeral_key") j) as [je|] eqn:ej; [|discriminate]. apply bind_ok in hr as (key & hk & hr). assert (e : remote = parse_pubkey key) by congruence. subst remote.
    destruct je; try discriminate hk. assert (e : s = key) by (injection hk as <-; reflexivity). subst s.
    exists (firstn 4 req), (firstn n (skipn 4 req)), (skipn n (skipn 4 req)), j, t, key, m. split; [rewrite !firstn_skipn; reflexivity|]. split; [rewrite firstn_length; lia|].
    assert (hl : length (firstn n (skipn 4 req)) = n) by (rewrite firstn_length; lia). split; [rewrite hl; unfold n; pose proof (le_range (firstn 4 req)); lia|]. split; [exact hj|].
    split; [|split; [exact ej|split; [exact hd|congruence]]]. destruct (jfind (b "enc_type") j) as [jt|] eqn:et; [|left; split; [reflexivity|congruence]]. right. apply bind_ok in ht as (s & hs2 & ht). exists s. split; [|apply names_iff; exact ht].
    destruct jt; try discriminate hs2. injection hs2 as <-. reflexivity.
  - intros (hpk & hsk & hm & size & blob & text & j & t & key & payload & -> & h4 & hl & hj & ht & hk & hd & ->). rewrite hpk, hsk. cbn [Nat.eqb bind]. rewrite !app_length in hm |- *. rewrite (proj2 (Nat.ltb_ge _ _)) by lia. rewrite (proj2 (Nat.ltb_ge _ _)) by lia. cbv zeta.
    rewrite (firstn_exact _ _ _ h4), (skipn_exact _ _ _ h4), hl, Nat2Z.id, app_length. rewrite (proj2 (Nat.ltb_ge _ _)) by lia. rewrite (firstn_exact blob text _ eq_refl), (skipn_exact blob text _ eq_refl), hj. cbn [of_opt bind].
    assert (e : match jfind (b "enc_type") j with Some j0 => s <- jstring j0 ;; parse_enc_type s | None => Ok AesGcm end = Ok t).
    { destruct ht as [[-> ->]|(s & -> & hs)]; [reflexivity|]. cbn [jstring bind]. apply names_iff. exact hs. }
    rewrite e. cbn [bind]. rewrite hk. cbn [jstring bind]. rewrite hd. reflexivity.
Qed.
Print Assumptions C79_accepts.
(** Anything else is refused by an exception; no input makes the parser read outside it. *)
Lemma of_opt_cases {A} (o : option A) : (exists a, of_opt o Throw = Ok a) \/ of_opt o Throw = Throw. Proof. destruct o; [left; eexists; reflexivity|right; reflexivity]. Qed.
Lemma decrypt_cases O h t c pk : (exists m, hop_decrypt O h t c pk = Ok m) \/ hop_decrypt O h t c pk = Throw.
Proof.
  unfold hop_decrypt, gcm_key, xchacha_key. destruct t.
  - destruct (Nat.ltb _ _); [right; reflexivity|]. destruct (ec_dh O (h_sk h) pk); [cbn [of_opt bind]; apply of_opt_cases|right; reflexivity].
  - destruct (Nat.ltb _ _); [right; reflexivity|]. destruct (ec_dh O (h_sk h) pk); [cbn [of_opt bind]; apply of_opt_cases|right; reflexivity].
Qed.
Lemma enc_cases s : (exists t, parse_enc_type s = Ok t) \/ parse_enc_type s = Throw.
Proof. unfold parse_enc_type. destruct (_ || _); [left; eauto|]. destruct (_ || _); [left; eauto|right; reflexivity]. Qed.
Theorem C79_total O pk sk req max : (exists q, parse_request O pk sk req max = Ok q) \/ parse_request O pk sk req max = Throw.
Proof.
  unfold parse_request, key_from_bytes. destruct (Nat.eqb (length pk) 32); [|right; reflexivity]. destruct (Nat.eqb (length sk) 32); [|right; reflexivity]. cbn [bind]. destruct (Nat.ltb _ _); [right; reflexivity|]. destruct (Nat.ltb _ _); [right; reflexivity|]. cbv zeta.
  destruct (Nat.ltb _ _); [right; reflexivity|]. destruct (json_parse _) as [j|]; [|right; reflexivity]. cbn [of_opt bind].
  assert (g : (exists t, match jfind (b "enc_type") j with Some j0 => s <- jstring j0 ;; parse_enc_type s | None => Ok AesGcm end = Ok t) \/ match jfind (b "enc_type") j with Some j0 => s <- jstring j0 ;; parse_enc_type s | None => Ok AesGcm end = Throw).
  { destruct (jfind (b "enc_type") j) as [[]|]; try (right; reflexivity); [apply enc_cases|left; eauto]. }
  destruct g as [(t & ->)|e]; [cbn [bind]|rewrite e; right; reflexivity]. destruct (jfind (b "ephemeral_key") j) as [[]|]; try (right; reflexivity). cbn [jstring bind].
  match goal with |- context [hop_decrypt O ?h ?t ?c ?k] => destruct (decrypt_cases O h t c k) as [(m & ->)|e] end; [left; eexists; reflexivity|rewrite e; right; reflexivity].
Qed.
Print Assumptions C79_total.
(** The payload is what the holder of the ephemeral key encrypted for this node. *)
Theorem C79_authentic O a sk req max q : o_ok O -> parse_request O (x_base O sk) sk req max = Ok q -> rq_remote q = x_base O a ->
  exists size blob text nonce, req = size ++ blob ++ text /\ length size = 4 /\ length nonce = 24 /\ hop_encrypt O nonce (mkHop a (x_base O a) false) (rq_enc q) (rq_payload q) (x_base O sk) = Ok blob.
Proof.
  intros H h hr. apply C79_accepts in h as (hpk & hsk & hm & size & blob & text & j & t & key & payload & -> & h4 & hl & hj & ht & hk & hd & ->). cbn [rq_remote rq_enc rq_payload] in *. rewrite hr in hd. destruct (keys_agree O H a sk) as [hg hx].
  exists size, blob, text. unfold hop_decrypt in hd. unfold hop_encrypt. destruct t.
  - destruct (Nat.ltb (length blob) (12 + 16)) eqn:el; [discriminate|]. apply Nat.ltb_ge in el. apply bind_ok in hd as (k & hk2 & hd). apply of_opt_ok in hd. apply (oo_gcm_inv O H) in hd. exists (firstn 12 blob ++ repeat NUL 12).
    assert (h12 : length (firstn 12 blob) = 12) by (rewrite firstn_length; lia). split; [reflexivity|]. split; [exact h4|]. split; [rewrite app_length, h12, repeat_length; reflexivity|]. rewrite hg, hk2. cbn [bind]. rewrite (firstn_exact _ _ _ h12), <- hd, firstn_skipn. reflexivity.
  - destruct (Nat.ltb (length blob - 24) 16) eqn:el; [discriminate|]. apply Nat.ltb_ge in el. apply bind_ok in hd as (k & hk2 & hd). apply of_opt_ok in hd. apply (oo_open_inv O H) in hd. exists (firstn 24 blob).
    split; [reflexivity|]. split; [exact h4|]. split; [rewrite firstn_length; lia|]. rewrite hx, hk2. cbn [bind]. rewrite <- hd, firstn_skipn. reflexivity.
Qed.
Print Assumptions C79_authentic.
(** An accepted request can always be answered. *)
Theorem C79_can_reply O pk sk req max q rnd m : parse_request O pk sk req max = Ok q -> exists c, encrypt_reply O rnd q m = Ok c.
Proof.
  intros h. apply C79_accepts in h as (_ & _ & _ & size & blob & text & j & t & key & payload & _ & _ & _ & _ & _ & _ & hd & ->). unfold encrypt_reply, hop_encrypt. cbn [rq_hop rq_enc rq_remote]. unfold hop_decrypt in hd.
  destruct t; (destruct (Nat.ltb _ _); [discriminate|]); apply bind_ok in hd as (k & -> & _); eexists; reflexivity.
Qed.
Print Assumptions C79_can_reply.

(** ** C80: reading keys *)
Lemma parse_pubkey_is s : parse_pubkey s = if Nat.eqb (length s) 32 then s else match decode_pubkey s with Ok k => fill32 k | _ => null_key end.
Proof.
  unfold parse_pubkey, decode_pubkey. destruct (Nat.eqb (length s) 32); [reflexivity|]. unfold is_hex. destruct (Nat.eqb (length s) 64 && match from_hex s with Some _ => true | None => false end) eqn:e1.
  { apply andb_prop in e1 as [_ e1]. destruct (from_hex s); [reflexivity|discriminate]. }
  unfold is_some. destruct ((Nat.eqb (length s) 43 || (Nat.eqb (length s) 44 && Ascii.eqb (last s Ascii.zero) "=")) && match from_b64 s with Some _ => true | None => false end) eqn:e2.
  { apply andb_prop in e2 as [_ e2]. destruct (from_b64 s); [reflexivity|discriminate]. }
  destruct (Nat.eqb (length s) 52 && match from_b32z s with Some _ => true | None => false end) eqn:e3; [|reflexivity]. apply andb_prop in e3 as [_ e3]. destruct (from_b32z s); [reflexivity|discriminate].
Qed.
Lemma fill32_id k : length k = 32 -> fill32 k = k. Proof. intros h. unfold fill32. rewrite h. cbn [Nat.sub repeat]. apply app_nil_r. Qed.
Lemma encoded_not_raw s k : encoded s k -> length s <> 32.
Proof. intros [s0 p h1 h2|s0 p h1 h2|s0 p h1 h2|s0 p h1 h2|s0 p h1 h2]; rewrite ?app_length; cbn [length b list_ascii_of_string]; lia. Qed.
(** A key is read back from every form it is written in: raw bytes, hex, base64 with and without padding, base32z. *)
Theorem C80_printed k : length k = 32 -> forall s, In s [k; to_hex k; to_b64_pk k; encode_with b64_alphabet 6 k; to_b32z k] -> parse_pubkey s = k.
Proof.
  intros h s hi. rewrite parse_pubkey_is. destruct (printed k h) as (e1 & e2 & e3 & e4). destruct hi as [<- | hi]; [rewrite h; reflexivity|].
  assert (he : encoded s k) by (destruct hi as [<- | [<- | [<- | [<- | []]]]]; assumption). pose proof (encoded_not_raw _ _ he) as hn. apply Nat.eqb_neq in hn. rewrite hn. apply decode_iff in he. rewrite he. apply fill32_id. exact h.
Qed.
Print Assumptions C80_printed.
(** What is read is a key of 32 bytes: the one encoded or, for anything else, the null key. *)
Theorem C80_read s : length (parse_pubkey s) = 32 /\ ((length s = 32 /\ parse_pubkey s = s) \/ (exists k, encoded s k /\ parse_pubkey s = fill32 k) \/ (length s <> 32 /\ (forall k, ~ encoded s k) /\ parse_pubkey s = repeat NUL 32)).
Proof.
  rewrite parse_pubkey_is. destruct (Nat.eqb_spec (length s) 32) as [h|h]; [split; [exact h|left; auto]|]. destruct (decode_pubkey s) as [k| | | |] eqn:e.
  { apply decode_iff in e. split; [|right; left; exists k; auto]. unfold fill32. rewrite app_length, repeat_length. destruct (encoded_length _ _ e) as [hl|[_ hl]]; rewrite hl; reflexivity. }
  all: split; [apply repeat_length|]; right; right; split; [exact h|]; split; [|reflexivity]; intros k hk; apply decode_iff in hk; congruence.
Qed.
Print Assumptions C80_read.
(** A base64 string with two padding characters holds 31 bytes only but is read as a key all the same. *)
Theorem C80_short_base64_refuted k : length k = 31 -> exists s, s = encode_with b64_alphabet 6 k ++ b "==" /\ length s = 44 /\ parse_pubkey s = k ++ [NUL].
Proof.
  intros h. eexists. split; [reflexivity|]. destruct (encode_back b64_alphabet 6 k b64_ok) as [h1 (p & hp & h2)]; try lia. rewrite h in h2. assert (hl : length (encode_with b64_alphabet 6 k) = 42) by lia.
  split; [rewrite app_length, hl; reflexivity|]. pose proof (enc_b64_2 _ _ hl h1) as he. rewrite parse_pubkey_is. pose proof (encoded_not_raw _ _ he) as hn. apply Nat.eqb_neq in hn. rewrite hn. apply decode_iff in he. rewrite he. unfold fill32. rewrite h. reflexivity.
Qed.
Print Assumptions C80_short_base64_refuted.
(** from_hex and from_bytes of the key types take exactly keys, and throw for the rest. *)
Theorem C80_from_hex s k : key_from_hex s = Ok k <-> length s = 64 /\ from_hex s = Some k.
Proof.
  unfold key_from_hex, is_hex. destruct (from_hex s) as [t|] eqn:e; [|cbn [andb]; split; [discriminate|intros [_ h]; discriminate]]. cbn [andb of_opt]. destruct (Nat.eqb_spec (length s) 64) as [h|h]; split; intros h2; try discriminate; try tauto; [split; congruence|destruct h2; congruence].
Qed.
Print Assumptions C80_from_hex.
Theorem C80_hex_back k : length k = 32 -> key_from_hex (to_hex k) = Ok k /\ forall s, key_from_hex s = Ok k -> make_lc s = to_hex k.
Proof. intros h. split; [apply C80_from_hex; split; [rewrite to_hex_length, h; reflexivity|apply from_to_hex]|]. intros s hs. apply C80_from_hex in hs as [_ hs]. symmetry. apply Records_facts.to_from_hex. exact hs. Qed.
Print Assumptions C80_hex_back.
Theorem C80_from_bytes s k : key_from_bytes s = Ok k <-> k = s /\ length s = 32.
Proof. unfold key_from_bytes. destruct (Nat.eqb_spec (length s) 32) as [h|h]; split; intros h2; try discriminate; [split; congruence|destruct h2; congruence|destruct h2; congruence]. Qed.
Print Assumptions C80_from_bytes.
(** The address of a service node determines its key. *)
Theorem C80_snode_address k : length k = 32 -> exists s, snode_address k = s ++ b ".snode" /\ length s = 52 /\ parse_pubkey s = k.
Proof.
  intros h. exists (to_b32z k). split; [reflexivity|]. split; [|apply (C80_printed k h); cbn [In]; tauto]. unfold to_b32z. destruct (encode_back b32z_alphabet 5 k b32z_ok) as [_ (p & hp & h2)]; try lia.
Qed.
Print Assumptions C80_snode_address.

(** ** the hypotheses are met *)
Definition toy_o : ocrypt := mkOcrypt toy_e (fun k x => fill 32 (k ++ x)) toy_seal toy_open.
Lemma toy_o_ok : o_ok toy_o.
Proof.
  pose proof toy_aead_ok as h. split; [exact toy_e_ok| | | |].
  - intros k n m. apply (Crypt_facts.ao_open _ h).
  - intros k n m. apply (Crypt_facts.ao_len _ h).
  - intros k n c m hc. apply (Crypt_facts.ao_only _ h). exact hc.
  - intros k n c m hc. apply (Crypt_facts.ao_only _ h). exact hc.
Qed.
Definition sk_of (c : ascii) : bytes := repeat c 32.
Definition n1 : node := (sk_of "A", sk_of "a").
Definition n2 : node := (sk_of "B", sk_of "c").
Definition dst : node := (sk_of "C", sk_of "e").
Definition rr (c : ascii) : layer_rnd := (repeat c 32, repeat c 24).
Definition ops1 : list bop := [AddHop (fst n1) (x_base toy_o (snd n1)); SetEnc AesGcm; AddHop (fst n2) (x_base toy_o (snd n2)); ToSnode (fst dst) (x_base toy_o (snd dst)); SetEnc XChaCha20].
Definition ops2 : list bop := [AddHop (fst n1) (x_base toy_o (snd n1)); ToServer (b "x.org") (b "/v") (b "https") None (x_base toy_o (snd dst))].
Example C77_hyps : Forall (fun o => ~ is_server o) ops1 /\ dest_of ops1 = Some (ToSnode (fst dst) (x_base toy_o (snd dst))) /\ hops_of ops1 = map (as_hop toy_o) [n1; n2] /\ enc_of AesGcm ops1 = XChaCha20 /\
  Forall node_ok [n1; n2] /\ rnd_ok (rr "g") /\ Forall rnd_ok [rr "h"; rr "i"].
Proof.
  split; [repeat (constructor; [intros h; exact h|]); constructor|]. split; [reflexivity|]. split; [reflexivity|]. split; [reflexivity|].
  split; [repeat constructor|]. split; [split; reflexivity|repeat (constructor; [split; reflexivity|]); constructor].
Qed.
Example C77_hyps_server : Forall (fun o => ~ is_snode o) ops2 /\ dest_of ops2 = Some (ToServer (b "x.org") (b "/v") (b "https") None (x_base toy_o (snd dst))) /\ Forall (fun o => ~ gives_port o) ops2 /\ utf8 (b "x.org") /\
  port_of (b "https") None = 443%N /\ no_nul (b "hello").
Proof.
  split; [repeat (constructor; [intros h; exact h|]); constructor|]. split; [reflexivity|]. split; [repeat (constructor; [intros h; exact h|]); constructor|]. split; [apply ascii_utf8; repeat constructor|]. split; [reflexivity|].
  unfold no_nul. cbn. intuition discriminate.
Qed.
(** the requests of these examples are built, a node opens one, and a reply comes back *)
Example C77_built : exists req x, build toy_o (rr "g") [rr "h"; rr "i"] (brun AesGcm ops1) (b "hello") = Ok (req, x).
Proof.
  apply (C77_snode_builds toy_o AesGcm ops1 [n1; n2] (fst dst) (snd dst) (rr "g") [rr "h"; rr "i"] (b "hello") toy_o_ok); destruct C77_hyps as (h1 & h2 & h3 & h4 & h5 & _); try assumption. reflexivity.
Qed.
Definition direct : list bop := [ToServer (b "x.org") (b "/v") (b "https") None (x_base toy_o (snd dst))].
Definition round_trip : outcome (bytes * bytes) :=
  p <- build toy_o (rr "g") [] (brun XChaCha20 direct) (b "ping") ;;
  q <- parse_request toy_o (x_base toy_o (snd dst)) (snd dst) (fst p) 1000 ;;
  c <- encrypt_reply toy_o (repeat "n"%char 24) q (b "pong") ;;
  m <- decrypt_response toy_o (snd p) c ;;
  Ok (rq_payload q, m).
Example C78_round_trip : round_trip = Ok (b "ping", b "pong"). Proof. vm_compute. reflexivity. Qed.
Example C80_examples : parse_pubkey (b "zz") = null_key /\ parse_pubkey (to_hex (sk_of "k")) = sk_of "k" /\ parse_pubkey (to_b32z (sk_of "k")) = sk_of "k". Proof. vm_compute. repeat split. Qed.
