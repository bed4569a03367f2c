(** C58, consumer: what suffices for a response to be accepted. *)
From Coq Require Import Lia ZifyBool ZifyN ZifyNat Permutation.
From Verif Require Import Py PyFacts Utf8 Utf8Facts KVForm KVFormFacts CryptUtil CryptUtilFacts DH Message MessageFacts MessageWire MessageParse MessageSpec MessageRound MessageSimple Prop_Message.
From Verif Require Import Association AssociationFacts Prop_Association UrlLib UrlLibFacts UriNorm OidUtil OidUtilFacts Nonce NonceFacts Store StoreSpec ServerFacts Prop_ServerDecode.
From Verif Require Import Endpoint Consumer ConsumerFacts Prop_Consumer Prop_ConsumerTotal Prop_ConsumerOnce AxFacts.
Open Scope N_scope.
Local Arguments u : simpl never.

(** ** Vocabulary *)
(** The URL at which the response arrived is the return URL of the response: equal after
    normalization up to the query, whose arguments are those that arrived. *)
Definition returned (e : uenv) (current rto : text) (query : dict text text) : Prop :=
  exists n1 n2 s1 s2 parts,
    urinorm e current = Ok n1 /\ urinorm e rto = Ok n2 /\ urlsplit e n1 = Ok s1 /\ urlsplit e n2 = Ok s2 /\
    sp_scheme s1 = sp_scheme s2 /\ sp_netloc s1 = sp_netloc s2 /\ sp_path s1 = sp_path s2 /\
    urlsplit e rto = Ok parts /\
    (forall k v, In (k, v) (parse_qsl true (sp_query parts)) -> In (k, v) query) /\
    (forall k v, In (k, v) query -> startswith k (u "openid.") = false -> In (k, v) (parse_qsl true (sp_query parts))).
(** The endpoint is that of the claimed identifier, which [local] names at the server. *)
Definition matches (e : uenv) (ep : endpoint) (type claimed local : text) : Prop :=
  In type (ep_type_uris ep) /\ local <> [] /\ getLocalID ep = Some local /\
  exists d, urldefrag e claimed = Ok d /\ ep_claimed_id ep = Some d.
(** The names that a response must have, and those of them that must be signed if present. *)
Definition needed (v2 : bool) : list text :=
  [u "return_to"; u "assoc_handle"; u "sig"; u "signed"; if v2 then u "op_endpoint" else u "identity"].
Definition to_sign (v2 : bool) : list text :=
  if v2 then [u "return_to"; u "identity"; u "response_nonce"; u "claimed_id"; u "assoc_handle"; u "op_endpoint"]
  else [u "return_to"; u "identity"].

Section Accept.
  Variable e : uenv.
  Variable reg : dict text text.
  Variable hmac : text -> bytes -> bytes -> bytes.
  Variable udigit : N -> option Z.
  Variable net : list post -> option (N * bytes).
  Variable discover : text -> res (list endpoint).
  Context {S : Type} (step : S -> Z -> op -> S * out).
  Variable now : Z.
  Notation complete' := (complete e reg hmac udigit net discover step now).

  Lemma parsed_version query m : NoDup (map fst query) -> fromPostArgs reg query = Ok m ->
    wire_value query (u "ns") <> Some THE_OTHER_OPENID1_NS ->
    getOpenIDNamespace m = Some (if asks_v2 query then OPENID2_NS else OPENID1_NS) /\
    core m (if asks_v2 query then OPENID2_NS else OPENID1_NS).
  Proof using.
    intros Hn F Ho. destruct (oid_class reg query m Hn F) as (oid & V & C & [(-> & A)|[(-> & A)|(_ & A)]]); [rewrite A; auto|rewrite A; auto|contradiction].
  Qed.
  Lemma required_ok query m signed : NoDup (map fst query) -> fromPostArgs reg query = Ok m ->
    getOpenIDNamespace m = Some (if asks_v2 query then OPENID2_NS else OPENID1_NS) ->
    core m (if asks_v2 query then OPENID2_NS else OPENID1_NS) ->
    (forall k, In k (needed (asks_v2 query)) -> wire_value query k <> None) ->
    wire_value query (u "signed") = Some signed ->
    (forall k, In k (to_sign (asks_v2 query)) -> wire_value query k <> None -> In k (splitc 44 signed)) ->
    idResCheckForFields m = Ok tt.
  Proof using.
    clear e hmac udigit discover net S step now.
    intros Hn F V C N Hs Sg.
    assert (forall k, ~ In 46 k -> k <> u "ns" -> hasKey m OPENID_NS k = Ok (match wire_value query k with Some _ => true | None => false end)) as HK.
    { intros k Hd Hk. rewrite (core_has _ _ _ C). f_equal. eapply hasKey_field; eauto. rewrite (core_has _ _ _ C). auto. }
    unfold idResCheckForFields, getArgReq. rewrite V, (field_of reg query m _ Hn F) by simple_key. rewrite Hs.
    assert (exists fields, lookup_ns require_fields (Some (if asks_v2 query then OPENID2_NS else OPENID1_NS)) = Ok fields /\
              forall k, In k fields -> In k (needed (asks_v2 query)) /\ ~ In 46 k /\ k <> u "ns") as (fields & E1 & E2).
    { destruct (asks_v2 query); (eexists; split; [vm_compute; reflexivity|]);
        intros k Hk; repeat (destruct Hk as [<-|Hk]; [split; [vm_compute; tauto|split; [vm_compute; intuition discriminate|vm_compute; discriminate]]|]); destruct Hk. }
    assert (exists sigs, lookup_ns require_sigs (Some (if asks_v2 query then OPENID2_NS else OPENID1_NS)) = Ok sigs /\
              forall k, In k sigs -> In k (to_sign (asks_v2 query)) /\ ~ In 46 k /\ k <> u "ns") as (sigs & E3 & E4).
    { destruct (asks_v2 query); (eexists; split; [vm_compute; reflexivity|]);
        intros k Hk; repeat (destruct Hk as [<-|Hk]; [split; [vm_compute; tauto|split; [vm_compute; intuition discriminate|vm_compute; discriminate]]|]); destruct Hk. }
    rewrite E1. cbn [bind].
    rewrite (mapM_spec _ (fun _ => tt)).
    2:{ intros k Hk. destruct (E2 k Hk) as (I & D1 & D2). rewrite HK by auto. cbn [bind]. specialize (N k I). destruct (wire_value query k); [auto|congruence]. }
    cbn [bind]. rewrite E3. cbn [bind].
    rewrite (mapM_spec _ (fun _ => tt)).
    2:{ intros k Hk. destruct (E4 k Hk) as (I & D1 & D2). rewrite HK by auto. cbn [bind]. specialize (Sg k I). destruct (wire_value query k); [|auto].
        cbn [andb]. assert (mem_text k (splitc 44 signed) = true) as ->; auto. apply mem_text_In. apply Sg. discriminate. }
    reflexivity.
  Qed.
  Lemma return_ok query m rt rto : fair_query reg query -> fromPostArgs reg query = Ok m ->
    wire_value query (u "return_to") = Some rto -> returned e rt rto query -> checkReturnTo e reg m rt = Ok true.
  Proof using.
    clear hmac udigit net discover S step now.
    intros Q F Hr (n1 & n2 & s1 & s2 & parts & U1 & U2 & L1 & L2 & P1 & P2 & P3 & L3 & A & B). pose proof Q as (R & Hn & Hs).
    assert (forall k, dget text_eqb k (toPostArgs m) = dget text_eqb k query) as P by (eapply C14_parse_exact; eauto).
    assert (NoDup (map fst (toPostArgs m))) as Hn2 by apply toPostArgs_keys.
    assert (forall k v, In (k, v) (toPostArgs m) <-> In (k, v) query) as Same.
    { intros k v. split; intros K; apply (In_dget text_eqb text_eqb_eq) in K; auto; apply (dget_In text_eqb text_eqb_eq); [rewrite <- P|rewrite P]; auto. }
    destruct (post_reparse reg query m Q F) as (mm & Fm).
    assert (verifyReturnToArgs e reg (toPostArgs m) = Ok tt) as V.
    { unfold verifyReturnToArgs. rewrite Fm. cbn [bind]. rewrite (field_of reg _ mm _ Hn2 Fm) by simple_key.
      unfold wire_value. rewrite P. fold (wire_value query (u "return_to")). rewrite Hr. cbn [bind]. rewrite L3. cbn [bind].
      rewrite (mapM_spec _ (fun _ => tt)).
      2:{ intros [k v] Hk. cbn [fst snd]. rewrite P. apply A in Hk. apply (In_dget text_eqb text_eqb_eq) in Hk; auto. rewrite Hk, text_eqb_refl. auto. }
      cbn [bind]. destruct (getArgs mm BARE_NS) as [bare|x] eqn:G.
      2:{ unfold getArgs in G. cbn [fixNS bind] in G. discriminate. }
      cbn [bind]. rewrite (mapM_spec _ (fun _ => tt)); auto. intros [k v] Hk. cbn [fst snd].
      assert (existsb (fun x => text_eqb (fst x) k && text_eqb (snd x) v) (parse_qsl true (sp_query parts)) = true) as ->; auto.
      apply existsb_exists. exists (k, v). cbn [fst snd]. rewrite !text_eqb_refl. split; auto.
      unfold getArgs in G. cbn [fixNS bind] in G. injection G as <-. apply in_map_iff in Hk as ([[n k'] v'] & X & I). apply filter_In in I as (I & J).
      cbn [fst snd] in *. injection X as -> ->. apply ns_eqb_eq in J. subst n.
      pose proof (fromPostArgs_sound reg (toPostArgs m) mm (proj1 R) Hn2) as FS.
      destruct FS as (_ & m0 & _ & _ & _ & _ & Ba); auto. { intros al K3. apply Same in K3. eapply Hs; eauto. }
      apply (In_dget akey_eqb akey_eqb_eq) in I.
      - apply Ba in I. destruct I as (I1 & I2). apply B; auto. apply Same. auto.
      - assert (built reg mm) as Bm by (eapply b_parse; eauto). apply built_wf in Bm. apply Bm. }
    unfold checkReturnTo. rewrite V. cbn [bind catch negb]. rewrite (field_of reg query m _ Hn F) by simple_key. rewrite Hr. cbn [bind].
    rewrite U1. cbn [bind]. unfold base_parts. rewrite L1. cbn [bind]. rewrite U2. cbn [bind]. rewrite L2. cbn [bind].
    assert (path_params s1 = path_params s2) as ->. { unfold path_params. rewrite P1, P3. auto. }
    rewrite P1, P2, !text_eqb_refl. auto.
  Qed.
  (** ** Discovery *)
  Lemma matches_single ep0 type claimed local server : matches e ep0 type claimed local ->
    (server = None -> type <> OPENID_2_0_TYPE /\ type <> OPENID_IDP_2_0_TYPE) -> (server <> None -> ep_server_url ep0 = server) ->
    verifyDiscoverySingle e ep0 (mkEndpoint (Some claimed) server [type] (Some local) None false None) = Ok tt.
  Proof using.
    clear reg hmac udigit net discover S step now.
    intros (T & Hl & L & d & U & C) N1 N2. unfold verifyDiscoverySingle. cbn [ep_type_uris mapM ep_claimed_id ep_server_url].
    unfold usesExtension. assert (mem_text type (ep_type_uris ep0) = true) as -> by (apply mem_text_In; auto). cbn [bind].
    rewrite U. cbn [bind]. rewrite C. cbn [opt_eqb]. rewrite text_eqb_refl. cbn [negb].
    assert (getLocalID (mkEndpoint (Some claimed) server [type] (Some local) None false None) = Some local) as ->.
    { unfold getLocalID. cbn. destruct local; [contradiction|auto]. }
    rewrite L. cbn [opt_eqb]. rewrite text_eqb_refl. cbn [negb].
    destruct server as [sv|].
    - rewrite (N2 ltac:(discriminate)). cbn [opt_eqb]. rewrite text_eqb_refl. auto.
    - destruct (N1 eq_refl) as (X & Y). unfold preferredNamespace. cbn [ep_type_uris mem_text existsb].
      apply text_eqb_neq in X, Y. unfold mem_text. cbn [existsb]. rewrite text_eqb_sym in X. rewrite text_eqb_sym in Y. rewrite X, Y. cbn [orb]. auto.
  Qed.
  (** Endpoints of other kinds are passed over. *)
  Definition unlike (types : list text) (ep : endpoint) : Prop := forall t, In t types -> ~ In t (ep_type_uris ep).
  (** The endpoint is that of the session, or the first of its kind found by discovery when
      there is no session or one of another kind (as after a request to select an identifier). *)
  Definition leads_to (session : option endpoint) (claimed : text) (types : list text) (ep0 : endpoint) : Prop :=
    session = Some ep0 \/
    ((session = None \/ exists ep1, session = Some ep1 /\ unlike types ep1) /\
     exists l1 l2, discover claimed = Ok (l1 ++ ep0 :: l2) /\ Forall (unlike types) l1).
  Lemma unlike_single types t ep1 c server local : unlike types ep1 -> In t types ->
    verifyDiscoverySingle e ep1 (mkEndpoint c server [t] local None false None) = Raise TypeURIMismatch.
  Proof using.
    clear reg hmac udigit net discover S step now.
    intros U I. unfold verifyDiscoverySingle. cbn [ep_type_uris mapM]. unfold usesExtension.
    assert (mem_text t (ep_type_uris ep1) = false) as ->; [|reflexivity].
    destruct (mem_text t (ep_type_uris ep1)) eqn:M; auto. apply mem_text_In in M. destruct (U t I M).
  Qed.
  Lemma services_ok types tms ep0 l1 l2 : Forall (fun t => exists ty c sv loc, In ty types /\ t = mkEndpoint c sv [ty] loc None false None) tms ->
    Forall (unlike types) l1 -> match_one e ep0 tms = Ok true -> verifyDiscoveredServices e (l1 ++ ep0 :: l2) tms = Ok ep0.
  Proof using.
    clear reg hmac udigit net discover S step now.
    intros T U M. induction U as [|ep1 l1 U1 _ IH]; cbn [app verifyDiscoveredServices]; [rewrite M; auto|].
    assert (match_one e ep1 tms = Ok false) as ->; [|exact IH].
    clear M IH. induction T as [|t tms (ty & c & sv & loc & I & ->) _ IH]; auto. cbn [match_one]. rewrite (unlike_single types) by auto. exact IH.
  Qed.
  Lemma discover_ok types claimed tms ep0 l1 l2 : Forall (fun t => exists ty c sv loc, In ty types /\ t = mkEndpoint c sv [ty] loc None false None) tms ->
    discover claimed = Ok (l1 ++ ep0 :: l2) -> Forall (unlike types) l1 -> match_one e ep0 tms = Ok true ->
    discoverAndVerify e discover (Some claimed) tms = Ok ep0.
  Proof using.
    clear reg hmac udigit net S step now.
    intros T D U M. unfold discoverAndVerify. rewrite D. cbn [bind].
    destruct (l1 ++ ep0 :: l2) eqn:E; [destruct l1; discriminate|]. rewrite <- E. eapply services_ok; eauto.
  Qed.
  Lemma discovery_v2 query m session ep0 claimed local server : NoDup (map fst query) -> fromPostArgs reg query = Ok m -> idResCheckForFields m = Ok tt ->
    asks_v2 query = true -> wire_value query (u "claimed_id") = Some claimed -> wire_value query (u "identity") = Some local ->
    wire_value query (u "op_endpoint") = Some server -> ep_server_url ep0 = Some server ->
    matches e ep0 OPENID_2_0_TYPE claimed local -> leads_to session claimed [OPENID_2_0_TYPE] ep0 ->
    verifyDiscoveryResults e discover m session = Ok (with_claimed_id ep0 (Some claimed)).
  Proof using.
    clear hmac udigit net S step now.
    intros Hn F C V H1 H2 H3 Hs M L. destruct (version_inv reg query m Hn F C) as (Vn & _). pose proof (field_ns reg query m) as FN. rewrite V in *.
    unfold verifyDiscoveryResults. rewrite Vn. cbn [opt_eqb]. rewrite text_eqb_refl. unfold verifyDiscoveryResultsOpenID2, getArgReq.
    rewrite !FN by (auto; simple_key). rewrite H1, H2, H3. cbn [bind].
    assert (Ok (if opt_eqb text_eqb (ep_claimed_id ep0) (Some claimed) then ep0 else with_claimed_id ep0 (Some claimed)) = Ok (with_claimed_id ep0 (Some claimed))) as W.
    { destruct (opt_eqb text_eqb (ep_claimed_id ep0) (Some claimed)) eqn:O; auto. apply (opt_eqb_eq text_eqb text_eqb_eq) in O.
      unfold with_claimed_id. rewrite <- O. destruct ep0; auto. }
    assert (verifyDiscoverySingle e ep0 (mkEndpoint (Some claimed) (Some server) [OPENID_2_0_TYPE] (Some local) None false None) = Ok tt) as Sg.
    { apply (matches_single _ _ _ _ _ M); [discriminate|auto]. }
    destruct L as [->|(L1 & l1 & l2 & D & U)].
    - rewrite Sg. cbn [bind catch]. exact W.
    - assert (discoverAndVerify e discover (Some claimed) [mkEndpoint (Some claimed) (Some server) [OPENID_2_0_TYPE] (Some local) None false None] = Ok ep0) as Dv.
      { eapply discover_ok; eauto; [|cbn [match_one]; rewrite Sg; auto]. constructor; auto. do 4 eexists. split; [left|]; reflexivity. }
      destruct L1 as [->|(ep1 & -> & U1)]; [rewrite Dv; cbn [bind]; exact W|].
      rewrite (unlike_single [OPENID_2_0_TYPE]) by (auto; left; auto). cbn [bind catch isProtocolError]. rewrite Dv. cbn [bind]. exact W.
  Qed.
  Lemma discovery_v1 query m session ep0 type claimed local : fair_query reg query -> fromPostArgs reg query = Ok m -> idResCheckForFields m = Ok tt ->
    asks_v2 query = false -> wire_value query (u "identity") = Some local ->
    (dget text_eqb (u "openid1_claimed_id") query = Some claimed \/
     dget text_eqb (u "openid1_claimed_id") query = None /\ exists ep1, session = Some ep1 /\ ep_claimed_id ep1 = Some claimed) ->
    type = OPENID_1_1_TYPE \/ type = OPENID_1_0_TYPE -> matches e ep0 type claimed local ->
    leads_to session claimed [OPENID_1_1_TYPE; OPENID_1_0_TYPE] ep0 ->
    verifyDiscoveryResults e discover m session = Ok ep0.
  Proof using.
    clear hmac udigit net S step now.
    intros (R & Hn & Hs) F C V H1 H2 T M Ld. destruct (version_inv reg query m Hn F C) as (Vn & _). pose proof (field_ns reg query m) as FN. rewrite V in *.
    unfold verifyDiscoveryResults. rewrite Vn. cbn [opt_eqb].
    change (text_eqb OPENID1_NS OPENID2_NS) with false. cbv iota. unfold verifyDiscoveryResultsOpenID1.
    assert (getArg m BARE_NS claimed_id_name = Ok (dget text_eqb claimed_id_name query)) as ->.
    { destruct (C14_parse_exact reg query m R Hn Hs F) as (_ & P2 & _ & _ & P5 & _).
      destruct (dget text_eqb claimed_id_name query) as [v|] eqn:D.
      - apply P2; [|reflexivity]. apply (dget_In text_eqb text_eqb_eq). auto.
      - rewrite getArg_bare. f_equal. destruct (dget akey_eqb (Bare, claimed_id_name) (margs m)) as [w|] eqn:G; auto. exfalso.
        assert (getArg m BARE_NS claimed_id_name = Ok (Some w)) as G' by (rewrite getArg_bare, G; auto).
        destruct (P5 _ _ _ G') as (name & K1 & K2). unfold getKey in K1. cbn [fixNS bind] in K1. injection K1 as <-.
        apply (In_dget text_eqb text_eqb_eq) in K2; auto. congruence. }
    cbn [bind]. change claimed_id_name with (u "openid1_claimed_id").
    rewrite (FN (u "identity")) by (auto; simple_key). rewrite H1.
    match goal with |- bind ?x _ = _ => assert (x = Ok (Some claimed)) as -> end.
    { destruct H2 as [->|(-> & ep1 & -> & ->)]; [destruct session|]; auto. }
    cbn [bind]. set (t1 := mkEndpoint (Some claimed) None [OPENID_1_1_TYPE] (Some local) None false None).
    set (t0 := mkEndpoint (Some claimed) None [OPENID_1_0_TYPE] (Some local) None false None).
    assert (verifyDiscoverySingle e ep0 t1 = Ok tt \/ (verifyDiscoverySingle e ep0 t1 = Raise TypeURIMismatch /\ verifyDiscoverySingle e ep0 t0 = Ok tt)) as Sg.
    { destruct T as [->| ->].
      - left. apply (matches_single _ _ _ _ None M); [split; vm_compute; discriminate|congruence].
      - destruct (verifyDiscoverySingle e ep0 t1) as [[]|x] eqn:E; auto. right.
        split; [|apply (matches_single _ OPENID_1_0_TYPE _ _ None M); [split; vm_compute; discriminate|congruence]].
        destruct M as (_ & Hl & L & d & U & Cl). unfold verifyDiscoverySingle in E. cbn [t1 ep_type_uris mapM ep_claimed_id ep_server_url] in E.
        destruct (usesExtension ep0 OPENID_1_1_TYPE); [|cbn [bind] in E; congruence]. cbn [bind] in E. exfalso.
        rewrite U in E. cbn [bind] in E. rewrite Cl in E. cbn [opt_eqb] in E. rewrite text_eqb_refl in E. cbn [negb] in E.
        assert (getLocalID t1 = Some local) as X.
        { unfold getLocalID. cbn. destruct local; [contradiction|auto]. }
        rewrite X, L in E. cbn [opt_eqb] in E. rewrite text_eqb_refl in E. cbn [negb] in E. vm_compute in E. discriminate E. }
    destruct Ld as [->|(L1 & l1 & l2 & D & U)].
    - destruct Sg as [->|(-> & ->)]; reflexivity.
    - assert (discoverAndVerify e discover (Some claimed) [t1; t0] = Ok ep0) as Dv.
      { eapply discover_ok; eauto; [|cbn [match_one]; destruct Sg as [->|(-> & ->)]; reflexivity].
        constructor; [|constructor; auto]; do 4 eexists; (split; [|reflexivity]); [left|right; left]; auto. }
      destruct L1 as [->|(ep1 & -> & U1)]; [exact Dv|]. unfold t1 at 1.
      rewrite (unlike_single [OPENID_1_1_TYPE; OPENID_1_0_TYPE]) by (auto; left; auto). cbn [catch]. unfold t0 at 1.
      rewrite (unlike_single [OPENID_1_1_TYPE; OPENID_1_0_TYPE]) by (auto; right; left; auto). cbn [bind catch isProtocolError]. exact Dv.
  Qed.

  (** ** The signature *)
  (** The store after calls that concern associations only. *)
  Definition assoc_call (o : op) : Prop := match o with GetA _ _ | RemoveA _ _ => True | _ => False end.
  Definition calls_on (os : list op) (st : S) : S := fold_left (fun st o => fst (step st now o)) os st.
  (** A store which, now, takes the nonce, and can forget the handles [H]. *)
  Definition fresh_in (st : S) (server : text) (ts : Z) (salt : text) (H : text -> Prop) (url : text) : Prop :=
    forall os, Forall assoc_call os ->
      (exists st', step (calls_on os st) now (UseN server ts salt) = (st', Flag true)) /\
      (forall h x, H h -> snd (step (calls_on os st) now (RemoveA url h)) <> Err x).
  (** What the server answers to the body of a check_authentication request for [query]. *)
  Definition confirms (query : dict text text) (posts : list post) (server : text) (H : text -> Prop) : Prop :=
    forall body, check_body query body ->
      exists answer t d m, net ((server, body) :: posts) = Some (200, answer) /\ decode answer = Ok t /\ kvToDict t = Ok d /\
        fromOpenIDArgs reg d = Ok m /\ dget text_eqb (u "is_valid") d = Some (u "true") /\
        forall h, dget text_eqb (u "invalidate_handle") d = Some h -> H h.
  Inductive verifies (query : dict text text) (server handle signed sig : text) (H : text -> Prop) (s : @cst S) : Prop :=
  | by_key st st' a : c_store s = Some st -> step st now (GetA server (Some handle)) = (st', Got (Some a)) ->
      (now < a_issued a + a_lifetime a)%Z -> mac_valid hmac a query signed sig -> mac_bytes hmac -> verifies query server handle signed sig H s
  | by_server : (c_store s = None \/ exists st st', c_store s = Some st /\ step st now (GetA server (Some handle)) = (st', Got None)) ->
      sendable query -> (forall k, In k (splitc 44 signed) -> wire_value query k <> None /\ startswith k (u "ns.") = false) ->
      confirms query (c_posts s) server H -> verifies query server handle signed sig H s.

  Lemma mac_check query m a signed sig : fair_query reg query -> fromPostArgs reg query = Ok m ->
    core m (if asks_v2 query then OPENID2_NS else OPENID1_NS) ->
    wire_value query (u "signed") = Some signed -> wire_value query (u "sig") = Some sig -> signed <> [] ->
    mac_valid hmac a query signed sig -> mac_bytes hmac -> checkMessageSignature hmac a m = Ok true.
  Proof using.
    clear e udigit net discover S step now.
    intros (R & Hn & Hs) F C H1 H2 Ne (t & b & T & Eb & Sg & Ty) Mb.
    assert (forall k, dget text_eqb k (toPostArgs m) = dget text_eqb k query) as P by (eapply C14_parse_exact; eauto).
    unfold checkMessageSignature, getMessageSignature. rewrite (field_of reg query m _ Hn F) by simple_key. rewrite H2. cbn [bind].
    destruct (Mb (a_type a) (a_secret a) b) as (M1 & M2).
    assert (truthy sig = true) as ->. { apply truthy_true. subst sig. apply b2a_ne. auto. } cbn [negb].
    rewrite (makePairs_eq _ _ C).
    assert (dget akey_eqb (Uri (if asks_v2 query then OPENID2_NS else OPENID1_NS), u "signed") (margs m) = Some signed) as ->.
    { assert (Ok (dget akey_eqb (Uri (if asks_v2 query then OPENID2_NS else OPENID1_NS), u "signed") (margs m)) = Ok (Some signed)) as X.
      { rewrite <- (core_get _ _ _ C), (field_of reg query m _ Hn F) by simple_key. rewrite H1. auto. } congruence. }
    assert (truthy signed = true) as -> by (apply truthy_true; auto). cbn [bind].
    unfold sign.
    assert (pairs_of (toPostArgs m) signed = map (fun k => (k, match wire_value query k with Some v => v | None => [] end)) (splitc 44 signed)) as ->.
    { unfold pairs_of. apply map_ext. intros k. unfold field, wire_value. rewrite P. auto. }
    rewrite T. cbn [bind]. assert (mem_text (a_type a) [u "HMAC-SHA1"; u "HMAC-SHA256"] = true) as ->. { apply mem_text_In. destruct Ty as [->| ->]; cbn; auto. }
    cbn [negb]. rewrite Eb. cbn [bind]. rewrite <- Sg.
    assert (encode sig = Ok sig) as ->. { subst sig. apply encode_ascii, b2a_ascii. auto. } cbn [bind]. f_equal. apply list_eqb_eq; auto. apply N.eqb_eq.
  Qed.

  Lemma present_args query m keys : fair_query reg query -> fromPostArgs reg query = Ok m -> 
    (forall k, In k keys -> wire_value query k <> None /\ startswith k (u "ns.") = false) -> signed_missing m keys = Ok false.
  Proof using.
    clear e udigit net discover S step now.
    intros (R & Hn & Hs) F. destruct (C14_parse_exact reg query m R Hn Hs F) as (P1 & _). destruct (fromPostArgs_ver _ _ _ F Hn) as (V & _).
    induction keys as [|k keys IH]; intros A; cbn [signed_missing]; auto.
    assert (exists v, getAliasedArg m k = Ok (Some v)) as (v & ->).
    { destruct (text_eq_dec k (u "ns")) as [->|Nk]; [unfold getAliasedArg; rewrite text_eqb_refl, V; eauto|].
      destruct (A k) as (W & W2); [left; auto|]. destruct (wire_value query k) as [v|] eqn:Wv; [|congruence]. exists v. apply P1; auto.
      apply (dget_In text_eqb text_eqb_eq). exact Wv. }
    cbn [bind]. apply IH. intros j Hj. apply A. right. auto.
  Qed.
  (** The request that the consumer sends to the server. *)
  Lemma check_request query m signed : fair_query reg query -> fromPostArgs reg query = Ok m -> sendable query ->
    wire_value query (u "signed") = Some signed ->
    (forall k, In k (splitc 44 signed) -> wire_value query k <> None /\ startswith k (u "ns.") = false) ->
    exists m2 body, createCheckAuthRequest m = Ok (Some m2) /\ toURLEncoded m2 = Ok body /\ check_body query body.
  Proof using.
    clear e hmac udigit net discover S step now.
    intros Q F Sd Hs A. pose proof Q as (R & Hn & Hsr).
    destruct (C14_parse_exact reg query m R Hn Hsr F) as (P1 & _ & _ & _ & _ & P).
    destruct (fromPostArgs_ver _ _ _ F Hn) as (V & _). assert (built reg m) as B by (eapply b_parse; eauto). pose proof (built_core _ _ _ B V) as C.
    destruct (core_set m _ (u "mode") (u "check_authentication") C) as (m2 & M & A2 & N0 & C').
    unfold createCheckAuthRequest. rewrite (field_of reg query m _ Hn F) by simple_key. rewrite Hs. cbn [bind].
    assert ((if truthy signed then signed_missing m (splitc 44 signed) else Ok false) = Ok false) as -> by (destruct (truthy signed); auto; eapply present_args; eauto).
    cbn [bind]. rewrite M. cbn [bind]. exists m2.
    destruct (fromPostArgs_sound reg query m (proj1 R) Hn Hsr F) as (_ & m0 & _ & _ & _ & _ & Ba).
    assert (forall k, dget text_eqb k (toPostArgs m2) = if text_eqb k (u "openid.mode") then Some (u "check_authentication") else dget text_eqb k query) as Qm.
    { intros k. destruct (text_eqb k (u "openid.mode")) eqn:E.
      - apply text_eqb_eq in E. subst k. apply (post_core_value m2 _ (u "mode") _ C').
        + intros x w. rewrite A2, (dget_dset_other akey_eqb akey_eqb_eq) by discriminate. intros X. apply Ba in X. tauto.
        + simple_key.
        + rewrite A2. apply (dget_dset_same akey_eqb akey_eqb_eq).
      - apply text_eqb_neq in E. rewrite <- P. eapply post_set_other; eauto. apply C'. }
    destruct (toURLEncoded m2) as [body|x] eqn:T.
    - exists body. split; auto. split; auto. unfold toURLEncoded in T. exists (sorted_items (toPostArgs m2)). split; auto.
      split; [eapply Permutation_NoDup; [apply Permutation_map, sorted_items_perm|apply toPostArgs_keys]|]. intros k. rewrite <- Qm. symmetry. apply dget_perm; [apply toPostArgs_keys|apply sorted_items_perm].
    - exfalso. eapply (encode_query reg query m) in T as (k & v & I & K); eauto. unfold sendable in Sd. rewrite Forall_forall in Sd. destruct (Sd _ I) as (S1 & S2). cbn [fst snd] in *.
      apply encode_scalar in S1 as (b1 & S1). apply encode_scalar in S2 as (b2 & S2). destruct K; congruence.
  Qed.
  Lemma check_ok query m server signed H s : fair_query reg query -> fromPostArgs reg query = Ok m -> sendable query ->
    wire_value query (u "signed") = Some signed ->
    (forall k, In k (splitc 44 signed) -> wire_value query k <> None /\ startswith k (u "ns.") = false) ->
    confirms query (c_posts s) server H ->
    (forall st h x, c_store s = Some st -> H h -> snd (step st now (RemoveA server h)) <> Err x) ->
    exists s1 os, checkAuth reg net step now m server s = (s1, Ok true) /\ Forall assoc_call os /\
      c_store s1 = option_map (calls_on os) (c_store s).
  Proof using.
    clear e hmac udigit discover.
    intros Q F Sd Hs A Cf Rm. destruct (check_request query m signed Q F Sd Hs A) as (m2 & body & E1 & E2 & E3).
    destruct (Cf body E3) as (answer & t & d & m3 & N1 & N2 & N3 & N4 & N5 & N6).
    assert (fromKVForm reg t = Ok m3) as Fk. { unfold fromKVForm. rewrite N3. cbn [bind]. auto. }
    assert (forall k, ~ In 46 k -> k <> u "ns" -> getArg m3 OPENID_NS k = Ok (dget text_eqb k d)) as G.
    { intros k Hd Hk. destruct (kv_field reg t m3 k Fk Hd Hk) as (d' & D1 & D2). congruence. }
    unfold checkAuth. rewrite cret_bind, E1. unfold cbind at 1, ctry, cbind at 1. unfold makeKVPost at 1. rewrite cret_bind, E2.
    rewrite N1. unfold httpResponseToMessage. rewrite N2. cbn [bind]. rewrite Fk. cbn [bind]. change (200 =? 400) with false. change (negb ((200 =? 200) || (200 =? 206))) with false. cbv iota.
    unfold cret at 1. unfold processCheckAuthResponse. rewrite cret_bind. unfold getArgDef. rewrite (G (u "is_valid")) by simple_key. rewrite N5. cbn [bind].
    rewrite cret_bind, (G (u "invalidate_handle")) by simple_key.
    destruct (dget text_eqb (u "invalidate_handle") d) as [h|] eqn:Dh.
    - unfold cbind at 1 2, has_store at 1. cbn [c_store c_posts]. destruct (c_store s) as [st|] eqn:St.
      + unfold cbind at 1, call. cbn [c_store c_posts]. pose proof (Rm st h) as Rm'. destruct (step st now (RemoveA server h)) as [st' r] eqn:E. cbn [snd] in Rm'.
        assert (match r with Err x => Raise x | _ => Ok r end = Ok r) as ->. { destruct r; auto. exfalso. eapply Rm'; eauto. }
        cbn [cret]. unfold cret. rewrite text_eqb_refl. eexists _, [RemoveA server h]. split; [reflexivity|]. split; [repeat constructor|].
        cbn [c_store option_map calls_on fold_left]. unfold calls_on. cbn [fold_left]. rewrite E. auto.
      + unfold cret. rewrite text_eqb_refl. eexists _, []. split; [reflexivity|]. split; auto.
    - unfold cbind, cret. rewrite text_eqb_refl. eexists _, []. split; [reflexivity|]. split; auto. cbn [c_store]. destruct (c_store s); auto.
  Qed.
  Lemma signature_ok query m server handle signed sig H s : fair_query reg query -> fromPostArgs reg query = Ok m ->
    core m (if asks_v2 query then OPENID2_NS else OPENID1_NS) ->
    wire_value query (u "assoc_handle") = Some handle -> wire_value query (u "signed") = Some signed -> wire_value query (u "sig") = Some sig -> signed <> [] ->
    verifies query server handle signed sig H s ->
    (forall st, c_store s = Some st -> forall os h x, Forall assoc_call os -> H h -> snd (step (calls_on os st) now (RemoveA server h)) <> Err x) ->
    exists s1 os, idResCheckSignature reg hmac net step now m (Some server) s = (s1, Ok tt) /\ Forall assoc_call os /\
      c_store s1 = option_map (calls_on os) (c_store s).
  Proof using.
    clear e udigit discover.
    intros Q F C Hh Hs Hg Ne V Rm. pose proof Q as (R & Hn & Hsr).
    unfold idResCheckSignature. cbn [the_url]. rewrite cret_bind, cret_bind. rewrite (field_of reg query m _ Hn F) by simple_key. rewrite Hh.
    unfold cbind at 1, has_store. destruct V as [st st' a St G Ex Mv Mb|St Sd A Cf].
    - rewrite St. unfold cbind at 1 2, call. rewrite St, G. cbn [got]. unfold cret at 1.
      assert ((getExpiresIn a now <=? 0)%Z = false) as ->. { unfold getExpiresIn. lia. }
      rewrite cret_bind, (mac_check query m a signed sig) by auto. unfold cret.
      eexists _, [GetA server (Some handle)]. split; [reflexivity|]. split; [repeat constructor|]. cbn [c_store option_map]. unfold calls_on. cbn [fold_left]. rewrite G. auto.
    - destruct St as [St|(st & st' & St & G)].
      + rewrite St. unfold cbind at 1, cret at 1.
        destruct (check_ok query m server signed H s Q F Sd Hs A Cf) as (s1 & os & E & Ao & Es); [intros st h x X; congruence|].
        unfold cbind at 1. rewrite E. unfold cret. exists s1, os. split; auto. split; auto. rewrite Es, St. auto.
      + rewrite St. unfold cbind at 1 2, call. rewrite St, G. cbn [got]. unfold cret at 1.
        destruct (check_ok query m server signed H (mkCst (Some st') (c_posts s)) Q F Sd Hs A Cf) as (s1 & os & E & Ao & Es).
        { cbn [c_store]. intros st2 h x X Hx. injection X as <-. pose proof (Rm st St [GetA server (Some handle)] h x) as Y. unfold calls_on in Y. cbn [fold_left] in Y. rewrite G in Y. apply Y; auto. repeat constructor. }
        unfold cbind at 1. rewrite E. unfold cret. exists s1, (GetA server (Some handle) :: os). split; auto. split; [repeat constructor; auto|].
        rewrite Es. cbn [c_store option_map]. unfold calls_on. cbn [fold_left]. rewrite G. auto.
  Qed.

  (** ** Completeness of the consumer *)
  (** [ep0] is the endpoint that the response is about, reported as [ep']. *)
  Definition session_matches (query : dict text text) (session : option endpoint) (ep0 ep' : endpoint) (server : text) : Prop :=
    ep_server_url ep0 = Some server /\
    exists local, wire_value query (u "identity") = Some local /\
    if asks_v2 query
    then exists claimed, wire_value query (u "claimed_id") = Some claimed /\ wire_value query (u "op_endpoint") = Some server /\
           matches e ep0 OPENID_2_0_TYPE claimed local /\ leads_to session claimed [OPENID_2_0_TYPE] ep0 /\ ep' = with_claimed_id ep0 (Some claimed)
    else exists type claimed, (type = OPENID_1_1_TYPE \/ type = OPENID_1_0_TYPE) /\ matches e ep0 type claimed local /\ ep' = ep0 /\
           leads_to session claimed [OPENID_1_1_TYPE; OPENID_1_0_TYPE] ep0 /\
           (dget text_eqb (u "openid1_claimed_id") query = Some claimed \/
            dget text_eqb (u "openid1_claimed_id") query = None /\ exists ep1, session = Some ep1 /\ ep_claimed_id ep1 = Some claimed).

  Theorem C58_consumer_accepts :
    forall query m session ep0 ep' rt rto server handle signed sig nserver nonce ts salt H s,
      fair_query reg query -> fromPostArgs reg query = Ok m -> wire_value query (u "ns") <> Some THE_OTHER_OPENID1_NS ->
      (* an assertion, with what it must have, and the necessary parts signed *)
      wire_value query (u "mode") = Some (u "id_res") ->
      (asks_v2 query = false -> wire_value query (u "user_setup_url") = None) ->
      wire_value query (u "return_to") = Some rto -> wire_value query (u "assoc_handle") = Some handle ->
      wire_value query (u "signed") = Some signed -> wire_value query (u "sig") = Some sig ->
      (forall k, In k (to_sign (asks_v2 query)) -> wire_value query k <> None -> In k (splitc 44 signed)) ->
      (* for this URL and the identifier asked about *)
      returned e rt rto query -> session_matches query session ep0 ep' server ->
      (* which verifies, and is new *)
      verifies query server handle signed sig H s ->
      nonce_of query = Some (nserver, nonce) -> split udigit nonce = Ok (ts, salt) ->
      (forall st, c_store s = Some st -> fresh_in st nserver ts salt H server) ->
      exists s', complete' m session rt s = (s', Ok (Success ep' m (map (fun k => u "openid." ++ k) (splitc 44 signed)))).
  Proof using.
    intros query m session ep0 ep' rt rto server handle signed sig nserver nonce ts salt H s Q F Ho Hm Su Hr Hh Hs Hg Sg Rt Se Ve No Sp Fr.
    pose proof Q as (R & Hn & Hsr). destruct (parsed_version query m Hn F Ho) as (V & C). destruct (query_version reg query m Hn F) as (_ & V1).
    assert (idResCheckForFields m = Ok tt) as Ck.
    { eapply required_ok; eauto. intros k Hk. destruct Se as (_ & local & L & Se).
      destruct Hk as [<-|[<-|[<-|[<-|[<-|[]]]]]]; try congruence. destruct (asks_v2 query); [|congruence]. destruct Se as (c & _ & X & _). congruence. }
    assert (signed <> []) as Ne.
    { intros ->. specialize (Sg (u "return_to")). assert (In (u "return_to") (splitc 44 [])) as [X|[]]; [|discriminate X]. apply Sg; [|congruence]. destruct (asks_v2 query); left; auto. }
    assert (verifyDiscoveryResults e discover m session = Ok ep') as Vd.
    { destruct Se as (S1 & local & S2 & S3). destruct (asks_v2 query) eqn:Va.
      - destruct S3 as (claimed & A1 & A2 & A3 & A4 & ->). eapply discovery_v2; eauto.
      - destruct S3 as (type & claimed & A1 & A2 & -> & A3 & A4). eapply discovery_v1; eauto. }
    assert (ep_server_url ep' = Some server) as Es.
    { destruct Se as (S1 & local & S2 & S3). destruct (asks_v2 query); [destruct S3 as (claimed & _ & _ & _ & _ & ->)|destruct S3 as (? & ? & _ & _ & -> & _)]; auto. }
    destruct (signature_ok query m server handle signed sig H s Q F C Hh Hs Hg Ne Ve) as (s1 & os & E1 & Ao & St).
    { intros st Hst os h x Ao Hx. destruct (Fr st Hst os Ao) as (_ & X). auto. }
    assert (exists s2, idResCheckNonce udigit step now m ep' s1 = (s2, Ok tt)) as (s2 & E2).
    { unfold idResCheckNonce.
      match goal with |- context [cbind ?x _ s1] => assert (x s1 = (s1, Ok (Some nonce, Some nserver))) as X end.
      { rewrite V1. unfold nonce_of in No. pose proof (field_ns reg query m) as FN. destruct (asks_v2 query) eqn:Va; cbn [negb].
        - rewrite FN by (auto; simple_key). rewrite cret_bind. destruct (wire_value query (u "op_endpoint")) as [sv|] eqn:Op; [|discriminate].
          destruct (wire_value query (u "response_nonce")); [|discriminate]. injection No as <- <-. unfold cret. rewrite Es.
          unfold session_matches in Se. rewrite Va in Se. destruct Se as (_ & local & _ & claimed & _ & O & _). congruence.
        - destruct (dget text_eqb (u "janrain_nonce") query) as [n|] eqn:D; [|discriminate]. injection No as <- <-.
          assert (getArg m BARE_NS nonce_name = Ok (Some n)) as ->.
          { refine (proj1 (proj2 (C14_parse_exact reg query m R Hn Hsr F)) nonce_name n _ eq_refl). apply (dget_In text_eqb text_eqb_eq). exact D. }
          rewrite cret_bind. auto. }
      unfold cbind at 1. rewrite X. cbn [fst snd]. rewrite Sp. cbn [catch]. rewrite cret_bind. cbn [fst snd]. unfold cbind at 1, has_store. rewrite St.
      destruct (c_store s) as [st|] eqn:Hst; cbn [option_map]; [|eexists; reflexivity].
      cbn [the_url]. rewrite cret_bind. unfold cbind at 1, call. rewrite St. cbn [option_map].
      destruct (Fr st eq_refl os Ao) as ((st' & U) & _). rewrite U. rewrite cret_bind. cbn [flag]. eexists. reflexivity. }
    exists s2. unfold complete, getArgDef. rewrite cret_bind. rewrite (field_of reg query m _ Hn F) by simple_key. rewrite Hm. cbn [bind].
    change (text_eqb (u "id_res") (u "cancel")) with false. change (text_eqb (u "id_res") (u "error")) with false.
    change (text_eqb (u "id_res") (u "setup_needed")) with false. rewrite text_eqb_refl. cbv iota.
    unfold complete_id_res. rewrite cret_bind.
    assert (checkSetupNeeded m = Ok None) as ->.
    { unfold checkSetupNeeded. rewrite V1. pose proof (field_ns reg query m) as FN. destruct (asks_v2 query) eqn:Va; cbn [negb]; auto.
      rewrite FN by (auto; simple_key). rewrite Su; auto. }
    unfold ctry, doIdRes. rewrite cret_bind, Ck. rewrite cret_bind, (return_ok query m rt rto Q F Hr Rt). cbn [negb].
    rewrite cret_bind, Vd. unfold cbind at 1. rewrite Es, E1. unfold cbind at 1. rewrite E2. rewrite cret_bind. unfold getArgReq.
    rewrite (field_of reg query m _ Hn F) by simple_key. rewrite Hs. reflexivity.
  Qed.
End Accept.
Print Assumptions C58_consumer_accepts.
