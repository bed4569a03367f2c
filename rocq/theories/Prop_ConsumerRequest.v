(** C48, C49: what a consumer reads from a response, and what it puts into a request. *)
From Coq Require Import Lia ZifyBool ZifyN ZifyNat Permutation.
From Verif Require Import Py PyFacts Utf8 Utf8Facts KVForm KVFormFacts CryptUtil DH Message MessageFacts MessageWire MessageParse MessageSpec MessageRound Prop_Message.
From Verif Require Import Association AssociationFacts Prop_Association Prop_Association2 UrlLib UrlLibFacts UriNorm OidUtil OidUtilFacts Prop_Uri Nonce Store StoreSpec ServerFacts Prop_ServerDecode.
From Verif Require Import Endpoint Consumer ConsumerFacts Prop_Consumer.
Open Scope N_scope.
Local Arguments u : simpl never.

(** ** C48: reading signed data *)
Definition dotted (a k : text) : text := a ++ u "." ++ k.
Definition openid_names (signed : list text) : list text := map (fun f => u "openid." ++ f) signed.
Definition or_default (o d : option text) : option text := match o with Some v => Some v | None => d end.

Lemma openid_names_mem signed f : mem_text (u "openid." ++ f) (openid_names signed) = mem_text f signed.
Proof.
  apply eq_true_iff_eq. rewrite !mem_text_In. unfold openid_names. rewrite in_map_iff. split; [|eauto].
  intros (g & E & I). apply app_inv_head in E. subst. auto.
Qed.

Section Signed.
  Variable reg query : dict text text.
  Variable m : msg.
  Hypothesis fair : fair_query reg query.
  Hypothesis parsed : fromPostArgs reg query = Ok m.

  Lemma parsed_core : exists oid, core m oid.
  Proof using fair parsed.
    destruct fair as (R & Hn & Hs). destruct (fromPostArgs_ver _ _ _ parsed Hn) as (V & A). exists (oid_of (openid_part query)).
    eapply built_core; eauto. eapply b_parse; eauto.
  Qed.

  (** Fields of the protocol itself. *)
  Theorem C48_protocol_field : forall signed k dflt, ~ In 46 k -> k <> u "ns" ->
    getSigned m (openid_names signed) OPENID_NS k dflt = Ok (if mem_text k signed then or_default (wire_value query k) dflt else dflt).
  Proof using fair parsed.
    intros signed k dflt Hd Hk. destruct fair as (R & Hn & Hs). destruct parsed_core as (oid & C).
    unfold getSigned, isSigned, getKey. rewrite (core_fix _ _ C). cbn [bind]. rewrite (core_alias _ _ C). cbn [bind].
    rewrite openid_names_mem, (field_of reg query m k Hn parsed) by auto. destruct (mem_text k signed); auto.
  Qed.

  (** Fields of an extension whose namespace [uri] the response declares as [a]. *)
  Lemma declared a uri : In (u "openid.ns." ++ a, uri) query ->
    fixNS m (NS uri) = Ok (Uri uri) /\ getAlias (mns m) uri = Some (Al a) /\
    forall k, getArg m (NS uri) k = Ok (wire_value query (dotted a k)).
  Proof using fair parsed.
    intros I. destruct fair as (R & Hn & Hs). destruct (C14_parse_exact reg query m R Hn Hs parsed) as (P1 & _ & P3 & _ & P5 & _).
    assert (uri <> sreg_lit) as Hu by (intros ->; apply (Hs a); auto).
    assert (fixNS m (NS uri) = Ok (Uri uri)) as F by (apply fixNS_uri; auto).
    assert (wf m) as W by (eapply built_wf, b_parse; eauto).
    assert (getAlias (mns m) uri = Some (Al a)) as GA by (apply (wn_inv _ (wm_ns _ W)); apply P3; auto).
    split; auto. split; auto. intros k. unfold getArg at 1. rewrite F. cbn [bind]. f_equal.
    assert (getArg m (NS uri) k = Ok (dget akey_eqb (Uri uri, k) (margs m))) as G by (unfold getArg; rewrite F; auto).
    unfold wire_value. destruct (dget akey_eqb (Uri uri, k) (margs m)) as [v|] eqn:D.
    - destruct (P5 (NS uri) k v G) as (name & K & In_). unfold getKey in K. rewrite F in K. cbn [bind] in K. rewrite GA in K. injection K as <-.
      symmetry. apply (In_dget text_eqb text_eqb_eq); auto.
    - destruct (dget text_eqb (u "openid." ++ dotted a k) query) as [v|] eqn:Q; auto. exfalso.
      apply (dget_In text_eqb text_eqb_eq) in Q.
      pose proof (wn_ok _ (wm_ns _ W) _ _ (P3 a uri I)) as BA. cbn [bad_alias] in BA. apply orb_false_elim in BA as (B1 & B2).
      assert (~ In 46 a) as A1 by (intros X; apply memc_In in X; congruence).
      assert (a <> u "ns") as A2. { intros ->. vm_compute in B1. discriminate. }
      assert (cut 46 (dotted a k) = Some (a, k)) as Cu by (apply cut_app; auto).
      assert (startswith (dotted a k) (u "ns.") = false) as Sw.
      { destruct (startswith (dotted a k) (u "ns.")) eqn:X; auto. apply startswith_spec in X as (r & X). exfalso. apply A2.
        assert (cut 46 (dotted a k) = Some (u "ns", r)) as Y. { rewrite X. apply (cut_app 46 (u "ns") r). vm_compute. intuition discriminate. } congruence. }
      assert (dotted a k <> u "ns") as Nn. { intros X. rewrite X in Cu. vm_compute in Cu. discriminate. }
      specialize (P1 (dotted a k) v Q Nn Sw). unfold getAliasedArg in P1.
      destruct (text_eqb (dotted a k) (u "ns")) eqn:T; [apply text_eqb_eq in T; contradiction|]. rewrite Sw, Cu, (P3 a uri I), G in P1. discriminate.
  Qed.

  Theorem C48_extension_field : forall signed a uri k dflt, In (u "openid.ns." ++ a, uri) query ->
    getSigned m (openid_names signed) (NS uri) k dflt =
    Ok (if mem_text (dotted a k) signed then or_default (wire_value query (dotted a k)) dflt else dflt).
  Proof using fair parsed.
    intros signed a uri k dflt I. destruct (declared a uri I) as (F & GA & G). unfold getSigned, isSigned, getKey. rewrite F. cbn [bind]. rewrite GA. cbn [bind].
    rewrite (openid_names_mem signed (a ++ u "." ++ k)), G. fold (dotted a k). destruct (mem_text (dotted a k) signed); auto.
  Qed.

  (** A whole extension: all of it or nothing. *)
  Theorem C48_extension : forall signed a uri, In (u "openid.ns." ++ a, uri) query ->
    exists args, NoDup (map fst args) /\ (forall k v, In (k, v) args <-> wire_value query (dotted a k) = Some v) /\
      extensionResponse m (openid_names signed) (NS uri) false = Ok (Some args) /\
      getSignedNS m (openid_names signed) (NS uri) = extensionResponse m (openid_names signed) (NS uri) true /\
      ((forall k v, In (k, v) args -> In (dotted a k) signed) -> extensionResponse m (openid_names signed) (NS uri) true = Ok (Some args)) /\
      (forall k v, In (k, v) args -> ~ In (dotted a k) signed -> extensionResponse m (openid_names signed) (NS uri) true = Ok None).
  Proof using fair parsed.
    intros signed a uri I. destruct (declared a uri I) as (F & GA & G).
    assert (wf m) as W by (eapply built_wf, b_parse; eauto).
    set (args := map (fun e => (snd (fst e), snd e)) (filter (fun e => ns_eqb (fst (fst e)) (Uri uri)) (margs m))). exists args.
    assert (getArgs m (NS uri) = Ok args) as GAs by (unfold getArgs; rewrite F; auto).
    assert (forall k v, In (k, v) args <-> In ((Uri uri, k), v) (margs m)) as IA.
    { intros k v. unfold args. rewrite in_map_iff. split.
      - intros ([[n k'] v'] & E & J). cbn [fst snd] in E. inv E. apply filter_In in J as (J & X). cbn [fst snd] in X. destruct n as [|t]; [discriminate|].
        apply text_eqb_eq in X. subst. auto.
      - intros J. exists ((Uri uri, k), v). split; auto. apply filter_In. split; auto. cbn. apply text_eqb_refl. }
    assert (NoDup (map fst args)) as Nd.
    { assert (NoDup (dkeys (margs m))) as Nm by apply W. unfold args. rewrite map_map. cbn [fst]. revert Nm. clear.
      induction (margs m) as [|[[n k] v] l IH]; intros Nm; [constructor|]. cbn [dkeys map fst] in Nm. apply NoDup_cons_iff in Nm as (N1 & N2).
      cbn [filter fst snd]. destruct (ns_eqb n (Uri uri)) eqn:X; auto. cbn [map fst snd]. constructor; auto.
      intros J. apply N1. apply in_map_iff in J as ([[n' k'] v'] & E & J). cbn [fst snd] in E. subst k'. apply filter_In in J as (J & Y). cbn [fst] in Y.
      destruct n as [|t], n' as [|t']; try discriminate. apply text_eqb_eq in X, Y. subst. apply in_map_iff. exists ((Uri uri, k), v'). auto. }
    assert (forall keys, all_signed m (openid_names signed) (NS uri) keys = Ok (forallb (fun k => mem_text (dotted a k) signed) keys)) as AS.
    { induction keys as [|k keys IH]; auto. cbn [all_signed forallb]. unfold isSigned, getKey. rewrite F. cbn [bind]. rewrite GA. cbn [bind].
      rewrite (openid_names_mem signed (a ++ u "." ++ k)). fold (dotted a k). rewrite IH. destruct (mem_text (dotted a k) signed); auto. }
    split; auto. split.
    { intros k v. rewrite IA. specialize (G k). unfold getArg in G. rewrite F in G. cbn [bind] in G. injection G as G. rewrite <- G. split; intros J.
      - apply (In_dget akey_eqb akey_eqb_eq); auto. apply W.
      - apply (dget_In akey_eqb akey_eqb_eq) in J. auto. }
    unfold extensionResponse, getSignedNS. rewrite GAs. cbn [bind]. rewrite AS. cbn [bind]. split; auto. split; auto. split.
    - intros H. assert (forallb (fun k => mem_text (dotted a k) signed) (dkeys args) = true) as ->; auto.
      apply forallb_forall. intros k J. apply in_map_iff in J as ([k' v] & <- & J). apply mem_text_In. eauto.
    - intros k v J H. destruct (forallb (fun k => mem_text (dotted a k) signed) (dkeys args)) eqn:X; auto. exfalso.
      rewrite forallb_forall in X. apply H, mem_text_In, X. apply in_map_iff. exists (k, v). auto.
  Qed.

  (** In any namespace, declared or not: a value that is returned is that of a signed
      parameter. *)
  Theorem C48_only_signed : forall signed n k v,
    getSigned m (openid_names signed) n k None = Ok (Some v) -> exists f, In f signed /\ wire_value query f = Some v.
  Proof using fair parsed.
    intros signed n k v H. destruct fair as (R & Hn & Hs). destruct (C14_parse_exact reg query m R Hn Hs parsed) as (_ & _ & _ & _ & P5 & _).
    unfold getSigned, isSigned in H. binv H. binv E. rename a0 into name. inv E. destruct name as [name|]; [|discriminate].
    destruct (mem_text name (openid_names signed)) eqn:M; [|discriminate]. binv H. destruct a as [v'|]; inv H.
    destruct (P5 n k v E) as (name' & K & I). rewrite E0 in K. injection K as <-. apply mem_text_In in M. unfold openid_names in M.
    apply in_map_iff in M as (f & <- & M). exists f. split; auto. unfold wire_value. apply (In_dget text_eqb text_eqb_eq); auto.
  Qed.
  Theorem C48_only_signed_ns : forall signed n args,
    getSignedNS m (openid_names signed) n = Ok (Some args) ->
    forall k v, In (k, v) args -> exists f, In f signed /\ wire_value query f = Some v.
  Proof using fair parsed.
    intros signed n args H k v I. unfold getSignedNS in H. binv H. rename a into l. binv H. destruct a; inv H.
    assert (forall keys, all_signed m (openid_names signed) n keys = Ok true -> In k keys -> isSigned m (openid_names signed) n k = Ok true) as AS.
    { clear. induction keys as [|k' keys IH]; [intros _ []|]. cbn [all_signed]. intros H. binv H. destruct a; [|discriminate]. intros [->|J]; auto. }
    specialize (AS _ E0). assert (In k (dkeys args)) as J by (apply in_map_iff; exists (k, v); auto). specialize (AS J).
    assert (getArg m n k = Ok (Some v)) as G.
    { assert (wf m) as W by (eapply built_wf, b_parse; eauto). unfold getArgs in E. binv E. inv E. unfold getArg. rewrite E1. cbn [bind]. f_equal.
      apply in_map_iff in I as ([[n' k'] v'] & X & I). cbn [fst snd] in X. inv X. apply filter_In in I as (I & X). cbn [fst snd] in X.
      assert (n' = a) as -> by (destruct n' as [|t], a as [|t']; try discriminate X; auto; apply text_eqb_eq in X; subst; auto).
      apply (In_dget akey_eqb akey_eqb_eq); auto. apply W. }
    apply (C48_only_signed signed n k v). unfold getSigned. rewrite AS. cbn [bind]. rewrite G. reflexivity.
  Qed.
End Signed.
Print Assumptions C48_protocol_field.
Print Assumptions C48_extension_field.
Print Assumptions C48_extension.
Print Assumptions C48_only_signed.
Print Assumptions C48_only_signed_ns.

(** A response with an extension, whose namespace is called [x]. *)
Definition long_hmac : text -> bytes -> bytes -> bytes := fun _ k b => k ++ b.
Definition signed_query (fields : dict text text) : dict text text :=
  let signed := match wire_value fields (u "signed") with Some s => splitc 44 s | None => [] end in
  match seqToKV false (map (fun k => (k, match wire_value fields k with Some v => v | None => [] end)) signed) with
  | Ok t => match encode t with
            | Ok b => fields ++ [(u "openid.sig", toBase64 (long_hmac (a_type ex_assoc) (a_secret ex_assoc) b))]
            | Raise _ => []
            end
  | Raise _ => []
  end.
Definition ext_query (uri : text) : dict text text :=
  signed_query
  ([(u "openid.ns", OPENID2_NS); (u "openid.mode", u "id_res"); (u "openid.op_endpoint", ex_server);
   (u "openid.claimed_id", u "http://a/b"); (u "openid.identity", u "http://op/me"); (u "openid.return_to", u "http://rp/back");
   (u "openid.response_nonce", u "1970-01-01T00:16:41Zsalt"); (u "openid.assoc_handle", u "h1"); (u "openid.ns.x", uri);
   (u "openid.x.level", u "3"); (u "openid.x.note", u "hi");
   (u "openid.signed", u "op_endpoint,claimed_id,identity,return_to,response_nonce,assoc_handle,x.level")]).
Definition ext_complete (query : dict text text) : res response :=
  match fromPostArgs [] query with
  | Ok m => snd (complete plain_env [] long_hmac (fun _ => None) (fun _ => None)
                   (fun c => if text_eqb c (u "http://a/b") then Ok [ex_ep] else Ok []) mem_step 1001 m None (u "http://rp/back") (mkCst (Some ex_store) []))
  | Raise x => Raise x
  end.
Definition uri1 : text := u "http://example.com/risk".
Definition uri2 : text := u "http://example.com/trust".

(** The level is signed and the note is not. *)
Example C48_example :
  match ext_complete (ext_query uri1) with
  | Ok (Success _ m fields) =>
      getSigned m fields (NS uri1) (u "level") None = Ok (Some (u "3")) /\
      getSigned m fields (NS uri1) (u "note") None = Ok None /\
      getSignedNS m fields (NS uri1) = Ok None /\
      extensionResponse m fields (NS uri1) false = Ok (Some [(u "level", u "3"); (u "note", u "hi")]) /\
      getSigned m fields OPENID_NS (u "identity") None = Ok (Some (u "http://op/me")) /\
      getSigned m fields OPENID_NS (u "mode") (Some (u "?")) = Ok (Some (u "?"))
  | _ => False
  end.
Proof. vm_compute. split; [|split; [|split; [|split; [|split]]]]; reflexivity. Qed.

(** ** C94: the meaning of signed data is not signed *)
(** The two responses agree on every signed field and on the signature.  Both succeed, and
    the same signed value is read as that of two different extensions. *)
Theorem C94_signed_meaning_refuted :
  exists q1 q2 ep1 ep2 m1 m2 fields,
    (forall k, k <> u "openid.ns.x" -> dget text_eqb k q1 = dget text_eqb k q2) /\
    ext_complete q1 = Ok (Success ep1 m1 fields) /\ ext_complete q2 = Ok (Success ep2 m2 fields) /\
    getSigned m1 fields (NS uri1) (u "level") None = Ok (Some (u "3")) /\
    getSigned m1 fields (NS uri2) (u "level") None = Ok None /\
    getSigned m2 fields (NS uri1) (u "level") None = Ok None /\
    getSigned m2 fields (NS uri2) (u "level") None = Ok (Some (u "3")).
Proof.
  exists (ext_query uri1), (ext_query uri2). do 5 eexists. split.
  { intros k Hk. vm_compute ext_query. cbn [dget]. repeat match goal with |- context[if text_eqb k ?x then _ else _] => destruct (text_eqb k x) eqn:?; [try reflexivity|] end; try reflexivity.
    exfalso. apply Hk. match goal with H : text_eqb k _ = true |- _ => apply text_eqb_eq in H; exact H end. }
  split; [vm_compute; reflexivity|]. split; [vm_compute; reflexivity|]. split; [vm_compute; reflexivity|]. split; [vm_compute; reflexivity|].
  split; vm_compute; reflexivity.
Qed.
Print Assumptions C94_signed_meaning_refuted.

(** ** C49: the authentication request *)
Section Request.
  Variable reg : dict text text.

  (** A request as the application prepares it: begun for an endpoint, then extended. *)
  Inductive prepared (ep : endpoint) (a : option assoc) : authreq -> Prop :=
  | pr_new r : AuthRequest ep a = Ok r -> prepared ep a r
  | pr_anonymous r b r' : prepared ep a r -> setAnonymous r b = Ok r' -> prepared ep a r'
  | pr_arg r ns k v r' : prepared ep a r -> addExtensionArg r ns k v = Ok r' -> prepared ep a r'
  | pr_extension r uri al args r' : prepared ep a r -> addExtension r uri al args = Ok r' -> prepared ep a r'
  | pr_return_to_args r args : prepared ep a r ->
      prepared ep a (mkAuthReq (ar_assoc r) (ar_endpoint r) args (ar_message r) (ar_anonymous r)).

  Definition speaks_2 (ep : endpoint) : Prop := In OPENID_IDP_2_0_TYPE (ep_type_uris ep) \/ In OPENID_2_0_TYPE (ep_type_uris ep).
  Definition version_of (ep : endpoint) (v : text) : Prop := (speaks_2 ep /\ v = OPENID2_NS) \/ (~ speaks_2 ep /\ v = OPENID1_NS).

  (** The identifiers asked for: (identity, claimed_id). *)
  Inductive local_of (ep : endpoint) : text -> Prop :=
  | lo_local t : ep_local_id ep = Some t -> t <> [] -> local_of ep t
  | lo_canonical t : (ep_local_id ep = None \/ ep_local_id ep = Some []) -> ep_canonicalID ep = Some t -> local_of ep t
  | lo_claimed t : ep_local_id ep = None -> ep_canonicalID ep = None -> ep_claimed_id ep = Some t -> local_of ep t.
  Inductive identifies (ep : endpoint) : dict text text -> Prop :=
  | id_select : In OPENID_IDP_2_0_TYPE (ep_type_uris ep) ->
      identifies ep [(u "identity", IDENTIFIER_SELECT); (u "claimed_id", IDENTIFIER_SELECT)]
  | id_2 i c : ~ In OPENID_IDP_2_0_TYPE (ep_type_uris ep) -> speaks_2 ep -> local_of ep i -> ep_claimed_id ep = Some c ->
      identifies ep [(u "identity", i); (u "claimed_id", c)]
  | id_1 i : ~ speaks_2 ep -> local_of ep i -> identifies ep [(u "identity", i)].

  (** The return URL carries the extra arguments. *)
  Definition returns_to (given : text) (args : dict text (option text)) (url : text) : Prop :=
    exists sent l, args = map (fun kv => (fst kv, Some (snd kv))) sent /\ sendable sent /\ Permutation sent l /\
      startswith url given = true /\ before_query url = before_query given /\
      parse_qsl true (query_of url) = parse_qsl true (query_of given) ++ l.

  Definition mode_of (immediate : bool) : text := if immediate then u "checkid_immediate" else u "checkid_setup".

  (** The protocol fields of a request. *)
  Inductive request_fields (r : authreq) (realm : text) (return_to : option text) (immediate : bool) : dict text text -> Prop :=
  | rf given url realm_key ids handle :
      return_to = Some given ->
      (given <> [] /\ returns_to given (ar_return_to_args r) url \/
       (* an empty return_to is let through where none is required *)
       given = [] /\ url = [] /\ ar_return_to_args r = [] /\ immediate = false /\ speaks_2 (ar_endpoint r)) ->
      ((speaks_2 (ar_endpoint r) /\ realm_key = u "realm") \/ (~ speaks_2 (ar_endpoint r) /\ realm_key = u "trust_root")) ->
      (if ar_anonymous r then ids = [] else identifies (ar_endpoint r) ids) ->
      handle = match ar_assoc r with Some a => [(u "assoc_handle", a_handle a)] | None => [] end ->
      request_fields r realm return_to immediate
        ([(realm_key, realm); (u "mode", mode_of immediate); (u "return_to", url)] ++ ids ++ handle).

  Lemma ext_version m uri a args m' : ext_toMessage m uri a args = Ok m' -> getOpenIDNamespace m' = getOpenIDNamespace m.
  Proof using.
    intros H. unfold ext_toMessage in H. binv H. rewrite (updateArgs_null _ _ _ _ H).
    pose proof (addAlias_Al_null (mns m) uri a (isOpenID1 m)) as A.
    destruct (addAlias (mns m) uri (Al a) (isOpenID1 m)) as [n' [b|e]]; simpl in A.
    + inv E. exact A.
    + destruct (isKeyError e); [|discriminate]. destruct (opt_eqb alias_eqb _ _); inv E. exact A.
  Qed.
  Lemma prepared_inv ep a r : prepared ep a r ->
    ar_endpoint r = ep /\ ar_assoc r = a /\ built reg (ar_message r) /\ getOpenIDNamespace (ar_message r) = Some (preferredNamespace ep) /\
    (ar_anonymous r = true -> speaks_2 ep).
  Proof using.
    intros P. induction P as [r H|r b r' P (I1 & I2 & I3 & I4 & I5) H|r ns k v r' P (I1 & I2 & I3 & I4 & I5) H|r uri al args r' P (I1 & I2 & I3 & I4 & I5) H|r args P (I1 & I2 & I3 & I4 & I5)].
    - unfold AuthRequest in H. binv H. inv H. cbn. split; auto. split; auto. split; [eapply b_new; eauto|]. split; [|discriminate].
      unfold preferredNamespace in *. destruct (_ || _); vm_compute in E; inv E; reflexivity.
    - unfold setAnonymous in H. destruct (b && _) eqn:B; inv H. cbn. repeat (split; auto). intros ->. cbn in B.
      unfold isOpenID1 in B. rewrite I4 in B. unfold preferredNamespace in B. unfold speaks_2. rewrite <- !mem_text_In.
      destruct (mem_text OPENID_IDP_2_0_TYPE _); auto. destruct (mem_text OPENID_2_0_TYPE _); auto.
    - unfold addExtensionArg in H. binv H. inv H. cbn. split; auto. split; auto. split. { eapply b_set; eauto. } split; auto.
      rewrite (proj2 (proj2 (C13_set_then_get reg _ _ _ _ _ I3 E))). auto.
    - unfold addExtension in H. binv H. inv H. cbn. split; auto. split; auto. split. { eapply b_ext; eauto. } split; auto.
      rewrite <- I4. eapply ext_version; eauto.
    - cbn. auto.
  Qed.

  (** [m'] is [m] with protocol fields replaced. *)
  Definition with_fields (m : msg) (fields : dict text text) (m' : msg) : Prop :=
    getOpenIDNamespace m' = getOpenIDNamespace m /\ mns m' = mns m /\
    forall n k, getArg m' n k =
      match dget text_eqb k fields with
      | Some v => if opt_eqb ns_eqb (place m n) (place m OPENID_NS) then Ok (Some v) else getArg m n k
      | None => getArg m n k
      end.
  Definition good (m : msg) (v : text) : Prop := built reg m /\ getOpenIDNamespace m = Some v.

  Lemma place_version m m' n : getOpenIDNamespace m' = getOpenIDNamespace m -> place m' n = place m n.
  Proof using. clear. intros E. destruct n; cbn [place]; rewrite ?E; auto. Qed.
  Lemma ns_eqb_eq' a b : ns_eqb a b = true <-> a = b.
  Proof using. clear. destruct a, b; cbn; split; intros H; try discriminate; auto. { apply text_eqb_eq in H. congruence. } inv H. apply text_eqb_refl. Qed.

  Lemma set_field m v ns k w : good m v -> (ns = OPENID_NS \/ ns = NS v) ->
    exists m', setArg m ns k w = Ok m' /\ good m' v /\ with_fields m [(k, w)] m'.
  Proof using.
    intros (B & V) Hn. pose proof (built_core _ _ _ B V) as C.
    assert (setArg m ns k w = setArg m OPENID_NS k w) as Es.
    { destruct Hn as [->| ->]; auto. unfold setArg. rewrite (core_fix _ _ C), fixNS_uri by apply C. auto. }
    destruct (core_set m v k w C) as (m' & E & _ & N & C'). exists m'. rewrite Es. split; auto.
    assert (getOpenIDNamespace m' = getOpenIDNamespace m) as V' by (unfold getOpenIDNamespace; rewrite N; auto).
    split. { split; [eapply b_set; eauto|congruence]. } split; [auto|]. split; [auto|]. intros n k'.
    destruct (C13_set_then_get reg m OPENID_NS k w m' B E) as (G1 & G2 & _). cbn [dget].
    destruct (text_eqb k' k) eqn:Ek.
    - apply text_eqb_eq in Ek as ->. destruct (opt_eqb ns_eqb (place m n) (place m OPENID_NS)) eqn:Ep.
      + apply (opt_eqb_eq ns_eqb ns_eqb_eq') in Ep. rewrite <- G1. unfold getArg.
        pose proof (place_ok reg m' n (b_set _ _ _ _ _ _ B E)) as P1. pose proof (place_ok reg m' OPENID_NS (b_set _ _ _ _ _ _ B E)) as P2.
        rewrite (place_version m m' n V') in P1. rewrite (place_version m m' OPENID_NS V') in P2. rewrite Ep in P1.
        cbn [place] in P1, P2. rewrite V in P1, P2. cbn [option_map] in P1, P2. rewrite P1, P2. auto.
      + apply G2. intros X. injection X as X. rewrite X in Ep. assert (opt_eqb ns_eqb (place m OPENID_NS) (place m OPENID_NS) = true) by (apply (opt_eqb_eq ns_eqb ns_eqb_eq'); auto). discriminate (eq_trans (eq_sym Ep) H).
    - apply G2. intros X. injection X as _ X. subst k'. rewrite text_eqb_refl in Ek. discriminate.
  Qed.
  Lemma with_nil m : with_fields m [] m.
  Proof using. clear. split; auto. Qed.
  Lemma with_app m f m1 f' m2 : with_fields m f m1 -> with_fields m1 f' m2 -> (forall k v, In (k, v) f -> dget text_eqb k f' = None) ->
    with_fields m (f ++ f') m2.
  Proof using.
    clear. intros (V1 & N1 & G1) (V2 & N2 & G2) D. split; [congruence|]. split; [congruence|]. intros n k. rewrite G2, G1.
    rewrite !(place_version m m1) by auto.
    assert (dget text_eqb k (f ++ f') = match dget text_eqb k f with Some w => Some w | None => dget text_eqb k f' end) as ->.
    { clear. induction f as [|[k0 w] f IH]; auto. cbn [app dget]. destruct (text_eqb k k0); auto. }
    destruct (dget text_eqb k f) as [w|] eqn:F.
    - apply (dget_In text_eqb text_eqb_eq) in F. rewrite (D _ _ F). auto.
    - auto.
  Qed.

  Lemma version_bool ep : preferredNamespace ep = OPENID2_NS /\ speaks_2 ep \/ preferredNamespace ep = OPENID1_NS /\ ~ speaks_2 ep.
  Proof using.
    clear. unfold preferredNamespace, speaks_2. rewrite <- !mem_text_In. destruct (mem_text OPENID_IDP_2_0_TYPE _), (mem_text OPENID_2_0_TYPE _); cbn; auto.
    right. split; auto. intros [X|X]; discriminate X.
  Qed.
  Lemma local_of_spec ep t : getLocalID ep = Some t <-> local_of ep t.
  Proof using.
    clear. unfold getLocalID. split.
    - destruct (ep_local_id ep) as [l|] eqn:L, (ep_canonicalID ep) as [c|] eqn:C; cbn [otruthy].
      + destruct l as [|x l]; cbn; intros H; inv H. { eapply lo_canonical; eauto. } apply lo_local; auto; discriminate.
      + destruct l as [|x l]; cbn; intros H; inv H. apply lo_local; auto; discriminate.
      + intros H. inv H. apply lo_canonical; auto.
      + intros H. apply lo_claimed; auto.
    - intros H. inversion H as [t' L Nt|t' L C|t' L C Cl]; subst.
      + rewrite L. destruct t; [congruence|]. destruct (ep_canonicalID ep); auto.
      + rewrite C. destruct L as [-> | ->]; auto.
      + rewrite L, C. auto.
  Qed.
  Lemma texts_of_spec d l : texts_of d = Ok l <-> d = map (fun kv => (fst kv, Some (snd kv))) l.
  Proof using.
    clear. unfold texts_of. etransitivity; [apply mapM_Ok_Forall2|]. split.
    - induction 1 as [|[k o] [k' v] d l H F IH]; auto. cbn in *. destruct o as [v'|]; inv H. auto.
    - intros ->. induction l as [|[k v] l IH]; cbn; constructor; auto.
  Qed.
  Lemma return_to_spec given args url : given <> [] ->
    (exists l, texts_of args = Ok l /\ appendArgsDict given l = Ok url) -> returns_to given args url.
  Proof using.
    clear. intros Hg (l & T & A). apply texts_of_spec in T. unfold appendArgsDict in A.
    assert (sendable (sorted_items l)) as S by (apply (appendArgs_total given); eauto).
    destruct (C60_delivered given (sorted_items l) S) as (r & A' & P1 & _ & P2 & P3 & _).
    pose proof (eq_trans (eq_sym A) A') as X. injection X as <-.
    exists l, (sorted_items l). split; auto. split. { unfold sendable in *. rewrite Forall_forall in *. intros x I. apply S. eapply Permutation_in; [apply sorted_items_perm|]. auto. }
    split; [apply sorted_items_perm|]. auto.
  Qed.

  Lemma request_sound : forall ep a r realm return_to immediate m, prepared ep a r ->
    getMessage r realm return_to immediate = Ok m ->
    getOpenIDNamespace m <> None /\ version_of ep (match getOpenIDNamespace m with Some v => v | None => [] end) /\
    exists fields, request_fields r realm return_to immediate fields /\ with_fields (ar_message r) fields m.
  Proof.
    intros ep a r realm return_to immediate m P H. destruct (prepared_inv _ _ _ P) as (Pe & Pa & B & V & An).
    set (v := preferredNamespace ep) in *.
    assert (isOpenID1 (ar_message r) = negb (text_eqb v OPENID2_NS) /\ (forall m0, good m0 v -> isOpenID2 m0 = text_eqb v OPENID2_NS)) as (I1 & I2).
    { unfold isOpenID1. rewrite V. split.
      - subst v. destruct (version_bool ep) as [(-> & _)|(-> & _)]; reflexivity.
      - intros m0 (_ & V0). unfold isOpenID2. rewrite V0. auto. }
    unfold getMessage in H. rewrite I1 in H. binv H. rename a0 into rt.
    remember (if negb (text_eqb v OPENID2_NS) then u "trust_root" else u "realm") as rk eqn:Erk.
    assert (rk = u "trust_root" \/ rk = u "realm") as Krk by (rewrite Erk; destruct (text_eqb v OPENID2_NS); auto).
    destruct (set_field _ _ OPENID_NS rk realm (conj B V) (or_introl eq_refl)) as (m1 & E1 & G1 & W1). rewrite E1 in H. cbn [bind] in H.
    destruct (set_field _ _ OPENID_NS (u "mode") (mode_of immediate) G1 (or_introl eq_refl)) as (m2 & E2 & G2 & W2). unfold mode_of in E2 at 1. rewrite E2 in H. cbn [bind] in H.
    destruct rt as [url|]; [|discriminate]. cbn [setArgOpt] in H.
    destruct (set_field _ _ OPENID_NS (u "return_to") url G2 (or_introl eq_refl)) as (m3 & E3 & G3 & W3). rewrite E3 in H. cbn [bind] in H.
    assert (with_fields (ar_message r) [(rk, realm); (u "mode", mode_of immediate); (u "return_to", url)] m3) as W.
    { change [(rk, realm); (u "mode", mode_of immediate); (u "return_to", url)] with ([(rk, realm)] ++ [(u "mode", mode_of immediate)] ++ [(u "return_to", url)]).
      eapply with_app; [exact W1| |]. { eapply with_app; [exact W2|exact W3|]. intros k w [X|[]]; inv X; reflexivity. }
      clear - Krk. intros k w [X|[]]; inv X. destruct Krk as [-> | ->]; reflexivity. }
    binv H. rename a0 into m4.
    assert (exists ids, good m4 v /\ with_fields m3 ids m4 /\ (forall k w, In (k, w) ids -> k = u "identity" \/ k = u "claimed_id") /\
              (if ar_anonymous r then ids = [] else identifies ep ids)) as (ids & G4 & W4 & K4 & Hi).
    { clear - E0 G3 I2 Pe. subst v. rewrite <- Pe in *. clear Pe. destruct (ar_anonymous r). { inv E0. exists []. split; auto. split; [apply with_nil|]. split; auto. intros k w []. }
      unfold isOPIdentifier in E0. destruct (mem_text OPENID_IDP_2_0_TYPE (ep_type_uris (ar_endpoint r))) eqn:M.
      - destruct (version_bool (ar_endpoint r)) as [(Hv & S2)|(Hv & S2)].
        2: { exfalso. apply S2. left. apply mem_text_In; auto. }
        rewrite Hv in *. cbn [setArgOpt] in E0.
        destruct (set_field _ _ OPENID_NS (u "identity") IDENTIFIER_SELECT G3 (or_introl eq_refl)) as (n1 & F1 & H1 & X1). rewrite F1 in E0. cbn [bind] in E0.
        rewrite (I2 _ H1) in E0. destruct (set_field _ _ (NS OPENID2_NS) (u "claimed_id") IDENTIFIER_SELECT H1 (or_intror eq_refl)) as (n2 & F2 & H2 & X2).
        pose proof (eq_trans (eq_sym F2) E0) as X. injection X as <-. eexists. split; [exact H2|]. split; [eapply with_app; [exact X1|exact X2|]|].
        { intros k w [X|[]]; inv X; reflexivity. } cbn [app]. split. { intros k w [X|[X|[]]]; inv X; auto. } apply id_select. apply mem_text_In; auto.
      - destruct (getLocalID (ar_endpoint r)) as [i|] eqn:L; [|discriminate]. cbn [setArgOpt] in E0.
        destruct (set_field _ _ OPENID_NS (u "identity") i G3 (or_introl eq_refl)) as (n1 & F1 & H1 & X1). rewrite F1 in E0. cbn [bind] in E0.
        rewrite (I2 _ H1) in E0. destruct (version_bool (ar_endpoint r)) as [(Hv & S2)|(Hv & S2)]; rewrite Hv in *.
        + destruct (ep_claimed_id (ar_endpoint r)) as [c|] eqn:Cl; [|discriminate]. cbn [setArgOpt] in E0.
          destruct (set_field _ _ (NS OPENID2_NS) (u "claimed_id") c H1 (or_intror eq_refl)) as (n2 & F2 & H2 & X2).
          pose proof (eq_trans (eq_sym F2) E0) as X. injection X as <-. eexists. split; [exact H2|]. split; [eapply with_app; [exact X1|exact X2|]|].
          { intros k w [X|[]]; inv X; reflexivity. } cbn [app]. split. { intros k w [X|[X|[]]]; inv X; auto. } apply id_2; auto.
          * rewrite <- mem_text_In. congruence.
          * apply local_of_spec; auto.
        + replace (text_eqb OPENID1_NS OPENID2_NS) with false in E0 by reflexivity. injection E0 as <-. eexists. split; [exact H1|]. split; [exact X1|].
          split. { intros k w [X|[]]; inv X; auto. } apply id_1; auto. apply local_of_spec; auto. }
    assert (exists h, good m v /\ with_fields m4 h m /\ h = match ar_assoc r with Some a => [(u "assoc_handle", a_handle a)] | None => [] end) as (h & G5 & W5 & Hh).
    { clear - H G4. destruct (ar_assoc r) as [a|].
      - destruct (set_field _ _ OPENID_NS (u "assoc_handle") (a_handle a) G4 (or_introl eq_refl)) as (n1 & F1 & H1 & X1).
        pose proof (eq_trans (eq_sym F1) H) as X. injection X as <-. eauto.
      - inv H. exists []. split; auto. split; [apply with_nil|auto]. }
    destruct G5 as (_ & V5). rewrite V5. split; [discriminate|]. split.
    { subst v. destruct (version_bool ep) as [(-> & S2)|(-> & S2)]; [left|right]; auto. }
    exists ([(rk, realm); (u "mode", mode_of immediate); (u "return_to", url)] ++ ids ++ h). split.
    - assert (speaks_2 ep /\ rk = u "realm" \/ ~ speaks_2 ep /\ rk = u "trust_root") as Hrk.
      { subst v rk. destruct (version_bool ep) as [(-> & S2)|(-> & S2)]; [left|right]; auto. }
      rewrite <- Pe in *. destruct return_to as [[|c t]|].
      + destruct immediate; [discriminate E|]. destruct (negb (text_eqb v OPENID2_NS)) eqn:Nv; [discriminate E|].
        destruct (ar_return_to_args r) eqn:Ra; [|discriminate E]. inv E. destruct Hrk as [Hrk|(_ & Hrk)]; [|discriminate Hrk].
        eapply rf; auto. right. destruct Hrk. auto.
      + binv E. rename a0 into l. destruct (appendArgsDict (c :: t) l) as [url'|x] eqn:A; [|discriminate E]. cbn [bind] in E. injection E as <-.
        eapply (rf _ _ _ _ (c :: t)); auto. left. split; [discriminate|]. apply return_to_spec; [discriminate|]. eauto.
      + destruct immediate; [discriminate E|]. destruct (negb _); [discriminate E|]. destruct (ar_return_to_args r) eqn:Ra; discriminate E.
    - eapply with_app; [exact W| |].
      + eapply with_app; [exact W4|exact W5|]. intros k w I. apply K4 in I. rewrite Hh. destruct (ar_assoc r); auto. destruct I as [-> | ->]; reflexivity.
      + clear - K4 Hh Krk. intros k w I. destruct (dget text_eqb k (ids ++ h)) as [w'|] eqn:D; auto. apply (dget_In text_eqb text_eqb_eq) in D.
        assert (k = u "trust_root" \/ k = u "realm" \/ k = u "mode" \/ k = u "return_to") as Kk by (destruct I as [X|[X|[X|[]]]]; inv X; auto; destruct Krk; auto). clear I.
        apply in_app_or in D as [D|D].
        * apply K4 in D. destruct D as [-> | ->], Kk as [X|[X|[X|X]]]; discriminate X.
        * rewrite Hh in D. destruct (ar_assoc r); [|destruct D]. destruct D as [D|[]]. inv D. destruct Kk as [X|[X|[X|X]]]; discriminate X.
  Qed.

  Lemma request_complete ep a r realm return_to immediate fields : prepared ep a r ->
    request_fields r realm return_to immediate fields -> exists m, getMessage r realm return_to immediate = Ok m.
  Proof.
    intros P H. destruct (prepared_inv _ _ _ P) as (Pe & Pa & B & V & An). rewrite <- Pe in *. clear Pe.
    set (v := preferredNamespace (ar_endpoint r)) in *.
    assert (isOpenID1 (ar_message r) = negb (text_eqb v OPENID2_NS) /\ (forall m0, good m0 v -> isOpenID2 m0 = text_eqb v OPENID2_NS)) as (I1 & I2).
    { unfold isOpenID1. rewrite V. split.
      - subst v. destruct (version_bool (ar_endpoint r)) as [(-> & _)|(-> & _)]; reflexivity.
      - intros m0 (_ & V0). unfold isOpenID2. rewrite V0. auto. }
    inversion H as [given url rk ids handle Hr Hu Hrk Hi Hh Ef]. clear H Ef.
    unfold getMessage. rewrite I1.
    match goal with |- exists m, bind ?X _ = Ok m => assert (exists url, X = Ok (Some url)) as (url' & ->) end.
    { subst return_to. destruct Hu as [(Hg & sent & l & Ea & Hs & _)|(-> & _ & Ea & -> & S2)].
      - destruct given as [|c t]; [congruence|]. apply texts_of_spec in Ea. rewrite Ea. cbn [bind].
        assert (exists r0, appendArgsDict (c :: t) sent = Ok r0) as (r0 & ->); [|cbn; eauto].
        unfold appendArgsDict. apply appendArgs_total. unfold sendable in *. rewrite Forall_forall in *. intros x I. apply Hs.
        eapply Permutation_in; [symmetry; apply sorted_items_perm|]. auto.
      - rewrite Ea. subst v. destruct (version_bool (ar_endpoint r)) as [(-> & _)|(_ & X)]; [|contradiction]. rewrite text_eqb_refl. cbn [negb]. eauto. }
    cbn [bind]. set (key := if negb (text_eqb v OPENID2_NS) then u "trust_root" else u "realm").
    destruct (set_field _ _ OPENID_NS key realm (conj B V) (or_introl eq_refl)) as (m1 & E1 & G1 & W1). rewrite E1. cbn [bind].
    destruct (set_field _ _ OPENID_NS (u "mode") (mode_of immediate) G1 (or_introl eq_refl)) as (m2 & E2 & G2 & W2). unfold mode_of in E2 at 1. rewrite E2. cbn [bind setArgOpt].
    destruct (set_field _ _ OPENID_NS (u "return_to") url' G2 (or_introl eq_refl)) as (m3 & E3 & G3 & W3). rewrite E3. cbn [bind].
    match goal with |- exists m, bind ?X _ = Ok m => assert (exists m4, X = Ok m4 /\ good m4 v) as (m4 & -> & G4) end.
    { clear - Hi G3 I2. destruct (ar_anonymous r); [eauto|]. unfold isOPIdentifier.
      inversion Hi as [M Ei|i c M S2 L Cl Ei|i S2 L Ei]; clear Hi.
      - apply mem_text_In in M. rewrite M. cbn [setArgOpt].
        destruct (set_field _ _ OPENID_NS (u "identity") IDENTIFIER_SELECT G3 (or_introl eq_refl)) as (n1 & F1 & H1 & X1). rewrite F1. cbn [bind].
        rewrite (I2 _ H1). subst v. destruct (version_bool (ar_endpoint r)) as [(Hv & S2)|(Hv & S2)].
        2: { exfalso. apply S2. left. apply mem_text_In; auto. }
        rewrite Hv in *. cbn [text_eqb]. rewrite text_eqb_refl.
        destruct (set_field _ _ (NS OPENID2_NS) (u "claimed_id") IDENTIFIER_SELECT H1 (or_intror eq_refl)) as (n2 & F2 & H2 & X2). eauto.
      - rewrite <- mem_text_In in M. destruct (mem_text OPENID_IDP_2_0_TYPE _); [congruence|].
        apply local_of_spec in L. rewrite L, Cl. cbn [setArgOpt].
        destruct (set_field _ _ OPENID_NS (u "identity") i G3 (or_introl eq_refl)) as (n1 & F1 & H1 & X1). rewrite F1. cbn [bind].
        rewrite (I2 _ H1). subst v. destruct (version_bool (ar_endpoint r)) as [(Hv & _)|(Hv & X)]; [|contradiction].
        rewrite Hv in *. rewrite text_eqb_refl.
        destruct (set_field _ _ (NS OPENID2_NS) (u "claimed_id") c H1 (or_intror eq_refl)) as (n2 & F2 & H2 & X2). eauto.
      - destruct (mem_text OPENID_IDP_2_0_TYPE _) eqn:M. { exfalso. apply S2. left. apply mem_text_In. auto. }
        apply local_of_spec in L. rewrite L. cbn [setArgOpt].
        destruct (set_field _ _ OPENID_NS (u "identity") i G3 (or_introl eq_refl)) as (n1 & F1 & H1 & X1). rewrite F1. cbn [bind].
        rewrite (I2 _ H1). subst v. destruct (version_bool (ar_endpoint r)) as [(Hv & X)|(Hv & X)]; [contradiction|].
        rewrite Hv in *. exists n1. split; [reflexivity|auto]. }
    cbn [bind]. destruct (ar_assoc r) as [a0|]; eauto.
    destruct (set_field _ _ OPENID_NS (u "assoc_handle") (a_handle a0) G4 (or_introl eq_refl)) as (n1 & F1 & H1 & X1). eauto.
  Qed.
End Request.

(** A prepared request is either sent with exactly these protocol fields, keeping
    everything that was added to it, or refused. *)
Theorem C49_request : forall ep a r realm return_to immediate m, prepared ep a r ->
  getMessage r realm return_to immediate = Ok m ->
  getOpenIDNamespace m <> None /\ version_of ep (match getOpenIDNamespace m with Some v => v | None => [] end) /\
  exists fields, request_fields r realm return_to immediate fields /\ with_fields (ar_message r) fields m.
Proof. intros. eapply (request_sound []); eauto. Qed.
Print Assumptions C49_request.
(** It is sent whenever there are fields to send. *)
Theorem C49_request_sent : forall ep a r realm return_to immediate, prepared ep a r ->
  (exists m, getMessage r realm return_to immediate = Ok m) <-> exists fields, request_fields r realm return_to immediate fields.
Proof.
  intros ep a r realm return_to immediate P. split.
  - intros (m & H). destruct (C49_request _ _ _ _ _ _ _ P H) as (_ & _ & f & F & _). eauto.
  - intros (f & F). eapply (request_complete []); eauto.
Qed.
Print Assumptions C49_request_sent.
(** The user agent is sent to the server with these fields as its query. *)
Theorem C49_redirect : forall r realm return_to immediate url, redirectURL r realm return_to immediate = Ok url ->
  exists m server, getMessage r realm return_to immediate = Ok m /\ ep_server_url (ar_endpoint r) = Some server /\
    (~ In 35 server ->
     exists sent, Permutation (toPostArgs m) sent /\ startswith url server = true /\
       parse_qsl true (query_of url) = parse_qsl true (query_of server) ++ sent).
Proof.
  intros r realm return_to immediate url H. unfold redirectURL in H. binv H. rename a into m. exists m.
  destruct (ep_server_url (ar_endpoint r)) as [server|]; [|discriminate]. exists server. split; auto. split; auto. intros N.
  destruct (C60_message_url _ _ _ H N) as (sent & P1 & _ & P2 & P3). eauto.
Qed.
Print Assumptions C49_redirect.
(** What [begin] hands out is such a request, with the nonce and, in OpenID 1, the claimed
    identifier to be carried by the return URL. *)
Theorem C49_begin :
  forall reg params_ok pub_ok hash net (S : Type) (step : S -> Z -> Store.op -> S * out) now neg ep x1 x2 salt s s' r,
    begin reg params_ok pub_ok hash net step now neg ep x1 x2 salt s = (s', Ok r) ->
    prepared ep (ar_assoc r) r /\ ar_anonymous r = false /\ margs (ar_message r) = [] /\ (c_store s = None -> ar_assoc r = None) /\
    (speaks_2 ep -> ar_return_to_args r = [(u "janrain_nonce", Some (mkNonce now salt))]) /\
    (~ speaks_2 ep -> ar_return_to_args r = [(u "janrain_nonce", Some (mkNonce now salt)); (u "openid1_claimed_id", ep_claimed_id ep)]).
Proof.
  intros reg params_ok pub_ok hash net S step now neg ep x1 x2 salt s s' r H. unfold begin in H.
  apply cbind_Ok in H as (s1 & st & H1 & H). unfold has_store in H1. injection H1 as <- <-.
  apply cbind_Ok in H as (s2 & a & H2 & H). apply cbind_Ok in H as (s3 & r0 & H3 & H). apply cret_Ok in H3 as (-> & H3).
  apply cret_Ok in H as (-> & H). injection H as <-. cbn [ar_assoc ar_endpoint ar_return_to_args ar_message ar_anonymous].
  pose proof (pr_new ep a r0 H3) as P. destruct (prepared_inv [] _ _ _ P) as (Pe & Pa & _ & V & _).
  pose proof H3 as H4. unfold AuthRequest in H4. binv H4. injection H4 as <-. cbn [ar_assoc ar_endpoint ar_return_to_args ar_message ar_anonymous] in *.
  split. { exact (pr_return_to_args _ _ _ _ P). } split; auto. split.
  { destruct (version_bool ep) as [(X & _)|(X & _)]; rewrite X in E; vm_compute in E; injection E as <-; reflexivity. }
  split. { intros Hs. rewrite Hs in H2. apply cret_Ok in H2 as (_ & H2). injection H2 as <-. auto. }
  unfold isOpenID1. rewrite V. split; intros S2; destruct (version_bool ep) as [(-> & X)|(-> & X)]; try contradiction; reflexivity.
Qed.
Print Assumptions C49_begin.

(** A request to an OpenID 1 server, with an extension; one to a provider that chooses the identity. *)
Definition ep1 : endpoint := mkEndpoint (Some (u "http://a/b")) (Some (u "http://op/s?k=1")) [OPENID_1_1_TYPE] (Some (u "http://op/me")) None true None.
Definition ex_request (ep : endpoint) (immediate : bool) : res (dict text text) :=
  match snd (begin [] (fun _ _ => true) (fun _ _ _ => true) (fun _ b => b) (fun _ => None) mem_step 1000 (neg_history []) ep 5 7 (u "salt") (mkCst None [])) with
  | Ok r => r' <- addExtension r SREG_URI (u "sreg") [(u "required", u "email")] ;; m <- getMessage r' (u "http://rp/") (Some (u "http://rp/back?z=1")) immediate ;; Ok (toPostArgs m)
  | Raise x => Raise x
  end.
Example C49_example :
  ex_request ep1 true = Ok [(u "openid.sreg.required", u "email"); (u "openid.trust_root", u "http://rp/"); (u "openid.mode", u "checkid_immediate");
    (u "openid.return_to", u "http://rp/back?z=1&janrain_nonce=1970-01-01T00%3A16%3A40Zsalt&openid1_claimed_id=http%3A%2F%2Fa%2Fb");
    (u "openid.identity", u "http://op/me")] /\
  ex_request (fromOPEndpointURL (u "http://op/s")) false = Ok [(u "openid.ns", OPENID2_NS); (u "openid.ns.sreg", SREG_URI);
    (u "openid.sreg.required", u "email"); (u "openid.realm", u "http://rp/"); (u "openid.mode", u "checkid_setup");
    (u "openid.return_to", u "http://rp/back?z=1&janrain_nonce=1970-01-01T00%3A16%3A40Zsalt");
    (u "openid.identity", IDENTIFIER_SELECT); (u "openid.claimed_id", IDENTIFIER_SELECT)].
Proof. split; vm_compute; reflexivity. Qed.

(** ** C95: the return URL is not optional *)
(** The documentation lets it be left out, but no request of any kind can be made without. *)
Theorem C95_no_return_to : forall ep a r realm immediate, prepared ep a r -> exists x, getMessage r realm None immediate = Raise x.
Proof.
  intros ep a r realm immediate P. destruct (getMessage r realm None immediate) as [m|x] eqn:E; eauto. exfalso.
  destruct (C49_request _ _ _ _ _ _ _ P E) as (_ & _ & f & F & _). inversion F. discriminate.
Qed.
Print Assumptions C95_no_return_to.
Theorem C95_optional_return_to_refuted :
  exists r r', prepared ex_ep None r /\ prepared ex_ep None r' /\ ar_return_to_args r' = [] /\
    snd (begin [] (fun _ _ => true) (fun _ _ _ => true) (fun _ b => b) (fun _ => None) mem_step 1000 (neg_history []) ex_ep 5 7 (u "salt") (mkCst None [])) = Ok r /\
    getMessage r (u "http://rp/") None false = Raise ValueError /\ getMessage r' (u "http://rp/") None false = Raise AssertionError.
Proof.
  destruct (begin [] (fun _ _ => true) (fun _ _ _ => true) (fun _ b => b) (fun _ => None) mem_step 1000 (neg_history []) ex_ep 5 7 (u "salt") (mkCst None [])) as [s' o] eqn:E.
  destruct o as [r|x]; [|vm_compute in E; discriminate E]. pose proof (C49_begin _ _ _ _ _ _ _ _ _ _ _ _ _ _ _ _ E) as (P & _).
  assert (ar_assoc r = None) as X by (vm_compute in E; injection E as _ <-; reflexivity). rewrite X in P.
  exists r, (mkAuthReq (ar_assoc r) (ar_endpoint r) [] (ar_message r) (ar_anonymous r)). split; auto. split. { exact (pr_return_to_args _ _ _ _ P). }
  split; auto. split; auto. clear P X. vm_compute in E. injection E as _ <-. split; vm_compute; reflexivity.
Qed.
Print Assumptions C95_optional_return_to_refuted.
