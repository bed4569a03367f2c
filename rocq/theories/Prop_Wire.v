(** Property C181: the names that identify versions, services, extensions and the default
    group are those of the published specifications.  The texts below are copied from the
    specifications; no definition of the model is used for them. *)
From Coq Require Import Lia ZifyBool ZifyN ZifyNat.
From Verif Require Import Py PyFacts CryptUtil CryptUtilFacts DH DHFacts Message MessageSpec MessageFacts MessageWire MessageParse Prop_Message
  Endpoint Server ExtFacts Sreg Ax Pape.
From Verif Require Manager.

Local Arguments u : simpl never.

(** ** Specification *)
(** OpenID Authentication 2.0, section 4.1.2; 1.1, appendix. *)
Definition v2 : text := u "http://specs.openid.net/auth/2.0".
Definition v11 : text := u "http://openid.net/signon/1.1".
Definition v10 : text := u "http://openid.net/signon/1.0".
(** Section 7.3.2.1: the types of services. *)
Definition op_service : text := u "http://specs.openid.net/auth/2.0/server".
Definition identifier_service : text := u "http://specs.openid.net/auth/2.0/signon".
(** Section 9.1. *)
Definition any_identifier : text := u "http://specs.openid.net/auth/2.0/identifier_select".
(** Section 8.1.2, appendix B: the default modulus, a prime of 1024 bits, and the generator. *)
Definition default_p : Z :=
  0xDCF93A0B883972EC0E19989AC5A2CE310E1D37717E8D9571BB7623731866E61EF75A2E27898B057F9891C2E27A639C3F29B60814581CD3B2CA3986D2683705577D45C2E7E52DC81C7A171876E5CEA74B1448BFDFAF18828EFD2519F14E45E3826634AF1949E5B535CC829A483B8A76223E5D490A257F05BDFF16F2FB22C583AB.
(** The fields of the protocol: they are no aliases of extensions (section 12). *)
Definition reserved : list text :=
  [u "assoc_handle"; u "assoc_type"; u "claimed_id"; u "contact"; u "dh_consumer_public"; u "dh_gen"; u "dh_modulus";
   u "error"; u "identity"; u "invalidate_handle"; u "mode"; u "ns"; u "op_endpoint"; u "openid"; u "realm"; u "reference";
   u "response_nonce"; u "return_to"; u "session_type"; u "sig"; u "signed"; u "trust_root"].
(** Simple registration 1.0, section 4. *)
Definition profile_fields : list text :=
  [u "nickname"; u "email"; u "fullname"; u "dob"; u "gender"; u "postcode"; u "country"; u "language"; u "timezone"].
Definition sreg10 : text := u "http://openid.net/sreg/1.0".
Definition sreg11 : text := u "http://openid.net/extensions/sreg/1.1".

(** ** Versions *)
Lemma dget_dset_null (n : nsmap) uri i n' : addAlias n uri Null i = (n', Ok Null) -> getNamespaceURI n' Null = Some uri.
Proof.
  unfold addAlias. intros H. cbn [bad_alias] in H.
  repeat match type of H with (if ?b then _ else _) = _ => destruct b; [discriminate|] end.
  injection H as <-. unfold getNamespaceURI. cbn [a2n]. apply (dget_dset_same alias_eqb alias_eqb_eq).
Qed.
Theorem C181_versions :
  forall m uri implicit m', setOpenIDNamespace m uri implicit = Ok m' ->
    In uri [v2; v11; v10] /\ getOpenIDNamespace m' = Some uri /\
    (isOpenID2 m' = true <-> uri = v2) /\ (isOpenID1 m' = true <-> uri = v11 \/ uri = v10).
Proof.
  intros m uri i m' H. unfold setOpenIDNamespace in H. destruct (mem_text uri allowed_openid_namespaces) eqn:M; [|discriminate].
  cbn [negb] in H. destruct (addAlias (mns m) uri Null i) as [n' [a|x]] eqn:A; [|discriminate]. injection H as <-.
  assert (a = Null) as ->.
  { unfold addAlias in A. cbn [bad_alias] in A. repeat match type of A with (if ?b then _ else _) = _ => destruct b; [discriminate|] end. congruence. }
  apply dget_dset_null in A. apply mem_text_In in M.
  split. { destruct M as [<-|[<-|[<-|[]]]]; vm_compute; auto. }
  unfold isOpenID2, isOpenID1, getOpenIDNamespace. cbn [mns]. rewrite A. split; [reflexivity|]. split.
  - rewrite opt_text_eqb_eq. split; [intros E; injection E as ->; reflexivity|intros ->; reflexivity].
  - rewrite mem_text_In. split; [intros [<-|[<-|[]]]; [right|left]; reflexivity|intros [-> | ->]; [right; left|left]; reflexivity].
Qed.
Print Assumptions C181_versions.

(** What a message says of itself decides; one that says nothing is of the first version. *)
Theorem C181_read :
  forall reg args m, NoDup (map fst args) -> fromPostArgs reg args = Ok m ->
    (isOpenID2 m = true <-> In (u "openid.ns", v2) args) /\
    (isOpenID1 m = true <-> (forall v, ~ In (u "openid.ns", v) args) \/ In (u "openid.ns", v10) args \/ In (u "openid.ns", v11) args).
Proof. intros reg args m N H. destruct (C16_version_detection reg args m N H) as (A & B & _). split; [exact A|exact B]. Qed.
Print Assumptions C181_read.

(** ** Aliases *)
Lemma reserved_fields x : In x OPENID_PROTOCOL_FIELDS <-> In x reserved.
Proof. unfold OPENID_PROTOCOL_FIELDS, reserved. cbn [map In]. tauto. Qed.
Theorem C181_reserved :
  forall x uri implicit,
    (In x reserved \/ In 46 x -> forall m, addAlias m uri (Al x) implicit = (m, Raise AssertionError)) /\
    (~ In x reserved -> ~ In 46 x -> snd (addAlias empty_nsmap uri (Al x) implicit) = Ok (Al x)).
Proof.
  intros x uri i. assert (bad_alias (Al x) = true <-> In x reserved \/ In 46 x) as B.
  { cbn [bad_alias]. rewrite orb_true_iff, mem_text_In, memc_In, reserved_fields. tauto. }
  split.
  - intros H m. unfold addAlias. apply B in H. rewrite H. reflexivity.
  - intros H1 H2. unfold addAlias. destruct (bad_alias (Al x)) eqn:E; [exfalso; destruct B as [B _]; destruct (B eq_refl); auto|]. reflexivity.
Qed.
Print Assumptions C181_reserved.

(** ** Services *)
Theorem C181_services :
  forall ep,
    (isOPIdentifier ep = true <-> In op_service (ep_type_uris ep)) /\
    (In op_service (ep_type_uris ep) \/ In identifier_service (ep_type_uris ep) -> preferredNamespace ep = v2 /\ compatibilityMode ep = false) /\
    (~ In op_service (ep_type_uris ep) -> ~ In identifier_service (ep_type_uris ep) -> preferredNamespace ep = v10 /\ compatibilityMode ep = true).
Proof.
  intros ep. assert (forall x, mem_text x (ep_type_uris ep) = true <-> In x (ep_type_uris ep)) as M by (intros; apply mem_text_In).
  unfold isOPIdentifier, compatibilityMode, preferredNamespace.
  pose proof (M op_service) as M1. pose proof (M identifier_service) as M2.
  change (mem_text OPENID_IDP_2_0_TYPE (ep_type_uris ep)) with (mem_text op_service (ep_type_uris ep)).
  change (mem_text OPENID_2_0_TYPE (ep_type_uris ep)) with (mem_text identifier_service (ep_type_uris ep)).
  split; [exact M1|]. destruct (mem_text op_service (ep_type_uris ep)), (mem_text identifier_service (ep_type_uris ep)); cbn [orb];
    (split; [intros H|intros H1 H2]); try (split; reflexivity); exfalso; intuition discriminate.
Qed.
Print Assumptions C181_services.
Theorem C181_op_url : forall url, ep_type_uris (fromOPEndpointURL url) = [op_service] /\ ep_server_url (fromOPEndpointURL url) = Some url.
Proof. intros url. split; reflexivity. Qed.
Theorem C181_any_identifier : forall c, idSelect c = true <-> ci_identity c = Some any_identifier.
Proof. intros c. unfold idSelect. rewrite opt_text_eqb_eq. reflexivity. Qed.
Print Assumptions C181_any_identifier.

(** ** The default group *)
Theorem C181_default_group :
  forall params_ok x d, fromDefaults params_ok x = Ok d -> dh_p d = default_p /\ dh_g d = 2%Z /\ dh_x d = x.
Proof.
  intros ok x d H. unfold fromDefaults, DiffieHellman in H.
  assert (base64ToLong DEFAULT_DH_MODULUS = Ok default_p) as E1 by (vm_compute; reflexivity).
  assert (base64ToLong DEFAULT_DH_GENERATOR = Ok 2%Z) as E2 by (vm_compute; reflexivity).
  rewrite E1, E2 in H. cbn [bind] in H. clear E1 E2.
  assert (forall p g, (if ok p g then Ok (mkDH p g x) else Raise ValueError) = Ok d -> dh_p d = p /\ dh_g d = g /\ dh_x d = x) as K.
  { intros p g K. destruct (ok p g); [|discriminate]. injection K as <-. auto. }
  exact (K _ _ H).
Qed.
Print Assumptions C181_default_group.
(** Parameters are left out of a request exactly when they are these. *)
Theorem C181_default_left_out :
  forall d, (0 <= dh_p d)%Z -> (0 <= dh_g d)%Z -> (usingDefaultValues d = Ok true <-> dh_p d = default_p /\ dh_g d = 2%Z).
Proof.
  intros d Hp Hg. unfold usingDefaultValues, parameters.
  destruct (longToBase64_Ok _ Hp) as (tp & Tp & Up), (longToBase64_Ok _ Hg) as (tg & Tg & Ug).
  assert (longToBase64 default_p = Ok DEFAULT_DH_MODULUS) as E1 by (vm_compute; reflexivity).
  assert (longToBase64 2%Z = Ok DEFAULT_DH_GENERATOR) as E2 by (vm_compute; reflexivity).
  assert (base64ToLong DEFAULT_DH_MODULUS = Ok default_p) as F1 by (vm_compute; reflexivity).
  assert (base64ToLong DEFAULT_DH_GENERATOR = Ok 2%Z) as F2 by (vm_compute; reflexivity).
  rewrite Tp, Tg. cbn [bind fst snd]. split.
  - intros H. injection H as H. apply andb_true_iff in H as [A B]. apply text_eqb_eq in A, B. subst. split; congruence.
  - intros [P G]. rewrite P in Tp. rewrite G in Tg. assert (tp = DEFAULT_DH_MODULUS) as -> by congruence. assert (tg = DEFAULT_DH_GENERATOR) as -> by congruence.
    rewrite !text_eqb_refl. reflexivity.
Qed.
Print Assumptions C181_default_left_out.

(** ** Extensions *)
(** The fields a profile has, and no others. *)
Lemma fields_same f : In f data_fields <-> In f profile_fields.
Proof. unfold data_fields, profile_fields. cbn [In]. tauto. Qed.
Theorem C181_profile_fields :
  forall f, (In f profile_fields -> checkFieldName f = Ok tt) /\ (~ In f profile_fields -> checkFieldName f = Raise ValueError).
Proof.
  intros f. unfold checkFieldName. rewrite <- fields_same. destruct (mem_text f data_fields) eqn:M.
  - apply mem_text_In in M. tauto.
  - apply mem_text_false in M. tauto.
Qed.
Print Assumptions C181_profile_fields.

(** Where an extension's arguments are put, and which arguments are taken for its own. *)
Theorem C181_extension_sent :
  forall reg m args m1, built reg m -> NoDup (dkeys args) ->
    (ext_toMessage m sreg_1_1 sreg_alias args = Ok m1 -> getAlias (mns m1) sreg11 = Some (Al (u "sreg"))) /\
    (ext_toMessage m ax_ns ax_alias args = Ok m1 -> getAlias (mns m1) (u "http://openid.net/srv/ax/1.0") = Some (Al (u "ax"))) /\
    (ext_toMessage m pape_ns pape_alias args = Ok m1 -> getAlias (mns m1) (u "http://specs.openid.net/extensions/pape/1.0") = Some (Al (u "pape"))).
Proof.
  intros reg m args m1 B N. repeat split; intros H; apply (ext_delivers reg) in H as (_ & _ & A & _); auto; discriminate.
Qed.
Print Assumptions C181_extension_sent.
Theorem C181_sreg_namespace :
  forall ep, supportsSReg ep = true <-> In sreg11 (ep_type_uris ep) \/ In sreg10 (ep_type_uris ep).
Proof. intros ep. unfold supportsSReg, usesExtension. rewrite orb_true_iff, !mem_text_In. reflexivity. Qed.
Print Assumptions C181_sreg_namespace.

(** Authentication policies. *)
Definition nist : text := u "http://csrc.nist.gov/publications/nistpubs/800-63/SP800-63V1_0_2.pdf".
Definition jisa : text := u "http://www.jisa.or.jp/spec/auth_level.html".
Theorem C181_levels :
  forall r args al,
    newPapeRequest [] None [] = Ok r /\ dget text_eqb (u "auth_level.ns." ++ al) args = None ->
    (dget text_eqb al (pq_aliases r) = Some nist <-> al = u "nist") /\
    (dget text_eqb al (pq_aliases r) = Some jisa <-> al = u "jisa") /\
    (level_uri args true al = Some nist <-> al = u "nist") /\ (level_uri args true al = Some jisa <-> al = u "jisa").
Proof.
  intros r args al [E D]. vm_compute in E. injection E as <-. unfold level_uri, ns_key. rewrite D. cbn [pq_aliases].
  assert (forall x, dget text_eqb al default_aliases = Some x <-> al = u "nist" /\ x = nist \/ al = u "jisa" /\ x = jisa) as K.
  { intros x. unfold default_aliases. cbn [dget]. destruct (text_eqb al (u "nist")) eqn:E1; [|destruct (text_eqb al (u "jisa")) eqn:E2].
    - apply text_eqb_eq in E1. subst. split; [intros H; injection H as <-; left; auto|intros [[_ ->]|[H _]]; [reflexivity|discriminate H]].
    - apply text_eqb_eq in E2. subst. split; [intros H; injection H as <-; right; auto|intros [[H _]|[_ ->]]; [discriminate H|reflexivity]].
    - apply text_eqb_neq in E1, E2. split; [discriminate|tauto]. }
  assert (nist <> jisa) as Nj by discriminate.
  assert ((dget text_eqb al default_aliases = Some nist <-> al = u "nist") /\ (dget text_eqb al default_aliases = Some jisa <-> al = u "jisa")) as [K1 K2].
  { rewrite !K. split; split; intuition congruence. }
  split; [exact K1|]. split; [exact K2|]. split; [exact K1|exact K2].
Qed.
Print Assumptions C181_levels.
Theorem C181_no_policy :
  forall r p, resp_addPolicyURI r p = Raise RuntimeError <-> p = u "http://schemas.openid.net/pape/policies/2007/06/none".
Proof.
  intros r p. unfold resp_addPolicyURI. destruct (text_eqb p AUTH_NONE) eqn:E.
  - apply text_eqb_eq in E. tauto.
  - apply text_eqb_neq in E. split; [discriminate|]. intros H. exfalso. apply E. exact H.
Qed.
Print Assumptions C181_no_policy.

(** ** The session *)
(** Where the services found are kept in a user's session. *)
Theorem C181_session_keys :
  forall suffix, Manager.session_key None = u "_yadis_services_auth" /\ Manager.session_key (Some suffix) = u "_yadis_services_" ++ suffix /\
    Manager.yadis_key = u "_yadis_services__openid_consumer_".
Proof. intros suffix. split; [|split]; reflexivity. Qed.

(** ** Examples *)
Example C181_example :
  (exists m, newMessage (Some v2) None = Ok m /\ isOpenID2 m = true) /\ newMessage (Some (u "http://specs.openid.net/auth/2.1")) None = Raise InvalidOpenIDNamespace /\
  compatibilityMode (mkEndpoint None None [v11] None None false None) = true /\
  (exists d, fromDefaults (fun _ _ => true) 7 = Ok d /\ public_number d = 128%Z) /\
  checkFieldName (u "nickname") = Ok tt /\ checkFieldName (u "password") = Raise ValueError.
Proof.
  split. { destruct (newMessage (Some v2) None) as [m|x] eqn:E; vm_compute in E; [|discriminate]. injection E as <-. eexists. split; [reflexivity|]. vm_compute. reflexivity. }
  split; [vm_compute; reflexivity|]. split; [vm_compute; reflexivity|]. split; [|split; vm_compute; reflexivity].
  exists (mkDH default_p 2 7). split; vm_compute; reflexivity.
Qed.
