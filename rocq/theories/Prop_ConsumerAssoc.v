(** C46, C47: how a consumer obtains an association. *)
From Coq Require Import Lia ZifyBool ZifyN ZifyNat Permutation.
From Verif Require Import Py PyFacts Utf8 Utf8Facts KVForm KVFormFacts CryptUtil CryptUtilFacts DH DHFacts Message MessageFacts MessageWire MessageParse MessageSpec MessageRound Prop_Message.
From Verif Require Import Association AssociationFacts Prop_Association Prop_Association2 UrlLib UrlLibFacts UriNorm OidUtil OidUtilFacts TrustRootFacts Nonce Store StoreSpec ServerFacts Prop_ServerDecode.
From Verif Require Import Endpoint Consumer ConsumerFacts Prop_Consumer Prop_ConsumerTotal.
Open Scope N_scope.
Local Arguments u : simpl never.

(** ** C47: reading the reply to an associate request *)
Definition or_else (o : option text) (d : text) : text := match o with Some ((_ :: _) as t) => t | _ => d end.
Definition field (d : dict text text) (k : text) : option text := dget text_eqb k d.
Definition reply_v2 (d : dict text text) : Prop := field d (u "ns") = Some OPENID2_NS.
(** The kind of session a reply names: required in OpenID 2, optional in OpenID 1.  (When
    the reply uses the other name of OpenID 1 the field is not looked at.) *)
Definition session_named (d : dict text text) (st : text) : Prop :=
  (reply_v2 d -> field d (u "session_type") = Some st) /\
  (~ reply_v2 d -> field d (u "ns") <> Some THE_OTHER_OPENID1_NS -> st = or_else (field d (u "session_type")) (u "no-encryption")).
(** The association types a kind of session can carry. *)
Definition carried_by (s : csession) (at_ : text) : Prop :=
  match s with
  | CPlain => at_ = u "HMAC-SHA1" \/ at_ = u "HMAC-SHA256"
  | CDH SHA1 _ => at_ = u "HMAC-SHA1"
  | CDH SHA256 _ => at_ = u "HMAC-SHA256"
  end.
Section Extract.
  Variable pub_ok : Z -> Z -> Z -> bool.
  Variable hash : hash_alg -> bytes -> bytes.
  (** Where the secret comes from: in the clear, or masked with the shared secret (C05). *)
  Definition secret_from (s : csession) (d : dict text text) (secret : bytes) : Prop :=
    match s with
    | CPlain => exists k, field d (u "mac_key") = Some k /\ fromBase64 k = Ok secret
    | CDH alg c => exists pub k, field d (u "dh_server_public") = Some pub /\ field d (u "enc_mac_key") = Some k /\
                     extractSecret pub_ok hash c pub k alg = Ok secret
    end.
  Record good_reply (now : Z) (d : dict text text) (asked : csession) (a : assoc) : Prop := {
    gr_type : field d (u "assoc_type") = Some (a_type a);
    gr_handle : field d (u "assoc_handle") = Some (a_handle a);
    gr_life : exists n, field d (u "expires_in") = Some n /\ int_of_text n = Ok (a_lifetime a);
    gr_issued : a_issued a = now;
    gr_session : exists st used, session_named d st /\ carried_by used (a_type a) /\ secret_from used d (a_secret a) /\
      ((st = csession_type asked /\ used = asked) \/
       (~ reply_v2 d /\ st = u "no-encryption" /\ st <> csession_type asked /\ used = CPlain))
  }.

  Lemma kv_dict reg t m d : fromKVForm reg t = Ok m -> kvToDict t = Ok d -> fromOpenIDArgs reg d = Ok m /\ NoDup (dkeys d).
  Proof.
    unfold fromKVForm. intros H D. rewrite D in H. cbn [bind] in H. split; auto.
    unfold kvToDict in D. binv D. inv D. apply NoDup_dict_of; auto using text_eqb_eq.
  Qed.
  Lemma reply_version reg d m : NoDup (dkeys d) -> fromOpenIDArgs reg d = Ok m ->
    getOpenIDNamespace m = Some (oid_of d) /\ In (oid_of d) allowed_openid_namespaces /\
    (isOpenID2 m = true <-> reply_v2 d) /\ isOpenID1 m = negb (isOpenID2 m) /\
    (isOpenID2 m = true -> oid_of d = OPENID2_NS) /\
    (~ reply_v2 d -> field d (u "ns") <> Some THE_OTHER_OPENID1_NS -> oid_of d = OPENID1_NS).
  Proof.
    intros Hn F. pose proof (fromOpenIDArgs_ver reg d Hn) as V. rewrite F in V. destruct V as (V & A). split; auto. split; auto.
    assert (isOpenID2 m = text_eqb (oid_of d) OPENID2_NS) as V2 by (unfold isOpenID2; rewrite V; reflexivity).
    assert (isOpenID1 m = (text_eqb (oid_of d) OPENID1_NS || text_eqb (oid_of d) THE_OTHER_OPENID1_NS)) as V1.
    { unfold isOpenID1. rewrite V. destruct A as [<-|[<-|[<-|[]]]]; vm_compute; reflexivity. }
    assert (reply_v2 d <-> oid_of d = OPENID2_NS) as R.
    { unfold reply_v2, field, oid_of. destruct (dget text_eqb (u "ns") d) as [v|]; [split; congruence|split; discriminate]. }
    rewrite V2, V1. split; [rewrite text_eqb_eq; tauto|]. split; [destruct A as [<-|[<-|[<-|[]]]]; vm_compute; reflexivity|].
    split; [apply text_eqb_eq|]. intros N1 N2. rewrite R in N1. unfold oid_of, field in *. destruct (dget text_eqb (u "ns") d) as [v|]; auto.
    destruct A as [<-|[<-|[<-|[]]]]; auto; congruence.
  Qed.
  Lemma required m k v : getArg m OPENID_NS k = Ok v -> getArgReq m OPENID_NS k = match v with Some x => Ok x | None => Raise KeyError end.
  Proof. unfold getArgReq. intros ->. cbn [bind]. destruct v; auto. Qed.
  Lemma reply_req reg d m k : NoDup (dkeys d) -> fromOpenIDArgs reg d = Ok m -> ~ In 46 k -> k <> u "ns" ->
    getArgReq m OPENID_NS k = match dget text_eqb k d with Some x => Ok x | None => Raise KeyError end.
  Proof. intros Hn F H1 H2. apply required. eapply openid_field; eauto. Qed.
  Lemma carried s t : mem_text t (callowed_assoc_types s) = true <-> carried_by s t.
  Proof. rewrite mem_text_In. destruct s as [|[] ?]; cbn [callowed_assoc_types carried_by In]; intuition auto. Qed.

  Lemma secret_spec reg d m s : NoDup (dkeys d) -> fromOpenIDArgs reg d = Ok m ->
    forall b, cextractSecret pub_ok hash s m = Ok b <-> secret_from s d b.
  Proof.
    intros Hn F b. unfold cextractSecret, secret_from, field.
    assert (forall k, ~ In 46 k -> k <> u "ns" -> getArgReq m OPENID_NS k = match dget text_eqb k d with Some x => Ok x | None => Raise KeyError end) as G.
    { intros k H1 H2. apply required. eapply openid_field; eauto. }
    destruct s as [|alg c].
    - rewrite G by simple_key. destruct (dget text_eqb (u "mac_key") d) as [k|]; cbn [bind].
      + split; [eauto|]. intros (k' & [= <-] & E). exact E.
      + split; [discriminate|]. intros (k' & [=] & E).
    - rewrite !G by simple_key. destruct (dget text_eqb (u "dh_server_public") d) as [p|]; cbn [bind].
      2:{ split; [discriminate|]. intros (p & k & [=] & _). }
      destruct (dget text_eqb (u "enc_mac_key") d) as [k|]; cbn [bind].
      2:{ split; [discriminate|]. intros (p' & k & _ & [=] & _). }
      split; [eauto 6|]. intros (p' & k' & [= <-] & [= <-] & E). exact E.
  Qed.

  (** The session the secret is taken from. *)
  Lemma session_chosen reg d m asked : NoDup (dkeys d) -> fromOpenIDArgs reg d = Ok m -> forall used,
    (exists st, (if isOpenID1 m then getOpenID1SessionType m else getArgReq m (NS OPENID2_NS) (u "session_type")) = Ok st /\
       (if text_eqb (csession_type asked) st then Ok asked
        else if isOpenID1 m && text_eqb st (u "no-encryption") then Ok CPlain else Raise ConsumerProtocolError) = Ok used) ->
    exists st, session_named d st /\
      ((st = csession_type asked /\ used = asked) \/ (~ reply_v2 d /\ st = u "no-encryption" /\ st <> csession_type asked /\ used = CPlain)).
  Proof.
    intros Hn F used (st & G & C). destruct (reply_version reg d m Hn F) as (V & A & R2 & R1 & O2 & O1). exists st.
    assert (session_named d st) as N.
    { rewrite R1 in G. split.
      - intros V2. apply R2 in V2 as Is2. rewrite Is2 in G. cbn [negb] in G. specialize (O2 Is2). rewrite O2 in V.
        assert (getArg m (NS OPENID2_NS) (u "session_type") = Ok (field d (u "session_type"))) as E.
        { rewrite getArg_ns by discriminate. rewrite <- (getArg_openid m OPENID2_NS) by (auto; discriminate). eapply openid_field; eauto; simple_key. }
        unfold getArgReq in G. rewrite E in G. cbn [bind] in G. destruct (field d (u "session_type")); inv G; auto.
      - intros V1 Ns. destruct (isOpenID2 m) eqn:Is2; [exfalso; apply V1, R2; auto|]. cbn [negb] in G. specialize (O1 V1 Ns). rewrite O1 in V.
        assert (getArg m (NS OPENID1_NS) (u "session_type") = Ok (field d (u "session_type"))) as E.
        { rewrite getArg_ns by discriminate. rewrite <- (getArg_openid m OPENID1_NS) by (auto; discriminate). eapply openid_field; eauto; simple_key. }
        unfold getOpenID1SessionType in G. rewrite E in G. cbn [bind] in G. inv G. reflexivity. }
    split; auto. destruct (text_eqb (csession_type asked) st) eqn:T.
    - apply text_eqb_eq in T. inv C. auto.
    - rewrite R1 in C. destruct (isOpenID2 m) eqn:Is2; cbn [negb andb] in C; [discriminate|]. destruct (text_eqb st (u "no-encryption")) eqn:T2; inv C.
      right. apply text_eqb_eq in T2. split; [intros K; apply R2 in K; congruence|]. split; auto. split; auto. apply text_eqb_neq in T. congruence.
  Qed.

  Theorem C47_accepts_only :
    forall reg t d m now asked a, kvToDict t = Ok d -> fromKVForm reg t = Ok m ->
      extractAssociation pub_ok hash now m asked = Ok a -> good_reply now d asked a.
  Proof.
    intros reg t d m now asked a D K H. destruct (kv_dict _ _ _ _ K D) as (F & Hn). unfold extractAssociation in H.
    rewrite !(reply_req reg d m _ Hn F) in H by simple_key.
    destruct (dget text_eqb (u "assoc_type") d) as [at_|] eqn:E1; cbn [bind] in H; [|discriminate].
    destruct (dget text_eqb (u "assoc_handle") d) as [h|] eqn:E2; cbn [bind] in H; [|discriminate].
    destruct (dget text_eqb (u "expires_in") d) as [n|] eqn:E3; cbn [bind] in H; [|discriminate].
    binv H. rename a0 into life. apply catch_Ok in E as [E|(x & E & X)]; [|destruct (isValueError x); discriminate].
    binv H. rename a0 into st. binv H. rename a0 into used.
    destruct (session_chosen reg d m asked Hn F used) as (st' & N & C); eauto.
    destruct (mem_text at_ (callowed_assoc_types used)) eqn:M; cbn [negb] in H; [|discriminate]. apply carried in M.
    binv H. rename a0 into sec. apply catch_Ok in E5 as [E5|(x & _ & X)]; [|destruct (isValueError x); discriminate].
    apply (secret_spec reg d m used Hn F) in E5. unfold fromExpiresIn, newAssoc in H. destruct (negb _); inv H.
    constructor; cbn [a_type a_handle a_lifetime a_issued a_secret]; eauto 8.
  Qed.

  Theorem C47_accepts :
    forall reg t d m now asked a, kvToDict t = Ok d -> fromKVForm reg t = Ok m -> field d (u "ns") <> Some THE_OTHER_OPENID1_NS ->
      good_reply now d asked a -> extractAssociation pub_ok hash now m asked = Ok a.
  Proof.
    intros reg t d m now asked a D K Ns [G1 G2 (n & G3 & G3') G4 (st & used & N & Ca & Se & C)]. destruct (kv_dict _ _ _ _ K D) as (F & Hn).
    unfold extractAssociation. rewrite !(reply_req reg d m _ Hn F) by simple_key.
    unfold field in G1, G2, G3. rewrite G1, G2, G3. cbn [bind]. rewrite G3'. cbn [catch bind].
    destruct (reply_version reg d m Hn F) as (V & A & R2 & R1 & O2 & O1). destruct N as (N2 & N1).
    assert ((if isOpenID1 m then getOpenID1SessionType m else getArgReq m (NS OPENID2_NS) (u "session_type")) = Ok st) as ->.
    { rewrite R1. destruct (isOpenID2 m) eqn:Is2; cbn [negb].
      - rewrite (O2 eq_refl) in V. unfold getArgReq. rewrite getArg_ns by discriminate. rewrite <- (getArg_openid m OPENID2_NS) by (auto; discriminate).
        rewrite (openid_field reg d m _ Hn F) by simple_key. unfold field in N2. rewrite N2 by (apply R2; auto). reflexivity.
      - assert (~ reply_v2 d) as NV by (intros X; apply R2 in X; discriminate). rewrite (O1 NV Ns) in V. unfold getOpenID1SessionType.
        rewrite getArg_ns by discriminate. rewrite <- (getArg_openid m OPENID1_NS) by (auto; discriminate).
        rewrite (openid_field reg d m _ Hn F) by simple_key. cbn [bind]. rewrite (N1 NV Ns). reflexivity. }
    cbn [bind].
    assert ((if text_eqb (csession_type asked) st then Ok asked
        else if isOpenID1 m && text_eqb st (u "no-encryption") then Ok CPlain else Raise ConsumerProtocolError) = Ok used) as ->.
    { destruct C as [(-> & ->)|(NV & -> & Ne & ->)].
      - rewrite text_eqb_refl. reflexivity.
      - destruct (text_eqb (csession_type asked) (u "no-encryption")) eqn:T; [apply text_eqb_eq in T; congruence|].
        rewrite R1. destruct (isOpenID2 m) eqn:Is2; [exfalso; apply NV, R2; auto|]. cbn [negb andb]. rewrite text_eqb_refl. reflexivity. }
    cbn [bind]. apply carried in Ca as Ca'. rewrite Ca'. cbn [negb]. apply (secret_spec reg d m used Hn F) in Se. rewrite Se. cbn [catch bind].
    unfold fromExpiresIn, newAssoc. assert (mem_text (a_type a) all_association_types = true) as ->.
    { destruct used as [|[] ?]; cbn [carried_by] in Ca; [destruct Ca as [->| ->]|rewrite Ca|rewrite Ca]; vm_compute; reflexivity. }
    cbn [negb]. destruct a as [h0 sec0 iss0 life0 type0]; cbn in *. rewrite G4. reflexivity.
  Qed.

  (** A session as the consumer makes it. *)
  Definition made (s : csession) (st : text) (x : Z) : Prop :=
    csession_type s = st /\
    match s with
    | CPlain => True
    | CDH _ c => base64ToLong DEFAULT_DH_MODULUS = Ok (dh_p c) /\ base64ToLong DEFAULT_DH_GENERATOR = Ok (dh_g c) /\ dh_x c = x
    end.
  Lemma default_group : exists p g, base64ToLong DEFAULT_DH_MODULUS = Ok p /\ base64ToLong DEFAULT_DH_GENERATOR = Ok g /\
    longToBase64 p = Ok DEFAULT_DH_MODULUS /\ longToBase64 g = Ok DEFAULT_DH_GENERATOR /\ (0 < p)%Z /\ (0 <= g)%Z.
  Proof.
    clear. set (p := base64ToLong DEFAULT_DH_MODULUS). vm_compute in p. set (g := base64ToLong DEFAULT_DH_GENERATOR). vm_compute in g.
    match eval unfold p in p with Ok ?n => exists n end. match eval unfold g in g with Ok ?n => exists n end.
    split; [reflexivity|]. split; [reflexivity|]. split; [vm_compute; reflexivity|]. split; [vm_compute; reflexivity|].
    split; [reflexivity|discriminate].
  Qed.

  Lemma fromBase64_err t x : fromBase64 t = Raise x -> x = ValueError.
  Proof.
    clear. unfold fromBase64. destruct (forallb _ t); [|congruence].
    assert (forall t q l p, a2b_loop q l p t = Raise x -> x = ValueError) as K; [|apply K].
    clear. induction t as [|c t IH]; intros q l p; cbn [a2b_loop]; [destruct (q =? 0); congruence|].
    destruct (c =? pad). { destruct (2 <=? q); eauto. destruct (4 <=? _); [discriminate|eauto]. }
    destruct (b64val c) as [v|]; eauto.
    destruct (q =? 0); eauto. destruct (q =? 1); [|destruct (q =? 2)]; intros H; rinv H as bs E; eauto; discriminate.
  Qed.
  Lemma base64ToLong_err t x : base64ToLong t = Raise x -> x = ValueError.
  Proof.
    clear. unfold base64ToLong. intros H. rinv H as b E; [eapply fromBase64_err; eauto|].
    unfold bytes_to_int, int16 in H. destruct (hexlify b) as [|c l]; [congruence|]. rinv H as n E1; [|discriminate].
    assert (forall l acc, hex_value acc l = Raise x -> x = ValueError) as K; [|eapply K; eauto].
    clear. induction l as [|c l IH]; intros acc; cbn [hex_value]; [discriminate|]. destruct (hexval c); [eauto|congruence].
  Qed.
  Lemma extractSecret_err c pub k alg x : (0 < dh_p c)%Z -> extractSecret pub_ok hash c pub k alg = Raise x -> x = ValueError.
  Proof.
    clear. intros Hp H. unfold extractSecret, xor_secret in H. rinv H as y E; [eapply base64ToLong_err; eauto|]. rinv H as z E0; [eapply fromBase64_err; eauto|].
    rinv H as w E1; [|eapply fromBase64_err; eauto]. rinv H as sh E2.
    { unfold get_shared_secret in H. rewrite E in H. cbn [bind] in H. destruct (pub_ok _ _ _); congruence. }
    rinv H as b E3.
    - exfalso. unfold get_shared_secret in E2. rewrite E in E2. cbn [bind] in E2. destruct (pub_ok _ _ _); inv E2.
      assert (byte_length (dh_p c) <> 0%nat) as Hl.
      { unfold byte_length. assert (1 <= N.size (Z.to_N (dh_p c))) by (destruct (dh_p c) as [|p|p]; [lia| |lia]; cbn; destruct p; cbn; lia).
        assert (1 <= (N.size (Z.to_N (dh_p c)) + 7) / 8) by (apply N.div_le_lower_bound; lia). lia. }
      assert (forall k n acc, (k <> 0 \/ acc <> [])%nat -> be_bytes k n acc <> []) as K.
      { clear. induction k as [|k IH]; intros n acc [K|K]; cbn [be_bytes]; try congruence; apply IH; right; discriminate. }
      specialize (K (byte_length (dh_p c)) (Z.to_N (y ^ dh_x c mod dh_p c)) [] (or_introl Hl)).
      unfold fix_btwoc in H. destruct (be_bytes _ _ _) as [|a l]; [congruence|]. destruct (127 <? a); discriminate.
    - rinv H as s1 E4; [eapply fromBase64_err; eauto|]. rinv H as r E5; [|discriminate]. unfold strxor in H. destruct (Nat.eqb _ _); congruence.
  Qed.

  (** A reply that is not accepted makes the consumer go on without an association. *)
  Theorem C47_refusals :
    forall reg t m now asked st x y, fromKVForm reg t = Ok m -> made asked st x ->
      extractAssociation pub_ok hash now m asked = Raise y -> isKeyError y || isProtocolError y = true.
  Proof.
    intros reg t m now asked st x y K Hm H. assert (exists d, kvToDict t = Ok d) as (d & D). { unfold fromKVForm in K. binv K. eauto. }
    destruct (kv_dict _ _ _ _ K D) as (F & Hn). unfold extractAssociation in H.
    rewrite !(reply_req reg d m _ Hn F) in H by simple_key.
    assert (forall z, isValueError z = true -> forall (A : Type) (w : exn), (if isValueError z then Some (@Raise A ConsumerProtocolError) else None) = Some (Raise w) -> w = ConsumerProtocolError) as W.
    { intros z -> A w. congruence. }
    destruct (dget text_eqb (u "assoc_type") d) as [at_|] eqn:E1; cbn [bind] in H; [|inv H; auto].
    destruct (dget text_eqb (u "assoc_handle") d) as [h|] eqn:E2; cbn [bind] in H; [|inv H; auto].
    destruct (dget text_eqb (u "expires_in") d) as [n|] eqn:E3; cbn [bind] in H; [|inv H; auto].
    rinv H as life E4. { apply catch_Raise in H as [(H & X)|(z & H & X)]; apply int_of_text_err in H; subst; inv X; auto. }
    rinv H as st' E5.
    { destruct (isOpenID1 m).
      - unfold getOpenID1SessionType in H. rewrite getArg_ns in H by discriminate. discriminate.
      - unfold getArgReq in H. rewrite getArg_ns in H by discriminate. cbn [bind] in H. destruct (dget akey_eqb _ _); inv H. auto. }
    rinv H as used E6. { destruct (text_eqb _ _); [discriminate|]. destruct (_ && _); inv H. auto. }
    destruct (mem_text at_ (callowed_assoc_types used)) eqn:M; cbn [negb] in H; [|inv H; auto]. apply carried in M.
    rinv H as sec E7.
    - apply catch_Raise in H as [(H & X)|(z & H & X)]; [|destruct (isValueError z); inv X; auto].
      unfold cextractSecret in H. destruct used as [|alg c].
      + rewrite (reply_req reg d m _ Hn F) in H by simple_key. destruct (dget _ (u "mac_key") _); cbn [bind] in H; [|inv H; auto]. apply fromBase64_err in H as ->. discriminate.
      + rewrite !(reply_req reg d m _ Hn F) in H by simple_key. destruct (dget _ (u "dh_server_public") _); cbn [bind] in H; [|inv H; auto].
        destruct (dget _ (u "enc_mac_key") _); cbn [bind] in H; [|inv H; auto]. apply extractSecret_err in H; [subst; discriminate|].
        assert (asked = CDH alg c) as ->. { destruct (text_eqb _ _); [inv E6; auto|]. destruct (_ && _); inv E6. }
        destruct Hm as (_ & P & _ & _). destruct default_group as (p & g & P1 & _ & _ & _ & Pp & _). rewrite P1 in P. inv P. auto.
    - exfalso. unfold fromExpiresIn, newAssoc in H. assert (mem_text at_ all_association_types = true) as X.
      { destruct used as [|[] ?]; cbn [carried_by] in M; [destruct M as [->| ->]|subst at_|subst at_]; vm_compute; reflexivity. }
      rewrite X in H. discriminate.
  Qed.
End Extract.
Print Assumptions C47_accepts_only.
Print Assumptions C47_accepts.
Print Assumptions C47_refusals.

(** ** C46: asking for an association *)
(** The parameters of an associate request. *)
Definition associate_form (v2 : bool) (at_ st pub : text) : list (text * text) :=
  (if v2 then [(u "openid.ns", OPENID2_NS)] else []) ++
  [(u "openid.mode", u "associate"); (u "openid.assoc_type", at_)] ++
  (if v2 || negb (text_eqb st (u "no-encryption")) then [(u "openid.session_type", st)] else []) ++
  (if text_eqb st (u "no-encryption") then [] else [(u "openid.dh_consumer_public", pub)]).
(** The public key that belongs to the private key [x], in the default group. *)
Definition public_of (x : Z) (pub : text) : Prop :=
  exists p g, base64ToLong DEFAULT_DH_MODULUS = Ok p /\ base64ToLong DEFAULT_DH_GENERATOR = Ok g /\ longToBase64 (g ^ x mod p) = Ok pub.
Definition asks (ep : endpoint) (at_ st : text) (x : Z) (body : text) : Prop :=
  exists pub form, public_of x pub /\ Permutation form (associate_form (negb (compatibilityMode ep)) at_ st pub) /\ urlencode form = Ok body.
(** A refusal that names other types. *)
Definition offers (d : dict text text) (at_ st : text) : Prop :=
  reply_v2 d /\ field d (u "error_code") = Some (u "unsupported-type") /\
  field d (u "assoc_type") = Some at_ /\ field d (u "session_type") = Some st.

Section Negotiate.
  Variable reg : dict text text.
  Variable params_ok : Z -> Z -> bool.
  Variable pub_ok : Z -> Z -> Z -> bool.
  Variable hash : hash_alg -> bytes -> bytes.
  Variable net : list post -> option (N * bytes).
  Context {S : Type} (step : S -> Z -> op -> S * out).
  Variable now : Z.

  (** The library refuses the default group. *)
  Definition group_refused (st : text) : Prop :=
    st <> u "no-encryption" /\ exists p g, base64ToLong DEFAULT_DH_MODULUS = Ok p /\ base64ToLong DEFAULT_DH_GENERATOR = Ok g /\ params_ok p g = false.

  Definition reads (answer : bytes) (d : dict text text) : Prop :=
    exists t m, decode answer = Ok t /\ kvToDict t = Ok d /\ fromKVForm reg t = Ok m.
  (** What one request comes to, given what the server sent back. *)
  Inductive told (ses : csession) : option (N * bytes) -> res (option assoc + dict text text) -> Prop :=
  | told_assoc status answer d a : status = 200 \/ status = 206 -> reads answer d -> good_reply pub_ok hash now d ses a ->
      told ses (Some (status, answer)) (Ok (inl (Some a)))
  | told_refusal answer d : reads answer d -> told ses (Some (400, answer)) (Ok (inr d))
  | told_garbage status answer x : unreadable reg answer x -> told ses (Some (status, answer)) (Raise x)
  | told_nothing rep :
      (forall status answer d a, rep = Some (status, answer) -> status = 200 \/ status = 206 -> reads answer d ->
         field d (u "ns") <> Some THE_OTHER_OPENID1_NS -> ~ good_reply pub_ok hash now d ses a) ->
      (forall answer d, rep = Some (400, answer) -> ~ reads answer d) ->
      told ses rep (Ok (inl None)).

  Lemma urlencode_ascii (form : list (text * text)) :
    Forall (fun kv => forallb (fun c => c <? 128) (fst kv) = true /\ forallb (fun c => c <? 128) (snd kv) = true) form ->
    exists body, urlencode form = Ok body.
  Proof.
    clear. intros H. unfold urlencode.
    assert (exists l, mapM (fun kv => k <- quote_plus (fst kv) ;; v <- quote_plus (snd kv) ;; Ok (k ++ 61 :: v)) form = Ok l) as (l & E).
    { induction H as [|[k v] form (H1 & H2) _ IH]; cbn [mapM fst snd]; eauto. unfold quote_plus at 1 2. cbn [fst snd] in *.
      rewrite !encode_ascii by auto. cbn [bind]. destruct IH as (l & ->). cbn [bind]. eauto. }
    rewrite E. cbn [bind]. eauto.
  Qed.
  Lemma longToBase64_ascii z : (0 <= z)%Z -> exists t, longToBase64 z = Ok t /\ forallb (fun c => c <? 128) t = true.
  Proof.
    clear. intros H. destruct (int_to_bytes_spec z H) as (b & E & B & _). unfold longToBase64. rewrite E. cbn [bind]. eexists. split; eauto.
    apply b2a_ascii; auto.
  Qed.

  Lemma request_made ep at_ st x : valid_pair at_ st ->
    match createAssociateRequest reg params_ok ep at_ st x with
    | Ok (s, m) => made s st x /\ exists body, toURLEncoded m = Ok body /\ asks ep at_ st x body
    | Raise y => y = ValueError /\ group_refused st
    end.
  Proof.
    clear pub_ok hash net S step now. intros VP. destruct default_group as (p & g & P1 & G1 & P2 & G2 & Hp & Hg).
    assert (0 <= g ^ x mod p)%Z as Hpub by (apply Z.mod_pos_bound; lia).
    destruct (longToBase64_ascii _ Hpub) as (pub & EP & PA).
    assert (fromDefaults params_ok x = if params_ok p g then Ok (mkDH p g x) else Raise ValueError) as FD.
    { unfold fromDefaults, DiffieHellman. rewrite P1, G1. reflexivity. }
    assert (getRequest (mkDH p g x) = Ok (pub, None)) as GR.
    { unfold getRequest, public_key, usingDefaultValues, parameters, public_number. cbn [dh_p dh_g dh_x]. rewrite EP, P2, G2. cbn [bind fst snd].
      rewrite !text_eqb_refl. reflexivity. }
    assert (forall m, toPostArgs m = associate_form (negb (compatibilityMode ep)) at_ st pub -> exists body, toURLEncoded m = Ok body /\ asks ep at_ st x body) as Fin.
    { intros m T. unfold toURLEncoded. rewrite T. set (form := associate_form _ _ _ _).
      assert (Forall (fun kv => forallb (fun c => c <? 128) (fst kv) = true /\ forallb (fun c => c <? 128) (snd kv) = true) form) as FA.
      { unfold form, associate_form. destruct (negb (compatibilityMode ep)), VP as [[-> [->| ->]]|[-> [->| ->]]];
          repeat (apply Forall_app; split); repeat (apply Forall_cons || apply Forall_nil); cbn [fst snd]; split; first [exact PA|vm_compute; reflexivity]. }
      destruct (urlencode_ascii (sorted_items form)) as (body & E).
      { rewrite Forall_forall in *. intros kv I. apply FA. eapply Permutation_in; [symmetry; apply sorted_items_perm|exact I]. }
      exists body. split; auto. exists pub, (sorted_items form). split; [exists p, g; auto|]. split; [symmetry; apply sorted_items_perm|exact E]. }
    unfold createAssociateRequest.
    assert (new_session params_ok st x = if text_eqb st (u "no-encryption") then Ok CPlain else
              if params_ok p g then Ok (CDH (if text_eqb st (u "DH-SHA1") then SHA1 else SHA256) (mkDH p g x)) else Raise ValueError) as ->.
    { unfold new_session. rewrite FD. destruct VP as [[_ [->| ->]]|[_ [->| ->]]]; vm_compute text_eqb; cbv iota; destruct (params_ok p g); reflexivity. }
    destruct (text_eqb st (u "no-encryption")) eqn:TN.
    - apply text_eqb_eq in TN. subst st. cbn [bind cgetRequest csession_type].
      match goal with |- context[fromOpenIDArgs reg ?args] => assert (exists m, fromOpenIDArgs reg args = Ok m /\ toPostArgs m = associate_form (negb (compatibilityMode ep)) at_ (u "no-encryption") pub) as (m & E & T) end.
      { destruct (compatibilityMode ep); cbn [fold_left]; eexists; (split; [vm_compute; reflexivity|vm_compute; reflexivity]). }
      rewrite E. cbn [bind]. split; [split; auto; reflexivity|]. apply Fin. exact T.
    - destruct (params_ok p g) eqn:PO; cbn [bind].
      2:{ split; auto. split; [apply text_eqb_neq; auto|]. exists p, g. auto. }
      cbn [cgetRequest]. rewrite GR. cbn [bind].
      assert (csession_type (CDH (if text_eqb st (u "DH-SHA1") then SHA1 else SHA256) (mkDH p g x)) = st) as ST.
      { destruct VP as [[_ [->| ->]]|[_ [->| ->]]]; try (vm_compute in TN; discriminate TN); vm_compute; reflexivity. }
      rewrite ST.
      match goal with |- context[fromOpenIDArgs reg ?args] => assert (exists m, fromOpenIDArgs reg args = Ok m /\ toPostArgs m = associate_form (negb (compatibilityMode ep)) at_ st pub) as (m & E & T) end.
      { clear Fin. destruct (compatibilityMode ep), VP as [[_ [->| ->]]|[_ [->| ->]]]; try (vm_compute in TN; discriminate TN); eexists; (split; [vm_compute; reflexivity|vm_compute; reflexivity]). }
      rewrite E. cbn [bind]. split; [|apply Fin; exact T]. split; auto.
  Qed.

  Lemma http_read status answer r : httpResponseToMessage reg status answer = Ok r ->
    exists t d m, decode answer = Ok t /\ kvToDict t = Ok d /\ fromKVForm reg t = Ok m /\
      ((status = 400 /\ r = ServerErr (field d (u "error_code")) m) \/ ((status = 200 \/ status = 206) /\ r = Answer m)).
  Proof.
    clear. unfold httpResponseToMessage. intros H. binv H. rename a into t. binv H. rename a into m.
    assert (exists d, kvToDict t = Ok d) as (d & D). { unfold fromKVForm in E0. binv E0. eauto. }
    destruct (kv_dict _ _ _ _ E0 D) as (F & Hn). exists t, d, m. split; auto. split; auto. split; auto.
    destruct (status =? 400) eqn:S4.
    - left. apply N.eqb_eq in S4. split; auto. unfold fromMessage, getArgDef in H. rewrite !(openid_field reg d m _ Hn F) in H by simple_key. cbn [bind] in H.
      destruct (dget text_eqb (u "error") d); cbn [bind] in H; inv H; reflexivity.
    - destruct ((status =? 200) || (status =? 206)) eqn:S2; cbn [negb] in H; [|discriminate]. right. inv H. split; auto.
      apply orb_prop in S2 as [S2|S2]; apply N.eqb_eq in S2; auto.
  Qed.
  Lemma http_refuses status answer x : httpResponseToMessage reg status answer = Raise x ->
    unreadable reg answer x \/ (x = HTTPFetchingError /\ status <> 200 /\ status <> 206 /\ status <> 400).
  Proof.
    clear. intros H. destruct (http_raise reg status answer x H) as [->|U]; auto.
    unfold httpResponseToMessage in H. rinv H as t E; [left; left; auto|]. rinv H as m E1.
    { left. right. apply fromKVForm_raise in H as (d & D1 & D2). eauto. }
    assert (exists d, kvToDict t = Ok d) as (d & D). { unfold fromKVForm in E1. binv E1. eauto. }
    destruct (kv_dict _ _ _ _ E1 D) as (F & Hn). right. split; auto.
    destruct (status =? 400) eqn:S4.
    - exfalso. unfold fromMessage, getArgDef in H. rewrite !(openid_field reg d m _ Hn F) in H by simple_key. cbn [bind] in H.
      destruct (dget text_eqb (u "error") d); discriminate.
    - destruct ((status =? 200) || (status =? 206)) eqn:S2; cbn [negb] in H; [discriminate|]. lia.
  Qed.

  Lemma request_told ep url at_ st x s s' r : ep_server_url ep = Some url -> valid_pair at_ st ->
    requestAssociation reg params_ok pub_ok hash net now ep at_ st x s = (s', r) ->
    (group_refused st /\ s' = s /\ r = Raise ValueError) \/
    exists body ses r0, asks ep at_ st x body /\ made ses st x /\ s' = @mkCst S (c_store s) ((url, body) :: c_posts s) /\
      told ses (net ((url, body) :: c_posts s)) r0 /\
      match r0 with
      | Ok (inl o) => r = Ok (inl o)
      | Raise y => r = Raise y
      | Ok (inr d) => exists t m, kvToDict t = Ok d /\ fromKVForm reg t = Ok m /\ r = Ok (inr (field d (u "error_code"), m))
      end.
  Proof.
    clear step. intros HU VP H. unfold requestAssociation in H. pose proof (request_made ep at_ st x VP) as RM.
    unfold cbind at 1, cret at 1 in H. destruct (createAssociateRequest reg params_ok ep at_ st x) as [[ses m]|y].
    2:{ left. destruct RM as (-> & GR). inv H. auto. }
    destruct RM as (Mk & body & TU & AK). right. exists body, ses. cbn [fst snd] in H. rewrite HU in H. unfold cbind at 1, cret at 1 in H. cbn [the_url] in H.
    unfold cbind at 1, ctry, makeKVPost in H. unfold cbind at 1 2, cret at 1 in H. rewrite TU in H. cbn [c_store c_posts] in H.
    set (posts := (url, body) :: c_posts s) in *.
    destruct (net posts) as [[status answer]|] eqn:NT.
    2:{ cbn [cret] in H. unfold cret in H. inv H. eexists. split; auto. split; auto. split; auto. split; [apply told_nothing; intros; discriminate|reflexivity]. }
    destruct (httpResponseToMessage reg status answer) as [rep|y] eqn:HR.
    - destruct (http_read _ _ _ HR) as (t & d & m' & D1 & D2 & D3 & C).
      assert (reads answer d) as Rd by (exists t, m'; auto).
      destruct C as [(-> & ->)|(St & ->)]; unfold cret in H.
      + inv H. exists (Ok (inr d)). split; auto. split; auto. split; auto. split; [apply told_refusal; auto|]. eauto 6.
      + destruct (extractAssociation pub_ok hash now m' ses) as [a|y] eqn:EA; cbn [bind catch] in H.
        * inv H. exists (Ok (inl (Some a))). split; auto. split; auto. split; auto. split; auto. eapply told_assoc; eauto. eapply C47_accepts_only; eauto.
        * rewrite (C47_refusals pub_ok hash reg t m' now ses st x y D3 Mk EA) in H. inv H. exists (Ok (inl None)).
          split; auto. split; auto. split; auto. split; auto. apply told_nothing.
          -- intros status' answer' d' a [= <- <-] _ (t' & m2 & X1 & X2 & X3) Ns G. rewrite D1 in X1. injection X1 as <-. rewrite D2 in X2. injection X2 as <-.
             rewrite (C47_accepts pub_ok hash reg t d m' now ses a D2 D3 Ns G) in EA. discriminate.
          -- intros answer' d' [= -> <-] _. lia.
    - destruct (http_refuses _ _ _ HR) as [U|(-> & S1 & S2 & S4)].
      + exists (match y with HTTPFetchingError => Ok (inl None) | _ => Raise y end). split; auto. split; auto.
        assert (forall d, ~ reads answer d) as Un.
        { intros d (t & m' & R1 & R2 & R3). destruct U as [U|(t' & d' & U1 & U2 & U3)]; [congruence|]. rewrite R1 in U1. injection U1 as <-. rewrite R2 in U2. injection U2 as <-.
          unfold fromKVForm in R3. rewrite R2 in R3. cbn [bind] in R3. congruence. }
        assert (s' = mkCst (c_store s) posts /\ r = match y with HTTPFetchingError => Ok (inl None) | _ => Raise y end) as (-> & ->) by (unfold cret in H; destruct y; inv H; auto).
        split; auto. destruct y; (split; [|reflexivity]); try (apply told_garbage; exact U).
        apply told_nothing; [intros status' answer' d a [= <- <-] _ R _ _; exact (Un d R)|intros answer' d [= _ <-] R; exact (Un d R)].
      + unfold cret in H. inv H. exists (Ok (inl None)). split; auto. split; auto. split; auto. split; auto. apply told_nothing.
        * intros status' answer' d a [= <- <-] St. lia.
        * intros answer' d [= X <-]. lia.
  Qed.

  Lemma supported_spec ops t d m : kvToDict t = Ok d -> fromKVForm reg t = Ok m ->
    (exists at_ st, offers d at_ st /\ In (at_, st) (neg_history ops) /\
       extractSupportedAssociationType (neg_history ops) (field d (u "error_code")) m = Ok (Some (at_, st))) \/
    ((forall at_ st, offers d at_ st -> ~ In (at_, st) (neg_history ops)) /\
     extractSupportedAssociationType (neg_history ops) (field d (u "error_code")) m = Ok None).
  Proof.
    clear. intros D K. destruct (kv_dict _ _ _ _ K D) as (F & Hn). destruct (reply_version reg d m Hn F) as (V & A & R2 & R1 & O2 & O1).
    unfold extractSupportedAssociationType. rewrite !(openid_field reg d m _ Hn F) by simple_key.
    destruct (opt_eqb text_eqb (field d (u "error_code")) (Some (u "unsupported-type"))) eqn:EC; cbn [negb orb].
    2:{ right. split; auto. intros at_ st (_ & X & _). rewrite X in EC. cbn in EC. discriminate. }
    apply (opt_eqb_eq text_eqb text_eqb_eq) in EC. rewrite R1.
    destruct (isOpenID2 m) eqn:Is2; cbn [negb].
    2:{ right. split; auto. intros at_ st (X & _). apply R2 in X. discriminate. }
    assert (reply_v2 d) as V2 by (apply R2; auto). cbn [bind].
    destruct (dget text_eqb (u "assoc_type") d) as [a|] eqn:E1.
    2:{ right. split; auto. intros at_ st (_ & _ & X & _). unfold field in X. congruence. }
    destruct (dget text_eqb (u "session_type") d) as [t'|] eqn:E2.
    2:{ right. split; auto. intros at_ st (_ & _ & _ & X). unfold field in X. congruence. }
    destruct (C40_negotiator_consistent ops) as (_ & N2 & _). destruct (isAllowed (neg_history ops) a t') eqn:IA.
    - left. exists a, t'. split; [unfold offers, field; auto|]. split; auto. apply N2. auto.
    - right. split; auto. intros at_ st (_ & _ & X1 & X2) I. unfold field in X1, X2. assert (at_ = a /\ st = t') as (-> & ->) by (split; congruence).
      apply N2 in I. congruence.
  Qed.

  (** Exactly what negotiating does, whatever the server answers. *)
  Theorem C46_negotiation :
    forall ops ep url x1 x2 (s s' : @cst S) r, ep_server_url ep = Some url ->
      negotiateAssociation reg params_ok pub_ok hash net now (neg_history ops) ep x1 x2 s = (s', r) ->
      c_store s' = c_store s /\
      match neg_history ops with
      | [] => c_posts s' = c_posts s /\ r = Raise TypeError
      | (at1, st1) :: _ =>
          (group_refused st1 /\ c_posts s' = c_posts s /\ r = Raise ValueError) \/
          exists b1 ses1 r1, asks ep at1 st1 x1 b1 /\ made ses1 st1 x1 /\
            let posts1 := (url, b1) :: c_posts s in
            told ses1 (net posts1) r1 /\
            match r1 with
            | Raise x => c_posts s' = posts1 /\ r = Raise x
            | Ok (inl o) => c_posts s' = posts1 /\ r = Ok o
            | Ok (inr d) =>
                ((forall at2 st2, offers d at2 st2 -> ~ In (at2, st2) (neg_history ops)) /\ c_posts s' = posts1 /\ r = Ok None) \/
                exists at2 st2, offers d at2 st2 /\ In (at2, st2) (neg_history ops) /\
                  ((group_refused st2 /\ c_posts s' = posts1 /\ r = Raise ValueError) \/
                   exists b2 ses2 r2, asks ep at2 st2 x2 b2 /\ made ses2 st2 x2 /\
                     let posts2 := (url, b2) :: posts1 in
                     told ses2 (net posts2) r2 /\ c_posts s' = posts2 /\
                     r = match r2 with Raise x => Raise x | Ok (inl o) => Ok o | Ok (inr _) => Ok None end)
            end
      end.
  Proof.
    clear step. intros ops ep url x1 x2 s s' r HU H. unfold negotiateAssociation in H. destruct (C40_negotiator_consistent ops) as (VP & _ & HD & _). rewrite HD in H.
    destruct (neg_history ops) as [|[at1 st1] rest] eqn:NH; cbn [hd_error] in H; [unfold cret in H; inv H; auto|]. rewrite <- NH in *.
    assert (valid_pair at1 st1) as V1 by (apply VP; rewrite NH; left; auto).
    unfold cbind at 1 in H. destruct (requestAssociation reg params_ok pub_ok hash net now ep at1 st1 x1 s) as [s1 q1] eqn:R1.
    destruct (request_told ep url at1 st1 x1 s s1 q1 HU V1 R1) as [(GR & -> & ->)|(b1 & ses1 & r1 & AK1 & M1 & -> & T1 & C1)].
    { inv H. split; auto. }
    destruct r1 as [[o|d]|x].
    - subst q1. unfold cret in H. inv H. split; auto. right. exists b1, ses1, (Ok (inl o)). auto 8.
    - destruct C1 as (t & m & D & K & ->). unfold cbind at 1, cret at 1 in H.
      destruct (supported_spec ops t d m D K) as [(at2 & st2 & Of & I & E)|(No & E)]; rewrite E in H.
      + assert (valid_pair at2 st2) as V2 by (apply VP; auto).
        unfold cbind at 1 in H. match type of H with (match ?t with _ => _ end = _) => destruct t as [s2 q2] eqn:R2 end.
        destruct (request_told ep url at2 st2 x2 _ s2 q2 HU V2 R2) as [(GR & -> & ->)|(b2 & ses2 & r2 & AK2 & M2 & -> & T2 & C2)].
        * inv H. cbn [c_store c_posts]. split; auto. right. exists b1, ses1, (Ok (inr d)). split; auto. split; auto. split; auto. right.
          exists at2, st2. split; auto.
        * cbn [c_store c_posts] in *. assert (s' = mkCst (c_store s) ((url, b2) :: (url, b1) :: c_posts s) /\
             r = match r2 with Raise x => Raise x | Ok (inl o) => Ok o | Ok (inr _) => Ok None end) as (-> & ->).
          { destruct r2 as [[o|d2]|x]; [subst q2; unfold cret in H; inv H; auto| |subst q2; inv H; auto].
            destruct C2 as (t2 & m2 & _ & _ & ->). unfold cret in H. inv H. auto. }
          cbn [c_store c_posts]. split; auto. right. exists b1, ses1, (Ok (inr d)). split; auto. split; auto. split; auto. right.
          exists at2, st2. split; auto. split; auto. right. exists b2, ses2, r2. auto 8.
      + unfold cret in H. inv H. cbn [c_store c_posts]. split; auto. right. exists b1, ses1, (Ok (inr d)). auto 8.
    - subst q1. inv H. split; auto. right. exists b1, ses1, (Raise x). auto.
  Qed.

  (** At most two requests, each for types the negotiator allows, and an association
      comes from an acceptable reply to one of them. *)
  Theorem C46_within_policy :
    forall ops ep url x1 x2 (s s' : @cst S) r, ep_server_url ep = Some url ->
      negotiateAssociation reg params_ok pub_ok hash net now (neg_history ops) ep x1 x2 s = (s', r) ->
      exists sent, c_posts s' = map (fun b => (url, b)) sent ++ c_posts s /\ (length sent <= 2)%nat /\
        (forall b, In b sent -> exists at_ st x, In (at_, st) (neg_history ops) /\ asks ep at_ st x b) /\
        (forall a, r = Ok (Some a) -> exists status answer d at_ st x ses,
           net (c_posts s') = Some (status, answer) /\ (status = 200 \/ status = 206) /\ reads answer d /\
           In (at_, st) (neg_history ops) /\ made ses st x /\ good_reply pub_ok hash now d ses a /\
           (a_type a = at_ \/ st = u "no-encryption" \/ ~ reply_v2 d)).
  Proof.
    clear step. intros ops ep url x1 x2 s s' r HU H. destruct (C46_negotiation ops ep url x1 x2 s s' r HU H) as (_ & C).
    destruct (C40_negotiator_consistent ops) as (VP & _).
    assert (forall at_ st x ses rep r0 a, In (at_, st) (neg_history ops) -> made ses st x -> told ses rep r0 -> r0 = Ok (inl (Some a)) ->
      exists status answer d at_ st x ses, rep = Some (status, answer) /\ (status = 200 \/ status = 206) /\ reads answer d /\
           In (at_, st) (neg_history ops) /\ made ses st x /\ good_reply pub_ok hash now d ses a /\ (a_type a = at_ \/ st = u "no-encryption" \/ ~ reply_v2 d)) as Fin.
    { intros at_ st x ses rep r0 a I Mk T E. destruct T as [status answer d a' St Rd G| | |]; try discriminate E. injection E as ->.
      exists status, answer, d, at_, st, x, ses. split; auto. split; auto. split; auto. split; auto. split; auto. split; auto.
      destruct G as [_ _ _ _ (st' & used & _ & Ca & _ & [(-> & ->)|(NV & _)])]; auto.
      destruct Mk as (Mk & _). specialize (VP _ _ I). destruct ses as [|[] c]; cbn [csession_type] in Mk; [auto| |]; left; cbn [carried_by] in Ca; rewrite Ca;
        destruct VP as [(-> & [X| X])|(-> & [X| X])]; rewrite <- Mk in X; try (vm_compute in X; discriminate X); reflexivity. }
    destruct (neg_history ops) as [|[at1 st1] rest] eqn:NH.
    { destruct C as (C & ->). exists []. split; auto. split; [auto|]. split; [intros b []|discriminate]. }
    rewrite <- NH in *. assert (In (at1, st1) (neg_history ops)) as I1 by (rewrite NH; left; auto).
    destruct C as [(_ & C & ->)|(b1 & ses1 & r1 & AK1 & M1 & T1 & C)].
    { exists []. split; auto. split; [auto|]. split; [intros b []|discriminate]. }
    assert (forall b, In b [b1] -> exists at_ st x, In (at_, st) (neg_history ops) /\ asks ep at_ st x b) as One by (intros b [<-|[]]; eauto 6).
    assert (c_posts s' = (url, b1) :: c_posts s -> (forall a, r = Ok (Some a) -> r1 = Ok (inl (Some a))) ->
      exists sent, c_posts s' = map (fun b => (url, b)) sent ++ c_posts s /\ (length sent <= 2)%nat /\
        (forall b, In b sent -> exists at_ st x, In (at_, st) (neg_history ops) /\ asks ep at_ st x b) /\
        (forall a, r = Ok (Some a) -> exists status answer d at_ st x ses,
           net (c_posts s') = Some (status, answer) /\ (status = 200 \/ status = 206) /\ reads answer d /\
           In (at_, st) (neg_history ops) /\ made ses st x /\ good_reply pub_ok hash now d ses a /\
           (a_type a = at_ \/ st = u "no-encryption" \/ ~ reply_v2 d))) as P1.
    { intros E Q. exists [b1]. split; [exact E|]. split; [cbn; lia|]. split; [exact One|]. intros a Ea. rewrite E. eapply Fin; eauto. }
    destruct r1 as [[o|d]|x].
    - destruct C as (C & ->). apply P1; auto. intros a [= ->]. auto.
    - destruct C as [(_ & C & ->)|(at2 & st2 & Of & I2 & [(_ & C & ->)|(b2 & ses2 & r2 & AK2 & M2 & T2 & C & ->)])].
      + apply P1; auto. discriminate.
      + apply P1; auto. discriminate.
      + exists [b2; b1]. split; [exact C|]. split; [cbn; lia|]. split.
        * intros b [<-|Hb]; [eauto 6|auto].
        * intros a Ea. rewrite C. refine (Fin _ _ _ _ _ _ a I2 M2 T2 _). destruct r2 as [[o|d2]|]; try discriminate Ea. injection Ea as ->. auto.
    - destruct C as (C & ->). apply P1; auto. discriminate.
  Qed.

  (** Which exceptions negotiating can raise. *)
  Theorem C46_raises_only :
    forall ops ep url x1 x2 (s s' : @cst S) x, ep_server_url ep = Some url ->
      negotiateAssociation reg params_ok pub_ok hash net now (neg_history ops) ep x1 x2 s = (s', Raise x) ->
      (neg_history ops = [] /\ x = TypeError) \/
      (x = ValueError /\ exists st, group_refused st) \/
      (exists status answer, net (c_posts s') = Some (status, answer) /\ unreadable reg answer x).
  Proof.
    clear step. intros ops ep url x1 x2 s s' x HU H. destruct (C46_negotiation ops ep url x1 x2 s s' _ HU H) as (_ & C).
    destruct (neg_history ops) as [|[at1 st1] rest] eqn:NH; [destruct C as (_ & [= ->]); auto|].
    assert (forall ses rep r0, told ses rep r0 -> r0 = Raise x -> exists status answer, rep = Some (status, answer) /\ unreadable reg answer x) as Fin.
    { intros ses rep r0 [ | |status answer y U| ] E; try discriminate E. injection E as ->. eauto. }
    right. destruct C as [(G & _ & [= ->])|(b1 & ses1 & r1 & _ & _ & T1 & C)]; [left; eauto|].
    destruct r1 as [[o|d]|y].
    - destruct C as (_ & [=]).
    - destruct C as [(_ & _ & [=])|(at2 & st2 & _ & _ & [(G & _ & [= ->])|(b2 & ses2 & r2 & _ & _ & T2 & C & E)])]; [left; eauto|].
      right. rewrite C. refine (Fin _ _ _ T2 _). destruct r2 as [[|]|]; congruence.
    - destruct C as (C & [= ->]). right. rewrite C. eapply Fin; eauto.
  Qed.

  (** The association used for a request: one from the store that has not run out, or a
      new one, which has been stored. *)
  Theorem C46_association_used :
    forall ops ep url x1 x2 (st : S) posts s' a, ep_server_url ep = Some url ->
      getAssociation reg params_ok pub_ok hash net step now (neg_history ops) ep x1 x2 (mkCst (Some st) posts) = (s', Ok (Some a)) ->
      let (st1, found) := step st now (GetA url None) in
      (found = Got (Some a) /\ (now < a_issued a + a_lifetime a)%Z /\ s' = mkCst (Some st1) posts) \/
      ((found = Got None \/ exists old, found = Got (Some old) /\ (a_issued old + a_lifetime old <= now)%Z) /\
       exists s2 o, negotiateAssociation reg params_ok pub_ok hash net now (neg_history ops) ep x1 x2 (mkCst (Some st1) posts) = (s2, Ok (Some a)) /\
         step st1 now (StoreA url a) = o /\ s' = mkCst (Some (fst o)) (c_posts s2)).
  Proof.
    intros ops ep url x1 x2 st posts s' a HU H. unfold getAssociation in H. rewrite HU in H. cbn [the_url] in H. unfold cbind at 1, cret at 1 in H.
    unfold cbind at 1, call at 1 in H. cbn [c_store c_posts] in H. destruct (step st now (GetA url None)) as [st1 found].
    assert (exists o, found = Got o) as (o & ->).
    { destruct found; try discriminate H; try (unfold cbind at 1, cret at 1 in H; cbn [got] in H; discriminate H). eauto. }
    unfold cbind at 1, cret at 1 in H. cbn [got] in H.
    destruct (match o with None => true | Some old => (getExpiresIn old now <=? 0)%Z end) eqn:X.
    - right. split. { destruct o as [old|]; auto. right. exists old. split; auto. unfold getExpiresIn in X. lia. }
      unfold cbind at 1 in H. match type of H with (match ?t with _ => _ end = _) => destruct t as [s2 q] eqn:NG end.
      destruct q as [[a'|]|x]; [|unfold cret in H; discriminate H|discriminate H].
      pose proof (C46_negotiation ops ep url x1 x2 _ _ _ HU NG) as (CS & _). cbn [c_store] in CS.
      unfold cbind at 1, call in H. rewrite CS in H. destruct (step st1 now (StoreA url a')) as [st2 o2] eqn:SA.
      assert (s' = mkCst (Some st2) (c_posts s2) /\ a' = a) as (-> & ->). { destruct o2; unfold cret in H; inv H; auto. }
      exists s2, (st2, o2). split; auto.
    - unfold cret in H. inv H. left. split; auto. split; auto. unfold getExpiresIn in X. lia.
  Qed.
End Negotiate.
Print Assumptions C46_negotiation.
Print Assumptions C46_within_policy.
Print Assumptions C46_raises_only.
Print Assumptions C46_association_used.

(** ** Examples *)
Definition kv_body (l : list (text * text)) : bytes := flat_map (fun kv => fst kv ++ 58 :: snd kv ++ [10]) l.
Definition toy_hash (alg : hash_alg) (b : bytes) : bytes := repeat (N.of_nat (length b) mod 256) (match alg with SHA1 => 20 | SHA256 => 32 end).
Definition ex_begin (ops : list negop) (ep : endpoint) (net : list post -> option (N * bytes)) : @cst mem * res authreq :=
  begin [] (fun _ _ => true) (fun _ _ _ => true) toy_hash net mem_step 1000 (neg_history ops) ep 5 7 (u "salt") (mkCst (Some mem_init) []).
Definition secret20 : bytes := u "twenty bytes secret!".
Definition plain_reply (more : list (text * text)) : list (text * text) :=
  more ++ [(u "assoc_type", u "HMAC-SHA1"); (u "assoc_handle", u "h1"); (u "expires_in", u "600"); (u "mac_key", toBase64 secret20)].
(** A server that only knows HMAC-SHA1 in the clear. *)
Definition plain_server (posts : list post) : option (N * bytes) :=
  match posts with
  | [_] => Some (400, kv_body [(u "ns", OPENID2_NS); (u "error", u "no"); (u "error_code", u "unsupported-type");
                               (u "assoc_type", u "HMAC-SHA1"); (u "session_type", u "no-encryption")])
  | _ => Some (200, kv_body (plain_reply [(u "ns", OPENID2_NS); (u "session_type", u "no-encryption")]))
  end.
Definition default_ops : list negop := [NSet default_association_order].
Definition encrypted_ops : list negop := [NSet only_encrypted_association_order].

(** The default consumer asks twice and uses the association; one that insists on
    encryption asks once and does without. *)
Example C46_example :
  match ex_begin default_ops ex_ep plain_server with
  | (s, Ok r) => length (c_posts s) = 2%nat /\ ar_assoc r = Some (mkAssoc (u "h1") secret20 1000 600 (u "HMAC-SHA1")) /\
      hd_error (c_posts s) = Some (ex_server, u "openid.assoc_type=HMAC-SHA1&openid.mode=associate&openid.ns=http%3A%2F%2Fspecs.openid.net%2Fauth%2F2.0&openid.session_type=no-encryption") /\
      option_map (fun m => snd (mem_step m 1100 (GetA ex_server None))) (c_store s) = Some (Got (ar_assoc r))
  | _ => False
  end /\
  match ex_begin encrypted_ops ex_ep plain_server with
  | (s, Ok r) => length (c_posts s) = 1%nat /\ ar_assoc r = None
  | _ => False
  end.
Proof. vm_compute. split; [split; [|split; [|split]]|split]; reflexivity. Qed.

(** A Diffie-Hellman reply made with the private key 3, accepted; with another session
    type it is not. *)
Definition dh_reply (p g : Z) : list (text * text) :=
  match longToBase64 (g ^ 3 mod p), longToBase64 (g ^ 15 mod p) with
  | Ok pub, Ok shared =>
      match fromBase64 shared with
      | Ok b => [(u "ns", OPENID2_NS); (u "session_type", u "DH-SHA1"); (u "assoc_type", u "HMAC-SHA1"); (u "assoc_handle", u "h1");
                 (u "expires_in", u " +600 "); (u "dh_server_public", pub);
                 (u "enc_mac_key", toBase64 (xor_bytes secret20 (repeat 128 20)))]
      | Raise _ => []
      end
  | _, _ => []
  end.
Example C47_example :
  match base64ToLong DEFAULT_DH_MODULUS, base64ToLong DEFAULT_DH_GENERATOR with
  | Ok p, Ok g =>
      match fromKVForm [] (kv_body (dh_reply p g)) with
      | Ok m => extractAssociation (fun _ _ _ => true) toy_hash 1000 m (CDH SHA1 (mkDH p g 5)) = Ok (mkAssoc (u "h1") secret20 1000 600 (u "HMAC-SHA1")) /\
                extractAssociation (fun _ _ _ => true) toy_hash 1000 m (CDH SHA256 (mkDH p g 5)) = Raise ConsumerProtocolError /\
                extractAssociation (fun _ _ _ => true) toy_hash 1000 m CPlain = Raise ConsumerProtocolError
      | Raise _ => False
      end
  | _, _ => False
  end.
Proof. vm_compute. split; [reflexivity|split; reflexivity]. Qed.

(** ** C91: a consumer that insists on encryption can be given a key in the clear *)
(** The endpoint speaks OpenID 2 and the one request sent asks for HMAC-SHA256 over
    DH-SHA256; a reply that says nothing about its version is taken for OpenID 1. *)
Theorem C91_policy_refuted :
  exists net s b r,
    neg_history encrypted_ops = encrypted_negotiator /\ compatibilityMode ex_ep = false /\
    ex_begin encrypted_ops ex_ep net = (s, Ok r) /\
    c_posts s = [(ex_server, b)] /\ asks ex_ep (u "HMAC-SHA256") (u "DH-SHA256") 5 b /\
    net [(ex_server, b)] = Some (200, kv_body (plain_reply [])) /\
    ar_assoc r = Some (mkAssoc (u "h1") secret20 1000 600 (u "HMAC-SHA1")).
Proof.
  exists (fun _ : list post => Some (200, kv_body (plain_reply []))).
  eexists _, (u "openid.assoc_type=HMAC-SHA256&openid.dh_consumer_public=IA%3D%3D&openid.mode=associate&openid.ns=http%3A%2F%2Fspecs.openid.net%2Fauth%2F2.0&openid.session_type=DH-SHA256"), _.
  split; [vm_compute; reflexivity|]. split; [vm_compute; reflexivity|]. split; [vm_compute; reflexivity|]. split; [reflexivity|].
  split; [|split; [reflexivity|vm_compute; reflexivity]].
  destruct default_group as (p & g & P1 & G1 & _). exists (u "IA=="), (sorted_items (associate_form true (u "HMAC-SHA256") (u "DH-SHA256") (u "IA=="))).
  split; [|split].
  - exists p, g. split; auto. split; auto. vm_compute in P1. injection P1 as <-. vm_compute in G1. injection G1 as <-. vm_compute. reflexivity.
  - symmetry. apply sorted_items_perm.
  - vm_compute. reflexivity.
Qed.
Print Assumptions C91_policy_refuted.

(** ** C92: replies that make [begin] raise *)
Theorem C92_begin_returns_refuted :
  (* a reply that is not UTF-8 *)
  snd (ex_begin default_ops ex_ep (fun _ => Some (200, [255]))) = Raise UnicodeDecodeError /\
  (* a reply of an unknown version of OpenID *)
  snd (ex_begin default_ops ex_ep (fun _ => Some (200, kv_body [(u "ns", u "x")]))) = Raise InvalidOpenIDNamespace /\
  (* a refusal that redefines a protocol field *)
  snd (ex_begin default_ops ex_ep (fun _ => Some (400, kv_body [(u "ns.mode", u "x")]))) = Raise AssertionError /\
  (* a negotiator that allows nothing *)
  snd (ex_begin [] ex_ep plain_server) = Raise TypeError.
Proof. split; [vm_compute; reflexivity|]. split; [vm_compute; reflexivity|]. split; vm_compute; reflexivity. Qed.
Print Assumptions C92_begin_returns_refuted.

(** ** C93: associations that are useless *)
(** The association asked for needs a key of 20 bytes and a lifetime.  One with no key at
    all that ended before it began is stored and used. *)
Theorem C93_usable_refuted :
  exists net r s, ex_begin [NSet [(u "HMAC-SHA1", u "no-encryption")]] ex_ep net = (s, Ok r) /\
    ar_assoc r = Some (mkAssoc (u "h1") [] 1000 (-5) (u "HMAC-SHA1")) /\ getSecretSize (u "HMAC-SHA1") = Ok 20.
Proof.
  exists (fun _ => Some (200, kv_body [(u "ns", OPENID2_NS); (u "session_type", u "no-encryption"); (u "assoc_type", u "HMAC-SHA1");
    (u "assoc_handle", u "h1"); (u "expires_in", u "-5"); (u "mac_key", [])])).
  eexists _, _. split; [vm_compute; reflexivity|]. split; [reflexivity|vm_compute; reflexivity].
Qed.
Print Assumptions C93_usable_refuted.
