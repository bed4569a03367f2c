(** C45: when completing a response can raise. *)
From Coq Require Import Lia ZifyBool ZifyN ZifyNat.
From Verif Require Import Py PyFacts Utf8 Utf8Facts KVForm KVFormFacts CryptUtil DH Message MessageFacts MessageWire MessageParse MessageSpec MessageRound Prop_Message.
From Verif Require Import Association AssociationFacts Prop_Association UrlLib UriNorm OidUtil OidUtilFacts Nonce NonceFacts Store StoreSpec ServerFacts Prop_ServerDecode.
From Verif Require Import Endpoint Consumer ConsumerFacts Prop_Consumer.
Open Scope N_scope.
Local Arguments u : simpl never.

(** ** Taking exceptions apart *)
Lemma cbind_Raise {S A B} (m : @cm S A) (k : A -> @cm S B) s s' x : cbind m k s = (s', Raise x) ->
  m s = (s', Raise x) \/ exists s1 a, m s = (s1, Ok a) /\ k a s1 = (s', Raise x).
Proof. unfold cbind. destruct (m s) as [s1 [a|y]]; intros H; [right; eauto|left; inv H; auto]. Qed.
Lemma cret_Raise {S A} (m : res A) (s s' : @cst S) x : cret m s = (s', Raise x) -> s' = s /\ m = Raise x.
Proof. unfold cret. intros H. inv H. auto. Qed.
Lemma ctry_Raise {S A} (m : @cm S A) h s s' x : ctry m h s = (s', Raise x) ->
  (m s = (s', Raise x) /\ h x = None) \/ exists s1 y k, m s = (s1, Raise y) /\ h y = Some k /\ k s1 = (s', Raise x).
Proof. unfold ctry. destruct (m s) as [s1 [b|y]]; [discriminate|]. destruct (h y) eqn:K; intros H; [right; eauto 6|left; inv H; auto]. Qed.
Lemma catch_Raise {A} (m : res A) h x : catch m h = Raise x -> (m = Raise x /\ h x = None) \/ exists y, m = Raise y /\ h y = Some (Raise x).
Proof. unfold catch. destruct m as [b|y]; [discriminate|]. destruct (h y) eqn:K; intros H; [right; subst; eauto|left; inv H; auto]. Qed.
Lemma bind_Raise' {A B} (m : res A) (k : A -> res B) x : bind m k = Raise x -> m = Raise x \/ exists a, m = Ok a /\ k a = Raise x.
Proof. destruct m; cbn [bind]; intros H; [right; eauto|left; inv H; auto]. Qed.
Tactic Notation "rinv" hyp(H) "as" ident(a) ident(R) :=
  apply bind_Raise' in H; destruct H as [H|(a & R & H)].

(** ** Parsing the same parameters again *)
Lemma openid_reparse reg (args args' : dict text text) m : good_registry reg -> NoDup (dkeys args) -> NoDup (dkeys args') ->
  (forall a, ~ In (u "ns." ++ a, sreg_lit) args) -> (forall k v, In (k, v) args' <-> In (k, v) args) ->
  fromOpenIDArgs reg args = Ok m -> exists m', fromOpenIDArgs reg args' = Ok m'.
Proof.
  intros (R1 & R2) Hn Hn' Hs Same H. pose proof (fromOpenIDArgs_sound reg args m R1 Hn Hs H) as P. destruct P as [Oid W Null_ Sr Ns _ _ _].
  assert (oid_of args' = oid_of args) as O.
  { unfold oid_of. replace (dget text_eqb (u "ns") args') with (dget text_eqb (u "ns") args); auto.
    destruct (dget text_eqb (u "ns") args) as [v|] eqn:D.
    - apply (dget_In text_eqb text_eqb_eq) in D. apply Same in D. symmetry. apply (In_dget text_eqb text_eqb_eq); auto.
    - destruct (dget text_eqb (u "ns") args') as [w|] eqn:D'; auto. apply (dget_In text_eqb text_eqb_eq), Same in D'.
      apply (In_dget text_eqb text_eqb_eq) in D'; auto. congruence. }
  assert (forall a n, getNS m (Al a) = Some n -> bad_alias (Al a) = false /\ n <> oid_of args) as G.
  { intros a n Ha. split; [eapply (wn_ok _ (wm_ns _ W)); eauto|]. intros ->. apply (wn_inv _ (wm_ns _ W)) in Ha, Null_. congruence. }
  apply fromOpenIDArgs_complete; auto; try (rewrite O); auto.
  - intros a Hin. apply Same in Hin. eapply Hs; eauto.
  - intros a n Hin. apply Same in Hin. apply G. apply Ns. auto.
  - intros a b n Ha Hb. apply Same in Ha, Hb.
    assert (getNS m (Al a) = Some n) as X by (apply Ns; auto). assert (getNS m (Al b) = Some n) as Y by (apply Ns; auto).
    apply (wn_inv _ (wm_ns _ W)) in X, Y. congruence.
  - intros a n O1 Rg (k & v & Hin) Hnd Hd Hne. apply Same in Hin.
    assert (getNS m (Al a) = Some n) as X. { apply Ns. right. split; [|split; [auto|split; auto; split; auto; split; auto; eauto]]. intros n' K. apply (Hnd n'). apply Same. auto. }
    destruct (G a n X) as (G1 & G2). split; auto. split; auto. intros b Hb. apply Same in Hb.
    assert (getNS m (Al b) = Some n) as Y by (apply Ns; auto). apply (wn_inv _ (wm_ns _ W)) in X, Y. rewrite X in Y. inv Y. apply (Hnd n). apply Same. auto.
Qed.
Lemma post_reparse reg query m : fair_query reg query -> fromPostArgs reg query = Ok m -> exists m', fromPostArgs reg (toPostArgs m) = Ok m'.
Proof.
  intros (R & Hn & Hs) F. assert (forall k, dget text_eqb k (toPostArgs m) = dget text_eqb k query) as P by (eapply C14_parse_exact; eauto).
  assert (NoDup (map fst (toPostArgs m))) as Hn2 by apply toPostArgs_keys.
  assert (forall k v, In (k, v) (toPostArgs m) <-> In (k, v) query) as Same.
  { intros k v. split; intros K; apply (In_dget text_eqb text_eqb_eq) in K; auto; apply (dget_In text_eqb text_eqb_eq); [rewrite <- P|rewrite P]; auto. }
  pose proof (fromPostArgs_spec reg query Hn) as S1. pose proof (fromPostArgs_spec reg _ Hn2) as S2.
  destruct (fromOpenIDArgs reg (openid_part query)) as [m0|x] eqn:E; [|congruence].
  destruct (openid_reparse reg (openid_part query) (openid_part (toPostArgs m)) m0) as (m' & E'); auto using NoDup_openid_part.
  - intros a K. apply In_openid_part in K. exact (Hs a K).
  - intros k v. rewrite !In_openid_part. auto.
  - rewrite E' in S2. destruct S2 as (m2 & S2 & _). eauto.
Qed.

(** ** The ways to raise *)
Section Escape.
  Variable e : uenv.
  Variable reg : dict text text.
  Variable hmac : text -> bytes -> bytes -> bytes.
  Variable net : list post -> option (N * bytes).
  Variable discover : text -> res (list endpoint).
  Context {S : Type} (step : S -> Z -> op -> S * out).

  (** A URL that cannot be taken apart or normalized. *)
  Definition bad_url (url : text) (x : exn) : Prop :=
    urlsplit e url = Raise x \/ urinorm e url = Raise x \/ exists n, urinorm e url = Ok n /\ urlsplit e n = Raise x.
  (** The identifier that the response is about. *)
  Definition about (query : dict text text) (session : option endpoint) (c : text) : Prop :=
    if asks_v2 query then wire_value query (u "claimed_id") = Some c
    else match dget text_eqb claimed_id_name query with
         | Some d => c = d
         | None => exists ep, session = Some ep /\ ep_claimed_id ep = Some c
         end.
  (** An answer of the server which is not a message. *)
  Definition unreadable (answer : bytes) (x : exn) : Prop :=
    decode answer = Raise x \/
    exists t d, decode answer = Ok t /\ kvToDict t = Ok d /\ fromOpenIDArgs reg d = Raise x.

  Inductive escapes (query : dict text text) (session : option endpoint) (rt : text) : exn -> Prop :=
  | esc_version : wire_value query (u "ns") = Some THE_OTHER_OPENID1_NS -> escapes query session rt KeyError
  | esc_url url x : url = rt \/ wire_value query (u "return_to") = Some url -> bad_url url x -> escapes query session rt x
  | esc_nothing : asks_v2 query = false -> session = None -> dget text_eqb claimed_id_name query = None ->
      escapes query session rt RuntimeError
  | esc_no_claim ep : asks_v2 query = false -> session = Some ep -> ep_claimed_id ep = None -> dget text_eqb claimed_id_name query = None ->
      escapes query session rt AttributeError
  | esc_fragment c x : about query session c -> urldefrag e c = Raise x -> escapes query session rt x
  | esc_discover c x : about query session c -> discover c = Raise x -> escapes query session rt x
  | esc_no_server ep : session = Some ep \/ (exists c l, about query session c /\ discover c = Ok l /\ In ep l) ->
      ep_server_url ep = None -> escapes query session rt TypeError
  | esc_signature m a x : fromPostArgs reg query = Ok m -> checkMessageSignature hmac a m = Raise x -> isValueError x = true -> escapes query session rt x
  | esc_encode k v x : In (k, v) query -> (encode k = Raise x \/ encode v = Raise x) -> escapes query session rt x
  | esc_reply posts status answer x : net posts = Some (status, answer) -> unreadable answer x -> escapes query session rt x.

  Definition caught (x : exn) : bool := isProtocolError x || match x with DiscoveryFailure => true | _ => false end.

  (** A store that answers its calls. *)
  Definition answers : Prop := forall s t o, match o, snd (step s t o) with
    | GetA _ _, Got _ | UseN _ _ _, Flag _ => True
    | GetA _ _, _ | UseN _ _ _, _ => False
    | RemoveA _ _, Err _ => False
    | _, _ => True
    end.

  Variable udigit : N -> option Z.
  Variable now : Z.

  Lemma oid_class query m : NoDup (map fst query) -> fromPostArgs reg query = Ok m -> exists oid, getOpenIDNamespace m = Some oid /\ core m oid /\
    ((oid = OPENID2_NS /\ asks_v2 query = true) \/ (oid = OPENID1_NS /\ asks_v2 query = false) \/
     (oid = THE_OTHER_OPENID1_NS /\ wire_value query (u "ns") = Some THE_OTHER_OPENID1_NS)).
  Proof.
    clear e hmac net discover step S udigit now. intros Hn F. destruct (fromPostArgs_ver reg query m F Hn) as (V & A). set (oid := oid_of (openid_part query)) in *.
    assert (core m oid) as C. { apply (built_core reg); auto. eapply b_parse; eauto. }
    exists oid. split; auto. split; auto. destruct (query_version reg query m Hn F) as (V2 & _). unfold isOpenID2 in V2. rewrite V in V2.
    destruct A as [A|[A|[A|[]]]]; rewrite <- A in *.
    - right. left. split; auto.
    - right. right. split; auto. assert (dget text_eqb (u "ns") (openid_part query) = Some THE_OTHER_OPENID1_NS) as D.
      { unfold oid, oid_of in A. destruct (dget text_eqb (u "ns") (openid_part query)); [congruence|discriminate]. }
      apply (dget_In text_eqb text_eqb_eq) in D. apply In_openid_part in D. apply (In_dget text_eqb text_eqb_eq) in D; auto.
    - left. split; auto.
  Qed.

  Lemma fields_raise query m session rt x : NoDup (map fst query) -> fromPostArgs reg query = Ok m -> idResCheckForFields m = Raise x ->
    caught x = true \/ escapes query session rt x.
  Proof.
    clear step S udigit now. intros Hn F H. destruct (oid_class query m Hn F) as (oid & V & C & O).
    unfold idResCheckForFields in H. rewrite V in H. rinv H as fields E1.
    { destruct O as [(-> & _)|[(-> & _)|(-> & W)]]; vm_compute in H; try discriminate H. injection H as <-. right. apply esc_version. auto. }
    rinv H as l1 E2.
    { apply mapM_Raise in H as (k & _ & H). rewrite (core_has _ _ _ C) in H. cbn [bind] in H. destruct (dhas _ _ _); inv H. auto. }
    rinv H as signed E3.
    { exfalso. unfold getArgReq in H. rewrite (core_get _ _ _ C) in H. cbn [bind] in H.
      assert (In (u "signed") fields) as I. { destruct O as [(-> & _)|[(-> & _)|(-> & W)]]; vm_compute in E1; try discriminate E1; injection E1 as <-; vm_compute; tauto. }
      pose proof (mapM_unit_Ok _ _ _ E2 _ I) as X. cbv beta in X. rewrite (core_has _ _ _ C) in X. cbn [bind] in X. unfold dhas in X.
      destruct (dget _ _ (margs m)); discriminate. }
    rinv H as sigs E4.
    { destruct O as [(-> & _)|[(-> & _)|(-> & W)]]; vm_compute in H; try discriminate H. vm_compute in E1. discriminate E1. }
    rinv H as l2 E5; [|discriminate]. apply mapM_Raise in H as (k & _ & H). rewrite (core_has _ _ _ C) in H. cbn [bind] in H. destruct (_ && _); inv H. auto.
  Qed.

  Lemma base_parts_raise url x : base_parts e url = Raise x -> urlsplit e url = Raise x.
  Proof. unfold base_parts. intros H. rinv H as a E; auto. discriminate. Qed.
  Lemma return_raise query m session rt x : fair_query reg query -> fromPostArgs reg query = Ok m -> idResCheckForFields m = Ok tt ->
    checkReturnTo e reg m rt = Raise x -> escapes query session rt x.
  Proof.
    clear step S udigit now. intros Q F Ck H. pose proof Q as (R & Hn & Hs). destruct (required_inv reg query m Hn F Ck) as (rto & _ & _ & _ & Hr & _).
    assert (forall k, dget text_eqb k (toPostArgs m) = dget text_eqb k query) as P by (eapply C14_parse_exact; eauto).
    assert (NoDup (map fst (toPostArgs m))) as Hn2 by apply toPostArgs_keys.
    unfold checkReturnTo in H. rinv H as ok E.
    { apply catch_Raise in H as [(H & Hh)|(y & _ & X)]; [|destruct (isProtocolError y); discriminate].
      rinv H as t E; [|discriminate]. unfold verifyReturnToArgs in H. destruct (post_reparse reg query m Q F) as (m' & F'). rewrite F' in H. cbn [bind] in H.
      rewrite (field_of reg _ m' _ Hn2 F') in H by simple_key. unfold wire_value in H. rewrite P in H. fold (wire_value query (u "return_to")) in H. rewrite Hr in H. cbn [bind] in H.
      rinv H as parts E1. { eapply esc_url; eauto. left. auto. }
      exfalso. rinv H as l1 E2.
      { apply mapM_Raise in H as ([k v] & _ & H). cbn [fst snd] in H. destruct (dget text_eqb k (toPostArgs m)) as [w|]; [destruct (text_eqb v w)|]; inv H; discriminate Hh. }
      rinv H as ba E4; [discriminate|]. rinv H as l2 E3; [|discriminate].
      apply mapM_Raise in H as ([k v] & _ & H). cbn [fst snd] in H. destruct (existsb _ _); inv H; discriminate Hh. }
    destruct ok; cbn [negb] in H; [|discriminate].
    rewrite (field_of reg _ m _ Hn F) in H by simple_key. rewrite Hr in H. cbn [bind] in H.
    rinv H as n1 E1. { eapply esc_url; [left; auto|]. right. left. auto. }
    rinv H as p1 E2. { apply base_parts_raise in H. eapply esc_url; [left; auto|]. right. right. eauto. }
    rinv H as n2 E3. { eapply esc_url; [right; eauto|]. right. left. auto. }
    rinv H as p2 E4. { apply base_parts_raise in H. eapply esc_url; [right; eauto|]. right. right. eauto. }
    destruct p1 as [[? ?] ?], p2 as [[? ?] ?]. discriminate.
  Qed.
  Lemma single_raise ep to_match x : verifyDiscoverySingle e ep to_match = Raise x ->
    isProtocolError x = true \/ (exists c, ep_claimed_id to_match = Some c /\ urldefrag e c = Raise x) \/
    (ep_server_url to_match = None /\ text_eqb (preferredNamespace to_match) OPENID1_NS = false).
  Proof.
    unfold verifyDiscoverySingle. intros H. rinv H as l E1.
    { apply mapM_Raise in H as (t & _ & H). destruct (usesExtension ep t); inv H. auto. }
    rinv H as same E2.
    { destruct (ep_claimed_id to_match) as [c|]; [|discriminate]. rinv H as d E2; [|discriminate]. right. left. eauto. }
    destruct same; cbn [negb] in H; [|inv H; auto].
    destruct (opt_eqb text_eqb (getLocalID to_match) (getLocalID ep)); cbn [negb] in H; [|inv H; auto].
    destruct (ep_server_url to_match) as [s|]; [destruct (opt_eqb _ _ _); inv H; auto|].
    destruct (text_eqb (preferredNamespace to_match) OPENID1_NS); [discriminate|auto].
  Qed.
  (** What is looked for: the claimed identifier is [c], and a server is given unless the
      type is one of OpenID 1. *)
  Definition wanted (c : option text) (t : endpoint) : Prop :=
    ep_claimed_id t = c /\ (ep_server_url t = None -> text_eqb (preferredNamespace t) OPENID1_NS = true).
  Lemma single_raise' c ep t x : wanted c t -> verifyDiscoverySingle e ep t = Raise x ->
    isProtocolError x = true \/ exists c', c = Some c' /\ urldefrag e c' = Raise x.
  Proof.
    intros (W1 & W2) H. apply single_raise in H as [H|[(c' & H & D)|(H & D)]]; auto; [right; exists c'; split; auto; congruence|].
    rewrite (W2 H) in D. discriminate.
  Qed.
  Lemma services_raise c services to_match x : Forall (wanted c) to_match -> verifyDiscoveredServices e services to_match = Raise x ->
    caught x = true \/ exists c', c = Some c' /\ urldefrag e c' = Raise x.
  Proof.
    intros W. induction services as [|ep r IH]; cbn [verifyDiscoveredServices]; intros H; [inv H; auto|]. rinv H as b E.
    - right. clear IH. induction W as [|t l Wt W IHl]; cbn [match_one] in H; [discriminate|]. destruct (verifyDiscoverySingle e ep t) as [|y] eqn:V; [discriminate|].
      destruct (isProtocolError y) eqn:Py; auto. inv H. apply (single_raise' c) in V as [V|V]; auto. congruence.
    - destruct b; [discriminate|auto].
  Qed.
  Lemma discover_raise query session rt c to_match x : (forall c', c = Some c' -> about query session c') -> c <> None -> Forall (wanted c) to_match ->
    discoverAndVerify e discover c to_match = Raise x -> caught x = true \/ escapes query session rt x.
  Proof.
    intros A Hc W H. unfold discoverAndVerify in H. destruct c as [c|]; [|congruence]. specialize (A c eq_refl). rinv H as l E.
    - right. eapply esc_discover; eauto.
    - destruct l as [|ep l]; [inv H; auto|]. apply (services_raise (Some c)) in H as [H|(c' & H & D)]; auto. inv H. right. eapply esc_fragment; eauto.
  Qed.

  Lemma verify_raise query m session rt x : fair_query reg query -> fromPostArgs reg query = Ok m -> idResCheckForFields m = Ok tt ->
    verifyDiscoveryResults e discover m session = Raise x -> caught x = true \/ escapes query session rt x.
  Proof.
    clear step S udigit now. intros Q F Ck H. pose proof Q as (R & Hn & Hs). destruct (version_inv reg query m Hn F Ck) as (V & C).
    pose proof (fun k Hd Hk => field_ns reg query m k Hn F Ck Hd Hk) as FN.
    unfold verifyDiscoveryResults in H. rewrite V in H. destruct (asks_v2 query) eqn:A2.
    - change (opt_eqb text_eqb (Some OPENID2_NS) (Some OPENID2_NS)) with true in H. cbv iota in H. unfold verifyDiscoveryResultsOpenID2 in H.
      rewrite (FN (u "claimed_id")) in H by simple_key. cbn [bind] in H. rewrite (FN (u "identity")) in H by simple_key. cbn [bind] in H.
      unfold getArgReq in H. rewrite (FN (u "op_endpoint")) in H by simple_key. cbn [bind] in H.
      destruct (required_inv reg query m Hn F Ck) as (_ & _ & _ & _ & _ & _ & _ & _ & Op & _). rewrite A2 in Op.
      destruct (wire_value query (u "op_endpoint")) as [server|] eqn:Eo; [|congruence]. cbn [bind] in H.
      destruct (wire_value query (u "claimed_id")) as [c|] eqn:Ec, (wire_value query (u "identity")) as [l|]; try (inv H; auto; fail).
      set (t := mkEndpoint (Some c) (Some server) [OPENID_2_0_TYPE] (Some l) None false None) in *.
      assert (wanted (Some c) t) as W by (split; [auto|discriminate]).
      assert (forall c', Some c = Some c' -> about query session c') as A. { intros c' X. inv X. unfold about. rewrite A2. auto. }
      rinv H as ep E; [|destruct (opt_eqb _ _ _); discriminate]. destruct session as [ep|].
      + apply catch_Raise in H as [(H & Hh)|(y & _ & X)].
        * rinv H as tt' E; [|discriminate]. apply (single_raise' (Some c)) in H as [H|(c' & X & D)]; auto; [rewrite H in Hh; discriminate|].
          right. eapply esc_fragment; eauto.
        * destruct (isProtocolError y); [|discriminate]. injection X as X. apply (discover_raise query _ rt (Some c) [t]); auto. discriminate.
      + apply (discover_raise query _ rt (Some c) [t]); auto. discriminate.
    - change (opt_eqb text_eqb (Some OPENID1_NS) (Some OPENID2_NS)) with false in H. cbv iota in H. unfold verifyDiscoveryResultsOpenID1 in H.
      rewrite getArg_bare in H. cbn [bind] in H. destruct (fromPostArgs_sound reg query m (proj1 R) Hn Hs F) as (_ & m0 & _ & _ & _ & _ & Ba).
      assert (dget akey_eqb (Bare, claimed_id_name) (margs m) = dget text_eqb claimed_id_name query) as B.
      { destruct (dget text_eqb claimed_id_name query) as [c|] eqn:D.
        - apply Ba. split; [apply (dget_In text_eqb text_eqb_eq); auto|reflexivity].
        - destruct (dget akey_eqb (Bare, claimed_id_name) (margs m)) as [c|] eqn:D'; auto. apply Ba in D' as (D' & _). apply (In_dget text_eqb text_eqb_eq) in D'; auto. congruence. }
      rewrite B in H. rinv H as c E. { destruct session, (dget text_eqb claimed_id_name query) eqn:D; inv H. right. apply esc_nothing; auto. }
      rewrite (FN (u "identity")) in H by simple_key. cbn [bind] in H. destruct (wire_value query (u "identity")) as [l|]; [|inv H; auto].
      set (t1 := mkEndpoint c None [OPENID_1_1_TYPE] (Some l) None false None) in *. set (t0 := mkEndpoint c None [OPENID_1_0_TYPE] (Some l) None false None) in *.
      assert (wanted c t1 /\ wanted c t0) as (W1 & W0) by (split; (split; [auto|reflexivity])). assert (Forall (wanted c) [t1; t0]) as W by auto.
      assert (forall c', c = Some c' -> about query session c') as A.
      { intros c' ->. unfold about. rewrite A2. destruct session as [ep|], (dget text_eqb claimed_id_name query); try discriminate E; injection E as E; try congruence; eauto. }
      assert (discoverAndVerify e discover c [t1; t0] = Raise x -> caught x = true \/ escapes query session rt x) as Dx.
      { intros D. destruct c as [c|]; [apply (discover_raise query _ rt (Some c) [t1; t0]); auto; discriminate|]. cbn in D. injection D as <-. right.
        destruct session as [ep|]; [|destruct (dget text_eqb claimed_id_name query); discriminate E].
        apply (esc_no_claim query _ rt ep); auto; destruct (dget text_eqb claimed_id_name query); try discriminate E; congruence. }
      destruct session as [ep|]; auto. apply catch_Raise in H as [(H & Hh)|(y & _ & X)].
      + rinv H as tt' E1; [|discriminate].
        assert (forall t, wanted c t -> verifyDiscoverySingle e ep t = Raise x -> caught x = true \/ escapes query (Some ep) rt x) as Sx.
        { intros t Wt D. apply (single_raise' c) in D as [D|(c' & X & D)]; auto; [rewrite D in Hh; discriminate|]. right. eapply esc_fragment; eauto. }
        apply catch_Raise in H as [(H & _)|(y & _ & X)]; [exact (Sx t1 W1 H)|]. destruct y; try discriminate X. injection X as X. exact (Sx t0 W0 X).
      + destruct (isProtocolError y); [|discriminate]. injection X as X. auto.
  Qed.

  Lemma fromKVForm_raise t x : fromKVForm reg t = Raise x -> exists d, kvToDict t = Ok d /\ fromOpenIDArgs reg d = Raise x.
  Proof.
    unfold fromKVForm. intros H. rinv H as d E; eauto. exfalso. unfold kvToDict in H. destruct (kvToSeq_false_total t) as (d & D). rewrite D in H. discriminate.
  Qed.
  Lemma http_raise status answer x : httpResponseToMessage reg status answer = Raise x -> x = HTTPFetchingError \/ unreadable answer x.
  Proof.
    clear e hmac net discover step S udigit now. unfold httpResponseToMessage. intros H. rinv H as t E; [right; left; auto|]. rinv H as m E1. { right. right. apply fromKVForm_raise in H as (d & D1 & D2). eauto. }
    assert (forall k, exists v, getArg m OPENID_NS k = Ok v) as G.
    { intros k. unfold fromKVForm in E1. binv E1. assert (NoDup (dkeys a)) as Hn. { unfold kvToDict in E0. binv E0. inv E0. apply NoDup_dict_of; auto using text_eqb_eq. }
      pose proof (fromOpenIDArgs_ver reg a Hn) as V. rewrite E1 in V. destruct V as (V & _). assert (core m (oid_of a)) as C by (apply (built_core reg); auto; eapply b_parse_oid; eauto).
      rewrite (core_get _ _ _ C). eauto. }
    destruct (status =? 400).
    - exfalso. unfold fromMessage, getArgDef in H. destruct (G (u "error")) as (v & G1), (G (u "error_code")) as (w & G2). rewrite G1, G2 in H. cbn [bind] in H. destruct v; discriminate.
    - destruct (negb _); inv H. auto.
  Qed.
  Lemma encode_query query m oid x : fair_query reg query -> fromPostArgs reg query = Ok m -> core m oid ->
    forall m2, setArg m OPENID_NS (u "mode") (u "check_authentication") = Ok m2 -> toURLEncoded m2 = Raise x ->
    exists k v, In (k, v) query /\ (encode k = Raise x \/ encode v = Raise x).
  Proof.
    clear e hmac net discover step S udigit now. intros Q F C m2 M H. pose proof Q as (R & Hn & Hs).
    assert (forall k, dget text_eqb k (toPostArgs m) = dget text_eqb k query) as P by (eapply C14_parse_exact; eauto).
    destruct (core_set m _ (u "mode") (u "check_authentication") C) as (m' & M' & A & N0 & C'). rewrite M in M'. inv M'. rename m' into m2.
    unfold toURLEncoded, urlencode in H. rinv H as l E; [|discriminate].
    apply mapM_Raise in H as ([k v] & I & H). cbn [fst snd] in H. apply (Permutation.Permutation_in _ (Permutation.Permutation_sym (sorted_items_perm _))) in I.
    apply (In_dget text_eqb text_eqb_eq) in I; [|apply toPostArgs_keys].
    unfold quote_plus in H. assert (encode k = Raise x \/ encode v = Raise x) as En.
    { rinv H as kk E; [rinv H as bb E; [auto|discriminate]|]. rinv H as vv E2; [rinv H as bb E2; [auto|discriminate]|discriminate]. }
    destruct (text_eqb k (u "openid.mode")) eqn:Ek.
    - apply text_eqb_eq in Ek. subst k. exfalso.
      assert (dget text_eqb (u "openid." ++ u "mode") (toPostArgs m2) = Some (u "check_authentication")) as D.
      { apply (post_core_value m2 oid (u "mode")); auto.
        - intros y w. rewrite A, (dget_dset_other akey_eqb akey_eqb_eq) by discriminate. destruct (fromPostArgs_sound reg query m (proj1 R) Hn Hs F) as (_ & m0 & _ & _ & _ & _ & Ba).
          intros X. apply Ba in X. tauto.
        - simple_key.
        - rewrite A. apply (dget_dset_same akey_eqb akey_eqb_eq). }
      assert (v = u "check_authentication") as -> by (change (u "openid." ++ u "mode") with (u "openid.mode") in D; congruence).
      destruct En as [En|En]; vm_compute in En; discriminate.
    - apply text_eqb_neq in Ek. exists k, v. split; auto. apply (dget_In text_eqb text_eqb_eq). rewrite <- P. rewrite <- I. symmetry. eapply post_set_other; eauto. apply C'.
  Qed.

  Lemma no_server query m session rt ep' : fair_query reg query -> fromPostArgs reg query = Ok m -> idResCheckForFields m = Ok tt ->
    verifyDiscoveryResults e discover m session = Ok ep' -> ep_server_url ep' = None -> escapes query session rt TypeError.
  Proof.
    clear step S udigit now. intros Q F Ck H Hs0. pose proof Q as (R & Hn & Hs). destruct (version_inv reg query m Hn F Ck) as (V & C).
    pose proof (fun k Hd Hk => field_ns reg query m k Hn F Ck Hd Hk) as FN.
    unfold verifyDiscoveryResults in H. rewrite V in H. destruct (asks_v2 query) eqn:A2.
    - exfalso. change (opt_eqb text_eqb (Some OPENID2_NS) (Some OPENID2_NS)) with true in H. cbv iota in H. unfold verifyDiscoveryResultsOpenID2 in H.
      rewrite (FN (u "claimed_id")) in H by simple_key. cbn [bind] in H. rewrite (FN (u "identity")) in H by simple_key. cbn [bind] in H.
      binv H. rename a into server.
      destruct (wire_value query (u "claimed_id")) as [c|] eqn:Ec, (wire_value query (u "identity")) as [l|]; try discriminate H; [|inv H; discriminate].
      binv H. rename a into ep0. assert (ep_server_url ep0 = None) as S0 by (destruct (opt_eqb _ _ _) in H; inv H; auto). clear H.
      assert (forall t, discoverAndVerify e discover (Some c) [t] = Ok ep0 -> verifyDiscoverySingle e ep0 t = Ok tt) as K.
      { intros t X. apply discover_inv in X as (c' & Ec' & X & tm & [<-|[]] & Y). auto. }
      assert (verifyDiscoverySingle e ep0 (mkEndpoint (Some c) (Some server) [OPENID_2_0_TYPE] (Some l) None false None) = Ok tt) as Sg.
      { destruct session as [ep|]; [|auto]. apply catch_Ok in E0 as [D|(x & _ & X)].
        - binv D. inv D. destruct a. auto.
        - destruct (isProtocolError x); [|discriminate]. injection X as X. auto. }
      apply single_inv in Sg as (_ & _ & _ & Sv). rewrite (Sv _ eq_refl) in S0. discriminate.
    - change (opt_eqb text_eqb (Some OPENID1_NS) (Some OPENID2_NS)) with false in H. cbv iota in H. unfold verifyDiscoveryResultsOpenID1 in H.
      rewrite getArg_bare in H. cbn [bind] in H. destruct (fromPostArgs_sound reg query m (proj1 R) Hn Hs F) as (_ & m0 & _ & _ & _ & _ & Ba).
      assert (dget akey_eqb (Bare, claimed_id_name) (margs m) = dget text_eqb claimed_id_name query) as B.
      { destruct (dget text_eqb claimed_id_name query) as [c|] eqn:D.
        - apply Ba. split; [apply (dget_In text_eqb text_eqb_eq); auto|reflexivity].
        - destruct (dget akey_eqb (Bare, claimed_id_name) (margs m)) as [c|] eqn:D'; auto. apply Ba in D' as (D' & _). apply (In_dget text_eqb text_eqb_eq) in D'; auto. congruence. }
      rewrite B in H. binv H. rename a into c, E into Ecl. binv H. destruct a as [l|]; [|discriminate].
      assert (forall c', c = Some c' -> about query session c') as A.
      { intros c' ->. unfold about. rewrite A2. destruct session as [ep|], (dget text_eqb claimed_id_name query); try discriminate Ecl; injection Ecl as Ecl; try congruence; eauto. }
      assert (forall ts, discoverAndVerify e discover c ts = Ok ep' -> escapes query session rt TypeError) as Dx.
      { intros ts D. apply discover_inv in D as (c' & Ec & (li & L1 & L2) & _). apply (esc_no_server _ _ _ ep'); auto. right. exists c', li. auto. }
      destruct session as [ep|]; [|eapply Dx; exact H]. apply catch_Ok in H as [D|(x & _ & X)].
      + binv D. inv D. eapply esc_no_server; [left; reflexivity|auto].
      + destruct (isProtocolError x); [|discriminate]. injection X as X. eapply Dx. exact X.
  Qed.

  Lemma an_get st t a b st' r : answers -> step st t (GetA a b) = (st', r) -> exists o, r = Got o.
  Proof. intros An E. specialize (An st t (GetA a b)). cbv iota in An. rewrite E in An. cbn [snd] in An. destruct r; try contradiction. eauto. Qed.
  Lemma an_use st t a b c st' r : answers -> step st t (UseN a b c) = (st', r) -> exists o, r = Flag o.
  Proof. intros An E. specialize (An st t (UseN a b c)). cbv iota in An. rewrite E in An. cbn [snd] in An. destruct r; try contradiction. eauto. Qed.
  Lemma an_remove st t a b st' r x : answers -> step st t (RemoveA a b) = (st', r) -> r <> Err x.
  Proof. intros An E. specialize (An st t (RemoveA a b)). cbv iota in An. rewrite E in An. cbn [snd] in An. destruct r; try contradiction; discriminate. Qed.

  Lemma signature_raise query m session rt ep' s s' x : answers -> fair_query reg query -> fromPostArgs reg query = Ok m -> idResCheckForFields m = Ok tt ->
    verifyDiscoveryResults e discover m session = Ok ep' ->
    idResCheckSignature reg hmac net step now m (ep_server_url ep') s = (s', Raise x) -> caught x = true \/ escapes query session rt x.
  Proof.
    intros An Q F Ck Vd H. pose proof Q as (R & Hn & Hs). destruct (version_inv reg query m Hn F Ck) as (V & C).
    destruct (required_inv reg query m Hn F Ck) as (_ & handle & sig & signed & _ & Hh & Hsg & Hsn & _).
    unfold idResCheckSignature in H. apply cbind_Raise in H as [H|(s1 & server & E1 & H)].
    { apply cret_Raise in H as (_ & H). unfold the_url in H. destruct (ep_server_url ep') eqn:Es; inv H. right. eapply no_server; eauto. }
    apply cret_Ok in E1 as (-> & E1). rewrite (field_of reg query m _ Hn F) in H by simple_key. rewrite cret_bind in H.
    apply cbind_Raise in H as [H|(s1 & b & E2 & H)]; [discriminate|]. injection E2 as <- <-.
    assert (forall s1, checkAuth reg net step now m server s1 = (s', Raise x) -> caught x = true \/ escapes query session rt x) as CA.
    { clear H s E1. intros s H. unfold checkAuth in H. apply cbind_Raise in H as [H|(s1 & rq & E2 & H)].
      { exfalso. apply cret_Raise in H as (_ & H). unfold createCheckAuthRequest in H. rewrite (field_of reg query m _ Hn F) in H by simple_key. rewrite Hsn in H. cbn [bind] in H.
        assert (forall l, exists b, signed_missing m l = Ok b) as SM.
        { induction l as [|k l (b & IH)]; cbn [signed_missing]; eauto.
          assert (exists v, getAliasedArg m k = Ok v) as (v & G).
          { unfold getAliasedArg. destruct (text_eqb k (u "ns")); eauto. destruct (startswith k (u "ns.")); eauto. rewrite V.
            destruct (cut 46 k) as [[a r]|]; [destruct (getNamespaceURI (mns m) (Al a))|]; unfold getArg, fixNS; cbn [bind]; destruct (_ && _); cbn [bind]; eauto. }
          rewrite G. cbn [bind]. destruct v; eauto. }
        assert (forall b : bool, (if b then Ok None else m0 <- setArg m OPENID_NS (u "mode") (u "check_authentication") ;; Ok (Some m0)) <> Raise x) as ST.
        { destruct (core_set m _ (u "mode") (u "check_authentication") C) as (m' & M' & _). rewrite M'. destruct b; discriminate. }
        destruct (truthy signed); [destruct (SM (splitc 44 signed)) as (b & Eb); rewrite Eb in H; exact (ST b H)|exact (ST false H)]. }
      apply cret_Ok in E2 as (-> & E2). destruct rq as [rq|]; [|apply cret_Raise in H as (_ & H); discriminate].
      assert (exists m2, rq = m2 /\ setArg m OPENID_NS (u "mode") (u "check_authentication") = Ok m2) as (m2 & -> & M2).
      { unfold createCheckAuthRequest in E2. binv E2. binv E2. destruct a0; [discriminate|]. binv E2. inv E2. eauto. }
      apply cbind_Raise in H as [H|(s1 & rep & E3 & H)].
      - apply ctry_Raise in H as [(H & Hn0)|(s1 & y & k & _ & K & H)]; [|destruct y; try discriminate K; injection K as <-; apply cret_Raise in H as (_ & H); discriminate].
        apply cbind_Raise in H as [H|(s1 & rep & E3 & H)]; [|apply cret_Raise in H as (_ & H); discriminate].
        unfold makeKVPost in H. apply cbind_Raise in H as [H|(s1 & body & E3 & H)].
        + apply cret_Raise in H as (_ & H). right. destruct (encode_query query m _ x Q F C m2 M2 H) as (k & v & I & En). eapply esc_encode; eauto.
        + injection H as _ H. destruct (net ((server, body) :: c_posts s1)) as [[status answer]|] eqn:Nt; [|injection H as <-; discriminate Hn0].
          apply http_raise in H as [->|H]; [discriminate Hn0|]. right. eapply esc_reply; eauto.
      - destruct rep as [[m3|? ?]|]; try (apply cret_Raise in H as (_ & H); discriminate).
        assert (forall k, exists v, getArg m3 OPENID_NS k = Ok v) as G.
        { apply ctry_Ok in E3 as [E3|(s2 & y & k & _ & K & H3)].
          2:{ destruct y; try discriminate K. injection K as <-. apply cret_Ok in H3 as (_ & H3). discriminate. }
          apply cbind_Ok in E3 as (s2 & rep & E3 & E4). apply cret_Ok in E4 as (-> & E4). injection E4 as ->. unfold makeKVPost in E3. apply cbind_Ok in E3 as (s3 & body & _ & E3).
          injection E3 as _ E3. destruct (net _) as [[status answer]|]; [|discriminate]. unfold httpResponseToMessage in E3. binv E3. binv E3.
          destruct (status =? 400). { exfalso. unfold fromMessage in E3. binv E3. binv E3. discriminate. }
          destruct (negb _); [discriminate|]. injection E3 as ->.
          intros k. unfold fromKVForm in E0. binv E0. assert (NoDup (dkeys a0)) as Hn1. { unfold kvToDict in E1. binv E1. inv E1. apply NoDup_dict_of; auto using text_eqb_eq. }
          pose proof (fromOpenIDArgs_ver reg a0 Hn1) as V3. rewrite E0 in V3. destruct V3 as (V3 & _).
          assert (core m3 (oid_of a0)) as C3 by (apply (built_core reg); auto; eapply b_parse_oid; eauto). rewrite (core_get _ _ _ C3). eauto. }
        exfalso. unfold processCheckAuthResponse in H. destruct (G (u "is_valid")) as (iv & G1), (G (u "invalidate_handle")) as (ih & G2).
        unfold getArgDef in H. rewrite G1, G2 in H. cbn [bind] in H. rewrite cret_bind in H. destruct iv as [iv|]; rewrite cret_bind in H.
        all: apply cbind_Raise in H as [H|(s2 & un & _ & H)]; [|apply cret_Raise in H as (_ & H); discriminate].
        all: destruct ih as [h|]; [|apply cret_Raise in H as (_ & H); discriminate].
        all: apply cbind_Raise in H as [H|(s2 & bb & E4 & H)]; [discriminate|]; injection E4 as <- <-.
        all: destruct (c_store s1) as [st|] eqn:Cs; [|apply cret_Raise in H as (_ & H); discriminate].
        all: apply cbind_Raise in H as [H|(s3 & rr & _ & H)]; [|apply cret_Raise in H as (_ & H); discriminate].
        all: unfold call in H; rewrite Cs in H; destruct (step st now (RemoveA server h)) as [st' r] eqn:X; injection H as _ H; destruct r; try discriminate H; eapply an_remove; eauto. }
    destruct (c_store s) as [st|] eqn:Cs.
    - apply cbind_Raise in H as [H|(s1 & o & E2 & H)].
      + exfalso. apply cbind_Raise in H as [H|(s1 & r & E2 & H)].
        * unfold call in H. rewrite Cs in H. destruct (step st now _) as [st' r] eqn:X. apply an_get in X as (o & ->); auto. discriminate.
        * unfold call in E2. rewrite Cs in E2. destruct (step st now _) as [st' r'] eqn:X. apply an_get in X as (o & ->); auto. injection E2 as _ E2.
          apply cret_Raise in H as (_ & H). subst r. discriminate.
      + destruct o as [a|].
        * destruct (getExpiresIn a now <=? 0)%Z; [apply cret_Raise in H as (_ & H); inv H; auto|]. rewrite cret_bind in H.
          destruct (checkMessageSignature hmac a m) as [b|y] eqn:Cm.
          -- apply cret_Raise in H as (_ & H). destruct b; inv H. auto.
          -- injection H as -> ->. right. eapply esc_signature; eauto. eapply check_fail; eauto.
        * apply cbind_Raise in H as [H|(s2 & b & _ & H)]; [eapply CA; exact H|]. apply cret_Raise in H as (_ & H). destruct b; inv H; auto.
    - rewrite cret_bind in H. apply cbind_Raise in H as [H|(s2 & b & _ & H)]; [eapply CA; exact H|]. apply cret_Raise in H as (_ & H). destruct b; inv H; auto.
  Qed.

  Lemma nonce_raise query m session rt ep' s s' x : answers -> fair_query reg query -> fromPostArgs reg query = Ok m -> idResCheckForFields m = Ok tt ->
    verifyDiscoveryResults e discover m session = Ok ep' ->
    idResCheckNonce udigit step now m ep' s = (s', Raise x) -> caught x = true \/ escapes query session rt x.
  Proof.
    intros An Q F Ck Vd H. pose proof Q as (R & Hn & Hs). destruct (version_inv reg query m Hn F Ck) as (V & C). destruct (query_version reg query m Hn F) as (_ & V1).
    unfold idResCheckNonce in H. apply cbind_Raise in H as [H|(s1 & [n url] & E1 & H)].
    { exfalso. destruct (isOpenID1 m).
      - apply cbind_Raise in H as [H|(s1 & n & _ & H)]; apply cret_Raise in H as (_ & H); discriminate.
      - apply cbind_Raise in H as [H|(s1 & n & _ & H)]; apply cret_Raise in H as (_ & H); [|discriminate]. unfold getArg, fixNS in H. cbn [bind] in H. destruct (_ && _); discriminate. }
    assert (s1 = s /\ (url = Some [] \/ url = ep_server_url ep')) as (-> & U).
    { destruct (isOpenID1 m); apply cbind_Ok in E1 as (s2 & k & E2 & E1); apply cret_Ok in E2 as (-> & _); apply cret_Ok in E1 as (-> & E1); injection E1 as <- <-; auto. }
    cbn [fst snd] in H. destruct n as [n|]; [|apply cret_Raise in H as (_ & H); inv H; auto].
    apply cbind_Raise in H as [H|(s1 & [ts salt] & E2 & H)].
    { apply cret_Raise in H as (_ & H). apply catch_Raise in H as [(H & Hh)|(y & _ & X)].
      - exfalso. unfold split in H. rinv H as tm E; [apply strptime_err in H; subst x; discriminate Hh|]. destruct (_ <? _)%Z; inv H. discriminate Hh.
      - destruct (isValueError y); inv X. auto. }
    apply cret_Ok in E2 as (-> & _). apply cbind_Raise in H as [H|(s1 & b & E3 & H)]; [discriminate|]. injection E3 as <- <-.
    destruct (c_store s) as [st|] eqn:Cs; [|apply cret_Raise in H as (_ & H); discriminate].
    apply cbind_Raise in H as [H|(s1 & server & E4 & H)].
    { apply cret_Raise in H as (_ & H). destruct U as [-> | ->]; [discriminate|]. unfold the_url in H. destruct (ep_server_url ep') eqn:Es; inv H. right. eapply no_server; eauto. }
    apply cret_Ok in E4 as (-> & _). cbn [fst snd] in H.
    apply cbind_Raise in H as [H|(s1 & r & E5 & H)].
    { exfalso. unfold call in H. rewrite Cs in H. destruct (step st now _) as [st' r] eqn:X. apply an_use in X as (o & ->); auto. discriminate. }
    unfold call in E5. rewrite Cs in E5. destruct (step st now _) as [st' r'] eqn:X. apply an_use in X as (b & ->); auto. injection E5 as _ <-.
    cbn [flag] in H. rewrite cret_bind in H. apply cret_Raise in H as (_ & H). destruct b; inv H. auto.
  Qed.

  (** C45 *)
  Theorem C45_when_complete_raises :
    forall query m session rt s s' x, answers -> fair_query reg query -> fromPostArgs reg query = Ok m ->
      complete e reg hmac udigit net discover step now m session rt s = (s', Raise x) ->
      wire_value query (u "mode") = Some (u "id_res") /\ caught x = false /\ escapes query session rt x.
  Proof.
    intros query m session rt s s' x An Q F H. pose proof Q as (R & Hn & Hs). destruct (oid_class query m Hn F) as (oid & V & C & O).
    assert (forall k, exists v, getArg m OPENID_NS k = Ok v) as G by (intros k; rewrite (core_get _ _ _ C); eauto).
    unfold complete, getArgDef in H. rewrite (field_of reg query m _ Hn F) in H by simple_key. cbn [bind] in H.
    assert (forall ep', completeInvalid m ep' <> Raise x) as CI.
    { intros ep' X. unfold completeInvalid, getArgDef in X. destruct (G (u "mode")) as (v & G1). rewrite G1 in X. destruct v; discriminate. }
    set (mode := match wire_value query (u "mode") with Some v => v | None => u "<No mode set>" end) in *.
    assert (cret (S := S) (match wire_value query (u "mode") with Some v => Ok v | None => Ok (u "<No mode set>") end) = cret (Ok mode)) as Em by (unfold mode; destruct (wire_value query (u "mode")); auto).
    rewrite Em, cret_bind in H. clear Em.
    destruct (text_eqb mode (u "cancel")); [apply cret_Raise in H as (_ & H); discriminate|].
    destruct (text_eqb mode (u "error")).
    { exfalso. apply cret_Raise in H as (_ & H). unfold complete_error in H. destruct (G (u "error")) as (v1 & G1), (G (u "contact")) as (v2 & G2), (G (u "reference")) as (v3 & G3). rewrite G1, G2, G3 in H. discriminate. }
    destruct (text_eqb mode (u "setup_needed")).
    { exfalso. apply cret_Raise in H as (_ & H). unfold complete_setup_needed in H. destruct (negb _); [eapply CI; exact H|]. rinv H as url E; [|discriminate]. unfold getArg, fixNS in H. cbn [bind] in H. destruct (_ && _); discriminate. }
    destruct (text_eqb mode (u "id_res")) eqn:Ei; [|exfalso; apply cret_Raise in H as (_ & H); eapply CI; exact H].
    apply text_eqb_eq in Ei. split. { unfold mode in Ei. destruct (wire_value query (u "mode")); [congruence|discriminate]. }
    unfold complete_id_res in H. apply cbind_Raise in H as [H|(s1 & o & E1 & H)].
    { exfalso. apply cret_Raise in H as (_ & H). unfold checkSetupNeeded in H. destruct (isOpenID1 m); [|discriminate]. unfold getArg, fixNS in H. cbn [bind] in H. destruct (_ && _); discriminate. }
    apply cret_Ok in E1 as (-> & E1). destruct o as [url|]; [apply cret_Raise in H as (_ & H); discriminate|].
    apply ctry_Raise in H as [(H & Hc)|(s1 & y & k & _ & K & H)].
    2:{ destruct (_ || _); inv K. apply cret_Raise in H as (_ & H). discriminate. }
    assert (caught x = false) as Cx by (unfold caught; destruct (_ || _); auto; discriminate).
    assert (caught x = true \/ escapes query session rt x) as D.
    { unfold doIdRes in H. apply cbind_Raise in H as [H|(s1 & t1 & E2 & H)]; [apply cret_Raise in H as (_ & H); eapply fields_raise; eauto|].
      apply cret_Ok in E2 as (-> & E2). destruct t1. apply cbind_Raise in H as [H|(s1 & b & E3 & H)]; [apply cret_Raise in H as (_ & H); right; eapply return_raise; eauto|].
      apply cret_Ok in E3 as (-> & E3). destruct b; cbn [negb] in H; [|apply cret_Raise in H as (_ & H); inv H; auto].
      apply cbind_Raise in H as [H|(s1 & ep' & E4 & H)]; [apply cret_Raise in H as (_ & H); eapply verify_raise; eauto|]. apply cret_Ok in E4 as (-> & E4).
      apply cbind_Raise in H as [H|(s1 & t2 & E5 & H)]; [eapply signature_raise; eauto|].
      apply cbind_Raise in H as [H|(s2 & t3 & E6 & H)]; [eapply nonce_raise; eauto|].
      apply cbind_Raise in H as [H|(s3 & sg & E7 & H)]; [|apply cret_Raise in H as (_ & H); discriminate].
      exfalso. apply cret_Raise in H as (_ & H). destruct (required_inv reg query m Hn F E2) as (_ & _ & _ & signed & _ & _ & _ & Hsn & _).
      unfold getArgReq in H. rewrite (field_of reg query m _ Hn F) in H by simple_key. rewrite Hsn in H. discriminate. }
    split; auto. destruct D as [D|D]; auto. congruence.
  Qed.
End Escape.
Print Assumptions C45_when_complete_raises.

(** The memory store answers. *)
Lemma mem_answers : answers mem_step.
Proof.
  intros s t o. destruct o; try exact I; unfold mem_step.
  - destruct (mem_get s url handle). exact I.
  - destruct (mem_remove s url handle). exact I.
  - destruct (mem_useNonce s t url ts salt). exact I.
Qed.
(** So, whatever else happens, responses of the other modes are always turned into a result. *)
Theorem C45_other_modes :
  forall e reg hmac udigit net discover (S : Type) (step : S -> Z -> op -> S * out) now query m session rt s,
    answers step -> fair_query reg query -> fromPostArgs reg query = Ok m -> wire_value query (u "mode") <> Some (u "id_res") ->
    exists s' r, complete e reg hmac udigit net discover step now m session rt s = (s', Ok r).
Proof.
  intros e reg hmac udigit net discover S step now query m session rt s An Q F Hm.
  destruct (complete e reg hmac udigit net discover step now m session rt s) as [s' [r|x]] eqn:E; eauto.
  apply (C45_when_complete_raises e reg hmac net discover step udigit now query m session rt s s' x An Q F) in E as (E & _). contradiction.
Qed.
Print Assumptions C45_other_modes.

(** ** C90: responses that make the consumer raise *)
Definition raised (query : dict text text) (net : list post -> option (N * bytes)) (s : @cst mem) (x : exn) : Prop :=
  exists m s', fromPostArgs [] query = Ok m /\
    complete plain_env [] toy_hmac (fun _ => None) net (fun _ => Ok [ex_ep]) mem_step 1001 m None (u "http://rp/back") s = (s', Raise x).
Ltac raises := do 2 eexists; split; [vm_compute; reflexivity|vm_compute; reflexivity].
Theorem C90_complete_returns_refuted :
  let good := ex_query (u "http://a/b") (u "http://rp/back") [] in
  let silent := fun _ : list post => @None (N * bytes) in
  let stored := mkCst (Some ex_store) [] in
  (* a return URL that is no URL *)
  raised (ex_query (u "http://a/b") (u "nonsense") []) silent stored ValueError /\
  (* the other name of OpenID 1 *)
  raised (dset text_eqb (u "openid.ns") THE_OTHER_OPENID1_NS good) silent stored KeyError /\
  (* OpenID 1 with nothing known about the user *)
  raised (dset text_eqb (u "openid.ns") OPENID1_NS good) silent stored RuntimeError /\
  (* an empty signature *)
  raised (dset text_eqb (u "openid.sig") [] good) silent stored ValueError /\
  (* a claimed identifier with a broken authority and a fragment *)
  raised (ex_query (u "http://[#x") (u "http://rp/back") []) silent stored ValueError /\
  (* no stored key, and a server whose answer is not text *)
  raised good (fun _ => Some (200, [255])) (mkCst None []) UnicodeDecodeError.
Proof.
  cbv zeta. split; [raises|]. split; [raises|]. split; [raises|]. split; [raises|]. split; [raises|raises].
Qed.
Print Assumptions C90_complete_returns_refuted.
(** An assertion of another kind is turned into a failure or a cancellation. *)
Example C45_example :
  (exists m s' ep, fromPostArgs [] [(u "openid.mode", u "cancel")] = Ok m /\
     complete plain_env [] toy_hmac (fun _ => None) (fun _ => None) (fun _ => Raise DiscoveryFailure) mem_step 1001 m None [] (mkCst (Some ex_store) []) = (s', Ok (Cancel ep))) /\
  is_success (ex_complete (ddel text_eqb (u "openid.sig") (ex_query (u "http://a/b") (u "http://rp/back") [])) (u "http://rp/back") (mkCst (Some ex_store) [])) = false.
Proof. split; [do 3 eexists; split; [vm_compute; reflexivity|vm_compute; reflexivity]|vm_compute; reflexivity]. Qed.
