(** C58: an assertion of the server, delivered unchanged, is accepted by the consumer. *)
From Coq Require Import Lia ZifyBool ZifyN ZifyNat Permutation.
From Verif Require Import Py PyFacts Utf8 Utf8Facts KVForm KVFormFacts CryptUtil CryptUtilFacts DH Message MessageFacts MessageWire MessageParse MessageSpec MessageRound MessageSimple Prop_Message.
From Verif Require Import Association AssociationFacts Prop_Association UrlLib UrlLibFacts UriNorm OidUtil OidUtilFacts Nonce NonceFacts Store StoreSpec ServerFacts Prop_ServerDecode.
From Verif Require Import Endpoint Consumer ConsumerFacts Prop_Consumer Prop_ConsumerTotal Prop_ConsumerOnce Prop_ConsumerAccepts AxFacts.
From Verif Require Import TrustRoot Server StoreFacts ServerStores SignatoryFacts Prop_ServerAnswer Prop_Signatory Prop_ServerEncode Prop_Uri.
From Verif Require Import Prop_Nonce Prop_KVForm.
Import Py Store.
Open Scope N_scope.
Local Arguments u : simpl never.

(** ** The server's side *)
Section Assertion.
  Context {S : Type} (step : S -> Z -> op -> S * out) (s0 : S) (fine : op -> Prop) (K : keeps step s0 fine).
  Variable e : uenv.
  Variable reg : dict text text.
  Variable params_ok : Z -> Z -> bool.
  Variable hmac : text -> bytes -> bytes -> bytes.
  Notation state := (after step s0).

  (** The parameters of a positive answer are core parameters, all different. *)
  Lemma answer_simple query ep x c server_url identity claimed now salt r :
    NoDup (map fst query) -> Server.decode e reg params_ok query ep x = DOk (Some (RCheckID c)) ->
    CheckID_answer e c true server_url identity claimed now salt = Ok r ->
    exists oid kvs, rs_request r = RCheckID c /\ simple reg (rs_fields r) oid kvs /\ text_eqb oid OPENID2_NS = asks_v2 query.
  Proof using.
    clear S step s0 fine K hmac.
    intros Hn D H. destruct (decoded_ok e reg params_ok query ep x c Hn D) as [F _ _ _ _ _ _ _ _ _ _ _].
    destruct (fields_new reg query c Hn F) as (r0 & oid & E0 & Q0 & S0 & Ov). exists oid.
    unfold CheckID_answer in H. destruct (ci_return_to c) as [rt|]; [|discriminate]. destruct (negb (truthy rt)); [discriminate|].
    binv H. rewrite E0 in H. cbn [bind] in H. destruct (otruthy claimed && isOpenID1 (ci_message c)); [discriminate|]. binv H.
    rename a into server, a0 into ids. destruct (isOpenID1 (ci_message c) && _); [discriminate|].
    destruct (fields_add reg r0 oid [] [(u "mode", answer_mode c true); (u "return_to", rt); (u "response_nonce", mkNonce now salt)] S0) as (r1 & E1' & Q1 & S1).
    { repeat constructor; vm_compute; intuition discriminate. } { intros k [<-|[<-|[<-|[]]]]; split; try (vm_compute; discriminate); intros []. }
    rewrite E1' in H. cbn [bind] in H. cbn [app] in S1. binv H. rename a into r2.
    assert (exists kvs, rs_request r2 = RCheckID c /\ simple reg (rs_fields r2) oid kvs /\ ~ In (u "identity") (map fst kvs) /\ ~ In (u "claimed_id") (map fst kvs)) as (kvs & Q2 & S2 & N1 & N2).
    { destruct server as [sv|]; [destruct (truthy sv)|].
      - destruct (field_add reg r1 oid _ (u "op_endpoint") sv S1) as (r' & E' & Q' & S'); [vm_compute; intuition discriminate|vm_compute; discriminate|].
        rewrite E' in E2. inv E2. eexists. split; [congruence|]. split; [exact S'|]. split; vm_compute; intuition discriminate.
      - inv E2. eexists. split; [congruence|]. split; [exact S1|]. split; vm_compute; intuition discriminate.
      - inv E2. eexists. split; [congruence|]. split; [exact S1|]. split; vm_compute; intuition discriminate. }
    destruct ids as [[i cid]|]; [|inv H; eauto].
    destruct (field_add reg r2 oid _ (u "identity") i S2 N1) as (r3 & E3 & Q3 & S3); [vm_compute; discriminate|]. rewrite E3 in H. cbn [bind] in H.
    destruct (isOpenID2 (ci_message c)); [|inv H; eexists; split; [congruence|eauto]]. destruct cid as [cl|]; [|discriminate].
    destruct (field_add reg r3 oid _ (u "claimed_id") cl S3) as (r4 & E4 & Q4 & S4); [|vm_compute; discriminate|].
    { rewrite map_app, in_app_iff. intros [Y|[Y|[]]]; [auto|discriminate Y]. }
    rewrite E4 in H. inv H. eexists. split; [congruence|eauto].
  Qed.
  (** What an assertion consists of, in the order in which it is built. *)
  Definition base_params (return_to nonce : text) (server : list (text * text)) (ids : list (text * text)) : list (text * text) :=
    [(u "mode", u "id_res"); (u "return_to", return_to); (u "response_nonce", nonce)] ++ server ++ ids.
  Definition assertion_params (v2 : bool) (base : list (text * text)) (inval : option text) (handle signed sig : text) : list (text * text) :=
    (if v2 then [(u "openid.ns", OPENID2_NS)] else []) ++
    on_wire (base ++ match inval with Some i => [(u "invalidate_handle", i)] | None => [] end ++
             [(u "assoc_handle", handle); (u "signed", signed); (u "sig", sig)]).
  Definition assertion_names : list text :=
    [u "ns"; u "mode"; u "return_to"; u "response_nonce"; u "op_endpoint"; u "identity"; u "claimed_id"; u "invalidate_handle"; u "assoc_handle"; u "signed"].

  Lemma on_wire_inj a b : on_wire a = on_wire b -> a = b.
  Proof using.
    clear. revert b. induction a as [|[k v] a IH]; intros [|[k' v'] b] H; try discriminate; auto. unfold on_wire in H. cbn [map] in H. apply (f_equal (@tl _)) in H as H2.
    apply (f_equal (hd ([], []))) in H. cbn [hd tl fst snd] in *. apply pair_equal_spec in H as (H & ->). apply app_inv_head in H. subst k'. f_equal. apply IH. exact H2.
  Qed.
  Lemma on_wire_app a b : on_wire (a ++ b) = on_wire a ++ on_wire b.
  Proof using. clear. unfold on_wire. apply map_app. Qed.
  Lemma In_on_wire k v l : In (u "openid." ++ k, v) (on_wire l) <-> In (k, v) l.
  Proof using.
    clear. unfold on_wire. rewrite in_map_iff. split.
    - intros ([k' v'] & E & I). cbn [fst snd] in E. apply pair_equal_spec in E as (E & ->). apply app_inv_head in E. subst. auto.
    - intros I. exists (k, v). auto.
  Qed.
  Lemma ids_names v2 asked ac identity claimed ids : may_assert e v2 asked ac identity claimed ids ->
    forall k, In k (map fst ids) -> k = u "identity" \/ k = u "claimed_id".
  Proof using. clear. intros M k. destruct M; cbn [map fst]; try (destruct v2); cbn [map fst In]; intuition. Qed.
  Lemma endpoint_names server_url ep : forall k, In k (map fst (endpoint_param server_url ep)) -> k = u "op_endpoint".
  Proof using. clear. intros k. unfold endpoint_param. destruct (or_else server_url (Some ep)) as [[|]|]; cbn [map fst In]; intuition. Qed.
  Lemma base_names rt nonce server_url ep v2 asked ac identity claimed ids : may_assert e v2 asked ac identity claimed ids ->
    forall k, In k (map fst (base_params rt nonce (endpoint_param server_url ep) ids)) ->
      In k [u "mode"; u "return_to"; u "response_nonce"; u "op_endpoint"; u "identity"; u "claimed_id"].
  Proof using.
    clear. intros M k. unfold base_params. rewrite !map_app, !in_app_iff. intros [H|[H|H]].
    - cbn in H. cbn. intuition.
    - apply endpoint_names in H. subst. cbn. auto 6.
    - eapply ids_names in H; eauto. destruct H as [->| ->]; cbn; auto 7.
  Qed.

  (** What the server sends after a positive answer: the parameters of the answer, signed as
      a whole with the association chosen, by way of the browser. *)
  Theorem C58_assertion : forall request ep x c server_url identity claimed t salt r now secret uniq h s' w,
    mac_bytes hmac -> NoDup (map fst request) -> Server.decode e reg params_ok request ep x = DOk (Some (RCheckID c)) ->
    CheckID_answer e c true server_url identity claimed t salt = Ok r ->
    ready fine now h -> known_types h ->
    (forall hd, wire_value request (u "assoc_handle") = Some hd -> hd <> [] -> handle_ok fine normal_key hd) ->
    (forall ty, known_type ty -> fine (StoreA dumb_key (fresh_assoc now secret uniq ty))) ->
    encodeResponse hmac step now secret uniq r (state h) = (s', Ok w) ->
    exists return_to ids calls a inval signed sig,
      let fields := assertion_params (asks_v2 request) (base_params return_to (mkNonce t salt) (endpoint_param server_url ep) ids) inval (a_handle a) signed sig in
      answerable request ep server_url claimed /\ wire_value request (u "return_to") = Some return_to /\
      may_assert e (asks_v2 request) (wire_value request (u "identity")) (wire_value request (u "claimed_id")) identity claimed ids /\
      s' = state (calls ++ h) /\ ready fine now (calls ++ h) /\
      chosen now secret uniq (wire_value request (u "assoc_handle")) h calls a inval /\
      NoDup (map fst fields) /\
      (forall k, In k (splitc 44 signed) <-> wire_value fields k <> None /\ k <> u "sig") /\
      mac_valid hmac a fields signed sig /\
      delivers (asks_v2 request) return_to fields w.
  Proof using K.
    intros request ep x c server_url identity claimed t salt r now secret uniq h s' w Mb Hn D A R KT G F E.
    destruct (answer_simple _ _ _ _ _ _ _ _ _ _ Hn D A) as (oid & kvs & Q & Si & Ov).
    pose proof (decoded_ok e reg params_ok request ep x c Hn D) as De. rewrite <- (de_handle _ _ _ _ De) in *.
    destruct (proj1 (C36_positive_answer e reg params_ok request ep x c server_url identity claimed t salt Hn D (toPostArgs (rs_fields r)))) as (rt & ids & An & Hr & Ma & Se).
    { exists r. split; [exact A|]. split; auto. }
    fold (base_params rt (mkNonce t salt) (endpoint_param server_url ep) ids) in Se. set (base := base_params rt (mkNonce t salt) (endpoint_param server_url ep) ids) in *.
    assert (kvs = base) as ->.
    { rewrite (si_post _ _ _ _ Si) in Se. unfold ns_param in Se. rewrite Ov in Se. apply app_inv_head in Se. apply on_wire_inj. auto. }
    pose proof (base_names rt (mkNonce t salt) server_url ep _ _ _ _ _ _ Ma) as Bn. fold base in Bn.
    assert (forall m k v, simple reg m oid k -> toPostArgs m = (if asks_v2 request then [(u "openid.ns", OPENID2_NS)] else []) ++ on_wire v -> k = v) as Inj.
    { intros m k v X Y. rewrite (si_post _ _ _ _ X) in Y. unfold ns_param in Y. rewrite Ov in Y. apply app_inv_head in Y. apply on_wire_inj. auto. }
    pose proof (si_core _ _ _ _ Si) as C. pose proof (si_built _ _ _ _ Si) as B.
    assert (forall k, ~ In k [u "mode"; u "return_to"; u "response_nonce"; u "op_endpoint"; u "identity"; u "claimed_id"] -> ~ In k (map fst base)) as Bn' by auto.
    assert (field_is r (u "mode") (Some (u "id_res"))) as M. { unfold field_is. rewrite (simple_get _ _ _ _ _ Si). reflexivity. }
    unfold encodeResponse, sbind, sret, needsSigning in E. unfold field_is in M. rewrite M in E. cbn [bind opt_eqb] in E. rewrite text_eqb_refl in E.
    rewrite (simple_has _ _ _ _ _ Si) in E. unfold dhas in E. rewrite (dget_fresh (u "sig") base) in E by (apply Bn'; vm_compute; intuition discriminate).
    destruct (sign_response_spec step s0 fine K reg hmac r c oid h now secret uniq Q C B R KT G F) as (calls & r1 & a & inval & Er & R1 & Ch & Q1 & C1 & B1 & N1 & M1).
    rewrite Er in E. destruct (signMessage hmac a (rs_fields r1)) as [m|ex] eqn:Sm; [|destruct ex; discriminate]. cbn [sign_out] in E.
    apply pair_equal_spec in E as (<- & E). rewrite Q1 in E.
    (* the fields before signing *)
    assert (simple reg (rs_fields r1) oid (base ++ match inval with Some i => [(u "invalidate_handle", i)] | None => [] end)) as Si1.
    { destruct inval as [i|].
      - destruct (simple_set reg _ _ _ (u "invalidate_handle") i Si) as (m' & E' & S'); [apply Bn'; vm_compute; intuition discriminate|vm_compute; discriminate|].
        destruct (core_set _ _ (u "invalidate_handle") i C) as (m2 & E2 & M2 & N2 & _). rewrite E' in E2. inv E2.
        replace (rs_fields r1) with m2; auto. destruct m2, (rs_fields r1). cbn in *. congruence.
      - rewrite app_nil_r. replace (rs_fields r1) with (rs_fields r); auto. destruct (rs_fields r), (rs_fields r1). cbn in *. congruence. }
    set (base1 := base ++ match inval with Some i => [(u "invalidate_handle", i)] | None => [] end) in *.
    assert (forall k, In k (map fst base1) -> In k [u "mode"; u "return_to"; u "response_nonce"; u "op_endpoint"; u "identity"; u "claimed_id"; u "invalidate_handle"]) as Bn1.
    { intros k. unfold base1. rewrite map_app, in_app_iff. intros [H|H]; [apply Bn in H; cbn in *; tauto|]. destruct inval; cbn in H; [|destruct H]. destruct H as [<-|[]]. vm_compute. auto 8. }
    pose proof (signMessage_Ok hmac a _ oid m C1 Sm) as SA. destruct SA as [_ C' N' _ _ (m1 & b & C1' & N1' & A1 & Kb & A3 & Pm) Ty _]. cbv zeta in *.
    set (signed := join [44] (signed_names m1)) in *. set (sig := toBase64 (hmac (a_type a) (a_secret a) b)) in *.
    destruct (simple_set reg _ _ _ (u "assoc_handle") (a_handle a) Si1) as (m1' & Em1 & Sm1).
    { intros X. apply Bn1 in X. vm_compute in X. intuition discriminate. } { vm_compute. discriminate. }
    destruct (core_set _ _ (u "assoc_handle") (a_handle a) C1) as (m2 & Em2 & Mm2 & Nm2 & _).
    assert (m1' = m1) as ->. { rewrite Em1 in Em2. inv Em2. destruct m2, m1. cbn in *. congruence. }
    clear Em1 m2 Em2 Mm2 Nm2.
    set (base2 := base1 ++ [(u "assoc_handle", a_handle a)]) in *.
    assert (forall k, In k (map fst base2) -> In k [u "mode"; u "return_to"; u "response_nonce"; u "op_endpoint"; u "identity"; u "claimed_id"; u "invalidate_handle"; u "assoc_handle"]) as Bn2.
    { intros k. unfold base2. rewrite map_app, in_app_iff. intros [H|[<-|[]]]; [apply Bn1 in H; cbn in *; tauto|]. vm_compute. auto 9. }
    set (nsp := if asks_v2 request then [(u "openid.ns", OPENID2_NS)] else []) in *.
    assert (toPostArgs m1 = nsp ++ on_wire base2) as P1. { rewrite (si_post _ _ _ _ Sm1). unfold ns_param. rewrite Ov. auto. }
    assert (forall k, k <> u "ns" -> ~ In k (map fst base2) -> dget text_eqb (u "openid." ++ k) (toPostArgs m1) = None) as Fr.
    { intros k Hk X. apply dget_fresh. rewrite P1, map_app, in_app_iff. intros [Y|Y].
      - unfold nsp in Y. destruct (asks_v2 request); [|destruct Y]. destruct Y as [Y|[]]. apply (app_inv_head (u "openid.") (u "ns")) in Y. congruence.
      - unfold on_wire in Y. rewrite map_map in Y. cbn [fst] in Y. apply in_map_iff in Y as ((k' & v') & Y & I). cbn [fst] in Y. apply app_inv_head in Y. subst k'. apply X. apply in_map_iff. exists (k, v'). auto. }
    assert (toPostArgs m = assertion_params (asks_v2 request) base inval (a_handle a) signed sig) as Pf.
    { rewrite Pm, (dset_fresh text_eqb).
      - rewrite (dset_fresh text_eqb).
        + rewrite P1. unfold assertion_params, nsp, base2, base1. rewrite <- !app_assoc, !on_wire_app. cbn [app]. rewrite <- !app_assoc. reflexivity.
        + apply (Fr (u "signed")); [vm_compute; discriminate|]. intros X. apply Bn2 in X. vm_compute in X. intuition discriminate.
      - rewrite (dget_dset_other text_eqb text_eqb_eq) by discriminate.
        apply (Fr (u "sig")); [vm_compute; discriminate|]. intros X. apply Bn2 in X. vm_compute in X. intuition discriminate. }
    assert (forall k, In k (signed_names m1) -> In k assertion_names) as Sn.
    { intros k Hk. apply signed_names_In in Hk as [Hk| ->]; [|vm_compute; auto 11]. unfold dkeys in Hk. rewrite P1, map_app, in_app_iff in Hk. destruct Hk as [Hk|Hk].
      - unfold nsp in Hk. destruct (asks_v2 request); [|destruct Hk]. destruct Hk as [Hk|[]]. apply (app_inv_head (u "openid.") (u "ns")) in Hk. subst k. left. auto.
      - unfold on_wire in Hk. rewrite map_map in Hk. cbn [fst] in Hk. apply in_map_iff in Hk as ((k' & v') & Y & I). cbn [fst] in Y. apply app_inv_head in Y. subst k'.
        assert (In k (map fst base2)) as J by (apply in_map_iff; exists (k, v'); auto). apply Bn2 in J. cbn in J. unfold assertion_names. cbn. tauto. }
    assert (splitc 44 signed = signed_names m1) as Ss.
    { unfold signed. apply splitc_join; [apply signed_names_ne|]. rewrite Forall_forall. intros k Hk. apply Sn in Hk. cbn in Hk.
      repeat (destruct Hk as [<-|Hk]; [vm_compute; intuition discriminate|]). destruct Hk. }
    exists rt, ids, calls, a, inval, signed, sig. cbv zeta. fold base. rewrite <- Pf.
    split; auto. split; auto. split; auto. split; auto. split; auto. split; auto. split; [apply toPostArgs_keys|]. split; [|split].
    - intros k. rewrite Ss, signed_names_In. unfold wire_value. rewrite Pm. split.
      + intros H. assert (k <> u "sig") as Ne.
        { intros ->. destruct H as [H|H]; [|discriminate H]. apply (dhas_In text_eqb text_eqb_eq) in H. unfold dhas in H. rewrite Fr in H; [discriminate H|vm_compute; discriminate|].
          intros X. apply Bn2 in X. vm_compute in X. intuition discriminate. }
        split; auto. rewrite (dget_dset_other text_eqb text_eqb_eq) by (intros X; apply (app_inv_head (u "openid.") k (u "sig")) in X; auto).
        destruct H as [H| ->].
        * destruct (text_eq_dec k (u "signed")) as [->|N]; [change (u "openid." ++ u "signed") with (u "openid.signed"); rewrite (dget_dset_same text_eqb text_eqb_eq); discriminate|].
          rewrite (dget_dset_other text_eqb text_eqb_eq) by (intros X; apply (app_inv_head (u "openid.") k (u "signed")) in X; auto).
          apply (dhas_In text_eqb text_eqb_eq) in H. unfold dhas in H. intros X. rewrite X in H. discriminate H.
        * change (u "openid." ++ u "signed") with (u "openid.signed"). rewrite (dget_dset_same text_eqb text_eqb_eq). discriminate.
      + intros (H & Ne). rewrite (dget_dset_other text_eqb text_eqb_eq) in H by (intros X; apply (app_inv_head (u "openid.") k (u "sig")) in X; auto).
        destruct (text_eq_dec k (u "signed")) as [->|N]; auto. left.
        rewrite (dget_dset_other text_eqb text_eqb_eq) in H by (intros X; apply (app_inv_head (u "openid.") k (u "signed")) in X; auto).
        apply (dhas_In text_eqb text_eqb_eq). unfold dhas. destruct (dget text_eqb (u "openid." ++ k) (toPostArgs m1)); congruence.
    - destruct Kb as (tx & T1 & T2). exists tx, b. split; [|split; auto; split; [reflexivity|]].
      + rewrite <- T1. f_equal. unfold pairs_of. apply map_ext_in. intros k Hk. unfold field, wire_value. rewrite Pm. rewrite (dget_dset_other text_eqb text_eqb_eq); auto.
        intros X. apply (app_inv_head (u "openid.") k (u "sig")) in X. subst k. rewrite Ss in Hk. apply Sn in Hk. vm_compute in Hk. intuition discriminate.
      + destruct Ty as [<-|[<-|[]]]; [left|right]; auto.
    - assert (isOpenID2 m = asks_v2 request) as <-. { unfold isOpenID2. destruct C' as (_ & -> & _). cbn [opt_eqb]. auto. }
      apply (C38_browser_response (mkResponse (RCheckID c) m) c rt); auto. rewrite (de_return _ _ _ _ De). auto.
  Qed.
End Assertion.
Print Assumptions C58_assertion.

(** ** Transport through the browser *)
(** What the consumer sees when the browser follows the redirect, or submits the form. *)
Inductive received (e : uenv) (query : dict text text) : web -> Prop :=
| at_url code url b s : urlsplit e url = Ok s -> Permutation (parse_qsl true (sp_query s)) query -> received e query (mkWeb code (Some url) b)
| at_form code f action s : dget text_eqb (u "action") (form_attrs f) = Some action -> urlsplit e action = Ok s ->
    Permutation (parse_qsl true (sp_query s) ++ submits f) query -> received e query (mkWeb code None (BForm f)).
(** A return URL with the arguments [args] of its own, none of them OpenID parameters. *)
Definition clean_return (e : uenv) (rto : text) (args : list (text * text)) : Prop :=
  (exists s, urlsplit e rto = Ok s /\ args = parse_qsl true (sp_query s)) /\ ~ In 35 rto /\
  forall k v, In (k, v) args -> startswith k (u "openid.") = false.
Definition same_page (e : uenv) (current rto : text) : Prop :=
  exists n1 n2 s1 s2, urinorm e current = Ok n1 /\ urinorm e rto = Ok n2 /\ urlsplit e n1 = Ok s1 /\ urlsplit e n2 = Ok s2 /\
    sp_scheme s1 = sp_scheme s2 /\ sp_netloc s1 = sp_netloc s2 /\ sp_path s1 = sp_path s2.

Lemma carried e v2 rto args fields query w : delivers v2 rto fields w -> clean_return e rto args -> received e query w ->
  Permutation (args ++ fields) query.
Proof.
  intros D ((s & Hs & ->) & Nf & _) R. destruct D as [url sent Ss P A _|url f _ _ _ Pt].
  - inversion R as [code url' b s' H1 H2 Ec|]; subst. destruct (A e s Hs Nf) as (s2 & B1 & _ & _ & _ & B2). rewrite H1 in B1. injection B1 as <-.
    rewrite B2 in H2. rewrite P. auto.
  - inversion R as [|code f' action s' H0 H1 H2 Ec]; subst. rewrite (pt_action _ _ _ Pt) in H0. injection H0 as <-. rewrite Hs in H1. injection H1 as <-.
    rewrite (pt_fields _ _ _ Pt) in H2. auto.
Qed.
Lemma dget_app_l {V} k (a b : list (text * V)) : (forall v, ~ In (k, v) a) -> dget text_eqb k (a ++ b) = dget text_eqb k b.
Proof.
  induction a as [|[k' v'] a IH]; intros H; auto. cbn [app dget]. destruct (text_eqb k k') eqn:E.
  - exfalso. apply text_eqb_eq in E. subst. apply (H v'). left. auto.
  - apply IH. intros v I. apply (H v). right. auto.
Qed.
Lemma dget_app_r {V} k (a b : list (text * V)) : (forall v, ~ In (k, v) b) -> dget text_eqb k (a ++ b) = dget text_eqb k a.
Proof.
  intros H. induction a as [|[k' v'] a IH].
  - cbn [app dget]. apply (dget_None text_eqb text_eqb_eq). intros I. apply in_map_iff in I as ((? & v) & <- & I). eapply H; eauto.
  - cbn [app dget]. destruct (text_eqb k k'); auto.
Qed.

Section Arrival.
  Variable e : uenv.
  Variable reg : dict text text.
  Lemma params_wire v2 base inval handle signed sig k v : In (k, v) (assertion_params v2 base inval handle signed sig) ->
    exists k', k = u "openid." ++ k' /\
      (k' = u "ns" /\ v = OPENID2_NS /\ v2 = true \/ In (k', v) base \/ In k' [u "invalidate_handle"; u "assoc_handle"; u "signed"; u "sig"]).
  Proof using.
    clear. unfold assertion_params. rewrite in_app_iff. intros [H|H].
    - destruct v2; [|destruct H]. destruct H as [H|[]]. injection H as <- <-. exists (u "ns"). split; auto.
    - unfold on_wire in H. apply in_map_iff in H as ((k' & v') & H & I). cbn [fst snd] in H. apply pair_equal_spec in H as (<- & ->). exists k'. split; auto.
      rewrite !in_app_iff in I. destruct I as [I|[I|I]]; auto; right; right.
      + destruct inval; [|destruct I]. destruct I as [I|[]]. injection I as <- _. left. auto.
      + destruct I as [I|[I|[I|[]]]]; injection I as <- _; cbn; auto.
  Qed.

  (** The query that arrives, in terms of what was sent. *)
  Lemma arrival query args v2 base inval handle signed sig :
    good_registry reg -> NoDup (map fst query) ->
    (forall k v, In (k, v) args -> startswith k (u "openid.") = false) ->
    (forall k, In k (map fst base) -> In k [u "mode"; u "return_to"; u "response_nonce"; u "op_endpoint"; u "identity"; u "claimed_id"]) ->
    let fields := assertion_params v2 base inval handle signed sig in
    Permutation (args ++ fields) query ->
    (forall k, wire_value query k = wire_value fields k) /\
    (forall k, startswith k (u "openid.") = false -> dget text_eqb k query = dget text_eqb k args) /\
    (forall k v, In (k, v) query -> startswith k (u "openid.") = false -> In (k, v) args) /\
    fair_query reg query /\ (exists m, fromPostArgs reg query = Ok m) /\ asks_v2 query = v2 /\
    wire_value query (u "ns") <> Some THE_OTHER_OPENID1_NS /\
    (forall k, In k [u "user_setup_url"] -> wire_value query k = None) /\
    (forall k, In k [u "mode"; u "return_to"; u "response_nonce"; u "op_endpoint"; u "identity"; u "claimed_id"] -> wire_value query k = dget text_eqb k base) /\
    wire_value query (u "assoc_handle") = Some handle /\ wire_value query (u "signed") = Some signed /\ wire_value query (u "sig") = Some sig /\
    wire_value query (u "invalidate_handle") = inval /\ wire_value query (u "ns") = (if v2 then Some OPENID2_NS else None).
  Proof using.
    clear e. intros Rg Hn Ca Bn fields P.
    assert (NoDup (map fst (args ++ fields))) as Hn'. { eapply Permutation_NoDup; [apply Permutation_map; symmetry; exact P|auto]. }
    assert (forall k, dget text_eqb k query = dget text_eqb k (args ++ fields)) as G. { intros k. symmetry. apply dget_perm; auto. }
    assert (forall k, wire_value query k = wire_value fields k) as W.
    { intros k. unfold wire_value. rewrite G. apply dget_app_l. intros v I. apply Ca in I. rewrite startswith_app in I. discriminate. }
    assert (forall k v, In (k, v) fields -> startswith k (u "openid.") = true) as Fo.
    { intros k v I. apply params_wire in I as (k' & -> & _). apply startswith_app. }
    assert (forall k, In k (map fst (base ++ match inval with Some i => [(u "invalidate_handle", i)] | None => [] end ++ [(u "assoc_handle", handle); (u "signed", signed); (u "sig", sig)])) ->
              In k [u "mode"; u "return_to"; u "response_nonce"; u "op_endpoint"; u "identity"; u "claimed_id"; u "invalidate_handle"; u "assoc_handle"; u "signed"; u "sig"]) as Nm.
    { intros k. rewrite !map_app, !in_app_iff. intros [H|[H|H]]; [apply Bn in H; cbn in *; tauto| |cbn in *; tauto].
      destruct inval; cbn in *; tauto. }
    assert (forall k v, k <> u "ns" -> In (u "openid." ++ k, v) fields ->
              In k [u "mode"; u "return_to"; u "response_nonce"; u "op_endpoint"; u "identity"; u "claimed_id"; u "invalidate_handle"; u "assoc_handle"; u "signed"; u "sig"]) as Nm2.
    { intros k v Nk I. unfold fields, assertion_params in I. apply in_app_iff in I as [I|I].
      - destruct v2; [|destruct I]. destruct I as [I|[]]. apply pair_equal_spec in I as (I & _). apply (app_inv_head (u "openid.") (u "ns")) in I. congruence.
      - apply (proj1 (In_on_wire _ _ _)) in I. apply Nm. apply in_map_iff. exists (k, v). auto. }
    assert (forall a v, ~ In (u "openid.ns." ++ a, v) query) as NoNs.
    { intros a v I. apply (Permutation_in (l' := args ++ fields)) in I; [|symmetry; auto]. apply in_app_iff in I as [I|I].
      - apply Ca in I. change (u "openid.ns." ++ a) with (u "openid." ++ (u "ns." ++ a)) in I. rewrite startswith_app in I. discriminate.
      - change (u "openid.ns." ++ a) with (u "openid." ++ (u "ns." ++ a)) in I. apply Nm2 in I; [|discriminate]. cbn in I. intuition discriminate. }
    assert (forall a k v, ~ In (u "openid." ++ a ++ u "." ++ k, v) query) as NoDot.
    { intros a k v I. apply (Permutation_in (l' := args ++ fields)) in I; [|symmetry; auto]. apply in_app_iff in I as [I|I].
      - apply Ca in I. rewrite startswith_app in I. discriminate.
      - assert (In 46 (a ++ u "." ++ k)) as D by (rewrite in_app_iff; right; left; reflexivity).
        apply Nm2 in I. 2:{ intros X. rewrite X in D. vm_compute in D. intuition discriminate. }
        revert D. repeat (destruct I as [<-|I]; [vm_compute; intuition discriminate|]). destruct I. }
    assert (wire_value query (u "ns") = if v2 then Some OPENID2_NS else None) as Ns.
    { rewrite W. unfold wire_value, fields, assertion_params. destruct v2; [reflexivity|]. cbn [app].
      apply (dget_None text_eqb text_eqb_eq). unfold dkeys. intros I. apply in_map_iff in I as ((k & v) & X & I). cbn [fst] in X. subst k. apply (proj1 (In_on_wire _ _ _)) in I.
      assert (In (u "ns") (map fst (base ++ match inval with Some i => [(u "invalidate_handle", i)] | None => [] end ++ [(u "assoc_handle", handle); (u "signed", signed); (u "sig", sig)]))) as J.
      { apply in_map_iff. exists (u "ns", v). auto. }
      apply Nm in J. vm_compute in J. intuition discriminate. }
    assert (asks_v2 query = v2) as V. { unfold asks_v2. rewrite Ns. destruct v2; reflexivity. }
    assert (forall a, ~ In (u "openid.ns." ++ a, u "sreg") query) as Nsr by (intros; apply NoNs).
    assert (fair_query reg query) as Q by (split; [auto|split; auto]).
    assert (forall k, k <> u "ns" -> wire_value query k = dget text_eqb k (base ++ match inval with Some i => [(u "invalidate_handle", i)] | None => [] end ++ [(u "assoc_handle", handle); (u "signed", signed); (u "sig", sig)])) as Wb.
    { intros k Nk. rewrite W. unfold wire_value, fields, assertion_params. rewrite dget_app_l.
      2:{ intros v I. destruct v2; [|destruct I]. destruct I as [I|[]]. apply pair_equal_spec in I as (I & _). apply (app_inv_head (u "openid.") (u "ns")) in I. congruence. }
      generalize (base ++ match inval with Some i => [(u "invalidate_handle", i)] | None => [] end ++ [(u "assoc_handle", handle); (u "signed", signed); (u "sig", sig)]).
      intros l. induction l as [|[k' v'] l IH]; auto. unfold on_wire in *. cbn [map fst snd dget]. rewrite IH. destruct (text_eqb k k') eqn:E.
      - apply text_eqb_eq in E. subst. rewrite text_eqb_refl. reflexivity.
      - assert (text_eqb (u "openid." ++ k) (u "openid." ++ k') = false) as ->; [|reflexivity]. apply text_eqb_neq. intros X. apply app_inv_head in X. apply text_eqb_neq in E. contradiction. }
    assert (forall k, In k [u "assoc_handle"; u "signed"; u "sig"] -> wire_value query k = dget text_eqb k [(u "assoc_handle", handle); (u "signed", signed); (u "sig", sig)]) as Wl.
    { intros k Hk. rewrite Wb by (intros ->; vm_compute in Hk; intuition discriminate). rewrite dget_app_l, dget_app_l; auto.
      - intros v I. destruct inval; [|destruct I]. destruct I as [I|[]]. injection I as <- _. vm_compute in Hk. intuition discriminate.
      - intros v I. assert (In k (map fst base)) as J by (apply in_map_iff; exists (k, v); auto). apply Bn in J.
        repeat (destruct Hk as [<-|Hk]; [vm_compute in J; intuition discriminate|]). destruct Hk. }
    split; auto. split.
    { intros k Hk. rewrite G. apply dget_app_r. intros v I. apply Fo in I. congruence. }
    split.
    { intros k v I Hk. apply (Permutation_in (l' := args ++ fields)) in I; [|symmetry; auto]. apply in_app_iff in I as [I|I]; auto. apply Fo in I. congruence. }
    split; auto. split.
    { apply C14_parse_succeeds; auto.
      - unfold wire_value in Ns. change (u "openid." ++ u "ns") with (u "openid.ns") in Ns. rewrite Ns. destruct v2; cbn; auto.
      - intros a n I. exfalso. eapply NoNs; eauto.
      - intros a b n I. exfalso. eapply NoNs; eauto.
      - intros a n k v _ _ I _. exfalso. eapply NoDot; eauto. }
    split; auto. split. { rewrite Ns. destruct v2; vm_compute; discriminate. }
    split.
    { intros k [<-|[]]. rewrite Wb by discriminate. apply (dget_None text_eqb text_eqb_eq). intros I. apply Nm in I. vm_compute in I. intuition discriminate. }
    split.
    { intros k Hk. rewrite Wb by (intros ->; vm_compute in Hk; intuition discriminate). apply dget_app_r. intros v I. apply in_app_iff in I as [I|I].
      - destruct inval; [|destruct I]. destruct I as [I|[]]. injection I as <- _. vm_compute in Hk. intuition discriminate.
      - destruct I as [I|[I|[I|[]]]]; injection I as <- _; vm_compute in Hk; intuition discriminate. }
    rewrite !Wl by (cbn; auto). do 3 (split; [reflexivity|]). split; [|exact Ns].
    rewrite Wb by discriminate. rewrite dget_app_l; [destruct inval; reflexivity|].
    intros v I. assert (In (u "invalidate_handle") (map fst base)) as J by (apply in_map_iff; exists (u "invalidate_handle", v); auto). apply Bn in J. vm_compute in J. intuition discriminate.
  Qed.
End Arrival.

(** ** Whole logins *)
Section Login.
  (* the provider *)
  Context {S : Type} (step : S -> Z -> op -> S * out) (s0 : S) (fine : op -> Prop) (K : keeps step s0 fine).
  Notation state := (after step s0).
  Variable params_ok : Z -> Z -> bool.
  (* the consumer *)
  Context {CS : Type} (cstep : CS -> Z -> op -> CS * out).
  Variable udigit : N -> option Z.
  Variable net : list post -> option (N * bytes).
  Variable discover : text -> res (list endpoint).
  (* both *)
  Variable e : uenv.
  Variable reg : dict text text.
  Variable hmac : text -> bytes -> bytes -> bytes.

  (** The provider is about to say [i]: the identifier asked about, or the one it selects;
      [c] is the claimed identifier that goes with it in OpenID 2. *)
  Definition says_id (request : dict text text) (identity : option text) (i : text) : Prop :=
    wire_value request (u "identity") = Some IDENTIFIER_SELECT /\ identity = Some i \/
    wire_value request (u "identity") = Some i /\ i <> IDENTIFIER_SELECT.
  Definition says_claimed (request : dict text text) (claimed : option text) (i c : text) : Prop :=
    if opt_eqb text_eqb (wire_value request (u "identity")) (Some IDENTIFIER_SELECT) then or_else claimed (Some i) = Some c
    else wire_value request (u "claimed_id") = Some c.
  (** The consumer expects it: [ep0] is the endpoint of that identifier, at this provider. *)
  Definition expected (request : dict text text) (ep : text) (server_url identity claimed : option text) (args : dict text text)
      (session : option endpoint) (ep0 ep' : endpoint) (server : text) : Prop :=
    ep_server_url ep0 = Some server /\
    exists i, says_id request identity i /\
    if asks_v2 request
    then exists c, says_claimed request claimed i c /\ or_else server_url (Some ep) = Some server /\
           matches e ep0 OPENID_2_0_TYPE c i /\ leads_to discover session c [OPENID_2_0_TYPE] ep0 /\ ep' = with_claimed_id ep0 (Some c)
    else exists type c, (type = OPENID_1_1_TYPE \/ type = OPENID_1_0_TYPE) /\ matches e ep0 type c i /\ ep' = ep0 /\
           leads_to discover session c [OPENID_1_1_TYPE; OPENID_1_0_TYPE] ep0 /\
           (dget text_eqb (u "openid1_claimed_id") args = Some c \/
            dget text_eqb (u "openid1_claimed_id") args = None /\ exists ep1, session = Some ep1 /\ ep_claimed_id ep1 = Some c).
  (** The nonce: that of the provider, or in OpenID 1 the consumer's own, in the return URL. *)
  Definition with_nonce (v2 : bool) (t : Z) (salt : text) (args : dict text text) (server nserver : text) (ts : Z) (nsalt : text) : Prop :=
    (0 <= ts <= last_second)%Z /\
    if v2 then nserver = server /\ ts = t /\ nsalt = salt
    else nserver = [] /\ dget text_eqb (u "janrain_nonce") args = Some (mkNonce ts nsalt).

  (** What the two theorems below have in common. *)
  Lemma prepared : forall request ep x c server_url identity claimed t salt r now secret uniq h s' w query rto rt args session ep0 ep' server nserver ts nsalt,
    mac_bytes hmac -> NoDup (map fst request) -> Server.decode e reg params_ok request ep x = DOk (Some (RCheckID c)) ->
    CheckID_answer e c true server_url identity claimed t salt = Ok r ->
    ready fine now h -> known_types h ->
    (forall hd, wire_value request (u "assoc_handle") = Some hd -> hd <> [] -> handle_ok fine normal_key hd) ->
    (forall ty, known_type ty -> fine (StoreA dumb_key (fresh_assoc now secret uniq ty))) ->
    encodeResponse hmac step now secret uniq r (state h) = (s', Ok w) ->
    good_registry reg -> wire_value request (u "return_to") = Some rto -> clean_return e rto args -> received e query w ->
    NoDup (map fst query) -> same_page e rt rto ->
    expected request ep server_url identity claimed args session ep0 ep' server ->
    with_nonce (asks_v2 request) t salt args server nserver ts nsalt ->
    exists calls a inval m signed sig ids,
      let fields := assertion_params (asks_v2 request) (base_params rto (mkNonce t salt) (endpoint_param server_url ep) ids) inval (a_handle a) signed sig in
      may_assert e (asks_v2 request) (wire_value request (u "identity")) (wire_value request (u "claimed_id")) identity claimed ids /\
      Permutation (args ++ fields) query /\
      s' = state (calls ++ h) /\ ready fine now (calls ++ h) /\ chosen now secret uniq (wire_value request (u "assoc_handle")) h calls a inval /\
      (forall k, In k (splitc 44 signed) -> In k assertion_names) /\
      (forall k, In k (splitc 44 signed) <-> wire_value query k <> None /\ k <> u "sig") /\
      mac_valid hmac a query signed sig /\
      wire_value query (u "invalidate_handle") = inval /\ wire_value query (u "ns") = (if asks_v2 request then Some OPENID2_NS else None) /\
      (* the premises of [C58_consumer_accepts] *)
      fair_query reg query /\ fromPostArgs reg query = Ok m /\ wire_value query (u "ns") <> Some THE_OTHER_OPENID1_NS /\
      wire_value query (u "mode") = Some (u "id_res") /\
      (asks_v2 query = false -> wire_value query (u "user_setup_url") = None) /\
      wire_value query (u "return_to") = Some rto /\ wire_value query (u "assoc_handle") = Some (a_handle a) /\
      wire_value query (u "signed") = Some signed /\ wire_value query (u "sig") = Some sig /\
      (forall k, In k (to_sign (asks_v2 query)) -> wire_value query k <> None -> In k (splitc 44 signed)) /\
      returned e rt rto query /\ session_matches e discover query session ep0 ep' server /\
      nonce_of query = Some (nserver, mkNonce ts nsalt) /\ Nonce.split udigit (mkNonce ts nsalt) = Ok (ts, nsalt).
  Proof using K.
    intros request ep x c server_url identity claimed t salt r now secret uniq h s' w query rto rt args session ep0 ep' server nserver ts nsalt
      Mb Hn D A R KT G F E Rg Hr Cl Rc Hq Sp Ex Wn. clear net cstep CS.
    destruct (C58_assertion step s0 fine K e reg params_ok hmac _ _ _ _ _ _ _ _ _ _ _ _ _ _ _ _ Mb Hn D A R KT G F E)
      as (rto' & ids & calls & a & inval & signed & sig & An & Hr' & Ma & Es & R' & Ch & Nf & Sn & Mv & De).
    rewrite Hr in Hr'. injection Hr' as <-.
    pose proof (carried e _ _ _ _ _ _ De Cl Rc) as P.
    pose proof (base_names e rto (mkNonce t salt) server_url ep _ _ _ _ _ _ Ma) as Bn.
    set (base := base_params rto (mkNonce t salt) (endpoint_param server_url ep) ids) in *.
    destruct (arrival reg query args _ _ _ _ _ _ Rg Hq (proj2 (proj2 Cl)) Bn P) as (W & Ga & In1 & Q & (m & Fm) & V & Other & Us & Wb & Wh & Ws & Wg & Wi0 & Wns).
    set (fields := assertion_params (asks_v2 request) base inval (a_handle a) signed sig) in *.
    exists calls, a, inval, m, signed, sig, ids. cbv zeta. fold base. fold fields.
    assert (forall k, In k (splitc 44 signed) <-> wire_value query k <> None /\ k <> u "sig") as Sn' by (intros k; rewrite W; apply Sn).
    split; auto. split; auto. split; auto. split; auto. split; auto.
    assert (forall k, In k (splitc 44 signed) -> In k assertion_names) as Sa.
    { intros k Hk. apply Sn in Hk as (Hk & N1). unfold wire_value in Hk. destruct (dget text_eqb (u "openid." ++ k) fields) as [v|] eqn:X; [|congruence].
      apply (dget_In text_eqb text_eqb_eq) in X. unfold fields in X. apply params_wire in X as (k' & X & Y). apply app_inv_head in X. subst k'.
      destruct Y as [(-> & _)|[Y|Y]]; [left; auto| |].
      - assert (In k (map fst base)) as J by (apply in_map_iff; exists (k, v); auto). apply Bn in J. unfold assertion_names. cbn in J |- *. tauto.
      - unfold assertion_names. cbn in Y |- *. intuition congruence. }
    split; auto. split; auto.
    split. { destruct Mv as (tx & b & T1 & T2). exists tx, b. split; auto. rewrite <- T1. f_equal. apply map_ext. intros k. rewrite W. auto. }
    split; auto. split; auto. split; auto. split; auto. split; auto.
    split. { rewrite Wb by (cbn; auto). reflexivity. }
    split. { intros _. apply Us. left. auto. }
    split. { rewrite Wb by (cbn; auto). reflexivity. }
    split; auto. split; auto. split; auto.
    split. { intros k Hk Nk. apply Sn'. split; auto. intros ->. destruct (asks_v2 query); vm_compute in Hk; intuition discriminate. }
    split.
    { destruct Sp as (n1 & n2 & p1 & p2 & U1 & U2 & L1 & L2 & B1 & B2 & B3). destruct Cl as ((s & L3 & Ea) & Nf2 & Ca).
      exists n1, n2, p1, p2, s. rewrite <- Ea. do 8 (split; [assumption|]). split; [|exact In1]. intros k v I. eapply Permutation_in; [exact P|]. apply in_app_iff. auto. }
    assert (wire_value query (u "response_nonce") = Some (mkNonce t salt)) as Rn. { rewrite Wb by (cbn; auto). reflexivity. }
    destruct Ex as (X1 & i & Si & Ex).
    assert (i <> []) as Ni. { destruct (asks_v2 request); [destruct Ex as (? & _ & _ & (_ & X & _) & _)|destruct Ex as (? & ? & _ & (_ & X & _) & _)]; auto. }
    assert (wire_value query (u "identity") = Some i /\ (asks_v2 request = true -> forall cl, says_claimed request claimed i cl -> wire_value query (u "claimed_id") = Some cl)) as (Wi & Wc).
    { assert (forall k, In k [u "identity"; u "claimed_id"] -> wire_value query k = dget text_eqb k ids) as Wid.
      { intros k Hk. rewrite Wb by (cbn in Hk |- *; tauto). unfold base, base_params. rewrite !dget_app_l; auto.
        - intros v I. assert (In k (map fst (endpoint_param server_url ep))) as J by (apply in_map_iff; exists (k, v); auto). apply endpoint_names in J. subst k. vm_compute in Hk. intuition discriminate.
        - intros v I. cbn in I. destruct I as [I|[I|[I|[]]]]; injection I as <- _; vm_compute in Hk; intuition discriminate. }
      unfold says_id in Si. unfold says_claimed. inversion Ma as [i0 c0 A1 A2 A3 A4 A5|i0 c0 A1 A2 A3 A4 A5 A6|A1 A2 A3 A4].
      - rewrite A1. cbn [opt_eqb]. rewrite text_eqb_refl.
        assert (i0 = i) as ->. { destruct Si as [(_ & Si)|(Si & Y)]; congruence. }
        rewrite (Wid (u "identity")), (Wid (u "claimed_id")), <- A5 by (cbn [In]; auto). split; [reflexivity|]. intros -> cl Hc. rewrite A4 in Hc. injection Hc as <-. reflexivity.
      - assert (i0 = i) as ->. { destruct Si as [(Si & Y)|(Si & Y)]; congruence. }
        rewrite A1. cbn [opt_eqb]. assert (text_eqb i IDENTIFIER_SELECT = false) as -> by (apply text_eqb_neq; auto).
        rewrite (Wid (u "identity")), (Wid (u "claimed_id")), <- A6 by (cbn [In]; auto). split; [reflexivity|]. intros V2 cl Hc. rewrite V2. rewrite (A5 V2) in Hc. injection Hc as <-. reflexivity.
      - exfalso. destruct Si as [(Si & Y)|(Si & Y)]; destruct A2 as [A2|A2]; rewrite A2 in Si; [discriminate Si|discriminate Si|discriminate Si|injection Si as <-; congruence]. }
    assert (or_else server_url (Some ep) = Some server -> server <> [] -> wire_value query (u "op_endpoint") = Some server) as Wo.
    { intros X Y. rewrite Wb by (cbn; auto 6). unfold base, base_params. rewrite dget_app_l.
      - unfold endpoint_param. rewrite X. destruct server; [congruence|]. reflexivity.
      - intros v I. cbn in I. destruct I as [I|[I|[I|[]]]]; discriminate I. }
    split.
    - unfold session_matches. split; auto. exists i. split; auto. rewrite V. destruct (asks_v2 request) eqn:V2.
      + destruct Ex as (cl & E1 & E2 & E3 & E4 & E5). exists cl. split; [auto|]. split; auto.
        apply Wo; auto. destruct An as (_ & An & _). specialize (An V2). rewrite E2 in An. intros ->. apply An. right. auto.
      + destruct Ex as (ty & cl & E1 & E2 & E3 & E4 & E5). exists ty, cl. rewrite Ga by reflexivity. auto.
    - destruct Wn as (T0 & Wn). split; [|apply C17_round_trip; auto]. unfold nonce_of. rewrite V. destruct (asks_v2 request) eqn:V2.
      + destruct Wn as (-> & -> & ->). destruct Ex as (cl & E1 & E2 & _). rewrite Rn, Wo; auto.
        destruct An as (_ & An & _). specialize (An V2). rewrite E2 in An. intros ->. apply An. right. auto.
      + destruct Wn as (-> & Wn). rewrite Ga by reflexivity. rewrite Wn. auto.
  Qed.

  (** A login with a shared association: provider and consumer hold the same key under the
      handle of the request.  Whatever the provider answers, once it says yes and the browser
      delivers the answer, the consumer accepts it, with the whole of it signed. *)
  Theorem C58_shared_association :
    forall request ep x c server_url identity claimed t salt r now secret uniq h s' w hd a
           query rto rt args session ep0 ep' server nserver ts nsalt cnow cs st st' a',
      mac_bytes hmac -> good_registry reg -> NoDup (map fst request) ->
      (* the provider *)
      Server.decode e reg params_ok request ep x = DOk (Some (RCheckID c)) ->
      CheckID_answer e c true server_url identity claimed t salt = Ok r ->
      ready fine now h -> known_types h -> handle_ok fine normal_key hd ->
      (forall ty, known_type ty -> fine (StoreA dumb_key (fresh_assoc now secret uniq ty))) ->
      wire_value request (u "assoc_handle") = Some hd -> hd <> [] -> good_at now (stored normal_key hd h) = Some a ->
      encodeResponse hmac step now secret uniq r (state h) = (s', Ok w) ->
      (* the browser *)
      wire_value request (u "return_to") = Some rto -> clean_return e rto args -> received e query w -> NoDup (map fst query) ->
      same_page e rt rto ->
      (* the consumer *)
      expected request ep server_url identity claimed args session ep0 ep' server ->
      with_nonce (asks_v2 request) t salt args server nserver ts nsalt ->
      c_store cs = Some st -> cstep st cnow (GetA server (Some hd)) = (st', Got (Some a')) ->
      a_type a' = a_type a -> a_secret a' = a_secret a -> (cnow < a_issued a' + a_lifetime a')%Z ->
      fresh_in cstep cnow st nserver ts nsalt (fun _ => False) server ->
      exists m signed cs', fromPostArgs reg query = Ok m /\
        complete e reg hmac udigit net discover cstep cnow m session rt cs = (cs', Ok (Success ep' m (map (fun k => u "openid." ++ k) signed))) /\
        forall k, In k signed <-> wire_value query k <> None /\ k <> u "sig".
  Proof using K.
    intros request ep x c server_url identity claimed t salt r now secret uniq h s' w hd a query rto rt args session ep0 ep' server nserver ts nsalt cnow cs st st' a'
      Mb Rg Hn D A R KT G F Hh Nh Ga E Hr Cl Rc Hq Sp Ex Wn Cs Gs Ty Sc Lt Fr.
    destruct (prepared request ep x c server_url identity claimed t salt r now secret uniq h s' w query rto rt args session ep0 ep' server nserver ts nsalt) as
      (calls & a1 & inval & m & signed & sig & ids & _ & _ & _ & _ & Ch & _ & Sn & Mv & _ & _ & B1 & B2 & B3 & B4 & B5 & B6 & B7 & B8 & B9 & B10 & B11 & B12 & B13 & B14); auto.
    { intros hd' X _. rewrite Hh in X. injection X as <-. auto. }
    assert (a1 = a) as ->.
    { destruct Ch as [hd' X _ Y|inval _ _ _ _ _ _ X Y].
      - rewrite Hh in X. injection X as <-. congruence.
      - destruct (X hd) as (_ & X2). rewrite (Y hd) in Ga by auto. discriminate Ga. }
    assert (a_handle a = hd) as Eh. { unfold good_at in Ga. destruct (stored normal_key hd h) as [b|] eqn:Sb; [|discriminate]. apply stored_handle in Sb. destruct (now <? _)%Z; [|discriminate]. congruence. }
    destruct (C58_consumer_accepts e reg hmac udigit net discover cstep cnow query m session ep0 ep' rt rto server hd signed sig nserver (mkNonce ts nsalt) ts nsalt (fun _ => False) cs) as (cs' & Ok'); auto.
    - congruence.
    - eapply (by_key _ _ _ _ _ query server hd signed sig (fun _ => False) cs st st' a'); auto.
      destruct Mv as (tx & b & T1 & T2 & T3 & T4). exists tx, b. rewrite Ty, Sc. auto.
    - intros st2 Y. rewrite Cs in Y. injection Y as <-. auto.
    - exists m, (splitc 44 signed), cs'. auto.
  Qed.

  (** ** Without a shared association *)
  Variable pub_ok : Z -> Z -> Z -> bool.
  Variable hash : hash_alg -> bytes -> bytes.
  Variable neg : negotiator.
  (** The provider, asked directly at [now] with a form body, after the history [h]: decode,
      handle, encode (server.py:1572-1630), over HTTP in UTF-8. *)
  Definition provider_reply (ep : text) (x now : Z) (secret : N -> bytes) (uniq : bytes) (h : history) (body : text) : option (N * bytes) :=
    match Server.decode e reg params_ok (dict_of text_eqb (parse_qsl true body)) ep x with
    | DOk (Some q) =>
        match handleRequest hmac pub_ok hash step neg now secret uniq q (state h) with
        | (s1, Ok r) =>
            match snd (encodeResponse hmac step now secret uniq r s1) with
            | Ok (mkWeb code None (BText t)) => match encode t with Ok b => Some (code, b) | Raise _ => None end
            | _ => None
            end
        | _ => None
        end
    | _ => None
    end.

  Lemma check_answer_simple c oid now s s' r : getOpenIDNamespace (ca_message c) = Some oid -> In oid allowed_openid_namespaces ->
    CheckAuth_answer hmac step now c s = (s', Ok r) ->
    exists v rest, rs_request r = RCheckAuth c /\ simple reg (rs_fields r) oid ((u "is_valid", v) :: rest) /\ (v = u "true" \/ v = u "false") /\
      (rest = [] \/ exists i, rest = [(u "invalidate_handle", i)] /\ ca_invalidate_handle c = Some i /\ i <> []).
  Proof using.
    clear. intros V A H. unfold CheckAuth_answer, sbind in H. destruct (verify hmac step now (ca_assoc_handle c) (ca_signed c) s) as [s1 [v|?]]; [|discriminate].
    destruct (invalidate step now (ca_assoc_handle c) true s1) as [s2 [?|?]]; [|discriminate].
    destruct (simple_new reg oid A) as (m & Em & Si). unfold OpenIDResponse in H. cbn [request_message] in H. rewrite V, Em in H. cbn [bind] in H. unfold sret at 1 in H.
    set (tf := if v then u "true" else u "false") in *.
    destruct (field_add reg (mkResponse (RCheckAuth c) m) oid [] (u "is_valid") tf Si) as (r1 & E1 & Q1 & S1); [intros []|vm_compute; discriminate|].
    unfold sret at 1 in H. rewrite E1 in H. cbn [rs_request app] in *.
    assert (tf = u "true" \/ tf = u "false") as Tf by (unfold tf; destruct v; auto).
    assert (forall s' r, (s2, Ok r1) = (s', Ok r) -> exists v0 rest, rs_request r = RCheckAuth c /\ simple reg (rs_fields r) oid ((u "is_valid", v0) :: rest) /\ (v0 = u "true" \/ v0 = u "false") /\
      (rest = [] \/ exists i, rest = [(u "invalidate_handle", i)] /\ ca_invalidate_handle c = Some i /\ i <> [])) as Fin.
    { intros s3 r2 X. injection X as _ <-. exists tf, []. auto. }
    destruct (ca_invalidate_handle c) as [i|] eqn:Ei; [|apply Fin in H; auto]. destruct (truthy i) eqn:Ti; [|apply Fin in H; auto].
    destruct (getAssociation step now i false true s2) as [s3 [[b|]|?]]; [| |discriminate].
    - injection H as _ <-. exists tf, []. auto.
    - destruct (field_add reg r1 oid _ (u "invalidate_handle") i S1) as (r2 & E2 & Q2 & S2); [vm_compute; intuition discriminate|vm_compute; discriminate|].
      unfold sret in H. rewrite E2 in H. injection H as _ <-. exists tf, [(u "invalidate_handle", i)]. split; [congruence|]. split; [exact S2|]. split; auto.
      right. exists i. apply truthy_true in Ti. auto.
  Qed.

  Lemma plain_parses q : good_registry reg -> NoDup (map fst q) -> (forall k v, In (u "openid." ++ k, v) q -> ~ In 46 k) ->
    (wire_value q (u "ns") = None \/ wire_value q (u "ns") = Some OPENID2_NS) -> exists m, fromPostArgs reg q = Ok m.
  Proof using.
    clear. intros R Hn Nd Ns.
    assert (forall a v, ~ In (u "openid.ns." ++ a, v) q) as Nn.
    { intros a v I. change (u "openid.ns." ++ a) with (u "openid." ++ (u "ns." ++ a)) in I. apply Nd in I. apply I. rewrite in_app_iff. left. vm_compute. auto. }
    apply C14_parse_succeeds; auto.
    - unfold wire_value in Ns. change (u "openid." ++ u "ns") with (u "openid.ns") in Ns. destruct Ns as [-> | ->]; cbn; auto.
    - intros a n I. exfalso. eapply Nn; eauto.
    - intros a b n I. exfalso. eapply Nn; eauto.
    - intros a n k v _ _ I _. exfalso. apply Nd in I. apply I. rewrite !in_app_iff. right. left. vm_compute. auto.
  Qed.
  Lemma kv_scalar d t : dictToKV d = Ok t -> sendable d -> exists b, encode t = Ok b.
  Proof using.
    clear. intros H S. unfold dictToKV in H. apply seqToKV_Ok in H as (_ & ->). apply encode_scalar. unfold sendable in S. rewrite Forall_forall in S.
    rewrite Forall_forall. intros ch I. apply in_concat in I as (l & I & J). apply in_map_iff in I as ((k & v) & <- & I). apply sort_In in I. apply S in I as (I1 & I2).
    rewrite Forall_forall in I1, I2. unfold kv_line in J. cbn [fst snd] in *.
    apply in_app_iff in J as [J|[<-|J]]; auto; [left; reflexivity|]. apply in_app_iff in J as [J|[<-|[]]]; auto. left. reflexivity.
  Qed.

  (** What is signed with a private association of the provider is confirmed by it. *)
  Theorem C58_confirmation :
    forall query m signed sig hd a ep x now secret uniq h body,
      mac_bytes hmac -> fair_query reg query -> fromPostArgs reg query = Ok m ->
      (wire_value query (u "ns") = None \/ wire_value query (u "ns") = Some OPENID2_NS) ->
      (forall k v, In (u "openid." ++ k, v) query -> ~ In 46 k) ->
      wire_value query (u "mode") = Some (u "id_res") -> wire_value query (u "assoc_handle") = Some hd ->
      wire_value query (u "signed") = Some signed -> wire_value query (u "sig") = Some sig -> signed <> [] ->
      mac_valid hmac a query signed sig ->
      ready fine now h -> handle_ok fine dumb_key hd -> good_at now (stored dumb_key hd h) = Some a ->
      (forall i, wire_value query (u "invalidate_handle") = Some i -> i <> [] ->
         handle_ok fine normal_key i /\ ~ In 10 i /\ ~ sp_ws i /\ Forall scalar i) ->
      check_body query body ->
      exists answer t d m', provider_reply ep x now secret uniq h body = Some (200, answer) /\ Utf8.decode answer = Ok t /\ kvToDict t = Ok d /\
        fromOpenIDArgs reg d = Ok m' /\ dget text_eqb (u "is_valid") d = Some (u "true") /\
        (forall i, dget text_eqb (u "invalidate_handle") d = Some i <->
           wire_value query (u "invalidate_handle") = Some i /\ i <> [] /\ good_at now (stored normal_key i h) = None).
  Proof using K.
    clear cstep CS udigit net discover.
    intros query m signed sig hd a ep x now secret uniq h body Mb Q F Ns Nd Hm Hh Hs Hg Ne Mv R G Ga Gi (args & Ub & Hna & Ag).
    pose proof Q as (Rg & Hn & Hsr).
    assert (parse_qsl true body = args) as Pq. { apply urlencode_Ok in Ub as (db & Fb & ->). apply parse_qsl_enc; auto. }
    assert (forall k, k <> u "mode" -> wire_value args k = wire_value query k) as Wa.
    { intros k Hk. unfold wire_value. rewrite Ag. assert (text_eqb (u "openid." ++ k) (u "openid.mode") = false) as ->; [|reflexivity].
      apply text_eqb_neq. intros X. apply (app_inv_head (u "openid.") k (u "mode")) in X. auto. }
    assert (wire_value args (u "mode") = Some (u "check_authentication")) as Wm. { unfold wire_value. rewrite Ag. reflexivity. }
    assert (forall k v, In (u "openid." ++ k, v) args -> ~ In 46 k) as Nda.
    { intros k v I. apply (In_dget text_eqb text_eqb_eq) in I; auto. fold (wire_value args k) in I. destruct (text_eq_dec k (u "mode")) as [->|Nk].
      - vm_compute. intuition discriminate.
      - rewrite Wa in I by auto. apply (dget_In text_eqb text_eqb_eq) in I. eauto. }
    assert (wire_value args (u "ns") = None \/ wire_value args (u "ns") = Some OPENID2_NS) as Nsa by (rewrite Wa by (vm_compute; discriminate); auto).
    destruct (plain_parses args Rg Hna Nda Nsa) as (m2 & F2).
    assert (forall al, ~ In (u "openid.ns." ++ al, u "sreg") args) as Hsra.
    { intros al I. change (u "openid.ns." ++ al) with (u "openid." ++ (u "ns." ++ al)) in I. apply Nda in I. apply I. rewrite in_app_iff. left. vm_compute. auto. }
    assert (fair_query reg args) as Qa by (split; [auto|split; auto]).
    assert (asks_v2 args = asks_v2 query) as Va. { unfold asks_v2. rewrite Wa by (vm_compute; discriminate). auto. }
    assert (forall q, wire_value q (u "ns") = None \/ wire_value q (u "ns") = Some OPENID2_NS -> wire_value q (u "ns") <> Some THE_OTHER_OPENID1_NS) as Oth.
    { intros q [-> | ->]; vm_compute; discriminate. }
    destruct (parsed_version reg query m Hn F (Oth _ Ns)) as (V & C). destruct (parsed_version reg args m2 Hna F2 (Oth _ Nsa)) as (V2 & C2).
    rewrite Va in V2, C2. set (oid := if asks_v2 query then OPENID2_NS else OPENID1_NS) in *.
    destruct (core_set m2 oid (u "mode") (u "id_res") C2) as (m3 & E3 & M3 & N3 & C3).
    set (ca := mkCheckAuth m2 hd m3 (wire_value query (u "invalidate_handle"))).
    assert (Server.decode e reg params_ok args ep x = DOk (Some (RCheckAuth ca))) as D.
    { unfold Server.decode. destruct args as [|kv q] eqn:Eq; [discriminate Wm|]. rewrite <- Eq in *. rewrite F2. cbn [dbind].
      rewrite (field_of reg args m2 (u "mode") Hna F2) by simple_key. rewrite Wm. cbn [dlift dbind].
      assert (CheckAuth_fromMessage m2 = DOk ca) as Ec.
      { unfold CheckAuth_fromMessage. rewrite !(field_of reg args m2 _ Hna F2) by simple_key. rewrite !Wa by (vm_compute; discriminate). rewrite Hh, Hg. cbn [dlift dbind].
        assert (dget akey_eqb (Uri oid, u "mode") (margs m2) = Some (u "check_authentication")) as Gm.
        { pose proof (field_of reg args m2 (u "mode") Hna F2 ltac:(simple_key) ltac:(simple_key)) as Gm. rewrite Wm, (core_get _ _ _ C2) in Gm. congruence. }
        rewrite (core_has _ _ _ C2). unfold dhas. rewrite Gm. cbn [dlift dbind]. rewrite E3. reflexivity. }
      rewrite Ec. reflexivity. }
    assert (In oid allowed_openid_namespaces) as Al by (unfold oid; destruct (asks_v2 query); cbn; auto).
    (* the signature *)
    assert (checkMessageSignature hmac a m3 = Ok true) as Ck.
    { rewrite <- (mac_check reg hmac query m a signed sig Q F C Hs Hg Ne Mv Mb).
      assert (forall k, k <> u "mode" -> ~ In 46 k -> k <> u "ns" -> dget akey_eqb (Uri oid, k) (margs m3) = dget akey_eqb (Uri oid, k) (margs m)) as Same.
      { intros k Hk H46 Hns. rewrite M3, (dget_dset_other akey_eqb akey_eqb_eq) by (apply akey_ne; auto).
        pose proof (field_of reg query m k Hn F H46 Hns) as X. pose proof (field_of reg args m2 k Hna F2 H46 Hns) as Y.
        rewrite (core_get _ _ _ C) in X. rewrite (core_get _ _ _ C2) in Y. rewrite Wa in Y by auto. congruence. }
      eapply check_same; eauto; [apply Same; simple_key|apply Same; simple_key|].
      assert (forall k, dget text_eqb k (toPostArgs m) = dget text_eqb k query) as P1 by (eapply C14_parse_exact; eauto).
      assert (forall k, dget text_eqb k (toPostArgs m2) = dget text_eqb k args) as P2 by (eapply C14_parse_exact; eauto).
      intros k. rewrite P1. destruct (text_eq_dec k (u "mode")) as [->|Nk].
      - fold (wire_value query (u "mode")). rewrite Hm. eapply (post_core_value m3 oid (u "mode")); eauto.
        + intros y w. rewrite M3, (dget_dset_other akey_eqb akey_eqb_eq) by discriminate. intros X.
          destruct (fromPostArgs_sound reg args m2 (proj1 Rg) Hna Hsra F2) as (_ & m0 & _ & _ & _ & _ & Ba). apply Ba in X. apply X.
        + simple_key.
        + rewrite M3. apply (dget_dset_same akey_eqb akey_eqb_eq).
      - rewrite (post_set_other m2 oid (u "mode") (u "id_res") m3) by (auto; try apply C3; intros X; apply app_inv_head in X; auto). rewrite P2. apply Wa. auto. }
    (* the answer *)
    destruct (C34_check_authentication step s0 fine K e reg params_ok hmac args ep x ca h now Hna D R) as
      (calls & r & valid & stale & Ea & R1 & _ & Rq & _ & Iv & Ih & _ & Vl & St & _).
    { exact G. } { intros i Hi Ni. rewrite Wa in Hi by (vm_compute; discriminate). apply Gi; auto. }
    assert (valid = true) as ->. { apply Vl. exists a. auto. }
    destruct (check_answer_simple ca oid now (state h) _ r V2 Al Ea) as (v & rest & _ & Si & _ & Rest).
    unfold field_is in Iv, Ih. rewrite (simple_get _ _ _ _ _ Si) in Iv. rewrite (simple_get _ _ _ _ _ Si) in Ih. cbn [dget] in Iv. rewrite text_eqb_refl in Iv.
    assert (v = u "true") as -> by congruence. assert (forall o1 o2 : option text, Ok o1 = Ok o2 -> o1 = o2) as OkI by (intros; congruence). apply OkI in Ih.
    change (dget text_eqb (u "invalidate_handle") ((u "is_valid", u "true") :: rest)) with (dget text_eqb (u "invalidate_handle") rest) in Ih.
    assert (forall i, stale = Some i -> ~ In 10 i /\ ~ sp_ws i /\ Forall scalar i) as Sti.
    { intros i Hi. apply St in Hi as (X & Y & _). rewrite Wa in X by (vm_compute; discriminate). apply Gi; auto. }
    assert (forall k w, In (k, w) rest -> k = u "invalidate_handle" /\ stale = Some w) as InR.
    { intros k w I. destruct Rest as [->|(i & -> & _)]; [destruct I|]. destruct I as [I|[]]. injection I as <- <-. split; auto; rewrite <- Ih; reflexivity. }
    destruct (C38_direct_response reg r oid _ ltac:(intros c X; rewrite Rq in X; discriminate X) Si) as ((_ & En) & Sy).
    destruct En as (w & Ew).
    { constructor; [split; [|split]; vm_compute; intuition discriminate|]. rewrite Forall_forall. intros [k w] I. apply InR in I as (-> & X). apply Sti in X.
      split; [|split]; [vm_compute; intuition discriminate|vm_compute; intuition discriminate|apply X]. }
    destruct (Sy) with (w := w) as (t & -> & d & Kd & Nd2 & Bd); auto.
    { constructor; [unfold tidy; rewrite <- !sp_ws_clean; split; split; vm_compute; reflexivity|]. rewrite Forall_forall. intros [k w0] I. apply InR in I as (-> & X). apply Sti in X.
      split; [|apply X]. cbn [fst]. rewrite <- sp_ws_clean. split; vm_compute; reflexivity. }
    assert (exists b, encode t = Ok b) as (b & Eb).
    { assert (encode_response r = (y <- toKVForm (rs_fields r) ;; Ok (mkWeb HTTP_OK None (BText y)))) as Xe by (unfold encode_response, whichEncoding; rewrite Rq; reflexivity).
      rewrite Xe in Ew.
      destruct (simple_args _ _ _ _ Si) as (Ta & _).
      assert (toKVForm (rs_fields r) = Ok t) as Kv. { destruct (toKVForm (rs_fields r)) as [t'|]; cbn [bind] in Ew; [|discriminate Ew]. congruence. }
      unfold toKVForm in Kv. rewrite Ta in Kv. cbn [bind] in Kv. eapply kv_scalar; eauto. unfold sendable, bare. apply Forall_app. split.
      - destruct (text_eqb oid OPENID2_NS); constructor; auto. split; apply encode_scalar; eexists; vm_compute; reflexivity.
      - constructor; [split; apply encode_scalar; eexists; vm_compute; reflexivity|]. rewrite Forall_forall. intros [k w0] I. apply InR in I as (-> & X). apply Sti in X.
        split; [apply encode_scalar; eexists; vm_compute; reflexivity|apply X]. }
    assert (forall k, dget text_eqb k d = dget text_eqb k (bare oid ((u "is_valid", u "true") :: rest))) as Dg.
    { destruct (simple_args _ _ _ _ Si) as (_ & Nb). intros k. destruct (dget text_eqb k (bare oid ((u "is_valid", u "true") :: rest))) as [w|] eqn:X.
      - apply (dget_In text_eqb text_eqb_eq) in X. apply Bd in X. apply (In_dget text_eqb text_eqb_eq); auto.
      - apply (dget_None text_eqb text_eqb_eq). apply (dget_None text_eqb text_eqb_eq) in X. intros I. apply X. unfold dkeys in *. apply in_map_iff in I as ((k' & w) & <- & I). apply in_map_iff. exists (k', w). split; auto. apply Bd. auto. }
    assert (forall k, In k (map fst d) -> In k [u "ns"; u "is_valid"; u "invalidate_handle"]) as Kd'.
    { intros k I. apply in_map_iff in I as ((k' & w) & <- & I). apply Bd in I. unfold bare in I. apply in_app_iff in I as [I|[I|I]].
      - destruct (text_eqb oid OPENID2_NS); [|destruct I]. destruct I as [I|[]]. injection I as <- _. left. auto.
      - injection I as <- _. right. left. auto.
      - apply InR in I as (-> & _). right. right. left. auto. }
    assert (exists m', fromOpenIDArgs reg d = Ok m') as (m' & Fd).
    { assert (forall k w, In (k, w) d -> ~ In 46 k) as Nd3.
      { intros k w I. assert (In k (map fst d)) as J by (apply in_map_iff; exists (k, w); auto). apply Kd' in J.
        repeat (destruct J as [<-|J]; [vm_compute; intuition discriminate|]). destruct J. }
      assert (forall al w, ~ In (u "ns." ++ al, w) d) as Nd4. { intros al w I. apply Nd3 in I. apply I. rewrite in_app_iff. left. vm_compute. auto. }
      apply fromOpenIDArgs_complete; try apply Rg; auto.
      - unfold oid_of. rewrite Dg. unfold bare, oid. destruct (asks_v2 query); cbn; auto.
        assert (dget text_eqb (u "ns") rest = None) as X; [|change (text_eqb OPENID1_NS OPENID2_NS) with false; cbn [app dget]; change (text_eqb (u "ns") (u "is_valid")) with false; cbv iota; rewrite X; cbn; auto].
        apply dget_fresh. intros I. apply in_map_iff in I as ((k' & w) & X & I). cbn [fst] in X. subst k'. apply InR in I as (I & _). discriminate I.
      - intros al n I. exfalso. eapply Nd4; eauto.
      - intros al al2 n I. exfalso. eapply Nd4; eauto.
      - intros al n _ _ (k & w & I) _. exfalso. apply Nd3 in I. apply I. rewrite in_app_iff. right. left. auto. }
    exists b, t, d, m'. split; [|split; [apply decode_encode; auto|split; [exact Kd|split; [exact Fd|split]]]].
    - unfold provider_reply. rewrite Pq, (dict_of_NoDup text_eqb text_eqb_eq) by auto. rewrite D. cbn [handleRequest]. rewrite Ea.
      assert (needsSigning r = Ok false) as Nr.
      { unfold needsSigning. rewrite (simple_get _ _ _ _ _ Si). cbn [bind]. assert (dget text_eqb (u "mode") ((u "is_valid", u "true") :: rest) = None) as ->; auto.
        apply dget_fresh. intros [I|I]; [discriminate I|]. apply in_map_iff in I as ((k' & w) & X & I). cbn [fst] in X. subst k'. apply InR in I as (I & _). discriminate I. }
      unfold encodeResponse, sbind, sret. rewrite Nr, Ew. cbn [snd]. rewrite Eb. reflexivity.
    - rewrite Dg. unfold bare. destruct (text_eqb oid OPENID2_NS); reflexivity.
    - intros i. rewrite Dg. assert (dget text_eqb (u "invalidate_handle") (bare oid ((u "is_valid", u "true") :: rest)) = stale) as ->.
      { unfold bare. rewrite <- Ih. destruct (text_eqb oid OPENID2_NS); reflexivity. }
      rewrite St. rewrite Wa by (vm_compute; discriminate). reflexivity.
  Qed.

  (** A login without: the consumer asks the provider, at its URL, at some later time before
      the private association has run out or been used up. *)
  Theorem C58_stateless :
    forall request ep x c server_url identity claimed t salt r now secret uniq h s' w
           query rto rt args session ep0 ep' server nserver ts nsalt,
      mac_bytes hmac -> good_registry reg -> NoDup (map fst request) ->
      (* the provider *)
      Server.decode e reg params_ok request ep x = DOk (Some (RCheckID c)) ->
      CheckID_answer e c true server_url identity claimed t salt = Ok r ->
      ready fine now h -> known_types h ->
      (forall i, wire_value request (u "assoc_handle") = Some i -> i <> [] ->
         good_at now (stored normal_key i h) = None /\ handle_ok fine normal_key i /\ ~ In 10 i /\ ~ sp_ws i /\ Forall scalar i) ->
      (forall ty, known_type ty -> fine (StoreA dumb_key (fresh_assoc now secret uniq ty)) /\ handle_ok fine dumb_key (a_handle (fresh_assoc now secret uniq ty))) ->
      encodeResponse hmac step now secret uniq r (state h) = (s', Ok w) ->
      (* the browser *)
      wire_value request (u "return_to") = Some rto -> clean_return e rto args -> received e query w -> NoDup (map fst query) ->
      same_page e rt rto ->
      (* the consumer *)
      expected request ep server_url identity claimed args session ep0 ep' server ->
      with_nonce (asks_v2 request) t salt args server nserver ts nsalt -> sendable query ->
      exists calls hd, s' = state (calls ++ h) /\ wire_value query (u "assoc_handle") = Some hd /\
      forall later x2 now2 secret2 uniq2 cnow cs,
        let h2 := later ++ calls ++ h in
        ready fine now2 h2 -> (now2 < now + SECRET_LIFETIME)%Z -> stored dumb_key hd h2 = stored dumb_key hd (calls ++ h) ->
        (c_store cs = None \/ exists st st', c_store cs = Some st /\ cstep st cnow (GetA server (Some hd)) = (st', Got None)) ->
        (forall body, net ((server, body) :: c_posts cs) = provider_reply ep x2 now2 secret2 uniq2 h2 body) ->
        (forall st, c_store cs = Some st -> fresh_in cstep cnow st nserver ts nsalt (fun i => wire_value request (u "assoc_handle") = Some i) server) ->
        exists m signed cs', fromPostArgs reg query = Ok m /\
          complete e reg hmac udigit net discover cstep cnow m session rt cs = (cs', Ok (Success ep' m (map (fun k => u "openid." ++ k) signed))) /\
          forall k, In k signed <-> wire_value query k <> None /\ k <> u "sig".
  Proof using K.
    intros request ep x c server_url identity claimed t salt r now secret uniq h s' w query rto rt args session ep0 ep' server nserver ts nsalt
      Mb Rg Hn D A R KT G F E Hr Cl Rc Hq Sp Ex Wn Sd.
    destruct (prepared request ep x c server_url identity claimed t salt r now secret uniq h s' w query rto rt args session ep0 ep' server nserver ts nsalt) as
      (calls & a & inval & m & signed & sig & ids & _ & _ & Es & R1 & Ch & Sa & Sn & Mv & Wi & Wns & B1 & B2 & B3 & B4 & B5 & B6 & B7 & B8 & B9 & B10 & B11 & B12 & B13 & B14); auto.
    { intros hd' X Y. apply G; auto. } { intros ty X. apply F; auto. }
    exists calls, (a_handle a). split; auto. split; auto.
    intros later x2 now2 secret2 uniq2 cnow cs h2 R2 Lt St Cs Nt Fr.
    inversion Ch as [hd' X Nh Y|inval' Kt Ea Sa' _ _ _ X Y Ei]; subst.
    { exfalso. destruct (G hd' X Nh) as (Z & _). congruence. }
    set (hd := a_handle a) in *.
    assert (handle_ok fine dumb_key hd) as Hk. { unfold hd. rewrite Ea. apply F. auto. }
    assert (good_at now2 (stored dumb_key hd h2) = Some a) as Ga.
    { rewrite St, Sa'. unfold good_at. rewrite Ea. cbn [a_issued a_lifetime fresh_assoc]. apply Z.ltb_lt in Lt. rewrite Lt. reflexivity. }
    assert (forall k v, In (u "openid." ++ k, v) query -> ~ In 46 k) as Nd.
    { intros k v I. apply (In_dget text_eqb text_eqb_eq) in I; auto. fold (wire_value query k) in I.
      destruct (text_eq_dec k (u "sig")) as [->|Nk]; [vm_compute; intuition discriminate|].
      assert (In k assertion_names) as J by (apply Sa, Sn; split; congruence).
      unfold assertion_names in J. repeat (destruct J as [<-|J]; [vm_compute; intuition discriminate|]). destruct J. }
    assert (signed <> []) as Ne.
    { intros ->. assert (In (u "return_to") (splitc 44 [])) as [J|[]]; [|discriminate J]. apply Sn. split; [congruence|vm_compute; discriminate]. }
    destruct (C58_consumer_accepts e reg hmac udigit net discover cstep cnow query m session ep0 ep' rt rto server hd signed sig nserver (mkNonce ts nsalt) ts nsalt
                (fun i => wire_value request (u "assoc_handle") = Some i) cs) as (cs' & Ok'); auto.
    - apply by_server; auto.
      + intros k Hk'. split; [apply Sn; auto|]. destruct (startswith k (u "ns.")) eqn:Sk; auto. exfalso. apply startswith_spec in Sk as (k' & ->).
        apply Sa in Hk'. unfold assertion_names in Hk'. cbn in Hk'. intuition discriminate.
      + intros body Cb. rewrite Nt.
        destruct (C58_confirmation query m signed sig hd a ep x2 now2 secret2 uniq2 h2 body Mb B1 B2) as (answer & tx & d & m' & A1 & A2 & A3 & A4 & A5 & A6); auto.
        { destruct (asks_v2 request); auto. }
        { intros i Hi Ni. rewrite Hi in *. destruct (X i) as (X1 & _). destruct (X1 eq_refl) as (X2 & _). apply G; auto. }
        exists answer, tx, d, m'. repeat (split; [assumption|]). intros i Hi. apply A6 in Hi as (Hi & Ni & _). rewrite Hi in *. destruct (X i) as (X1 & _). apply X1. auto.
    - exists m, (splitc 44 signed), cs'. auto.
  Qed.
End Login.
Print Assumptions C58_shared_association.
Print Assumptions C58_confirmation.
Print Assumptions C58_stateless.

(** Both kinds of login, from the request to the consumer's verdict, with memory stores. *)
Definition op_url : text := u "http://op.example/".
Definition demo_endpoint : endpoint :=
  mkEndpoint (Some (u "http://me.example/")) (Some op_url) [OPENID_2_0_TYPE] (Some (u "http://me.example/")) None false None.
Definition arrived (o : mem * res web) : list (text * text) :=
  match snd o with
  | Ok w => match w_location w with
            | Some t => match cut 63 t with Some (_, q) => parse_qsl true q | None => [] end
            | None => [] end
  | Raise _ => [] end.
Definition consumer_says (query : list (text * text)) (net : list post -> option (N * bytes)) (store : option mem) (current : text) : option endpoint :=
  match fromPostArgs [] query with
  | Ok m => match snd (complete plain_env [] long_mac (fun _ => None) net (fun _ => Raise DiscoveryFailure) mem_step 1700000005 m (Some demo_endpoint) current (mkCst store [])) with
            | Ok (Success ep _ _) => Some ep
            | _ => None
            end
  | Raise _ => None
  end.
Definition back_url : text := u "http://rp.example/back?x=1".
(* what the provider did to its store while answering *)
Definition after_login : history :=
  [(1700000000%Z, StoreA dumb_key (fresh_assoc 1700000000 secret0 [9; 8; 7; 6] (u "HMAC-SHA1"))); (1700000000%Z, GetA normal_key (Some (u "h1")))].
Definition op_net (posts : list post) : option (N * bytes) :=
  match posts with
  | (url, body) :: _ =>
      if text_eqb url op_url
      then provider_reply mem_step mem_init (fun _ _ => true) plain_env [] long_mac (fun _ _ _ => true) (fun _ b => b) default_negotiator
             op_url 1 1700000004 secret0 [1] after_login body
      else None
  | [] => None
  end.
Definition shared_key : assoc := mkAssoc (u "h1") (secret0 20) 1699999000 1209600 (u "HMAC-SHA1").
Definition run_shared : mem * res web :=
  match login_response with
  | Ok r => encodeResponse long_mac mem_step 1700000000 secret0 [9; 8; 7; 6]%N r (after mem_step mem_init [(1699999000%Z, StoreA normal_key shared_key)])
  | Raise x => (mem_init, Raise x)
  end.
Definition consumer_store : mem := after mem_step mem_init [(1699999000%Z, StoreA op_url shared_key)].
Definition accepted : option endpoint := Some (with_claimed_id demo_endpoint (Some (u "http://me.example/"))).
Example C58_example :
  after mem_step mem_init after_login = fst run_login /\
  consumer_says (arrived run_login) op_net None back_url = accepted /\
  consumer_says (arrived run_login) (fun _ => None) None back_url = None /\
  consumer_says (arrived run_shared) (fun _ => None) (Some consumer_store) back_url = accepted /\
  consumer_says (dset text_eqb (u "openid.identity") (u "http://you.example/") (arrived run_shared)) (fun _ => None) (Some consumer_store) back_url = None /\
  clean_return plain_env back_url [(u "x", u "1")] /\ same_page plain_env back_url back_url /\
  expected (fun _ => Raise DiscoveryFailure) plain_env login_query op_url None None None [(u "x", u "1")] (Some demo_endpoint) demo_endpoint
    (with_claimed_id demo_endpoint (Some (u "http://me.example/"))) op_url.
Proof.
  split; [vm_compute; reflexivity|]. split; [vm_compute; reflexivity|]. split; [vm_compute; reflexivity|].
  split; [vm_compute; reflexivity|]. split; [vm_compute; reflexivity|]. split; [|split].
  - split; [eexists; split; vm_compute; reflexivity|]. split; [vm_compute; intuition discriminate|]. intros k v [H|[]]. injection H as <- <-. reflexivity.
  - do 4 eexists. repeat (split; [vm_compute; reflexivity|]). vm_compute; reflexivity.
  - split; [reflexivity|]. exists (u "http://me.example/"). split; [right; split; [vm_compute; reflexivity|vm_compute; discriminate]|].
    exists (u "http://me.example/"). split; [vm_compute; reflexivity|]. split; [reflexivity|]. split; [|split; [left; auto|reflexivity]].
    split; [left; auto|]. split; [discriminate|]. split; [reflexivity|]. eexists. split; vm_compute; reflexivity.
Qed.
