(** C36, C37: what CheckIDRequest.answer says. *)
From Coq Require Import Lia ZifyBool ZifyN ZifyNat Permutation.
From Verif Require Import Py PyFacts Utf8 KVForm CryptUtil DH Message MessageFacts MessageParse MessageSpec MessageRound MessageSimple Association AssociationFacts.
From Verif Require Import UrlLib UriNorm OidUtil TrustRoot TrustRootFacts Nonce Store StoreSpec Server Prop_Message Prop_Association Prop_Uri Prop_TrustRoot.
From Verif Require Import ServerFacts Prop_ServerDecode.
Open Scope N_scope.
Local Arguments u : simpl never.

(** Not given, or empty. *)
Definition absent (o : option text) : Prop := o = None \/ o = Some [].
Lemma otruthy_false o : otruthy o = false <-> absent o.
Proof. unfold absent, otruthy. destruct o as [[|]|]; split; intros H; try discriminate; auto; destruct H; discriminate. Qed.
Lemma otruthy_true o : otruthy o = true <-> exists t, o = Some t /\ t <> [].
Proof.
  unfold otruthy. destruct o as [[|c t]|]; split; intros H; try discriminate; try reflexivity; try (destruct H as (x & A & B); congruence).
  exists (c :: t). split; auto. discriminate.
Qed.

Section Answer.
  Variable e : uenv.
  Variable reg : dict text text.
  Variable params_ok : Z -> Z -> bool.

  (** The caller names the identifier asked about, or none, or one that normalizes to the same URL. *)
  Definition agrees (given : option text) (asked : text) : Prop :=
    absent given \/ given = Some asked \/
    exists g n, given = Some g /\ urinorm e asked = Ok n /\ urinorm e g = Ok n.

  (** The identifier parameters of a positive answer to a request that asked about
      [asked]/[asked_claimed], when the caller gives [identity]/[claimed]. *)
  Inductive may_assert (v2 : bool) (asked asked_claimed identity claimed : option text) : list (text * text) -> Prop :=
  | ma_select i c : asked = Some IDENTIFIER_SELECT -> identity = Some i -> i <> [] -> or_else claimed (Some i) = Some c ->
      may_assert v2 asked asked_claimed identity claimed ((u "identity", i) :: if v2 then [(u "claimed_id", c)] else [])
  | ma_asked i c : asked = Some i -> i <> [] -> i <> IDENTIFIER_SELECT -> agrees identity i -> (v2 = true -> asked_claimed = Some c) ->
      may_assert v2 asked asked_claimed identity claimed ((u "identity", i) :: if v2 then [(u "claimed_id", c)] else [])
  | ma_none : v2 = true -> absent asked -> absent identity ->
      may_assert v2 asked asked_claimed identity claimed [].

  Lemma answer_ids_spec v2 c identity claimed : (v2 = true -> ci_identity c = None <-> ci_claimed_id c = None) ->
    forall l, may_assert v2 (ci_identity c) (ci_claimed_id c) identity claimed l <->
      exists ids, answer_ids e c identity claimed = Ok ids /\ (v2 = false -> ids <> None) /\
        l = match ids with None => [] | Some (i, cid) => (u "identity", i) ::
              if v2 then [(u "claimed_id", match cid with Some x => x | None => [] end)] else [] end.
  Proof using.
    intros Hc l. unfold answer_ids, idSelect. split.
    - intros [i x A I Ni X|i x A Ni Ns G X|V A I].
      + rewrite A. cbn [opt_eqb]. rewrite text_eqb_refl. rewrite I. apply truthy_true in Ni. rewrite Ni. eexists. split; [reflexivity|]. split; [discriminate|].
        rewrite text_or_else, X. auto.
      + rewrite A. cbn [opt_eqb]. apply text_eqb_neq in Ns. rewrite Ns. apply truthy_true in Ni. rewrite Ni.
        exists (Some (i, ci_claimed_id c)). split.
        2:{ split; [discriminate|]. destruct v2; auto. rewrite X; auto. }
        destruct G as [[->| ->]|[->|(g & n & -> & E1 & E2)]]; cbn [bind]; auto.
        * rewrite text_eqb_refl, andb_false_r. auto.
        * rewrite E1, E2. cbn [bind]. rewrite text_eqb_refl. destruct (_ && _); auto.
      + subst v2. assert (otruthy identity = false) as -> by (apply otruthy_false; auto). exists None. split.
        * destruct A as [->| ->]; reflexivity.
        * split; [discriminate|auto].
    - intros (ids & H & V & ->). destruct (opt_eqb text_eqb (ci_identity c) (Some IDENTIFIER_SELECT)) eqn:S.
      + destruct (ci_identity c) as [a|] eqn:A; [|discriminate]. cbn [opt_eqb] in S. apply text_eqb_eq in S. subst a.
        destruct identity as [i|]; [|discriminate]. destruct (truthy i) eqn:T; [|discriminate]. inv H. apply truthy_true in T.
        rewrite text_or_else. assert (exists x, or_else claimed (Some i) = Some x) as (x & X) by (destruct claimed as [[|]|]; cbn; eauto).
        rewrite X. eapply ma_select; eauto.
      + destruct (ci_identity c) as [a|] eqn:A.
        * cbn [opt_eqb] in S. apply text_eqb_neq in S. destruct (truthy a) eqn:T.
          -- apply truthy_true in T. binv H. inv H. eapply ma_asked; eauto.
             ++ destruct identity as [j|]; [|left; left; auto]. destruct j as [|c0 j]; [left; right; auto|]. cbn [truthy andb] in E.
                destruct (text_eqb a (c0 :: j)) eqn:Q; [apply text_eqb_eq in Q; subst; right; left; auto|]. cbn [negb] in E. binv E. binv E.
                destruct (text_eqb a1 a2) eqn:Q2; [|discriminate]. apply text_eqb_eq in Q2. subst a2. right. right. eauto.
             ++ intros V2. destruct (ci_claimed_id c) as [x|] eqn:Cc; auto. exfalso. apply Hc in V2. destruct V2 as (_ & V2). specialize (V2 eq_refl). discriminate.
          -- apply truthy_false in T. destruct (otruthy identity) eqn:O; inv H. apply otruthy_false in O.
             apply ma_none; [|right; auto|auto]. destruct v2; auto. exfalso. apply V; auto.
        * destruct (otruthy identity) eqn:O; inv H. apply otruthy_false in O.
          apply ma_none; [|left; auto|auto]. destruct v2; auto. exfalso. apply V; auto.
  Qed.

  Lemma fields_new query c : NoDup (map fst query) -> fromPostArgs reg query = Ok (ci_message c) ->
    exists r oid, OpenIDResponse (RCheckID c) = Ok r /\ rs_request r = RCheckID c /\ simple reg (rs_fields r) oid [] /\
      text_eqb oid OPENID2_NS = asks_v2 query.
  Proof using.
    intros Hn F. destruct (fromPostArgs_ver _ _ _ F Hn) as (V & A). destruct (query_version reg query _ Hn F) as (V2 & _).
    destruct (simple_new reg _ A) as (m & E & S). unfold OpenIDResponse. cbn [request_message]. rewrite V, E. cbn [bind].
    exists (mkResponse (RCheckID c) m), (oid_of (openid_part query)). split; auto. split; auto. split; auto.
    rewrite <- V2. unfold isOpenID2. rewrite V. reflexivity.
  Qed.
  Lemma field_add r oid kvs k v : simple reg (rs_fields r) oid kvs -> ~ In k (map fst kvs) -> k <> u "ns" ->
    exists r', setField r k v = Ok r' /\ rs_request r' = rs_request r /\ simple reg (rs_fields r') oid (kvs ++ [(k, v)]).
  Proof using.
    intros S H1 H2. unfold setField. destruct (simple_set reg _ _ _ k v S H1 H2) as (m & E & S'). rewrite E. cbn [bind].
    exists (mkResponse (rs_request r) m). auto.
  Qed.
  Lemma fields_add r oid kvs l : simple reg (rs_fields r) oid kvs -> NoDup (map fst l) ->
    (forall k, In k (map fst l) -> ~ In k (map fst kvs) /\ k <> u "ns") ->
    exists r', updateFields r l = Ok r' /\ rs_request r' = rs_request r /\ simple reg (rs_fields r') oid (kvs ++ l).
  Proof using.
    intros S H1 H2. unfold updateFields. destruct (simple_update reg l _ _ _ S H1 H2) as (m & E & S'). rewrite E. cbn [bind].
    exists (mkResponse (rs_request r) m). auto.
  Qed.
  Ltac fresh_key := cbn [map fst app In]; intros ?; repeat match goal with H : _ \/ _ |- _ => destruct H as [H|H] | H : False |- _ => destruct H end; discriminate.

  (** The endpoint named in the answer. *)
  Definition endpoint_param (server_url : option text) (ep : text) : list (text * text) :=
    match or_else server_url (Some ep) with Some ((_ :: _) as s) => [(u "op_endpoint", s)] | _ => [] end.

  Definition answerable (query : list (text * text)) (ep : text) (server_url claimed : option text) : Prop :=
    ~ absent (wire_value query (u "return_to")) /\
    (asks_v2 query = true -> ~ absent (or_else server_url (Some ep))) /\
    (asks_v2 query = false -> absent claimed).

  Lemma endpoint_eq v2 server_url ep :
    (if otruthy server_url then Ok server_url else if v2 && negb (otruthy (Some ep)) then Raise RuntimeError else Ok (Some ep)) =
    if v2 && negb (otruthy (or_else server_url (Some ep))) then Raise RuntimeError else Ok (or_else server_url (Some ep)).
  Proof using. destruct server_url as [[|c s]|]; cbn [otruthy or_else truthy negb]; destruct v2; cbn [andb]; auto. Qed.
  Lemma absent_dec o : absent o \/ ~ absent o.
  Proof using. destruct (otruthy o) eqn:E; [right|left]. { intros H. apply otruthy_false in H. congruence. } apply otruthy_false; auto. Qed.
  Lemma not_absent o : ~ absent o <-> exists t, o = Some t /\ t <> [].
  Proof using. rewrite <- otruthy_true, <- otruthy_false. destruct (otruthy o); split; congruence. Qed.

  (** Facts about a decoded request. *)
  Record decoded (query : list (text * text)) (ep : text) (c : checkid) : Prop := {
    de_parse : fromPostArgs reg query = Ok (ci_message c);
    de_v2 : isOpenID2 (ci_message c) = asks_v2 query;
    de_v1 : isOpenID1 (ci_message c) = negb (asks_v2 query);
    de_ep : ci_op_endpoint c = Some ep;
    de_identity : ci_identity c = wire_value query (u "identity");
    de_claimed : ci_claimed_id c = wire_value query (u "claimed_id");
    de_return : ci_return_to c = wire_value query (u "return_to");
    de_handle : ci_assoc_handle c = wire_value query (u "assoc_handle");
    de_realm : ci_trust_root c = or_else (wire_value query (if asks_v2 query then u "realm" else u "trust_root")) (wire_value query (u "return_to"));
    de_mode : wire_value query (u "mode") = Some (if ci_immediate c then u "checkid_immediate" else u "checkid_setup");
    de_ids : asks_v2 query = true -> (ci_identity c = None <-> ci_claimed_id c = None);
    de_id1 : asks_v2 query = false -> ci_identity c <> None
  }.
  Lemma decoded_ok query ep x c : NoDup (map fst query) -> decode e reg params_ok query ep x = DOk (Some (RCheckID c)) -> decoded query ep c.
  Proof using.
    intros Hn H. destruct (C33_decode_sound e reg params_ok query ep x c Hn H) as (F & Hm & H1 & H2 & H3 & H4 & H5 & H6 & _ & _ & H7 & H8).
    destruct (query_version reg query _ Hn F) as (V2 & V1). constructor; auto.
    - rewrite H6. destruct (asks_v2 query); auto.
    - intros V. rewrite H1, H2. apply H7; auto.
    - intros V. rewrite H1. apply H8; auto.
  Qed.

  Theorem C36_positive_answer : forall query ep x c server_url identity claimed now salt,
    NoDup (map fst query) -> decode e reg params_ok query ep x = DOk (Some (RCheckID c)) ->
    forall sent, (exists r, CheckID_answer e c true server_url identity claimed now salt = Ok r /\ rs_request r = RCheckID c /\
                   toPostArgs (rs_fields r) = sent) <->
      exists return_to ids, answerable query ep server_url claimed /\
        wire_value query (u "return_to") = Some return_to /\
        may_assert (asks_v2 query) (wire_value query (u "identity")) (wire_value query (u "claimed_id")) identity claimed ids /\
        sent = (if asks_v2 query then [(u "openid.ns", OPENID2_NS)] else []) ++
               on_wire ([(u "mode", u "id_res"); (u "return_to", return_to); (u "response_nonce", mkNonce now salt)] ++
                        endpoint_param server_url ep ++ ids).
  Proof using.
    intros query ep x c server_url identity claimed now salt Hn H sent. pose proof (decoded_ok _ _ _ _ Hn H) as D.
    destruct D as [F V2 V1 De Di Dc Dr Dh Dt Dm I2 I1].
    rewrite <- Di, <- Dc. unfold answerable. rewrite <- Dr. unfold CheckID_answer.
    destruct (ci_return_to c) as [rt|] eqn:Rt.
    2:{ split; [intros (r & X & _); discriminate|]. intros (? & ? & _ & X & _). discriminate. }
    destruct (truthy rt) eqn:Trt; cbn [negb].
    2:{ apply truthy_false in Trt. subst rt. split; [intros (r & X & _); discriminate|]. intros (? & ? & (X & _) & _). exfalso. apply X. right. auto. }
    apply truthy_true in Trt. rewrite De, V1, V2, negb_involutive, endpoint_eq.
    set (ep' := or_else server_url (Some ep)).
    destruct (asks_v2 query && negb (otruthy ep')) eqn:Ep; cbn [bind].
    { split; [intros (r & X & _); discriminate|]. intros (? & ? & (_ & X & _) & _). exfalso. apply andb_true_iff in Ep as (E1 & E2).
      apply negb_true_iff, otruthy_false in E2. apply X; auto. }
    destruct (fields_new query c Hn F) as (r0 & oid & E0 & Q0 & S0 & Ov). rewrite E0. cbn [bind].
    destruct (otruthy claimed && negb (asks_v2 query)) eqn:Cl; cbn [bind].
    { split; [intros (r & X & _); discriminate|]. intros (? & ? & (_ & _ & X) & _). exfalso. apply andb_true_iff in Cl as (E1 & E2).
      apply negb_true_iff in E2. apply X, otruthy_false in E2. congruence. }
    assert (~ absent (Some rt) /\ (asks_v2 query = true -> ~ absent ep') /\ (asks_v2 query = false -> absent claimed)) as Ans.
    { split; [intros [X|X]; congruence|]. split.
      - intros X. rewrite X in Ep. cbn [andb] in Ep. apply negb_false_iff in Ep. intros Y. apply otruthy_false in Y. congruence.
      - intros X. rewrite X in Cl. rewrite andb_true_r in Cl. apply otruthy_false. auto. }
    destruct (fields_add r0 oid [] [(u "mode", answer_mode c true); (u "return_to", rt); (u "response_nonce", mkNonce now salt)] S0) as (r1 & E1 & Q1 & S1).
    { repeat constructor; fresh_key. }
    { intros k [<-|[<-|[<-|[]]]]; split; try discriminate; intros []. }
    cbn [app] in S1. change (answer_mode c true) with (u "id_res") in *.
    assert (exists r2, (match ep' with Some s => if truthy s then setField r1 (u "op_endpoint") s else Ok r1 | None => Ok r1 end) = Ok r2 /\ rs_request r2 = rs_request r1 /\
              simple reg (rs_fields r2) oid ([(u "mode", u "id_res"); (u "return_to", rt); (u "response_nonce", mkNonce now salt)] ++ endpoint_param server_url ep)) as (r2 & E2 & Q2 & S2).
    { unfold endpoint_param. fold ep'. destruct ep' as [[|c0 s]|]; cbn [truthy]; try (exists r1; rewrite app_nil_r; auto; fail).
      apply field_add; auto; [fresh_key|discriminate]. }
    assert (forall k, k = u "identity" \/ k = u "claimed_id" ->
       ~ In k (map fst ([(u "mode", u "id_res"); (u "return_to", rt); (u "response_nonce", mkNonce now salt)] ++ endpoint_param server_url ep))) as Fr.
    { unfold endpoint_param. intros k Hk I. assert (In k [u "mode"; u "return_to"; u "response_nonce"; u "op_endpoint"]) as J.
      { revert I. clear. destruct (or_else server_url (Some ep)) as [[|]|]; cbn [map fst app In]; tauto. }
      destruct J as [<-|[<-|[<-|[<-|[]]]]]; destruct Hk; discriminate. }
    rewrite E1. cbn [bind].
    assert (forall ids, answer_ids e c identity claimed = Ok ids -> (asks_v2 query = false -> ids <> None) ->
      let l := match ids with None => [] | Some (i, cid) => (u "identity", i) ::
              if asks_v2 query then [(u "claimed_id", match cid with Some x => x | None => [] end)] else [] end in
      exists r, (r <- (match ep' with Some s => if truthy s then setField r1 (u "op_endpoint") s else Ok r1 | None => Ok r1 end) ;;
         match ids with
         | None => Ok r
         | Some (i, cid) =>
             r <- setField r (u "identity") i ;;
             if asks_v2 query then match cid with Some x => setField r (u "claimed_id") x | None => Raise AssertionError end else Ok r
         end) = Ok r /\ rs_request r = RCheckID c /\
         simple reg (rs_fields r) oid (([(u "mode", u "id_res"); (u "return_to", rt); (u "response_nonce", mkNonce now salt)] ++ endpoint_param server_url ep) ++ l)) as Tail.
    { intros ids A N l. rewrite E2. cbn [bind]. destruct ids as [[i cid]|]; [|exists r2; unfold l; rewrite app_nil_r; split; auto; split; [congruence|auto]].
      destruct (field_add r2 oid _ (u "identity") i S2) as (r3 & E3 & Q3 & S3); [apply Fr; auto|discriminate|]. rewrite E3. cbn [bind].
      destruct (asks_v2 query) eqn:Av; [|exists r3; split; auto; split; [congruence|auto]].
      assert (exists y, cid = Some y) as (y & ->).
      { assert (may_assert true (ci_identity c) (ci_claimed_id c) identity claimed l) as M.
        { apply answer_ids_spec; auto. exists (Some (i, cid)). split; auto. }
        clear - A I2. unfold answer_ids in A. destruct (idSelect c).
        - destruct identity as [j|]; [|discriminate]. destruct (truthy j); inv A. unfold text_or. destruct (otruthy claimed) eqn:O; eauto. apply otruthy_true in O as (t & -> & _). eauto.
        - destruct (ci_identity c) as [a|] eqn:Ci.
          + destruct (truthy a); [|destruct (otruthy identity); discriminate]. binv A. inv A. destruct (ci_claimed_id c); eauto. destruct (I2 eq_refl) as (_ & X). specialize (X eq_refl). discriminate.
          + destruct (otruthy identity); discriminate. }
      destruct (field_add r3 oid _ (u "claimed_id") y S3) as (r4 & E4 & Q4 & S4).
      { rewrite map_app, in_app_iff. intros [X|X]; [apply (Fr (u "claimed_id")); auto|]. destruct X as [X|[]]. discriminate. } { discriminate. }
      exists r4. split; auto. split; [congruence|]. rewrite <- app_assoc in S4. exact S4. }
    assert (forall r l, simple reg (rs_fields r) oid l -> toPostArgs (rs_fields r) = (if asks_v2 query then [(u "openid.ns", OPENID2_NS)] else []) ++ on_wire l) as Wire.
    { intros r l S. rewrite (si_post _ _ _ _ S). unfold ns_param. rewrite Ov. auto. }
    assert (forall ids : option (text * option text), negb (asks_v2 query) && match ids with None => true | Some _ => false end = false <-> (asks_v2 query = false -> ids <> None)) as B.
    { intros ids. clear. destruct (asks_v2 query), ids; cbn; split; intros; try discriminate; auto. exfalso. apply H; auto. }
    split.
    - intros (r & X & Qr & P). destruct (answer_ids e c identity claimed) as [ids|] eqn:A; [|discriminate]. cbn [bind] in X.
      destruct (negb (asks_v2 query) && _) eqn:N; [discriminate|]. pose proof (proj1 (B ids) N) as N'.
      destruct (Tail ids eq_refl N') as (r' & T & Q' & S'). rewrite T in X. inv X.
      eexists rt, _. split; [exact Ans|]. split; auto. split; [apply answer_ids_spec; auto; exists ids; split; auto|].
      rewrite app_assoc. apply (Wire r _ S').
    - intros (rt' & l & _ & Ert & M & ->). inv Ert. apply answer_ids_spec in M; auto. destruct M as (ids & A & N & ->).
      destruct (Tail ids A N) as (r' & T & Q' & S'). rewrite A. cbn [bind]. rewrite (proj2 (B ids) N). exists r'. split; [exact T|]. split; [exact Q'|].
      rewrite app_assoc. apply (Wire r' _ S').
  Qed.

  (** Why a positive answer cannot be made: nowhere to send it, no endpoint to name, a claimed
      identifier in OpenID 1, or identifiers that were not asked for.  The last is a ValueError, or what
      normalization of the two identifiers raises. *)
  Theorem C36_no_answer : forall query ep x c server_url identity claimed now salt y,
    NoDup (map fst query) -> decode e reg params_ok query ep x = DOk (Some (RCheckID c)) ->
    CheckID_answer e c true server_url identity claimed now salt = Raise y ->
    (absent (wire_value query (u "return_to")) /\ y = NoReturnToError) \/
    (asks_v2 query = true /\ absent (or_else server_url (Some ep)) /\ y = RuntimeError) \/
    (asks_v2 query = false /\ ~ absent claimed /\ y = VersionError) \/
    (answerable query ep server_url claimed /\
     (forall ids, ~ may_assert (asks_v2 query) (wire_value query (u "identity")) (wire_value query (u "claimed_id")) identity claimed ids) /\
     (y = ValueError \/
      exists a b, wire_value query (u "identity") = Some a /\ identity = Some b /\ a <> b /\ (urinorm e a = Raise y \/ urinorm e b = Raise y))).
  Proof using.
    intros query ep x c server_url identity claimed now salt y Hn H R.
    pose proof (C36_positive_answer query ep x c server_url identity claimed now salt Hn H) as C36.
    pose proof (decoded_ok _ _ _ _ Hn H) as D. destruct D as [F V2 V1 De Di Dc Dr Dh Dt Dm I2 I1].
    assert (answerable query ep server_url claimed -> forall ids, ~ may_assert (asks_v2 query) (wire_value query (u "identity")) (wire_value query (u "claimed_id")) identity claimed ids) as No.
    { intros A ids M. destruct A as (A1 & A2). apply not_absent in A1 as (rt & Rt & Nrt).
      edestruct C36 as (_ & K). destruct K as (r & X & _); [exists rt, ids; split; [split; auto; apply not_absent; eauto|]; split; [exact Rt|]; split; [exact M|reflexivity]|]. congruence. }
    rewrite <- Di in *. rewrite <- Dc in *. unfold answerable in *. rewrite <- Dr in *. unfold CheckID_answer in R.
    destruct (ci_return_to c) as [rt|] eqn:Rt; [|inv R; left; split; [left|]; auto].
    destruct (truthy rt) eqn:Trt; cbn [negb] in R; [|inv R; apply truthy_false in Trt; subst rt; left; split; [right|]; auto].
    apply truthy_true in Trt. rewrite De, V1, negb_involutive, endpoint_eq in R.
    set (ep' := or_else server_url (Some ep)) in *.
    destruct (asks_v2 query && negb (otruthy ep')) eqn:Ep; cbn [bind] in R.
    { inv R. apply andb_true_iff in Ep as (E1 & E2). apply negb_true_iff, otruthy_false in E2. right. left. auto. }
    destruct (fields_new query c Hn F) as (r0 & oid & E0 & Q0 & S0 & Ov). rewrite E0 in R. cbn [bind] in R.
    destruct (otruthy claimed && negb (asks_v2 query)) eqn:Cl; cbn [bind] in R.
    { inv R. apply andb_true_iff in Cl as (E1 & E2). apply negb_true_iff in E2. right. right. left. split; auto. split; auto. intros X. apply otruthy_false in X. congruence. }
    assert (~ absent (Some rt) /\ (asks_v2 query = true -> ~ absent ep') /\ (asks_v2 query = false -> absent claimed)) as Ans.
    { split; [intros [X|X]; congruence|]. split.
      - intros X. rewrite X in Ep. cbn [andb] in Ep. apply negb_false_iff in Ep. intros Y. apply otruthy_false in Y. congruence.
      - intros X. rewrite X in Cl. rewrite andb_true_r in Cl. apply otruthy_false. auto. }
    right. right. right. split; [exact Ans|]. split; [apply No; exact Ans|]. specialize (No Ans).
    destruct (answer_ids e c identity claimed) as [ids|z] eqn:A; cbn [bind] in R.
    - destruct (negb (asks_v2 query) && match ids with None => true | Some _ => false end) eqn:N; [inv R; auto|]. exfalso.
      eapply No. apply answer_ids_spec; [exact I2|]. exists ids. split; [exact A|]. split; [|reflexivity].
      intros X. rewrite X in N. destruct ids; [discriminate|]. discriminate.
    - inv R. clear - A. unfold answer_ids in A. destruct (idSelect c).
      + destruct identity as [i|]; [destruct (truthy i); inv A|inv A]; auto.
      + destruct (ci_identity c) as [i|]; [|destruct (otruthy identity); inv A; auto].
        destruct (truthy i); [|destruct (otruthy identity); inv A; auto].
        destruct identity as [j|]; [|discriminate A]. destruct (truthy j && negb (text_eqb i j)) eqn:Q; [|discriminate A].
        apply andb_true_iff in Q as (_ & Q). apply negb_true_iff, text_eqb_neq in Q.
        destruct (urinorm e i) as [a|z] eqn:Ui; cbn [bind] in A; [|inv A; right; exists i, j; auto].
        destruct (urinorm e j) as [b|z] eqn:Uj; cbn [bind] in A; [|inv A; right; exists i, j; auto].
        destruct (text_eqb a b); inv A. auto.
  Qed.

  (** *** Refusals *)
  Lemma update_opt oid l : forall m kvs, simple reg m oid kvs ->
    NoDup (map fst l) -> (forall k, In k (map fst l) -> ~ In k (map fst kvs) /\ k <> u "ns") ->
    forall m', updateArgsOpt m l = Ok m' -> exists kvs', l = map (fun kv => (fst kv, Some (snd kv))) kvs' /\ simple reg m' oid (kvs ++ kvs').
  Proof using.
    unfold updateArgsOpt. intros m kvs S D H m' E. rewrite (core_fix m oid) in E by apply S. cbn [bind] in E.
    revert m kvs S D H E. induction l as [|[k [v|]] l IH]; intros m kvs S D H E; cbn [foldM fst snd] in E; [|binv E|discriminate].
    { inv E. exists []. rewrite app_nil_r. auto. }
    apply NoDup_cons_iff in D as (D0 & D). destruct (H k) as (H1 & H2); [left; auto|].
    destruct (simple_set reg m oid kvs k v S H1 H2) as (m1 & E1 & S1).
    assert (setArg m (nsarg_of (Uri oid)) k v = setArg m OPENID_NS k v) as X.
    { unfold setArg, nsarg_of. rewrite (core_fix m oid) by apply S. rewrite fixNS_uri; auto. destruct S as [(_ & _ & X) _ _ _ _]. auto. }
    rewrite X, E1 in E0. inv E0. destruct (IH a (kvs ++ [(k, v)]) S1 D) as (l' & -> & S2); auto.
    - intros j I. destruct (H j) as (J1 & J2); [right; auto|]. split; auto. rewrite map_app, in_app_iff. intros [Y|[Y|[]]]; auto. cbn in Y. subst j. apply D0. exact I.
    - exists ((k, v) :: l'). split; auto. rewrite <- app_assoc in S2. exact S2.
  Qed.

  (** The parameters of the request as it is sent again by the user, with setup. *)
  Definition setup_params (query : list (text * text)) : list (text * option text) :=
    [(u "mode", Some (u "checkid_setup")); (u "identity", wire_value query (u "identity"));
     (u "claimed_id", wire_value query (u "claimed_id")); (u "return_to", wire_value query (u "return_to"));
     (if asks_v2 query then u "realm" else u "trust_root",
      or_else (wire_value query (if asks_v2 query then u "realm" else u "trust_root")) (wire_value query (u "return_to")))] ++
    match wire_value query (u "assoc_handle") with Some ((_ :: _) as h) => [(u "assoc_handle", Some h)] | _ => [] end.

  Theorem C37_refusal : forall query ep x c server_url identity claimed now salt r,
    NoDup (map fst query) -> decode e reg params_ok query ep x = DOk (Some (RCheckID c)) ->
    CheckID_answer e c false server_url identity claimed now salt = Ok r ->
    let v2 := asks_v2 query in
    let immediate := opt_eqb text_eqb (wire_value query (u "mode")) (Some (u "checkid_immediate")) in
    rs_request r = RCheckID c /\ answerable query ep server_url claimed /\
    exists setup, 
      toPostArgs (rs_fields r) = (if v2 then [(u "openid.ns", OPENID2_NS)] else []) ++ on_wire ((u "mode", 
          if immediate then if v2 then u "setup_needed" else u "id_res" else u "cancel") :: setup) /\
      (immediate = false -> setup = []) /\
      (immediate = true -> exists url m kvs s, setup = [(u "user_setup_url", url)] /\ or_else server_url (Some ep) = Some s /\ toURL m s = Ok url /\
         setup_params query = map (fun kv => (fst kv, Some (snd kv))) kvs /\
         toPostArgs m = (if v2 then [(u "openid.ns", OPENID2_NS)] else []) ++ on_wire kvs) /\
      needsSigning r = Ok (immediate && negb v2).
  Proof using.
    intros query ep x c server_url identity claimed now salt r Hn H A v2 immediate. pose proof (decoded_ok _ _ _ _ Hn H) as D.
    destruct D as [F V2 V1 De Di Dc Dr Dh Dt Dm I2 I1]. fold v2 in V2, V1, Dt.
    assert (immediate = ci_immediate c) as Im. { unfold immediate. rewrite Dm. destruct (ci_immediate c); reflexivity. }
    unfold CheckID_answer in A. destruct (ci_return_to c) as [rt|] eqn:Rt; [|discriminate].
    destruct (truthy rt) eqn:Trt; cbn [negb] in A; [|discriminate].
    apply truthy_true in Trt. rewrite De, V1, negb_involutive, endpoint_eq in A.
    set (ep' := or_else server_url (Some ep)) in *.
    destruct (v2 && negb (otruthy ep')) eqn:Ep; cbn [bind] in A; [discriminate|].
    destruct (fields_new query c Hn F) as (r0 & oid & E0 & Q0 & S0 & Ov). rewrite E0 in A. cbn [bind] in A. fold v2 in Ov.
    destruct (otruthy claimed && negb v2) eqn:Cl; cbn [bind] in A; [discriminate|].
    assert (answerable query ep server_url claimed) as Ans.
    { unfold answerable. fold v2 ep'. rewrite <- Dr. split; [intros [X|X]; congruence|]. split.
      - intros X. rewrite X in Ep. cbn [andb] in Ep. apply negb_false_iff in Ep. intros Y. apply otruthy_false in Y. congruence.
      - intros X. rewrite X in Cl. rewrite andb_true_r in Cl. apply otruthy_false. auto. }
    destruct (field_add r0 oid [] (u "mode") (answer_mode c false) S0) as (r1 & E1 & Q1 & S1); [intros []|discriminate|].
    rewrite E1 in A. cbn [bind app] in A, S1.
    assert (answer_mode c false = if immediate then if v2 then u "setup_needed" else u "id_res" else u "cancel") as Am.
    { unfold answer_mode. rewrite V1, Im. destruct v2, (ci_immediate c); auto. }
    rewrite Am in S1.
    assert (forall r l, simple reg (rs_fields r) oid l -> toPostArgs (rs_fields r) = (if v2 then [(u "openid.ns", OPENID2_NS)] else []) ++ on_wire l) as Wire.
    { intros r' l S. rewrite (si_post _ _ _ _ S). unfold ns_param. rewrite Ov. auto. }
    assert (forall r l, simple reg (rs_fields r) oid ((u "mode", if immediate then if v2 then u "setup_needed" else u "id_res" else u "cancel") :: l) ->
              needsSigning r = Ok (immediate && negb v2)) as Ns.
    { intros r' l S. unfold needsSigning. rewrite (simple_get _ _ _ _ _ S). cbn [dget fst bind]. destruct immediate, v2; reflexivity. }
    destruct (ci_immediate c) eqn:Ic.
    2:{ inv A. split; [congruence|]. split; auto. exists []. split; [apply Wire; auto|]. split; auto. split; [congruence|]. eapply Ns; eauto. }
    destruct (negb v2 && negb (otruthy ep')) eqn:Se; [discriminate|].
    assert (exists s, ep' = Some s /\ s <> []) as (s & Es & Ns').
    { apply otruthy_true. destruct v2; cbn in *; apply negb_false_iff; auto. }
    rewrite Es in A. destruct (dres_res _) as [s1|] eqn:Rs; cbn [bind] in A; [|discriminate].
    assert (ci_identity s1 = ci_identity c /\ ci_claimed_id s1 = ci_claimed_id c /\ ci_return_to s1 = Some rt /\ ci_trust_root s1 = ci_trust_root c /\ ci_assoc_handle s1 = ci_assoc_handle c /\ ci_immediate s1 = false) as (J1 & J2 & J3 & J4 & J5 & J6).
    { unfold CheckIDRequest in Rs. destruct (dlift _) as [m0| |]; cbn [dbind dres_res] in Rs; try discriminate.
      destruct (if isOpenID1 m0 then _ else _); [discriminate|]. destruct (isOpenID2 m0 && _); [discriminate|]. cbv zeta in Rs.
      destruct (dbind (dlift (parse e rt)) _) as [wf| |]; cbn [dbind dres_res] in Rs; try discriminate. destruct wf; cbn [negb] in Rs; [|discriminate].
      destruct (trustRootValid e _) as [ok| |]; cbn [dbind dres_res] in Rs; try discriminate. destruct ok; cbn [negb dres_res] in Rs; [|discriminate]. inv Rs.
      cbn [ci_identity ci_claimed_id ci_return_to ci_trust_root ci_assoc_handle ci_immediate]. repeat split; auto.
      rewrite Dt, Rt || rewrite Dt. rewrite text_or_else, <- Dr. destruct (or_else (wire_value query _) (Some rt)) as [[|]|] eqn:O; auto.
      - destruct (wire_value query (if v2 then u "realm" else u "trust_root")) as [[|]|]; cbn in O; congruence.
      - destruct (wire_value query (if v2 then u "realm" else u "trust_root")) as [[|]|]; cbn in O; congruence. }
    binv A. unfold CheckID_encodeToURL in E. cbn [ci_identity ci_claimed_id ci_return_to ci_trust_root ci_assoc_handle ci_immediate ci_message] in E.
    rewrite J1, J2, J3, J4, J5, J6, V1 in E. assert (otruthy (Some rt) = true) as Ot by (apply otruthy_true; eauto). rewrite Ot in E. cbn [negb] in E.
    destruct (fromPostArgs_ver _ _ _ F Hn) as (Vn & An). destruct (simple_new reg _ An) as (m0 & En & Sn). rewrite Vn, En in E. cbn [bind] in E.
    assert (oid = oid_of (openid_part query)) as ->.
    { destruct S0 as [(_ & X & _) _ _ _ _]. clear - E0 X Vn An. unfold OpenIDResponse in E0. cbn [request_message] in E0. rewrite Vn in E0. binv E0. inv E0. cbn [rs_fields] in X.
      destruct (newMessage_ok (oid_of (openid_part query)) (mem_text (oid_of (openid_part query)) OPENID1_NAMESPACES) An) as (m & E1).
      assert (m = a) as -> by (change (newMessage (Some (oid_of (openid_part query))) (Some (mem_text (oid_of (openid_part query)) OPENID1_NAMESPACES))) with (newMessage (Some (oid_of (openid_part query))) None) in E1; congruence).
      apply newMessage_Some in E1 as (_ & _ & _ & N & _). apply N in X. apply X. }
    destruct (updateArgsOpt m0 _) as [m2|] eqn:U in E; [|discriminate]. cbn [bind] in E.
    destruct (field_add r1 _ _ (u "user_setup_url") a S1) as (r2 & E2 & Q2 & S2); [fresh_key|discriminate|]. rewrite E2 in A. inv A.
    split; [congruence|]. split; auto. exists [(u "user_setup_url", a)]. split; [apply (Wire r _ S2)|]. split; [congruence|]. split; [|eapply (Ns r); exact S2].
    intros _. exists a, m2.
    match type of U with updateArgsOpt _ ?l = _ => assert (l = setup_params query) as L end.
    { unfold setup_params. fold v2. rewrite <- Di, <- Dc, <- Dr, <- Dh, Dt, <- Dr.
      assert (otruthy (or_else (wire_value query (if v2 then u "realm" else u "trust_root")) (Some rt)) = true) as Q.
      { destruct (wire_value query (if v2 then u "realm" else u "trust_root")) as [[|]|]; auto. }
      rewrite Q. destruct v2; cbn [app negb]; repeat f_equal; destruct (ci_assoc_handle c) as [[|]|]; auto. }
    rewrite L in U.
    destruct (update_opt _ (setup_params query) m0 [] Sn) with (m' := m2) as (kvs & K1 & K2); auto.
    { unfold setup_params. fold v2. destruct v2, (wire_value query (u "assoc_handle")) as [[|]|]; cbn [app map fst]; repeat constructor; fresh_key. }
    { intros k I. split; [intros []|]. assert (In k [u "mode"; u "identity"; u "claimed_id"; u "return_to"; u "realm"; u "trust_root"; u "assoc_handle"]) as J.
      { revert I. unfold setup_params. clear. destruct (asks_v2 query), (wire_value query (u "assoc_handle")) as [[|]|]; cbn [app map fst In]; tauto. }
      destruct J as [<-|[<-|[<-|[<-|[<-|[<-|[<-|[]]]]]]]]; discriminate. }
    exists kvs, s. split; auto. split; auto. split; auto. split; auto.
    rewrite (si_post _ _ _ _ K2). cbn [app]. unfold ns_param. rewrite Ov. auto.
  Qed.

  (** Outside immediate mode every answerable request can be refused. *)
  Theorem C37_setup_refusal : forall query ep x c server_url identity claimed now salt,
    NoDup (map fst query) -> decode e reg params_ok query ep x = DOk (Some (RCheckID c)) ->
    wire_value query (u "mode") = Some (u "checkid_setup") -> answerable query ep server_url claimed ->
    exists r, CheckID_answer e c false server_url identity claimed now salt = Ok r.
  Proof using.
    intros query ep x c server_url identity claimed now salt Hn H M (A1 & A2 & A3). pose proof (decoded_ok _ _ _ _ Hn H) as D.
    destruct D as [F V2 V1 De Di Dc Dr Dh Dt Dm I2 I1]. rewrite <- Dr in A1. apply not_absent in A1 as (rt & Rt & Nrt).
    unfold CheckID_answer. rewrite Rt. apply truthy_true in Nrt. rewrite Nrt. cbn [negb]. rewrite De, V1, negb_involutive, endpoint_eq.
    assert (asks_v2 query && negb (otruthy (or_else server_url (Some ep))) = false) as ->.
    { destruct (asks_v2 query); auto. cbn [andb]. apply negb_false_iff, otruthy_true, not_absent. auto. }
    cbn [bind]. destruct (fields_new query c Hn F) as (r0 & oid & E0 & Q0 & S0 & Ov). rewrite E0. cbn [bind].
    assert (otruthy claimed && negb (asks_v2 query) = false) as ->.
    { destruct (asks_v2 query); [apply andb_false_r|]. rewrite andb_true_r. apply otruthy_false. auto. }
    destruct (field_add r0 oid [] (u "mode") (answer_mode c false) S0) as (r1 & E1 & _); [intros []|discriminate|]. rewrite E1. cbn [bind].
    assert (ci_immediate c = false) as ->; eauto. rewrite M in Dm. destruct (ci_immediate c); auto. injection Dm as Dm. discriminate.
  Qed.

  (** An immediate request of OpenID 1 is not refused without an address for the user to go to. *)
  Theorem C37_no_setup_url : forall query ep x c server_url identity claimed now salt,
    NoDup (map fst query) -> decode e reg params_ok query ep x = DOk (Some (RCheckID c)) ->
    wire_value query (u "mode") = Some (u "checkid_immediate") -> asks_v2 query = false -> answerable query ep server_url claimed ->
    absent (or_else server_url (Some ep)) ->
    CheckID_answer e c false server_url identity claimed now salt = Raise ValueError.
  Proof using.
    intros query ep x c server_url identity claimed now salt Hn H M A0 (A1 & A2 & A3) Ab. pose proof (decoded_ok _ _ _ _ Hn H) as D.
    destruct D as [F V2 V1 De Di Dc Dr Dh Dt Dm I2 I1]. rewrite <- Dr in A1. apply not_absent in A1 as (rt & Rt & Nrt).
    unfold CheckID_answer. rewrite Rt. apply truthy_true in Nrt. rewrite Nrt. cbn [negb]. rewrite De, V1, negb_involutive, endpoint_eq, A0. cbn [andb bind negb].
    destruct (fields_new query c Hn F) as (r0 & oid & E0 & Q0 & S0 & Ov). rewrite E0. cbn [bind].
    rewrite (proj2 (otruthy_false claimed)) by auto. cbn [andb].
    destruct (field_add r0 oid [] (u "mode") (answer_mode c false) S0) as (r1 & E1 & _); [intros []|discriminate|]. rewrite E1. cbn [bind].
    assert (ci_immediate c = true) as ->. { rewrite M in Dm. destruct (ci_immediate c); auto. injection Dm as Dm. discriminate. }
    rewrite (proj2 (otruthy_false _)) by exact Ab. reflexivity.
  Qed.
End Answer.
Print Assumptions C36_positive_answer.
Print Assumptions C36_no_answer.
Print Assumptions C37_no_setup_url.
Print Assumptions C37_refusal.
Print Assumptions C37_setup_refusal.

Definition op : text := u "http://op.example/".
Definition decoded_id (query : list (text * text)) : option checkid :=
  match decode plain_env [] (fun _ _ => true) query op 1 with DOk (Some (RCheckID c)) => Some c | _ => None end.
Definition says (query : list (text * text)) (allow : bool) (identity claimed : option text) : res (list (text * text)) :=
  match decoded_id query with
  | Some c => r <- CheckID_answer plain_env c allow None identity claimed 1700000000%Z (u "s") ;; Ok (toPostArgs (rs_fields r))
  | None => Raise TypeError
  end.
Definition select_query : list (text * text) :=
  dset text_eqb (u "openid.identity") IDENTIFIER_SELECT (dset text_eqb (u "openid.claimed_id") IDENTIFIER_SELECT login_query).
Example C36_example :
  says login_query true None None =
    Ok [(u "openid.ns", OPENID2_NS); (u "openid.mode", u "id_res"); (u "openid.return_to", u "http://rp.example/back?x=1");
        (u "openid.response_nonce", u "2023-11-14T22:13:20Zs"); (u "openid.op_endpoint", op);
        (u "openid.identity", u "http://me.example/"); (u "openid.claimed_id", u "http://me.example/")] /\
  says login_query true (Some (u "http://me.example")) None = says login_query true None None /\
  says login_query true (Some (u "http://you.example/")) None = Raise ValueError /\
  says select_query true None None = Raise ValueError /\
  says select_query true (Some (u "http://me.example/")) (Some (u "http://me.example/#1")) =
    Ok [(u "openid.ns", OPENID2_NS); (u "openid.mode", u "id_res"); (u "openid.return_to", u "http://rp.example/back?x=1");
        (u "openid.response_nonce", u "2023-11-14T22:13:20Zs"); (u "openid.op_endpoint", op);
        (u "openid.identity", u "http://me.example/"); (u "openid.claimed_id", u "http://me.example/#1")].
Proof. split; [vm_compute; reflexivity|]. split; [vm_compute; reflexivity|]. split; [vm_compute; reflexivity|]. split; [vm_compute; reflexivity|vm_compute; reflexivity]. Qed.

Definition immediate (query : list (text * text)) := dset text_eqb (u "openid.mode") (u "checkid_immediate") query.
Definition login1_query : list (text * text) :=
  [(u "openid.mode", u "checkid_setup"); (u "openid.identity", u "http://me.example/"); (u "openid.return_to", u "http://rp.example/back")].
Example C37_example :
  says login_query false None None = Ok [(u "openid.ns", OPENID2_NS); (u "openid.mode", u "cancel")] /\
  says login1_query false None None = Ok [(u "openid.mode", u "cancel")] /\
  (exists t, says (immediate login_query) false None None =
     Ok [(u "openid.ns", OPENID2_NS); (u "openid.mode", u "setup_needed"); (u "openid.user_setup_url", t)]).
Proof. split; [vm_compute; reflexivity|]. split; [vm_compute; reflexivity|]. eexists. vm_compute. reflexivity. Qed.

(** ** C83: some immediate requests cannot be refused: an OpenID 1 request has no
    claimed_id, an OpenID 2 request may ask about no identifier at all. *)
Definition no_identifier (query : list (text * text)) := ddel text_eqb (u "openid.identity") (ddel text_eqb (u "openid.claimed_id") query).
Theorem C83_every_request_can_be_refused_refuted :
  exists q1 q2, (exists c, decoded_id q1 = Some c) /\ says q1 false None None = Raise ServerProtocolError /\
                (exists c, decoded_id q2 = Some c) /\ says q2 false None None = Raise AssertionError.
Proof.
  exists (immediate login1_query), (immediate (no_identifier login_query)).
  split; [eexists; vm_compute; reflexivity|]. split; [vm_compute; reflexivity|]. split; [eexists; vm_compute; reflexivity|vm_compute; reflexivity].
Qed.
Print Assumptions C83_every_request_can_be_refused_refuted.

(** ** C84: a refusal of an OpenID 1 immediate request has mode id_res and is signed like
    an assertion (it has no identity). *)
Theorem C84_refusals_are_not_signed_refuted :
  exists query c r, decoded_id query = Some c /\ CheckID_answer plain_env c false None None None 0%Z [] = Ok r /\ needsSigning r = Ok true.
Proof.
  exists (immediate (dset text_eqb (u "openid.claimed_id") (u "http://me.example/") login1_query)).
  do 2 eexists. split; [vm_compute; reflexivity|]. split; [vm_compute; reflexivity|vm_compute; reflexivity].
Qed.
Print Assumptions C84_refusals_are_not_signed_refuted.

(** ** C85: queries from the network that make the decoder raise something other than a ProtocolError. *)
Definition ip6_env : uenv := mkUenv (fun t => text_eqb t (u "::1")) (fun _ => true) (fun _ => None).
Theorem C85_decoder_raises_only_protocol_errors_refuted :
  exists q1 q2 q3, forall reg,
    decode plain_env reg (fun _ _ => true) q1 op 1 = DRaise AssertionError /\
    decode plain_env reg (fun _ _ => true) q2 op 1 = DRaise AttributeError /\
    decode ip6_env reg (fun _ _ => true) q3 op 1 = DRaise ValueError.
Proof.
  exists [(u "openid.ns.mode", u "x")],
    (dset text_eqb (u "openid.return_to") (u "http://:80/") (ddel text_eqb (u "openid.realm") login_query)),
    (dset text_eqb (u "openid.return_to") (u "http://[::1]/") (ddel text_eqb (u "openid.realm") login_query)).
  intros reg. split; [vm_compute; reflexivity|]. split; [vm_compute; reflexivity|vm_compute; reflexivity].
Qed.
Print Assumptions C85_decoder_raises_only_protocol_errors_refuted.
