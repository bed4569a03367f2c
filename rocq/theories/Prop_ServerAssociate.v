(** C39: associate requests. *)
From Coq Require Import Lia ZifyBool ZifyN ZifyNat Permutation.
From Verif Require Import Py PyFacts Utf8 KVForm CryptUtil CryptUtilFacts DH DHFacts Message MessageFacts MessageParse MessageSpec MessageRound MessageSimple Association AssociationFacts.
From Verif Require Import UrlLib UriNorm OidUtil TrustRoot Nonce Store StoreSpec Server Prop_Message Prop_Association Prop_Association2.
From Verif Require Import ServerFacts Prop_ServerDecode Prop_ServerAnswer.
Open Scope N_scope.
Local Arguments u : simpl never.

Definition or_text (o : option text) (d : text) : text := match o with Some ((_ :: _) as t) => t | _ => d end.
Definition given_text (o : option text) (d : text) : text := match o with Some t => t | None => d end.
(** The types a request names: OpenID 1 has defaults for both. *)
Definition names_types (query : list (text * text)) (at_ st : text) : Prop :=
  if asks_v2 query
  then wire_value query (u "session_type") = Some st /\ wire_value query (u "assoc_type") = Some at_
  else st = or_text (wire_value query (u "session_type")) (u "no-encryption") /\
       at_ = given_text (wire_value query (u "assoc_type")) (u "HMAC-SHA1").
(** The group a request names. *)
Definition names_group (query : list (text * text)) (p g : Z) : Prop :=
  exists m b, base64ToLong m = Ok p /\ base64ToLong b = Ok g /\
    ((wire_value query (u "dh_modulus") = Some m /\ wire_value query (u "dh_gen") = Some b) \/
     (m = DEFAULT_DH_MODULUS /\ b = DEFAULT_DH_GENERATOR /\
      ((wire_value query (u "dh_modulus") = None /\ wire_value query (u "dh_gen") = None) \/
       (wire_value query (u "dh_modulus") = Some [] /\ wire_value query (u "dh_gen") = Some [])))).

Section Associate.
  Variable e : uenv.
  Variable reg : dict text text.
  Variable params_ok : Z -> Z -> bool.

  Theorem C39_decode : forall query ep x c, NoDup (map fst query) ->
    decode e reg params_ok query ep x = DOk (Some (RAssociate c)) ->
    fromPostArgs reg query = Ok (as_message c) /\
    wire_value query (u "mode") = Some (u "associate") /\
    names_types query (as_assoc_type c) (session_type (as_session c)) /\
    valid_pair (as_assoc_type c) (session_type (as_session c)) /\
    match as_session c with
    | PlainText => True
    | DHSession _ d k => wire_value query (u "dh_consumer_public") = Some k /\ (exists b, fromBase64 k = Ok b) /\
                         dh_x d = x /\ names_group query (dh_p d) (dh_g d) /\ params_ok (dh_p d) (dh_g d) = true
    end.
  Proof using.
    intros query ep x c Hn H. destruct (decode_inv _ _ _ _ _ _ _ H Hn) as (m & mode & F & Hm & -> & C).
    destruct (query_version reg query m Hn F) as (V2 & V1).
    assert (as_message c = m) as EM.
    { unfold Associate_fromMessage in C. destruct (if isOpenID1 m then _ else _) as [[st at_]| |]; cbn [dbind] in C; try discriminate.
      match type of C with context[match ?o with Some _ => _ | None => _ end] => destruct o as [[s|z]|] end; try discriminate.
      - destruct (negb _); inv C; auto.
      - destruct z; try discriminate C; destruct (isValueError _); discriminate C. }
    rewrite EM. split; auto. split; auto.
    unfold Associate_fromMessage in C. rewrite V1 in C.
    assert (forall k, ~ In 46 k -> k <> u "ns" -> getArg m (NS OPENID2_NS) k = getArg m OPENID_NS k \/ asks_v2 query = false) as G2.
    { intros k _ _. destruct (asks_v2 query) eqn:Q; auto. left.
      destruct (fromPostArgs_ver _ _ _ F Hn) as (V & A). unfold isOpenID2 in V2. rewrite V in V2. cbn [opt_eqb] in V2.
      apply text_eqb_eq in V2. rewrite V2 in *. unfold getArg. rewrite (core_fix m OPENID2_NS).
      - rewrite fixNS_uri; auto. discriminate.
      - eapply built_core; eauto. eapply b_parse; eauto. }
    match type of C with dbind ?t _ = _ => destruct t as [[st at_]| |] eqn:T end; cbn [dbind fst snd] in C; try discriminate.
    assert (names_types query at_ st) as NT.
    { unfold names_types. destruct (asks_v2 query) eqn:Q; cbn [negb] in T.
      - destruct (G2 (u "session_type")) as [X1|]; try simple_key. destruct (G2 (u "assoc_type")) as [X2|]; try simple_key.
        rewrite X1, X2 in T. clear X1 X2.
        rewrite !(field_of reg query m _ Hn F) in T by simple_key. cbn [dlift dbind] in T.
        destruct (wire_value query (u "session_type")); [|discriminate]. cbn [dbind] in T. destruct (wire_value query (u "assoc_type")); inv T. auto.
      - unfold getArgDef in T. rewrite !(field_of reg query m _ Hn F) in T by simple_key. cbn [dlift dbind bind] in T.
        unfold or_text, given_text. destruct (wire_value query (u "session_type")) as [[|]|], (wire_value query (u "assoc_type")) as [a|];
          cbn [dlift dbind bind truthy] in T; inv T; auto. }
    clear T G2.
    assert (forall alg s, DH_fromMessage params_ok alg m x = Ok s ->
      match s with
      | PlainText => False
      | DHSession alg' d k => alg' = alg /\ wire_value query (u "dh_consumer_public") = Some k /\ (exists b, fromBase64 k = Ok b) /\
                         dh_x d = x /\ names_group query (dh_p d) (dh_g d) /\ params_ok (dh_p d) (dh_g d) = true
      end) as DHS.
    { intros alg s D. unfold DH_fromMessage in D. rewrite !(field_of reg query m _ Hn F) in D by simple_key. cbn [bind] in D.
      unfold server_fromMessage, fromDefaults, DiffieHellman in D. unfold names_group.
      assert (forall mm gg d, (p <- base64ToLong mm;; g <- base64ToLong gg;; (if params_ok p g then Ok (mkDH p g x) else Raise ValueError)) = Ok d ->
                base64ToLong mm = Ok (dh_p d) /\ base64ToLong gg = Ok (dh_g d) /\ dh_x d = x /\ params_ok (dh_p d) (dh_g d) = true) as X.
      { intros mm gg d X. binv X. binv X. destruct (params_ok a a0) eqn:P; inv X. auto. }
      destruct (wire_value query (u "dh_modulus")) as [mm|], (wire_value query (u "dh_gen")) as [gg|]; try discriminate D.
      - destruct (otruthy (Some mm) || otruthy (Some gg)) eqn:O.
        + binv D. binv E. apply X in E0 as (X1 & X2 & X3 & X4). destruct (wire_value query (u "dh_consumer_public")) as [k|]; [|discriminate].
          binv E. inv E. cbn [fst snd] in D. inv D. split; auto. split; auto. split; [eauto|]. split; auto. split; auto.
          exists mm, gg. auto.
        + binv D. binv E. apply X in E0 as (X1 & X2 & X3 & X4). destruct (wire_value query (u "dh_consumer_public")) as [k|]; [|discriminate].
          binv E. inv E. cbn [fst snd] in D. inv D. split; auto. split; auto. split; [eauto|]. split; auto. split; auto.
          exists DEFAULT_DH_MODULUS, DEFAULT_DH_GENERATOR. split; auto. split; auto. right. split; auto. split; auto. right.
          destruct mm, gg; cbn [otruthy truthy orb negb] in O; try discriminate O; split; reflexivity.
      - cbn [otruthy orb] in D. binv D. binv E. apply X in E0 as (X1 & X2 & X3 & X4).
        destruct (wire_value query (u "dh_consumer_public")) as [k|]; [|discriminate].
        binv E. inv E. cbn [fst snd] in D. inv D. split; auto. split; auto. split; [eauto|]. split; auto. split; auto.
        exists DEFAULT_DH_MODULUS, DEFAULT_DH_GENERATOR. split; auto. split; auto. right. split; auto. }
    assert (forall o, match o with
      | Some (Ok s) => if negb (mem_text at_ (allowed_assoc_types s)) then DErr ServerProtocolError (Some m) else DOk (mkAssociate m s at_)
      | Some (Raise ServerProtocolError) => DErr ServerProtocolError (Some m)
      | Some (Raise z) => if isValueError z then DErr ServerProtocolError (Some m) else DRaise z
      | None => DErr ServerProtocolError (Some m)
      end = DOk c -> exists s, o = Some (Ok s) /\ c = mkAssociate m s at_ /\ In at_ (allowed_assoc_types s)) as Y.
    { intros [[s|z]|] X; [|destruct z; try discriminate X; destruct (isValueError _); discriminate X|discriminate].
      destruct (mem_text at_ (allowed_assoc_types s)) eqn:M; cbn [negb] in X; inv X. apply mem_text_In in M. eauto. }
    apply Y in C as (s & Ho & -> & Al). cbn [as_session as_assoc_type]. clear Y.
    destruct (text_eqb st (u "no-encryption")) eqn:T1; [|destruct (text_eqb st (u "DH-SHA1")) eqn:T2; [|destruct (text_eqb st (u "DH-SHA256")) eqn:T3; [|discriminate]]].
    - apply text_eqb_eq in T1. inv Ho. cbn [session_type allowed_assoc_types] in *. split; auto. split; auto.
      unfold valid_pair. destruct Al as [<-|[<-|[]]]; auto.
    - apply text_eqb_eq in T2. injection Ho as Ho. apply DHS in Ho. destruct s as [|alg d k]; [destruct Ho|]. destruct Ho as (-> & Ho).
      cbn [session_type allowed_assoc_types] in *. subst st. split; auto. split; auto. unfold valid_pair. destruct Al as [<-|[]]. auto.
    - apply text_eqb_eq in T3. injection Ho as Ho. apply DHS in Ho. destruct s as [|alg d k]; [destruct Ho|]. destruct Ho as (-> & Ho).
      cbn [session_type allowed_assoc_types] in *. subst st. split; auto. split; auto. unfold valid_pair. destruct Al as [<-|[]]. auto.
  Qed.
End Associate.
Print Assumptions C39_decode.

(** A relying party that holds the private key of the public key [k] in the same group. *)
Record key_holder (client server : dh) (k : text) : Prop := {
  kh_p : dh_p client = dh_p server;
  kh_g : dh_g client = dh_g server;
  kh_x : (0 <= dh_x client)%Z;
  kh_public : public_key client = Ok k
}.
(** The fields that carry the secret: in the clear only without encryption; otherwise
    masked, such that the key holder can take the mask off. *)
Definition carries (pub_ok : Z -> Z -> Z -> bool) (hash : hash_alg -> bytes -> bytes) (s : session) (secret : bytes) (kf : list (text * text)) : Prop :=
  match s with
  | PlainText => kf = [(u "mac_key", toBase64 secret)]
  | DHSession alg d k =>
      exists pub mac, kf = [(u "dh_server_public", pub); (u "enc_mac_key", mac)] /\ public_key d = Ok pub /\
        forall client, key_holder client d k ->
          (exists shared, mac = toBase64 (xor_bytes secret (hash alg shared)) /\ List.length secret = List.length (hash alg shared)) /\
          (pub_ok (dh_p d) (dh_g d) (public_number d) = true -> extractSecret pub_ok hash client pub mac alg = Ok secret)
  end.
(** The association made at [now] from the random strings. *)
Definition made_association (now : Z) (secret : N -> bytes) (uniq : bytes) (at_ : text) : assoc :=
  mkAssoc (u "{" ++ at_ ++ u "}{" ++ hex_of_Z now ++ u "}{" ++ toBase64 uniq ++ u "}")
          (secret (if text_eqb at_ (u "HMAC-SHA1") then 20 else 32)) now 1209600 at_.
Definition failed (o : out) : option exn := match o with Err x => Some x | _ => None end.

Section Reply.
  Variable e : uenv.
  Variable reg : dict text text.
  Variable params_ok : Z -> Z -> bool.
  Variable pub_ok : Z -> Z -> Z -> bool.
  Variable hash : hash_alg -> bytes -> bytes.
  Hypothesis params_pos : forall p g, params_ok p g = true -> (0 < p)%Z.
  Hypothesis hash_bytes : forall alg s, Forall isbyte (hash alg s).
  Hypothesis hash_size : forall alg s, len (hash alg s) = digest_size alg.

  Lemma session_carries s secret kf :
    match s with PlainText => True | DHSession _ d _ => (0 < dh_p d)%Z /\ (0 <= dh_x d)%Z end -> Forall isbyte secret ->
    session_answer pub_ok hash s secret = Ok kf -> carries pub_ok hash s secret kf.
  Proof using hash_bytes.
    intros Hs Hb H. destruct s as [|alg d k]; cbn [session_answer carries] in *; [inv H; auto|]. destruct Hs as (Hp & Hx).
    binv H. destruct a as [pub mac]. inv H. exists pub, mac. split; auto. pose proof E as E0. unfold server_answer in E0. cbn [fst snd] in E0. binv E0. binv E0. inv E0.
    split; auto. intros client [K1 K2 K3 K4].
    assert (pub_ok (dh_p d) (dh_g d) (public_number client) = true) as Po.
    { unfold xor_secret in E1. binv E1. unfold get_shared_secret in E0. unfold public_key in K4.
      destruct (longToBase64_Ok (public_number client)) as (t & L1 & L2). { unfold public_number. rewrite K1. apply Z.mod_pos_bound. auto. }
      rewrite L1 in K4. inv K4. rewrite L2 in E0. cbn [bind] in E0. destruct (pub_ok _ _ _); [auto|discriminate]. }
    destruct (server_answer_spec pub_ok hash client d k secret alg hash_bytes Hp K3 Hx K1 K2 K4 Po Hb) as (m & spub & M1 & M2 & M3).
    rewrite E in M3. destruct (Nat.eqb (length secret) (length m)) eqn:L; [|discriminate]. apply Nat.eqb_eq in L. injection M3 as -> ->.
    pose proof M1 as M0. unfold mask in M0. binv M0. injection M0 as M0.
    assert (Forall isbyte m) as Bm by (rewrite <- M0; apply hash_bytes). split.
    - exists a. rewrite M0. auto.
    - intros Po'. destruct (extractSecret_spec pub_ok hash client d spub (xor_bytes secret m) (toBase64 (xor_bytes secret m)) alg) as (m' & X1 & X2); auto.
      { apply fromBase64_toBase64. apply xor_bytes_bytes; auto. }
      assert (m' = m) as -> by congruence. rewrite X2, xor_bytes_length, L, Nat.eqb_refl by auto. f_equal. apply xor_bytes_invol; auto.
  Qed.
  Lemma session_total s secret : Forall isbyte secret -> len secret = match s with DHSession SHA1 _ _ => 20 | _ => 32 end \/ s = PlainText ->
    match s with
    | PlainText => True
    | DHSession alg d k => (0 < dh_p d)%Z /\ (0 <= dh_x d)%Z /\ exists client, key_holder client d k /\ pub_ok (dh_p d) (dh_g d) (public_number client) = true
    end -> exists kf, session_answer pub_ok hash s secret = Ok kf.
  Proof using hash_bytes hash_size.
    intros Hb Hl Hs. destruct s as [|alg d k]; cbn [session_answer]; [eauto|]. destruct Hs as (Hp & Hx & client & [K1 K2 K3 K4] & Po).
    destruct (server_answer_spec pub_ok hash client d k secret alg hash_bytes Hp K3 Hx K1 K2 K4 Po Hb) as (m & spub & M1 & M2 & M3).
    rewrite M3. assert (Nat.eqb (length secret) (length m) = true) as ->; [|cbn [bind]; eauto].
    unfold mask in M1. binv M1. injection M1 as M1. pose proof (hash_size alg a) as HS. rewrite M1 in HS. unfold len, digest_size in *.
    destruct Hl as [Hl|Hl]; [|discriminate]. apply Nat.eqb_eq. destruct alg; lia.
  Qed.

  Ltac fresh_key := cbn [map fst app In]; intros ?; repeat match goal with H : _ \/ _ |- _ => destruct H as [H|H] | H : False |- _ => destruct H end; discriminate.
  Ltac fresh_keys :=
    let k := fresh in let I := fresh in intros k I; cbn [map fst In] in I;
    repeat match type of I with _ \/ _ => destruct I as [I|I] | False => destruct I end;
    rewrite <- I; (split; [fresh_key|discriminate]).
  Ltac nodup_keys := cbn [map fst]; repeat constructor; fresh_key.

  Context {S : Type} (step : S -> Z -> Store.op -> S * out).
  (** The whole answer to an associate request, for every configuration and every store. *)
  Theorem C39_reply : forall ops query ep x c now secret uniq s s' r,
    NoDup (map fst query) -> (0 <= x)%Z -> (forall n, Forall isbyte (secret n)) ->
    decode e reg params_ok query ep x = DOk (Some (RAssociate c)) ->
    openid_associate pub_ok hash step (neg_history ops) now secret uniq c s = (s', r) ->
    let at_ := as_assoc_type c in let st := session_type (as_session c) in
    let a := made_association now secret uniq at_ in
    let plain1 := negb (asks_v2 query) && text_eqb st (u "no-encryption") in
    (In (at_, st) (neg_history ops) /\
     exists o, step s now (StoreA normal_key a) = (s', o) /\
       match failed o with
       | Some x => r = Raise x
       | None =>
           forall resp, r = Ok resp ->
             exists oid kf, carries pub_ok hash (as_session c) (a_secret a) kf /\
               text_eqb oid OPENID2_NS = asks_v2 query /\ rs_request resp = RAssociate c /\
               simple reg (rs_fields resp) oid
                 ([(u "expires_in", u "1209600"); (u "assoc_type", at_); (u "assoc_handle", a_handle a)] ++ kf ++
                  (if plain1 then [] else [(u "session_type", st)]))
       end) \/
    (~ In (at_, st) (neg_history ops) /\ s' = s /\
     if asks_v2 query then
       exists resp oid why, r = Ok resp /\ rs_request resp = RAssociate c /\
         text_eqb oid OPENID2_NS = asks_v2 query /\
         simple reg (rs_fields resp) oid
           ([(u "error_code", u "unsupported-type"); (u "error", why)] ++
            match neg_history ops with [] => [] | (at1, st1) :: _ => [(u "assoc_type", at1); (u "session_type", st1)] end)
     else r = Raise ServerProtocolError).
  Proof using params_pos hash_bytes.
    clear hash_size. intros ops query ep x c now secret uniq s s' r Hn Hx Hsec D H at_ st a plain1.
    destruct (C39_decode e reg params_ok query ep x c Hn D) as (F & _ & _ & VP & SS). fold at_ st in VP.
    destruct (fromPostArgs_ver _ _ _ F Hn) as (V & A). destruct (query_version reg query _ Hn F) as (V2 & V1).
    set (oid := oid_of (openid_part query)) in *.
    assert (text_eqb oid OPENID2_NS = asks_v2 query) as OV by (rewrite <- V2; unfold isOpenID2; rewrite V; reflexivity).
    assert (exists r0, OpenIDResponse (RAssociate c) = Ok r0 /\ rs_request r0 = RAssociate c /\ simple reg (rs_fields r0) oid []) as (r0 & E0 & Q0 & S0).
    { destruct (simple_new reg oid A) as (m & E & Sm). unfold OpenIDResponse. cbn [request_message]. rewrite V, E. cbn [bind]. eexists. split; eauto. }
    unfold openid_associate in H. fold at_ st in H.
    destruct (C40_negotiator_consistent ops) as (N1 & N2 & N3 & _).
    destruct (isAllowed (neg_history ops) at_ st) eqn:Al.
    - left. apply N2 in Al. split; auto. unfold sbind at 1, createAssociation, sbind at 1, sret at 1 in H.
      assert (getSecretSize at_ = Ok (if text_eqb at_ (u "HMAC-SHA1") then 20 else 32)) as GS.
      { unfold getSecretSize. destruct VP as [[-> _]|[-> _]]; vm_compute; reflexivity. }
      rewrite GS in H. unfold sbind at 1, sret at 1 in H.
      assert (fromExpiresIn now SECRET_LIFETIME (new_handle at_ now uniq) (secret (if text_eqb at_ (u "HMAC-SHA1") then 20 else 32)) at_ = Ok a) as FE.
      { unfold fromExpiresIn, newAssoc, a, made_association. 
        assert (mem_text at_ all_association_types = true) as M. { destruct VP as [[-> _]|[-> _]]; vm_compute; reflexivity. }
        rewrite M. reflexivity. }
      rewrite FE in H. unfold sbind at 1, store_unit in H. cbn [key_of] in H.
      destruct (step s now (StoreA normal_key a)) as [s1 o]. 
      assert (match failed o with Some y => s' = s1 /\ r = Raise y | None => s' = s1 /\ r = Associate_answer pub_ok hash c a now end) as HH.
      { destruct o; cbn [failed]; unfold sret in H; inv H; auto. }
      exists o. destruct (failed o) as [y|]; [destruct HH as (-> & ->); auto|]. destruct HH as (-> & HH). split; auto. clear H.
      intros resp Hr. rewrite Hr in HH. symmetry in HH. unfold Associate_answer in HH. rewrite E0 in HH. cbn [bind] in HH.
      assert (getExpiresIn a now = 1209600%Z) as GE. { unfold getExpiresIn. cbn [a made_association a_issued a_lifetime]. lia. }
      assert (str_of_Z (getExpiresIn a now) = u "1209600") as SE by (rewrite GE; vm_compute; reflexivity). rewrite SE in HH.
      fold at_ st in HH.
      destruct (fields_add reg r0 oid [] [(u "expires_in", u "1209600"); (u "assoc_type", at_); (u "assoc_handle", a_handle a)] S0) as (r1 & E1 & Q1 & S1).
      { nodup_keys. } { fresh_keys. }
      rewrite E1 in HH. cbn [bind] in HH. binv HH. rename a0 into kf. rename E into EK.
      assert (carries pub_ok hash (as_session c) (a_secret a) kf) as CK.
      { apply session_carries; auto. destruct (as_session c) as [|alg d k]; auto. destruct SS as (_ & _ & SX & _ & SP). split; [apply params_pos in SP; auto|lia]. apply Hsec. }
      assert (map fst kf = [u "mac_key"] \/ map fst kf = [u "dh_server_public"; u "enc_mac_key"]) as MK.
      { destruct (as_session c); cbn [carries] in CK; [rewrite CK; auto|]. destruct CK as (pub & mac & -> & _). auto. }
      destruct (fields_add reg r1 oid _ kf S1) as (r2 & E2 & Q2 & S2).
      { destruct MK as [-> | ->]; repeat constructor; fresh_key. }
      { destruct MK as [-> | ->]; fresh_keys. }
      rewrite E2 in HH. cbn [bind] in HH. exists oid, kf. split; auto. split; auto.
      rewrite V1 in HH. unfold plain1. rewrite andb_comm in HH.
      destruct (negb (asks_v2 query) && text_eqb st (u "no-encryption")).
      + inv HH. split; [congruence|]. rewrite app_nil_r. cbn [app] in S2. exact S2.
      + destruct (field_add reg r2 oid _ (u "session_type") st S2) as (r3 & E3 & Q3 & S3).
        { rewrite map_app. cbn [map fst app]. destruct MK as [-> | ->]; fresh_key. } { discriminate. }
        rewrite E3 in HH. inv HH. split; [congruence|]. rewrite app_assoc. exact S3.
    - right. assert (~ In (at_, st) (neg_history ops)) as NI by (intros X; apply N2 in X; congruence). split; auto.
      unfold sret in H. inv H. split; auto. unfold answerUnsupported. rewrite V1. destruct (asks_v2 query) eqn:Q; cbn [negb]; auto.
      rewrite E0. cbn [bind].
      match goal with |- context[setField _ (u "error") ?w] => set (why := w) end.
      destruct (field_add reg r0 oid [] (u "error_code") (u "unsupported-type") S0) as (r1 & E1 & Q1 & S1); [intros []|discriminate|]. rewrite E1. cbn [bind].
      destruct (field_add reg r1 oid _ (u "error") why S1) as (r2 & E2 & Q2 & S2); [fresh_key|discriminate|]. rewrite E2. cbn [bind].
      rewrite N3. destruct (neg_history ops) as [|[a1 t1] l]; cbn [hd_error].
      + exists r2, oid, why. split; auto. split; [congruence|]. split; auto.
      + assert (truthy a1 = true /\ truthy t1 = true) as (-> & ->).
        { destruct (N1 a1 t1 (or_introl eq_refl)) as [[-> [-> | ->]]|[-> [-> | ->]]]; auto. }
        destruct (field_add reg r2 oid _ (u "assoc_type") a1 S2) as (r3 & E3 & Q3 & S3); [fresh_key|discriminate|]. rewrite E3. cbn [bind].
        destruct (field_add reg r3 oid _ (u "session_type") t1 S3) as (r4 & E4 & Q4 & S4); [fresh_key|discriminate|]. rewrite E4.
        exists r4, oid, why. split; auto. split; [congruence|]. split; auto.
  Qed.

  (** An allowed request from a relying party that knows its own key is answered. *)
  Theorem C39_answered : forall ops query ep x c now secret uniq s s' o,
    NoDup (map fst query) -> (0 <= x)%Z -> (forall n, Forall isbyte (secret n) /\ len (secret n) = n) ->
    decode e reg params_ok query ep x = DOk (Some (RAssociate c)) ->
    In (as_assoc_type c, session_type (as_session c)) (neg_history ops) ->
    match as_session c with
    | PlainText => True
    | DHSession _ d k => exists client, key_holder client d k /\ pub_ok (dh_p d) (dh_g d) (public_number client) = true
    end ->
    step s now (StoreA normal_key (made_association now secret uniq (as_assoc_type c))) = (s', o) -> failed o = None ->
    exists resp, openid_associate pub_ok hash step (neg_history ops) now secret uniq c s = (s', Ok resp).
  Proof using params_pos hash_bytes hash_size.
    intros ops query ep x c now secret uniq s s' o Hn Hx Hsec D I Hc Hst Ho.
    destruct (C39_decode e reg params_ok query ep x c Hn D) as (F & _ & _ & VP & SS).
    set (at_ := as_assoc_type c) in *. set (st := session_type (as_session c)) in *.
    destruct (fromPostArgs_ver _ _ _ F Hn) as (V & A). set (oid := oid_of (openid_part query)) in *.
    assert (exists r0, OpenIDResponse (RAssociate c) = Ok r0 /\ rs_request r0 = RAssociate c /\ simple reg (rs_fields r0) oid []) as (r0 & E0 & Q0 & S0).
    { destruct (simple_new reg oid A) as (m & E & Sm). unfold OpenIDResponse. cbn [request_message]. rewrite V, E. cbn [bind]. eexists. split; eauto. }
    unfold openid_associate. fold at_ st.
    destruct (C40_negotiator_consistent ops) as (N1 & N2 & N3 & _). apply N2 in I. rewrite I.
    unfold sbind at 1, createAssociation, sbind at 1, sret at 1.
    assert (getSecretSize at_ = Ok (if text_eqb at_ (u "HMAC-SHA1") then 20 else 32)) as GS.
    { unfold getSecretSize. destruct VP as [[-> _]|[-> _]]; vm_compute; reflexivity. }
    rewrite GS. unfold sbind at 1, sret at 1.
    set (a := made_association now secret uniq at_) in *.
    assert (fromExpiresIn now SECRET_LIFETIME (new_handle at_ now uniq) (secret (if text_eqb at_ (u "HMAC-SHA1") then 20 else 32)) at_ = Ok a) as FE.
    { unfold fromExpiresIn, newAssoc, a, made_association.
      assert (mem_text at_ all_association_types = true) as M. { destruct VP as [[-> _]|[-> _]]; vm_compute; reflexivity. }
      rewrite M. reflexivity. }
    rewrite FE. unfold sbind at 1, store_unit. cbn [key_of]. rewrite Hst.
    assert (exists resp, Associate_answer pub_ok hash c a now = Ok resp) as (resp & R).
    { unfold Associate_answer. rewrite E0. cbn [bind]. fold at_ st.
      destruct (fields_add reg r0 oid [] [(u "expires_in", str_of_Z (getExpiresIn a now)); (u "assoc_type", at_); (u "assoc_handle", a_handle a)] S0) as (r1 & E1 & Q1 & S1).
      { nodup_keys. } { fresh_keys. }
      rewrite E1. cbn [bind].
      destruct (session_total (as_session c) (a_secret a)) as (kf & EK).
      - cbn [a made_association a_secret]. apply Hsec.
      - cbn [a made_association a_secret]. rewrite (proj2 (Hsec _)). unfold st in *.
        destruct (as_session c) as [|[|] d k]; [right; auto|left|left]; cbn [session_type] in VP;
          destruct VP as [[-> [X|X]]|[-> [X|X]]]; try discriminate X; vm_compute; reflexivity.
      - destruct (as_session c) as [|alg d k]; auto. destruct SS as (_ & _ & SX & _ & SP). split; [apply params_pos in SP; auto|]. split; [lia|]. exact Hc.
      - rewrite EK. cbn [bind].
        assert (map fst kf = [u "mac_key"] \/ map fst kf = [u "dh_server_public"; u "enc_mac_key"]) as MK.
        { destruct (as_session c); cbn [session_answer] in EK; [inv EK; auto|]. binv EK. destruct a0. inv EK. auto. }
        destruct (fields_add reg r1 oid _ kf S1) as (r2 & E2 & Q2 & S2).
        { destruct MK as [-> | ->]; repeat constructor; fresh_key. }
        { destruct MK as [-> | ->]; fresh_keys. }
        rewrite E2. cbn [bind]. destruct (_ && _); eauto.
        destruct (field_add reg r2 oid _ (u "session_type") st S2) as (r3 & E3 & _); eauto.
        { rewrite map_app. cbn [map fst app]. destruct MK as [-> | ->]; fresh_key. } { discriminate. } }
    exists resp. destruct o; cbn [failed] in Ho; try discriminate; unfold sret; rewrite R; auto.
  Qed.
End Reply.
Print Assumptions C39_reply.
Print Assumptions C39_answered.

Definition toy_hash (alg : hash_alg) (s : bytes) : bytes := repeat (fold_left (fun x y => (x * 3 + y) mod 256) s 7) (match alg with SHA1 => 20%nat | SHA256 => 32%nat end).
Definition toy_secret (n : N) : bytes := map N.of_nat (seq 1 (N.to_nat n)).
Definition one_store (s : list assoc) (_ : Z) (o : Store.op) : list assoc * out :=
  match o with StoreA _ a => (a :: s, Done) | _ => (s, Done) end.
Definition associate_query (at_ st : text) (more : list (text * text)) : list (text * text) :=
  [(u "openid.ns", OPENID2_NS); (u "openid.mode", u "associate"); (u "openid.assoc_type", at_); (u "openid.session_type", st)] ++ more.
Definition toy_params (p g : Z) : bool := (1 <? p)%Z.
Definition toy_pub (p g y : Z) : bool := ((1 <? y) && (y <? p - 1))%Z.
Definition associates (ops : list negop) (query : list (text * text)) : option (N * res (list (text * text))) :=
  match decode plain_env [] toy_params query op 5 with
  | DOk (Some (RAssociate c)) =>
      match openid_associate toy_pub toy_hash one_store (neg_history ops) 1700000000 toy_secret [1; 2; 3; 4] c [] with
      | (s, Ok r) => Some (N.of_nat (List.length s), Ok (skipn 1 (toPostArgs (rs_fields r))))
      | (s, Raise x) => Some (N.of_nat (List.length s), Raise x)
      end
  | _ => None
  end.
(** The group of the integers modulo 227 with generator 5, and its element 5^6. *)
Definition toy_group (k : text) : list (text * text) := [(u "openid.dh_modulus", u "AOM="); (u "openid.dh_gen", u "BQ=="); (u "openid.dh_consumer_public", k)].
Definition toy_client : dh := mkDH 227 5 6.
Definition both := [NSet [(u "HMAC-SHA1", u "DH-SHA1"); (u "HMAC-SHA256", u "no-encryption")]].
Example C39_example :
  associates both (associate_query (u "HMAC-SHA256") (u "no-encryption") []) =
    Some (1, Ok [(u "openid.expires_in", u "1209600"); (u "openid.assoc_type", u "HMAC-SHA256");
                 (u "openid.assoc_handle", u "{HMAC-SHA256}{6553f100}{AQIDBA==}");
                 (u "openid.mac_key", toBase64 (toy_secret 32)); (u "openid.session_type", u "no-encryption")]) /\
  associates both (associate_query (u "HMAC-SHA1") (u "no-encryption") []) =
    Some (0, Ok [(u "openid.error_code", u "unsupported-type");
                 (u "openid.error", u "Association type 'HMAC-SHA1' is not supported with session type 'no-encryption'");
                 (u "openid.assoc_type", u "HMAC-SHA1"); (u "openid.session_type", u "DH-SHA1")]) /\
  associates both (associate_query (u "HMAC-SHA256") (u "DH-SHA1") (toy_group (u "AQ=="))) = None /\
  (exists k pub mac, public_key toy_client = Ok k /\
     associates both (associate_query (u "HMAC-SHA1") (u "DH-SHA1") (toy_group k)) =
       Some (1, Ok [(u "openid.expires_in", u "1209600"); (u "openid.assoc_type", u "HMAC-SHA1");
                    (u "openid.assoc_handle", u "{HMAC-SHA1}{6553f100}{AQIDBA==}");
                    (u "openid.dh_server_public", pub); (u "openid.enc_mac_key", mac); (u "openid.session_type", u "DH-SHA1")]) /\
     extractSecret toy_pub toy_hash toy_client pub mac SHA1 = Ok (toy_secret 20) /\ mac <> toBase64 (toy_secret 20)).
Proof.
  split; [vm_compute; reflexivity|]. split; [vm_compute; reflexivity|]. split; [vm_compute; reflexivity|].
  do 3 eexists. split; [vm_compute; reflexivity|]. split; [vm_compute; reflexivity|]. split; [vm_compute; reflexivity|vm_compute; discriminate].
Qed.

(** ** C87: a public key that is no number, or not in the group, is noticed only when the
    association is already stored, and then as a ValueError that nothing catches. *)
Theorem C87_bad_public_key_is_a_protocol_error_refuted :
  exists q1 q2, associates both q1 = Some (1, Raise ValueError) /\ associates both q2 = Some (1, Raise ValueError).
Proof.
  exists (associate_query (u "HMAC-SHA1") (u "DH-SHA1") (toy_group [])), (associate_query (u "HMAC-SHA1") (u "DH-SHA1") (toy_group (u "AQ=="))).
  split; [vm_compute; reflexivity|vm_compute; reflexivity].
Qed.
Print Assumptions C87_bad_public_key_is_a_protocol_error_refuted.
