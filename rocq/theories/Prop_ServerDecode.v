(** C33: what the server accepts as an authentication request; how it reads requests. *)
From Coq Require Import Lia ZifyBool ZifyN ZifyNat.
From Verif Require Import Py PyFacts Utf8 KVForm CryptUtil DH Message MessageFacts MessageParse MessageSpec MessageRound Association AssociationFacts.
From Verif Require Import UrlLib UriNorm TrustRoot TrustRootFacts Nonce Store Server Prop_Message Prop_Association Prop_TrustRoot ServerFacts.
Open Scope N_scope.
Local Arguments u : simpl never.

(** ** Specification *)
(** An OpenID 2 query says so. *)
Definition asks_v2 (query : dict text text) : bool := opt_eqb text_eqb (wire_value query (u "ns")) (Some OPENID2_NS).
(** A parameter that is missing or empty is replaced. *)
Definition or_else (a b : option text) : option text := match a with Some (_ :: _) => a | _ => b end.
(** A URL is inside a realm. *)
Definition inside (e : uenv) (realm url : text) : Prop :=
  exists tr p host, parse e realm = Ok (Some tr) /\ parseURL e url = Ok (Some p) /\ up_host p = Some host /\
    up_scheme p = tr_proto tr /\ up_port p = tr_port tr /\ host_rule tr host /\ path_rule (tr_path tr) (up_path p).

Lemma text_or_else a b : text_or a b = or_else a b.
Proof. destruct a as [[|]|]; auto. Qed.
Lemma parse_empty e : parse e [] = Ok None.
Proof. vm_compute. reflexivity. Qed.

Lemma query_version reg query m : NoDup (map fst query) -> fromPostArgs reg query = Ok m ->
  isOpenID2 m = asks_v2 query /\ isOpenID1 m = negb (asks_v2 query).
Proof.
  intros Hn H. destruct (C16_version_detection reg query m Hn H) as (A & _ & C).
  assert (isOpenID2 m = asks_v2 query) as E.
  { apply eq_true_iff_eq. rewrite A. unfold asks_v2, wire_value. change (u "openid." ++ u "ns") with (u "openid.ns"). split.
    - intros I. apply (In_dget text_eqb text_eqb_eq) in I; auto. rewrite I. reflexivity.
    - destruct (dget text_eqb (u "openid.ns") query) as [v|] eqn:D; [|discriminate]. cbn [opt_eqb]. intros X. apply text_eqb_eq in X. subst v.
      apply (dget_In text_eqb text_eqb_eq) in D. exact D. }
  rewrite C, E. auto.
Qed.

Lemma field_of reg query m k : NoDup (map fst query) -> fromPostArgs reg query = Ok m -> ~ In 46 k -> k <> u "ns" ->
  getArg m OPENID_NS k = Ok (wire_value query k).
Proof. intros. apply (parsed_field reg); auto. Qed.
Ltac simple_key := first [discriminate | vm_compute; intuition discriminate].

Lemma inside_sound e realm tr url : parse e realm = Ok (Some tr) -> validateURL e tr url = Ok true -> inside e realm url.
Proof. intros H1 H2. destruct (C27_sound e realm tr url H1 H2) as (p & host & H). exists tr, p, host. tauto. Qed.
Lemma inside_complete e realm tr url : parse e realm = Ok (Some tr) -> inside e realm url -> validateURL e tr url = Ok true.
Proof.
  intros H1 (tr' & p & host & P & U & Hh & R). assert (tr' = tr) as -> by congruence.
  destruct (C27_exact e realm tr url p host H1 U Hh) as (b & V & B). rewrite V. f_equal. apply B. tauto.
Qed.

Section Decode.
  Variable e : uenv.
  Variable reg : dict text text.
  Variable params_ok : Z -> Z -> bool.

  (** The parts of Decoder.decode that depend on the mode. *)
  Lemma decode_inv query ep x r : decode e reg params_ok query ep x = DOk (Some r) -> NoDup (map fst query) ->
    exists m mode, fromPostArgs reg query = Ok m /\ wire_value query (u "mode") = Some mode /\
      match r with
      | RCheckID c => (mode = u "checkid_setup" \/ mode = u "checkid_immediate") /\ CheckID_fromMessage e m (Some ep) = DOk c
      | RCheckAuth c => mode = u "check_authentication" /\ CheckAuth_fromMessage m = DOk c
      | RAssociate c => mode = u "associate" /\ Associate_fromMessage params_ok m x = DOk c
      end.
  Proof using.
    intros H Hn. unfold decode in H. destruct query as [|kv q] eqn:Q; [discriminate|]. rewrite <- Q in *. clear kv q Q.
    destruct (fromPostArgs reg query) as [m|z] eqn:F.
    2:{ exfalso. destruct z; try discriminate H;
          match type of H with context [dlift ?g] => destruct g; discriminate H end. }
    cbn [dbind] in H. rewrite (field_of reg query m (u "mode") Hn F) in H by simple_key. cbn [dlift dbind] in H.
    destruct (wire_value query (u "mode")) as [mode|]; [|discriminate]. exists m, mode. split; auto. split; auto.
    destruct (truthy mode); cbn [negb] in H; [|discriminate].
    destruct (text_eqb mode (u "checkid_setup") || text_eqb mode (u "checkid_immediate")) eqn:M1.
    - destruct (CheckID_fromMessage e m (Some ep)) as [c| |] eqn:C; cbn [dbind] in H; inv H.
      apply orb_true_iff in M1. rewrite !text_eqb_eq in M1. auto.
    - destruct (text_eqb mode (u "check_authentication")) eqn:M2.
      + destruct (CheckAuth_fromMessage m) as [c| |] eqn:C; cbn [dbind] in H; inv H. apply text_eqb_eq in M2. auto.
      + destruct (text_eqb mode (u "associate")) eqn:M3; [|discriminate].
        destruct (Associate_fromMessage params_ok m x) as [c| |] eqn:C; cbn [dbind] in H; inv H. apply text_eqb_eq in M3. auto.
  Qed.

  (** An accepted authentication request says what the query says, and obeys the rules. *)
  Theorem C33_decode_sound : forall query ep x c, NoDup (map fst query) ->
    decode e reg params_ok query ep x = DOk (Some (RCheckID c)) ->
    let f := fun k => wire_value query (u k) in
    fromPostArgs reg query = Ok (ci_message c) /\
    f "mode"%string = Some (if ci_immediate c then u "checkid_immediate" else u "checkid_setup") /\
    ci_identity c = f "identity"%string /\ ci_claimed_id c = f "claimed_id"%string /\ ci_return_to c = f "return_to"%string /\
    ci_assoc_handle c = f "assoc_handle"%string /\ ci_op_endpoint c = Some ep /\
    ci_trust_root c = or_else (if asks_v2 query then f "realm"%string else f "trust_root"%string) (f "return_to"%string) /\
    (* the return URL is well formed and inside the realm *)
    (forall r, f "return_to"%string = Some r ->
       (exists tr, parse e r = Ok (Some tr)) /\ exists realm, ci_trust_root c = Some realm /\ inside e realm r) /\
    (forall realm, ci_trust_root c = Some realm -> exists tr, parse e realm = Ok (Some tr)) /\
    (* what each version requires *)
    (asks_v2 query = true ->
       (f "return_to"%string <> None \/ exists realm, f "realm"%string = Some realm /\ realm <> []) /\
       (f "identity"%string = None <-> f "claimed_id"%string = None)) /\
    (asks_v2 query = false ->
       f "identity"%string <> None /\ exists r, f "return_to"%string = Some r /\ r <> []).
  Proof using.
    intros query ep x c Hn H f. destruct (decode_inv _ _ _ _ H Hn) as (m & mode & F & Hm & Hmode & C).
    destruct (query_version reg query m Hn F) as (V2 & V1). unfold CheckID_fromMessage in C.
    rewrite !(field_of reg query m _ Hn F) in C by (first [simple_key | destruct (isOpenID1 m); simple_key]).
    change (wire_value query (u "mode")) with (f "mode"%string) in *.
    change (wire_value query (u "return_to")) with (f "return_to"%string) in *.
    change (wire_value query (u "identity")) with (f "identity"%string) in *.
    change (wire_value query (u "claimed_id")) with (f "claimed_id"%string) in *.
    change (wire_value query (u "assoc_handle")) with (f "assoc_handle"%string) in *.
    rewrite Hm in C. cbn [dlift dbind] in C.
    assert (mem_text mode [u "checkid_immediate"; u "checkid_setup"] = true) as MM.
    { apply mem_text_In. destruct Hmode as [->| ->]; simpl; auto. }
    rewrite MM in C. cbn [negb] in C. rewrite V1 in C.
    set (rt := f "return_to"%string) in *. set (idt := f "identity"%string) in *. set (cid := f "claimed_id"%string) in *.
    set (rl := wire_value query (if negb (asks_v2 query) then u "trust_root" else u "realm")) in *.
    assert (rl = if asks_v2 query then f "realm"%string else f "trust_root"%string) as Erl by (unfold rl; destruct (asks_v2 query); auto).
    destruct (negb (asks_v2 query) && negb (otruthy rt)) eqn:Q1; [discriminate|].
    rewrite !text_or_else in C.
    destruct (negb (negb (asks_v2 query)) && match rt, or_else rl rt with None, None => true | _, _ => false end) eqn:Q2; [discriminate|].
    unfold CheckIDRequest in C. cbn [dbind] in C. rewrite V1 in C.
    match type of C with (if ?b then _ else _) = _ => destruct b eqn:Q3; [discriminate|] end.
    rewrite andb_false_r in C. rewrite text_or_else in C.
    assert (or_else (or_else rl rt) rt = or_else rl rt) as Eor by (destruct rl as [[|]|], rt as [[|]|]; reflexivity).
    rewrite Eor in C. set (root := or_else rl rt) in *.
    assert (forall r, rt = Some r -> exists tr, parse e r = Ok (Some tr)) as WF.
    { intros r Er. rewrite Er in C. destruct (parse e r) as [[tr|]|]; try discriminate. eauto. }
    match type of C with dbind ?w _ = _ => destruct w as [b| |] eqn:W; try discriminate end. cbn [dbind] in C.
    destruct b; cbn [negb] in C; [|discriminate]. clear W.
    match type of C with dbind (trustRootValid e ?c1) _ = _ => set (c0 := c1) in *; destruct (trustRootValid e c0) as [b| |] eqn:TV; try discriminate end.
    cbn [dbind] in C. destruct b; cbn [negb] in C; inv C. unfold trustRootValid in TV. cbn [ci_trust_root ci_return_to c0] in *.
    assert (forall r, rt = Some r -> r <> []) as NE.
    { intros r Er ->. destruct (WF _ Er) as (tr & P). rewrite parse_empty in P. discriminate. }
    assert (forall realm, root = Some realm -> realm <> []) as NE'.
    { intros realm Er ->. unfold root in Er. destruct rl as [[|]|]; cbn [or_else] in Er; [apply (NE [] Er); auto|discriminate|apply (NE [] Er); auto]. }
    split; auto. split.
    { rewrite Hm. destruct Hmode as [->| ->]; reflexivity. }
    split; auto. split; auto. split; auto. split; auto. split; auto. split; [unfold root; rewrite Erl; auto|]. split; [|split; [|split]].
    - intros r Er. split; auto. destruct root as [realm|] eqn:Rt.
      + exists realm. split; auto. specialize (NE' _ eq_refl). apply truthy_true in NE'. rewrite NE' in TV. cbn [negb] in TV.
        destruct (parse e realm) as [[tr|]|] eqn:P; try discriminate. cbn [dlift dbind] in TV. rewrite Er in TV.
        destruct (validateURL e tr r) as [b|] eqn:V; inv TV. eapply inside_sound; eauto.
      + exfalso. unfold root in Rt. rewrite Er in Rt. destruct rl as [[|]|]; discriminate.
    - intros realm Er. rewrite Er in TV. specialize (NE' _ Er). apply truthy_true in NE'. rewrite NE' in TV. cbn [negb] in TV.
      destruct (parse e realm) as [[tr|]|]; try discriminate. eauto.
    - intros V. rewrite V in *. cbn [negb andb] in *. split.
      + destruct rt; [left; discriminate|]. right. rewrite <- Erl. unfold root in Q2. destruct rl as [[|c1 t]|]; try discriminate. exists (c1 :: t). split; [auto|discriminate].
      + destruct idt, cid; split; intros X; try discriminate; auto.
    - intros V. rewrite V in *. cbn [negb andb] in *. split.
      + destruct idt; discriminate.
      + destruct rt as [[|c1 t]|]; try discriminate. exists (c1 :: t). split; [auto|discriminate].
  Qed.

  (** Conversely, a query that obeys the rules is accepted. *)
  Theorem C33_decode_complete : forall query ep x m mode, NoDup (map fst query) -> fromPostArgs reg query = Ok m ->
    let f := fun k => wire_value query (u k) in
    let realm := or_else (if asks_v2 query then f "realm"%string else f "trust_root"%string) (f "return_to"%string) in
    f "mode"%string = Some mode -> (mode = u "checkid_setup" \/ mode = u "checkid_immediate") ->
    (forall r, f "return_to"%string = Some r -> (exists tr, parse e r = Ok (Some tr)) /\ exists t, realm = Some t /\ inside e t r) ->
    (forall t, realm = Some t -> exists tr, parse e t = Ok (Some tr)) ->
    (asks_v2 query = true -> realm <> None /\ (f "identity"%string = None <-> f "claimed_id"%string = None)) ->
    (asks_v2 query = false -> f "identity"%string <> None /\ f "return_to"%string <> None) ->
    exists c, decode e reg params_ok query ep x = DOk (Some (RCheckID c)).
  Proof using.
    intros query ep x m mode Hn F f realm Hm Hmode Hr Ht H2 H1. destruct (query_version reg query m Hn F) as (V2 & V1).
    assert (exists c, CheckID_fromMessage e m (Some ep) = DOk c) as (c & E).
    { unfold CheckID_fromMessage.
      rewrite !(field_of reg query m _ Hn F) by (first [simple_key | destruct (isOpenID1 m); simple_key]).
      change (wire_value query (u "mode")) with (f "mode"%string).
      change (wire_value query (u "return_to")) with (f "return_to"%string).
      change (wire_value query (u "identity")) with (f "identity"%string).
      change (wire_value query (u "claimed_id")) with (f "claimed_id"%string).
      change (wire_value query (u "assoc_handle")) with (f "assoc_handle"%string).
      rewrite Hm. cbn [dlift dbind].
      assert (mem_text mode [u "checkid_immediate"; u "checkid_setup"] = true) as ->.
      { apply mem_text_In. destruct Hmode as [->| ->]; simpl; auto. }
      cbn [negb]. rewrite V1.
      set (rt := f "return_to"%string) in *. set (idt := f "identity"%string) in *. set (cid := f "claimed_id"%string) in *.
      set (rl := wire_value query (if negb (asks_v2 query) then u "trust_root" else u "realm")) in *.
      assert ((if asks_v2 query then f "realm"%string else f "trust_root"%string) = rl) as Erl by (unfold rl; destruct (asks_v2 query); auto).
      unfold realm in *. rewrite Erl in *. clear realm Erl.
      assert (forall r, rt = Some r -> truthy r = true) as NE.
      { intros r Er. apply truthy_true. intros ->. destruct (Hr _ Er) as ((tr & P) & _). rewrite parse_empty in P. discriminate. }
      assert (negb (asks_v2 query) && negb (otruthy rt) = false) as ->.
      { destruct (asks_v2 query); auto. destruct (H1 eq_refl) as (_ & X). destruct rt as [r|]; [|congruence]. cbn [otruthy negb]. rewrite (NE r); auto. }
      rewrite !text_or_else.
      assert (negb (negb (asks_v2 query)) && match rt, or_else rl rt with None, None => true | _, _ => false end = false) as ->.
      { destruct (asks_v2 query); auto. destruct (H2 eq_refl) as (X & _). destruct rt; auto. destruct (or_else rl None); auto. congruence. }
      unfold CheckIDRequest. cbn [dbind]. rewrite V1.
      match goal with |- exists c, (if ?b then _ else _) = _ => assert (b = false) as -> end.
      { destruct (asks_v2 query); cbn [negb].
        - destruct (H2 eq_refl) as (_ & X1 & X2). destruct idt, cid; auto; [specialize (X2 eq_refl)|specialize (X1 eq_refl)]; discriminate.
        - destruct (H1 eq_refl) as (X & _). destruct idt; auto. congruence. }
      rewrite andb_false_r, text_or_else.
      assert (or_else (or_else rl rt) rt = or_else rl rt) as -> by (destruct rl as [[|]|], rt as [[|]|]; reflexivity).
      set (root := or_else rl rt) in *.
      match goal with |- exists c, dbind ?w _ = _ => assert (w = DOk true) as -> end.
      { destruct rt as [r|]; auto. destruct (Hr r eq_refl) as ((tr & ->) & _). auto. }
      cbn [dbind negb].
      match goal with |- exists c, dbind ?w _ = _ => assert (w = DOk true) as -> end.
      { unfold trustRootValid. cbn [ci_trust_root ci_return_to]. destruct root as [t|] eqn:Rt; auto.
        destruct (truthy t); auto. destruct (Ht t eq_refl) as (tr & P). rewrite P. cbn [negb dlift dbind].
        destruct rt as [r|]; auto. destruct (Hr r eq_refl) as (_ & t' & X & I). inv X. rewrite (inside_complete e t' tr r P I). auto. }
      cbn [dbind negb]. eauto. }
    exists c. change (wire_value query (u "mode") = Some mode) in Hm. clear f realm Hr Ht H2 H1. unfold decode.
    destruct query as [|kv q] eqn:Q; [discriminate Hm|]. rewrite <- Q in *. rewrite F. cbn [dbind].
    rewrite (field_of reg query m (u "mode") Hn F) by simple_key. rewrite Hm. cbn [dlift dbind].
    assert (truthy mode = true) as -> by (destruct Hmode as [->| ->]; auto). cbn [negb].
    assert (text_eqb mode (u "checkid_setup") || text_eqb mode (u "checkid_immediate") = true) as ->.
    { apply orb_true_iff. rewrite !text_eqb_eq. auto. }
    rewrite E. auto.
  Qed.

  (** A check_authentication request: handle, and the message with mode id_res. *)
  Theorem C33_decode_check_authentication : forall query ep x c, NoDup (map fst query) ->
    decode e reg params_ok query ep x = DOk (Some (RCheckAuth c)) ->
    fromPostArgs reg query = Ok (ca_message c) /\
    wire_value query (u "mode") = Some (u "check_authentication") /\
    wire_value query (u "assoc_handle") = Some (ca_assoc_handle c) /\
    wire_value query (u "sig") <> None /\
    ca_invalidate_handle c = wire_value query (u "invalidate_handle") /\
    setArg (ca_message c) OPENID_NS (u "mode") (u "id_res") = Ok (ca_signed c).
  Proof using.
    intros query ep x c Hn H. destruct (decode_inv _ _ _ _ H Hn) as (m & mode & F & Hm & -> & C).
    unfold CheckAuth_fromMessage in C. rewrite !(field_of reg query m _ Hn F) in C by simple_key. cbn [dlift dbind] in C.
    destruct (wire_value query (u "assoc_handle")) as [h|]; [|discriminate]. destruct (wire_value query (u "sig")) as [s|]; [|discriminate].
    destruct (fromPostArgs_ver _ _ _ F Hn) as (V & A).
    assert (core m (oid_of (openid_part query))) as Co by (eapply built_core; eauto; eapply b_parse; eauto).
    pose proof (field_of reg query m (u "mode") Hn F) as G. rewrite Hm, (core_get _ _ _ Co) in G by simple_key.
    assert (dget akey_eqb (Uri (oid_of (openid_part query)), u "mode") (margs m) = Some (u "check_authentication")) as G'.
    { assert (Ok (dget akey_eqb (Uri (oid_of (openid_part query)), u "mode") (margs m)) = Ok (Some (u "check_authentication"))) as X by (apply G; simple_key). inv X. auto. }
    rewrite (core_has _ _ _ Co) in C. unfold dhas in C. rewrite G' in C. cbn [dlift dbind] in C.
    destruct (core_set m _ (u "mode") (u "id_res") Co) as (m' & S1 & _). rewrite S1 in C. cbn [dlift dbind] in C. inv C.
    split; auto. split; auto. split; auto. split; [discriminate|]. auto.
  Qed.
End Decode.
Print Assumptions C33_decode_sound.
Print Assumptions C33_decode_complete.
Print Assumptions C33_decode_check_authentication.

Definition plain_env : uenv := mkUenv (fun _ => false) (fun _ => true) (fun _ => None).
Definition login_query : list (text * text) :=
  [(u "openid.ns", OPENID2_NS); (u "openid.mode", u "checkid_setup"); (u "openid.identity", u "http://me.example/");
   (u "openid.claimed_id", u "http://me.example/"); (u "openid.return_to", u "http://rp.example/back?x=1");
   (u "openid.realm", u "http://rp.example/"); (u "openid.assoc_handle", u "h1")].
Example C33_example :
  (exists c, decode plain_env [] (fun _ _ => true) login_query (u "http://op.example/") 1 = DOk (Some (RCheckID c)) /\
     ci_return_to c = Some (u "http://rp.example/back?x=1") /\ ci_trust_root c = Some (u "http://rp.example/")) /\
  (exists m, decode plain_env [] (fun _ _ => true)
     (dset text_eqb (u "openid.return_to") (u "http://evil.example/") login_query) (u "http://op.example/") 1 = DErr UntrustedReturnURL m) /\
  (exists m, decode plain_env [] (fun _ _ => true)
     (ddel text_eqb (u "openid.claimed_id") login_query) (u "http://op.example/") 1 = DErr ServerProtocolError m).
Proof.
  split; [|split].
  - eexists. split; [vm_compute; reflexivity|]. split; [vm_compute; reflexivity|vm_compute; reflexivity].
  - eexists. vm_compute. reflexivity.
  - eexists. vm_compute. reflexivity.
Qed.
