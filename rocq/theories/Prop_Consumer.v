(** C41-C43: what a successful authentication means. *)
From Coq Require Import Lia ZifyBool ZifyN ZifyNat Permutation.
From Verif Require Import Py PyFacts Utf8 KVForm CryptUtil DH Message MessageFacts MessageWire MessageParse MessageSpec MessageRound Prop_Message.
From Verif Require Import Association AssociationFacts Prop_Association UrlLib UrlLibFacts UriNorm OidUtil OidUtilFacts KVFormFacts Nonce Store StoreSpec ServerFacts Prop_ServerDecode.
From Verif Require Import Endpoint Consumer ConsumerFacts.
Open Scope N_scope.
Local Arguments u : simpl never.

(** ** Vocabulary *)
(** The queries considered: a dictionary, as the library is given, in which no extension
    namespace is the literal 'sreg'. *)
Definition fair_query (reg query : dict text text) : Prop :=
  good_registry reg /\ NoDup (map fst query) /\ forall a, ~ In (u "openid.ns." ++ a, u "sreg") query.
(** [sig] authenticates the fields of [query] named in [signed] with the key of [a]. *)
Definition mac_valid (hmac : text -> bytes -> bytes -> bytes) (a : assoc) (query : dict text text) (signed sig : text) : Prop :=
  exists t b, seqToKV false (map (fun k => (k, match wire_value query k with Some v => v | None => [] end)) (splitc 44 signed)) = Ok t /\
    encode t = Ok b /\ sig = toBase64 (hmac (a_type a) (a_secret a) b) /\ known_type (a_type a).
(** A direct reply in key-value form with the given field. *)
Definition reply_says (body : bytes) (k v : text) : Prop :=
  exists t d, decode body = Ok t /\ kvToDict t = Ok d /\ dget text_eqb k d = Some v.
(** A form body carrying the query again, as a check_authentication request. *)
Definition check_body (query : dict text text) (body : text) : Prop :=
  exists args, urlencode args = Ok body /\ NoDup (map fst args) /\
    forall k, dget text_eqb k args = if text_eqb k (u "openid.mode") then Some (u "check_authentication") else dget text_eqb k query.

(** Two URLs name the same place: after normalization they have the same scheme and
    authority, and the same path up to the parameters of its last segment. *)
Definition cuts_to (p q : text) : Prop := q = p \/ exists params, q = p ++ 59 :: params /\ ~ In 47 params.
Definition same_place (e : uenv) (a b : text) : Prop :=
  exists na nb sa sb p, urinorm e a = Ok na /\ urinorm e b = Ok nb /\ urlsplit e na = Ok sa /\ urlsplit e nb = Ok sb /\
    sp_scheme sa = sp_scheme sb /\ sp_netloc sa = sp_netloc sb /\ cuts_to p (sp_path sa) /\ cuts_to p (sp_path sb).
(** The endpoint's local identifier for the claimed one. *)
Definition speaks_for (ep : endpoint) (local : text) : Prop :=
  ep_local_id ep = Some local \/
  ((ep_local_id ep = None \/ ep_local_id ep = Some []) /\ ep_canonicalID ep = Some local) \/
  (ep_local_id ep = None /\ ep_canonicalID ep = None /\ ep_claimed_id ep = Some local).
(** The endpoint comes from the session or from discovery on the identifier. *)
Definition found (discover : text -> res (list endpoint)) (session : option endpoint) (claimed : text) (ep : endpoint) : Prop :=
  session = Some ep \/ exists l, discover claimed = Ok l /\ In ep l.

(** The wire value of a plainly named core field. *)
Lemma post_core_value m oid k v : core m oid -> (forall x w, dget akey_eqb (Bare, x) (margs m) = Some w -> is_bare x) ->
  ~ In 46 k -> dget akey_eqb (Uri oid, k) (margs m) = Some v -> dget text_eqb (u "openid." ++ k) (toPostArgs m) = Some v.
Proof.
  intros C B Hd H. pose proof C as (W & V & _). rewrite toPostArgs_dget by auto.
  pose proof (assoc_last_In_some (u "openid." ++ k) (post_args m) v) as A.
  destruct (assoc_last text_eqb (u "openid." ++ k) (post_args m)) as [w|] eqn:L.
  2:{ exfalso. apply A; auto. apply In_post_args; [apply W|]. exists (Uri oid), k. split; auto. cbn [keyname]. rewrite (core_alias _ _ C). auto. }
  apply assoc_last_In in L. apply In_post_args in L; [|apply W]. destruct L as (n & k' & D & E). f_equal. unfold keyname in E. destruct n as [|x].
  - apply B in D. unfold is_bare in D. subst k'. rewrite startswith_app in D. discriminate.
  - destruct (getAlias (mns m) x) as [[|a]|] eqn:G.
    + apply app_inv_head in E. subst k'. apply (wn_inv _ (wm_ns _ W)) in G. unfold getOpenIDNamespace in V. rewrite V in G. inv G. pose proof (eq_trans (eq_sym D) H) as X. injection X. auto.
    + apply app_inv_head in E. exfalso. apply Hd. rewrite E. apply in_or_app. right. left. auto.
    + discriminate.
Qed.

Section Success.
  Variable e : uenv.
  Variable reg : dict text text.
  Variable hmac : text -> bytes -> bytes -> bytes.
  Variable udigit : N -> option Z.
  Variable net : list post -> option (N * bytes).
  Variable discover : text -> res (list endpoint).
  Context {S : Type} (step : S -> Z -> op -> S * out).
  Variable now : Z.
  Notation complete' := (complete e reg hmac udigit net discover step now).

  Lemma version_inv query m : NoDup (map fst query) -> fromPostArgs reg query = Ok m -> idResCheckForFields m = Ok tt ->
    getOpenIDNamespace m = Some (if asks_v2 query then OPENID2_NS else OPENID1_NS) /\
    core m (if asks_v2 query then OPENID2_NS else OPENID1_NS).
  Proof using.
    intros Hn F H. destruct (query_version reg query m Hn F) as (V2 & V1).
    assert (getOpenIDNamespace m = Some (if asks_v2 query then OPENID2_NS else OPENID1_NS)) as V.
    { unfold idResCheckForFields in H. binv H. clear H. unfold lookup_ns in E. destruct (getOpenIDNamespace m) as [n|] eqn:N; [|discriminate].
      unfold isOpenID2 in V2. rewrite N in V2. cbn [require_fields dget] in E.
      destruct (text_eqb n OPENID2_NS) eqn:Q2.
      - apply text_eqb_eq in Q2. subst n. cbn in V2. rewrite <- V2. reflexivity.
      - destruct (text_eqb n OPENID1_NS) eqn:Q1; [|discriminate]. apply text_eqb_eq in Q1. subst n. destruct (asks_v2 query); [vm_compute in V2; discriminate|auto]. }
    split; auto. eapply built_core; eauto. eapply b_parse; eauto.
  Qed.
  Lemma field_ns query m k : NoDup (map fst query) -> fromPostArgs reg query = Ok m -> idResCheckForFields m = Ok tt ->
    ~ In 46 k -> k <> u "ns" ->
    getArg m (NS (if asks_v2 query then OPENID2_NS else OPENID1_NS)) k = Ok (wire_value query k).
  Proof using.
    intros Hn F H Hd Hk. destruct (version_inv query m Hn F H) as (V & C). rewrite <- (field_of reg query m k Hn F Hd Hk).
    rewrite (core_get _ _ _ C), getArg_ns; auto. apply C.
  Qed.
  Lemma hasKey_field query m k b : NoDup (map fst query) -> fromPostArgs reg query = Ok m -> ~ In 46 k -> k <> u "ns" ->
    hasKey m OPENID_NS k = Ok b -> b = match wire_value query k with Some _ => true | None => false end.
  Proof using.
    intros Hn F Hd Hk H. pose proof (field_of reg query m k Hn F Hd Hk) as G. unfold getArg in G. unfold hasKey in H.
    destruct (fixNS m OPENID_NS) as [x|y]; cbn [bind] in *; [|discriminate]. unfold dhas in H. inv G. inv H. destruct (dget _ _ _); auto.
  Qed.

  (** The two ways in which the signature is found good. *)
  Definition vouched (query : dict text text) (server handle signed sig : text) (s s1 : @cst S) : Prop :=
    (exists st st' a, c_store s = Some st /\ step st now (GetA server (Some handle)) = (st', Got (Some a)) /\
        (now < a_issued a + a_lifetime a)%Z /\ mac_valid hmac a query signed sig /\ c_posts s1 = c_posts s) \/
    ((c_store s = None \/ exists st st', c_store s = Some st /\ step st now (GetA server (Some handle)) = (st', Got None)) /\
     exists body status answer, check_body query body /\ c_posts s1 = (server, body) :: c_posts s /\
        net (c_posts s1) = Some (status, answer) /\ (status = 200 \/ status = 206) /\ reply_says answer (u "is_valid") (u "true")).

  Lemma checkAuth_inv query m server s s1 : fair_query reg query -> fromPostArgs reg query = Ok m ->
    checkAuth reg net step now m server s = (s1, Ok true) ->
    exists body status answer, check_body query body /\ c_posts s1 = (server, body) :: c_posts s /\
        net (c_posts s1) = Some (status, answer) /\ (status = 200 \/ status = 206) /\ reply_says answer (u "is_valid") (u "true").
  Proof using.
    clear e hmac udigit discover.
    intros (R & Hn & Hs) F H.
    assert (forall k, dget text_eqb k (toPostArgs m) = dget text_eqb k query) as P by (eapply C14_parse_exact; eauto).
    unfold checkAuth in H. cinv H. destruct a as [m2|]; [|apply cret_Ok in H as (_ & H); discriminate].
    unfold createCheckAuthRequest in R0. binv R0. binv R0. destruct a0; [discriminate|]. binv R0. inv R0. rename E1 into M2. clear E E0.
    destruct (fromPostArgs_ver _ _ _ F Hn) as (V & _). assert (built reg m) as B by (eapply b_parse; eauto). pose proof (built_core _ _ _ B V) as C.
    destruct (core_set m _ (u "mode") (u "check_authentication") C) as (m' & M & A & N0 & C'). rewrite M in M2. inv M2.
    destruct (fromPostArgs_sound reg query m (proj1 R) Hn Hs F) as (_ & m0 & _ & _ & _ & _ & Ba).
    assert (forall k, dget text_eqb k (toPostArgs m2) = if text_eqb k (u "openid.mode") then Some (u "check_authentication") else dget text_eqb k query) as Q.
    { intros k. destruct (text_eqb k (u "openid.mode")) eqn:E.
      - apply text_eqb_eq in E. subst k. apply (post_core_value m2 _ (u "mode") _ C').
        + intros x w. rewrite A, (dget_dset_other akey_eqb akey_eqb_eq) by discriminate. intros X. apply Ba in X. tauto.
        + simple_key.
        + rewrite A. apply (dget_dset_same akey_eqb akey_eqb_eq).
      - apply text_eqb_neq in E. rewrite <- P. eapply post_set_other; eauto. apply C'. }
    cinv H as rp P0. assert (exists m3, rp = Some (Answer m3)) as (m3 & ->).
    { destruct rp as [[m3|]|]; eauto; apply cret_Ok in H as (_ & H); discriminate. }
    apply ctry_Ok in P0 as [P0|(s2 & x & k & _ & X & Y)].
    2:{ destruct x; try discriminate X. injection X as <-. apply cret_Ok in Y as (_ & Y). discriminate. }
    cinv P0 as rp P1. apply cret_Ok in P0 as (-> & P0). injection P0 as ->.
    unfold makeKVPost in P1. cinv P1 as body P2. cbn beta in P1. injection P1 as <- P1.
    assert (c_posts s1 = (server, body) :: c_posts s) as Po.
    { unfold processCheckAuthResponse in H. cinv H as iv Q1. cinv H as ih Q2. cinv H as un Q3. apply cret_Ok in H as (-> & _).
      destruct ih as [h|]; [|apply cret_Ok in Q3 as (-> & _); reflexivity].
      cinv Q3 as st Q4. injection Q4 as <-. cbn [c_store] in Q3.
      destruct (c_store s); [|apply cret_Ok in Q3 as (-> & _); reflexivity].
      cinv Q3 as rr Q5. apply cret_Ok in Q3 as (-> & _). unfold call in Q5. cbn [c_store] in Q5. destruct (step _ _ _) as [st' r].
      injection Q5 as <- _. reflexivity. }
    destruct (net ((server, body) :: c_posts s)) as [[status answer]|] eqn:Nt; [|discriminate].
    unfold httpResponseToMessage in P1. binv P1. binv P1.
    destruct (status =? 400). { exfalso. unfold fromMessage in P1. binv P1. binv P1. discriminate. }
    destruct (negb ((status =? 200) || (status =? 206))) eqn:St; [discriminate|]. injection P1 as ->.
    exists body, status, answer. split.
    { exists (sorted_items (toPostArgs m2)). split; auto.
      split; [eapply Permutation_NoDup; [apply Permutation_map, sorted_items_perm|apply toPostArgs_keys]|]. intros k. rewrite <- Q. symmetry. apply dget_perm; [apply toPostArgs_keys|apply sorted_items_perm]. }
    split; auto. rewrite Po. split; auto. split.
    { apply negb_false_iff, orb_true_iff in St. rewrite !N.eqb_eq in St. tauto. }
    destruct (kv_field reg _ m3 (u "is_valid") E0) as (d & D1 & D2); [simple_key|simple_key|].
    eexists _, d. split; eauto. split; eauto.
    unfold processCheckAuthResponse in H. cinv H as iv Q1. cinv H as ih Q2. cinv H as un Q3. apply cret_Ok in H as (_ & H). injection H as H. apply text_eqb_eq in H. subst iv.
    unfold getArgDef in Q1. rewrite D2 in Q1. cbn [bind] in Q1. destruct (dget text_eqb (u "is_valid") d) as [v|]; [congruence|]. discriminate.
  Qed.

  Lemma required_inv query m : NoDup (map fst query) -> fromPostArgs reg query = Ok m -> idResCheckForFields m = Ok tt ->
    exists rto handle sig signed, wire_value query (u "return_to") = Some rto /\ wire_value query (u "assoc_handle") = Some handle /\
      wire_value query (u "sig") = Some sig /\ wire_value query (u "signed") = Some signed /\
      (wire_value query (if asks_v2 query then u "op_endpoint" else u "identity") <> None) /\
      forall k, In k (if asks_v2 query
                      then [u "return_to"; u "identity"; u "response_nonce"; u "claimed_id"; u "assoc_handle"; u "op_endpoint"]
                      else [u "return_to"; u "identity"]) ->
        wire_value query k <> None -> In k (splitc 44 signed).
  Proof using.
    clear e hmac udigit discover net S step now.
    intros Hn F C. destruct (version_inv query m Hn F C) as (V & K).
    unfold idResCheckForFields in C. rewrite V in C. binv C. binv C. binv C. binv C. binv C. clear C.
    rename a into req, a1 into signed, a2 into sigs. 
    assert (forall k, ~ In 46 k -> k <> u "ns" -> In k req -> exists v, wire_value query k = Some v) as B.
    { intros k Hd Hk Hin. pose proof (mapM_unit_Ok _ _ _ E0 k Hin) as X. cbv beta in X. binv X.
      assert (a = match wire_value query k with Some _ => true | None => false end) as -> by (eapply hasKey_field; eauto).
      destruct (wire_value query k); [eauto|discriminate]. }
    assert (forall k, In k (basic_fields ++ [if asks_v2 query then u "op_endpoint" else u "identity"]) -> In k req) as I1.
    { intros k Hk. destruct (asks_v2 query); vm_compute in E; injection E as <-; exact Hk. }
    destruct (B (u "return_to")) as (rto & H1); [simple_key|simple_key|apply I1; vm_compute; tauto|].
    destruct (B (u "assoc_handle")) as (handle & H2); [simple_key|simple_key|apply I1; vm_compute; tauto|].
    destruct (B (u "sig")) as (sig & H3); [simple_key|simple_key|apply I1; vm_compute; tauto|].
    destruct (B (u "signed")) as (signed' & H4); [simple_key|simple_key|apply I1; vm_compute; tauto|].
    assert (signed' = signed) as ->.
    { unfold getArgReq in E1. rewrite (field_of reg query m _ Hn F) in E1 by simple_key. rewrite H4 in E1. cbn [bind] in E1. congruence. }
    exists rto, handle, sig, signed. split; auto. split; auto. split; auto. split; auto. split.
    { destruct (B (if asks_v2 query then u "op_endpoint" else u "identity")) as (v & Hv).
      - destruct (asks_v2 query); simple_key.
      - destruct (asks_v2 query); simple_key.
      - apply I1. apply in_or_app. right. left. auto.
      - intros X. pose proof (eq_trans (eq_sym Hv) X). discriminate. }
    intros k Hk Hv. assert (In k sigs) as Hs. { destruct (asks_v2 query); vm_compute in E2; injection E2 as <-; exact Hk. }
    pose proof (mapM_unit_Ok _ _ _ E3 k Hs) as X. cbv beta in X. binv X.
    assert (a = true) as ->.
    { replace a with (match wire_value query k with Some _ => true | None => false end); [destruct (wire_value query k); [auto|contradiction]|].
      symmetry. eapply hasKey_field; eauto; destruct (asks_v2 query); repeat destruct Hk as [<-|Hk]; try simple_key; destruct Hk. }
    cbn [andb] in X. destruct (mem_text k (splitc 44 signed)) eqn:M; [|discriminate]. apply mem_text_In; auto.
  Qed.

  Lemma signature_inv query m ep' s s1 : fair_query reg query -> fromPostArgs reg query = Ok m -> idResCheckForFields m = Ok tt ->
    idResCheckSignature reg hmac net step now m (ep_server_url ep') s = (s1, Ok tt) ->
    exists server handle signed sig, ep_server_url ep' = Some server /\ wire_value query (u "assoc_handle") = Some handle /\
      wire_value query (u "signed") = Some signed /\ wire_value query (u "sig") = Some sig /\
      vouched query server handle signed sig s s1.
  Proof using.
    clear e udigit discover.
    intros Q F C H. pose proof Q as (R & Hn & Hs). destruct (version_inv query m Hn F C) as (V & K).
    assert (forall k, dget text_eqb k (toPostArgs m) = dget text_eqb k query) as P by (eapply C14_parse_exact; eauto).
    destruct (required_inv query m Hn F C) as (_ & handle & sig & signed & _ & Hh & Hsg & Hsn & _).
    unfold idResCheckSignature in H. cinv H. destruct (ep_server_url ep') as [server|]; cbn [the_url] in R0; [|discriminate]. inv R0. rename a into server.
    exists server, handle, signed, sig. split; auto. split; auto. split; auto. split; auto.
    rewrite (field_of reg query m _ Hn F) in H by simple_key. rewrite Hh in H. unfold vouched.
    cinv H. inv R0. cinv H. injection R0 as <-.
    destruct (c_store s) as [st|] eqn:St.
    - cinv H. cinv R0. unfold call in R1. rewrite St in R1. destruct (step st now (GetA server (Some handle))) as [st' r] eqn:G.
      apply cret_Ok in R0 as (-> & R0). injection R1 as <- R1. destruct r; try discriminate R1; injection R1 as <-; cbn [got] in R0; try discriminate R0.
      injection R0 as ->. destruct a as [a|].
      + left. destruct (getExpiresIn a now <=? 0)%Z eqn:X; [apply cret_Ok in H as (_ & H); discriminate|].
        cinv H. apply cret_Ok in H as (-> & H). destruct a0; [|discriminate].
        destruct (check_Ok hmac a m _ K R0) as (s' & sg & b & S1 & S2 & _ & (t & T1 & T2) & S3 & S4).
        exists st, st', a. split; auto. split; auto. split.
        { apply Z.leb_gt in X. unfold getExpiresIn in X. lia. }
        split; auto. pose proof (field_of reg query m (u "sig") Hn F) as F1. pose proof (field_of reg query m (u "signed") Hn F) as F2.
        rewrite (core_get _ _ _ K), S1, Hsg in F1. rewrite (core_get _ _ _ K), S2, Hsn in F2.
        assert (s' = sig) as -> by (assert (Ok (Some s') = Ok (Some sig)) by (apply F1; simple_key); congruence).
        assert (sg = signed) as -> by (assert (Ok (Some sg) = Ok (Some signed)) by (apply F2; simple_key); congruence).
        exists t, b. split; [|split; auto; split; auto; destruct S4 as [<-|[<-|[]]]; [left|right]; auto].
        rewrite <- T1. f_equal. unfold pairs_of. apply map_ext. intros k. unfold AssociationFacts.field, wire_value. rewrite P. auto.
      + right. split; [right; exists st, st'; auto|]. cinv H. apply cret_Ok in H as (-> & H). destruct a; [|discriminate].
        destruct (checkAuth_inv query m server _ _ Q F R0) as (body & status & answer & A1 & A2 & A3). exists body, status, answer. auto.
    - right. split; auto. cinv H. injection R0 as <-. cinv H. apply cret_Ok in H as (-> & H). destruct a; [|discriminate].
      eapply checkAuth_inv; eauto.
  Qed.

  Lemma nonce_posts m ep' s s' : idResCheckNonce udigit step now m ep' s = (s', Ok tt) -> c_posts s' = c_posts s.
  Proof using.
    unfold idResCheckNonce. intros H. apply cbind_Ok in H as (s1 & [n url] & R & H).
    assert (s1 = s) as ->. { destruct (isOpenID1 m); cinv R; apply cret_Ok in R as (-> & _); auto. }
    cbn [fst snd] in H. destruct n as [n|]; [|apply cret_Ok in H as (_ & H); discriminate].
    cinv H as ts T. cinv H as b B. destruct b; [|apply cret_Ok in H as (-> & _); auto].
    cinv H as server U. cinv H as r C. cinv H as f F. apply cret_Ok in H as (-> & _).
    unfold call in C. destruct (c_store s); [|discriminate]. destruct (step _ _ _). injection C as <- _. reflexivity.
  Qed.

  (** C41 *)
  Theorem C41_success_is_justified :
    forall query m ep rt s s' ep' m' fields,
      fair_query reg query -> fromPostArgs reg query = Ok m ->
      complete' m ep rt s = (s', Ok (Success ep' m' fields)) ->
      m' = m /\ wire_value query (u "mode") = Some (u "id_res") /\
      (asks_v2 query = false -> wire_value query (u "user_setup_url") = None) /\
      exists rto server handle signed sig,
        wire_value query (u "return_to") = Some rto /\ wire_value query (u "assoc_handle") = Some handle /\
        wire_value query (u "signed") = Some signed /\ wire_value query (u "sig") = Some sig /\
        ep_server_url ep' = Some server /\
        wire_value query (if asks_v2 query then u "op_endpoint" else u "identity") <> None /\
        (* what must be signed is *)
        (forall k, In k (if asks_v2 query
                         then [u "return_to"; u "identity"; u "response_nonce"; u "claimed_id"; u "assoc_handle"; u "op_endpoint"]
                         else [u "return_to"; u "identity"]) ->
           wire_value query k <> None -> In k (splitc 44 signed)) /\
        (* the fields called signed are those of the list *)
        fields = map (fun k => u "openid." ++ k) (splitc 44 signed) /\
        (* a stored key or the server itself vouches for them *)
        vouched query server handle signed sig s s'.
  Proof using.
    intros query m ep rt s s' ep' m' fields Q F H. pose proof Q as (R & Hn & Hs).
    apply complete_Success in H as (-> & M & Su & C & _ & _ & (s1 & Sg & No) & signed & Hsn & ->).
    split; auto. split.
    { unfold getArgDef in M. rewrite (field_of reg query m _ Hn F) in M by simple_key. cbn [bind] in M.
      destruct (wire_value query (u "mode")) as [mode|]; [congruence|]. discriminate. }
    split.
    { intros V. pose proof (field_ns query m (u "user_setup_url") Hn F C) as X. rewrite V in X. unfold checkSetupNeeded in Su.
      destruct (query_version reg query m Hn F) as (_ & V1). rewrite V1, V in Su. cbn [negb] in Su. rewrite X in Su by simple_key. congruence. }
    destruct (required_inv query m Hn F C) as (rto & handle & sig & signed' & H1 & H2 & H3 & H4 & H5 & H6).
    destruct (signature_inv query m ep' s s1 Q F C Sg) as (server & handle' & signed2 & sig' & G1 & G2 & G3 & G4 & G5).
    assert (signed' = signed) as ->.
    { unfold getArgReq in Hsn. rewrite (field_of reg query m _ Hn F) in Hsn by simple_key. rewrite H4 in Hsn. cbn [bind] in Hsn. congruence. }
    assert (handle' = handle) as -> by congruence. assert (signed2 = signed) as -> by congruence. assert (sig' = sig) as -> by congruence.
    exists rto, server, handle, signed, sig. split; auto. split; auto. split; auto. split; auto. split; auto. split; auto. split; auto. split; auto.
    unfold vouched. rewrite (nonce_posts _ _ _ _ No). exact G5.
  Qed.

  Lemma params_cut s : cuts_to (fst (path_params s)) (sp_path s).
  Proof using.
    unfold path_params. destruct (mem_text (sp_scheme s) uses_params && memc 59 (sp_path s)) eqn:M; [|left; auto].
    unfold splitparams. destruct (rcut 47 (sp_path s)) as [[a b]|] eqn:R.
    - apply rcut_Some in R as (E & Hb). destruct (cut 59 b) as [[x y]|] eqn:C; [|left; auto].
      apply cut_Some in C as (-> & _). right. exists y. cbn [fst]. split.
      + rewrite E. rewrite <- app_assoc. auto.
      + intros K. apply Hb. apply in_or_app. right. right. auto.
    - unfold partition. destruct (cut 59 (sp_path s)) as [[x y]|] eqn:C; [|left; auto]. apply cut_Some in C as (E & _). right. exists y. split; auto.
      apply rcut_None in R. intros K. apply R. rewrite E. apply in_or_app. right. right. auto.
  Qed.

  (** C42 *)
  Theorem C42_return_to :
    forall query m ep rt s s' ep' m' fields,
      fair_query reg query -> fromPostArgs reg query = Ok m ->
      complete' m ep rt s = (s', Ok (Success ep' m' fields)) ->
      exists rto parts,
        wire_value query (u "return_to") = Some rto /\ In (u "return_to") (splitc 44 (match wire_value query (u "signed") with Some t => t | None => [] end)) /\
        same_place e rt rto /\
        urlsplit e rto = Ok parts /\
        (forall k v, In (k, v) (parse_qsl true (sp_query parts)) -> In (k, v) query) /\
        (forall k v, In (k, v) query -> startswith k (u "openid.") = false -> In (k, v) (parse_qsl true (sp_query parts))).
  Proof using.
    intros query m ep rt s s' ep' m' fields Q F H. pose proof Q as (R & Hn & Hs).
    destruct (C41_success_is_justified _ _ _ _ _ _ _ _ _ Q F H) as (_ & _ & _ & rto & server & handle & signed & sig & H1 & _ & H3 & _ & _ & _ & H6 & _).
    apply complete_Success in H as (_ & _ & _ & _ & Ck & _).
    assert (forall k, dget text_eqb k (toPostArgs m) = dget text_eqb k query) as P by (eapply C14_parse_exact; eauto).
    unfold checkReturnTo in Ck. binv Ck. destruct a; cbn [negb] in Ck; [|discriminate].
    apply catch_Ok in E as [E|(x & _ & X)]; [|destruct (isProtocolError x); discriminate]. binv E. clear E. destruct a. rename E0 into A.
    rewrite (field_of reg query m _ Hn F) in Ck by simple_key. rewrite H1 in Ck. cbn [bind] in Ck.
    binv Ck. rename a into n1. binv Ck. destruct a as [[s1 a1] p1]. binv Ck. rename a into n2. binv Ck. destruct a as [[s2 a2] p2]. injection Ck as Ck.
    apply andb_true_iff in Ck as [Ck C3]. apply andb_true_iff in Ck as [C1 C2]. apply text_eqb_eq in C1, C2, C3. subst s2 a2 p2.
    unfold base_parts in E0, E2. binv E0. rename a into sp1. binv E2. rename a into sp2. injection E0 as Y1 Y2 Y3. injection E2 as X1 X2 X3.
    unfold verifyReturnToArgs in A. binv A. rename a into mm.
    assert (NoDup (map fst (toPostArgs m))) as Hn2 by apply toPostArgs_keys.
    assert (forall k v, In (k, v) (toPostArgs m) <-> In (k, v) query) as Same.
    { intros k v. split; intros K; apply (In_dget text_eqb text_eqb_eq) in K; auto; apply (dget_In text_eqb text_eqb_eq); [rewrite <- P|rewrite P]; auto. }
    rewrite (field_of reg _ mm _ Hn2 E0) in A by simple_key. unfold wire_value at 1 in A. rewrite P in A. change (dget text_eqb (u "openid." ++ u "return_to") query) with (wire_value query (u "return_to")) in A.
    rewrite H1 in A. cbn [bind] in A. binv A. rename a into parts. binv A. rename E5 into L1. binv A. binv A. clear A. rename E5 into Ba, E6 into L2.
    exists rto, parts. split; auto. split.
    { rewrite H3. apply H6; [|rewrite H1; discriminate]. destruct (asks_v2 query); left; auto. }
    split.
    { exists n1, n2, sp1, sp2, p1. split; auto. split; auto. split; auto. split; auto. split; [congruence|]. split; [congruence|].
      split; [rewrite <- Y3|rewrite <- X3]; apply params_cut. }
    split; auto. split.
    - intros k v K. pose proof (mapM_unit_Ok _ _ _ L1 _ K) as X. cbn [fst snd] in X. destruct (dget text_eqb k (toPostArgs m)) as [w|] eqn:D; [|discriminate].
      destruct (text_eqb v w) eqn:W; [|discriminate]. apply text_eqb_eq in W. subst w. rewrite P in D. apply (dget_In text_eqb text_eqb_eq) in D. auto.
    - intros k v K St. assert (In (k, v) a0) as K2.
      { assert (getArg mm BARE_NS k = Ok (Some v)) as G.
        { refine (proj1 (proj2 (C14_parse_exact reg (toPostArgs m) mm R Hn2 _ E0)) k v _ St); [intros al K3; apply Same in K3; eapply Hs; eauto|apply Same; auto]. }
        rewrite getArg_bare in G. injection G as G. apply (dget_In akey_eqb akey_eqb_eq) in G. unfold getArgs in Ba. cbn [fixNS bind] in Ba. injection Ba as <-.
        apply in_map_iff. exists ((Bare, k), v). split; auto. apply filter_In. split; auto. }
      pose proof (mapM_unit_Ok _ _ _ L2 _ K2) as X. cbn [fst snd] in X.
      destruct (existsb _ _) eqn:Ex; [|discriminate]. apply existsb_exists in Ex as ([k' v'] & I & Eq). cbn [fst snd] in Eq.
      apply andb_true_iff in Eq as [Q1 Q2]. apply text_eqb_eq in Q1, Q2. subst. auto.
  Qed.

  (** ** Discovery *)
  Lemma local_speaks ep0 local : local <> [] -> getLocalID ep0 = Some local -> speaks_for ep0 local.
  Proof using.
    intros Hl. unfold getLocalID, speaks_for. destruct (ep_local_id ep0) as [l|]; destruct (ep_canonicalID ep0) as [c|]; auto.
    all: try (destruct l; cbn [otruthy truthy]; auto; discriminate).
  Qed.
  Lemma single_inv ep0 c server types local : verifyDiscoverySingle e ep0 (mkEndpoint c server types (Some local) None false None) = Ok tt ->
    (forall t, In t types -> In t (ep_type_uris ep0)) /\
    (exists c' d, c = Some c' /\ urldefrag e c' = Ok d /\ ep_claimed_id ep0 = Some d) /\
    (local <> [] -> speaks_for ep0 local) /\
    (forall sv, server = Some sv -> ep_server_url ep0 = Some sv).
  Proof using.
    intros H. unfold verifyDiscoverySingle in H. cbn [ep_claimed_id ep_server_url ep_type_uris] in H. binv H. split.
    { intros t Ht. pose proof (mapM_unit_Ok _ _ _ E t Ht) as X. cbv beta in X. unfold usesExtension in X. destruct (mem_text t (ep_type_uris ep0)) eqn:M; [|discriminate]. apply mem_text_In; auto. }
    binv H. destruct a0; cbn [negb] in H; [|discriminate]. destruct c as [c|]; [|discriminate]. binv E0. injection E0 as E0.
    assert (ep_claimed_id ep0 = Some a0) as E2 by (destruct (ep_claimed_id ep0); [apply text_eqb_eq in E0; congruence|discriminate]).
    split; [exists c, a0; auto|].
    destruct (opt_eqb text_eqb (getLocalID _) (getLocalID ep0)) eqn:L; cbn [negb] in H; [|discriminate].
    apply (opt_eqb_eq text_eqb text_eqb_eq) in L. split.
    { intros Hl. apply local_speaks; auto. rewrite <- L. unfold getLocalID. cbn. destruct local; [contradiction|auto]. }
    intros sv ->. destruct (opt_eqb text_eqb (Some sv) (ep_server_url ep0)) eqn:O; [|discriminate]. apply (opt_eqb_eq text_eqb text_eqb_eq) in O. auto.
  Qed.
  Lemma services_inv l tms ep0 : verifyDiscoveredServices e l tms = Ok ep0 ->
    In ep0 l /\ exists tm, In tm tms /\ verifyDiscoverySingle e ep0 tm = Ok tt.
  Proof using.
    induction l as [|x l IH]; cbn [verifyDiscoveredServices]; [discriminate|]. intros H. binv H. destruct a.
    - inv H. split; [left; auto|]. clear IH. induction tms as [|t tms IH]; cbn [match_one] in E; [discriminate|].
      destruct (verifyDiscoverySingle e ep0 t) as [[]|z] eqn:V; [exists t; split; [left|]; auto|].
      destruct (isProtocolError z); [|discriminate]. destruct (IH E) as (tm & I & J). exists tm. split; [right|]; auto.
    - destruct (IH H) as (I & J). split; [right|]; auto.
  Qed.
  Lemma discover_inv c tms ep0 : discoverAndVerify e discover c tms = Ok ep0 ->
    exists c', c = Some c' /\ (exists l, discover c' = Ok l /\ In ep0 l) /\ exists tm, In tm tms /\ verifyDiscoverySingle e ep0 tm = Ok tt.
  Proof using.
    unfold discoverAndVerify. destruct c as [c|]; [|discriminate]. intros H. binv H. destruct a as [|x l]; [discriminate|].
    apply services_inv in H as (I & J). exists c. split; auto. split; eauto.
  Qed.

  (** C43, OpenID 2 *)
  Theorem C43_discovered_v2 :
    forall query m ep rt s s' ep' m' fields,
      fair_query reg query -> fromPostArgs reg query = Ok m -> asks_v2 query = true ->
      complete' m ep rt s = (s', Ok (Success ep' m' fields)) ->
      exists server, wire_value query (u "op_endpoint") = Some server /\ ep_server_url ep' = Some server /\
      match wire_value query (u "claimed_id"), wire_value query (u "identity") with
      | None, None => ep_claimed_id ep' = None
      | Some claimed, Some local =>
          (* the identifier without its fragment leads to an OpenID 2 endpoint of that server *)
          exists bare ep0, urldefrag e claimed = Ok bare /\ found discover ep claimed ep0 /\
            ep_claimed_id ep0 = Some bare /\ ep_server_url ep0 = Some server /\ In OPENID_2_0_TYPE (ep_type_uris ep0) /\
            (local <> [] -> speaks_for ep0 local) /\
            (* and it is reported with the fragment *)
            ep' = with_claimed_id ep0 (Some claimed)
      | _, _ => False
      end.
  Proof using.
    intros query m ep rt s s' ep' m' fields Q F V H. pose proof Q as (R & Hn & Hs).
    apply complete_Success in H as (_ & _ & _ & C & _ & D & _).
    destruct (version_inv query m Hn F C) as (Vn & _). pose proof (field_ns query m) as FN. rewrite V in *.
    unfold verifyDiscoveryResults in D. rewrite Vn in D. cbn [opt_eqb] in D. rewrite text_eqb_refl in D. unfold verifyDiscoveryResultsOpenID2, getArgReq in D.
    rewrite !FN in D by (auto; simple_key). cbn [bind] in D. clear FN.
    destruct (wire_value query (u "op_endpoint")) as [server|]; [|discriminate]. cbn [bind] in D. exists server. split; auto.
    destruct (wire_value query (u "claimed_id")) as [claimed|], (wire_value query (u "identity")) as [local|]; try discriminate.
    2:{ inv D. auto. }
    binv D. rename a into ep0. injection D as D.
    assert (found discover ep claimed ep0 /\ verifyDiscoverySingle e ep0 (mkEndpoint (Some claimed) (Some server) [OPENID_2_0_TYPE] (Some local) None false None) = Ok tt) as (Fd & Sg).
    { assert (forall t, discoverAndVerify e discover (Some claimed) [t] = Ok ep0 -> found discover ep claimed ep0 /\ verifyDiscoverySingle e ep0 t = Ok tt) as K.
      { intros t X. apply discover_inv in X as (c' & Ec & X & tm & [<-|[]] & Y). inv Ec. split; auto. right. auto. }
      destruct ep as [ep|]; auto. apply catch_Ok in E as [E|(x & _ & X)].
      - binv E. inv E. destruct a. split; auto. left. auto.
      - destruct (isProtocolError x); [|discriminate]. injection X as X. auto. }
    apply single_inv in Sg as (T & (c' & d & Ec & U & Cl) & L & Sv). injection Ec as <-. rename claimed into c'.
    assert (ep' = with_claimed_id ep0 (Some c')) as ->.
    { subst ep'. destruct (opt_eqb text_eqb (ep_claimed_id ep0) (Some c')) eqn:O; auto. apply (opt_eqb_eq text_eqb text_eqb_eq) in O.
      unfold with_claimed_id. rewrite <- O. destruct ep0; auto. }
    cbn [with_claimed_id ep_server_url]. split; auto. exists d, ep0. split; auto. split; auto. split; auto. split; auto. split; [apply T; left; auto|]. auto.
  Qed.

  (** C43, OpenID 1: the claimed identifier comes back in the return URL, or is that of the session. *)
  Theorem C43_discovered_v1 :
    forall query m ep rt s s' ep' m' fields,
      fair_query reg query -> fromPostArgs reg query = Ok m -> asks_v2 query = false ->
      complete' m ep rt s = (s', Ok (Success ep' m' fields)) ->
      exists claimed bare local,
        match dget text_eqb (u "openid1_claimed_id") query with
        | Some c => claimed = c
        | None => exists ep1, ep = Some ep1 /\ ep_claimed_id ep1 = Some claimed
        end /\
        wire_value query (u "identity") = Some local /\
        urldefrag e claimed = Ok bare /\ found discover ep claimed ep' /\ ep_claimed_id ep' = Some bare /\
        (In OPENID_1_1_TYPE (ep_type_uris ep') \/ In OPENID_1_0_TYPE (ep_type_uris ep')) /\
        (local <> [] -> speaks_for ep' local).
  Proof using.
    intros query m ep rt s s' ep' m' fields Q F V H. pose proof Q as (R & Hn & Hs).
    apply complete_Success in H as (_ & _ & _ & C & _ & D & _).
    destruct (version_inv query m Hn F C) as (Vn & _). pose proof (field_ns query m (u "identity") Hn F C) as FN. rewrite V in *.
    unfold verifyDiscoveryResults in D. rewrite Vn in D.
    assert (opt_eqb text_eqb (Some OPENID1_NS) (Some OPENID2_NS) = false) as NE by (vm_compute; reflexivity).
    rewrite NE in D. clear NE. unfold verifyDiscoveryResultsOpenID1 in D.
    rewrite FN in D by simple_key. binv D. binv D. cbn [bind] in D. rename a into rtc, a0 into cl. clear FN.
    assert (rtc = dget text_eqb (u "openid1_claimed_id") query) as Ert.
    { rewrite getArg_bare in E. injection E as <-. destruct (fromPostArgs_sound reg query m (proj1 R) Hn Hs F) as (_ & m0 & _ & _ & _ & _ & Ba).
      destruct (dget text_eqb (u "openid1_claimed_id") query) as [v|] eqn:X.
      - apply Ba. split; [apply (dget_In text_eqb text_eqb_eq); auto|vm_compute; auto].
      - destruct (dget akey_eqb (Bare, claimed_id_name) (margs m)) as [w|] eqn:Y; auto. apply Ba in Y as (Y & _).
        apply (In_dget text_eqb text_eqb_eq) in Y; auto. unfold claimed_id_name in Y. congruence. }
    destruct (wire_value query (u "identity")) as [local|]; [|discriminate].
    set (tm := mkEndpoint cl None [OPENID_1_1_TYPE] (Some local) None false None) in *.
    set (tm0 := mkEndpoint cl None [OPENID_1_0_TYPE] (Some local) None false None) in *.
    assert ((ep = Some ep' \/ exists c l, cl = Some c /\ discover c = Ok l /\ In ep' l) /\
            exists t, (t = tm \/ t = tm0) /\ verifyDiscoverySingle e ep' t = Ok tt) as (Fd & t & Ht & Sg).
    { assert (discoverAndVerify e discover cl [tm; tm0] = Ok ep' -> (ep = Some ep' \/ exists c l, cl = Some c /\ discover c = Ok l /\ In ep' l) /\
            exists t, (t = tm \/ t = tm0) /\ verifyDiscoverySingle e ep' t = Ok tt) as K.
      { intros X. apply discover_inv in X as (c' & Ec & (l & X1 & X2) & t & Ht & Y). split; [right; exists c', l; auto|]. exists t. split; auto.
        destruct Ht as [<-|[<-|[]]]; auto. }
      destruct ep as [ep|]; auto. apply catch_Ok in D as [D|(x & _ & X)].
      - binv D. inv D. split; auto. destruct a. apply catch_Ok in E1 as [E1|(x & _ & X)]; [exists tm; auto|].
        exists tm0. split; auto. destruct x; try discriminate X. injection X as X. auto.
      - destruct (isProtocolError x); [|discriminate]. injection X as X. auto. }
    assert (exists c d, cl = Some c /\ urldefrag e c = Ok d /\ ep_claimed_id ep' = Some d) as (c & d & Ec & U & Cl) by (destruct Ht as [-> | ->]; apply single_inv in Sg; apply Sg).
    subst cl. exists c, d, local. split.
    { rewrite <- Ert. destruct rtc as [rtc|]; destruct ep as [ep|]; try discriminate; try (injection E0 as <-; auto; fail). exists ep. split; auto. congruence. }
    split; auto. split; auto. split.
    { destruct Fd as [->|(c' & l & X & Y)]; [left; auto|]. right. inv X. eauto. }
    split; auto. destruct Ht as [-> | ->]; apply single_inv in Sg as (T & _ & L & _); split; auto; [left|right]; apply T; left; auto.
  Qed.
End Success.
Print Assumptions C41_success_is_justified.
Print Assumptions C42_return_to.
Print Assumptions C43_discovered_v2.
Print Assumptions C43_discovered_v1.

(** ** Examples *)
Definition toy_hmac : text -> bytes -> bytes -> bytes := fun _ k b => k ++ firstn 9 b.
Definition ex_server : text := u "http://op/".
Definition ex_assoc : assoc := mkAssoc (u "h1") [7; 8; 9] 1000 600 (u "HMAC-SHA1").
(** A positive assertion; [more] fields are added to the return URL. *)
Definition ex_fields (claimed rto : text) : dict text text :=
  [(u "openid.ns", OPENID2_NS); (u "openid.mode", u "id_res"); (u "openid.op_endpoint", ex_server);
   (u "openid.claimed_id", claimed); (u "openid.identity", u "http://op/me"); (u "openid.return_to", rto);
   (u "openid.response_nonce", u "1970-01-01T00:16:41Zsalt"); (u "openid.assoc_handle", u "h1");
   (u "openid.signed", u "op_endpoint,claimed_id,identity,return_to,response_nonce,assoc_handle")].
Definition ex_sig (query : dict text text) : text :=
  match wire_value query (u "signed") with
  | Some signed =>
      match seqToKV false (map (fun k => (k, match wire_value query k with Some v => v | None => [] end)) (splitc 44 signed)) with
      | Ok t => match encode t with Ok b => toBase64 (toy_hmac (a_type ex_assoc) (a_secret ex_assoc) b) | _ => [] end
      | _ => []
      end
  | None => []
  end.
Definition ex_query (claimed rto : text) (bare : dict text text) : dict text text :=
  ex_fields claimed rto ++ [(u "openid.sig", ex_sig (ex_fields claimed rto))] ++ bare.
Definition ex_ep : endpoint :=
  mkEndpoint (Some (u "http://a/b")) (Some ex_server) [OPENID_2_0_TYPE] (Some (u "http://op/me")) None true None.
Definition ex_store : mem := fst (mem_step mem_init 1000 (StoreA ex_server ex_assoc)).
Definition ex_complete (query : dict text text) (rt : text) (s : @cst mem) :=
  match fromPostArgs [] query with
  | Ok m => complete plain_env [] toy_hmac (fun _ => None)
              (fun posts => match posts with [_] => Some (200, u "ns:http://specs.openid.net/auth/2.0" ++ [10] ++ u "is_valid:true" ++ [10]) | _ => None end)
              (fun c => if text_eqb c (u "http://a/b") then Ok [ex_ep] else Ok []) mem_step 1001 m None rt s
  | Raise x => (s, Raise x)
  end.
Definition is_success (r : @cst mem * res response) : bool := match snd r with Ok (Success _ _ _) => true | _ => false end.
(** Accepted with a stored key, and by asking the server; refused with a changed value, a
    second time, and with a changed return URL. *)
Example C41_example :
  let q := ex_query (u "http://a/b") (u "http://rp/back?x=1") [(u "x", u "1")] in
  let s1 := fst (ex_complete q (u "http://rp/back") (mkCst (Some ex_store) [])) in
  is_success (ex_complete q (u "http://rp/back") (mkCst (Some ex_store) [])) = true /\
  is_success (ex_complete q (u "http://rp/back") s1) = false /\
  is_success (ex_complete q (u "http://rp/back") (mkCst None [])) = true /\
  is_success (ex_complete q (u "http://rp/other") (mkCst (Some ex_store) [])) = false /\
  is_success (ex_complete (dset text_eqb (u "openid.identity") (u "http://op/you") q) (u "http://rp/back") (mkCst (Some ex_store) [])) = false /\
  is_success (ex_complete (dset text_eqb (u "x") (u "2") q) (u "http://rp/back") (mkCst (Some ex_store) [])) = false.
Proof. vm_compute. auto 7. Qed.

(** C88: the path of the return URL need not be the one asked for. *)
Theorem C88_return_path_refuted :
  exists query rt s s' ep' m fields rto sa sb,
    ex_complete query rt s = (s', Ok (Success ep' m fields)) /\
    wire_value query (u "return_to") = Some rto /\
    urlsplit plain_env rt = Ok sa /\ urlsplit plain_env rto = Ok sb /\ sp_path sa <> sp_path sb.
Proof.
  exists (ex_query (u "http://a/b") (u "http://rp/back;user=2") []), (u "http://rp/back;user=1"), (mkCst None []).
  do 7 eexists. split; [vm_compute; reflexivity|]. split; [vm_compute; reflexivity|]. split; [vm_compute; reflexivity|]. split; [vm_compute; reflexivity|].
  vm_compute. discriminate.
Qed.
Print Assumptions C88_return_path_refuted.

(** C89: the identifier reported, up to its fragment, need not be the one discovered. *)
Theorem C89_claimed_id_refuted :
  exists query m s s' ep' fields claimed before after,
    fromPostArgs [] query = Ok m /\
    complete plain_env [] toy_hmac (fun _ => None) (fun _ => None) (fun _ => Raise DiscoveryFailure) mem_step 1001 m (Some ex_ep) (u "http://rp/back") s
      = (s', Ok (Success ep' m fields)) /\
    identity_url (Success ep' m fields) = Some claimed /\
    claimed = before ++ 35 :: after /\ Some before <> ep_claimed_id ex_ep.
Proof.
  exists (ex_query (u "HTTP://a/b?#x") (u "http://rp/back") []). do 1 eexists. exists (mkCst (Some ex_store) []). do 3 eexists.
  exists (u "HTTP://a/b?#x"), (u "HTTP://a/b?"), (u "x").
  split; [vm_compute; reflexivity|]. split; [vm_compute; reflexivity|]. split; [vm_compute; reflexivity|]. split; [vm_compute; reflexivity|].
  vm_compute. discriminate.
Qed.
Print Assumptions C89_claimed_id_refuted.
