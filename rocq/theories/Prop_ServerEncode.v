(** C38: how responses and errors leave the server. *)
From Coq Require Import Lia ZifyBool ZifyN ZifyNat Permutation.
From Verif Require Import Py PyFacts Utf8 KVForm CryptUtil DH Message MessageFacts MessageParse MessageSpec MessageRound MessageSimple Association AssociationFacts.
From Verif Require Import UrlLib UriNorm OidUtil OidUtilFacts TrustRoot TrustRootFacts Nonce Store StoreSpec Server Prop_KVForm Prop_Message Prop_Association Prop_Uri Prop_TrustRoot.
From Verif Require Import ServerFacts Prop_ServerDecode Prop_ServerAnswer.
Open Scope N_scope.
Local Arguments u : simpl never.

(** What a user agent sends when the form is submitted: the named inputs, in order. *)
Definition submits (f : form) : list (text * text) :=
  flat_map (fun i => match dget text_eqb (u "name") i, dget text_eqb (u "value") i with
                     | Some n, Some v => [(n, v)]
                     | _, _ => []
                     end) (form_inputs f).
Record posts_to (f : form) (action : text) (fields : list (text * text)) : Prop := {
  pt_action : dget text_eqb (u "action") (form_attrs f) = Some action;
  pt_method : dget text_eqb (u "method") (form_attrs f) = Some (u "post");
  pt_enctype : dget text_eqb (u "enctype") (form_attrs f) = Some (u "application/x-www-form-urlencoded");
  pt_charset : dget text_eqb (u "accept-charset") (form_attrs f) = Some (u "UTF-8");
  pt_fields : submits f = fields
}.
Lemma form_posts m action attrs t : posts_to (toFormMarkup m action attrs t) action (toPostArgs m).
Proof.
  assert (forall a b, a <> b -> forall v (d : dict text text), dget text_eqb a (dset text_eqb b v d) = dget text_eqb a d) as O by (intros; apply (dget_dset_other text_eqb text_eqb_eq); auto).
  constructor; cbn [toFormMarkup form_attrs form_inputs].
  - do 3 rewrite O by discriminate. apply (dget_dset_same text_eqb text_eqb_eq).
  - do 2 rewrite O by discriminate. apply (dget_dset_same text_eqb text_eqb_eq).
  - apply (dget_dset_same text_eqb text_eqb_eq).
  - rewrite O by discriminate. apply (dget_dset_same text_eqb text_eqb_eq).
  - unfold submits. cbn [toFormMarkup form_inputs]. rewrite flat_map_app.
    match goal with |- context[flat_map ?f (?x :: nil)] => change (flat_map f (x :: nil)) with (@nil (text * text)) end.
    rewrite app_nil_r. induction (toPostArgs m) as [|[k v] l IH]; auto. cbn [map flat_map fst snd]. rewrite IH. auto.
Qed.

(** A receiver that splits the URL finds the place it named and its own query, then [sent]. *)
Definition arrives_at (target url : text) (sent : list (text * text)) : Prop :=
  forall e s, urlsplit e target = Ok s -> ~ In 35 target ->
    exists s', urlsplit e url = Ok s' /\ sp_scheme s' = sp_scheme s /\ sp_netloc s' = sp_netloc s /\ sp_path s' = sp_path s /\
      parse_qsl true (sp_query s') = parse_qsl true (sp_query s) ++ sent.
(** A page, a redirect or a body that carries [fields] to [target] through the browser. *)
Inductive delivers (v2 : bool) (target : text) (fields : list (text * text)) : web -> Prop :=
| by_redirect url sent :
    startswith url target = true -> Permutation fields sent -> arrives_at target url sent ->
    (v2 = true -> (List.length url <= 2047)%nat) ->
    delivers v2 target fields (mkWeb 302 (Some url) (BText []))
| by_form url f :
    v2 = true -> appendArgsDict target fields = Ok url -> (List.length url > 2047)%nat ->
    posts_to f target fields ->
    delivers v2 target fields (mkWeb 200 None (BForm f)).

Lemma sent_items (fields : list (text * text)) target url : appendArgsDict target fields = Ok url ->
  startswith url target = true /\ exists sent, Permutation fields sent /\ arrives_at target url sent.
Proof.
  intros H. unfold appendArgsDict in H.
  assert (sendable (sorted_items fields)) as S by (apply (appendArgs_total target); eauto).
  destruct (C60_delivered target (sorted_items fields) S) as (r' & H1 & H2 & _).
  rewrite H in H1. injection H1 as <-. split; auto. exists (sorted_items fields). split; [apply sorted_items_perm|].
  intros e s Hs N. destruct (C60_receiver e target (sorted_items fields) s S Hs N) as (r & s' & R1 & R2 & R3 & R4 & R5 & _ & R6).
  rewrite H in R1. injection R1 as <-. exists s'. auto.
Qed.
Lemma sendable_url (fields : list (text * text)) target : sendable fields <-> exists url, appendArgsDict target fields = Ok url.
Proof.
  unfold appendArgsDict. rewrite appendArgs_total. split; apply sendable_perm; [|symmetry]; apply sorted_items_perm.
Qed.
Lemma limit_spec (t : text) : (OPENID1_URL_LIMIT <? len t) = true <-> (List.length t > 2047)%nat.
Proof. unfold OPENID1_URL_LIMIT, len. lia. Qed.

(** Browser responses: never stuck, and the user's browser takes exactly the response's
    fields to the return_to, beside the return_to's own query; a form is used exactly when an
    OpenID 2 response does not fit the limit. *)
Theorem C38_browser_response :
  forall r c target, rs_request r = RCheckID c -> ci_return_to c = Some target ->
    ((exists w, encode_response r = Ok w) <-> sendable (toPostArgs (rs_fields r))) /\
    (forall w, encode_response r = Ok w -> delivers (isOpenID2 (rs_fields r)) target (toPostArgs (rs_fields r)) w).
Proof.
  intros r c target R T.
  assert (response_encodeToURL r = appendArgsDict target (toPostArgs (rs_fields r))) as U.
  { unfold response_encodeToURL, request_return_to. rewrite R. cbn [bind]. rewrite T. auto. }
  assert (mem_text (request_mode (rs_request r)) BROWSER_REQUEST_MODES = true) as M.
  { rewrite R. cbn [request_mode]. destruct (ci_immediate c); vm_compute; reflexivity. }
  assert (response_toHTML r [] = Ok (toFormMarkup (rs_fields r) target [] (u "Continue"))) as F.
  { unfold response_toHTML, request_return_to. rewrite R. cbn [bind]. rewrite T. auto. }
  unfold encode_response, whichEncoding. rewrite M, U.
  rewrite (sendable_url _ target).
  destruct (appendArgsDict target (toPostArgs (rs_fields r))) as [url|x] eqn:E.
  - destruct (sent_items _ _ _ E) as (S1 & sent & S2 & S3).
    split; [split; intros _; [eauto|]|].
    + destruct (isOpenID2 (rs_fields r)); cbn [bind]; [destruct (OPENID1_URL_LIMIT <? len url)|]; rewrite ?F; cbn [bind]; eauto.
    + intros w H. destruct (isOpenID2 (rs_fields r)) eqn:V; cbn [bind] in H.
      * destruct (OPENID1_URL_LIMIT <? len url) eqn:L.
        -- rewrite F in H. cbn [bind] in H. inv H. apply limit_spec in L. eapply by_form; eauto. apply form_posts.
        -- cbn [bind] in H. inv H. eapply by_redirect; eauto. intros _. pose proof (limit_spec url). rewrite L in H. destruct H as (_ & H). lia.
      * inv H. eapply by_redirect; eauto. discriminate.
  - split; [split; [|intros (url & X); discriminate]|]; intros; [destruct H as (w & H)|]; destruct (isOpenID2 (rs_fields r)); discriminate H.
Qed.
Print Assumptions C38_browser_response.

(** The fields of a direct response: no "openid." in front. *)
Definition bare (oid : text) (kvs : list (text * text)) : list (text * text) :=
  (if text_eqb oid OPENID2_NS then [(u "ns", OPENID2_NS)] else []) ++ kvs.
Lemma simple_args reg m oid kvs : simple reg m oid kvs -> toArgs m = Ok (bare oid kvs) /\ NoDup (map fst (bare oid kvs)).
Proof.
  intros S. assert (NoDup (map fst (bare oid kvs))) as D.
  { unfold bare. destruct (si_keys _ _ _ _ S) as (D1 & D2). destruct (text_eqb oid OPENID2_NS); auto. cbn [app map fst]. constructor; auto. }
  split; auto. unfold toArgs. rewrite (si_post _ _ _ _ S).
  assert (mapM (fun e : text * text => if startswith (fst e) (u "openid.") then Ok (skipn 7 (fst e), snd e) else Raise ValueError) (on_wire (bare oid kvs)) = Ok (bare oid kvs)) as E.
  { clear. induction (bare oid kvs) as [|[k v] l IH]; auto. unfold on_wire in *. cbn [map mapM fst snd]. rewrite startswith_app. cbn [bind]. rewrite IH. auto. }
  assert (ns_param oid ++ on_wire kvs = on_wire (bare oid kvs)) as ->.
  { unfold ns_param, bare, on_wire. rewrite map_app. destruct (text_eqb oid OPENID2_NS); auto. }
  rewrite E. cbn [bind]. rewrite (dict_of_NoDup text_eqb text_eqb_eq); auto.
Qed.
Lemma dictToKV_writable d : Forall writable d <-> exists t, dictToKV d = Ok t.
Proof.
  unfold dictToKV. pose proof (C02_kv_accepts_exactly false (sort pair_leb d)) as (A & B).
  assert (Permutation d (sort pair_leb d)) as P by apply sort_perm.
  assert (Forall writable d <-> Forall (fun kv => writable kv /\ (false = true -> tidy kv)) (sort pair_leb d)) as ->.
  { rewrite !Forall_forall. split; intros H x I.
    - split; [|discriminate]. apply H. eapply Permutation_in; [symmetry; eauto|auto].
    - apply H. eapply Permutation_in; eauto. }
  split; [intros H; eexists; apply A; auto|]. intros (t & E).
  destruct (Forall_dec (fun kv => writable kv /\ (false = true -> tidy kv))) with (l := sort pair_leb d) as [Y|N]; auto.
  - intros [k v]. unfold writable. cbn [fst snd].
    destruct (in_dec N.eq_dec 10 k), (in_dec N.eq_dec 58 k), (in_dec N.eq_dec 10 v); [right|right|right|right|right|right|right|left]; try tauto.
    split; auto. discriminate.
  - rewrite B in E by auto. discriminate.
Qed.

(** A body that says exactly [fields]. *)
Definition says_exactly (body : text) (fields : list (text * text)) : Prop :=
  exists e, kvToDict body = Ok e /\ NoDup (map fst e) /\ forall k v, In (k, v) e <-> In (k, v) fields.
Lemma kv_says reg m oid kvs : simple reg m oid kvs ->
  (Forall writable kvs <-> exists b, toKVForm m = Ok b) /\
  (Forall tidy kvs -> forall b, toKVForm m = Ok b -> says_exactly b (bare oid kvs)).
Proof.
  intros S. destruct (simple_args _ _ _ _ S) as (E & D). unfold toKVForm. rewrite E. cbn [bind]. split.
  - rewrite <- dictToKV_writable. unfold bare. rewrite Forall_app. split; [|tauto]. intros W. split; auto.
    destruct (text_eqb oid OPENID2_NS); auto. constructor; auto. unfold writable. cbn [fst snd].
    split; [|split]; vm_compute; intuition discriminate.
  - intros T b H. destruct (C02_kv_dict (bare oid kvs) (bare oid kvs) b) as (_ & e & E1 & E2); auto.
    { unfold bare. rewrite Forall_app. split; auto. destruct (text_eqb oid OPENID2_NS); auto. constructor; auto.
      unfold tidy. rewrite <- !sp_ws_clean. cbn [fst snd]. split; split; vm_compute; reflexivity. }
    exists e. split; auto. split; auto. unfold kvToDict in E1. binv E1. injection E1 as <-. apply (NoDup_dict_of text_eqb text_eqb_eq).
Qed.

(** Direct responses: a key-value body with the response's fields. *)
Theorem C38_direct_response :
  forall reg r oid kvs, (forall c, rs_request r <> RCheckID c) -> simple reg (rs_fields r) oid kvs ->
    ((exists w, encode_response r = Ok w) <-> Forall writable kvs) /\
    (Forall tidy kvs -> forall w, encode_response r = Ok w ->
       exists body, w = mkWeb 200 None (BText body) /\ says_exactly body (bare oid kvs)).
Proof.
  intros reg r oid kvs R S. destruct (kv_says _ _ _ _ S) as (W & Y).
  assert (encode_response r = (b <- toKVForm (rs_fields r) ;; Ok (mkWeb HTTP_OK None (BText b)))) as ->.
  { unfold encode_response, whichEncoding. destruct (rs_request r) as [c|c|c]; [destruct (R c); auto|reflexivity|reflexivity]. }
  split.
  - rewrite W. destruct (toKVForm (rs_fields r)) as [b|x]; cbn [bind]; split; intros (y & H); try discriminate; eauto.
  - intros T w H. binv H. inv H. eauto.
Qed.
Print Assumptions C38_direct_response.

(** Errors.  [q] is the client's query; what the client learns is the error text, at the
    return_to it named if it named one (valid or not), in the body if it spoke to the server
    directly; anything else cannot be answered. *)
Definition error_fields (t : text) : list (text * text) := [(u "mode", u "error"); (u "error", t)].
Definition direct_mode (o : option text) : Prop :=
  exists mode, o = Some mode /\ mode <> [] /\ mode <> u "checkid_setup" /\ mode <> u "checkid_immediate".
Theorem C38_error :
  forall reg query m oid cls txt, NoDup (map fst query) -> fromPostArgs reg query = Ok m -> getOpenIDNamespace m = Some oid ->
    let p := mkPError cls (Some m) txt in
    let said := ns_param oid ++ on_wire (error_fields txt) in
    match wire_value query (u "return_to") with
    | Some target =>
        ((exists w, encode_error p = Ok w) <-> Forall scalar txt) /\
        (forall w, encode_error p = Ok w -> delivers (text_eqb oid OPENID2_NS) target said w)
    | None =>
        (direct_mode (wire_value query (u "mode")) ->
           ((exists w, encode_error p = Ok w) <-> ~ In 10 txt) /\
           (~ sp_ws txt -> forall w, encode_error p = Ok w ->
              exists body, w = mkWeb 400 None (BText body) /\ says_exactly body (bare oid (error_fields txt)))) /\
        (~ direct_mode (wire_value query (u "mode")) -> encode_error p = Raise EncodingError)
    end.
Proof.
  intros reg query m oid cls txt D H V p said.
  destruct (fromPostArgs_ver _ _ _ H D) as (V' & A). assert (oid = oid_of (openid_part query)) as EO by congruence. rewrite <- EO in A. clear EO V'.
  assert (exists reply, error_toMessage p = Ok reply /\ simple reg reply oid (error_fields txt)) as (reply & ER & S).
  { unfold error_toMessage. cbn [pe_message pe_text p]. rewrite V.
    destruct (simple_new reg oid A) as (m0 & E0 & S0). rewrite E0. cbn [bind].
    destruct (simple_set reg m0 oid [] (u "mode") (u "error") S0) as (m1 & E1 & S1); [intros []|discriminate|]. rewrite E1. cbn [bind].
    destruct (simple_set reg m1 oid _ (u "error") txt S1) as (m2 & E2 & S2); [intros [X|[]]; discriminate|discriminate|]. eauto. }
  assert (getReturnTo p = Ok (wire_value query (u "return_to"))) as RT.
  { unfold getReturnTo. cbn [pe_message p]. apply (field_of reg); auto; simple_key. }
  assert (getArg m OPENID_NS (u "mode") = Ok (wire_value query (u "mode"))) as MO by (apply (field_of reg); auto; simple_key).
  assert (isOpenID2 m = text_eqb oid OPENID2_NS) as V2 by (unfold isOpenID2; rewrite V; auto).
  assert (toPostArgs reply = said) as PA by apply S.
  destruct (wire_value query (u "return_to")) as [target|] eqn:T.
  - assert (error_encodeToURL p = appendArgsDict target said) as U.
    { unfold error_encodeToURL. rewrite ER, RT. cbn [bind]. unfold toURL. rewrite PA. auto. }
    assert (Forall scalar txt <-> sendable said) as SS.
    { unfold said, sendable. rewrite Forall_app. split.
      - intros F. split.
        + unfold ns_param. destruct (text_eqb oid OPENID2_NS); constructor; auto. split; repeat constructor; vm_compute; intuition discriminate.
        + repeat constructor; cbn [fst snd]; auto; try (vm_compute; intuition discriminate).
      - intros (_ & F). apply Forall_inv_tail, Forall_inv in F. apply F. }
    rewrite SS, (sendable_url _ target). unfold encode_error, error_whichEncoding. rewrite RT. cbn [bind pe_message p]. rewrite V2, U, ER.
    destruct (appendArgsDict target said) as [url|x] eqn:E.
    + destruct (sent_items _ _ _ E) as (S1 & sent & S2 & S3).
      split; [split; intros _; [eauto|]|].
      * destruct (text_eqb oid OPENID2_NS); cbn [bind]; [destruct (OPENID1_URL_LIMIT <? len url)|]; cbn [bind]; eauto.
      * intros w Hw. destruct (text_eqb oid OPENID2_NS) eqn:Q; cbn [bind] in Hw.
        -- destruct (OPENID1_URL_LIMIT <? len url) eqn:L; cbn [bind] in Hw; inv Hw.
           ++ apply limit_spec in L. eapply by_form; eauto. rewrite <- PA. apply form_posts.
           ++ eapply by_redirect; eauto. intros _. pose proof (limit_spec url) as X. rewrite L in X. destruct X as (_ & X). lia.
        -- inv Hw. eapply by_redirect; eauto. discriminate.
    + split; [split; [|intros (url & X); discriminate]|]; intros; [destruct H0 as (w & H0)|]; destruct (text_eqb oid OPENID2_NS); discriminate H0.
  - unfold encode_error, error_whichEncoding. rewrite RT. cbn [bind pe_message p]. rewrite MO. cbn [bind].
    destruct (kv_says _ _ _ _ S) as (W & Y).
    assert (direct_mode (wire_value query (u "mode")) <-> exists t, wire_value query (u "mode") = Some t /\ truthy t && negb (mem_text t BROWSER_REQUEST_MODES) = true) as DM.
    { unfold direct_mode. split; intros (t & E & X); exists t; split; auto.
      - destruct X as (X1 & X2 & X3). destruct t as [|z t]; [congruence|]. cbn [truthy andb]. apply negb_true_iff.
        destruct (mem_text (z :: t) BROWSER_REQUEST_MODES) eqn:M; auto. apply mem_text_In in M. destruct M as [M|[M|[]]]; rewrite <- M in *; congruence.
      - apply andb_true_iff in X as (X1 & X2). apply negb_true_iff in X2. destruct t; [discriminate|]. split; [discriminate|].
        split; intros E'; rewrite E' in X2; vm_compute in X2; discriminate. }
    split.
    + intros M. apply DM in M as (t & -> & ->). cbn [bind]. rewrite ER. cbn [bind]. split.
      * assert (~ In 10 txt <-> Forall writable (error_fields txt)) as ->.
        { unfold error_fields. split; [intros N; constructor; [|constructor; auto]|intros F; apply Forall_inv_tail, Forall_inv in F; apply F].
          - repeat split; vm_compute; intuition discriminate.
          - repeat split; auto; vm_compute; intuition discriminate. }
        rewrite W. destruct (toKVForm reply) as [b|x]; cbn [bind]; split; intros (y & Hy); try discriminate; eauto.
      * intros N w Hw. binv Hw. inv Hw. exists a. split; auto. apply Y; auto. constructor; [|constructor; auto].
        -- unfold tidy. rewrite <- !sp_ws_clean. cbn [fst snd]. split; split; vm_compute; reflexivity.
        -- split; auto. cbn [fst]. rewrite <- sp_ws_clean. split; vm_compute; reflexivity.
    + intros M. destruct (wire_value query (u "mode")) as [t|]; auto.
      destruct (truthy t && negb (mem_text t BROWSER_REQUEST_MODES)) eqn:X; auto. destruct M. apply DM. eauto.
Qed.
Print Assumptions C38_error.
(** An error that comes without a message. *)
Theorem C38_error_without_message : forall cls txt, encode_error (mkPError cls None txt) = Raise EncodingError.
Proof. reflexivity. Qed.
(** The answer to [query], encoded. *)
Definition answers (query : list (text * text)) (allow : bool) : res web :=
  match decoded_id query with
  | Some c => r <- CheckID_answer plain_env c allow None None None 1700000000%Z (u "s") ;; encode_response r
  | None => Raise TypeError
  end.
Definition with_return_to (t : text) (query : list (text * text)) := dset text_eqb (u "openid.return_to") t query.
Definition long (n : nat) : text := u "http://rp.example/" ++ repeat 97 n.
Definition kind (w : res web) : option (N * option nat) :=
  match w with Ok w => Some (w_code w, option_map (@List.length N) (w_location w)) | Raise _ => None end.
(** 18 characters come before the [n] letters and 72 after them. *)
Example C38_example :
  answers login_query false =
    Ok (mkWeb 302 (Some (u "http://rp.example/back?x=1&openid.mode=cancel&openid.ns=http%3A%2F%2Fspecs.openid.net%2Fauth%2F2.0")) (BText [])) /\
  kind (answers (with_return_to (long 1957) login_query) false) = Some (302, Some 2047%nat) /\
  kind (answers (with_return_to (long 1958) login_query) false) = Some (200, None) /\
  kind (answers (with_return_to (long 3000) login1_query) false) = Some (302, Some 3037%nat).
Proof. split; [vm_compute; reflexivity|]. split; [vm_compute; reflexivity|]. split; [vm_compute; reflexivity|vm_compute; reflexivity]. Qed.
Example C38_error_example :
  (exists b, encode_error (mkPError ServerProtocolError (match fromPostArgs [] [(u "openid.mode", u "associate")] with Ok m => Some m | _ => None end) (u "no")) =
     Ok (mkWeb 400 None (BText b)) /\ b = u "error:no" ++ [10] ++ u "mode:error" ++ [10]) /\
  encode_error (mkPError ServerProtocolError (match fromPostArgs [] login1_query with Ok m => Some m | _ => None end) (u "no")) =
    Ok (mkWeb 302 (Some (u "http://rp.example/back?openid.error=no&openid.mode=error")) (BText [])).
Proof. split; [eexists; split; vm_compute; reflexivity|vm_compute; reflexivity]. Qed.

(** ** C86: a return_to that ends in '#' is accepted, and the answer to it is put in the
    fragment, which a browser does not send. *)
Theorem C86_answer_reaches_relying_party_refuted :
  exists query url s, decoded_id query <> None /\ answers query false = Ok (mkWeb 302 (Some url) (BText [])) /\
    urlsplit plain_env url = Ok s /\ sp_query s = [] /\ sp_fragment s <> [].
Proof.
  exists (with_return_to (u "http://rp.example/back#") login_query). do 2 eexists.
  split; [vm_compute; discriminate|]. split; [vm_compute; reflexivity|]. split; [vm_compute; reflexivity|]. split; [reflexivity|discriminate].
Qed.
Print Assumptions C86_answer_reaches_relying_party_refuted.
