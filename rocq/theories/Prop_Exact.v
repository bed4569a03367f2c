(** C99, C105, C116, C119, C120, C128: the line between the cases in which these refuted claims hold
    and those in which they fail. *)
From Coq Require Import Lia ZifyBool ZifyN ZifyNat Sorted.
From Verif Require Import Py PyFacts UrlLib UriNorm Prop_Uri Endpoint Discover Prop_Discover Prop_DiscoverUri Fetch Pape.
From Verif Require Import Message Consumer Prop_ConsumerRequest.
From Verif Require Prop_Fetch Prop_Pape Prop_Consumer Prop_Association.
Open Scope N_scope.
Local Arguments u : simpl never.

(** C105: an endpoint that is not a provider's claims the identifier that discovery
    returns exactly if the address of the page, after redirections, is its own normal
    form. *)
Theorem C105_same_claimed_identifier_exactly :
  forall e rnd web parse_xml parse_html decode_as parse_meta uri s s' c eps,
    discoverURI e rnd web parse_xml parse_html decode_as parse_meta uri s = (s', Ok (c, eps)) ->
    exists n q resp,
      (normalizeURL e uri = Ok n \/ normalizeURL e (u "http://" ++ uri) = Ok n) /\
      d_sent s' = d_sent s ++ q /\ page_of web (d_sent s) q n resp /\
      normalizeURL e (r_final_url resp) = Ok c /\
      forall ep, In ep eps -> isOPIdentifier ep = false ->
        (ep_claimed_id ep = Some c <-> normalizeURL e (r_final_url resp) = Ok (r_final_url resp)).
Proof.
  intros e rnd web px ph da pm uri s s' c eps H.
  destruct (C103_claimed_identifier _ _ _ _ _ _ _ _ _ _ _ _ H) as (n & q & resp & N & E & P & C & F).
  exists n, q, resp. split; [exact N|]. split; [exact E|]. split; [exact P|]. split; [exact C|].
  intros ep I O. rewrite Forall_forall in F. destruct (F ep I) as (K & _). rewrite O in K. rewrite K, C.
  split; intros X.
  - apply (f_equal (fun o => match o with Some t => t | None => [] end)) in X. rewrite X. reflexivity.
  - apply (f_equal (fun o => match o with Ok t => t | Raise _ => [] end)) in X. rewrite X. reflexivity.
Qed.
Print Assumptions C105_same_claimed_identifier_exactly.

Example C105_exactly_example :
  match discovered (u "http://user.example/me"), discovered (u "http://user.example/me#x") with
  | Ok (c, [ep]), Ok (c', [ep']) =>
      c = u "http://user.example/me" /\ ep_claimed_id ep = Some c /\
      c' = u "http://user.example/me" /\ ep_claimed_id ep' = Some (u "http://user.example/me#x")
  | _, _ => False
  end.
Proof. vm_compute. repeat split. Qed.

(** C119: the accessor raises exactly if a level was given that is no integer, and then
    ValueError; a level set from an integer is read back. *)
Theorem C119_nist_level_exactly :
  forall r,
    (nist_auth_level r = Ok None <-> dget text_eqb LEVELS_NIST (pr_levels r) = None) /\
    (forall z, nist_auth_level r = Ok (Some z) <->
       exists v, dget text_eqb LEVELS_NIST (pr_levels r) = Some v /\ int_of_text v = Ok z) /\
    (forall x, nist_auth_level r = Raise x <->
       x = ValueError /\ exists v, dget text_eqb LEVELS_NIST (pr_levels r) = Some v /\ int_of_text v = Raise ValueError) /\
    (forall z al r', setAuthLevel r LEVELS_NIST (str_of_Z z) al = Ok r' -> nist_auth_level r' = Ok (Some z)).
Proof.
  intros r. unfold nist_auth_level, getAuthLevel.
  split; [|split; [|split]].
  - destruct (dget text_eqb LEVELS_NIST (pr_levels r)) as [v|].
    + destruct (int_of_text v) as [z|x]; cbn [bind]; split; intros X; discriminate X.
    + split; reflexivity.
  - intros z. destruct (dget text_eqb LEVELS_NIST (pr_levels r)) as [v|].
    + destruct (int_of_text v) as [z'|x] eqn:E; cbn [bind]; split.
      * intros X. injection X as <-. eauto.
      * intros (v' & V & I). injection V as <-. congruence.
      * intros X. discriminate X.
      * intros (v' & V & I). injection V as <-. congruence.
    + split; [intros X; discriminate X|]. intros (v' & V & _). discriminate V.
  - intros x. destruct (dget text_eqb LEVELS_NIST (pr_levels r)) as [v|].
    + destruct (int_of_text v) as [z'|y] eqn:E; cbn [bind]; split.
      * intros X. discriminate X.
      * intros (_ & v' & V & I). injection V as <-. congruence.
      * intros X. injection X as <-. apply Prop_Pape.int_error in E as K. subst y. eauto.
      * intros (-> & v' & V & I). injection V as <-. congruence.
    + split; [intros X; discriminate X|]. intros (_ & v' & V & _). discriminate V.
  - intros z al r' H. unfold setAuthLevel in H. apply bind_Ok in H as (m & _ & H). injection H as <-.
    cbn [pr_levels]. rewrite (dget_dset_same text_eqb text_eqb_eq). rewrite int_of_str. reflexivity.
Qed.
Print Assumptions C119_nist_level_exactly.

Example C119_exactly_example :
  nist_auth_level (mkPResp [] None [(LEVELS_NIST, u " 2 ")] []) = Ok (Some 2%Z) /\
  nist_auth_level (mkPResp [] None [(LEVELS_NIST, [])] []) = Raise ValueError /\
  nist_auth_level (mkPResp [] None [] []) = Ok None.
Proof. split; [vm_compute; reflexivity|]. split; vm_compute; reflexivity. Qed.

Lemma exists_last_or_nil {A} (l : list A) : l = [] \/ exists a x, l = a ++ [x].
Proof. destruct l as [|y l] using rev_ind; eauto. Qed.
(** C128: a body exceeds the limit by one chunk at the most. *)
Theorem C128_body_bound :
  forall env net clock agent fuel url body headers sent r n,
    (forall t, net sent = Some t -> Forall (fun c => len c <= n) (tr_chunks t)) ->
    curl_fetch env net clock agent fuel url body headers = Some (sent, Fetched r) ->
    len (r_body r) <= 1024 * MAX_RESPONSE_KB + n.
Proof.
  intros env net clock agent fuel url body headers sent r n Hn H.
  destruct (Prop_Fetch.C127_body_limit _ _ _ _ _ _ _ _ _ _ H) as (t & N & B & L).
  specialize (Hn t N). rewrite B. change (1024 * MAX_RESPONSE_KB) with 1048576.
  destruct (exists_last_or_nil (tr_chunks t)) as [->|(before & c & E)]; [cbn; lia|].
  specialize (L _ _ E). rewrite E in *. apply Forall_app in Hn as (_ & Hc). inversion Hc as [|? ? Hx _]; subst.
  rewrite concat_app. cbn [List.concat]. rewrite app_nil_r. unfold len in *. rewrite app_length. lia.
Qed.
Print Assumptions C128_body_bound.

(** One chunk of more than 1024 KB is taken. *)
Example C128_bound_example :
  exists net sent r,
    curl_fetch Prop_Fetch.ascii_env net (fun _ => 0%Z) [] 1 (u "http://a.example/") None [] = Some (sent, Fetched r) /\
    len (r_body r) = 1024 * MAX_RESPONSE_KB + 1.
Proof.
  assert (forall c, curl_fetch Prop_Fetch.ascii_env (fun _ => Some (Prop_Fetch.page 200 [] c)) (fun _ => 0%Z) [] 1 (u "http://a.example/") None []
            = Some ([mkRequest (u "http://a.example/") None [(u "User-Agent", [])] (Some 20%Z)], Fetched (mkResp (u "http://a.example/") 200 [] c))) as H
    by (intros c; vm_compute; reflexivity).
  eexists. do 2 eexists. split; [apply (H (repeat 120 (N.to_nat 1048577)))|].
  cbn [r_body]. unfold len. rewrite repeat_length, N2Nat.id. reflexivity.
Qed.

(** C116: for a response that declares the extension, None is returned exactly if one of
    the arguments it has is not signed; so not when there are none. *)
Theorem C116_no_signed_args_exactly :
  forall udec reg query m signed a,
    Prop_Consumer.fair_query reg query -> fromPostArgs reg query = Ok m ->
    In (u "openid.ns." ++ a, pape_ns) query ->
    (pape_fromSuccessResponse udec m (openid_names signed) = Ok None <->
     exists k v, Prop_Association.wire_value query (dotted a k) = Some v /\ ~ In (dotted a k) signed).
Proof.
  intros udec reg query m signed a F P D.
  destruct (C48_extension reg query m F P signed a pape_ns D) as (args & _ & W & _ & G & S & N).
  unfold pape_fromSuccessResponse. rewrite G.
  destruct (forallb (fun e => mem_text (dotted a (fst e)) signed) args) eqn:B.
  - rewrite forallb_forall in B.
    assert (forall k v, In (k, v) args -> In (dotted a k) signed) as A.
    { intros k v I. apply mem_text_In. exact (B (k, v) I). }
    rewrite (S A). cbn [bind]. split.
    + intros X. destruct (pape_response_parse udec args (isOpenID1 m) false) as [r|x]; discriminate X.
    + intros (k & v & V & X). apply W in V. destruct (X (A k v V)).
  - assert (exists k v, In (k, v) args /\ ~ In (dotted a k) signed) as (k & v & I & X).
    { clear -B. induction args as [|[k v] args IH]; [discriminate B|]. cbn [forallb fst] in B.
      destruct (mem_text (dotted a k) signed) eqn:M.
      - destruct (IH B) as (k' & v' & I & X). exists k', v'. split; [right; exact I|exact X].
      - exists k, v. split; [left; reflexivity|]. rewrite <- mem_text_In. rewrite M. discriminate. }
    rewrite (N k v I X). cbn [bind]. split; [|reflexivity]. intros _. exists k, v. split; [apply W; exact I|exact X].
Qed.
Print Assumptions C116_no_signed_args_exactly.

Example C116_exactly_example :
  let query := [(u "openid.ns", OPENID2_NS); (u "openid.ns.p", pape_ns); (u "openid.p.auth_policies", u "urn:p"); (u "openid.p.auth_time", u "x")] in
  match fromPostArgs [] query with
  | Ok m =>
      pape_fromSuccessResponse (fun _ => false) m (openid_names [u "p.auth_policies"]) = Ok None /\
      exists r, pape_fromSuccessResponse (fun _ => false) m (openid_names [u "p.auth_policies"; u "p.auth_time"]) = Ok (Some r) /\
                pr_policies r = [u "urn:p"]
  | Raise _ => False
  end.
Proof. vm_compute. split; [reflexivity|]. eexists. split; reflexivity. Qed.

(** C99: the documented choice is made exactly if the services are all of one sort, and the
    documented order is there, without providers, exactly if it was there before. *)
Definition by_preference (l : list endpoint) : Prop :=
  StronglySorted (fun a b => (best_match openid_type_uris (ep_type_uris a) <= best_match openid_type_uris (ep_type_uris b))%nat) l.
Theorem C99_documented_exactly :
  forall services,
    (documented_order services (getOPOrUserServices services) <->
     (forall ep, In ep services -> isOPIdentifier ep = true) \/ (forall ep, In ep services -> isOPIdentifier ep = false)) /\
    (documented_preference services (getOPOrUserServices services) <->
     (exists op, In op services /\ isOPIdentifier op = true) \/ by_preference services).
Proof.
  intros services. rewrite C57_providers_first.
  assert ((exists op, In op services /\ isOPIdentifier op = true) \/ (forall ep, In ep services -> isOPIdentifier ep = false)) as [(op & I & O)|A].
  { destruct (existsb isOPIdentifier services) eqn:B.
    - left. apply existsb_exists. exact B.
    - right. intros ep I. destruct (isOPIdentifier ep) eqn:O; [|reflexivity].
      rewrite <- B. symmetry. apply existsb_exists. eauto. }
  - split.
    + unfold documented_order. split.
      * intros H. left. intros ep J. destruct (isOPIdentifier ep) eqn:E; [reflexivity|]. rewrite <- E. apply H; [eauto|].
        apply in_app_iff. right. apply filter_In. rewrite E. auto.
      * intros [H|H].
        -- intros _ ep J. apply in_app_iff in J as [J|J]; apply filter_In in J as (J & _); auto.
        -- specialize (H op I). congruence.
    + split; [intros _; left; eauto|]. intros _ K. specialize (K op I). congruence.
  - assert (filter isOPIdentifier services ++ filter (fun ep => negb (isOPIdentifier ep)) services = services) as ->.
    { clear -A. induction services as [|x l IH]; [reflexivity|]. cbn [filter]. rewrite (A x (or_introl eq_refl)). cbn [negb].
      specialize (IH (fun ep I => A ep (or_intror I))).
      assert (filter isOPIdentifier l = []) as E.
      { clear -A. induction l as [|y l IH]; [reflexivity|]. cbn [filter]. rewrite (A y (or_intror (or_introl eq_refl))).
        apply IH. intros ep [J|J]; apply A; [left; exact J|right; right; exact J]. }
      rewrite E in *. cbn [app] in *. rewrite IH. reflexivity. }
    split.
    + split; [intros _; right; exact A|]. intros _ (op & I & O). specialize (A op I). congruence.
    + unfold documented_preference. split; [intros H; right; exact (H A)|]. intros [(op & I & O)|H] _; [|exact H]. specialize (A op I). congruence.
Qed.
Print Assumptions C99_documented_exactly.

Example C99_exactly_example :
  documented_order [ep_of_type OPENID_1_1_TYPE; ep_of_type OPENID_2_0_TYPE]
    (getOPOrUserServices [ep_of_type OPENID_1_1_TYPE; ep_of_type OPENID_2_0_TYPE]) /\
  documented_preference [ep_of_type OPENID_IDP_2_0_TYPE; ep_of_type OPENID_1_1_TYPE]
    (getOPOrUserServices [ep_of_type OPENID_IDP_2_0_TYPE; ep_of_type OPENID_1_1_TYPE]).
Proof.
  split.
  - apply C99_documented_exactly. right. intros ep [<-|[<-|[]]]; vm_compute; reflexivity.
  - apply C99_documented_exactly. left. eexists. split; [left; reflexivity|vm_compute; reflexivity].
Qed.

(** C120: the policies read are without duplicates exactly if no policy other than the two
    names for none is listed twice. *)
Definition times_listed (args : dict text text) (p : text) : nat :=
  count_occ (list_eq_dec N.eq_dec) (Prop_Pape.list_of (u "auth_policies") args) p.
Theorem C120_policy_once_exactly :
  forall udec args v1 r, NoDup (dkeys args) -> pape_response_parse udec args v1 false = Ok r ->
    (NoDup (pr_policies r) <-> forall p, p <> u "none" -> p <> AUTH_NONE -> (times_listed args p <= 1)%nat).
Proof.
  intros udec args v1 r N H.
  destruct (Prop_Pape.C56_response_parse udec args v1 N) as [(_ & E)|(_ & r' & E & P & _)]; rewrite E in H; [discriminate H|].
  injection H as <-. rewrite P. unfold Prop_Pape.policies_read, times_listed.
  set (f := fun p => negb (text_eqb p (u "none") || text_eqb p AUTH_NONE)).
  generalize (Prop_Pape.list_of (u "auth_policies") args). intros l.
  assert (forall p, f p = true <-> p <> u "none" /\ p <> AUTH_NONE) as F.
  { intros p. unfold f. rewrite negb_true_iff, orb_false_iff. rewrite <- !not_true_iff_false, !text_eqb_eq. reflexivity. }
  assert (forall p, count_occ (list_eq_dec N.eq_dec) (filter f l) p = if f p then count_occ (list_eq_dec N.eq_dec) l p else 0%nat) as C.
  { intros p. clear. induction l as [|x l IH]; [destruct (f p); reflexivity|]. cbn [filter count_occ].
    destruct (f x) eqn:X; cbn [count_occ]; destruct (list_eq_dec N.eq_dec x p) as [->|D]; rewrite IH; try rewrite X; reflexivity. }
  rewrite (NoDup_count_occ (list_eq_dec N.eq_dec)). split.
  - intros H p A B. specialize (H p). rewrite C, (proj2 (F p) (conj A B)) in H. exact H.
  - intros H p. rewrite C. destruct (f p) eqn:X; [|lia]. apply F in X as (A & B). auto.
Qed.
Print Assumptions C120_policy_once_exactly.

Example C120_exactly_example :
  let listed s := match pape_response_parse (fun _ => false) [(u "auth_policies", s)] false false with Ok r => pr_policies r | Raise _ => [] end in
  listed (u "urn:p none urn:q none") = [u "urn:p"; u "urn:q"] /\ listed (u "urn:p none urn:p") = [u "urn:p"; u "urn:p"].
Proof. vm_compute. split; reflexivity. Qed.
