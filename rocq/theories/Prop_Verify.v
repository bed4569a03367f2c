(** C137-C139: return URLs verified against the document at the realm
    (/repo/openid/server/trustroot.py, /repo/openid/server/server.py returnToVerified). *)
From Coq Require Import Lia ZifyBool ZifyN ZifyNat Permutation.
From Verif Require Import Py PyFacts UrlLib UrlLibFacts UriNorm TrustRoot Message Etxrd Prop_Etxrd Endpoint Discover Prop_Discover Prop_DiscoverUri Prop_DiscoverXri Verify.
From Verif Require Server.
Open Scope N_scope.

Local Arguments u : simpl never.

(** ** C137 *)
(** The return URLs that a document lists: the URIs of services of its last XRD that have the
    type for return URLs. *)
Definition lists (root : xel) (a : text) : Prop :=
  exists above last service te ue,
    x_tag root = u "{xri://$xrds}XRDS" /\ xrds root = above ++ [last] /\ In service (tagged service_el last) /\
    In te (tagged type_el service) /\ x_text te = Some (u "http://specs.openid.net/auth/2.0/return_to") /\
    In ue (tagged uri_el service) /\ x_text ue = Some a.

Section Verified.
  Variable e : uenv.
  Variable rnd : shuffler.
  Variable web : list freq -> res fresp.
  Variable parse_xml : bytes -> option xel.
  Variable decode_as : text -> bytes -> res text.
  Variable parse_meta : (text + bytes) -> option xel.
  Hypothesis shuffles : forall n l, Permutation l (rnd n l).
  Notation good_answer := (good_answer web).
  Notation names_location := (names_location decode_as parse_meta).
  Notation verify := (verify e rnd web parse_xml decode_as parse_meta).

  (** The document found from the page [d], the requests made for it, and the address of the
      page after redirects. *)
  Inductive found (sent : list freq) (d : text) : list freq -> text -> bytes -> Prop :=
  | at_the_page resp :
      good_answer (sent ++ [mkFreq d true]) resp ->
      found sent d [mkFreq d true] (r_final_url resp) (r_body resp)
  | at_a_location resp loc resp2 :
      good_answer (sent ++ [mkFreq d true]) resp -> names_location resp loc -> loc <> [] -> loc <> r_final_url resp ->
      good_answer (sent ++ [mkFreq d true; mkFreq loc false]) resp2 ->
      found sent d [mkFreq d true; mkFreq loc false] (r_final_url resp) (r_body resp2).

  Lemma yadis_found d s s' y : yadisDiscover web decode_as parse_meta d s = (s', Ok y) ->
    exists q, d_sent s' = d_sent s ++ q /\ found (d_sent s) d q (y_normalized_uri y) (y_body y).
  Proof using.
    intros H. unfold yadisDiscover in H. apply mbind_inv in H as [(resp & s1 & F & H)|(x & _ & X)]; [|discriminate X].
    unfold fetch in F. injection F as <- F. destruct (status_ok (r_status resp)) eqn:St; cbn [negb] in H; [|discriminate H].
    apply status_ok_spec in St. assert (good_answer (d_sent s ++ [mkFreq d true]) resp) as G by (split; auto).
    apply mbind_inv in H as [(loc & s2 & W & H)|(x & _ & X)]; [|discriminate X]. apply mret_inv in W as (<- & W).
    destruct (otruthy loc && usedYadisLocation (r_final_url resp) loc) eqn:C.
    - apply andb_prop in C as (C1 & C2). destruct loc as [loc|]; [|discriminate C1]. cbn [usedYadisLocation] in C2.
      assert (loc <> []) as N1 by (intros ->; discriminate C1). assert (loc <> r_final_url resp) as N2 by (intros ->; rewrite text_eqb_refl in C2; discriminate C2).
      apply mbind_inv in H as [(resp2 & s3 & F2 & H)|(x & _ & X)]; [|discriminate X]. unfold fetch in F2. cbn [d_sent d_shuffles] in F2. injection F2 as <- F2.
      rewrite <- app_assoc in F2. destruct (status_ok (r_status resp2)) eqn:St2; cbn [negb] in H; [|discriminate H]. apply status_ok_spec in St2.
      apply mret_inv in H as (<- & H). injection H as <-. cbn [d_sent y_normalized_uri y_body].
      exists [mkFreq d true; mkFreq loc false]. split; [rewrite <- app_assoc; reflexivity|].
      apply (at_a_location (d_sent s) d resp loc resp2); auto; [eapply whereIsYadis_names; eauto|split; auto].
    - apply mret_inv in H as (<- & H). injection H as <-. cbn [d_sent y_normalized_uri y_body]. eexists. split; [reflexivity|]. apply at_the_page. auto.
  Qed.
  Lemma yadis_sent d s : exists q, d_sent (fst (yadisDiscover web decode_as parse_meta d s)) = d_sent s ++ q /\ yadis_requests web decode_as parse_meta (d_sent s) d q.
  Proof using.
    destruct (yadisDiscover web decode_as parse_meta d s) as [s' r] eqn:H. apply YD_requests in H as (q & E & Q & _). exists q. auto.
  Qed.

  Lemma return_filter_spec url sv s s' l : return_filter rnd url sv s = (s', Ok l) ->
    forall a, In a l <-> exists te ue, In te (tagged type_el sv) /\ x_text te = Some RP_RETURN_TO_URL_TYPE /\ In ue (tagged uri_el sv) /\ x_text ue = Some a.
  Proof using shuffles.
    intros H a. apply mbind_inv in H as [(ts & s1 & Ex & H)|(x & _ & X)]; [|discriminate X]. unfold shuffling in Ex. injection Ex as _ Ex.
    apply mret_inv in H as (_ & H). apply bind_Ok in H as (l' & Ml & H). injection H as <-. pose proof (expand_In _ _ _ _ shuffles Ex) as K. apply mapM_Ok_Forall2 in Ml.
    assert (forall types uri, applyFilters [returnURL_of] (mkBasic url types uri sv) = Ok (if mem_text RP_RETURN_TO_URL_TYPE types then uri else None)) as AF.
    { intros types uri. cbn [applyFilters]. unfold returnURL_of, matchTypes. cbn [filter b_type_uris b_uri].
      destruct (mem_text RP_RETURN_TO_URL_TYPE types); [destruct uri; auto|auto]. }
    rewrite in_flat_map. split.
    - intros (x & Ix & I). destruct x as [a'|]; [|contradiction]. destruct I as [->|[]].
      destruct (Forall2_In_r _ _ _ _ Ml Ix) as ([[types uri] sv'] & It & E). apply K in It as (-> & Ety & Hu). cbv beta iota in E. rewrite AF in E.
      destruct (mem_text RP_RETURN_TO_URL_TYPE types) eqn:Mt; [|discriminate E]. injection E as ->.
      destruct Hu as [(X & _)|(ue & U1 & U2)]; [discriminate X|]. apply mem_text_In in Mt. apply getTypeURIs_spec in Ety.
      destruct (Forall2_In_r _ _ _ _ Ety Mt) as (te & T1 & T2). exists te, ue. auto.
    - intros (te & ue & T1 & T2 & U1 & U2). 
      assert (exists types, getTypeURIs sv = Ok types) as (types & Ety).
      { unfold expandService in Ex. apply bind_Ok in Ex as (us & _ & Ex). destruct (getTypeURIs sv) as [types|]; [eauto|]. destruct us; discriminate Ex. }
      assert (In (types, Some a, sv) ts) as It by (apply K; split; auto; split; auto; right; exists ue; auto).
      destruct (Forall2_In_l _ _ _ _ Ml It) as (x & Ix & E). cbv beta iota in E. rewrite AF in E.
      exists x. split; auto. apply getTypeURIs_spec in Ety. destruct (Forall2_In_l _ _ _ _ Ety T1) as (t & It' & Et).
      assert (t = RP_RETURN_TO_URL_TYPE) as -> by congruence. apply mem_text_In in It'. rewrite It' in E. injection E as <-. left. auto.
  Qed.
  Lemma return_filter_quiet url sv : quiet (return_filter rnd url sv).
  Proof using. apply quiet_mbind; [apply quiet_shuffling|]. intros a. apply quiet_mret. Qed.
  Lemma filtered_quiet url b : quiet (applyFilter rnd parse_xml (return_filter rnd) url b).
  Proof using.
    apply quiet_mbind; [apply quiet_mret|]. intros root. apply quiet_mbind; [apply quiet_shuffling|]. intros l. apply quiet_mmap. intros x. apply return_filter_quiet.
  Qed.
  Lemma filtered url body s s' l : applyFilter rnd parse_xml (return_filter rnd) url body s = (s', Ok l) ->
    exists root, parse_xml body = Some root /\ forall a, In a l <-> lists root a.
  Proof using shuffles.
    intros H. unfold applyFilter in H. apply mbind_inv in H as [(root & s1 & P & H)|(x & _ & X)]; [|discriminate X].
    apply mret_inv in P as (_ & P). unfold parseXRDS in P. destruct (parse_xml body) as [root'|]; [|discriminate P]. destruct (isXRDS root') eqn:I; [|discriminate P]. injection P as ->.
    apply mbind_inv in H as [(svs & s2 & Sv & H)|(x & _ & X)]; [|discriminate X]. unfold shuffling in Sv. injection Sv as _ Sv.
    apply (services_In _ _ _ _ shuffles) in Sv as (above & last & El & K). exists root. split; auto. intros a.
    rewrite (mmap_spec (fun sv a => exists te ue, In te (tagged type_el sv) /\ x_text te = Some RP_RETURN_TO_URL_TYPE /\ In ue (tagged uri_el sv) /\ x_text ue = Some a) _ _
               (fun sv s s' bs O => return_filter_spec url sv s s' bs O) _ _ _ H).
    split.
    - intros (sv & I1 & te & ue & T1 & T2 & U1 & U2). exists above, last, sv, te, ue. split; [apply text_eqb_eq in I; exact I|]. split; auto. split; [apply K; auto|]. auto.
    - intros (above' & last' & sv & te & ue & _ & El' & I1 & T1 & T2 & U1 & U2). rewrite El in El'. apply app_inj_tail in El' as [_ <-].
      exists sv. split; [apply K; auto|]. exists te, ue. auto.
  Qed.
  Lemma matches_In l return_to : returnToMatches e l return_to = Ok true ->
    exists x r, In x l /\ parse e x = Ok (Some r) /\ tr_wildcard r = false /\ validateURL e r return_to = Ok true.
  Proof using.
    induction l as [|x l IH]; cbn [returnToMatches]; intros Hl; [discriminate|]. binv Hl. destruct a as [r|].
    - destruct (tr_wildcard r) eqn:W; [destruct (IH Hl) as (y & r' & I & Y); exists y, r'; split; [right; auto|auto]|]. binv Hl. destruct a.
      + exists x, r. split; [left; auto|auto].
      + destruct (IH Hl) as (y & r' & I & Y). exists y, r'. split; [right; auto|auto].
    - destruct (IH Hl) as (y & r' & I & Y). exists y, r'. split; [right; auto|auto].
  Qed.

  (** A return URL is verified only if it is under a URL, without wildcard, that is listed in
      the document found from the realm's discovery URL, and the page there was not at the end
      of a redirect, up to normalization. *)
  Theorem C137_verified realm_str return_to s s' :
    verify realm_str return_to s = (s', Ok true) ->
    exists realm d q final body root a r n,
      parse e realm_str = Ok (Some realm) /\ buildDiscoveryURL realm = Ok d /\
      d_sent s' = d_sent s ++ q /\ found (d_sent s) d q final body /\
      urinorm e final = Ok n /\ urinorm e d = Ok n /\
      parse_xml body = Some root /\ lists root a /\
      parse e a = Ok (Some r) /\ tr_wildcard r = false /\ validateURL e r return_to = Ok true.
  Proof using shuffles.
    intros H. unfold Verify.verify in H. apply mbind_inv in H as [(o & s1 & P & H)|(x & _ & X)]; [|discriminate X]. apply mret_inv in P as (<- & P).
    destruct o as [realm|]; [|discriminate H]. apply mbind_inv in H as [(d & s2 & B & H)|(x & _ & X)]; [|discriminate X]. apply mret_inv in B as (<- & B).
    apply mbind_inv in H as [(ol & s3 & A & H)|(x & _ & X)]; [|discriminate X]. destruct ol as [l|]; [|discriminate H]. apply mret_inv in H as (<- & H).
    assert (allowedReturnURLs e rnd web parse_xml decode_as parse_meta d s = (s3, Ok l)) as A'.
    { unfold mcatch in A. destruct (mbind _ _ s) as [s4 [ol|x]] eqn:E; [|destruct x; discriminate A]. injection A as -> ->.
      apply mbind_inv in E as [(l' & s5 & E1 & E2)|(x & _ & X)]; [|discriminate X]. apply mret_inv in E2 as (-> & E2). congruence. }
    clear A. unfold allowedReturnURLs in A'. apply mbind_inv in A' as [((final & urls) & s4 & G & A)|(x & _ & X)]; [|discriminate X]. apply mret_inv in A as (-> & A). cbn [fst snd] in A.
    apply bind_Ok in A as (n & N1 & A). apply bind_Ok in A as (n' & N2 & A). destruct (text_eqb n n') eqn:T; [|discriminate A]. apply text_eqb_eq in T. subst n'. injection A as ->.
    unfold getServiceEndpoints in G. apply mbind_inv in G as [(y & s5 & Y & G)|(x & _ & X)]; [|discriminate X].
    match type of G with mbind ?m ?k s5 = _ => pose proof (quiet_mcatch _ (fun x => if isXRDSError x then Some (Raise DiscoveryFailure) else None) (filtered_quiet (y_normalized_uri y) (y_body y)) s5) as Qt; apply (mbind_inv m k) in G as [(eps & s6 & F & G)|(x & _ & X)]; [|discriminate X] end.
    rewrite F in Qt. cbn [fst] in Qt. apply mret_inv in G as (-> & G). injection G as <- <-.
    apply yadis_found in Y as (q & Eq & Fd).
    assert (exists s7, applyFilter rnd parse_xml (return_filter rnd) (y_normalized_uri y) (y_body y) s5 = (s7, Ok eps)) as (s7 & F').
    { unfold mcatch in F. destruct (applyFilter _ _ _ _ _ s5) as [s7 [l|x]]; [injection F as -> ->; eauto|]. destruct (isXRDSError x); discriminate F. }
    apply filtered in F' as (root & Pr & L). apply matches_In in H as (a & r & I & M1 & M2 & M3). apply L in I.
    exists realm, d, q, (y_normalized_uri y), (y_body y), root, a, r, n. split; auto. split; auto. split; [congruence|]. auto 12.
  Qed.

  (** The converse, for a document that is at the discovery URL itself. *)
  Lemma matches_some l return_to a r :
    (forall x, In x l -> exists o, parse e x = Ok o /\ forall r, o = Some r -> exists b, validateURL e r return_to = Ok b) ->
    In a l -> parse e a = Ok (Some r) -> tr_wildcard r = false -> validateURL e r return_to = Ok true -> returnToMatches e l return_to = Ok true.
  Proof using.
    intros K I P W V. induction l as [|x l IH]; [destruct I|]. cbn [returnToMatches]. destruct (K x (or_introl eq_refl)) as (o & Eo & Ho). rewrite Eo. cbn [bind].
    assert (x = a \/ returnToMatches e l return_to = Ok true) as [->|J].
    { destruct I as [->|I]; auto. right. apply IH; auto. intros y Y. apply K. right. auto. }
    - assert (o = Some r) as -> by congruence. rewrite W, V. reflexivity.
    - destruct o as [r'|]; auto. destruct (tr_wildcard r'); auto. destruct (Ho r' eq_refl) as (b & ->). cbn [bind]. destruct b; auto.
  Qed.
  Lemma mapM_total {A B} (f : A -> res B) l : (forall a, In a l -> exists b, f a = Ok b) -> exists l', mapM f l = Ok l'.
  Proof using.
    induction l as [|a l IH]; intros H; [exists []; auto|]. destruct (H a (or_introl eq_refl)) as (b & E). destruct IH as (l' & E'); [intros x I; apply H; right; auto|].
    exists (b :: l'). cbn [mapM]. rewrite E. cbn [bind]. rewrite E'. reflexivity.
  Qed.
  Lemma prioSort_total l : exists l', prioSort l = Ok l'.
  Proof using. destruct (C61_priority_order l l (Permutation_refl l)) as (k & E & _). eauto. Qed.
  Lemma mmap_total {A B} (f : A -> M (list B)) l : (forall a s, In a l -> exists s' b, f a s = (s', Ok b)) -> forall s, exists s' bs, mmap f l s = (s', Ok bs).
  Proof using.
    induction l as [|a l IH]; intros H s; [exists s, []; reflexivity|]. cbn [mmap]. destruct (H a s (or_introl eq_refl)) as (s1 & b & E).
    destruct (IH (fun x s I => H x s (or_intror I)) s1) as (s2 & bs & E2). exists s2, (b ++ bs). unfold mbind. rewrite E, E2. reflexivity.
  Qed.
  Theorem C137_accepts realm_str return_to s realm d resp n root above last a r :
    parse e realm_str = Ok (Some realm) -> buildDiscoveryURL realm = Ok d ->
    good_answer (d_sent s ++ [mkFreq d true]) resp ->
    dget text_eqb (u "content-type") (r_headers resp) = Some (u "application/xrds+xml") ->
    urinorm e (r_final_url resp) = Ok n -> urinorm e d = Ok n ->
    parse_xml (r_body resp) = Some root -> x_tag root = u "{xri://$xrds}XRDS" -> xrds root = above ++ [last] ->
    (forall sv te, In sv (tagged service_el last) -> In te (tagged type_el sv) -> exists t, x_text te = Some t) ->
    (forall x, lists root x -> exists o, parse e x = Ok o /\ forall r, o = Some r -> exists b, validateURL e r return_to = Ok b) ->
    lists root a -> parse e a = Ok (Some r) -> tr_wildcard r = false -> validateURL e r return_to = Ok true ->
    snd (verify realm_str return_to s) = Ok true /\ d_sent (fst (verify realm_str return_to s)) = d_sent s ++ [mkFreq d true].
  Proof using shuffles.
    intros P B G Ct N1 N2 Px Tg Lx Ty Lp La Pa W V.
    set (s1 := mkDst (d_sent s ++ [mkFreq d true]) (d_shuffles s)).
    assert (yadisDiscover web decode_as parse_meta d s = (s1, Ok (mkYResult (r_final_url resp) (Some (r_final_url resp)) (Some (u "application/xrds+xml")) (r_body resp)))) as Y.
    { unfold yadisDiscover, mbind, fetch, mret. fold s1. destruct G as (-> & St). apply status_ok_spec in St. rewrite St. cbn [negb].
      unfold whereIsYadis. rewrite Ct.
      assert (truthy (u "application/xrds+xml") && text_eqb (lower (match cut 59 (u "application/xrds+xml") with Some (a, _) => a | None => u "application/xrds+xml" end)) YADIS_CONTENT_TYPE = true) as ->
        by (vm_compute; reflexivity).
      cbn [usedYadisLocation]. rewrite text_eqb_refl. cbn [negb]. rewrite andb_false_r. reflexivity. }
    assert (exists s2 l, applyFilter rnd parse_xml (return_filter rnd) (r_final_url resp) (r_body resp) s1 = (s2, Ok l)) as (s2 & l & F).
    { unfold applyFilter, parseXRDS. rewrite Px. assert (isXRDS root = true) as -> by (unfold isXRDS; apply text_eqb_eq; exact Tg).
      assert (exists svs, iterServices rnd (d_shuffles s1) root = Ok svs /\ forall sv, In sv svs -> In sv (tagged service_el last)) as (svs & Sv & Isv).
      { unfold iterServices, getYadisXRD. change (x_findall xrd_tag root) with (xrds root). rewrite Lx, rev_app_distr. cbn [rev app bind].
        destruct (prioSort_total (rnd (d_shuffles s1) (x_findall service_tag last))) as (svs & Es). exists svs. split; auto. intros sv I.
        apply (prioSort_In _ _ Es) in I. eapply Permutation_in; [apply Permutation_sym, shuffles|exact I]. }
      set (s1' := mkDst (d_sent s1) (S (d_shuffles s1))).
      destruct (mmap_total (return_filter rnd (r_final_url resp)) svs) with (s := s1') as (s2 & l & Mm).
      - intros sv st I. unfold return_filter, transform_filter, mbind, shuffling, mret.
        assert (exists types, getTypeURIs sv = Ok types) as (types & Ety).
        { unfold getTypeURIs. apply mapM_total. intros te It. destruct (Ty sv te (Isv sv I) It) as (t & ->). eauto. }
        assert (exists ts, expandService rnd (d_shuffles st) sv = Ok ts) as (ts & ->).
        { unfold expandService, sortedURIs. destruct (prioSort_total (rnd (d_shuffles st) (x_findall uri_tag sv))) as (us & ->). cbn [bind].
          apply mapM_total. intros w _. rewrite Ety. cbn [bind]. eauto. }
        destruct (mapM_total (fun t => let '(types, uri, _) := t in applyFilters [returnURL_of] (mkBasic (r_final_url resp) types uri sv)) ts) as (xs & ->).
        { intros ((types' & uri) & sv') _. cbn [applyFilters]. unfold returnURL_of. cbn [bind]. destruct (match matchTypes _ _ with [] => None | _ => _ end); eauto. }
        cbn [bind]. eauto.
      - exists s2, l. unfold mbind, mret, shuffling. rewrite Sv. exact Mm. }
    pose proof (filtered _ _ _ _ _ F) as (root' & Px' & L). assert (root' = root) as -> by congruence.
    pose proof (filtered_quiet (r_final_url resp) (r_body resp) s1) as Q. rewrite F in Q. cbn [fst] in Q.
    assert (verify realm_str return_to s = (s2, returnToMatches e l return_to)) as ->.
    { unfold Verify.verify, mbind at 1, mret at 1. rewrite P. unfold mbind at 1, mret at 1. rewrite B.
      unfold mbind at 1, mcatch, mbind at 1. unfold allowedReturnURLs, mbind at 1. unfold getServiceEndpoints, mbind at 1. rewrite Y. cbn [y_normalized_uri y_body].
      unfold mbind, mcatch. rewrite F. unfold mret. cbn [fst snd]. rewrite N1, N2. cbn [bind]. rewrite text_eqb_refl. reflexivity. }
    cbn [fst snd]. split; [|exact Q]. apply (matches_some l return_to a r); auto; [|apply L; auto]. intros x I. apply Lp, L. auto.
  Qed.

  (** Whatever the outcome, at most the discovery URL and one location it names are asked for. *)
  Theorem C137_requests realm_str return_to s s' out :
    verify realm_str return_to s = (s', out) ->
    s' = s \/
    exists realm d q, parse e realm_str = Ok (Some realm) /\ buildDiscoveryURL realm = Ok d /\
      d_sent s' = d_sent s ++ q /\ yadis_requests web decode_as parse_meta (d_sent s) d q.
  Proof using.
    clear shuffles. intros H. unfold Verify.verify in H. apply mbind_inv in H as [(o & s1 & P & H)|(x & P & _)]; apply mret_inv in P as (<- & P); auto.
    destruct o as [realm|]; [|apply mret_inv in H as (<- & _); auto]. apply mbind_inv in H as [(d & s2 & B & H)|(x & B & _)]; apply mret_inv in B as (<- & B); auto.
    right. exists realm, d. destruct (yadis_sent d s) as (q & Eq & Rq). exists q. split; auto. split; auto. split; auto. rewrite <- Eq.
    assert (d_sent (fst (allowedReturnURLs e rnd web parse_xml decode_as parse_meta d s)) = d_sent (fst (yadisDiscover web decode_as parse_meta d s))) as Qa.
    { unfold allowedReturnURLs, getServiceEndpoints, mbind. destruct (yadisDiscover web decode_as parse_meta d s) as [s1 [y|x]]; auto. cbn [fst].
      pose proof (quiet_mcatch _ (fun x => if isXRDSError x then Some (Raise DiscoveryFailure) else None) (filtered_quiet (y_normalized_uri y) (y_body y)) s1) as Qt.
      destruct (mcatch _ _ s1) as [s2 [l|x]]; cbn [fst] in *; auto. }
    rewrite <- Qa. clear Qa Eq Rq. unfold mbind at 1, mcatch, mbind at 1 in H.
    destruct (allowedReturnURLs e rnd web parse_xml decode_as parse_meta d s) as [s3 [l|x]]; cbn [fst].
    - unfold mret in H. injection H as <- _. auto.
    - destruct x; unfold mret in H; injection H as <- _; auto.
  Qed.

  (** [returnToVerified] of a request is this for its realm and its return URL. *)
  Theorem C137_request c s s' : returnToVerified e rnd web parse_xml decode_as parse_meta c s = (s', Ok true) ->
    exists realm_str return_to, Server.ci_trust_root c = Some realm_str /\ Server.ci_return_to c = Some return_to /\
      verify realm_str return_to s = (s', Ok true).
  Proof using shuffles.
    unfold returnToVerified. intros H. pose proof H as H'. apply C137_verified in H' as (realm & d & q & final & body & root & a & r & n & P & _ & _ & _ & _ & _ & _ & _ & _ & _ & V).
    assert (parse e [] = Ok None) as E1 by reflexivity. assert (forall r, validateURL e r [] = Ok false) as E2 by reflexivity.
    destruct (Server.ci_trust_root c) as [rs|]; [|rewrite E1 in P; discriminate P].
    destruct (Server.ci_return_to c) as [rt|]; [|rewrite E2 in V; discriminate V]. eauto.
  Qed.
End Verified.
Print Assumptions C137_verified.
Print Assumptions C137_accepts.
Print Assumptions C137_requests.
Print Assumptions C137_request.
(** A relying party with two return URLs; the wildcard one is not used. *)
Definition rp_doc : xel :=
  mkXel (u "{xri://$xrds}XRDS") [] None [mkXel xrd_tag [] None
    [mkXel service_tag [] None [el type_el (u "http://other/"); el uri_el (u "http://www.example.com/other")];
     mkXel service_tag [] None [el type_el (u "http://specs.openid.net/auth/2.0/return_to"); el uri_el (u "http://*.example.com/"); el uri_el (u "http://www.example.com/ret")]]].
Definition xrds_at (final : text) : fresp := mkResp final 200 [(u "content-type", u "application/xrds+xml")] [].
Definition rp_verify (web : list freq -> res fresp) (realm return_to : text) : dst * res bool :=
  verify no_env no_sort web (fun _ => Some rp_doc) utf8 (fun _ => None) realm return_to d0.
Example C137_example :
  rp_verify (fun _ => Ok (xrds_at (u "http://www.example.com/"))) (u "http://*.example.com/") (u "http://www.example.com/ret/1?x=y") =
    (mkDst [mkFreq (u "http://www.example.com/") true] 3, Ok true) /\
  snd (rp_verify (fun _ => Ok (xrds_at (u "http://www.example.com/"))) (u "http://*.example.com/") (u "http://foo.example.com/ret")) = Ok false /\
  snd (rp_verify (fun _ => Ok (xrds_at (u "http://www.example.com/"))) (u "http://*.example.com/") (u "http://www.example.com/other")) = Ok false /\
  snd (rp_verify (fun _ => Ok (xrds_at (u "http://elsewhere.example/"))) (u "http://*.example.com/") (u "http://www.example.com/ret")) = Ok false /\
  lists rp_doc (u "http://www.example.com/ret").
Proof.
  split; [vm_compute; reflexivity|]. split; [vm_compute; reflexivity|]. split; [vm_compute; reflexivity|]. split; [vm_compute; reflexivity|].
  exists []. do 4 eexists. split; [reflexivity|]. split; [reflexivity|]. split; [right; left; reflexivity|]. split; [left; reflexivity|].
  split; [reflexivity|]. split; [right; left; reflexivity|reflexivity].
Qed.

(** ** C138: only the page is checked for redirects, not the document it names *)
Definition moved (sent : list freq) : res fresp :=
  match sent with
  | [_] => Ok (mkResp (u "http://www.example.com/") 200 [(u "x-xrds-location", u "http://www.example.com/go?to=x")] [])
  | _ => Ok (xrds_at (u "http://elsewhere.example/"))
  end.
Theorem C138_redirected_document_refuted :
  exists web realm return_to s' last resp,
    rp_verify web realm return_to = (s', Ok true) /\ web (d_sent s') = Ok resp /\ List.last (d_sent s') (mkFreq [] true) = last /\
    r_final_url resp <> f_url last /\ startswith (f_url last) (u "http://www.example.com/") = true /\
    startswith (r_final_url resp) (u "http://elsewhere.example/") = true.
Proof.
  exists moved, (u "http://www.example.com/"), (u "http://www.example.com/ret"). do 3 eexists.
  split; [vm_compute; reflexivity|]. split; [vm_compute; reflexivity|]. split; [vm_compute; reflexivity|].
  split; [vm_compute; discriminate|]. split; vm_compute; reflexivity.
Qed.
Print Assumptions C138_redirected_document_refuted.

(** ** C139: verification fails with an AssertionError for the realm of everything, and with
    an AttributeError for a service with an empty type element *)
Definition bad_doc : xel := mkXel (u "{xri://$xrds}XRDS") [] None [mkXel xrd_tag [] None [mkXel service_tag [] None [mkXel type_el [] None []]]].
Theorem C139_errors_refuted :
  (forall web, rp_verify web (u "http://*/") (u "http://a.example/") = (d0, Raise AssertionError)) /\
  exists realm return_to, snd (verify no_env no_sort (fun _ => Ok (xrds_at realm)) (fun _ => Some bad_doc) utf8 (fun _ => None) realm return_to d0) = Raise AttributeError.
Proof.
  split; [intros web; vm_compute; reflexivity|]. exists (u "http://a.example/"), (u "http://a.example/"). vm_compute. reflexivity.
Qed.
Print Assumptions C139_errors_refuted.
