(** C106-C110: services of XRDS documents, discovery by XRI, errors of discovery
    (/repo/openid/consumer/discover.py, /repo/openid/yadis/{xrires,filters,services}.py). *)
From Coq Require Import Lia ZifyBool ZifyN ZifyNat Permutation Sorted.
From Verif Require Import Py PyFacts UrlLib UrlLibFacts UriNorm Message Xri Prop_Xri Etxrd Prop_Etxrd Endpoint Discover Prop_Discover Prop_DiscoverUri.
Open Scope N_scope.

Local Arguments u : simpl never.

(** ** C106: the services of a document *)
Definition tagged (tag : text) (e : xel) : list xel := filter (fun c => text_eqb (x_tag c) tag) (x_children e).
Definition service_el : text := u "{xri://$xrd*($v*2.0)}Service".
Definition uri_el : text := u "{xri://$xrd*($v*2.0)}URI".
Definition type_el : text := u "{xri://$xrd*($v*2.0)}Type".
Definition openid_types : list text :=
  [u "http://specs.openid.net/auth/2.0/server"; u "http://specs.openid.net/auth/2.0/signon"; u "http://openid.net/signon/1.1"; u "http://openid.net/signon/1.0"].
(** An endpoint that a Service element of a page at [url] gives: one for each of its URIs
    if it has an OpenID type. *)
Inductive endpoint_of (url : text) (service : xel) : endpoint -> Prop :=
| gives ue uri types t claimed local :
    In ue (tagged uri_el service) -> x_text ue = Some uri ->
    Forall2 (fun el t => x_text el = Some t) (tagged type_el service) types ->
    In t types -> In t openid_types ->
    (if mem_text (u "http://specs.openid.net/auth/2.0/server") types then claimed = None /\ local = None
     else claimed = Some url /\ agreed (local_id_elements service types) local) ->
    endpoint_of url service (mkEndpoint claimed (Some uri) types local None true None).

Lemma prioSort_In l l' : prioSort l = Ok l' -> forall x, In x l' <-> In x l.
Proof.
  intros H x. destruct (C61_priority_order l l (Permutation_refl l)) as (k & E & P & _). assert (k = l') as -> by congruence.
  split; apply Permutation_in; auto. apply Permutation_sym. auto.
Qed.
Lemma mapM_Forall2_iff {A B} (f : A -> res B) l l' : mapM f l = Ok l' <-> Forall2 (fun a b => f a = Ok b) l l'.
Proof.
  split; [apply mapM_Ok_Forall2|]. induction 1 as [|a b l l' H F IH]; auto. cbn [mapM]. rewrite H. cbn [bind]. rewrite IH. auto.
Qed.
Lemma getTypeURIs_spec sv types : getTypeURIs sv = Ok types <-> Forall2 (fun el t => x_text el = Some t) (tagged type_el sv) types.
Proof.
  unfold getTypeURIs. rewrite mapM_Forall2_iff. change (x_findall type_tag sv) with (tagged type_el sv). split; intros H; induction H as [|a b l l' H F IH]; constructor; auto.
  - destruct (x_text a); congruence.
  - rewrite H. auto.
Qed.
Lemma Forall2_In_l {A B} (R : A -> B -> Prop) l l' a : Forall2 R l l' -> In a l -> exists b, In b l' /\ R a b.
Proof. induction 1 as [|x y l l' H F IH]; [intros []|]. intros [->|I]; [exists y; split; [left; auto|auto]|]. destruct (IH I) as (b & B1 & B2). exists b. split; [right; auto|auto]. Qed.
Lemma Forall2_In_r {A B} (R : A -> B -> Prop) l l' b : Forall2 R l l' -> In b l' -> exists a, In a l /\ R a b.
Proof. induction 1 as [|x y l l' H F IH]; [intros []|]. intros [->|I]; [exists x; split; [left; auto|auto]|]. destruct (IH I) as (a & B1 & B2). exists a. split; [right; auto|auto]. Qed.
Lemma expand_In rnd n sv ts : (forall n l, Permutation l (rnd n l)) -> expandService rnd n sv = Ok ts -> forall types uri sv',
  In (types, uri, sv') ts <-> sv' = sv /\ getTypeURIs sv = Ok types /\ (uri = None /\ tagged uri_el sv = [] \/ exists ue, In ue (tagged uri_el sv) /\ x_text ue = uri).
Proof.
  intros HP H types uri sv'. unfold expandService, sortedURIs in H. apply bind_Ok in H as (uris & Hu & H). apply bind_Ok in Hu as (l & Hl & Hu). injection Hu as <-.
  pose proof (prioSort_In _ _ Hl) as Il. change (x_findall uri_tag sv) with (tagged uri_el sv) in *.
  assert (forall x, In x l <-> In x (tagged uri_el sv)) as Il'.
  { intros x. rewrite Il. split; apply Permutation_in; auto. apply Permutation_sym. auto. }
  assert (forall w, In w (match map x_text l with [] => [None] | _ => map x_text l end) <->
            (w = None /\ tagged uri_el sv = [] \/ exists ue, In ue (tagged uri_el sv) /\ x_text ue = w)) as K.
  { intros w. destruct l as [|a l].
    - assert (tagged uri_el sv = []) as -> by (destruct (tagged uri_el sv) as [|z zs]; auto; exfalso; apply (Il' z); left; auto).
      cbn. split; [intros [<-|[]]; auto|]. intros [(-> & _)|(ue & [] & _)]; auto.
    - change (match map x_text (a :: l) with [] => [None] | _ => map x_text (a :: l) end) with (map x_text (a :: l)). rewrite in_map_iff. split.
      + intros (x & X & I). right. exists x. split; [apply Il'|]; auto.
      + intros [(_ & E)|(ue & I & E)]; [exfalso; specialize (Il' a); rewrite E in Il'; apply Il'; left; auto|]. exists ue. split; auto. apply Il'. auto. }
  apply mapM_Ok_Forall2 in H. rewrite <- K. split.
  - intros I. destruct (Forall2_In_r _ _ _ _ H I) as (w & Iw & E). apply bind_Ok in E as (ty & Ety & E). injection E as <- <- <-. auto.
  - intros (-> & Ety & Iw). destruct (Forall2_In_l _ _ _ _ H Iw) as (b & Ib & E). rewrite Ety in E. injection E as <-. auto.
Qed.
Lemma fromBasic_spec url sv types uri ep : getTypeURIs sv = Ok types ->
  (fromBasicServiceEndpoint (mkBasic url types uri sv) = Ok (Some ep) <->
   exists ur t claimed local, uri = Some ur /\ In t types /\ In t openid_types /\ ep = mkEndpoint claimed (Some ur) types local None true None /\
     (if mem_text (u "http://specs.openid.net/auth/2.0/server") types then claimed = None /\ local = None
      else claimed = Some url /\ agreed (local_id_elements sv types) local)).
Proof.
  intros Ht. unfold fromBasicServiceEndpoint. cbn [b_uri]. set (b := mkBasic url types uri sv).
  assert (forall t, In t (matchTypes b openid_type_uris) <-> In t types /\ In t openid_types) as Km.
  { intros t. unfold matchTypes. rewrite filter_In, mem_text_In. change openid_type_uris with openid_types. cbn [b_type_uris b]. tauto. }
  split.
  - intros H. destruct (matchTypes b openid_type_uris) as [|t ts]; [discriminate H|]. destruct uri as [ur|]; [|discriminate H].
    apply bind_Ok in H as (ep' & P & H). injection H as ->. destruct (proj1 (Km t) (or_introl eq_refl)) as (T1 & T2).
    unfold parseService in P. cbn [b_type_uris b_service b_yadis_url b] in P. unfold isOPIdentifier in P. cbn [ep_type_uris] in P. unfold OPENID_IDP_2_0_TYPE in P.
    destruct (mem_text (u "http://specs.openid.net/auth/2.0/server") types) eqn:I.
    + injection P as <-. exists ur, t, None, None. auto 8.
    + apply bind_Ok in P as (l & L & P). injection P as <-. exists ur, t, (Some url), l. split; auto. split; auto. split; auto. split; auto. split; auto.
      pose proof (C100_local_identifier sv types) as K. rewrite L in K. auto.
  - intros (ur & t & claimed & local & -> & T1 & T2 & -> & H).
    destruct (matchTypes b openid_type_uris) as [|t' ts]; [exfalso; apply (Km t); auto|].
    unfold parseService. cbn [b_type_uris b_service b_yadis_url b]. unfold isOPIdentifier. cbn [ep_type_uris]. unfold OPENID_IDP_2_0_TYPE.
    destruct (mem_text (u "http://specs.openid.net/auth/2.0/server") types).
    + destruct H as (-> & ->). auto.
    + destruct H as (-> & A). pose proof (C100_local_identifier sv types) as K. destruct (findOPLocalIdentifier sv types) as [l|x].
      * rewrite (C100_agreed_is_a_function _ _ _ A K). auto.
      * exfalso. apply (proj2 K local). auto.
Qed.
Lemma openid_filter_spec rnd url sv s s' eps : (forall n l, Permutation l (rnd n l)) -> openid_filter rnd url sv s = (s', Ok eps) ->
  forall ep, In ep eps <-> endpoint_of url sv ep.
Proof.
  intros HP H ep. apply mbind_inv in H as [(ts & s1 & Ex & H)|(x & _ & X)]; [|discriminate X]. unfold shuffling in Ex. injection Ex as _ Ex.
  apply mret_inv in H as (_ & H). apply bind_Ok in H as (l & Ml & H). injection H as <-. pose proof (expand_In _ _ _ _ HP Ex) as K. apply mapM_Ok_Forall2 in Ml.
  assert (forall types uri, applyFilters [fromBasicServiceEndpoint] (mkBasic url types uri sv) = fromBasicServiceEndpoint (mkBasic url types uri sv)) as AF.
  { intros types uri. cbn [applyFilters]. destruct (fromBasicServiceEndpoint _) as [[y|]|]; auto. }
  rewrite in_flat_map. split.
  - intros (x & Ix & I). destruct x as [ep'|]; [|contradiction]. destruct I as [->|[]].
    destruct (Forall2_In_r _ _ _ _ Ml Ix) as ([[types uri] sv'] & It & E). apply K in It as (-> & Ety & Hu). rewrite AF in E.
    apply (fromBasic_spec url sv types uri ep Ety) in E as (ur & t & claimed & local & -> & T1 & T2 & -> & C).
    destruct Hu as [(X & _)|(ue & U1 & U2)]; [discriminate X|]. apply (gives url sv ue ur types t claimed local); auto. apply getTypeURIs_spec. auto.
  - intros G. destruct G as [ue uri types t claimed local U1 U2 Hty T1 T2 C]. apply getTypeURIs_spec in Hty.
    assert (In (types, Some uri, sv) ts) as It by (apply K; split; auto; split; auto; right; exists ue; auto).
    destruct (Forall2_In_l _ _ _ _ Ml It) as (x & Ix & E). cbv beta iota in E. rewrite AF in E.
    exists x. split; auto. assert (x = Some (mkEndpoint claimed (Some uri) types local None true None)) as ->; [|left; auto].
    assert (fromBasicServiceEndpoint (mkBasic url types (Some uri) sv) = Ok (Some (mkEndpoint claimed (Some uri) types local None true None))) as F.
    { apply fromBasic_spec; auto. exists uri, t, claimed, local. auto. }
    congruence.
Qed.
Lemma mmap_spec {A B} (P : A -> B -> Prop) (f : A -> M (list B)) l : (forall a s s' bs, f a s = (s', Ok bs) -> forall b, In b bs <-> P a b) ->
  forall s s' bs, mmap f l s = (s', Ok bs) -> forall b, In b bs <-> exists a, In a l /\ P a b.
Proof.
  intros HP. induction l as [|a l IH]; intros s s' bs H b; cbn [mmap] in H.
  - apply mret_inv in H as (_ & H). injection H as <-. split; [intros []|]. intros (a & [] & _).
  - apply mbind_inv in H as [(b1 & s1 & F & H)|(x & _ & X)]; [|discriminate X].
    apply mbind_inv in H as [(b2 & s2 & F2 & H)|(x & _ & X)]; [|discriminate X]. injection H as <- <-.
    rewrite in_app_iff, (HP _ _ _ _ F), (IH _ _ _ F2). split.
    + intros [I|(a' & I & Q)]; [exists a; split; [left; auto|auto]|exists a'; split; [right; auto|auto]].
    + intros (a' & [->|I] & Q); [auto|right; exists a'; auto].
Qed.
Lemma services_In rnd n root svs : (forall n l, Permutation l (rnd n l)) -> iterServices rnd n root = Ok svs ->
  exists above last, xrds root = above ++ [last] /\ forall sv, In sv svs <-> In sv (tagged service_el last).
Proof.
  intros HP H. unfold iterServices in H. apply bind_Ok in H as (xrd & G & H). unfold getYadisXRD in G.
  change (x_findall xrd_tag root) with (xrds root) in G. destruct (rev (xrds root)) as [|x r] eqn:E; [discriminate G|]. injection G as ->.
  exists (rev r), xrd. split; [rewrite <- (rev_involutive (xrds root)), E; auto|]. intros sv. rewrite (prioSort_In _ _ H).
  split; apply Permutation_in; auto. apply Permutation_sym. auto.
Qed.
Theorem C106_services_of_a_document : forall rnd parse_xml url body s s' eps,
  (forall n l, Permutation l (rnd n l)) ->
  applyFilter rnd parse_xml (openid_filter rnd) url body s = (s', Ok eps) ->
  exists root above last,
    parse_xml body = Some root /\ x_tag root = u "{xri://$xrds}XRDS" /\ xrds root = above ++ [last] /\
    forall ep, In ep eps <-> exists service, In service (tagged service_el last) /\ endpoint_of url service ep.
Proof.
  intros rnd px url body s s' eps HP H. unfold applyFilter in H. apply mbind_inv in H as [(root & s1 & P & H)|(x & _ & X)]; [|discriminate X].
  apply mret_inv in P as (_ & P). unfold parseXRDS in P. destruct (px body) as [root'|]; [|discriminate P]. destruct (isXRDS root') eqn:I; [|discriminate P]. injection P as ->.
  apply mbind_inv in H as [(svs & s2 & Sv & H)|(x & _ & X)]; [|discriminate X]. unfold shuffling in Sv. injection Sv as _ Sv.
  apply (services_In _ _ _ _ HP) in Sv as (above & last & El & K). exists root, above, last. split; auto. split; [apply text_eqb_eq in I; exact I|]. split; auto. intros ep.
  rewrite (mmap_spec (fun sv ep => endpoint_of url sv ep) _ _ (fun sv s s' bs O => openid_filter_spec rnd url sv s s' bs HP O) _ _ _ H).
  split; intros (sv & I1 & I2); exists sv; split; auto; apply K; auto.
Qed.
Print Assumptions C106_services_of_a_document.
(** Without a usable document there is an XRDSError. *)
Theorem C106_not_a_document : forall rnd parse_xml url body s,
  (forall root, parse_xml body = Some root -> x_tag root <> u "{xri://$xrds}XRDS" \/ xrds root = []) ->
  snd (applyFilter rnd parse_xml (openid_filter rnd) url body s) = Raise XRDSError.
Proof.
  intros rnd px url body s H. unfold applyFilter, parseXRDS. destruct (px body) as [root|]; [|reflexivity].
  destruct (isXRDS root) eqn:I; [|reflexivity]. destruct (H root eq_refl) as [N|E]; [apply text_eqb_eq in I; contradiction|].
  unfold mbind, mret, shuffling, iterServices, getYadisXRD. change (x_findall xrd_tag root) with (xrds root). rewrite E. reflexivity.
Qed.
Print Assumptions C106_not_a_document.
Definition xrd_doc (services : list xel) : xel := mkXel (u "{xri://$xrds}XRDS") [] None [mkXel xrd_tag [] None [sv [el type_el OPENID_2_0_TYPE; el uri_el (u "http://ignored.example/")]]; mkXel xrd_tag [] None services].
Definition service1 : xel := mkXel service_tag [(u "priority", u "10")] None [el type_el OPENID_2_0_TYPE; el type_el (u "http://other/"); el uri_el (u "http://a.example/"); el uri_el (u "http://b.example/")].
Definition service2 : xel := mkXel service_tag [(u "priority", u "5")] None [el type_el OPENID_1_1_TYPE; el uri_el (u "http://c.example/"); el (u "{http://openid.net/xmlns/1.0}Delegate") (u "me")].
Definition service3 : xel := mkXel service_tag [(u "priority", u "7")] None [el type_el (u "http://other/"); el uri_el (u "http://d.example/")].
Example C106_example :
  snd (applyFilter no_sort (fun _ => Some (xrd_doc [service1; service2; service3])) (openid_filter no_sort) (u "me") [] d0) =
    Ok [mkEndpoint (Some (u "me")) (Some (u "http://c.example/")) [OPENID_1_1_TYPE] (Some (u "me")) None true None;
        mkEndpoint (Some (u "me")) (Some (u "http://a.example/")) [OPENID_2_0_TYPE; u "http://other/"] None None true None;
        mkEndpoint (Some (u "me")) (Some (u "http://b.example/")) [OPENID_2_0_TYPE; u "http://other/"] None None true None].
Proof. vm_compute. reflexivity. Qed.

(** ** C107: discovery by XRI *)
Section ByXri.
  Variable low : text -> text.
  Variable rnd : shuffler.
  Variable web : list freq -> res fresp.
  Variable parse_xml : bytes -> option xel.
  Notation Q := (query low rnd web parse_xml).
  Notation DX := (discoverXRI low rnd web parse_xml).
  (** An identifier accepted for [iname] from one of the answers between [sent] and [sent']. *)
  Definition vouched (sent sent' : list freq) (iname cid : text) : Prop :=
    exists p q resp doc, sent' = sent ++ p ++ q /\ p <> [] /\ good_answer web (sent ++ p) resp /\ parse_xml (r_body resp) = Some doc /\
      getCanonicalID low iname doc = Ok (Some cid).
  Lemma vouched_later sent p sent' sent'' iname cid : sent' = sent ++ p -> vouched sent' sent'' iname cid -> vouched sent sent'' iname cid.
  Proof using.
    intros -> (p' & q & resp & doc & -> & N & G & P & C). exists (p ++ p'), q, resp, doc. rewrite <- !app_assoc in *. split; auto. split; auto.
    intros E. apply app_eq_nil in E as (_ & E). auto.
  Qed.
  (** The requests: one for each service type in turn, to the proxy. *)
  Definition asks (iname t : text) (q : freq) : Prop := queryURL iname t = Ok (f_url q) /\ f_accept q = false.
  Lemma query_spec iname types : forall cid s s' r, Q iname types cid s = (s', r) ->
    exists done q, d_sent s' = d_sent s ++ q /\ (exists todo, types = done ++ todo) /\ Forall2 (asks iname) done q /\
      forall cid' svs, r = Ok (Some cid', svs) -> cid = Some cid' \/ vouched (d_sent s) (d_sent s') iname cid'.
  Proof using.
    induction types as [|t types IH]; intros cid s s' r H; cbn [query] in H.
    - apply mret_inv in H as (-> & <-). exists [], []. rewrite app_nil_r. split; auto. split; [exists []; auto|]. split; auto. intros cid' svs E. injection E as E _. auto.
    - assert (forall x, r = Raise x -> d_sent s' = d_sent s -> exists done q, d_sent s' = d_sent s ++ q /\ (exists todo, t :: types = done ++ todo) /\ Forall2 (asks iname) done q /\
        forall cid' svs, r = Ok (Some cid', svs) -> cid = Some cid' \/ vouched (d_sent s) (d_sent s') iname cid') as K0.
      { intros x -> E. exists [], []. rewrite app_nil_r. split; auto. split; [exists (t :: types); auto|]. split; auto. intros c svs X. discriminate X. }
      apply mbind_inv in H as [(url & s1 & U & H)|(x & U & ->)]; apply mret_inv in U as (<- & U); [|apply (K0 x); auto].
      apply mbind_inv in H as [(resp & s1 & F & H)|(x & F & ->)]; unfold fetch in F; injection F as <- F.
      2:{ exists [t], [mkFreq url false]. split; auto. split; [exists types; auto|]. split; [repeat constructor; auto|]. intros c svs X. discriminate X. }
      assert (asks iname t (mkFreq url false)) as A by (split; auto).
      assert (forall x s2, d_sent s2 = d_sent s ++ [mkFreq url false] -> r = Raise x -> s' = s2 -> exists done q, d_sent s' = d_sent s ++ q /\ (exists todo, t :: types = done ++ todo) /\ Forall2 (asks iname) done q /\
        forall cid' svs, r = Ok (Some cid', svs) -> cid = Some cid' \/ vouched (d_sent s) (d_sent s') iname cid') as K1.
      { intros x s2 E -> ->. exists [t], [mkFreq url false]. split; auto. split; [exists types; auto|]. split; auto. intros c svs X. discriminate X. }
      destruct (status_ok (r_status resp)) eqn:St; cbn [negb] in H.
      + apply status_ok_spec in St.
        apply mbind_inv in H as [(doc & s2 & P & H)|(x & P & ->)]; apply mret_inv in P as (<- & P); [|eapply K1; eauto; reflexivity].
        apply mbind_inv in H as [(c & s2 & C & H)|(x & C & ->)]; apply mret_inv in C as (<- & C); [|eapply K1; eauto; reflexivity].
        apply mbind_inv in H as [(svs & s2 & Sv & H)|(x & Sv & ->)]; unfold shuffling in Sv; injection Sv as <- Sv; [|eapply K1; eauto; reflexivity].
        assert (exists done q, d_sent s' = d_sent s ++ q /\ (exists todo, t :: types = done ++ todo) /\ Forall2 (asks iname) done q /\
           forall r2 cid' svs', Q iname types c (mkDst (d_sent s ++ [mkFreq url false]) (S (d_shuffles s))) = (s', r2) -> r2 = Ok (Some cid', svs') -> vouched (d_sent s) (d_sent s') iname cid') as (done & q & E1 & E2 & E3 & E4).
        { assert (exists r2, Q iname types c (mkDst (d_sent s ++ [mkFreq url false]) (S (d_shuffles s))) = (s', r2)) as (r2 & E).
          { apply mbind_inv in H as [(rest & s3 & E & H)|(x & E & _)]; [|exists (Raise x); auto]. apply mret_inv in H as (-> & _). exists (Ok rest). auto. }
          destruct (IH _ _ _ _ E) as (done & q & E1 & (todo & E2) & E3 & E4). exists (t :: done), (mkFreq url false :: q). cbn [d_sent] in *.
          split; [rewrite E1, <- app_assoc; auto|]. split; [exists todo; rewrite E2; auto|]. split; [constructor; auto|].
          intros r2' cid' svs' E' ->. rewrite E in E'. injection E' as ->. destruct (E4 _ _ eq_refl) as [->|V].
          - exists [mkFreq url false], q, resp, doc. split; [rewrite E1, <- app_assoc; auto|]. split; [discriminate|]. split; [split; auto|]. split; auto.
            unfold parseXRDS in P. destruct (parse_xml (r_body resp)) as [root|]; [|discriminate P]. destruct (isXRDS root); [congruence|discriminate P].
          - eapply vouched_later; [|exact V]. reflexivity. }
        exists done, q. split; auto. split; auto. split; auto. intros cid' svs' ->. right.
        apply mbind_inv in H as [(rest & s3 & E & H)|(x & _ & X)]; [|discriminate X]. apply mret_inv in H as (-> & H). destruct rest as [c' svs2]. cbn [fst snd] in H.
        injection H as -> _. eapply E4; eauto.
      + destruct (IH _ _ _ _ H) as (done & q & E1 & (todo & E2) & E3 & E4). exists (t :: done), (mkFreq url false :: q). cbn [d_sent] in *.
        split; [rewrite E1, <- app_assoc; auto|]. split; [exists todo; rewrite E2; auto|]. split; [constructor; auto|].
        intros cid' svs R. destruct (E4 _ _ R) as [X|X]; auto. right. eapply vouched_later; [|exact X]. reflexivity.
  Qed.
  Definition bare (xri name : text) : Prop := xri = u "xri://" ++ name \/ xri = name /\ ~ (exists r, xri = u "xri://" ++ r).
  Lemma normalizeXRI_bare xri : bare xri (normalizeXRI xri).
  Proof using.
    unfold normalizeXRI. destruct (startswith xri (u "xri://")) eqn:E.
    - apply startswith_spec in E as (r & ->). left. reflexivity.
    - right. split; auto. intros (r & ->). assert (startswith (u "xri://" ++ r) (u "xri://") = true) as X by (apply startswith_spec; exists r; auto). congruence.
  Qed.
  Theorem C107_endpoints_by_XRI : forall xri s s' name eps, DX xri s = (s', Ok (name, eps)) ->
    bare xri name /\
    (eps = [] \/ exists cid, vouched (d_sent s) (d_sent s') name cid /\
       Forall (fun ep => ep_claimed_id ep = Some cid /\ ep_canonicalID ep = Some cid /\ ep_display_identifier ep = Some name) eps).
  Proof using.
    intros xri s s' name eps H. unfold discoverXRI in H. set (nm := normalizeXRI xri) in *.
    apply mbind_inv in H as [(eps0 & s1 & C & H)|(x & _ & X)]; [|discriminate X]. apply mret_inv in H as (-> & H). injection H as <- <-.
    split; [apply normalizeXRI_bare|]. unfold mcatch in C.
    match type of C with match ?m with _ => _ end = _ => destruct m as [s2 [l|x]] eqn:E end.
    2:{ destruct (isXRDSError x); [|discriminate C]. injection C as _ <-. left. reflexivity. }
    injection C as -> ->. right. apply mbind_inv in E as [((c & svs) & s3 & Eq & E)|(x & _ & X)]; [|discriminate X]. cbn [fst snd] in E.
    destruct c as [cid|]; [|apply mret_inv in E as (_ & E); discriminate E].
    apply mbind_inv in E as [(eps1 & s4 & Em & E)|(x & _ & X)]; [|discriminate X]. apply mret_inv in E as (-> & E). injection E as <-.
    assert (d_sent s' = d_sent s3) as Es.
    { pose proof (quiet_mmap (openid_filter rnd nm) svs (quiet_openid_filter rnd nm) s3) as K. rewrite Em in K. exact K. }
    exists cid. split.
    - rewrite Es. apply query_spec in Eq as (done & q & _ & _ & _ & V). destruct (V _ _ eq_refl) as [X|V']; [discriminate X|auto].
    - rewrite C57_providers_first. apply Forall_forall. intros ep I.
      assert (In ep (map (fun ep => mkEndpoint (Some cid) (ep_server_url ep) (ep_type_uris ep) (ep_local_id ep) (Some cid) (ep_used_yadis ep) (Some nm)) eps1)) as I2.
      { apply in_app_iff in I as [I|I]; apply filter_In in I; apply I. }
      apply in_map_iff in I2 as (ep0 & <- & _). auto.
  Qed.
  Lemma queryURL_proxy iname t url : queryURL iname t = Ok url -> startswith url (u "http://proxy.xri.net/") = true.
  Proof using.
    unfold queryURL. intros H. apply bind_Ok in H as (q & _ & H). apply startswith_spec. change (u "http://proxy.xri.net/") with DEFAULT_PROXY.
    revert H. match goal with |- appendArgs_xri _ ?a = _ -> _ => generalize a end. intros args H. revert H. generalize DEFAULT_PROXY. intros proxy.
    unfold appendArgs_xri. destruct (sort _ args); intros H; [injection H as <-; exists (skipn 6 q); reflexivity|].
    apply bind_Ok in H as (q2 & _ & H). injection H as <-. eexists. rewrite <- app_assoc. reflexivity.
  Qed.
  Theorem C107_requests : forall xri s s' r, DX xri s = (s', r) ->
    exists name done todo q, bare xri name /\ d_sent s' = d_sent s ++ q /\ openid_types = done ++ todo /\
      Forall2 (fun t q => queryURL name t = Ok (f_url q) /\ startswith (f_url q) (u "http://proxy.xri.net/") = true /\ f_accept q = false) done q.
  Proof using.
    intros xri s s' r H. unfold discoverXRI in H. set (nm := normalizeXRI xri) in *. exists nm.
    assert (exists s1 r1, Q nm openid_type_uris None s = (s1, r1) /\ d_sent s' = d_sent s1) as (s1 & r1 & Eq & Es).
    { destruct (Q nm openid_type_uris None s) as [s1 r1] eqn:Eq. exists s1, r1. split; auto.
      assert (forall k : option text * list xel -> M (list endpoint), (forall a, quiet (k a)) -> d_sent (fst (mbind (Q nm openid_type_uris None) k s)) = d_sent s1) as K.
      { intros k Hk. unfold mbind. rewrite Eq. destruct r1 as [a|x]; [apply Hk|reflexivity]. }
      match type of H with mbind (mcatch (mbind _ ?k) ?h) ?f s = _ => specialize (K k); set (hh := h) in H; set (kk := k) in *; set (ff := f) in H end.
      assert (d_sent (fst (mbind (Q nm openid_type_uris None) kk s)) = d_sent s1) as K2.
      { apply K. intros [[cid|] svs]; unfold kk; cbn [fst snd]; [|apply quiet_mret]. apply quiet_mbind; [apply quiet_mmap; intros x; apply quiet_openid_filter|]. intros a. apply quiet_mret. }
      unfold mbind at 1, mcatch in H. destruct (mbind (Q nm openid_type_uris None) kk s) as [s2 [a|x]]; cbn [fst] in K2.
      - unfold ff in H. apply mret_inv in H as (-> & _). auto.
      - destruct (hh x) as [[a|y]|]; unfold ff in H; injection H as <- _; auto. }
    apply query_spec in Eq as (done & q & E1 & (todo & E2) & E3 & _). exists done, todo, q. split; [apply normalizeXRI_bare|]. split; [congruence|]. split; auto.
    clear - E3. induction E3 as [|t q l l' (A & B) F IH]; constructor; auto. split; auto. split; auto. eapply queryURL_proxy; eauto.
  Qed.
End ByXri.
Print Assumptions C107_endpoints_by_XRI.
Print Assumptions C107_requests.

(** Two answers of the proxy, with different identifiers. *)
Definition xri_doc (cid : text) (services : list xel) : xel :=
  mkXel (u "{xri://$xrds}XRDS") [] None [mkXel xrd_tag [] None (el canonicalID_tag cid :: services)].
Definition two_docs (b : bytes) : option xel :=
  match b with
  | [1] => Some (xri_doc (u "=!1") [service1])
  | _ => Some (xri_doc (u "=!2") [service2])
  end.
Definition proxy (sent : list freq) : res fresp :=
  match sent with
  | [_] => Ok (mkResp [] 200 [] [1])
  | [_; _; _] => Ok (mkResp [] 200 [] [2])
  | _ => Ok (mkResp [] 404 [] [])
  end.
Definition by_xri (web : list freq -> res fresp) (px : bytes -> option xel) (xri : text) := discoverXRI lower no_sort web px xri d0.
Example C107_example :
  map (fun q => firstn 47 (f_url q)) (d_sent (fst (by_xri proxy two_docs (u "xri://=me")))) = repeat (u "http://proxy.xri.net/=me?_xrd_r=application%2Fx") 4 /\
  snd (by_xri proxy two_docs (u "xri://=me")) =
    Ok (u "=me", map (fun s => mkEndpoint (Some (u "xri://=!2")) (Some (fst s)) (snd s) (if text_eqb (fst s) (u "http://c.example/") then Some (u "me") else None) (Some (u "xri://=!2")) true (Some (u "=me")))
      [(u "http://a.example/", [OPENID_2_0_TYPE; u "http://other/"]); (u "http://b.example/", [OPENID_2_0_TYPE; u "http://other/"]); (u "http://c.example/", [OPENID_1_1_TYPE])]) /\
  snd (by_xri (fun _ => Ok (mkResp [] 404 [] [])) two_docs (u "=me")) = Ok (u "=me", []).
Proof. vm_compute. auto. Qed.

(** ** C108: the identifier of the document that lists a service *)
(** Every endpoint has the identifier of a document that lists its service. *)
Definition own_identifier (px : bytes -> option xel) (answers : list bytes) (name : text) (ep : endpoint) : Prop :=
  exists b doc above last service uri_element,
    In b answers /\ px b = Some doc /\ getCanonicalID lower name doc = Ok (ep_claimed_id ep) /\ xrds doc = above ++ [last] /\
    In service (tagged service_el last) /\ In uri_element (tagged uri_el service) /\ x_text uri_element = ep_server_url ep.
Theorem C108_own_identifier_refuted :
  exists name ep eps,
    snd (by_xri proxy two_docs (u "=me")) = Ok (name, ep :: eps) /\
    ~ own_identifier two_docs [[1]; [2]] name ep.
Proof.
  eexists _, _, _. split; [vm_compute; reflexivity|]. intros (b & doc & above & last & service & ue & Ib & Ed & C & X & Is & Iu & T).
  destruct Ib as [<-|[<-|[]]]; cbn [two_docs] in Ed; injection Ed as <-.
  - vm_compute in C. discriminate C.
  - change (xrds (xri_doc (u "=!2") [service2])) with ([] ++ [mkXel xrd_tag [] None [el canonicalID_tag (u "=!2"); service2]]) in X.
    apply app_inj_tail in X as (_ & <-).
    change (tagged service_el (mkXel xrd_tag [] None [el canonicalID_tag (u "=!2"); service2])) with [service2] in Is. destruct Is as [<-|[]].
    change (tagged uri_el service2) with [el uri_el (u "http://c.example/")] in Iu. destruct Iu as [<-|[]]. vm_compute in T. discriminate T.
Qed.
Print Assumptions C108_own_identifier_refuted.

(** ** C109: errors that escape discovery *)
(** What consumer/discover.py documents: DiscoveryFailure, or what fetching raised. *)
Definition documented_errors (e : uenv) (low : text -> text) (rnd : shuffler) (web : list freq -> res fresp) (px ph : bytes -> option xel)
    (decode_as : text -> bytes -> res text) (pm : (text + bytes) -> option xel) : Prop :=
  forall identifier s x, snd (discover e low rnd web px ph decode_as pm identifier s) = Raise x ->
    x = DiscoveryFailure \/ exists sent, web sent = Raise x.
(** Without any request: an identifier with an unclosed bracket. *)
Theorem C109_unclosed_bracket_refuted :
  forall e low rnd web px ph decode_as pm, (forall sent x, web sent = Raise x -> x = HTTPFetchingError) ->
    exists s, discover e low rnd web px ph decode_as pm (u "http://[") s = (s, Raise ValueError) /\
      ~ documented_errors e low rnd web px ph decode_as pm.
Proof.
  intros e low rnd web px ph da pm H. exists d0. assert (discover e low rnd web px ph da pm (u "http://[") d0 = (d0, Raise ValueError)) as K by (vm_compute; reflexivity).
  split; auto. intros D. destruct (D (u "http://[") d0 ValueError) as [X|(sent & X)]; [rewrite K; reflexivity|discriminate X|]. apply H in X. discriminate X.
Qed.
Print Assumptions C109_unclosed_bracket_refuted.
(** A page with an unknown charset. *)
Definition bogus (sent : list freq) : res fresp := answer (u "http://user.example/") [(u "content-type", u "text/html; charset=bogus")].
Theorem C109_unknown_charset_refuted :
  forall e low rnd px ph decode_as pm, (forall b, decode_as (u "bogus") b = Raise LookupError) ->
    snd (discover e low rnd bogus px ph decode_as pm (u "http://user.example/") d0) = Raise LookupError.
Proof.
  intros e low rnd px ph da pm H. unfold discover. change (identifierScheme (u "http://user.example/")) with SchemeURI. cbv iota.
  unfold discoverURI. match goal with |- context [mret ?m] => assert (m = Ok (u "http://user.example/")) as -> by (vm_compute; reflexivity) end.
  unfold mbind at 1, mret at 1. unfold discoverYadis, yadisDiscover. unfold mbind, fetch, bogus, answer, mret. cbn [r_status r_final_url r_headers d_sent app].
  change (negb (status_ok 200)) with false. cbv iota. unfold whereIsYadis. cbn [r_status r_final_url r_headers r_body].
  change (dget text_eqb (u "content-type") [(u "content-type", u "text/html; charset=bogus")]) with (Some (u "text/html; charset=bogus")). cbv iota.
  match goal with |- context [if ?c then _ else _] => change c with false end. cbv iota.
  change (otruthy (dget text_eqb YADIS_HEADER_NAME_lower [(u "content-type", u "text/html; charset=bogus")])) with false. cbv iota.
  change (charset_of (u "text/html; charset=bogus")) with (u "bogus"). rewrite H. reflexivity.
Qed.
Print Assumptions C109_unknown_charset_refuted.
(** A document with an empty Type element. *)
Definition empty_type : xel := xrd_doc [sv [mkXel type_el [] None []; el uri_el (u "http://a.example/")]].
Theorem C109_empty_type_refuted :
  exists web px, snd (discover no_env lower no_sort web px (fun _ => None) utf8 (fun _ => None) (u "http://user.example/") d0) = Raise AttributeError /\
    (forall sent, exists resp, web sent = Ok resp).
Proof.
  exists (fun _ => at_page (u "http://user.example/")), (fun _ => Some empty_type). split; [vm_compute; reflexivity|]. intros sent. eexists. reflexivity.
Qed.
Print Assumptions C109_empty_type_refuted.

(** ** C110: making filters *)
Section Filters.
  Context {E : Type} (rnd : shuffler).
  Notation part := (part E).
  (** Something that is no filter is somewhere in the parts. *)
  Inductive no_filter : part -> Prop :=
  | nf_other : no_filter (POther E)
  | nf_list ps p : In p ps -> no_filter p -> no_filter (PList E ps).
  Fixpoint size (p : part) : nat := match p with PList _ ps => S (fold_right (fun q n => (size q + n)%nat) 0%nat ps) | _ => 0%nat end.
  Notation go := (fix go ps := match ps with
                               | [] => Ok ([], [])
                               | q :: r => x <- mkPart rnd q ;; '(fs, ts) <- go r ;;
                                           Ok (match x with inl f => (f :: fs, ts) | inr t => (fs, t :: ts) end)
                               end).
  Lemma mkPart_spec n : forall p, (size p < n)%nat -> (no_filter p /\ mkPart rnd p = Raise TypeError) \/ (~ no_filter p /\ exists x, mkPart rnd p = Ok x).
  Proof using.
    induction n as [|n IH]; intros p H; [lia|]. destruct p as [f|t|ps|].
    - right. split; [intros X; inversion X|]. eexists. reflexivity.
    - right. split; [intros X; inversion X|]. eexists. reflexivity.
    - assert ((exists p, In p ps /\ no_filter p) /\ go ps = Raise TypeError \/ ~ (exists p, In p ps /\ no_filter p) /\ exists x, go ps = Ok x) as K.
      { cbn [size] in H. assert (fold_right (fun q n => (size q + n)%nat) 0%nat ps < n)%nat as H' by lia. clear H. induction ps as [|q ps IHps].
        - right. split; [intros (p & [] & _)|]. eexists. reflexivity.
        - cbn [fold_right] in H'. assert (size q < n)%nat as Hq by lia. destruct (IH q Hq) as [(N & ->)|(N & x & ->)].
          + left. split; auto. exists q. split; [left; auto|auto].
          + cbn [bind]. destruct (IHps ltac:(lia)) as [((p & I & Np) & ->)|(Np & (y & ->))].
            * left. split; auto. exists p. split; [right; auto|auto].
            * right. split; [intros (p & [->|I] & X); [auto|apply Np; exists p; auto]|]. destruct y as [fs ts]. eexists. reflexivity. }
      cbn [mkPart]. destruct K as [((p & I & N) & K)|(N & x & K)].
      + left. split; [econstructor; eauto|]. rewrite K. reflexivity.
      + right. split; [intros X; inversion X; subst; apply N; eauto|]. rewrite K. destruct x as [fs ts]. eexists. reflexivity.
    - left. split; [constructor|reflexivity].
  Qed.
  Theorem C110_type_error : forall ps,
    ((exists p, In p ps /\ no_filter p) /\ mkFilter rnd ps = Raise TypeError) \/
    (~ (exists p, In p ps /\ no_filter p) /\ exists f, mkFilter rnd ps = Ok f).
  Proof using.
    intros ps. unfold mkFilter. destruct (mkPart_spec (S (size (PList E ps))) (PList E ps)) as [(N & ->)|(N & x & Ex)]; [lia| |].
    - left. split; auto. inversion N; eauto.
    - right. split; [intros (p & I & X); apply N; econstructor; eauto|]. rewrite Ex. cbn [bind].
      destruct x as [f|t]; [exists f; auto|]. exfalso. cbn [mkPart] in Ex. apply bind_Ok in Ex as (f & _ & Ex). discriminate Ex.
  Qed.
  (** Lists within lists aside: first the filters in order, last the callables, of which the
      first to give an endpoint for a URI of the service gives its endpoint. *)
  Definition filters_in (ps : list part) : list (filt E) := flat_map (fun p => match p with PFilter _ f => [f] | _ => [] end) ps.
  Definition callables_in (ps : list part) : list (basic -> res (option E)) := flat_map (fun p => match p with PTransform _ t => [t] | _ => [] end) ps.
  Lemma mmap_one {A B} (f : A -> M (list B)) a s : mmap f [a] s = f a s.
  Proof using. cbn [mmap]. unfold mbind, mret. destruct (f a s) as [s' [l|x]]; auto. rewrite app_nil_r. auto. Qed.
  Theorem C110_order : forall ps f, Forall (fun p => match p with PList _ _ => False | _ => True end) ps -> mkFilter rnd ps = Ok f ->
    forall url service s, f url service s =
      mmap (fun g => g url service) (filters_in ps ++ match callables_in ps with [] => [] | ts => [transform_filter rnd ts] end) s.
  Proof using.
    intros ps f Fl H url service s. unfold mkFilter in H. cbn [mkPart] in H. apply bind_Ok in H as (x & Hx & H). apply bind_Ok in Hx as (g & Hg & Hx). injection Hx as <-.
    cbv iota in H. injection H as <-. unfold assemble in Hg. apply bind_Ok in Hg as ([fs ts] & Eg & Hg). injection Hg as <-.
    assert (fs = filters_in ps /\ ts = callables_in ps) as (-> & ->).
    { revert fs ts Eg. induction Fl as [|p ps Hp Fl IH]; intros fs ts Eg; [injection Eg as <- <-; auto|].
      apply bind_Ok in Eg as (x & Ex & Eg). apply bind_Ok in Eg as ([fs' ts'] & Er & Eg). destruct (IH _ _ Er) as (-> & ->).
      destruct p as [f|t|l|]; cbn [mkPart] in Ex; [| |contradiction|discriminate Ex]; injection Ex as <-; injection Eg as <- <-; auto. }
    set (l := match callables_in ps with [] => filters_in ps | _ => filters_in ps ++ [transform_filter rnd (callables_in ps)] end).
    assert (filters_in ps ++ match callables_in ps with [] => [] | ts => [transform_filter rnd ts] end = l) as ->
      by (unfold l; destruct (callables_in ps); [apply app_nil_r|reflexivity]).
    destruct l as [|g [|g' l']]; auto. rewrite mmap_one. auto.
  Qed.
  Theorem C110_first_callable_wins : forall (ts : list (basic -> res (option E))) b y,
    applyFilters ts b = Ok (Some y) <->
    exists before t after, ts = before ++ t :: after /\ Forall (fun t => t b = Ok None) before /\ t b = Ok (Some y).
  Proof using.
    intros ts b y. induction ts as [|t ts IH]; cbn [applyFilters].
    - split; [intros H; discriminate H|]. intros (be & t & af & X & _). destruct be; discriminate X.
    - destruct (t b) as [[z|]|x] eqn:Et; cbn [bind].
      + split; [intros H; injection H as ->; exists [], t, ts; auto|]. intros (be & t' & af & X & F & Ht). destruct be as [|w be]; injection X as <- ->; [congruence|].
        inversion F; congruence.
      + rewrite IH. split.
        * intros (be & t' & af & -> & F & Ht). exists (t :: be), t', af. auto.
        * intros (be & t' & af & X & F & Ht). destruct be as [|w be]; injection X as <- ->; [congruence|]. inversion F; subst. exists be, t', af. auto.
      + split; [intros H; discriminate H|]. intros (be & t' & af & X & F & Ht). destruct be as [|w be]; injection X as <- ->; [congruence|]. inversion F; congruence.
  Qed.
End Filters.
Print Assumptions C110_type_error.
Print Assumptions C110_order.
Print Assumptions C110_first_callable_wins.
Definition by_uri (b : basic) : res (option text) := Ok (b_uri b).
Definition none_of (b : basic) : res (option text) := Ok None.
Definition fixed (t : text) : filt text := fun _ _ => mret (Ok [t]).
Example C110_example :
  match mkFilter no_sort [PTransform text none_of; PFilter text (fixed (u "x")); PTransform text by_uri] with
  | Ok f => snd (f (u "me") service1 d0) = Ok [u "x"; u "http://a.example/"; u "http://b.example/"]
  | Raise _ => False
  end /\
  match mkFilter no_sort [PList text [PTransform text by_uri; POther text]] with Raise TypeError => True | _ => False end.
Proof. vm_compute. auto. Qed.
