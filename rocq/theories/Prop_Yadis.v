(** C177-C178: where a response says its Yadis document is; which identifiers are XRIs
    (/repo/openid/yadis/discover.py, /repo/openid/yadis/xri.py, /repo/openid/consumer/discover.py). *)
From Coq Require Import Lia ZifyBool ZifyN ZifyNat.
From Verif Require Import Py PyFacts UrlLib UrlLibFacts UriNorm Message Xri Etxrd Endpoint Discover Prop_Discover Prop_DiscoverUri.
From Verif Require TrustRootFacts.
Open Scope N_scope.
Local Arguments u : simpl never.

(** ** C177 *)
(** The media type of a content type: what is before its parameters. *)
Definition media_type (content_type media : text) : Prop :=
  ~ In 59 media /\ (content_type = media \/ exists parameters, content_type = media ++ u ";" ++ parameters).
Definition is_document (resp : fresp) : Prop :=
  exists ct media, dget text_eqb (u "content-type") (r_headers resp) = Some ct /\ media_type ct media /\ lower media = u "application/xrds+xml".
(** The charset: that of the last parameter, if the parameter is one. *)
Definition last_parameter_charset (content_type charset : text) : Prop :=
  exists front name value rest, content_type = front ++ u ";" ++ name ++ u "=" ++ value /\ ~ In 59 (name ++ u "=" ++ value) /\ ~ In 61 name /\
    strip (name ++ u "=" ++ value) = u "charset=" ++ rest /\ charset = strip value.
Definition charset (resp : fresp) (c : text) : Prop :=
  let in_header := exists ct, dget text_eqb (u "content-type") (r_headers resp) = Some ct /\ last_parameter_charset ct c in
  let none := forall ct c', dget text_eqb (u "content-type") (r_headers resp) = Some ct -> ~ last_parameter_charset ct c' in
  in_header \/ (none /\ c = u "UTF-8").
(** The element of the page that names the location. *)
Definition names_it (m : xel) : Prop := x_tag m = u "meta" /\ exists v, x_get (u "http-equiv") m = Some v /\ lower v = u "x-xrds-location".

Lemma first_fun {A} (P : A -> Prop) l x y : first_such P l x -> first_such P l y -> x = y.
Proof.
  revert x y. induction l as [|a l IH]; intros [x|] [y|] Hx Hy; auto; cbn [first_such] in *;
    try (destruct Hx as (b & t & E & Px & Bx)); try (destruct Hy as (b' & t' & E' & Py & By)).
  - destruct b; discriminate E.
  - destruct b; discriminate E.
  - destruct b'; discriminate E'.
  - destruct b as [|z b], b' as [|z' b']; cbn in E, E'; inv E; inv E'; auto.
    + destruct (By z'); [left; auto|auto].
    + destruct (Bx y); [left; auto|auto].
    + apply IH; [exists b, t|exists b', t']; (split; [auto|split; auto]); intros w W; [apply Bx|apply By]; right; auto.
  - destruct (Hy x); auto. rewrite E. apply in_elt.
  - destruct (Hx y); auto. rewrite E'. apply in_elt.
Qed.
Lemma lstripf_In f c s : In c (lstripf f s) -> In c s.
Proof. intros H. destruct (lstripf_split f s) as (l & E & _). rewrite E. apply in_or_app. auto. Qed.
Lemma strip_In c s : In c (strip s) -> In c s.
Proof. unfold strip, stripf. intros H. apply in_rev, lstripf_In, in_rev, lstripf_In in H. exact H. Qed.

  Lemma document_spec resp : is_document resp <->
    (let ct := match dget text_eqb (u "content-type") (r_headers resp) with Some c => c | None => [] end in
     truthy ct && text_eqb (lower (match cut 59 ct with Some (a, _) => a | None => ct end)) YADIS_CONTENT_TYPE = true).
  Proof.
    cbv zeta. unfold is_document, YADIS_CONTENT_TYPE. rewrite andb_true_iff, text_eqb_eq. split.
    - intros (ct & media & -> & (N & M) & L). split; [destruct ct; [|reflexivity]|].
      + destruct M as [<-|(p & E)]; [vm_compute in L; discriminate L|]. destruct media; discriminate E.
      + destruct M as [->|(p & ->)].
        * apply cut_None in N. rewrite N. exact L.
        * change (u ";" ++ p) with (59 :: p). rewrite cut_app by auto. exact L.
    - destruct (dget _ _ _) as [ct|]; [|intros (H & _); discriminate H]. intros (_ & L). destruct (cut 59 ct) as [[a b]|] eqn:C.
      + apply cut_Some in C as (-> & N). exists (a ++ 59 :: b), a. split; auto. split; auto. split; auto. right. exists b. reflexivity.
      + apply cut_None in C. exists ct, ct. split; auto. split; auto. split; auto.
  Qed.
  Lemma charset_spec resp c :
    charset resp c <-> c = charset_of (match dget text_eqb (u "content-type") (r_headers resp) with Some c => c | None => [] end).
  Proof.
    assert (forall ct c, last_parameter_charset ct c <-> (exists a p, rcut 59 ct = Some (a, p) /\ startswith (strip p) (u "charset=") = true /\ exists n v, cut 61 p = Some (n, v) /\ c = strip v)) as L.
    { intros ct c'. split.
      - intros (f & n & v & r & -> & N1 & N2 & E & ->). exists f, (n ++ u "=" ++ v). split; [apply rcut_Some; auto|]. split; [rewrite E; apply startswith_app|].
        exists n, v. split; auto. apply cut_Some. auto.
      - intros (a & p & R & S & n & v & C & ->). apply rcut_Some in R as (-> & N1). apply cut_Some in C as (-> & N2). apply startswith_spec in S as (r & S).
        exists a, n, v, r. auto. }
    assert (forall p, startswith (strip p) (u "charset=") = true -> cut 61 p <> None) as K.
    { intros p S C. apply cut_None in C. apply startswith_spec in S as (r & S). apply C.
      assert (In 61 (strip p)) as I by (rewrite S; apply in_or_app; left; vm_compute; tauto). apply strip_In in I. exact I. }
    unfold charset. cbv zeta. destruct (dget _ _ _) as [ct|].
    - assert ((exists c', last_parameter_charset ct c') \/ charset_of ct = u "UTF-8" /\ forall c', ~ last_parameter_charset ct c') as D.
      { unfold charset_of. destruct (rcut 59 ct) as [[a p]|] eqn:R.
        - destruct (startswith (strip p) (u "charset=")) eqn:S.
          + destruct (cut 61 p) as [[n v]|] eqn:C; [|destruct (K p S C)]. left. exists (strip v). apply L. exists a, p. split; auto. split; auto. eauto.
          + right. split; auto. intros c' H. apply L in H as (a' & p' & R' & S' & _). rewrite R in R'. congruence.
        - right. split; auto. intros c' H. apply L in H as (a' & p' & R' & _). congruence. }
      assert (forall c', last_parameter_charset ct c' -> c' = charset_of ct) as F.
      { intros c' H. apply L in H as (a & p & R & S & n & v & C & ->). unfold charset_of. rewrite R, S, C. reflexivity. }
      split.
      + intros [(ct' & E & H)|(N & ->)]; [injection E as <-; auto|]. destruct D as [(c' & D)|(D & _)]; [destruct (N ct c' eq_refl D)|auto].
      + intros ->. destruct D as [(c' & D)|(D & Nn)]; [left; exists ct; split; auto; rewrite <- (F c' D); auto|right; split; auto]. intros ct' c' E. injection E as <-. auto.
    - split.
      + intros [(ct & E & _)|(_ & ->)]; [discriminate|vm_compute; reflexivity].
      + intros ->. right. split; [intros ct c' E; discriminate|vm_compute; reflexivity].
  Qed.

Section Where.
  Variable decode_as : text -> bytes -> res text.
  Variable parse_meta : (text + bytes) -> option xel.
  (** What the page says, read as text or, if it is not text in its charset, as it is. *)
  Definition page (resp : fresp) (stream : text + bytes) : Prop :=
    exists c, charset resp c /\
      ((exists t, decode_as c (r_body resp) = Ok t /\ stream = inl t) \/
       (exists x, decode_as c (r_body resp) = Raise x /\ (x = UnicodeDecodeError \/ x = UnicodeEncodeError) /\ stream = inr (r_body resp))).
  Definition page_names (stream : text + bytes) (loc : text) : Prop :=
    exists root m, parse_meta stream = Some root /\ first_such names_it (in_heads root) (Some m) /\ x_get (u "content") m = Some loc.

  Inductive located (resp : fresp) : res (option text) -> Prop :=
  | itself : is_document resp -> located resp (Ok (Some (r_final_url resp)))
  | in_header loc : ~ is_document resp -> dget text_eqb (u "x-xrds-location") (r_headers resp) = Some loc -> loc <> [] -> located resp (Ok (Some loc))
  | in_page stream loc : ~ is_document resp -> (forall h, dget text_eqb (u "x-xrds-location") (r_headers resp) = Some h -> h = []) ->
      page resp stream -> page_names stream loc -> located resp (Ok (Some loc))
  | nowhere stream : ~ is_document resp -> (forall h, dget text_eqb (u "x-xrds-location") (r_headers resp) = Some h -> h = []) ->
      page resp stream -> (forall loc, ~ page_names stream loc) -> located resp (Ok (dget text_eqb (u "x-xrds-location") (r_headers resp)))
  | unknown_charset c x : ~ is_document resp -> (forall h, dget text_eqb (u "x-xrds-location") (r_headers resp) = Some h -> h = []) ->
      charset resp c -> decode_as c (r_body resp) = Raise x -> x <> UnicodeDecodeError -> x <> UnicodeEncodeError -> located resp (Raise x).

  Lemma meta_spec stream : (exists loc, findHTMLMeta parse_meta stream = Ok loc /\ page_names stream loc) \/
    findHTMLMeta parse_meta stream = Raise MetaNotFound /\ forall loc, ~ page_names stream loc.
  Proof using.
    destruct (findHTMLMeta parse_meta stream) as [loc|x] eqn:E.
    - left. exists loc. split; auto. apply findHTMLMeta_names in E as (root & m & A & B & C). exists root, m. auto.
    - right. unfold findHTMLMeta in E. destruct (parse_meta stream) as [root|] eqn:P.
      + rewrite head_elements_heads, filter_filter in E. match type of E with match filter ?g _ with _ => _ end = _ => set (f := g) in E end.
        assert (first_such names_it (in_heads root) (hd_error (filter f (in_heads root)))) as F.
        { apply filter_hd. intros y. unfold f, names_it. rewrite andb_true_iff, text_eqb_eq. unfold YADIS_HEADER_NAME_lower. destruct (x_get (u "http-equiv") y) as [v|].
          - rewrite text_eqb_eq. split; intros (A & B); split; auto; [exists v; auto|]. destruct B as (v' & E' & B). injection E' as ->. auto.
          - split; intros (A & B); [discriminate B|]. destruct B as (v & E' & _). discriminate E'. }
        assert (x = MetaNotFound) as -> by (destruct (filter f (in_heads root)) as [|m ms]; [congruence|destruct (x_get (u "content") m); congruence]).
        split; auto. intros loc (root' & m & P' & B & C). rewrite P in P'. injection P' as <-.
        pose proof (first_fun _ _ _ _ F B) as H. destruct (filter f (in_heads root)) as [|m' ms]; [discriminate H|]. injection H as ->. rewrite C in E. discriminate E.
      + injection E as <-. split; auto. intros loc (root & m & P' & _). congruence.
  Qed.

  (** C177: the document itself, by its media type; else the header; else the page; and
      nothing else. *)
  Theorem C177_where : forall resp r, located resp r <-> whereIsYadis decode_as parse_meta resp = r.
  Proof using.
    intros resp.
    assert (forall r, located resp r -> whereIsYadis decode_as parse_meta resp = r) as F.
    { intros r H. unfold whereIsYadis, YADIS_HEADER_NAME_lower. pose proof (document_spec resp) as Ds. cbv zeta in Ds.
      set (ct := match dget text_eqb (u "content-type") (r_headers resp) with Some c => c | None => [] end) in *.
      destruct (truthy ct && _) eqn:E; destruct H as [D|loc D H Ne|stream loc D Hd Pg Nm|stream D Hd Pg Nm|c x D Hd Ch De N1 N2]; try (apply proj2 in Ds; destruct (D (Ds eq_refl)); fail); auto;
        try (apply Ds in D; discriminate D).
      - rewrite H. destruct loc; [congruence|reflexivity].
      - assert (otruthy (dget text_eqb (u "x-xrds-location") (r_headers resp)) = false) as -> by (destruct (dget _ _ _) as [h|]; [rewrite (Hd h eq_refl); reflexivity|reflexivity]).
        destruct Pg as (c & Ch & Pg). apply charset_spec in Ch. fold ct in Ch. subst c.
        assert (match decode_as (charset_of ct) (r_body resp) with Ok t => Ok (inl t) | Raise x => if isUnicodeError x then Ok (inr (r_body resp)) else Raise x end = Ok stream) as ->
          by (destruct Pg as [(t & -> & ->)|(x & -> & [->| ->] & ->)]; reflexivity).
        cbn [bind]. destruct (meta_spec stream) as [(loc' & -> & N')|(_ & N')]; [|destruct (N' loc Nm)].
        destruct Nm as (root & m & P & B & C), N' as (root' & m' & P' & B' & C'). rewrite P in P'. injection P' as <-. pose proof (first_fun _ _ _ _ B B') as X. congruence.
      - assert (otruthy (dget text_eqb (u "x-xrds-location") (r_headers resp)) = false) as -> by (destruct (dget _ _ _) as [h|]; [rewrite (Hd h eq_refl); reflexivity|reflexivity]).
        destruct Pg as (c & Ch & Pg). apply charset_spec in Ch. fold ct in Ch. subst c.
        assert (match decode_as (charset_of ct) (r_body resp) with Ok t => Ok (inl t) | Raise x => if isUnicodeError x then Ok (inr (r_body resp)) else Raise x end = Ok stream) as ->
          by (destruct Pg as [(t & -> & ->)|(x & -> & [->| ->] & ->)]; reflexivity).
        cbn [bind]. destruct (meta_spec stream) as [(loc' & -> & N')|(-> & N')]; [destruct (Nm loc' N')|reflexivity].
      - assert (otruthy (dget text_eqb (u "x-xrds-location") (r_headers resp)) = false) as -> by (destruct (dget _ _ _) as [h|]; [rewrite (Hd h eq_refl); reflexivity|reflexivity]).
        apply charset_spec in Ch. fold ct in Ch. subst c. rewrite De. destruct x; try congruence; reflexivity. }
    intros r. split; [apply F|]. intros <-.
    assert (exists r, located resp r) as (r & H); [|rewrite (F r H); exact H].
    pose proof (document_spec resp) as Ds. cbv zeta in Ds. match type of Ds with _ <-> ?b = true => destruct b eqn:E end.
    - eexists. apply itself. apply Ds. reflexivity.
    - assert (~ is_document resp) as D by (intros D; apply Ds in D; discriminate D).
      assert ((exists loc, dget text_eqb (u "x-xrds-location") (r_headers resp) = Some loc /\ loc <> []) \/ (forall h, dget text_eqb (u "x-xrds-location") (r_headers resp) = Some h -> h = [])) as [(loc & H & Ne)|Hd].
      { destruct (dget text_eqb (u "x-xrds-location") (r_headers resp)) as [[|c h]|]; [right; congruence|left; eexists; split; [reflexivity|discriminate]|right; congruence]. }
      { eexists. apply (in_header resp loc); auto. }
      pose proof (proj2 (charset_spec resp _) eq_refl) as Ch. set (c := charset_of _) in Ch.
      assert (forall stream, page resp stream -> exists r, located resp r) as K.
      { intros stream Pg. destruct (meta_spec stream) as [(loc & _ & N)|(_ & N)]; eexists; [apply (in_page resp stream loc); auto|apply (nowhere resp stream); auto]. }
      destruct (decode_as c (r_body resp)) as [t|x] eqn:De.
      + apply (K (inl t)). exists c. split; auto. left. eauto.
      + assert (x = UnicodeDecodeError \/ x = UnicodeEncodeError \/ x <> UnicodeDecodeError /\ x <> UnicodeEncodeError) as [H|[H|(N1 & N2)]]
          by (destruct x; auto; right; right; split; discriminate).
        * apply (K (inr (r_body resp))). exists c. split; auto. right. exists x. auto.
        * apply (K (inr (r_body resp))). exists c. split; auto. right. exists x. auto.
        * eexists. apply (unknown_charset resp c x); auto.
  Qed.
End Where.
Print Assumptions C177_where.

Definition yadis_page (ct : text) (meta : text) : fresp := mkResp (u "http://a/") 200 [(u "content-type", ct)] meta.
Definition page_element (stream : text + bytes) : option xel :=
  match stream with
  | inl t => Some (mkXel (u "html") [] None [mkXel (u "head") [] None [mkXel (u "meta") [(u "http-equiv", u "X-XRDS-Location"); (u "content", t)] None []]])
  | inr _ => None
  end.
Example C177_example :
  let w := whereIsYadis (fun c b => if text_eqb c (u "x") then Ok (u "in x") else if text_eqb c (u "UTF-8") then Ok b else Raise LookupError) page_element in
  w (yadis_page (u "Application/XRDS+xml; charset=x") []) = Ok (Some (u "http://a/")) /\
  w (yadis_page (u "text/html;charset= x ") (u "http://b/")) = Ok (Some (u "in x")) /\
  w (yadis_page (u "text/html") (u "http://b/")) = Ok (Some (u "http://b/")) /\
  w (yadis_page (u "text/html;charset=y") (u "http://b/")) = Raise LookupError.
Proof. repeat split; vm_compute; reflexivity. Qed.

(** ** C178 *)
Definition is_xri (identifier : text) : Prop :=
  (exists r, identifier = u "xri://" ++ r) \/ exists c r, identifier = c :: r /\ In c (u "!=@+$(").
Lemma scheme_spec identifier : identifierScheme identifier = SchemeXRI <-> is_xri identifier.
Proof.
  unfold identifierScheme, is_xri. assert (match identifier with c :: _ => memc c XRI_AUTHORITIES | [] => false end = true <-> exists c r, identifier = c :: r /\ In c (u "!=@+$(")) as H.
  { destruct identifier as [|c r]; [split; [discriminate|intros (c & r & E & _); discriminate]|]. rewrite memc_In. split; [eauto|]. intros (c' & r' & E & I). injection E as -> ->. exact I. }
  rewrite <- H, <- startswith_spec. change (u "xri://") with xri_scheme. destruct (startswith identifier xri_scheme), (match identifier with c :: _ => _ | [] => _ end); cbn [orb]; intuition congruence.
Qed.
(** XRIs go to the proxy.  Anything else is the address of a page, "http://" put before it
    unless it has a scheme and a host; and then the scheme has to be http or https. *)
Theorem C178_who_is_asked : forall e low rnd web parse_xml parse_html decode_as parse_meta identifier s,
  let d := discover e low rnd web parse_xml parse_html decode_as parse_meta identifier s in
  (is_xri identifier -> d = discoverXRI low rnd web parse_xml identifier s) /\
  (~ is_xri identifier -> forall p, urlsplit e identifier = Ok p ->
    (sp_scheme p <> [] -> sp_netloc p <> [] -> sp_scheme p <> u "http" -> sp_scheme p <> u "https" -> d = (s, Raise DiscoveryFailure)) /\
    forall address n, normalizeURL e address = Ok n ->
      (sp_scheme p <> [] /\ sp_netloc p <> [] /\ (sp_scheme p = u "http" \/ sp_scheme p = u "https") /\ address = identifier) \/
      ((sp_scheme p = [] \/ sp_netloc p = []) /\ address = u "http://" ++ identifier) ->
      exists more, d_sent (fst d) = d_sent s ++ mkFreq n true :: more).
Proof.
  intros e low rnd web px ph da pm id s. cbv zeta. unfold discover. pose proof (scheme_spec id) as Sc. destruct (identifierScheme id).
  - split; [auto|]. intros N. destruct (N (proj1 Sc eq_refl)).
  - split; [intros X; apply Sc in X; discriminate X|]. intros _ p P. split.
    + intros N1 N2 N3 N4. unfold discoverURI, mbind, mret. rewrite P. cbn [bind].
      assert (truthy (sp_scheme p) && truthy (sp_netloc p) = true) as -> by (destruct (sp_scheme p), (sp_netloc p); auto; congruence).
      assert (mem_text (sp_scheme p) [u "http"; u "https"] = false) as -> by (apply mem_text_false; cbn [In]; intuition congruence). reflexivity.
    + intros address n Hn Ha. destruct (discoverURI e rnd web px ph da pm id s) as [s' r] eqn:D. cbn [fst].
      unfold discoverURI in D. rewrite P in D. cbn [bind] in D.
      assert ((if truthy (sp_scheme p) && truthy (sp_netloc p) then if mem_text (sp_scheme p) [u "http"; u "https"] then Ok id else Raise DiscoveryFailure else Ok (u "http://" ++ id)) = Ok address) as E.
      { destruct Ha as [(N1 & N2 & H & ->)|(H & ->)].
        - assert (truthy (sp_scheme p) && truthy (sp_netloc p) = true) as -> by (destruct (sp_scheme p), (sp_netloc p); auto; congruence).
          assert (mem_text (sp_scheme p) [u "http"; u "https"] = true) as -> by (apply mem_text_In; cbn [In]; intuition congruence). reflexivity.
        - assert (truthy (sp_scheme p) && truthy (sp_netloc p) = false) as -> by (destruct H as [-> | ->]; auto; apply andb_false_r). reflexivity. }
      rewrite E in D. cbn [bind] in D. rewrite Hn in D. apply mbind_inv in D as [(n' & s1 & N & D)|(x & N & _)]; apply mret_inv in N as (<- & N); [injection N as <-|discriminate N].
      assert (exists q, d_sent s' = d_sent s ++ q /\ page_requests web da pm (d_sent s) n q) as (q & -> & Q).
      { apply mbind_inv in D as [(ce & s2 & D & H)|(x & D & _)]; [injection H as <- _|]; apply DY_requests in D as (q & Eq & Q & _); eauto. }
      destruct Q as [q Q|q Q]; destruct Q; cbn [app]; eauto.
Qed.
Print Assumptions C178_who_is_asked.
(** What cannot be normalised is a failure of discovery, and nothing is fetched. *)
Theorem C178_no_address : forall e low rnd web parse_xml parse_html decode_as parse_meta identifier s p address x,
  ~ is_xri identifier -> urlsplit e identifier = Ok p ->
  (sp_scheme p <> [] /\ sp_netloc p <> [] /\ (sp_scheme p = u "http" \/ sp_scheme p = u "https") /\ address = identifier) \/
  ((sp_scheme p = [] \/ sp_netloc p = []) /\ address = u "http://" ++ identifier) ->
  urinorm e address = Raise x ->
  discover e low rnd web parse_xml parse_html decode_as parse_meta identifier s = (s, Raise DiscoveryFailure).
Proof.
  intros e low rnd web px ph da pm id s p address x Nx P Ha U. unfold discover. pose proof (scheme_spec id) as Sc.
  destruct (identifierScheme id); [destruct (Nx (proj1 Sc eq_refl))|]. unfold discoverURI, mbind, mret. rewrite P. cbn [bind].
  assert ((if truthy (sp_scheme p) && truthy (sp_netloc p) then if mem_text (sp_scheme p) [u "http"; u "https"] then Ok id else Raise DiscoveryFailure else Ok (u "http://" ++ id)) = Ok address) as ->.
  { destruct Ha as [(N1 & N2 & H & ->)|(H & ->)].
    - assert (truthy (sp_scheme p) && truthy (sp_netloc p) = true) as -> by (destruct (sp_scheme p), (sp_netloc p); auto; congruence).
      assert (mem_text (sp_scheme p) [u "http"; u "https"] = true) as -> by (apply mem_text_In; cbn [In]; intuition congruence). reflexivity.
    - assert (truthy (sp_scheme p) && truthy (sp_netloc p) = false) as -> by (destruct H as [-> | ->]; auto; apply andb_false_r). reflexivity. }
  cbn [bind]. unfold normalizeURL. rewrite U, (TrustRootFacts.urinorm_err e address x U). reflexivity.
Qed.
Print Assumptions C178_no_address.
Example C178_no_address_example :
  discover no_env (fun t => t) no_sort file_location (fun _ => None) (fun _ => None) utf8 (fun _ => None) (u "http://a b/") d0 = (d0, Raise DiscoveryFailure).
Proof. vm_compute. reflexivity. Qed.
Example C178_example :
  map identifierScheme [u "=name"; u "(=a)"; u "xri://x"; u "xri.example"; u "http://=a/"; []] = [SchemeXRI; SchemeXRI; SchemeXRI; SchemeURI; SchemeURI; SchemeURI] /\
  d_sent (fst (discover no_env (fun t => t) no_sort file_location (fun _ => None) (fun _ => None) utf8 (fun _ => None) (u "localhost:8000/x") d0)) =
    [mkFreq (u "http://localhost:8000/x") true; mkFreq (u "file:///etc/passwd") false; mkFreq (u "http://localhost:8000/x") false].
Proof. split; vm_compute; reflexivity. Qed.
