(** C30, C31, C60, C69, C70, C71: paths, URI normal form, query arguments. *)
From Coq Require Import Lia ZifyBool ZifyN ZifyNat Permutation Sorted.
From Verif Require Import Py PyFacts Utf8 Utf8Facts UrlLib UrlLibFacts UriNorm UriNormFacts UriNormStable Message OidUtil OidUtilFacts.
Local Arguments u : simpl never.

(** ** C30: dot segments *)
(** [no_dots p]: none of the parts of [p] between slashes is "." or "..". *)
Theorem C30_dot_segments :
  forall p, exists r, remove_dot_segments p = Ok r /\ no_dots r /\ remove_dot_segments r = Ok r /\ (no_dots p -> r = p).
Proof.
  intros p. destruct (rds_total p) as (r & E & N). exists r. split; auto. split; auto. split; [apply rds_plain; auto|].
  intros H. rewrite (rds_plain p H) in E. injection E as E. auto.
Qed.
Print Assumptions C30_dot_segments.
Theorem C30_never_leaves_the_root :
  forall p, startswith p (u "/") = true -> exists r, remove_dot_segments p = Ok r /\ startswith r (u "/") = true.
Proof.
  intros p H. apply startswith_spec in H as (t & ->). destruct (rds_abs_abs t) as (r & E & _). exists (47 :: r). split; [exact E|reflexivity].
Qed.
Print Assumptions C30_never_leaves_the_root.
(** What the result is.  RFC 3986 5.2.4, read on the list of segments: a stack of
    directories; "." does nothing, ".." drops the last directory if there is one,
    and either of them in last position leaves a directory ("/" at the end). *)
Fixpoint walk (dirs : list text) (segs : list text) : list text :=
  match segs with
  | [] => dirs
  | [s] => if text_eqb s (u ".") then dirs ++ [[]]
           else if text_eqb s (u "..") then removelast dirs ++ [[]] else dirs ++ [s]
  | s :: rest => if text_eqb s (u ".") then walk dirs rest
                 else if text_eqb s (u "..") then walk (removelast dirs) rest else walk (dirs ++ [s]) rest
  end.
Definition slashed (segs : list text) : text := List.concat (map (fun s => u "/" ++ s) segs).
Lemma removelast_rev {A} (l : list A) : removelast (rev l) = rev (tl l).
Proof. destruct l as [|x l]; auto. cbn [rev tl]. apply removelast_last. Qed.
Lemma walk_dots segs : forall st, slashed (walk (rev st) segs) = List.concat (rev (dots segs (map (cons 47) st))).
Proof.
  assert (forall st, slashed (rev st) = List.concat (rev (map (cons 47) st))) as Z.
  { intros st. unfold slashed. rewrite <- map_rev. auto. }
  assert (forall st s, slashed (rev st ++ [s]) = List.concat (rev ((47 :: s) :: map (cons 47) st))) as Z1.
  { intros st s. apply (Z (s :: st)). }
  assert (forall st : list text, tl (map (cons 47) st) = map (cons 47) (tl st)) as T by (intros []; auto).
  induction segs as [|s segs IH]; intros st; [apply Z|]. destruct segs as [|s2 segs].
  - cbn [walk dots]. unfold dot, dotdot. destruct (text_eqb s (u ".")); [apply Z1|]. destruct (text_eqb s (u "..")); [|apply Z1].
    rewrite removelast_rev, T. apply Z1.
  - rewrite dots_cons by discriminate. change (walk (rev st) (s :: s2 :: segs)) with
      (if text_eqb s (u ".") then walk (rev st) (s2 :: segs) else if text_eqb s (u "..") then walk (removelast (rev st)) (s2 :: segs) else walk (rev st ++ [s]) (s2 :: segs)).
    unfold dot, dotdot. destruct (text_eqb s (u ".")); [apply IH|]. destruct (text_eqb s (u "..")); [|apply (IH (s :: st))].
    rewrite removelast_rev, T. apply IH.
Qed.
Theorem C30_absolute_paths :
  forall r, remove_dot_segments (u "/" ++ r) = Ok (slashed (walk [] (splitc 47 r))).
Proof. intros r. change (u "/" ++ r) with (47 :: r). rewrite rds_abs_path. f_equal. symmetry. apply (walk_dots (splitc 47 r) []). Qed.
Print Assumptions C30_absolute_paths.
Example C30_example :
  remove_dot_segments (u "/a/b/c/./../../g") = Ok (u "/a/g") /\ remove_dot_segments (u "/../..//x/..") = Ok (u "//") /\
  remove_dot_segments (u "../.././mid/content=5/../6") = Ok (u "mid/6") /\ ~ no_dots (u "/a/..").
Proof.
  split; [vm_compute; reflexivity|]. split; [vm_compute; reflexivity|]. split; [vm_compute; reflexivity|].
  intros H. unfold no_dots in H. rewrite Forall_forall in H. destruct (H (u "..")) as [_ X]; [vm_compute; auto|]. apply X; reflexivity.
Qed.

(** ** C31: the normal form *)
(** The shape of every result. *)
Theorem C31_shape :
  forall e uri r, urinorm e uri = Ok r ->
    exists scheme netloc path query fragment,
      r = scheme ++ u "://" ++ netloc ++ path ++ (if truthy query then u "?" ++ query else []) ++ (if truthy fragment then u "#" ++ fragment else []) /\
      In scheme [u "http"; u "https"] /\
      startswith path (u "/") = true /\ no_dots path /\ ~ In 63 path /\ ~ In 35 path /\ ~ In 35 query /\
      (forall c, In c r -> 33 <= c < 127).
Proof.
  intros e uri r H. apply urinorm_inv in H as (s & scheme & netloc & path & query & fragment & E & _ & Hs & Hn & N & P & Q & F & ->).
  destruct (urlsplit_shape e uri s E Hn) as (U1 & U2 & U3 & _).
  destruct (norm_path_spec _ _ U3 P) as ((r' & Hr') & P1 & P2 & P3). destruct (norm_query_fix _ _ Q) as (Q1 & Q2 & Q3).
  apply norm_fragment_spec in F as (F1 & F2).
  assert (urlunsplit (mkSplit scheme netloc path query fragment) = scheme ++ u "://" ++ netloc ++ path ++ (if truthy query then u "?" ++ query else []) ++ (if truthy fragment then u "#" ++ fragment else [])) as Er.
  { unfold urlunsplit. cbn [sp_scheme sp_netloc sp_path sp_query sp_fragment].
    assert (truthy netloc || (truthy scheme && mem_text scheme uses_netloc) || startswith path (u "//") = true) as ->.
    { destruct Hs as [-> | ->]; change (truthy _ && _) with true; rewrite orb_true_r; auto. }
    rewrite Hr'. change (47 =? 47) with true. cbv iota. assert (truthy scheme = true) as -> by (destruct Hs as [-> | ->]; reflexivity).
    change (u "//") with [47; 47]. change (u "?") with [63]. change (u "#") with [35]. change (u "://") with [58; 47; 47].
    destruct (truthy query), (truthy fragment); repeat (rewrite <- ?app_assoc; rewrite ?app_nil_r; cbn [app]); auto. }
  exists scheme, netloc, path, query, fragment. rewrite Er. split; auto.
  split; [destruct Hs as [-> | ->]; cbn; auto|]. split; [rewrite Hr'; reflexivity|]. split; auto.
  split; [intros I; apply (canon_chars _ _ P3) in I; tauto|]. split; [intros I; apply (canon_chars _ _ P3) in I; tauto|]. split; auto.
  assert (forallb allowed_char netloc = true) as An.
  { apply norm_netloc_eq in N as (h & p & N1 & N2 & N3 & ->). apply norm_host_chars in N1. apply norm_port_spec, port_text_allowed in N2.
    assert (forallb allowed_char (host_port h p) = true) as A.
    { unfold host_port. destruct (truthy p); auto. rewrite forallb_app. cbn [forallb]. rewrite N1, N2. auto. }
    destruct (user_text (sp_netloc s)) as [t|]; cbn [with_user]; auto. rewrite forallb_app. cbn [forallb]. rewrite A, N3 by auto. auto. }
  assert (forallb allowed_char (scheme ++ u "://" ++ netloc ++ path ++ (if truthy query then u "?" ++ query else []) ++ (if truthy fragment then u "#" ++ fragment else [])) = true) as A.
  { rewrite !forallb_app. rewrite An, P2. change (forallb allowed_char (u "://")) with true.
    assert (forallb allowed_char scheme = true) as -> by (destruct Hs as [-> | ->]; reflexivity).
    destruct (truthy query), (truthy fragment); rewrite ?forallb_app; rewrite ?Q2, ?F2; reflexivity. }
  intros c Hc. rewrite forallb_forall in A. apply A, allowed_range in Hc. lia.
Qed.
Print Assumptions C31_shape.

(** Ordinary URIs: their host, with percent escapes decoded and encoded for the
    domain name system, is a name: not empty, in lower case and without the
    characters that delimit the parts of a URI.  The user information has no
    brackets. *)
Record ordinary (e : uenv) (uri : text) (s : split_result) (host : text) : Prop := {
  ord_split : urlsplit e uri = Ok s;
  ord_host : exists raw, hostname_of (sp_netloc s) = Some raw /\ idna e (unquote (lower raw)) = Ok host;
  ord_nonempty : host <> [];
  ord_lower : lower host = host;
  ord_delims : forall c, In c (u "/?#@:[]%") -> ~ In c host;
  ord_user : forall user rest, rcut 64 (sp_netloc s) = Some (user, rest) -> ~ In 91 user /\ ~ In 93 user
}.
Lemma lower_lower s : lower (lower s) = lower s.
Proof.
  unfold lower. rewrite map_map. apply map_ext. intros c. unfold lowerc. destruct ((65 <=? c) && (c <=? 90)) eqn:E; [|rewrite E; auto].
  replace ((65 <=? c + 32) && (c + 32 <=? 90)) with false by lia. auto.
Qed.
Lemma ordinary_plain e uri s host h : ordinary e uri s host -> norm_host e (sp_netloc s) = Ok h -> h = host /\ plain_host h.
Proof.
  intros [Es (raw & Eh & Ei) E1 E2 E3 _] H. unfold norm_host in H. rewrite Eh in H. binv H. binv H. injection H as <-.
  assert (a = host) as -> by congruence. split; auto. split; auto.
Qed.
Lemma ordinary_user e uri s host : ordinary e uri s host -> user_unbracketed (sp_netloc s).
Proof.
  intros O t H. rewrite user_text_eq in H. destruct (rcut 64 (sp_netloc s)) as [[x y]|] eqn:R; [|discriminate]. injection H as <-.
  eapply ord_user; eauto.
Qed.
(** Among them: every URI with an ASCII host without percent escapes and brackets
    that can be normalized at all. *)
Theorem C31_ascii_hosts :
  forall e uri s host r,
    urlsplit e uri = Ok s -> hostname_of (sp_netloc s) = Some host ->
    isascii host = true -> ~ In 37 host -> ~ In 91 (sp_netloc s) -> ~ In 93 (sp_netloc s) ->
    urinorm e uri = Ok r -> ordinary e uri s host.
Proof.
  intros e uri s host r Es Eh Ea Ep Eo Ec H. pose proof Eh as Eh0.
  destruct (urinorm_inv _ _ _ H) as (s' & scheme & netloc & path & query & fragment & E' & _ & Hs & Hn & N & _).
  assert (s' = s) as -> by congruence. apply norm_netloc_eq in N as (h & p & N1 & _). clear H. rename N1 into H.
  unfold norm_host in H. rewrite Eh in H. binv H. binv H. injection H as <-.
  destruct (urlsplit_shape e uri s Es Hn) as (U1 & _).
  unfold hostname_of in Eh. destruct (hostinfo_of (sp_netloc s)) as [hh pp] eqn:Hi. cbn [fst] in Eh. destruct (truthy hh) eqn:T; [|discriminate].
  assert (cut 37 hh = None) as C.
  { destruct (cut 37 hh) as [[x y]|] eqn:C; auto. injection Eh as <-. exfalso. apply Ep. apply in_or_app. right. left. auto. }
  rewrite C in Eh. injection Eh as <-.
  assert (a = lower hh) as ->.
  { rewrite unquote_plain in E by (rewrite lower_lower; auto). rewrite lower_lower in E. unfold idna in E.
    assert (truthy (lower hh) = true) as Tl by (apply truthy_true; intros X; apply map_eq_nil in X; subst; discriminate). rewrite Tl, Ea in E.
    destruct (rev (splitc 46 (lower hh))); [congruence|]. destruct (_ && _); congruence. }
  (* characters of the host *)
  assert (forall c, In c hh -> In c (sp_netloc s) /\ c <> 64 /\ c <> 58) as K.
  { unfold hostinfo_of in Hi.
    set (hi := match rcut 64 (sp_netloc s) with Some (_, h) => h | None => sp_netloc s end) in *.
    assert (forall c, In c hi -> In c (sp_netloc s) /\ c <> 64) as H1.
    { intros c Hc. unfold hi in Hc. destruct (rcut 64 (sp_netloc s)) as [[x y]|] eqn:R.
      - apply rcut_Some in R as [-> R]. split; [apply in_or_app; right; right; auto|]. intros ->. contradiction.
      - apply rcut_None in R. split; auto. intros ->. contradiction. }
    assert (cut 91 hi = None) as C91 by (apply cut_None; intros I; apply H1 in I; tauto). rewrite C91 in Hi.
    destruct (partition 58 hi) as [x y] eqn:P. injection Hi as -> _. apply partition_spec in P as (P1 & P2).
    intros c Hc. assert (In c hi) as I by (destruct P2 as [->|[-> _]]; auto; apply in_or_app; auto). apply H1 in I as [I1 I2].
    split; auto. split; auto. intros ->. contradiction. }
  assert (forall c, In c (lower hh) -> In c (sp_netloc s) /\ c <> 64 /\ c <> 58 \/ 97 <= c <= 122) as K'.
  { intros c Hc. unfold lower in Hc. apply in_map_iff in Hc as (x & <- & Hx). unfold lowerc. destruct ((65 <=? x) && (x <=? 90)) eqn:E2; [right; lia|].
    left. apply K. auto. }
  constructor; auto.
  - exists (lower hh). auto.
  - intros X; apply map_eq_nil in X; subst; discriminate.
  - apply lower_lower.
  - intros c Hc I. pose proof I as I37. change (u "/?#@:[]%") with [47; 63; 35; 64; 58; 91; 93; 37] in Hc. apply K' in I as [(I1 & I2 & I3)|I].
    + rewrite forallb_forall in U1. pose proof (U1 c I1) as Ne. cbn in Hc.
      repeat (destruct Hc as [Hc|Hc]; [subst c; try contradiction; try discriminate; try lia|]); auto.
    + cbn in Hc. lia.
  - intros us rest R. apply rcut_Some in R as [R _]. rewrite R in Eo, Ec. split; intros I; [apply Eo|apply Ec]; apply in_or_app; auto.
Qed.
Print Assumptions C31_ascii_hosts.

(** For ordinary URIs the normal form is stable: normalizing again changes nothing.  The
    fragment must not decode to something with another percent escape. *)
Theorem C31_stable :
  forall e uri s host r,
    idna_stable e -> ordinary e uri s host -> ~ In 37 (unquote (sp_fragment s)) ->
    urinorm e uri = Ok r -> urinorm e r = Ok r.
Proof.
  intros e uri s host r St O F H. pose proof (ord_split _ _ _ _ O) as Es.
  destruct (urinorm_inv _ _ _ H) as (s' & scheme & netloc & path & query & fragment & E & _ & Hs & Hn & N & _).
  assert (s' = s) as -> by congruence. apply norm_netloc_eq in N as (h & p & N1 & _).
  destruct (ordinary_plain e uri s host h O N1) as [_ Ph].
  eapply urinorm_stable; eauto using ordinary_user.
Qed.
Print Assumptions C31_stable.
(** The authority of the result, for these: user information as it was, the host
    in lower case, the port in decimal without leading zeros and only if it is
    not the default one. *)
Theorem C31_authority :
  forall e uri s host r,
    idna_stable e -> ordinary e uri s host -> urinorm e uri = Ok r ->
    exists s' port,
      urlsplit e r = Ok s' /\
      sp_scheme s' = lower (sp_scheme s) /\
      sp_netloc s' = (match rcut 64 (sp_netloc s) with Some (user, _) => user ++ u "@" | None => [] end) ++ host ++
                     (match port with Some n => u ":" ++ str_of_N n | None => [] end) /\
      lower host = host /\
      port <> Some 0 /\ (sp_scheme s' = u "http" -> port <> Some 80) /\ (sp_scheme s' = u "https" -> port <> Some 443) /\
      (forall n, port = Some n -> port_of (sp_netloc s) = Ok (Some n)).
Proof.
  intros e uri s host r St O H. pose proof (ord_split _ _ _ _ O) as Es.
  destruct (urinorm_inv _ _ _ H) as (s' & scheme & netloc & path & query & fragment & E & _ & Hs & Hn & N & _).
  assert (s' = s) as -> by congruence. apply norm_netloc_eq in N as (h & p & N1 & _).
  destruct (ordinary_plain e uri s host h O N1) as [-> Ph].
  destruct (urinorm_nf e uri r s host St H Es N1 Ph (ordinary_user _ _ _ _ O))
    as (scheme' & netloc' & path' & query' & fragment' & Nf & Nb & -> & Hs' & Nn & _).
  rewrite (split_nf e _ _ _ _ _ Nf Nb). apply norm_netloc_eq in Nn as (h' & p' & N1' & N2 & _ & ->). assert (h' = host) as -> by congruence.
  pose proof (norm_port_spec _ _ _ N2) as Pp. rewrite user_text_eq.
  eexists. 
  destruct Pp as [->|(n & Hn' & -> & P1 & P2)].
  - exists None. split; [reflexivity|]. cbn [sp_scheme sp_netloc]. split; auto. split.
    { change (u "@") with [64]. unfold host_port, with_user. cbn [truthy]. rewrite app_nil_r. destruct (rcut 64 (sp_netloc s)) as [[x y]|]; auto. rewrite <- app_assoc. auto. }
    split; [apply Ph|]. split; [discriminate|]. split; [discriminate|]. split; [discriminate|]. discriminate.
  - exists (Some n). split; [reflexivity|]. cbn [sp_scheme sp_netloc]. split; auto. split.
    { change (u "@") with [64]. change (u ":") with [58]. unfold host_port, with_user.
      assert (truthy (str_of_N n) = true) as -> by (apply truthy_true, str_of_N_nonnil).
      destruct (rcut 64 (sp_netloc s)) as [[x y]|]; auto. rewrite <- app_assoc. auto. }
    split; [apply Ph|]. split; [intros X; inv X; lia|]. split; [intros X Y; inv Y; apply P1 in X; lia|]. split; [intros X Y; inv Y; apply P2 in X; lia|].
    intros m Hm. inv Hm. unfold norm_port in N2. binv N2. injection N2 as N2. rewrite E0. f_equal. destruct a as [k|].
    + destruct (_ || (k =? 0)); [symmetry in N2; apply str_of_N_nonnil in N2; contradiction|]. apply str_of_N_inj in N2. congruence.
    + symmetry in N2. apply str_of_N_nonnil in N2. contradiction.
Qed.
Print Assumptions C31_authority.

Definition plain_env : uenv := mkUenv (fun _ => true) (fun _ => true) (fun _ => None).
Lemma plain_env_stable : idna_stable plain_env. Proof. intros s t H. discriminate. Qed.
(** An environment whose codec knows one name. *)
Definition idn_env : uenv := mkUenv (fun _ => true) (fun _ => true) (fun t => if text_eqb t (252 :: u "ber.de") then Some (u "xn--ber-goa.de") else None).
Lemma idn_env_stable : idna_stable idn_env.
Proof. intros s t H. cbn [idn_env ue_idna] in H. destruct (text_eqb s _); [|discriminate]. injection H as <-. reflexivity. Qed.
Example C31_example :
  (exists s, ordinary plain_env (u "HTTP://Me@EXAMPLE.com:80/a/./b/../%7Ec?x=%41&y=#f") s (u "example.com") /\
    ~ In 37 (unquote (sp_fragment s)) /\
    urinorm plain_env (u "HTTP://Me@EXAMPLE.com:80/a/./b/../%7Ec?x=%41&y=#f") = Ok (u "http://Me@example.com/a/~c?x=A#f")) /\
  (exists s, ordinary idn_env (u "http://%C3%BCb%65r.de") s (u "xn--ber-goa.de") /\
    urinorm idn_env (u "http://%C3%BCb%65r.de") = Ok (u "http://xn--ber-goa.de/")).
Proof.
  split; eexists.
  - split; [constructor; [vm_compute; reflexivity| | | | |]|split].
    + exists (u "example.com"). split; vm_compute; reflexivity.
    + discriminate.
    + reflexivity.
    + intros c Hc. apply memc_false. change (u "/?#@:[]%") with [47; 63; 35; 64; 58; 91; 93; 37] in Hc. cbn in Hc.
      repeat (destruct Hc as [<-|Hc]; [reflexivity|]). destruct Hc.
    + intros us rest H. vm_compute in H. injection H as <- <-. split; apply memc_false; reflexivity.
    + apply memc_false; reflexivity.
    + vm_compute; reflexivity.
  - split; [|vm_compute; reflexivity].
    constructor; [vm_compute; reflexivity| | | | |].
    + exists (u "%C3%BCb%65r.de"). split; vm_compute; reflexivity.
    + discriminate.
    + reflexivity.
    + intros c Hc. apply memc_false. change (u "/?#@:[]%") with [47; 63; 35; 64; 58; 91; 93; 37] in Hc. cbn in Hc.
      repeat (destruct Hc as [<-|Hc]; [reflexivity|]). destruct Hc.
    + intros us rest H. vm_compute in H. discriminate.
Qed.

(** ** C69: not stable in general: an escaped capital in the host, or an escape of
    an escape in the fragment, is only normalized by the next application. *)
Theorem C69_stable_refuted :
  exists uri r r', forall e, urinorm e uri = Ok r /\ urinorm e r = Ok r' /\ r' <> r.
Proof.
  exists (u "http://%41.com/"), (u "http://A.com/"), (u "http://a.com/"). intros e.
  split; [vm_compute; reflexivity|]. split; [vm_compute; reflexivity|discriminate].
Qed.
Print Assumptions C69_stable_refuted.
Theorem C69_fragment_refuted :
  exists uri r r', forall e, urinorm e uri = Ok r /\ urinorm e r = Ok r' /\ r' <> r.
Proof.
  exists (u "http://a.com/#%2541"), (u "http://a.com/#%41"), (u "http://a.com/#A"). intros e.
  split; [vm_compute; reflexivity|]. split; [vm_compute; reflexivity|discriminate].
Qed.
Print Assumptions C69_fragment_refuted.

(** ** C70: a result is not always a URI again: the brackets of an IPv6 address are lost. *)
Theorem C70_result_accepted_refuted :
  exists uri r, forall e, ue_bracket e (u "::1") = true -> urinorm e uri = Ok r /\ urinorm e r = Raise ValueError.
Proof.
  exists (u "http://[::1]/"), (u "http://::1/"). intros e H. split; [|vm_compute; reflexivity].
  unfold urinorm, urlsplit. change (split_scheme (url_clean (u "http://[::1]/"))) with (u "http", u "//[::1]/"). cbv iota.
  change (startswith (u "//[::1]/") (u "//")) with true. cbv iota. change (splitnetloc (skipn 2 (u "//[::1]/"))) with (u "[::1]", u "/"). cbv iota.
  assert (netloc_ok e (u "[::1]") = true) as -> by exact H. vm_compute. reflexivity.
Qed.
Print Assumptions C70_result_accepted_refuted.

(** ** C71: normalization can change which host a URI names. *)
Theorem C71_host_preserved_refuted :
  exists uri r s s' h h', forall e, urinorm e uri = Ok r /\ urlsplit e uri = Ok s /\ urlsplit e r = Ok s' /\
    hostname_of (sp_netloc s) = Some h /\ hostname_of (sp_netloc s') = Some h' /\
    unquote h <> h' /\ h' = u "good.com" /\ endswith (unquote h) (u ".evil.com") = true.
Proof.
  exists (u "http://good.com%2F.evil.com/"), (u "http://good.com/.evil.com/").
  do 4 eexists. intros e. split; [vm_compute; reflexivity|]. split; [vm_compute; reflexivity|]. split; [vm_compute; reflexivity|].
  split; [vm_compute; reflexivity|]. split; [vm_compute; reflexivity|]. split; [discriminate|]. split; [reflexivity|vm_compute; reflexivity].
Qed.
Print Assumptions C71_host_preserved_refuted.

(** ** C60: query arguments *)
(** The query of a URL without fragment: what follows the first '?'. *)
Definition query_of (url : text) : text := match cut 63 url with Some (_, q) => q | None => [] end.
Definition before_query (url : text) : text := match cut 63 url with Some (b, _) => b | None => url end.
Theorem C60_delivered :
  forall url args, sendable args ->
    exists r, appendArgs url args = Ok r /\ startswith r url = true /\
      (args = [] -> r = url) /\
      before_query r = before_query url /\
      parse_qsl true (query_of r) = parse_qsl true (query_of url) ++ args /\
      (forall c, In c (skipn (List.length url) r) -> 33 <= c < 127 /\ c <> 35).
Proof.
  intros url args S. destruct (proj2 (appendArgs_total url args) S) as (r & H). exists r. split; auto.
  destruct args as [|a args'] eqn:Ea.
  { cbn in H. inv H. split; [apply startswith_spec; exists []; rewrite app_nil_r; auto|]. split; auto. split; auto. rewrite app_nil_r. split; auto.
    rewrite skipn_all. intros c []. }
  rewrite <- Ea in *. assert (args <> []) as Ne by (rewrite Ea; discriminate). clear Ea a args'.
  destruct (appendArgs_Ok url args r H Ne) as (q & bargs & -> & Hq & F).
  pose proof (enc_chars bargs (enc_rel_bytes _ _ F)) as C. rewrite <- Hq in C.
  assert (parse_qsl true q = args) as Pq by (rewrite Hq; apply parse_qsl_enc; auto).
  split; [apply startswith_spec; eauto|]. split; [contradiction|].
  assert (forall c, In c (skipn (List.length url) (url ++ (if memc 63 url then 38 else 63) :: q)) -> 33 <= c < 127 /\ c <> 35) as K.
  { rewrite skipn_app, skipn_all, Nat.sub_diag. cbn [skipn app]. intros c [<-|I]; [destruct (memc 63 url); lia|]. apply C in I. lia. }
  unfold before_query, query_of. destruct (memc 63 url) eqn:M.
  - apply memc_In in M. destruct (cut 63 url) as [[x y]|] eqn:Cu; [|apply cut_None in Cu; contradiction]. apply cut_Some in Cu as [-> Hx]. rewrite <- app_assoc. cbn [app]. rewrite cut_app by auto.
    split; auto. split; [rewrite parse_qsl_app, Pq; auto|]. rewrite <- app_assoc in K. exact K.
  - apply memc_false in M. rewrite cut_app by auto. assert (cut 63 url = None) as -> by (apply cut_None; auto). split; auto.
Qed.
Print Assumptions C60_delivered.
(** The same as seen by a receiver that splits the URL. *)
Theorem C60_receiver :
  forall e url args s, sendable args -> urlsplit e url = Ok s -> ~ In 35 url ->
    exists r s', appendArgs url args = Ok r /\ urlsplit e r = Ok s' /\
      sp_scheme s' = sp_scheme s /\ sp_netloc s' = sp_netloc s /\ sp_path s' = sp_path s /\ sp_fragment s' = [] /\
      parse_qsl true (sp_query s') = parse_qsl true (sp_query s) ++ args.
Proof.
  intros e url args s S Hs N. destruct (proj2 (appendArgs_total url args) S) as (r & H). exists r.
  destruct args as [|a args'] eqn:Ea.
  { cbn in H. inv H. exists s. split; auto. split; auto. split; auto. split; auto. split; auto. rewrite app_nil_r. split; auto.
    destruct (urlsplit_append e r s [] Hs N (fun c X => match X with end)) as (_ & _ & X). auto. }
  rewrite <- Ea in *. assert (args <> []) as Ne by (rewrite Ea; discriminate). clear Ea a args'.
  destruct (appendArgs_Ok url args r H Ne) as (q & bargs & -> & Hq & F).
  pose proof (enc_chars bargs (enc_rel_bytes _ _ F)) as C. rewrite <- Hq in C.
  assert (parse_qsl true q = args) as Pq by (rewrite Hq; apply parse_qsl_enc; auto).
  destruct (urlsplit_append e url s q Hs N C) as (E & E2 & _). eexists. split; [auto|]. split; [apply E|].
  cbn [sp_scheme sp_netloc sp_path sp_query sp_fragment]. split; auto. split; auto. split; auto. split; auto.
  destruct (memc 63 url); [rewrite parse_qsl_app, Pq; auto|]. rewrite E2 by auto. auto.
Qed.
Print Assumptions C60_receiver.
Theorem C60_accepts_exactly_unicode_text :
  forall url args, (exists r, appendArgs url args = Ok r) <-> sendable args.
Proof. exact appendArgs_total. Qed.
(** A dict is sent in the order of its keys; nothing is lost. *)
Theorem C60_message_url :
  forall m base r, toURL m base = Ok r -> ~ In 35 base ->
    exists sent, Permutation (toPostArgs m) sent /\ Sorted (fun a b => text_leb (fst a) (fst b) = true) sent /\
      startswith r base = true /\ parse_qsl true (query_of r) = parse_qsl true (query_of base) ++ sent.
Proof.
  intros m base r H N. unfold toURL, appendArgsDict in H. exists (sorted_items (toPostArgs m)). split; [apply sorted_items_perm|].
  split. { apply sort_sorted. intros; apply text_leb_total. }
  destruct (C60_delivered base (sorted_items (toPostArgs m))) as (r' & H1 & H2 & _ & _ & H3 & _).
  - apply (appendArgs_total base). eauto.
  - rewrite H in H1. injection H1 as <-. auto.
Qed.
Print Assumptions C60_message_url.
Theorem C60_message_body :
  forall m r, toURLEncoded m = Ok r -> Permutation (toPostArgs m) (parse_qsl true r).
Proof.
  intros m r H. unfold toURLEncoded in H. apply urlencode_Ok in H as (db & F & ->). rewrite (parse_qsl_enc true _ db F) by auto. apply sorted_items_perm.
Qed.
Print Assumptions C60_message_body.
Example C60_example :
  appendArgs (u "http://a/?x=1") [(u "k y", [233; 128512]); (u "&", u "=?#")] = Ok (u "http://a/?x=1&k+y=%C3%A9%F0%9F%98%80&%26=%3D%3F%23") /\
  sendable [(u "k y", [233; 128512]); (u "&", u "=?#")] /\
  parse_qsl true (u "x=1&k+y=%C3%A9%F0%9F%98%80&%26=%3D%3F%23") = [(u "x", u "1"); (u "k y", [233; 128512]); (u "&", u "=?#")].
Proof.
  split; [vm_compute; reflexivity|]. split; [|vm_compute; reflexivity].
  apply (appendArgs_total (u "http://a/?x=1")). eexists. vm_compute. reflexivity.
Qed.
(** ** C72: with a fragment in the URL the arguments end up in the fragment. *)
Theorem C72_fragment_refuted :
  exists url args r s, forall e, appendArgs url args = Ok r /\ urlsplit e r = Ok s /\ sp_query s = [] /\ args <> [] /\
    sp_fragment s = u "frag?k=v".
Proof.
  exists (u "http://a/#frag"), [(u "k", u "v")]. do 2 eexists. intros e. split; [vm_compute; reflexivity|]. split; [vm_compute; reflexivity|].
  split; [reflexivity|]. split; [discriminate|reflexivity].
Qed.
Print Assumptions C72_fragment_refuted.
