(** C27, C28, C29, C32, C73, C74: realms. *)
From Coq Require Import Lia ZifyBool ZifyN ZifyNat.
From Verif Require Import Py PyFacts Utf8 UrlLib UrlLibFacts UriNorm UriNormFacts UriNormStable Prop_Uri TrustRoot TrustRootFacts.
Local Arguments u : simpl never.

(** ** The matching rule *)
(** Hosts: a plain realm matches its host only; "*.d" matches [d] and the names
    whose last labels are those of [d]; "*" matches every host.  A host with a
    star is never matched. *)
Definition host_rule (tr : trust_root) (host : text) : Prop :=
  ~ In 42 host /\
  (tr_wildcard tr = false /\ host = tr_host tr \/
   tr_wildcard tr = true /\ (tr_host tr = [] \/ exists d, tr_host tr = u "." ++ d /\ within d host)).
(** Paths (with query): equal, or longer with a boundary character on either side
    of the point where the realm's path ends. *)
Definition boundary (realm_path : text) (c : N) : Prop :=
  if memc 63 realm_path then c = 38 else c = 63 \/ c = 47.
Definition path_rule (realm_path path : text) : Prop :=
  path = realm_path \/
  exists c rest, path = realm_path ++ c :: rest /\
    (boundary realm_path c \/ exists front d, realm_path = front ++ [d] /\ boundary realm_path d).

Lemma optN_eqb_eq a b : optN_eqb a b = true <-> a = b.
Proof. destruct a, b; cbn; split; intros H; try discriminate; auto; [f_equal; lia|inv H; lia]. Qed.
Lemma allowed_boundary p c : memc c (if memc 63 p then u "&" else u "?/") = true <-> boundary p c.
Proof. unfold boundary. destruct (memc 63 p); rewrite memc_In; [change (u "&") with [38]|change (u "?/") with [63; 47]]; cbn; intuition. Qed.
Lemma path_nonempty e realm tr : parse e realm = Ok (Some tr) -> tr_path tr <> [].
Proof.
  intros H. apply parse_inv in H as (p & host & E & Hh & _ & _ & _ & _ & _ & -> & _).
  destruct (parts_path _ _ _ _ E Hh) as (pa & q & f & -> & (r & ->) & _). discriminate.
Qed.

(** C27 and C28: validateURL decides exactly the rule. *)
Theorem C27_exact :
  forall e realm tr url p host,
    parse e realm = Ok (Some tr) -> parseURL e url = Ok (Some p) -> up_host p = Some host ->
    exists b, validateURL e tr url = Ok b /\
      (b = true <-> up_scheme p = tr_proto tr /\ up_port p = tr_port tr /\ host_rule tr host /\ path_rule (tr_path tr) (up_path p)).
Proof.
  intros e realm tr url p host Hp Hu Hh. pose proof (path_nonempty _ _ _ Hp) as Ne.
  assert (tr_wildcard tr = false \/ tr_wildcard tr = true /\ (tr_host tr = [] \/ exists d, tr_host tr = 46 :: d)) as W.
  { apply parse_inv in Hp as (? & ? & _ & _ & _ & _ & _ & _ & _ & _ & [(X & _)|(X & _ & Y & _)]); auto. }
  unfold validateURL. rewrite Hu. cbn [bind]. rewrite Hh.
  destruct (text_eqb (up_scheme p) (tr_proto tr)) eqn:E1; cbn [negb].
  2:{ exists false. split; auto. split; [discriminate|]. intros (X & _). apply text_eqb_neq in E1. contradiction. }
  apply text_eqb_eq in E1. destruct (optN_eqb (up_port p) (tr_port tr)) eqn:E2; cbn [negb].
  2:{ exists false. split; auto. split; [discriminate|]. intros (_ & X & _). apply optN_eqb_eq in X. congruence. }
  apply optN_eqb_eq in E2. destruct (memc 42 host) eqn:M.
  { exists false. split; auto. split; [discriminate|]. intros (_ & _ & (X & _) & _). apply memc_In in M. contradiction. }
  apply memc_false in M.
  set (cond := if tr_wildcard tr then negb (endswith host (tr_host tr)) && negb (text_eqb (46 :: host) (tr_host tr)) else negb (text_eqb host (tr_host tr))).
  assert (cond = false <-> host_rule tr host) as Hc.
  { unfold cond, host_rule. destruct W as [Ew|(Ew & Eh)]; rewrite Ew.
    - rewrite negb_false_iff, text_eqb_eq. split; [auto|]. intros (_ & [(_ & X)|(X & _)]); auto. discriminate.
    - rewrite andb_false_iff, !negb_false_iff, text_eqb_eq. destruct Eh as [Eh|(d & Eh)]; rewrite Eh.
      + split; [intros _; auto|]. intros _. left. apply endswith_spec. exists host. rewrite app_nil_r. auto.
      + change (u "." ++ d) with (46 :: d). assert (within d host <-> endswith host (46 :: d) = true \/ 46 :: host = 46 :: d) as X.
        { rewrite within_spec. split; intros [Y|Y]; auto. + subst; auto. + injection Y as ->. auto. }
        split.
        * intros Y. split; auto. right. split; auto. right. exists d. split; auto. apply X; auto.
        * intros (_ & [(Y & _)|(_ & [Y|(d' & Y & Z)])]); try discriminate. change (u "." ++ d') with (46 :: d') in Y. injection Y as <-. apply X; auto. }
  destruct cond. { exists false. split; auto. split; [discriminate|]. intros (_ & _ & X & _). apply Hc in X. discriminate. }
  assert (host_rule tr host) as HR by (apply Hc; auto). clear Hc.
  destruct (text_eqb (up_path p) (tr_path tr)) eqn:E3.
  { apply text_eqb_eq in E3. exists true. split; auto. split; auto. intros _. repeat (split; auto). left. auto. }
  apply text_eqb_neq in E3.
  destruct (text_eqb (tr_path tr) (firstn (List.length (tr_path tr)) (up_path p))) eqn:E4; cbn [negb].
  2:{ exists false. split; auto. split; [discriminate|]. intros (_ & _ & _ & [X|(c & rest & X & _)]); [contradiction|].
      apply text_eqb_neq in E4. exfalso. apply E4. rewrite X, firstn_app, firstn_all, Nat.sub_diag. cbn [firstn]. rewrite app_nil_r. auto. }
  apply text_eqb_eq in E4.
  assert (exists c rest, up_path p = tr_path tr ++ c :: rest) as (c & rest & Er).
  { pose proof (firstn_skipn (List.length (tr_path tr)) (up_path p)) as X. rewrite <- E4 in X.
    destruct (skipn (List.length (tr_path tr)) (up_path p)) as [|c rest] eqn:Q; [rewrite app_nil_r in X; congruence|]. exists c, rest. auto. }
  assert (char_at (List.length (tr_path tr)) (up_path p) = Ok c) as Ec.
  { unfold char_at. rewrite Er, nth_error_app2, Nat.sub_diag by auto. auto. }
  destruct (rev (tr_path tr)) as [|d front] eqn:R. { exfalso. apply Ne. rewrite <- (rev_involutive (tr_path tr)), R. auto. }
  assert (tr_path tr = rev front ++ [d]) as Ed by (rewrite <- (rev_involutive (tr_path tr)), R; auto).
  assert (path_rule (tr_path tr) (up_path p) <-> boundary (tr_path tr) d \/ boundary (tr_path tr) c) as PR.
  { split.
    - intros [X|(c' & rest' & X & Y)]; [contradiction|]. rewrite Er in X. apply app_inv_head in X. injection X as <- _.
      destruct Y as [Y|(f' & d' & Y & Z)]; auto. left. rewrite Y in Ed. apply app_inj_tail in Ed as [_ <-]. auto.
    - intros X. right. exists c, rest. split; auto. destruct X; eauto. }
  rewrite Ec. cbn [bind]. destruct (memc d _) eqn:Md.
  - exists true. split; auto. split; auto. intros _. repeat (split; auto). apply PR. left. apply allowed_boundary; auto.
  - eexists. split; [reflexivity|]. rewrite allowed_boundary, PR. split.
    + intros X. repeat (split; auto).
    + intros (_ & _ & _ & [X|X]); auto. apply allowed_boundary in X. congruence.
Qed.
Print Assumptions C27_exact.

(** What can be accepted at all. *)
Theorem C27_sound :
  forall e realm tr url,
    parse e realm = Ok (Some tr) -> validateURL e tr url = Ok true ->
    exists p host, parseURL e url = Ok (Some p) /\ up_host p = Some host /\
      up_scheme p = tr_proto tr /\ up_port p = tr_port tr /\ host_rule tr host /\ path_rule (tr_path tr) (up_path p).
Proof.
  intros e realm tr url Hp Hv. destruct (parseURL e url) as [[p|]|x] eqn:Hu.
  2:{ unfold validateURL in Hv. rewrite Hu in Hv. discriminate. }
  2:{ unfold validateURL in Hv. rewrite Hu in Hv. discriminate. }
  destruct (up_host p) as [host|] eqn:Hh.
  - destruct (C27_exact e realm tr url p host Hp Hu Hh) as (b & Hb & X). rewrite Hv in Hb. injection Hb as <-.
    destruct (proj1 X eq_refl) as (X1 & X2 & X3 & X4). exists p, host. auto 10.
  - unfold validateURL in Hv. rewrite Hu in Hv. cbn [bind] in Hv. rewrite Hh in Hv. destruct (negb _); [discriminate|]. destruct (negb _); discriminate.
Qed.
Print Assumptions C27_sound.

(** Directories: for a realm without a query, the directories of the realm's path
    are the first directories of the URL's path. *)
Lemma tail_head q f : match tail q f with [] => True | c :: _ => c = 63 \/ c = 35 end.
Proof. unfold tail. destruct q, f; cbn [truthy app]; auto. Qed.
Lemma prefix_cut (P Q a b : text) : P ++ a = Q ++ b -> ~ In 63 P -> ~ In 35 P -> match b with [] => True | c :: _ => c = 63 \/ c = 35 end ->
  exists m, Q = P ++ m /\ a = m ++ b.
Proof.
  revert Q. induction P as [|x P IH]; intros Q E H1 H2 Hb; cbn [app] in *; [eauto|]. destruct Q as [|y Q]; cbn [app] in *.
  - subst b. destruct Hb as [->| ->]; exfalso; [apply H1|apply H2]; left; auto.
  - injection E as -> E. apply IH in E as (m & -> & ->); eauto; intros I; [apply H1|apply H2]; right; auto.
Qed.
Theorem C27_directories :
  forall e realm tr url,
    parse e realm = Ok (Some tr) -> ~ In 63 (tr_path tr) -> validateURL e tr url = Ok true ->
    exists p path rest dirs more,
      parseURL e url = Ok (Some p) /\ up_path p = path ++ rest /\
      ~ In 63 path /\ ~ In 35 path /\ match rest with [] => True | c :: _ => c = 63 \/ c = 35 end /\
      (splitc 47 (tr_path tr) = dirs \/ splitc 47 (tr_path tr) = dirs ++ [[]]) /\
      splitc 47 path = dirs ++ more.
Proof.
  intros e realm tr url Hp Nq Hv. destruct (C27_sound _ _ _ _ Hp Hv) as (p & host & Hu & Hh & _ & _ & _ & PR).
  destruct (parts_path _ _ _ _ Hu Hh) as (pa & q & f & Ep & _ & N1 & N2 & N3).
  assert (~ In 35 (tr_path tr)) as N35.
  { apply parse_inv in Hp as (p' & _ & _ & _ & M & _ & _ & _ & _ & -> & _). apply memc_false. auto. }
  pose proof (tail_head q f) as Th. exists p, pa, (tail q f).
  assert (forall t, up_path p = tr_path tr ++ t -> exists m, pa = tr_path tr ++ m /\ t = m ++ tail q f) as K.
  { intros t Et. rewrite Ep in Et. symmetry in Et. eapply prefix_cut; eauto. }
  destruct PR as [PR|(c & t & PR & B)].
  - destruct (K []) as (m & -> & E). { rewrite app_nil_r. auto. } symmetry in E. apply app_eq_nil in E as [-> E2]. rewrite app_nil_r.
    exists (splitc 47 (tr_path tr)), []. rewrite app_nil_r in *. auto 10.
  - destruct (K (c :: t) PR) as (m & -> & E). unfold boundary in B. assert (memc 63 (tr_path tr) = false) as M by (apply memc_false; auto). rewrite M in B.
    destruct B as [[->| ->]|(front & d & Ed & [->| ->])].
    + (* '?' next *) destruct m as [|x m].
      * exists (splitc 47 (tr_path tr)), []. rewrite !app_nil_r in *. auto 10.
      * injection E as <- E. exfalso. apply N1. apply in_or_app. right. left. auto.
    + (* '/' next *) destruct m as [|x m].
      * cbn [app] in E. rewrite <- E in Th. destruct Th; discriminate.
      * injection E as <- E. exists (splitc 47 (tr_path tr)), (splitc 47 m). rewrite splitc_app_any. auto 10.
    + exfalso. apply Nq. rewrite Ed. apply in_or_app. right. left. auto.
    + (* realm path ends in '/' *) exists (splitc 47 front), (splitc 47 m). split; auto. split; auto. split; auto. split; auto. split; auto. rewrite Ed. split.
      * right. change (front ++ [47]) with (front ++ 47 :: []). rewrite splitc_app_any. auto.
      * rewrite <- app_assoc. cbn [app]. apply splitc_app_any.
Qed.
Print Assumptions C27_directories.

(** For ordinary URLs the parts are those of the URL itself: the lower-case scheme
    and host and the port, default ports being no port. *)
Theorem C27_ordinary_url :
  forall e url s host p,
    idna_stable e -> ordinary e url s host -> parseURL e url = Ok (Some p) ->
    up_scheme p = lower (sp_scheme s) /\ up_host p = Some host /\
    exists port, port_of (sp_netloc s) = Ok port /\ up_port p = default_port (lower (sp_scheme s)) port.
Proof.
  intros e url s host p St O H. unfold parseURL in H. destruct (urinorm e url) as [r|x] eqn:Hr; [|destruct (isValueError x); discriminate].
  pose proof (ord_split _ _ _ _ O) as Es.
  destruct (urinorm_inv _ _ _ Hr) as (s' & scheme & netloc & path & query & fragment & E & _ & Hs & Hn & N & _).
  assert (s' = s) as -> by congruence. apply norm_netloc_eq in N as (h & pp & N1 & _).
  destruct (ordinary_plain e url s host h O N1) as [-> Ph].
  destruct (urinorm_nf e url r s host St Hr Es N1 Ph (ordinary_user _ _ _ _ O))
    as (scheme' & netloc' & path' & query' & fragment' & Nf & Nb & -> & Hs' & Nn & _).
  rewrite (split_nf e _ _ _ _ _ Nf Nb) in H. cbn [bind sp_netloc sp_scheme] in H.
  apply norm_netloc_eq in Nn as (h' & p' & N1' & N2 & _ & ->). assert (h' = host) as -> by congruence.
  pose proof (norm_port_spec _ _ _ N2) as Pp. apply norm_port_default in N2 as (port & Ep & ->).
  assert (forall n, default_port scheme' port = Some n -> 0 < n <= 65535) as Rg.
  { intros n Hn'. unfold default_port in Hn'. destruct port as [k|]; [|discriminate].
    unfold port_of in Ep. destruct (snd (hostinfo_of (sp_netloc s))) as [t|]; [|discriminate]. destruct (forallb isdigitc t); [|discriminate]. binv Ep.
    destruct (a <=? 65535)%Z eqn:L; [|discriminate]. injection Ep as Ep. destruct (_ || (k =? 0)) eqn:D; [discriminate|]. injection Hn' as <-. apply orb_false_elim in D as [_ D]. lia. }
  rewrite port_of_nf in H; [|apply (plain_no host); auto|apply (plain_no host); auto|apply (plain_no host); auto|auto].
  cbn [bind] in H. injection H as <-. cbn [up_scheme up_host up_port]. split; auto. split.
  - unfold hostname_of. rewrite hostinfo_nf; [|apply (plain_no host); auto|apply (plain_no host); auto|apply (plain_no host); auto| |].
    + cbn [fst]. destruct Ph as (P1 & P2 & P3). assert (truthy host = true) as -> by (apply truthy_true; auto).
      assert (cut 37 host = None) as -> by (apply cut_None; apply P3; vm_compute; tauto). rewrite P2. auto.
    + eapply port_text_no; eauto.
    + eapply port_text_no; eauto.
  - exists port. subst scheme'. auto.
Qed.
Print Assumptions C27_ordinary_url.
Example C27_example :
  exists tr, parse plain_env (u "http://*.Example.com/a") = Ok (Some tr) /\
    validateURL plain_env tr (u "http://www.example.com:80/a/b?c") = Ok true /\
    validateURL plain_env tr (u "http://evilexample.com/a/b") = Ok false /\
    validateURL plain_env tr (u "http://www.example.com/a/../b") = Ok false /\
    validateURL plain_env tr (u "http://www.example.com/ab") = Ok false /\
    validateURL plain_env tr (u "https://www.example.com/a") = Ok false /\
    validateURL plain_env tr (u "http://example.com/a") = Ok true.
Proof.
  eexists. split; [vm_compute; reflexivity|]. split; [vm_compute; reflexivity|]. split; [vm_compute; reflexivity|]. split; [vm_compute; reflexivity|].
  split; [vm_compute; reflexivity|]. split; [vm_compute; reflexivity|vm_compute; reflexivity].
Qed.

(** ** C28: no exceptions on ordinary URLs, and self matching *)
Theorem C28_complete :
  forall e realm tr url p host,
    parse e realm = Ok (Some tr) -> parseURL e url = Ok (Some p) -> up_host p = Some host ->
    up_scheme p = tr_proto tr -> up_port p = tr_port tr -> host_rule tr host -> path_rule (tr_path tr) (up_path p) ->
    validateURL e tr url = Ok true.
Proof.
  intros e realm tr url p host Hp Hu Hh H1 H2 H3 H4. destruct (C27_exact e realm tr url p host Hp Hu Hh) as (b & -> & X). f_equal. apply X. auto.
Qed.
Print Assumptions C28_complete.
Theorem C28_self_match :
  forall e realm tr, parse e realm = Ok (Some tr) -> tr_wildcard tr = false -> validateURL e tr realm = Ok true.
Proof.
  intros e realm tr Hp W. pose proof Hp as Hp'. apply parse_inv in Hp' as (p & host & Hu & Hh & _ & _ & _ & E1 & E2 & E3 & K).
  destruct (C27_exact e realm tr realm p host Hp Hu Hh) as (b & -> & X). f_equal. apply X. split; auto. split; auto. split; [|left; auto].
  destruct K as [(_ & K1 & K2)|(K & _)]; [|congruence]. split; auto.
Qed.
Print Assumptions C28_self_match.
(** The bare domain and the www subdomain of a wildcard realm match, at the realm's own path. *)
Theorem C28_wildcard_match :
  forall e realm tr d url p host,
    parse e realm = Ok (Some tr) -> tr_wildcard tr = true -> tr_host tr = u "." ++ d ->
    parseURL e url = Ok (Some p) -> up_host p = Some host ->
    up_scheme p = tr_proto tr -> up_port p = tr_port tr -> up_path p = tr_path tr -> ~ In 42 host ->
    host = d \/ (exists sub, host = sub ++ u "." ++ d) ->
    validateURL e tr url = Ok true.
Proof.
  intros e realm tr d url p host Hp W Hd Hu Hh E1 E2 E3 Ns Hs.
  destruct (C27_exact e realm tr url p host Hp Hu Hh) as (b & -> & X). f_equal. apply X. split; auto. split; auto. split; [|left; auto].
  split; auto. right. split; auto. right. exists d. split; auto. apply within_spec. destruct Hs as [->|(sub & ->)]; auto. left. apply endswith_spec. exists sub. auto.
Qed.
Print Assumptions C28_wildcard_match.
Theorem C28_no_exception :
  forall e realm tr url s host,
    idna_stable e -> ordinary e url s host -> parse e realm = Ok (Some tr) -> exists b, validateURL e tr url = Ok b.
Proof.
  intros e realm tr url s host St O Hp.
  destruct (parseURL e url) as [[p|]|x] eqn:Hu.
  - destruct (C27_ordinary_url e url s host p St O Hu) as (_ & Hh & _).
    destruct (C27_exact e realm tr url p host Hp Hu Hh) as (b & Hb & _). eauto.
  - exists false. unfold validateURL. rewrite Hu. auto.
  - exfalso. unfold parseURL in Hu. destruct (urinorm e url) as [r|y] eqn:Hr.
    2:{ rewrite (urinorm_err _ _ _ Hr) in Hu. discriminate. }
    pose proof (ord_split _ _ _ _ O) as Es.
    destruct (urinorm_inv _ _ _ Hr) as (s' & scheme & netloc & path & query & fragment & E & _ & Hs & Hn & N & _).
    assert (s' = s) as -> by congruence. apply norm_netloc_eq in N as (h & pp & N1 & _).
    destruct (ordinary_plain e url s host h O N1) as [-> Ph].
    destruct (urinorm_nf e url r s host St Hr Es N1 Ph (ordinary_user _ _ _ _ O))
      as (scheme' & netloc' & path' & query' & fragment' & Nf & Nb & -> & Hs' & Nn & Nn' & _).
    rewrite (split_nf e _ _ _ _ _ Nf Nb) in Hu. cbn [bind sp_netloc] in Hu.
    apply norm_netloc_eq in Nn' as (h' & p' & _ & N2 & _). unfold norm_port in N2. binv N2. rewrite E0 in Hu. discriminate.
Qed.
Print Assumptions C28_no_exception.
Example C28_example :
  exists s, ordinary plain_env (u "http://example.com:8080/x") s (u "example.com").
Proof.
  eexists. eapply C31_ascii_hosts; [vm_compute; reflexivity|vm_compute; reflexivity|reflexivity|apply memc_false; reflexivity|apply memc_false; reflexivity|apply memc_false; reflexivity|vm_compute; reflexivity].
Qed.

(** ** C73: realm handling can raise on other text. *)
Theorem C73_no_exception_refuted :
  exists s1 s2, forall e,
    parse e s1 = Raise AttributeError /\
    (ue_bracket e (u "::1") = true -> parse e s2 = Raise ValueError) /\
    (forall tr, tr_proto tr = u "http" -> tr_port tr = None -> validateURL e tr s1 = Raise TypeError).
Proof.
  exists (u "http://:80/"), (u "http://[::1]/"). intros e.
  assert (parseURL e (u "http://:80/") = Ok (Some (mkParts (u "http") None None (u "/")))) as P by (vm_compute; reflexivity).
  split; [|split].
  - unfold parse. rewrite P. reflexivity.
  - intros H. assert (urinorm e (u "http://[::1]/") = Ok (u "http://::1/")) as E.
    { unfold urinorm, urlsplit. change (split_scheme (url_clean (u "http://[::1]/"))) with (u "http", u "//[::1]/"). cbv iota.
      change (startswith (u "//[::1]/") (u "//")) with true. cbv iota. change (splitnetloc (skipn 2 (u "//[::1]/"))) with (u "[::1]", u "/"). cbv iota.
      assert (netloc_ok e (u "[::1]") = true) as -> by exact H. vm_compute. reflexivity. }
    unfold parse, parseURL. rewrite E. vm_compute. reflexivity.
  - intros tr H1 H2. unfold validateURL. rewrite P. cbn [bind up_scheme up_port up_host]. rewrite H1, H2. reflexivity.
Qed.
Print Assumptions C73_no_exception_refuted.

(** ** C29: sanity *)
(** The labels of a name, which may be written with a final dot. *)
Definition name_of (labels : list text) (host : text) : Prop :=
  splitc 46 host = labels \/ splitc 46 host = labels ++ [[]].
Definition sane_labels (wildcard : bool) (labels : list text) : Prop :=
  ~ In [] labels /\
  exists front second tld, labels = front ++ [second; tld] /\ In tld top_level_domains /\
    (wildcard = true -> front = [] -> ~ (List.length tld = 2%nat /\ (List.length second <= 3)%nat)).
Lemma last_two (l : list text) : (2 <= List.length l)%nat -> exists front a b, l = front ++ [a; b].
Proof.
  intros H. destruct (exists_last (l := l)) as (l' & b & ->). { intros ->. cbn in H. lia. }
  rewrite app_length in H. cbn in H. destruct (exists_last (l := l')) as (l2 & a & ->). { intros ->. cbn in H. lia. }
  exists l2, a, b. rewrite <- app_assoc. auto.
Qed.
Definition strip_last (parts : list text) : list text :=
  match parts with [] => parts | _ => if truthy (last_of parts) then parts else removelast parts end.
Definition sane_core (w : bool) (parts : list text) : bool :=
  match parts with
  | [] => false
  | _ => if mem_text [] parts then false
         else if negb (mem_text (last_of parts) top_level_domains) then false
         else if Nat.eqb (List.length parts) 1 then false
         else if w && ((len (last_of parts) =? 2) && (len (last_of (removelast parts)) <=? 3)) then Nat.ltb 2 (List.length parts) else true
  end.
Lemma sane_core_spec w parts : sane_core w parts = true <-> sane_labels w parts.
Proof.
  unfold sane_core, sane_labels. destruct parts as [|p0 ps] eqn:Ep.
  { split; [discriminate|]. intros (_ & f & a & b & H & _). destruct f; discriminate. }
  rewrite <- Ep. destruct (mem_text [] parts) eqn:M.
  { apply mem_text_In in M. split; [discriminate|]. intros (X & _). contradiction. }
  apply mem_text_false in M. split.
  - intros H. split; auto. destruct (mem_text (last_of parts) top_level_domains) eqn:T; [|discriminate]. cbn [negb] in H. apply mem_text_In in T.
    destruct (Nat.eqb (List.length parts) 1) eqn:L; [discriminate|].
    destruct (last_two parts) as (front & a & b & E). { rewrite Ep in L |- *. destruct ps; [discriminate|cbn; lia]. }
    exists front, a, b. split; auto. rewrite E in H, T. unfold last_of in H, T.
    assert (List.last (front ++ [a; b]) [] = b) as L1. { change (front ++ [a; b]) with (front ++ [a] ++ [b]). rewrite app_assoc. apply last_last. }
    assert (List.last (removelast (front ++ [a; b])) [] = a) as L2. { change (front ++ [a; b]) with (front ++ [a] ++ [b]). rewrite app_assoc, removelast_last, last_last. auto. }
    rewrite L1 in T. rewrite L1, L2 in H. split; auto. intros -> -> (X1 & X2).
    assert (len b =? 2 = true) as Y1 by (unfold len; lia). assert (len a <=? 3 = true) as Y2 by (unfold len; lia).
    rewrite Y1, Y2 in H. discriminate.
  - intros (_ & front & a & b & E & T & K).
    assert (last_of parts = b) as L1. { rewrite E. unfold last_of. change (front ++ [a; b]) with (front ++ [a] ++ [b]). rewrite app_assoc. apply last_last. }
    assert (last_of (removelast parts) = a) as L2. { rewrite E. unfold last_of. change (front ++ [a; b]) with (front ++ [a] ++ [b]). rewrite app_assoc, removelast_last, last_last. auto. }
    rewrite L1, L2. apply mem_text_In in T. rewrite T. cbn [negb].
    assert (List.length parts = (List.length front + 2)%nat) as Ln by (rewrite E, app_length; auto).
    assert (Nat.eqb (List.length parts) 1 = false) as -> by lia.
    destruct (w && _) eqn:C; auto. apply andb_prop in C as [-> C]. apply andb_prop in C as [C1 C2]. unfold len in *.
    destruct front as [|x front]; [|cbn [List.length] in Ln; lia]. exfalso. apply K; auto. split; lia.
Qed.
Lemma strip_last_spec parts L : parts <> [] -> L <> [] -> ~ In [] L -> (strip_last parts = L <-> parts = L \/ parts = L ++ [[]]).
Proof.
  intros Ne Nl Ni. unfold strip_last, last_of. destruct parts as [|p0 ps] eqn:Ep; [contradiction|]. rewrite <- Ep in *. clear Ep.
  destruct (exists_last (l := parts)) as (l' & z & El); auto. rewrite El, last_last, removelast_last.
  assert (In z (l' ++ [z])) as Iz by (apply in_or_app; right; left; auto).
  destruct (truthy z) eqn:T.
  - apply truthy_true in T. split; auto. intros [X|X]; auto. apply app_inj_tail in X as [_ X]. contradiction.
  - apply truthy_false in T. subst z. split; [intros ->; auto|]. intros [X|X]; [rewrite X in Iz; contradiction|]. apply app_inj_tail in X as [X _]. auto.
Qed.
Lemma isSane_core tr parts :
  tr_host tr <> u "localhost" ->
  (if tr_wildcard tr then match splitc 46 (tr_host tr) with h :: r => if truthy h then Raise AssertionError else Ok r | [] => Raise IndexError end
   else Ok (splitc 46 (tr_host tr))) = Ok parts ->
  isSane tr = Ok (sane_core (tr_wildcard tr) (strip_last parts)).
Proof.
  intros Hl Hp. unfold isSane. apply text_eqb_neq in Hl. rewrite Hl, Hp. cbn [bind]. fold (strip_last parts). unfold sane_core.
  destruct (strip_last parts) as [|p0 ps] eqn:E; auto. destruct (mem_text [] (p0 :: ps)); auto. destruct (negb _); auto. destruct (Nat.eqb _ 1); auto.
  destruct (tr_wildcard tr && _); auto.
Qed.
(** A realm is sane exactly when it is on localhost, or its name has no empty
    label and ends in a label that is followed by a known top level domain, where
    a wildcard must not stand directly before a short label and a country code. *)
Theorem C29_sane_exact :
  forall e realm tr, parse e realm = Ok (Some tr) ->
    exists b, isSane tr = Ok b /\
      (b = true <->
       tr_host tr = u "localhost" \/
       exists labels, name_of labels (if tr_wildcard tr then tl (tr_host tr) else tr_host tr) /\ sane_labels (tr_wildcard tr) labels).
Proof.
  intros e realm tr Hp. apply parse_inv in Hp as (p & host & _ & Hh & _ & _ & _ & _ & _ & _ & K).
  destruct (text_eqb (tr_host tr) (u "localhost")) eqn:El.
  { exists true. unfold isSane. rewrite El. apply text_eqb_eq in El. split; auto. split; auto. }
  apply text_eqb_neq in El.
  assert (forall L w, sane_labels w L -> L <> [] /\ ~ In [] L) as SL.
  { intros L w (S1 & f & a & b & -> & _). split; auto. destruct f; discriminate. }
  destruct K as [(W & K1 & K2)|(W & K1 & K2 & K3)].
  - rewrite (isSane_core tr (splitc 46 (tr_host tr))) by (auto; rewrite W; auto). eexists. split; [reflexivity|]. rewrite sane_core_spec, W. split.
    + intros S. right. exists (strip_last (splitc 46 (tr_host tr))). split; [|auto]. destruct (SL _ _ S).
      apply (strip_last_spec _ _ (splitc_nonempty _ _)); auto.
    + intros [X|(L & N & S)]; [contradiction|]. destruct (SL _ _ S). apply (strip_last_spec _ _ (splitc_nonempty _ _)) in N; auto. subst; auto.
  - destruct K2 as [K2|(d & K2)].
    + rewrite (isSane_core tr []) by (auto; rewrite W, K2; reflexivity). exists false. split; [rewrite W; auto|]. split; [discriminate|]. intros [X|(L & N & S)]; [contradiction|]. exfalso.
      rewrite W, K2 in N. destruct (SL _ _ S) as [S1 S2]. destruct N as [N|N]; cbn [tl splitc] in N; [subst L; apply S2; left; auto|].
      destruct L as [|x [|y L]]; [contradiction|discriminate|discriminate].
    + rewrite (isSane_core tr (splitc 46 d)) by (auto; rewrite W, K2; reflexivity). eexists. split; [reflexivity|]. rewrite sane_core_spec, W, K2. cbn [tl]. split.
      * intros S. right. exists (strip_last (splitc 46 d)). split; [|auto]. destruct (SL _ _ S).
        apply (strip_last_spec _ _ (splitc_nonempty _ _)); auto.
      * intros [X|(L & N & S)]; [congruence|]. destruct (SL _ _ S). apply (strip_last_spec _ _ (splitc_nonempty _ _)) in N; auto. subst; auto.
Qed.
Print Assumptions C29_sane_exact.
(** In words of the property: wildcard realms that are never sane. *)
Theorem C29_rejects :
  forall e realm tr, parse e realm = Ok (Some tr) -> tr_wildcard tr = true ->
    (tr_host tr = [] -> isSane tr = Ok false) /\
    (forall tld, ~ In 46 tld -> tr_host tr = u "." ++ tld -> isSane tr = Ok false) /\
    (forall tld, ~ In 46 tld -> tr_host tr = u "." ++ tld ++ u "." -> isSane tr = Ok false) /\
    (forall a tld, ~ In 46 a -> ~ In 46 tld -> (List.length a <= 3)%nat -> List.length tld = 2%nat ->
       tr_host tr = u "." ++ a ++ u "." ++ tld -> isSane tr = Ok false) /\
    (forall labels tld, ~ In tld top_level_domains -> ~ In 46 tld -> tr_host tr = labels ++ u "." ++ tld -> tld <> [] -> isSane tr = Ok false).
Proof.
  intros e realm tr Hp W. destruct (C29_sane_exact e realm tr Hp) as (b & -> & X). rewrite W in X. apply parse_inv in Hp as (? & ? & _ & _ & _ & _ & _ & _ & _ & _ & [(Y & _)|(_ & _ & Y & _)]); [congruence|].
  assert (tr_host tr <> u "localhost") as Nl by (destruct Y as [->|(d & ->)]; discriminate).
  assert ((forall labels, name_of labels (tl (tr_host tr)) -> ~ sane_labels true labels) -> Ok b = Ok false) as K.
  { intros H. f_equal. destruct b; auto. destruct (proj1 X eq_refl) as [Z|(L & N & S)]; [contradiction|]. exfalso. eapply H; eauto. }
  assert (forall labels h, name_of labels h -> sane_labels true labels -> (2 <= List.length (splitc 46 h))%nat /\
     (splitc 46 h = labels \/ splitc 46 h = labels ++ [[]])) as Z.
  { intros labels h N (_ & f & a & z & -> & _). split; auto. destruct N as [-> | ->]; rewrite ?app_length; cbn; lia. }
  assert (forall f (a z : text), f ++ [a; z] = [a; z] -> f = []) as Fn.
  { intros f a z H. apply (f_equal (@List.length text)) in H. rewrite app_length in H. cbn in H. destruct f; auto. cbn in H. lia. }
  split; [|split; [|split; [|split]]].
  - intros E. apply K. intros L N S. rewrite E in N. apply Z in N as [N _]; auto. cbn in N. lia.
  - intros tld Nd E. apply K. intros L N S. rewrite E in N. change (tl (u "." ++ tld)) with tld in N. apply Z in N as [N _]; auto. rewrite splitc_nin in N by auto. cbn in N. lia.
  - intros tld Nd E. apply K. intros L N S. rewrite E in N. change (tl (u "." ++ tld ++ u ".")) with (tld ++ 46 :: []) in N. apply Z in N as [_ N]; auto.
    rewrite splitc_app in N by auto. cbn [splitc] in N. destruct S as (S1 & f & a & z & -> & _). destruct N as [N|N].
    + rewrite <- N in S1. apply S1. right. left. auto.
    + apply (f_equal (@List.length text)) in N. rewrite !app_length in N. cbn in N. lia.
  - intros a tld Na Nt La Lt E. apply K. intros L N S. rewrite E in N. change (tl (u "." ++ a ++ u "." ++ tld)) with (a ++ 46 :: tld) in N. apply Z in N as [_ N]; auto.
    rewrite splitc_app, splitc_nin in N by auto. destruct S as (S1 & f & y & z & -> & _ & S2). destruct N as [N|N].
    + assert (f = []) as ->. { apply (f_equal (@List.length text)) in N. rewrite app_length in N. cbn in N. destruct f; auto. cbn in N. lia. }
      injection N as <- <-. apply S2; auto.
    + apply (f_equal (@List.length text)) in N. rewrite !app_length in N. cbn in N. lia.
  - intros labels tld Nt Nd E Ne. apply K. intros L N S. destruct labels as [|c labels].
    + rewrite E in N. change (tl ([] ++ u "." ++ tld)) with tld in N. apply Z in N as [N _]; auto. rewrite splitc_nin in N by auto. cbn in N. lia.
    + rewrite E in N. change (tl ((c :: labels) ++ u "." ++ tld)) with (labels ++ 46 :: tld) in N. apply Z in N as [_ N]; auto.
      rewrite splitc_app_any, (splitc_nin 46 tld) in N by auto. destruct S as (S1 & f & y & z & -> & S3 & _). destruct N as [N|N].
      * change (f ++ [y; z]) with (f ++ [y] ++ [z]) in N. rewrite app_assoc in N. apply app_inj_tail in N as [_ <-]. contradiction.
      * apply app_inj_tail in N as [_ N]. contradiction.
Qed.
Print Assumptions C29_rejects.
Example C29_example :
  checkSanity plain_env (u "http://*.example.com/") = Ok true /\ checkSanity plain_env (u "http://*.co.uk/") = Ok false /\
  checkSanity plain_env (u "http://*.com./") = Ok false /\ checkSanity plain_env (u "http://*/") = Ok false /\
  checkSanity plain_env (u "http://www.bbc.co.uk/") = Ok true /\ checkSanity plain_env (u "http://foo.notatld/") = Ok false.
Proof. vm_compute. auto 10. Qed.

(** ** C32: return URL verification *)
Theorem C32_only_listed :
  forall e discover realm_str return_to,
    verifyReturnTo e discover realm_str return_to = Ok true ->
    exists realm d after services types a r,
      parse e realm_str = Ok (Some realm) /\ buildDiscoveryURL realm = Ok d /\
      discover d = Ok (after, services) /\
      (* not redirected, up to normalization *)
      (exists n, urinorm e after = Ok n /\ urinorm e d = Ok n) /\
      (* a listed return URL: a realm without wildcard that matches *)
      In (types, Some a) services /\ In RP_RETURN_TO_URL_TYPE types /\
      parse e a = Ok (Some r) /\ tr_wildcard r = false /\ validateURL e r return_to = Ok true.
Proof.
  intros e discover realm_str return_to H. unfold verifyReturnTo in H. binv H. destruct a as [realm|]; [|discriminate]. binv H. rename a into d.
  destruct (getAllowedReturnURLs e discover d) as [urls|x] eqn:G; [|destruct x; discriminate].
  unfold getAllowedReturnURLs in G. binv G. destruct a as [after services]. binv G. binv G. destruct (text_eqb a a0) eqn:T; [|discriminate]. apply text_eqb_eq in T. subst a0. injection G as <-.
  assert (forall l, returnToMatches e l return_to = Ok true -> exists x r, In x l /\ parse e x = Ok (Some r) /\ tr_wildcard r = false /\ validateURL e r return_to = Ok true) as K.
  { induction l as [|x l IH]; cbn [returnToMatches]; intros Hl; [discriminate|]. binv Hl. destruct a0 as [r|].
    - destruct (tr_wildcard r) eqn:W; [destruct (IH Hl) as (y & r' & I & Y); exists y, r'; split; [right; auto|auto]|]. binv Hl. destruct a0.
      + exists x, r. split; [left; auto|auto].
      + destruct (IH Hl) as (y & r' & I & Y). exists y, r'. split; [right; auto|auto].
    - destruct (IH Hl) as (y & r' & I & Y). exists y, r'. split; [right; auto|auto]. }
  apply K in H as (x & r & I & Pr & W & V). apply in_flat_map in I as ([types ou] & I1 & I2). unfold extractReturnURL in I2. cbn [fst snd] in I2.
  destruct (mem_text RP_RETURN_TO_URL_TYPE types) eqn:M; [|destruct I2]. destruct ou as [y|]; [|destruct I2]. destruct I2 as [->|[]]. apply mem_text_In in M.
  exists realm, d, after, services, types, x, r. split; auto. split; auto. split; auto. split; [exists a; auto|]. auto 10.
Qed.
Print Assumptions C32_only_listed.
Theorem C32_redirected_or_empty :
  forall e discover realm_str return_to realm d after services,
    parse e realm_str = Ok (Some realm) -> buildDiscoveryURL realm = Ok d -> discover d = Ok (after, services) ->
    (exists n m, urinorm e after = Ok n /\ urinorm e d = Ok m /\ n <> m) \/
    (exists n, urinorm e after = Ok n /\ urinorm e d = Ok n /\ forall types o, In (types, o) services -> ~ In RP_RETURN_TO_URL_TYPE types) ->
    verifyReturnTo e discover realm_str return_to = Ok false.
Proof.
  intros e discover realm_str return_to realm d after services Hp Hd Hs [(n & m & H1 & H2 & H3)|(n & H1 & H2 & H3)];
    unfold verifyReturnTo; rewrite Hp; cbn [bind]; rewrite Hd; cbn [bind]; unfold getAllowedReturnURLs; rewrite Hs; cbn [bind]; rewrite H1, H2; cbn [bind].
  - apply text_eqb_neq in H3. rewrite H3. auto.
  - rewrite text_eqb_refl. assert (flat_map extractReturnURL services = []) as ->; auto.
    clear Hs. induction services as [|[types o] services IH]; auto. cbn [flat_map]. rewrite IH by (intros ty o' I; apply (H3 ty o'); right; auto).
    unfold extractReturnURL. cbn [fst snd]. assert (mem_text RP_RETURN_TO_URL_TYPE types = false) as ->; auto. apply mem_text_false. apply (H3 types o). left. auto.
Qed.
Print Assumptions C32_redirected_or_empty.
Definition demo_discover (url : text) : res (text * list (list text * option text)) :=
  Ok (url, [([u "other"], Some (u "http://x/")); ([RP_RETURN_TO_URL_TYPE], Some (u "http://*.example.com/"));
            ([u "t"; RP_RETURN_TO_URL_TYPE], Some (u "http://www.example.com/ret"))]).
Example C32_example :
  verifyReturnTo plain_env demo_discover (u "http://*.example.com/") (u "http://www.example.com/ret/1?x=y") = Ok true /\
  verifyReturnTo plain_env demo_discover (u "http://*.example.com/") (u "http://foo.example.com/ret") = Ok false /\
  verifyReturnTo plain_env (fun _ => Ok (u "http://elsewhere/", [([RP_RETURN_TO_URL_TYPE], Some (u "http://www.example.com/"))]))
    (u "http://*.example.com/") (u "http://www.example.com/") = Ok false.
Proof. split; [vm_compute; reflexivity|]. split; [vm_compute; reflexivity|vm_compute; reflexivity]. Qed.
