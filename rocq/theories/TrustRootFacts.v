(** Lemmas about [TrustRoot]. *)
From Coq Require Import Lia ZifyBool ZifyN ZifyNat.
From Verif Require Import Py PyFacts Utf8 Utf8Facts UrlLib UrlLibFacts UriNorm UriNormFacts UriNormStable TrustRoot.
Local Arguments u : simpl never.

(** ** Errors of the normalizer *)
Lemma check_err p x : check_disallowed_characters p = Raise x -> x = ValueError.
Proof. unfold check_disallowed_characters. destruct (forallb _ _); congruence. Qed.
Lemma int_of_text_err s x : int_of_text s = Raise x -> x = ValueError.
Proof.
  assert (forall t y, nat_of_digits t = Raise y -> y = ValueError) as N.
  { intros t y. unfold nat_of_digits. destruct (digits _); congruence. }
  unfold int_of_text. intros H. destruct (strip s) as [|c r]; [congruence|]. destruct (c =? 45).
  - destruct (nat_of_digits r) eqn:E; cbn [bind] in H; [discriminate|]. apply N in E. congruence.
  - destruct (c =? 43); eauto.
Qed.
Lemma port_of_err n x : port_of n = Raise x -> x = ValueError.
Proof.
  unfold port_of. destruct (snd (hostinfo_of n)) as [p|]; [|discriminate]. destruct (forallb isdigitc p); [|congruence].
  destruct (int_of_text p) eqn:E; cbn [bind]; [destruct (_ <=? _)%Z; congruence|]. apply int_of_text_err in E. congruence.
Qed.
Lemma urlsplit_err e url x : urlsplit e url = Raise x -> x = ValueError.
Proof.
  unfold urlsplit. destruct (split_scheme (url_clean url)) as [sch r]. destruct (startswith r (u "//")).
  - destruct (splitnetloc (skipn 2 r)) as [n y]. destruct (netloc_ok e n); cbn [bind]; [|congruence].
    destruct (partition 35 y) as [a b]. destruct (partition 63 a). destruct (_ || _); congruence.
  - cbn [bind]. destruct (partition 35 r) as [a b]. destruct (partition 63 a). destruct (_ || _); congruence.
Qed.
Lemma idna_err e s x : idna e s = Raise x -> x = ValueError.
Proof.
  unfold idna. destruct (truthy s); [|discriminate]. destruct (isascii s).
  - destruct (rev (splitc 46 s)); [discriminate|]. destruct (_ && _); congruence.
  - destruct (ue_idna e s); congruence.
Qed.
Lemma norm_netloc_err e sch n x : norm_netloc e sch n = Raise x -> x = ValueError.
Proof.
  unfold norm_netloc, norm_host, norm_port. intros H.
  destruct (idna e _) eqn:E1; cbn [bind] in H; [|apply idna_err in E1; congruence].
  destruct (check_disallowed_characters a) eqn:E2; cbn [bind] in H; [|apply check_err in E2; congruence].
  destruct (port_of n) eqn:E3; cbn [bind] in H; [|apply port_of_err in E3; congruence].
  destruct (userinfo_of n) as [[us|] pw]; [|discriminate].
  match type of H with bind (check_disallowed_characters ?t) _ = _ => destruct (check_disallowed_characters t) eqn:E4 end; cbn [bind] in H; [discriminate|apply check_err in E4; congruence].
Qed.
Lemma urinorm_err e url x : urinorm e url = Raise x -> isValueError x = true.
Proof.
  unfold urinorm. intros H. destruct (urlsplit e url) as [s|] eqn:E; cbn [bind] in H; [|apply urlsplit_err in E; inv H; auto].
  destruct (negb _); [inv H; auto|]. destruct (negb _); [inv H; auto|].
  destruct (norm_netloc _ _ _) eqn:E1; cbn [bind] in H; [|apply norm_netloc_err in E1; inv H; auto].
  destruct (norm_path _) eqn:E2; cbn [bind] in H.
  2:{ unfold norm_path, quote in E2. inv H. destruct (encode _) eqn:E3; cbn [bind] in E2; [|apply encode_Raise in E3; inv E2; auto].
      destruct (rds_total (quote_from_bytes (47 :: SUB_DELIMS) a0)) as (r & Er & _). rewrite Er in E2. cbn [bind] in E2.
      match type of E2 with bind (check_disallowed_characters ?t) _ = _ => destruct (check_disallowed_characters t) eqn:E4 end; cbn [bind] in E2; [discriminate|]. apply check_err in E4. inv E2. auto. }
  destruct (norm_query _) eqn:E3; cbn [bind] in H.
  2:{ unfold norm_query in E3. inv H. destruct (urlencode _) eqn:E4; cbn [bind] in E3; [|apply urlencode_err in E4; inv E3; auto].
      match type of E3 with bind (check_disallowed_characters ?t) _ = _ => destruct (check_disallowed_characters t) eqn:E5 end; cbn [bind] in E3; [discriminate|]. apply check_err in E5. inv E3. auto. }
  unfold norm_fragment in H.
  match type of H with context [check_disallowed_characters ?t] => destruct (check_disallowed_characters t) eqn:E4 end; cbn [bind] in H; [discriminate|]. apply check_err in E4. inv H. auto.
Qed.

(** ** Labels *)
Lemma splitc_app_any c a b : splitc c (a ++ c :: b) = splitc c a ++ splitc c b.
Proof.
  induction a as [|x a IH]; cbn [app splitc].
  - rewrite N.eqb_refl. auto.
  - rewrite IH. destruct (x =? c); auto. pose proof (splitc_nonempty c a). destruct (splitc c a); [contradiction|auto].
Qed.
(** [within d h]: the labels of [d] are the last labels of [h]. *)
Definition within (d h : text) : Prop := exists sub, splitc 46 h = sub ++ splitc 46 d.
Lemma within_spec d h : within d h <-> endswith h (46 :: d) = true \/ h = d.
Proof.
  split.
  - intros (sub & H). assert (h = join [46] (sub ++ splitc 46 d)) as E by (rewrite <- H, join_splitc; auto).
    destruct sub as [|s sub]; [right; rewrite E; apply join_splitc|]. left. apply endswith_spec.
    clear H. revert s E. assert (forall sub s, exists r, join [46] ((s :: sub) ++ splitc 46 d) = r ++ 46 :: d) as K; [|intros s E; rewrite E; apply K].
    clear. induction sub as [|s2 sub IH]; intros s.
    + cbn [app join]. pose proof (splitc_nonempty 46 d). destruct (splitc 46 d) as [|y l] eqn:Q; [contradiction|]. exists s. rewrite <- Q, join_splitc. auto.
    + destruct (IH s2) as (r & E). exists (s ++ 46 :: r). cbn [app] in *. cbn [join] in *. rewrite E. rewrite <- app_assoc. auto.
  - intros [H|H].
    + apply endswith_spec in H as (r & ->). exists (splitc 46 r). apply splitc_app_any.
    + exists []. subst; auto.
Qed.

(** ** What parses *)
Lemma parse_inv e s tr : parse e s = Ok (Some tr) -> exists p host,
  parseURL e s = Ok (Some p) /\ up_host p = Some host /\ memc 35 (up_path p) = false /\ memc 42 (tl host) = false /\
  tr_unparsed tr = s /\ tr_proto tr = up_scheme p /\ tr_port tr = up_port p /\ tr_path tr = up_path p /\
  ((tr_wildcard tr = false /\ tr_host tr = host /\ ~ In 42 host) \/
   (tr_wildcard tr = true /\ host = 42 :: tr_host tr /\ (tr_host tr = [] \/ exists d, tr_host tr = 46 :: d) /\ ~ In 42 (tr_host tr))).
Proof.
  unfold parse. intros H. binv H. destruct a as [p|]; [|discriminate]. destruct (memc 35 (up_path p)) eqn:M; [discriminate|].
  destruct (up_host p) as [host|] eqn:Hh; [|discriminate]. destruct (memc 42 (tl host)) eqn:M2; [discriminate|].
  exists p, host. destruct (startswith host (u "*")) eqn:S.
  - apply startswith_spec in S as (d & ->). change (u "*" ++ d) with (42 :: d) in *. cbn [tl] in *.
    assert (H' : (match d with [] => false | c :: _ => negb (c =? 46) end) = false /\ tr = mkTR s (up_scheme p) true d (up_port p) (up_path p)).
    { destruct d as [|c d]; [injection H as <-; auto|]. destruct (negb (c =? 46)); [discriminate|]. injection H as <-. auto. }
    destruct H' as [H1 ->]. cbn [tr_unparsed tr_proto tr_port tr_path tr_wildcard tr_host]. split; auto. split; auto. split; auto. split; auto. split; auto. split; auto. split; auto. split; auto.
    right. split; auto. split; auto. split; [|apply memc_false; auto]. destruct d as [|c d]; auto. right. exists d. apply negb_false_iff, N.eqb_eq in H1. subst; auto.
  - injection H as <-. cbn [tr_unparsed tr_proto tr_port tr_path tr_wildcard tr_host]. split; auto. split; auto. split; auto. split; auto. split; auto. split; auto. split; auto. split; auto.
    left. split; auto. split; auto. apply memc_false in M2. destruct host as [|c h]; [intros []|]. intros [->|I]; [discriminate|contradiction].
Qed.
Lemma parts_path e s p host : parseURL e s = Ok (Some p) -> up_host p = Some host -> exists pa q f, up_path p = pa ++ tail q f /\ (exists r, pa = 47 :: r) /\
  ~ In 63 pa /\ ~ In 35 pa /\ ~ In 35 q.
Proof.
  unfold parseURL. intros H Hh. destruct (urinorm e s) as [r|x] eqn:E; [|destruct (isValueError x); discriminate]. binv H. binv H. injection H as <-.
  cbn [up_path up_host] in *. assert (sp_netloc a <> []) as Hn by (intros X; rewrite X in Hh; discriminate).
  destruct (urlsplit_shape e r a E0 Hn) as (_ & _ & P1 & P2 & P3 & P4).
  set (pp := if truthy (sp_path a) then sp_path a else [47]).
  assert ((exists r, pp = 47 :: r) /\ ~ In 63 pp /\ ~ In 35 pp) as ((r' & Hr) & Q2 & Q3).
  { unfold pp. destruct P1 as [->|(r' & E2)]; cbn [truthy].
    - split; eauto. split; intros [X|[]]; discriminate.
    - rewrite E2 in *. cbn [truthy]. eauto. }
  exists (if startswith pp (u "//") then u "//" ++ pp else pp), (sp_query a), (sp_fragment a). split; [|split; [|split; [|split; auto]]].
  - unfold urlunsplit. cbn [sp_scheme sp_netloc sp_path sp_query sp_fragment truthy andb orb]. rewrite Hr. change (47 =? 47) with true. cbv iota. cbn [app].
    unfold tail. destruct (startswith (47 :: r') (u "//")), (truthy (sp_query a)), (truthy (sp_fragment a)); rewrite ?app_nil_r; repeat (rewrite <- app_assoc; cbn [app]); auto.
  - rewrite Hr. destruct (startswith (47 :: r') (u "//")); eauto. change (u "//") with [47; 47]. cbn [app]. eauto.
  - destruct (startswith pp (u "//")); auto. change (u "//") with [47; 47]. intros [X|[X|I]]; auto; discriminate.
  - destruct (startswith pp (u "//")); auto. change (u "//") with [47; 47]. intros [X|[X|I]]; auto; discriminate.
Qed.
(** The parts of an ordinary URL (see [Prop_Uri.ordinary]). *)
Definition default_port (scheme : text) (o : option N) : option N :=
  match o with
  | Some n => if (text_eqb scheme (u "http") && (n =? 80)) || (text_eqb scheme (u "https") && (n =? 443)) || (n =? 0) then None else Some n
  | None => None
  end.
Lemma norm_port_default scheme netloc p : norm_port scheme netloc = Ok p -> exists o, port_of netloc = Ok o /\
  p = match default_port scheme o with Some n => str_of_N n | None => [] end.
Proof.
  unfold norm_port. intros H. binv H. injection H as <-. exists a. split; auto. unfold default_port. destruct a as [n|]; auto. destruct (_ || (n =? 0)); auto.
Qed.
Lemma port_of_nf ui h o : ~ In 64 h -> ~ In 91 h -> ~ In 58 h -> (forall n, o = Some n -> 0 < n <= 65535) ->
  port_of (with_user ui (host_port h (match o with Some n => str_of_N n | None => [] end))) = Ok o.
Proof.
  intros H1 H2 H3 Ho. assert (forall c, isdigitc c = false -> ~ In c (match o with Some n => str_of_N n | None => [] end)) as D.
  { intros c Hc I. destruct o as [n|]; [|destruct I]. pose proof (str_of_N_digitc n) as D. rewrite forallb_forall in D. apply D in I. congruence. }
  unfold port_of. rewrite hostinfo_nf by (auto; apply D; reflexivity). cbn [snd]. destruct o as [n|]; auto.
  assert (truthy (str_of_N n) = true) as -> by (apply truthy_true, str_of_N_nonnil). rewrite str_of_N_digitc.
  rewrite <- (str_of_N_Z n), int_of_str. cbn [bind]. specialize (Ho n eq_refl). replace (Z.of_N n <=? 65535)%Z with true by lia. rewrite N2Z.id. auto.
Qed.
