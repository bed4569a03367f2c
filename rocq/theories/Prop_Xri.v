(** C53: XRI to URI conversion (/repo/openid/yadis/xri.py). *)
From Coq Require Import Lia ZifyBool ZifyN ZifyNat.
From Verif Require Import Py PyFacts Utf8 Utf8Facts UrlLib UrlLibFacts UriNorm Xri.

Local Arguments u : simpl never.

(** ** Specification *)
(** A cross reference is a parenthesised text on one line; it ends at the first closing
    parenthesis.  Percent signs are escaped everywhere, '/', '?' and '#' inside cross
    references only, and nothing else changes. *)
Definition outside (c : N) : text := if c =? 37 then u "%25" else [c].
Definition inside (c : N) : text :=
  if c =? 37 then u "%25" else if c =? 47 then u "%2F" else if c =? 63 then u "%3F" else if c =? 35 then u "%23" else [c].
Definition xref_body (b : text) : Prop := ~ In 41 b /\ ~ In 10 b.
Inductive escaped : text -> text -> Prop :=
| esc_nil : escaped [] []
| esc_xref b s t : xref_body b -> escaped s t -> escaped (40 :: b ++ 41 :: s) (40 :: flat_map inside b ++ 41 :: t)
| esc_char c s t : (c = 40 -> forall b r, s = b ++ 41 :: r -> ~ xref_body b) -> escaped s t -> escaped (c :: s) (outside c ++ t).
(** The scheme is added when absent. *)
Definition with_scheme (x y : text) : Prop :=
  (exists r, x = u "xri://" ++ r) /\ y = x \/ ~ (exists r, x = u "xri://" ++ r) /\ y = u "xri://" ++ x.
(** A byte of a URI: kept when unreserved, reserved or '%', else percent encoded. *)
Definition uri_char (c : N) : bool :=
  (48 <=? c) && (c <=? 57) || (65 <=? c) && (c <=? 90) || (97 <=? c) && (c <=? 122) || memc c (u "-._~:/?#[]@!$&'()*+,;=%").
Definition uri_byte (b : N) : text := if uri_char b then [b] else [37; hexdigit (b / 16); hexdigit (b mod 16)].

(** ** Proofs *)
Lemma XRI_scheme x : with_scheme x (XRI x).
Proof.
  unfold XRI, with_scheme, xri_scheme. destruct (startswith x (u "xri://")) eqn:E.
  - left. apply startswith_spec in E. auto.
  - right. split; auto. intros X. apply startswith_spec in X. congruence.
Qed.
Lemma with_scheme_fun x y z : with_scheme x y -> with_scheme x z -> y = z.
Proof. intros [[A ->]|[A ->]] [[B ->]|[B ->]]; tauto. Qed.

Definition P (s : text) : text := flat_map outside s.
Lemma P_def s : replace1 37 (u "%25") s = P s.
Proof. reflexivity. Qed.
Lemma P_app a b : P (a ++ b) = P a ++ P b.
Proof. apply flat_map_app. Qed.
Lemma outside_len c : outside c <> [].
Proof. unfold outside. destruct (c =? 37); discriminate. Qed.
Lemma outside_no d c : d = 41 \/ d = 10 -> In d (outside c) <-> c = d.
Proof.
  unfold outside. intros Hd. destruct (c =? 37) eqn:E.
  - split; [|intros ->; destruct Hd; subst; discriminate]. intros H. exfalso. change (u "%25") with [37; 50; 53] in H. cbn in H. lia.
  - cbn. tauto.
Qed.
Lemma P_no d s : d = 41 \/ d = 10 -> In d (P s) <-> In d s.
Proof.
  intros Hd. unfold P. rewrite in_flat_map. split.
  - intros (c & H1 & H2). apply outside_no in H2; auto. subst. auto.
  - intros H. exists d. split; auto. apply outside_no; auto.
Qed.
Lemma cut_P s : cut 41 (P s) = match cut 41 s with Some (a, b) => Some (P a, P b) | None => None end.
Proof.
  destruct (cut 41 s) as [[a b]|] eqn:E.
  - apply cut_Some in E as (-> & N). rewrite P_app. change (P (41 :: b)) with (41 :: P b). apply cut_app. rewrite P_no; auto.
  - apply cut_None in E. apply cut_None. rewrite P_no; auto.
Qed.
Lemma replace1_app c t a b : replace1 c t (a ++ b) = replace1 c t a ++ replace1 c t b.
Proof. apply flat_map_app. Qed.
Lemma escape_app a b : escape_xref (a ++ b) = escape_xref a ++ escape_xref b.
Proof. unfold escape_xref. rewrite !replace1_app. auto. Qed.
Lemma escape_outside c : escape_xref (outside c) = inside c.
Proof.
  unfold outside, inside. destruct (c =? 37) eqn:E0; [reflexivity|].
  unfold escape_xref, replace1. cbn [flat_map]. destruct (c =? 47) eqn:E1; [reflexivity|]. cbn [flat_map app].
  destruct (c =? 63) eqn:E2; [reflexivity|]. cbn [flat_map app]. destruct (c =? 35) eqn:E3; reflexivity.
Qed.
Lemma escape_P s : escape_xref (P s) = flat_map inside s.
Proof.
  induction s as [|c s IH]; auto. change (P (c :: s)) with (outside c ++ P s). rewrite escape_app, IH, escape_outside. auto.
Qed.
Lemma escape_paren b : escape_xref (40 :: P b ++ [41]) = 40 :: flat_map inside b ++ [41].
Proof.
  change (40 :: P b ++ [41]) with ([40] ++ P b ++ [41]). rewrite !escape_app, escape_P. reflexivity.
Qed.
Lemma xref_sub_escaped n : forall s, (List.length (P s) <= n)%nat -> escaped s (xref_sub n (P s)).
Proof.
  induction n as [|n IH]; intros s L.
  - destruct s as [|c s]; [constructor|]. exfalso. change (P (c :: s)) with (outside c ++ P s) in L. rewrite app_length in L.
    pose proof (outside_len c). destruct (outside c); [contradiction|cbn in L; lia].
  - destruct s as [|c s]; [constructor|]. destruct (c =? 40) eqn:E.
    + apply N.eqb_eq in E as ->. change (P (40 :: s)) with (40 :: P s) in *. cbn [xref_sub]. rewrite N.eqb_refl. unfold xref_end.
      rewrite cut_P. cbn [List.length] in L. destruct (cut 41 s) as [[b r]|] eqn:C.
      * apply cut_Some in C as (-> & N1). destruct (memc 10 (P b)) eqn:M.
        -- change (40 :: xref_sub n (P (b ++ 41 :: r))) with (outside 40 ++ xref_sub n (P (b ++ 41 :: r))).
           apply esc_char; [|apply IH; lia]. intros _ b' r' Eq (X & Y). apply memc_In in M. apply (proj1 (P_no 10 b (or_intror eq_refl))) in M.
           assert (b = b') as ->; [|contradiction].
           pose proof (cut_app 41 b r N1) as A. rewrite Eq, cut_app in A by auto. injection A as -> _. auto.
        -- rewrite escape_paren. cbn [app]. rewrite <- app_assoc. cbn [app]. apply esc_xref.
           ++ split; auto. apply memc_false in M. intros X. apply M. apply P_no; auto.
           ++ apply IH. rewrite P_app, app_length in L. change (P (41 :: r)) with (41 :: P r) in L. cbn [List.length] in L. lia.
      * apply cut_None in C. change (40 :: xref_sub n (P s)) with (outside 40 ++ xref_sub n (P s)). apply esc_char; [|apply IH; lia].
        intros _ b r -> _. apply C. apply in_app_iff. right. left. auto.
    + assert (forall t, (List.length (outside c ++ t) <= S n)%nat -> exists m, (m <= n)%nat /\ (List.length t <= m)%nat /\ xref_sub (S n) (outside c ++ t) = outside c ++ xref_sub m t) as K.
      { intros t Lt. unfold outside in *. destruct (c =? 37) eqn:E2.
        - change (u "%25") with [37; 50; 53] in *. cbn in Lt. destruct n as [|[|n]]; [lia|lia|]. exists n. split; [lia|]. split; [lia|]. reflexivity.
        - exists n. cbn in Lt. split; [lia|]. split; [lia|]. cbn [app xref_sub]. rewrite E. auto. }
      change (P (c :: s)) with (outside c ++ P s) in *. destruct (K _ L) as (m & Hm & Hl & ->).
      apply esc_char; [intros ->; discriminate|].
      assert (forall k k' s, (List.length s <= k)%nat -> (k <= k')%nat -> xref_sub k' s = xref_sub k s) as F.
      { clear. induction k as [|k IH]; intros k' s L Lk.
        - destruct s; [|cbn in L; lia]. destruct k'; auto.
        - destruct k' as [|k']; [lia|]. destruct s as [|c s]; auto. cbn [xref_sub]. cbn [List.length] in L.
          assert (xref_sub k' s = xref_sub k s) as Q by (apply IH; lia). rewrite Q. destruct (c =? 40); auto.
          destruct (xref_end s) as [[b r]|] eqn:X; auto. f_equal. apply IH; [|lia]. unfold xref_end in X.
          destruct (cut 41 s) as [[b' r']|] eqn:C; [|discriminate]. destruct (memc 10 b'); inv X. apply cut_Some in C as (-> & _).
          rewrite app_length in L. cbn in L. lia. }
      rewrite <- (F m n) by auto. apply IH. rewrite app_length in L. pose proof (outside_len c). destruct (outside c); [contradiction|cbn in L; lia].
Qed.
Lemma escaped_fun s t t' : escaped s t -> escaped s t' -> t = t'.
Proof.
  intros H. revert t'. induction H as [|b s t Hb H IH|c s t Hc H IH]; intros t' H'.
  - inversion H'; auto.
  - inversion H' as [|b' s' t1 Hb' H1 E|c s' t1 Hc H1 E]; subst.
    + assert (b = b' /\ s = s') as (-> & ->); [|f_equal; f_equal; f_equal; auto].
      pose proof (cut_app 41 b' s' (proj1 Hb')) as A. rewrite E in A. rewrite cut_app in A by (apply Hb). injection A as -> ->. auto.
    + exfalso. apply (Hc eq_refl b s); auto.
  - inversion H' as [|b' s' t1 Hb' H1 E|c' s' t1 Hc' H1 E]; subst.
    + exfalso. apply (Hc eq_refl b' s'); auto.
    + f_equal; auto.
Qed.
Lemma toIRINormal_escaped x : escaped (XRI x) (toIRINormal x).
Proof. unfold toIRINormal, escapeForIRI. rewrite P_def. apply xref_sub_escaped. auto. Qed.

Lemma uri_safe_char b : always_safe b || memc b uri_safe = uri_char b.
Proof.
  assert (forall n : nat, (n < 128)%nat -> always_safe (N.of_nat n) || memc (N.of_nat n) uri_safe = uri_char (N.of_nat n)) as K.
  { intros n Hn. do 128 (destruct n as [|n]; [vm_compute; reflexivity|]). lia. }
  destruct (b <? 128) eqn:E.
  - rewrite <- (N2Nat.id b). apply K. lia.
  - replace (always_safe b) with false by (unfold always_safe, isalphac, isdigitc; lia).
    assert (forall s, isascii s = true -> memc b s = false) as M.
    { intros s Hs. apply memc_false. intros X. apply (isascii_In s b Hs) in X. lia. }
    rewrite M by reflexivity. unfold uri_char. rewrite (M (u _)) by reflexivity. lia.
Qed.
Lemma quote_uri bs : quote_from_bytes uri_safe bs = flat_map uri_byte bs.
Proof.
  unfold quote_from_bytes. rewrite <- flat_map_concat_map. apply flat_map_ext. intros b. unfold quote_byte, uri_byte.
  rewrite uri_safe_char. auto.
Qed.

(** What the conversion computes, for every text.  The only failure is a text with a
    character UTF-8 cannot encode (a lone surrogate). *)
Theorem C53_conversion : forall x,
  exists full iri, with_scheme x full /\ escaped full iri /\
    match toURINormal x with
    | Ok uri => exists bs, encode iri = Ok bs /\ uri = flat_map uri_byte bs
    | Raise e => e = UnicodeEncodeError /\ encode iri = Raise UnicodeEncodeError
    end.
Proof.
  intros x. exists (XRI x), (toIRINormal x). split; [apply XRI_scheme|]. split; [apply toIRINormal_escaped|].
  unfold toURINormal, iriToURI, quote. destruct (encode (toIRINormal x)) as [bs|e] eqn:E; cbn [bind].
  - exists bs. split; auto. apply quote_uri.
  - pose proof (encode_Raise _ _ E). subst. auto.
Qed.
Print Assumptions C53_conversion.
Theorem C53_specification_is_a_function : forall x y y' z z', with_scheme x y -> with_scheme x y' -> escaped y z -> escaped y' z' -> z = z'.
Proof. intros x y y' z z' A B C D. rewrite (with_scheme_fun _ _ _ A B) in C. eapply escaped_fun; eauto. Qed.
Print Assumptions C53_specification_is_a_function.

(** The result is a URI text: ASCII characters allowed in URIs only. *)
Theorem C53_ascii : forall x uri, toURINormal x = Ok uri -> forallb (fun c => uri_char c && (c <? 128)) uri = true.
Proof.
  intros x uri H. unfold toURINormal, iriToURI, quote in H. binv H. inv H. pose proof (encode_bytes _ _ E) as B. rewrite quote_uri.
  apply forallb_forall. intros c I. apply in_flat_map in I as (b & I1 & I2). rewrite Forall_forall in B. apply B in I1.
  assert (forall n, n < 16 -> uri_char (hexdigit n) && (hexdigit n <? 128) = true) as K.
  { intros n Hn. unfold hexdigit, uri_char. destruct (n <? 10) eqn:En; lia. }
  unfold uri_byte in I2. destruct (uri_char b) eqn:U.
  - destruct I2 as [<-|[]]. rewrite U. unfold uri_char in U.
    assert (memc b (u "-._~:/?#[]@!$&'()*+,;=%") = true -> b < 128) as M by (intros X; apply memc_In in X; refine (isascii_In _ _ _ X); reflexivity).
    destruct (memc b _); [specialize (M eq_refl)|]; lia.
  - destruct I2 as [<-|[<-|[<-|[]]]]; [reflexivity| |]; apply K; zify; lia.
Qed.
Print Assumptions C53_ascii.

(** An XRI of URI characters without '%' and '(' is only given its scheme. *)
Theorem C53_keeps_normal : forall x, forallb (fun c => uri_char c && negb (c =? 37) && negb (c =? 40)) x = true ->
  exists full, with_scheme x full /\ toURINormal x = Ok full.
Proof.
  intros x H. exists (XRI x). split; [apply XRI_scheme|].
  assert (forall s, forallb (fun c => uri_char c && negb (c =? 37) && negb (c =? 40)) s = true -> escaped s s) as A.
  { induction s as [|c s IH]; intros Hs; [constructor|]. cbn [forallb] in Hs. apply andb_prop in Hs as (Hc & Hs).
    replace (c :: s) with (outside c ++ s) at 2 by (unfold outside; replace (c =? 37) with false by lia; auto).
    apply esc_char; auto. intros ->. cbn in Hc. lia. }
  assert (forallb (fun c => uri_char c && negb (c =? 37) && negb (c =? 40)) (XRI x) = true) as B.
  { unfold XRI. destruct (startswith x xri_scheme); [exact H|]. rewrite forallb_app. apply andb_true_intro. split; [vm_compute; reflexivity|exact H]. }
  assert (toIRINormal x = XRI x) as Q by (eapply escaped_fun; [apply toIRINormal_escaped|apply A; auto]).
  assert (forall c, uri_char c = true -> c < 128) as U.
  { intros c Hc. unfold uri_char in Hc.
    assert (memc c (u "-._~:/?#[]@!$&'()*+,;=%") = true -> c < 128) as M by (intros X; apply memc_In in X; refine (isascii_In _ _ _ X); reflexivity).
    destruct (memc c _); [specialize (M eq_refl)|]; lia. }
  unfold toURINormal, iriToURI, quote. rewrite Q. rewrite encode_ascii; cbn [bind].
  - f_equal. rewrite quote_uri. clear Q H. induction (XRI x) as [|c s IH]; auto. cbn [forallb] in B. apply andb_prop in B as (B1 & B2).
    cbn [flat_map]. rewrite IH by auto. unfold uri_byte. apply andb_prop in B1 as (B1 & _). apply andb_prop in B1 as (B1 & _). rewrite B1. auto.
  - apply forallb_forall. intros c I. rewrite forallb_forall in B. apply B in I. apply andb_prop in I as (I & _). apply andb_prop in I as (I & _). apply U in I. lia.
Qed.
Print Assumptions C53_keeps_normal.

(** Percent decoding the result gives the XRI back, so different XRIs have different URIs. *)
Lemma uq_byte b rest : b < 256 -> b <> 37 -> unquote_to_bytes (uri_byte b ++ rest) = b :: unquote_to_bytes rest.
Proof.
  intros H N. unfold uri_byte. destruct (uri_char b); cbn [app unquote_to_bytes].
  - replace (b =? 37) with false by lia. auto.
  - rewrite N.eqb_refl. rewrite !hexdigit_val by (zify; lia). f_equal. lia.
Qed.
Lemma uq_bytes bs rest : Forall (fun b => b < 256 /\ b <> 37) bs -> unquote_to_bytes (flat_map uri_byte bs ++ rest) = bs ++ unquote_to_bytes rest.
Proof.
  induction 1 as [|b bs Hb H IH]; auto. cbn [flat_map]. rewrite <- app_assoc, uq_byte by tauto. cbn [app]. f_equal. auto.
Qed.
Lemma enc1_bytes c b : enc1 c = Some b -> c <> 37 -> Forall (fun b => b < 256 /\ b <> 37) b.
Proof.
  intros E N. pose proof (encode_bytes [c] b) as B. cbn [encode] in B. rewrite E in B. cbn [bind] in B. rewrite app_nil_r in B. specialize (B eq_refl).
  assert (Forall (fun b => b <> 37) b) as B2.
  { unfold enc1 in E. destruct (c <? 128); [inv E; auto|]. destruct (c <? 2048); [inv E; repeat constructor; lia|].
    destruct (c <? 65536); [destruct (_ && _); inv E; repeat constructor; lia|]. destruct (c <? 1114112); inv E. repeat constructor; lia. }
  rewrite Forall_forall in *. auto.
Qed.
Lemma uq_escape c e rest bs : In e [outside c; inside c] -> encode e = Ok bs -> exists cb, enc1 c = Some cb /\ unquote_to_bytes (flat_map uri_byte bs ++ rest) = cb ++ unquote_to_bytes rest.
Proof.
  intros He H.
  assert (e = [c] /\ c <> 37 \/ exists h l, e = [37; h; l] /\ c < 128 /\ hexval h = Some (c / 16) /\ hexval l = Some (c mod 16) /\ uri_char h = true /\ uri_char l = true /\ h < 128 /\ l < 128) as [(-> & N)|(h & l & -> & Hc & H1 & H2 & U1 & U2 & L1 & L2)].
  { unfold outside, inside in He. cbn [In] in He. destruct (c =? 37) eqn:E0.
    - right. apply N.eqb_eq in E0 as ->. exists 50, 53. destruct He as [<-|[<-|[]]]; repeat split.
    - destruct He as [<-|[He|[]]]; [left; split; auto; lia|].
      destruct (c =? 47) eqn:E1; [right; apply N.eqb_eq in E1 as ->; exists 50, 70; subst e; repeat split|].
      destruct (c =? 63) eqn:E2; [right; apply N.eqb_eq in E2 as ->; exists 51, 70; subst e; repeat split|].
      destruct (c =? 35) eqn:E3; [right; apply N.eqb_eq in E3 as ->; exists 50, 51; subst e; repeat split|].
      left. subst e. split; auto. lia. }
  - cbn [encode] in H. destruct (enc1 c) as [cb|] eqn:E; [|discriminate]. cbn [bind] in H. rewrite app_nil_r in H. inv H. exists bs. split; auto.
    apply uq_bytes. eapply enc1_bytes; eauto.
  - rewrite encode_ascii in H by (cbn; lia). inv H. exists [c]. split; [unfold enc1; replace (c <? 128) with true by lia; auto|].
    cbn [flat_map].
    assert (uri_byte h = [h]) as Qh by (unfold uri_byte; rewrite U1; auto). assert (uri_byte l = [l]) as Ql by (unfold uri_byte; rewrite U2; auto).
    rewrite Qh, Ql. change (uri_byte 37) with [37]. cbn [app unquote_to_bytes]. rewrite N.eqb_refl, H1, H2. f_equal. lia.
Qed.

Lemma encode_app_Ok s t b : encode (s ++ t) = Ok b -> exists x y, encode s = Ok x /\ encode t = Ok y /\ b = x ++ y.
Proof. rewrite encode_app. destruct (encode s) as [x|]; [|discriminate]. destruct (encode t) as [y|]; [|discriminate]. cbn. intros H. inv H. eauto. Qed.
Lemma uq_inside b : forall bs, encode (flat_map inside b) = Ok bs -> exists cb, encode b = Ok cb /\
  forall rest, unquote_to_bytes (flat_map uri_byte bs ++ rest) = cb ++ unquote_to_bytes rest.
Proof.
  induction b as [|c b IH]; intros bs H; cbn [flat_map] in H; [inv H; exists []; auto|].
  apply encode_app_Ok in H as (a & a0 & E & E0 & ->). destruct (IH _ E0) as (cb & E1 & E2).
  destruct (enc1 c) as [x|] eqn:Ec.
  - exists (x ++ cb). split; [cbn [encode]; rewrite Ec, E1; auto|]. intros rest. rewrite flat_map_app, <- app_assoc.
    destruct (uq_escape c (inside c) (flat_map uri_byte a0 ++ rest) a ltac:(right; left; auto) E) as (y & Ey & ->). rewrite Ec in Ey. inv Ey.
    rewrite E2, app_assoc. auto.
  - destruct (uq_escape c (inside c) [] a ltac:(right; left; auto) E) as (y & Ey & _). congruence.
Qed.
Lemma escaped_decodes s t : escaped s t -> forall bs, encode t = Ok bs -> exists cb, encode s = Ok cb /\ unquote_to_bytes (flat_map uri_byte bs) = cb.
Proof.
  induction 1 as [|b s t Hb H IH|c s t Hc H IH]; intros bs E.
  - inv E. exists []. auto.
  - change (40 :: flat_map inside b ++ 41 :: t) with ([40] ++ flat_map inside b ++ [41] ++ t) in E.
    apply encode_app_Ok in E as (a & b0 & Ea & E & ->). apply encode_app_Ok in E as (a0 & b1 & E1 & E & ->).
    apply encode_app_Ok in E as (a1 & b2 & Eb & E2 & ->). vm_compute in Ea, Eb. inv Ea. inv Eb.
    destruct (uq_inside b a0 E1) as (cb & E3 & E4). destruct (IH _ E2) as (sb & E5 & E6).
    exists ([40] ++ cb ++ [41] ++ sb). split.
    + change (40 :: b ++ 41 :: s) with ([40] ++ b ++ [41] ++ s). rewrite encode_app, encode_app, encode_app, E3, E5. reflexivity.
    + change (40 :: unquote_to_bytes (flat_map uri_byte (a0 ++ [41] ++ b2)) = [40] ++ cb ++ [41] ++ sb).
      rewrite flat_map_app, E4. change (40 :: cb ++ 41 :: unquote_to_bytes (flat_map uri_byte b2) = 40 :: cb ++ 41 :: sb). rewrite E6. auto.
  - apply encode_app_Ok in E as (a & a0 & E0 & E1 & ->). destruct (IH _ E1) as (sb & E5 & E6).
    destruct (uq_escape c (outside c) (flat_map uri_byte a0) a ltac:(left; auto) E0) as (y & Ey & Q).
    exists (y ++ sb). split; [cbn [encode]; rewrite Ey, E5; auto|]. rewrite flat_map_app, Q, E6. auto.
Qed.
Theorem C53_decodes : forall x full uri, with_scheme x full -> toURINormal x = Ok uri -> unquote uri = full.
Proof.
  intros x full uri W H. rewrite (with_scheme_fun _ _ _ W (XRI_scheme x)). pose proof (C53_ascii _ _ H) as A.
  assert (isascii uri = true) as A2 by (apply forallb_forall; intros c I; rewrite forallb_forall in A; apply A in I; lia).
  unfold toURINormal, iriToURI, quote in H. binv H. inv H. rewrite quote_uri in *. rewrite unquote_ascii by auto.
  destruct (escaped_decodes _ _ (toIRINormal_escaped x) _ E) as (cb & E1 & ->). apply decode_replace_encode. auto.
Qed.
Print Assumptions C53_decodes.
Corollary C53_injective : forall x y uri, toURINormal x = Ok uri -> toURINormal y = Ok uri ->
  exists full, with_scheme x full /\ with_scheme y full.
Proof.
  intros x y uri Hx Hy. pose proof (C53_decodes _ _ _ (XRI_scheme x) Hx) as A. pose proof (C53_decodes _ _ _ (XRI_scheme y) Hy) as B.
  exists (XRI x). split; [apply XRI_scheme|]. rewrite <- A, B. apply XRI_scheme.
Qed.
Print Assumptions C53_injective.

(** Cross references, percent signs and letters outside ASCII. *)
Example C53_example :
  toURINormal (u "@example/(http://a/b?c#d)/x?y#50%" ++ [233] ++ u "(/") = Ok (u "xri://@example/(http:%2F%2Fa%2Fb%3Fc%23d)/x?y#50%25%C3%A9(/").
Proof. vm_compute. reflexivity. Qed.
Example C53_example_newline :      (* no cross reference across lines *)
  toURINormal (u "xri://(a/" ++ [10] ++ u "/b)") = Ok (u "xri://(a/%0A/b)") /\ toURINormal [55296] = Raise UnicodeEncodeError.
Proof. vm_compute. auto. Qed.
Example C53_example_escaped : escaped (u "(a/b)/c") (u "(a%2Fb)/c").
Proof.
  apply (esc_xref (u "a/b") (u "/c") (u "/c")); [vm_compute; intuition discriminate|].
  apply (esc_char 47 (u "c") (u "c")); [discriminate|]. apply (esc_char 99 [] []); [discriminate|constructor].
Qed.
