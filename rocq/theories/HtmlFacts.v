(** Lemmas: what the reader of [HtmlSpec] sees in the pages of [Html]. *)
From Coq Require Import Lia ZifyBool ZifyN ZifyNat.
From Verif Require Import Py PyFacts Utf8 Utf8Facts UrlLib UrlLibFacts Message Server Html HtmlSpec.
Import Py.
Open Scope N_scope.
Local Arguments u : simpl never.
Local Ltac Zify.zify_post_hook ::= Z.div_mod_to_equations.

(** ** Attributes *)
Definition readable (s : text) : Prop := forallb xml_char s = true.
Lemma xml_char_nz c : xml_char c = true -> c <> 0.
Proof. unfold xml_char. lia. Qed.
Lemma scan_value v : forall n l a v0 r, readable v ->
  scan (AttrValue n l a v0) (escape v ++ 34 :: r) = scan (AfterValue n (add_attr l a (v0 ++ v))) r.
Proof.
  induction v as [|c v IH]; intros n l a v0 r H.
  - rewrite app_nil_r. cbn [escape map List.concat app scan]. reflexivity.
  - unfold readable in H. cbn [forallb] in H. apply andb_prop in H as [Hc H].
    unfold escape. cbn [map List.concat]. fold (escape v). rewrite <- app_assoc.
    assert (forall x, scan (AttrValue n l a (v0 ++ [x])) (escape v ++ 34 :: r) = scan (AfterValue n (add_attr l a (v0 ++ x :: v))) r) as K.
    { intros x. rewrite IH by auto. rewrite <- app_assoc. reflexivity. }
    unfold escape_char.
    change (u "&quot;") with [38; 113; 117; 111; 116; 59]. change (u "&#10;") with [38; 35; 49; 48; 59]. change (u "&#13;") with [38; 35; 49; 51; 59].
    change (u "&#9;") with [38; 35; 57; 59]. change (u "&lt;") with [38; 108; 116; 59]. change (u "&gt;") with [38; 103; 116; 59].
    change (u "&amp;") with [38; 97; 109; 112; 59].
    destruct (c =? 34) eqn:E1. { apply N.eqb_eq in E1. subst. apply (K 34). }
    destruct (c =? 10) eqn:E2. { apply N.eqb_eq in E2. subst. apply (K 10). }
    destruct (c =? 13) eqn:E3. { apply N.eqb_eq in E3. subst. apply (K 13). }
    destruct (c =? 9) eqn:E4. { apply N.eqb_eq in E4. subst. apply (K 9). }
    destruct (c =? 60) eqn:E5. { apply N.eqb_eq in E5. subst. apply (K 60). }
    destruct (c =? 62) eqn:E6. { apply N.eqb_eq in E6. subst. apply (K 62). }
    destruct (c =? 38) eqn:E7. { apply N.eqb_eq in E7. subst. apply (K 38). }
    cbn [app scan]. apply xml_char_nz in Hc. replace (c =? 0) with false by lia. rewrite E3, E1, E7. cbn [orb]. apply K.
Qed.
Lemma name_char_props c : name_char c = true -> c <> 0 /\ c <> 13 /\ c <> 61 /\ html_space c = false /\ memc c [34; 39; 47; 60; 62] = false /\ memc c [34; 39; 60; 61] = false.
Proof. unfold name_char, name_start, isalphac, isdigitc, html_space, memc. cbn [existsb]. lia. Qed.
Lemma scan_name k : forall n l a r, forallb name_char k = true ->
  scan (AttrName n l a) (k ++ 61 :: r) = scan (AfterEq n l (a ++ lower k)) r.
Proof.
  induction k as [|c k IH]; intros n l a r H.
  - rewrite app_nil_r. reflexivity.
  - cbn [forallb] in H. apply andb_prop in H as [Hc H]. apply name_char_props in Hc as (H0 & H13 & H61 & Hs & Hm & _).
    cbn [app scan]. replace (c =? 0) with false by lia. replace (c =? 13) with false by lia. replace (c =? 61) with false by lia.
    rewrite Hs, Hm. cbn [orb]. rewrite IH by auto. cbn [lower map]. rewrite <- app_assoc. reflexivity.
Qed.
Definition good_attr (kv : text * text) : Prop :=
  (exists c r, fst kv = c :: r /\ name_start c = true /\ forallb name_char r = true) /\ readable (snd kv).
Definition read_attrs (d : attributes) (l : attributes) : attributes := fold_left (fun l kv => add_attr l (lower (fst kv)) (snd kv)) d l.
Lemma scan_attr kv n l r : good_attr kv ->
  scan (BeforeAttr n l) (skipn 1 (attr_out kv) ++ r) = scan (AfterValue n (add_attr l (lower (fst kv)) (snd kv))) r.
Proof.
  intros ((c & k & Ek & Hc & Hk) & Hv). unfold attr_out. cbn [skipn]. rewrite Ek. cbn [app].
  assert (name_char c = true) as Nc by (unfold name_char; rewrite Hc; auto).
  pose proof (name_char_props c Nc) as (H0 & H13 & H61 & Hs & Hm & Hm').
  cbn [scan]. replace (c =? 0) with false by lia. replace (c =? 13) with false by lia.
  replace (c =? 62) with false by (unfold memc in Hm; cbn [existsb] in Hm; lia). replace (c =? 47) with false by (unfold memc in Hm; cbn [existsb] in Hm; lia).
  rewrite Hs, Hm'. cbn [orb]. rewrite <- !app_assoc. cbn [app]. rewrite scan_name by auto.
  cbn [scan]. change ((34 =? 0) || (34 =? 13)) with false. change (34 =? 34) with true. cbv iota.
  rewrite <- app_assoc. cbn [app]. rewrite scan_value by auto. reflexivity.
Qed.
Lemma scan_attrs d : forall n l r, Forall good_attr d -> scan (AfterValue n l) (attrs_out d ++ r) = scan (AfterValue n (read_attrs d l)) r.
Proof.
  induction d as [|kv d IH]; intros n l r H; [reflexivity|]. inv H.
  unfold attrs_out. cbn [map List.concat]. fold (attrs_out d). rewrite <- app_assoc.
  change (attr_out kv) with (32 :: skipn 1 (attr_out kv)). cbn [app scan].
  change ((32 =? 0) || (32 =? 13)) with false. change (32 =? 62) with false. change (html_space 32) with true. cbv iota.
  rewrite scan_attr by auto. rewrite IH by auto. reflexivity.
Qed.
Lemma scan_tag_attrs kv d n r : Forall good_attr (kv :: d) ->
  scan (TagName n) (attrs_out (kv :: d) ++ r) = scan (AfterValue n (read_attrs (kv :: d) [])) r.
Proof.
  intros H. rewrite <- scan_attrs by auto. unfold attrs_out. cbn [map List.concat app attr_out scan].
  change ((32 =? 0) || (32 =? 13)) with false. change (32 =? 62) with false. change (html_space 32) with true. reflexivity.
Qed.

(** Names in lower case that differ: the attributes are read as they were written. *)
Lemma read_attrs_same d : forall l, Forall (fun kv => lower (fst kv) = fst kv) d -> NoDup (map fst (l ++ d)) -> read_attrs d l = l ++ d.
Proof.
  induction d as [|[k v] d IH]; intros l F N; [rewrite app_nil_r; reflexivity|]. inv F. cbn [read_attrs fold_left fst snd] in *. rewrite H1.
  unfold add_attr. assert (mem_text k (map fst l) = false) as ->.
  { apply mem_text_false. intros I. rewrite map_app in N. apply NoDup_remove_2 in N. apply N. apply in_or_app. auto. }
  fold (read_attrs d (l ++ [(k, v)])). rewrite IH; auto; rewrite <- app_assoc; auto.
Qed.

(** ** Inputs and forms *)
Lemma scan_input i r : i <> [] -> Forall good_attr i -> scan Data (input_out i ++ r) = ocons (TStart (u "input") (read_attrs i [])) (scan Data r).
Proof.
  intros Ne H. destruct i as [|kv i]; [contradiction|]. unfold input_out. change (u "<input") with [60; 105; 110; 112; 117; 116]. rewrite <- !app_assoc.
  cbn [app].
  change (scan Data (60 :: 105 :: 110 :: 112 :: 117 :: 116 :: attrs_out (kv :: i) ++ u "/>" ++ r)) with (scan (TagName [105; 110; 112; 117; 116]) (attrs_out (kv :: i) ++ u "/>" ++ r)).
  rewrite scan_tag_attrs by auto. reflexivity.
Qed.
Lemma scan_inputs is r : Forall (fun i => i <> [] /\ Forall good_attr i) is ->
  scan Data (List.concat (map input_out is) ++ r) = fold_right (fun i o => ocons (TStart (u "input") (read_attrs i [])) o) (scan Data r) is.
Proof.
  induction 1 as [|i is [H1 H2] F IH]; [reflexivity|]. cbn [map List.concat fold_right]. rewrite <- app_assoc, scan_input by auto. rewrite IH. reflexivity.
Qed.
Lemma scan_form f r : form_attrs f <> [] -> Forall good_attr (form_attrs f) -> Forall (fun i => i <> [] /\ Forall good_attr i) (form_inputs f) ->
  scan Data (form_out f ++ r) =
  ocons (TStart (u "form") (read_attrs (form_attrs f) [])) (fold_right (fun i o => ocons (TStart (u "input") (read_attrs i [])) o) (ocons (TEnd (u "form")) (scan Data r)) (form_inputs f)).
Proof.
  intros Ne H1 H2. unfold form_out. destruct (form_attrs f) as [|kv d]; [contradiction|]. rewrite <- !app_assoc.
  change (u "<form") with [60; 102; 111; 114; 109]. cbn [app].
  match goal with |- scan Data (60 :: 102 :: 111 :: 114 :: 109 :: ?x) = _ => change (scan Data (60 :: 102 :: 111 :: 114 :: 109 :: x)) with (scan (TagName [102; 111; 114; 109]) x) end.
  rewrite scan_tag_attrs by auto. change (u ">") with [62]. cbn [app].
  match goal with |- scan (AfterValue ?n ?l) (62 :: ?x) = _ => change (scan (AfterValue n l) (62 :: x)) with (ocons (TStart (u "form") l) (scan Data x)) end.
  f_equal. rewrite scan_inputs by auto. reflexivity.
Qed.

(** ** Pages *)
Lemma scan_raw tag s : forall r, ~ In 60 s -> ~ In 0 s -> ~ In 13 s -> scan (Raw tag) (s ++ r) = scan (Raw tag) r.
Proof.
  induction s as [|c s IH]; intros r H H0 H13; [reflexivity|]. cbn [app scan].
  assert (c <> 60 /\ c <> 0 /\ c <> 13) as (A & B & C) by (repeat split; intros ->; [apply H|apply H0|apply H13]; left; reflexivity).
  replace (c =? 0) with false by lia. replace (c =? 13) with false by lia. replace (c =? 60) with false by lia. cbn [orb andb].
  apply IH; intros I; [apply H|apply H0|apply H13]; right; auto.
Qed.
Lemma scan_head r : scan Data (page_head ++ r) = ocons (TStart (u "html") []) (ocons (TStart (u "head") []) (ocons (TStart (u "title") []) (scan (Raw (u "title")) r))).
Proof. let x := eval vm_compute in page_head in change page_head with x. reflexivity. Qed.
Lemma scan_middle r : scan (Raw (u "title")) (page_middle ++ r) =
  ocons (TEnd (u "title")) (ocons (TEnd (u "head")) (ocons (TStart (u "body") [(u "onload", u "document.forms[0].submit();")]) (scan Data r))).
Proof. let x := eval vm_compute in page_middle in change page_middle with x. reflexivity. Qed.
Lemma scan_tail : scan Data page_tail = Some [TStart (u "script") []; TEnd (u "script"); TEnd (u "body"); TEnd (u "html")].
Proof. vm_compute. reflexivity. Qed.

(** The tokens of a page around a form. *)
Definition input_tokens (is : list (dict text text)) (r : list token) : list token :=
  fold_right (fun i o => TStart (u "input") (read_attrs i []) :: o) r is.
Lemma fold_inputs is o : fold_right (fun i o => ocons (TStart (u "input") (read_attrs i [])) o) (Some o) is = Some (input_tokens is o).
Proof. induction is as [|i is IH]; [reflexivity|]. cbn [fold_right input_tokens]. rewrite IH. reflexivity. Qed.
Definition writable (f : form) : Prop :=
  form_attrs f <> [] /\ Forall good_attr (form_attrs f) /\ Forall (fun i => i <> [] /\ Forall good_attr i) (form_inputs f).
Definition form_tokens (f : form) (r : list token) : list token :=
  TStart (u "form") (read_attrs (form_attrs f) []) :: input_tokens (form_inputs f) (TEnd (u "form") :: r).
Lemma tokens_form f : writable f -> tokens (form_out f) = Some (form_tokens f []).
Proof.
  intros (H1 & H2 & H3). unfold tokens. rewrite <- (app_nil_r (form_out f)), scan_form by auto. cbn [scan ocons]. rewrite fold_inputs. reflexivity.
Qed.
Definition plain_title (t : text) : Prop := ~ In 60 t /\ ~ In 0 t /\ ~ In 13 t.
Lemma tokens_page f title : writable f -> plain_title title ->
  tokens (autoSubmitHTML (form_out f) title) =
  Some ([TStart (u "html") []; TStart (u "head") []; TStart (u "title") []; TEnd (u "title"); TEnd (u "head");
         TStart (u "body") [(u "onload", u "document.forms[0].submit();")]] ++
        form_tokens f [TStart (u "script") []; TEnd (u "script"); TEnd (u "body"); TEnd (u "html")]).
Proof.
  intros (H1 & H2 & H3) (T1 & T2 & T3). unfold tokens, autoSubmitHTML. rewrite scan_head, scan_raw by auto. rewrite scan_middle, scan_form by auto.
  rewrite scan_tail. cbn [ocons]. rewrite fold_inputs. reflexivity.
Qed.
Lemma controls_inputs is r : controls (input_tokens is (TEnd (u "form") :: r)) = Some (map (fun i => (u "input", read_attrs i [])) is).
Proof.
  induction is as [|i is IH]; [reflexivity|]. cbn [input_tokens fold_right map]. fold (input_tokens is (TEnd (u "form") :: r)).
  cbn [controls]. change (mem_text (u "input") _) with true. cbv iota. rewrite IH. reflexivity.
Qed.
Lemma first_form_tokens f r : first_form (form_tokens f r) = Some (read_attrs (form_attrs f) [], map (fun i => (u "input", read_attrs i [])) (form_inputs f)).
Proof. unfold form_tokens. cbn [first_form]. change (text_eqb (u "form") (u "form")) with true. cbv iota. rewrite controls_inputs. reflexivity. Qed.

(** ** What arrives *)
Lemma crlf_plain s : ~ In 10 s -> ~ In 13 s -> crlf s = s.
Proof.
  unfold crlf. induction s as [|c s IH]; intros H1 H2; [reflexivity|]. cbn [crlf_from].
  assert (c <> 10 /\ c <> 13) as [A B] by (split; intros ->; [apply H1|apply H2]; left; reflexivity).
  replace (c =? 10) with false by lia. replace (c =? 13) with false by lia. cbn [app]. f_equal. apply IH; intros I; [apply H1|apply H2]; right; auto.
Qed.
Lemma crlf_from_In s : forall b c, In c (crlf_from b s) -> In c s \/ c = 10 \/ c = 13.
Proof.
  induction s as [|x s IH]; intros b c H; cbn [crlf_from] in H.
  - destruct b; [destruct H as [<-|[]]; auto|destruct H].
  - destruct (x =? 10).
    + destruct b; [destruct H as [<-|H]|destruct H as [<-|[<-|H]]]; auto; apply IH in H; destruct H as [H|H]; auto; left; right; auto.
    + apply in_app_or in H as [H|H]; [destruct b; [destruct H as [<-|[]]; auto|destruct H]|].
      destruct (x =? 13) eqn:E; (destruct H as [<-|H]; [first [right; right; reflexivity|left; left; reflexivity]|]); apply IH in H; destruct H as [H|H]; auto; left; right; auto.
Qed.
Lemma encode_chars s : (forall c, In c s -> enc1 c <> None) <-> exists b, encode s = Ok b.
Proof.
  induction s as [|c s IH]; cbn [encode].
  - split; [eauto|intros _ c []].
  - split.
    + intros H. destruct (enc1 c) as [b|] eqn:E; [|exfalso; apply (H c); [left; auto|auto]].
      destruct (proj1 IH) as (b' & ->). { intros x I. apply H. right. auto. } cbn [bind]. eauto.
    + intros (b & H) x [<-|I]; destruct (enc1 c) as [bc|] eqn:E; try discriminate. binv H. apply (proj2 IH); eauto.
Qed.
Lemma crlf_encode s b : encode s = Ok b -> exists b', encode (crlf s) = Ok b'.
Proof.
  intros H. apply encode_chars. intros c I. unfold crlf in I. apply crlf_from_In in I as [I|[->| ->]]; try discriminate.
  revert c I. apply encode_chars. eauto.
Qed.
Lemma xml_value_Ok v r : xml_value v = Ok r <-> r = v /\ readable v /\ exists b, encode v = Ok b.
Proof.
  unfold xml_value, readable. split.
  - intros H. binv H. destruct (forallb xml_char v); [|discriminate]. injection H as <-. eauto.
  - intros (-> & H & b & E). rewrite E. cbn [bind]. rewrite H. auto.
Qed.
Lemma readable_encode v : readable v -> exists b, encode v = Ok b.
Proof.
  unfold readable. intros H. apply encode_chars. intros c I. rewrite forallb_forall in H. apply H in I. unfold xml_char, enc1 in *.
  destruct (c <? 128) eqn:E1; [discriminate|]. destruct (c <? 2048) eqn:E2; [discriminate|]. destruct (c <? 65536) eqn:E3.
  - destruct ((55296 <=? c) && (c <=? 57343)) eqn:E4; [lia|discriminate].
  - destruct (c <? 1114112) eqn:E4; [discriminate|lia].
Qed.

Lemma unquote_form_byte b rest : b < 256 ->
  unquote_to_bytes (map (fun x => if x =? 43 then 32 else x) (form_byte b) ++ rest) = b :: unquote_to_bytes rest.
Proof.
  intros Hb. unfold form_byte. destruct (isalphac b || isdigitc b || memc b (u "*-._")) eqn:E.
  - assert (b <> 43 /\ b <> 37) as [A B].
    { split; intros ->; vm_compute in E; discriminate. }
    cbn [map app]. replace (b =? 43) with false by lia. cbn [unquote_to_bytes]. replace (b =? 37) with false by lia. reflexivity.
  - destruct (b =? 32) eqn:E32.
    + apply N.eqb_eq in E32. subst. reflexivity.
    + change hex with hexdigit. cbn [map app]. change (37 =? 43) with false.
      assert (hexdigit (b / 16) =? 43 = false) as -> by (unfold hexdigit; destruct (_ <? 10); lia).
      assert (hexdigit (b mod 16) =? 43 = false) as -> by (unfold hexdigit; destruct (_ <? 10); lia).
      cbv iota. cbn [unquote_to_bytes]. change (37 =? 37) with true. cbv iota. rewrite !hexdigit_val by lia. f_equal. lia.
Qed.
Lemma form_byte_chars b c : b < 256 -> In c (form_byte b) -> c < 128 /\ c <> 38 /\ c <> 61.
Proof.
  intros Hb H. unfold form_byte in H. destruct (isalphac b || isdigitc b || memc b (u "*-._")) eqn:E.
  - destruct H as [<-|[]]. split; [|split; intros ->; vm_compute in E; discriminate].
    apply orb_prop in E as [E|E]; [unfold isalphac, isdigitc in E; lia|]. change (u "*-._") with [42; 45; 46; 95] in E. unfold memc in E. cbn [existsb] in E. lia.
  - destruct (b =? 32); [destruct H as [<-|[]]; lia|]. change hex with hexdigit in H.
    assert (forall n, n < 16 -> 48 <= hexdigit n /\ hexdigit n < 128 /\ hexdigit n <> 61) as K by (intros n Hn; unfold hexdigit; destruct (n <? 10) eqn:En; lia).
    assert (b / 16 < 16) as B1 by lia. assert (b mod 16 < 16) as B2 by lia. apply K in B1. apply K in B2.
    destruct H as [<-|[<-|[<-|[]]]]; lia.
Qed.
Lemma form_encode_Some s q : form_encode s = Some q -> unquote_plus q = s /\ ~ In 38 q /\ ~ In 61 q.
Proof.
  unfold form_encode. destruct (encode s) as [bs|] eqn:E; [|discriminate]. intros H. injection H as <-. pose proof (encode_bytes _ _ E) as B.
  assert (forall c, In c (List.concat (map form_byte bs)) -> c < 128 /\ c <> 38 /\ c <> 61) as C.
  { intros c I. apply in_concat in I as (x & I1 & I2). apply in_map_iff in I1 as (b & <- & I1). rewrite Forall_forall in B. eapply form_byte_chars; eauto. }
  split; [|split; intros I; apply C in I; lia].
  unfold unquote_plus. rewrite unquote_ascii.
  2:{ apply forallb_forall. intros c I. unfold replace_char in I. apply in_map_iff in I as (x & <- & I). apply C in I. destruct (x =? 43); lia. }
  assert (unquote_to_bytes (replace_char 43 32 (List.concat (map form_byte bs))) = bs) as ->; [|apply decode_replace_encode; auto].
  clear E C. unfold replace_char. induction B as [|b bs Hb B IH]; [reflexivity|]. cbn [map List.concat]. rewrite map_app, unquote_form_byte by auto. f_equal. auto.
Qed.
Lemma form_body_parse l : forall b, form_body l = Some b -> parse_qsl true b = map (fun nv => (crlf (fst nv), crlf (snd nv))) l /\ (l <> [] -> b <> []).
Proof.
  induction l as [|[n v] l IH]; intros b H; cbn [form_body] in H.
  - injection H as <-. split; auto.
  - destruct (form_encode (crlf n)) as [qn|] eqn:En; [|discriminate]. destruct (form_encode (crlf v)) as [qv|] eqn:Ev; [|discriminate].
    destruct (form_body l) as [b'|] eqn:El; [|discriminate]. injection H as <-.
    apply form_encode_Some in En as (U1 & N1 & M1). apply form_encode_Some in Ev as (U2 & N2 & M2). destruct (IH b' eq_refl) as (P & Ne).
    split; [|intros _ X; destruct qn; discriminate].
    assert (parse_qsl true (qn ++ 61 :: qv) = [(crlf n, crlf v)]) as P1.
    { rewrite parse_qsl_flat. assert (splitc 38 (qn ++ 61 :: qv) = [qn ++ 61 :: qv]) as ->.
      { apply splitc_nin. intros I. apply in_app_or in I as [I|[I|I]]; auto. discriminate. }
      cbn [flat_map]. unfold parse_qsl1. assert (truthy (qn ++ 61 :: qv) = true) as -> by (destruct qn; auto).
      unfold UrlLib.partition. rewrite cut_app by auto. rewrite orb_true_r, U1, U2. reflexivity. }
    cbn [map fst snd]. destruct (truthy b') eqn:T.
    + replace (qn ++ 61 :: qv ++ 38 :: b') with ((qn ++ 61 :: qv) ++ 38 :: b') by (rewrite <- app_assoc; auto).
      rewrite parse_qsl_app, P1, P. reflexivity.
    + rewrite app_nil_r, P1. apply truthy_false in T. subst b'. destruct l; [reflexivity|]. exfalso. apply Ne; [discriminate|auto].
Qed.
Lemma form_body_total l : (forall n v, In (n, v) l -> (exists b, encode n = Ok b) /\ exists b, encode v = Ok b) -> exists b, form_body l = Some b.
Proof.
  induction l as [|[n v] l IH]; intros H; cbn [form_body]; [eauto|].
  destruct (H n v (or_introl eq_refl)) as ((bn & En) & bv & Ev).
  destruct (crlf_encode n bn En) as (x & Ex). destruct (crlf_encode v bv Ev) as (y & Ey). unfold form_encode. rewrite Ex, Ey.
  destruct IH as (b & ->). { intros n' v' I. apply H. right. auto. } eauto.
Qed.
