(** Forms as pages: what a user agent reads and sends. *)
From Coq Require Import Lia ZifyBool ZifyN ZifyNat.
From Verif Require Import Py PyFacts Utf8 Utf8Facts UrlLib UrlLibFacts Message MessageFacts MessageSpec MessageSimple Server Html HtmlSpec HtmlFacts Prop_Message.
Import Py.
Open Scope N_scope.
Local Arguments u : simpl never.

(** ** Which forms can be written *)
(** XML 1.0's Char; a name without a colon, its characters beyond ASCII not told apart. *)
Definition xml_text (t : text) : Prop :=
  forall c, In c t -> c = 9 \/ c = 10 \/ c = 13 \/ 32 <= c <= 55295 \/ 57344 <= c <= 65533 \/ 65536 <= c <= 1114111.
Lemma xml_text_readable t : xml_text t <-> readable t.
Proof.
  unfold xml_text, readable. rewrite forallb_forall. split; intros H c I; specialize (H c I); unfold xml_char in *; lia.
Qed.
Definition letter (c : N) : Prop := 65 <= c <= 90 \/ 97 <= c <= 122 \/ c = 95 \/ 128 <= c.
Definition letter_digit (c : N) : Prop := letter c \/ 48 <= c <= 57 \/ c = 45 \/ c = 46.
Lemma letter_start c : letter c <-> name_start c = true.
Proof. unfold letter, name_start, isalphac. lia. Qed.
Lemma letter_digit_char c : letter_digit c <-> name_char c = true.
Proof. unfold letter_digit, letter, name_char, name_start, isalphac, isdigitc. lia. Qed.
Definition attr_name (k : text) : Prop :=
  exists c r, k = c :: r /\ letter c /\ (forall x, In x r -> letter_digit x) /\ xml_text k.
Lemma xml_name_Ok k r : xml_name k = Ok r <-> r = k /\ attr_name k.
Proof.
  unfold xml_name, attr_name. destruct k as [|c k].
  - split; [discriminate|]. intros (_ & c & r' & X & _). discriminate.
  - split.
    + destruct (name_start c && forallb name_char k && forallb xml_char (c :: k)) eqn:E; [|discriminate]. intros H. injection H as <-.
      apply andb_prop in E as [E E3]. apply andb_prop in E as [E1 E2]. split; auto. exists c, k. split; auto. split; [apply letter_start; auto|].
      rewrite forallb_forall in E2. split; [intros x I; apply letter_digit_char; auto|apply xml_text_readable; exact E3].
    + intros (-> & c' & k' & E & E1 & E2 & E3). injection E as <- <-. apply xml_text_readable in E3. unfold readable in E3. apply letter_start in E1.
      assert (forallb name_char k = true) as E4 by (apply forallb_forall; intros x I; apply letter_digit_char; auto). rewrite E1, E4, E3. reflexivity.
Qed.
Lemma check_attrs_Ok d r : check_attrs d = Ok r <-> r = tt /\ forall k v, In (k, v) d -> attr_name k /\ xml_text v.
Proof.
  unfold check_attrs. induction d as [|[k v] d IH]; cbn [mapM bind].
  - destruct r. split; [split; [auto|intros k v []]|auto].
  - split.
    + intros H. binv H. binv E. binv E. injection E as <-. cbn [fst snd] in E0. binv E0. apply xml_name_Ok in E as [_ E2].
      apply xml_value_Ok in E0 as (_ & E0 & _). rewrite E1 in IH. cbn [bind] in IH. apply IH in H as [-> H]. split; auto.
      intros k' v' [X|I]; [injection X as <- <-; split; auto; apply xml_text_readable; auto|auto].
    + intros (-> & H). destruct (H k v (or_introl eq_refl)) as [H1 H2]. apply xml_text_readable in H2. cbn [fst snd].
      rewrite (proj2 (xml_name_Ok k k)) by auto. cbn [bind]. rewrite (proj2 (xml_value_Ok v v)) by auto using readable_encode. cbn [bind].
      destruct IH as [_ IH]. assert (bind (mapM (fun kv : text * text => _ <- xml_name (fst kv);; xml_value (snd kv)) d) (fun _ => Ok tt) = Ok tt) as X.
      { apply IH. split; auto. intros k' v' I. apply H. right. auto. }
      destruct (mapM _ d); [reflexivity|discriminate].
Qed.
Lemma mapM_check l r : mapM check_attrs l = Ok r -> forall d, In d l -> check_attrs d = Ok tt.
Proof.
  revert r. induction l as [|x l IH]; intros r H d I; [destruct I|]. cbn [mapM] in H. binv H. binv H. destruct I as [<-|I]; [destruct a; auto|eauto].
Qed.
Lemma mapM_check_total l : (forall d, In d l -> check_attrs d = Ok tt) -> exists r, mapM check_attrs l = Ok r.
Proof.
  induction l as [|x l IH]; intros H; [cbn; eauto|]. cbn [mapM]. rewrite (H x) by (left; auto). cbn [bind].
  destruct IH as (r & ->). { intros d I. apply H. right. auto. } cbn [bind]. eauto.
Qed.
Lemma attr_name_good k v : attr_name k -> xml_text v -> good_attr (k, v).
Proof.
  intros (c & r & -> & H1 & H2 & _) Hv. split; [exists c, r; split; auto; split; [apply letter_start; auto|apply forallb_forall; intros x I; apply letter_digit_char; auto]|apply xml_text_readable; auto].
Qed.

(** The form of a message, written out. *)
Definition markup (m : msg) (action : text) (attrs : dict text text) (submit_text : text) : res text := form_text (toFormMarkup m action attrs submit_text).
Definition message_page (m : msg) (action : text) (attrs : dict text text) : res text := form_page (toFormMarkup m action attrs (u "Continue")).

Definition reserved (k : text) : Prop := In k [u "action"; u "method"; u "accept-charset"; u "enctype"].
Lemma dget_In_iff (k v : text) (d : dict text text) : NoDup (map fst d) -> dget text_eqb k d = Some v <-> In (k, v) d.
Proof. intros N. split; [apply (dget_In text_eqb text_eqb_eq)|apply (In_dget text_eqb text_eqb_eq); exact N]. Qed.
Definition final_attrs (action : text) (attrs : dict text text) : dict text text :=
  dset text_eqb (u "enctype") (u "application/x-www-form-urlencoded")
    (dset text_eqb (u "accept-charset") (u "UTF-8") (dset text_eqb (u "method") (u "post") (dset text_eqb (u "action") action attrs))).
Lemma final_get action attrs k : dget text_eqb k (final_attrs action attrs) =
  if text_eqb k (u "enctype") then Some (u "application/x-www-form-urlencoded") else if text_eqb k (u "accept-charset") then Some (u "UTF-8")
  else if text_eqb k (u "method") then Some (u "post") else if text_eqb k (u "action") then Some action else dget text_eqb k attrs.
Proof. unfold final_attrs. rewrite !(dget_dset text_eqb text_eqb_eq). reflexivity. Qed.
Lemma final_nodup action attrs : NoDup (map fst attrs) -> NoDup (map fst (final_attrs action attrs)).
Proof. intros H. unfold final_attrs. repeat apply (NoDup_dset text_eqb text_eqb_eq). exact H. Qed.
Lemma final_In action attrs k v : NoDup (map fst attrs) -> In (k, v) (final_attrs action attrs) <-> dget text_eqb k (final_attrs action attrs) = Some v.
Proof. intros H. symmetry. apply dget_In_iff. apply (final_nodup action), H. Qed.

(** ** C147: exactly the messages whose names and values are XML text can be written *)
Theorem C147_writable :
  forall m action attrs submit_text, NoDup (map fst attrs) ->
    (exists t, markup m action attrs submit_text = Ok t) <->
    (xml_text action /\ xml_text submit_text /\
     (forall n v, In (n, v) (toPostArgs m) -> xml_text n /\ xml_text v) /\
     (forall k v, In (k, v) attrs -> ~ reserved k -> attr_name k /\ xml_text v)).
Proof.
  intros m action attrs st N. unfold markup, form_text, toFormMarkup. cbn [form_attrs form_inputs]. fold (final_attrs action attrs). split.
  - intros (t & H). binv H. binv H. clear H. apply check_attrs_Ok in E as [_ E]. pose proof (mapM_check _ _ E0) as I. clear E0.
    assert (forall k v, dget text_eqb k (final_attrs action attrs) = Some v -> attr_name k /\ xml_text v) as F by (intros k v H; apply E; apply final_In; auto).
    split. { apply (F (u "action") action). rewrite final_get. reflexivity. }
    split. { specialize (I [(u "type", u "submit"); (u "value", st)]). destruct (proj1 (check_attrs_Ok _ _) (I ltac:(apply in_or_app; right; left; auto))) as [_ K].
             apply (K (u "value")). right. left. auto. }
    split.
    + intros n v Hn. specialize (I [(u "type", u "hidden"); (u "name", n); (u "value", v)]).
      destruct (proj1 (check_attrs_Ok _ _) (I ltac:(apply in_or_app; left; apply in_map_iff; exists (n, v); auto))) as [_ K].
      split; [apply (K (u "name")); right; left; auto|apply (K (u "value")); right; right; left; auto].
    + intros k v Hk Nr. apply F. rewrite final_get.
      assert (forall r, reserved r -> text_eqb k r = false) as X by (intros r Hr; apply text_eqb_neq; intros ->; auto).
      rewrite !X by (cbv [reserved In]; tauto). apply dget_In_iff; auto.
  - intros (H1 & H2 & H3 & H4).
    assert (forall s : string, forallb xml_char (u s) = true -> xml_text (u s)) as Lx by (intros s Hs; apply xml_text_readable; exact Hs).
    assert (forall k, In k [u "action"; u "method"; u "accept-charset"; u "enctype"; u "type"; u "name"; u "value"] -> attr_name k) as Ln.
    { intros k Hk. apply (xml_name_Ok k k). cbn [In] in Hk. repeat (destruct Hk as [<-|Hk]; [reflexivity|]). destruct Hk. }
    assert (check_attrs (final_attrs action attrs) = Ok tt) as ->.
    { apply check_attrs_Ok. split; auto. intros k v I. apply final_In in I; auto. rewrite final_get in I.
      destruct (text_eqb k (u "enctype")) eqn:E1. { apply text_eqb_eq in E1. subst k. injection I as <-. split; [apply Ln; cbn; tauto|apply Lx; reflexivity]. }
      destruct (text_eqb k (u "accept-charset")) eqn:E2. { apply text_eqb_eq in E2. subst k. injection I as <-. split; [apply Ln; cbn; tauto|apply Lx; reflexivity]. }
      destruct (text_eqb k (u "method")) eqn:E3. { apply text_eqb_eq in E3. subst k. injection I as <-. split; [apply Ln; cbn; tauto|apply Lx; reflexivity]. }
      destruct (text_eqb k (u "action")) eqn:E4. { apply text_eqb_eq in E4. subst k. injection I as <-. split; [apply Ln; cbn; tauto|auto]. }
      apply H4; [apply dget_In_iff; auto|]. unfold reserved. cbn [In].
      apply text_eqb_neq in E1, E2, E3, E4. intuition congruence. }
    cbn [bind]. destruct (mapM_check_total (map (fun nv => [(u "type", u "hidden"); (u "name", fst nv); (u "value", snd nv)]) (toPostArgs m) ++ [[(u "type", u "submit"); (u "value", st)]])) as (r & ->).
    { intros d I. apply check_attrs_Ok. split; auto. intros k v Hk. apply in_app_or in I as [I|[<-|[]]].
      - apply in_map_iff in I as ([n v'] & <- & I). apply H3 in I as [I1 I2]. cbn [fst snd In] in Hk.
        destruct Hk as [Hk|[Hk|[Hk|[]]]]; injection Hk as <- <-; (split; [apply Ln; cbn; tauto|auto]).
      - cbn [In] in Hk. destruct Hk as [Hk|[Hk|[]]]; injection Hk as <- <-; (split; [apply Ln; cbn; tauto|auto]). }
    cbn [bind]. eauto.
Qed.
Print Assumptions C147_writable.
(** ** C148: what is read in the markup *)
Lemma markup_writable m action attrs st t : NoDup (map fst attrs) -> markup m action attrs st = Ok t ->
  writable (toFormMarkup m action attrs st) /\ t = form_out (toFormMarkup m action attrs st).
Proof.
  intros N H. unfold markup, form_text in H. binv H. binv H. injection H as <-. split; [|reflexivity].
  apply check_attrs_Ok in E as [_ E]. pose proof (mapM_check _ _ E0) as I. split; [|split].
  - intros X. assert (dget text_eqb (u "action") (form_attrs (toFormMarkup m action attrs st)) = None) as Y by (rewrite X; reflexivity).
    unfold toFormMarkup in Y. cbn [form_attrs] in Y. fold (final_attrs action attrs) in Y. rewrite final_get in Y. discriminate.
  - apply Forall_forall. intros [k v] K. apply E in K as [K1 K2]. apply attr_name_good; auto.
  - apply Forall_forall. intros i K. split.
    + intros ->. cbn [toFormMarkup form_inputs] in K. apply in_app_or in K as [K|[K|[]]]; [|discriminate]. apply in_map_iff in K as (x & K & _). discriminate.
    + apply I in K. apply check_attrs_Ok in K as [_ K]. apply Forall_forall. intros [k v] J. apply K in J as [J1 J2]. apply attr_name_good; auto.
Qed.
Lemma read_hidden n v : read_attrs [(u "type", u "hidden"); (u "name", n); (u "value", v)] [] = [(u "type", u "hidden"); (u "name", n); (u "value", v)].
Proof. reflexivity. Qed.
Lemma read_submit v : read_attrs [(u "type", u "submit"); (u "value", v)] [] = [(u "type", u "submit"); (u "value", v)].
Proof. reflexivity. Qed.
(** Attribute names in lower case, as in HTML. *)
Definition lower_names (attrs : dict text text) : Prop := forall k v, In (k, v) attrs -> lower k = k.
Lemma final_lower action attrs : lower_names attrs -> NoDup (map fst attrs) -> read_attrs (final_attrs action attrs) [] = final_attrs action attrs.
Proof.
  intros L N. rewrite read_attrs_same; [reflexivity| |apply final_nodup; auto].
  apply Forall_forall. intros [k v] I. cbn [fst]. apply final_In in I; auto. rewrite final_get in I.
  destruct (text_eqb k (u "enctype")) eqn:E1; [apply text_eqb_eq in E1; subst; reflexivity|].
  destruct (text_eqb k (u "accept-charset")) eqn:E2; [apply text_eqb_eq in E2; subst; reflexivity|].
  destruct (text_eqb k (u "method")) eqn:E3; [apply text_eqb_eq in E3; subst; reflexivity|].
  destruct (text_eqb k (u "action")) eqn:E4; [apply text_eqb_eq in E4; subst; reflexivity|].
  apply dget_In_iff in I; auto. eauto.
Qed.
Theorem C148_read :
  forall m action attrs submit_text t, NoDup (map fst attrs) -> lower_names attrs -> markup m action attrs submit_text = Ok t ->
    exists fattrs,
      tokens t = Some (TStart (u "form") fattrs ::
        map (fun nv => TStart (u "input") [(u "type", u "hidden"); (u "name", fst nv); (u "value", snd nv)]) (toPostArgs m) ++
        [TStart (u "input") [(u "type", u "submit"); (u "value", submit_text)]; TEnd (u "form")]) /\
      attr_of (u "action") fattrs = Some action /\ attr_of (u "method") fattrs = Some (u "post") /\
      attr_of (u "accept-charset") fattrs = Some (u "UTF-8") /\
      attr_of (u "enctype") fattrs = Some (u "application/x-www-form-urlencoded") /\
      (forall k, ~ reserved k -> attr_of k fattrs = dget text_eqb k attrs).
Proof.
  intros m action attrs st t N L H. destruct (markup_writable _ _ _ _ _ N H) as [W ->]. exists (final_attrs action attrs).
  split.
  - rewrite tokens_form by auto. unfold form_tokens, toFormMarkup. cbn [form_attrs form_inputs]. fold (final_attrs action attrs). rewrite final_lower by auto.
    do 2 f_equal. unfold input_tokens. rewrite fold_right_app. cbn [fold_right]. rewrite read_submit.
    induction (toPostArgs m) as [|[n v] l IH]; [reflexivity|]. cbn [map fold_right app fst snd]. rewrite read_hidden. f_equal. exact IH.
  - unfold attr_of. rewrite !final_get. split; [reflexivity|]. split; [reflexivity|]. split; [reflexivity|]. split; [reflexivity|].
    intros k Nr. rewrite final_get. assert (forall r, reserved r -> text_eqb k r = false) as X by (intros r Hr; apply text_eqb_neq; intros ->; auto).
    rewrite !X by (cbv [reserved In]; tauto). reflexivity.
Qed.
Print Assumptions C148_read.

(** ** C149: what arrives when the page is submitted *)
(** An argument as a user agent sends it. *)
Definition sent (nv : text * text) : list (text * text) :=
  match fst nv with
  | [] => []
  | _ => if text_eqb (lower (fst nv)) (u "_charset_") then [(fst nv, u "UTF-8")] else [(crlf (fst nv), crlf (snd nv))]
  end.
Definition entry_of (nv : text * text) : list (text * text) :=
  match fst nv with [] => [] | _ => if text_eqb (lower (fst nv)) (u "_charset_") then [(fst nv, u "UTF-8")] else [nv] end.
Lemma entries_args l st : entries (map (fun i => (u "input", read_attrs i [])) (map (fun nv => [(u "type", u "hidden"); (u "name", fst nv); (u "value", snd nv)]) l ++ [[(u "type", u "submit"); (u "value", st)]])) =
  Some (flat_map entry_of l).
Proof.
  induction l as [|[n v] l IH]; [reflexivity|]. cbn [map app fst snd]. rewrite read_hidden. cbn [entries flat_map fst].
  match goal with |- context[entry ?x] => change (entry x) with (Some (if negb (truthy n) then [] else if text_eqb (lower n) (u "_charset_") then [(n, u "UTF-8")] else [(n, v)])) end.
  rewrite IH. destruct n; reflexivity.
Qed.
Lemma charset_crlf n : lower n = u "_charset_" -> crlf n = n.
Proof.
  intros H. apply crlf_plain; intros I; (apply (in_map lowerc) in I; change (map lowerc n) with (lower n) in I; rewrite H in I;
    revert I; apply memc_false; reflexivity).
Qed.
Theorem C149_posted :
  forall m action attrs page, NoDup (map fst attrs) -> lower_names attrs -> message_page m action attrs = Ok page ->
    exists body, submission page = Some (action, body) /\ parse_qsl true body = flat_map sent (toPostArgs m).
Proof.
  intros m action attrs page N L H. unfold message_page, form_page in H. binv H. injection H as <-.
  change (markup m action attrs (u "Continue") = Ok a) in E. pose proof E as E0.
  apply markup_writable in E as [W ->]; auto.
  assert (forall n v, In (n, v) (toPostArgs m) -> xml_text n /\ xml_text v) as X.
  { destruct (proj1 (C147_writable m action attrs (u "Continue") N) (ex_intro _ _ E0)) as (_ & _ & X & _). exact X. }
  unfold submission. rewrite tokens_page; [|auto|repeat split; apply memc_false; reflexivity].
  match goal with |- context[first_form (?a ++ form_tokens ?f ?r)] => change (first_form (a ++ form_tokens f r)) with (first_form (form_tokens f r)) end.
  rewrite first_form_tokens. unfold toFormMarkup. cbn [form_attrs form_inputs]. fold (final_attrs action attrs). rewrite final_lower by auto.
  unfold attr_of. rewrite !final_get. rewrite entries_args.
  change (text_eqb (lower (or_empty _)) (u "post") && _ && _) with true. cbv iota.
  set (es := flat_map entry_of (toPostArgs m)).
  destruct (form_body_total es) as (body & Eb).
  { intros n v I. unfold es in I. apply in_flat_map in I as ([n' v'] & I1 & I2). apply X in I1 as [X1 X2]. apply xml_text_readable in X1, X2. unfold entry_of in I2. cbn [fst] in I2.
    destruct n' as [|c n']; [destruct I2|]. destruct (text_eqb _ _).
    - destruct I2 as [I2|[]]. injection I2 as <- <-. split; [apply readable_encode; auto|]. eexists. reflexivity.
    - destruct I2 as [I2|[]]. injection I2 as <- <-. split; apply readable_encode; auto. }
  rewrite Eb. exists body. split; [reflexivity|]. apply form_body_parse in Eb as [-> _]. unfold es. clear.
  induction (toPostArgs m) as [|[n v] l IH]; [reflexivity|]. cbn [flat_map fst]. rewrite map_app, IH. f_equal. unfold sent, entry_of. cbn [fst snd].
  destruct n as [|c n]; [reflexivity|]. destruct (text_eqb (lower (c :: n)) (u "_charset_")) eqn:Ec; [|reflexivity].
  apply text_eqb_eq in Ec. cbn [map fst snd]. rewrite charset_crlf by auto. reflexivity.
Qed.
Print Assumptions C149_posted.
(** Without line ends every argument arrives as it is. *)
Definition one_line (t : text) : Prop := ~ In 10 t /\ ~ In 13 t.
Theorem C149_exact :
  forall m action attrs page, NoDup (map fst attrs) -> lower_names attrs -> message_page m action attrs = Ok page ->
    (forall n v, In (n, v) (toPostArgs m) -> n <> [] /\ lower n <> u "_charset_" /\ one_line n /\ one_line v) ->
    exists body, submission page = Some (action, body) /\ parse_qsl true body = toPostArgs m.
Proof.
  intros m action attrs page N L H X. destruct (C149_posted m action attrs page N L H) as (body & S & P). exists body. split; auto. rewrite P. clear -X.
  induction (toPostArgs m) as [|[n v] l IH]; [reflexivity|]. cbn [flat_map]. rewrite IH by (intros; apply X; right; auto).
  destruct (X n v (or_introl eq_refl)) as (A & B & [C1 C2] & D1 & D2). unfold sent. cbn [fst snd]. destruct n as [|c n]; [contradiction|].
  apply text_eqb_neq in B. rewrite B. rewrite !crlf_plain by auto. reflexivity.
Qed.
Print Assumptions C149_exact.

(** The receiver's end: read as a message, the body says what the sender's message says. *)
Theorem C149_message :
  forall reg m action attrs page, built reg m -> good_registry reg -> wire_safe reg m ->
    NoDup (map fst attrs) -> lower_names attrs -> message_page m action attrs = Ok page ->
    (forall n v, In (n, v) (toPostArgs m) -> n <> [] /\ lower n <> u "_charset_" /\ one_line n /\ one_line v) ->
    exists body m', submission page = Some (action, body) /\ fromPostArgs reg (parse_qsl true body) = Ok m' /\
      getOpenIDNamespace m' = getOpenIDNamespace m /\ forall n k, getArg m' n k = getArg m n k.
Proof.
  intros reg m action attrs page B G S N L H X. destruct (C149_exact m action attrs page N L H X) as (body & S1 & P).
  destruct (C15_wire_round_trip reg m B G S) as (m' & F & V & _ & _ & A & _). exists body, m'. rewrite P. auto.
Qed.
Print Assumptions C149_message.

(** ** C150: when the page submits itself *)
Lemma page_read m action attrs page : NoDup (map fst attrs) -> message_page m action attrs = Ok page ->
  exists l a, tokens page = Some l /\
    first_form l = Some (a, map (fun nv => (u "input", [(u "type", u "hidden"); (u "name", fst nv); (u "value", snd nv)])) (toPostArgs m) ++
                            [(u "input", [(u "type", u "submit"); (u "value", u "Continue")])]) /\
    a = read_attrs (final_attrs action attrs) [] /\
    In (TStart (u "body") [(u "onload", u "document.forms[0].submit();")]) l.
Proof.
  intros N H. unfold message_page, form_page in H. binv H. injection H as <-.
  apply markup_writable in E as [W ->]; auto.
  rewrite tokens_page; [|auto|repeat split; apply memc_false; reflexivity].
  eexists _, _. split; [reflexivity|]. split; [|split; [reflexivity|do 5 right; left; reflexivity]].
  match goal with |- context[first_form (?a ++ form_tokens ?f ?r)] => change (first_form (a ++ form_tokens f r)) with (first_form (form_tokens f r)) end.
  rewrite first_form_tokens. unfold toFormMarkup. cbn [form_attrs form_inputs]. fold (final_attrs action attrs). f_equal. f_equal.
  rewrite map_app. cbn [map]. rewrite read_submit. f_equal. rewrite map_map. apply map_ext. intros [n v]. cbn [fst snd]. rewrite read_hidden. reflexivity.
Qed.
Theorem C150_submits_itself :
  forall m action attrs page, NoDup (map fst attrs) -> message_page m action attrs = Ok page ->
    submits_itself page <-> ~ In (u "submit") (map fst (toPostArgs m)).
Proof.
  intros m action attrs page N H. destruct (page_read m action attrs page N H) as (l & a & T & F & _ & B). split.
  - intros (l' & a' & cs & T' & F' & _ & C) I. rewrite T in T'. injection T' as <-. rewrite F in F'. injection F' as <- <-.
    apply in_map_iff in I as ([n v] & E & I). cbn [fst] in E. subst n.
    destruct (C (u "input", [(u "type", u "hidden"); (u "name", u "submit"); (u "value", v)])) as [C1 _]; [|apply C1; reflexivity].
    apply in_or_app. left. apply in_map_iff. exists (u "submit", v). auto.
  - intros I. exists l, a. eexists. split; [exact T|]. split; [exact F|]. split; [exact B|]. intros c Ic. apply in_app_or in Ic as [Ic|[<-|[]]].
    + apply in_map_iff in Ic as ([n v] & <- & Ic). cbn [fst snd]. split.
      * intros X. change (attr_of (u "name") _) with (Some n) in X. injection X as ->. apply I. apply (in_map fst) in Ic. exact Ic.
      * intros X. change (attr_of (u "id") _) with (@None text) in X. discriminate.
    + split; discriminate.
Qed.
Print Assumptions C150_submits_itself.
(** Names of wire arguments: of OpenID, or a bare argument's. *)
Lemma wire_names m n : In n (map fst (toPostArgs m)) -> startswith n (u "openid.") = true \/ exists v, In ((Bare, n), v) (margs m).
Proof.
  unfold toPostArgs. set (d0 := fold_left (fun (d : dict text text) (e : text * alias) => if isImplicit (mns m) (fst e) then d else dset text_eqb (ns_field (snd e)) (fst e) d) (n2a (mns m)) []).
  assert (forall x, In x (dkeys d0) -> startswith x (u "openid.") = true) as H0.
  { unfold d0. assert (forall l (d : dict text text), (forall x, In x (dkeys d) -> startswith x (u "openid.") = true) ->
      forall x, In x (dkeys (fold_left (fun (d : dict text text) (e : text * alias) => if isImplicit (mns m) (fst e) then d else dset text_eqb (ns_field (snd e)) (fst e) d) l d)) ->
      startswith x (u "openid.") = true) as G.
    { induction l as [|e l IH]; intros d Hd x; cbn [fold_left]; [apply Hd|]. apply IH. destruct (isImplicit (mns m) (fst e)); [exact Hd|].
      intros y Hy. apply (In_dkeys_dset text_eqb text_eqb_eq) in Hy as [->|Hy]; [|auto]. destruct (snd e); reflexivity. }
    apply G. intros x []. }
  assert (forall l (d : dict text text),
    (forall x, In x (dkeys d) -> startswith x (u "openid.") = true \/ exists v, In ((Bare, x), v) (margs m)) ->
    (forall e, In e l -> In e (margs m)) ->
    forall x, In x (dkeys (fold_left (fun (d : dict text text) (e : (ns * text) * text) => match getKey m (nsarg_of (fst (fst e))) (snd (fst e)) with Ok (Some k) => dset text_eqb k (snd e) d | _ => d end) l d)) ->
    startswith x (u "openid.") = true \/ exists v, In ((Bare, x), v) (margs m)) as G.
  { induction l as [|[[ns k] v] l IH]; intros d Hd Hl x; cbn [fold_left fst snd]; [apply Hd|]. apply IH; [|intros e He; apply Hl; right; exact He].
    intros y Hy. destruct (getKey m (nsarg_of ns) k) as [[z|]|] eqn:E; [|auto|auto].
    apply (In_dkeys_dset text_eqb text_eqb_eq) in Hy as [->|Hy]; [|auto]. unfold getKey in E. destruct ns as [|t].
    - cbn [nsarg_of fixNS bind] in E. injection E as <-. right. exists v. apply Hl. left. reflexivity.
    - left. binv E. destruct a as [|t']; [|].
      + cbn [nsarg_of fixNS bind] in E0. destruct (negb (memc 58 t) && text_eqb t (u "sreg")); discriminate.
      + destruct (getAlias (mns m) t') as [[|al]|]; [injection E as <-; reflexivity|injection E as <-; reflexivity|discriminate]. }
  intros I. apply (G (margs m) d0); auto.
Qed.
(** Unless the application adds an argument 'submit' of its own, the page goes off by itself. *)
Theorem C150_no_argument_submit :
  forall m action attrs page, NoDup (map fst attrs) -> message_page m action attrs = Ok page ->
    getArg m BARE_NS (u "submit") = Ok None -> submits_itself page.
Proof.
  intros m action attrs page N H G. apply (C150_submits_itself m action attrs page N H). intros I.
  apply wire_names in I as [I|(v & I)]; [discriminate|].
  unfold getArg in G. cbn [fixNS bind] in G. injection G as G. apply (dget_None akey_eqb akey_eqb_eq) in G. apply G. apply (in_map fst) in I. exact I.
Qed.
Print Assumptions C150_no_argument_submit.

(** ** Examples *)
Definition made (r : res msg) : msg := match r with Ok m => m | Raise _ => empty_msg end.
Definition written (r : res text) : text := match r with Ok t => t | Raise _ => [] end.
Definition body_of (o : option (text * text)) : text := match o with Some (_, b) => b | None => [] end.
Definition quoting : msg := made (setArg msg1 OPENID_NS (u "error") (u "a""b&<c>'" ++ [233; 128512])).
Definition there : text := u "http://rp.example/?a=1&b=""2""".
Example C147_example :
  markup quoting there [(u "id", u "f")] (u "Go") = Ok (
    u "<form id=""f"" action=""http://rp.example/?a=1&amp;b=&quot;2&quot;"" method=""post"" accept-charset=""UTF-8"" enctype=""application/x-www-form-urlencoded"">" ++
    u "<input type=""hidden"" name=""openid.ns.ext0"" value=""http://x/""/><input type=""hidden"" name=""openid.sreg.nickname"" value=""bob""/>" ++
    u "<input type=""hidden"" name=""openid.mode"" value=""id_res""/><input type=""hidden"" name=""openid.ext0.k.l"" value=""" ++ [8364] ++ u """/>" ++
    u "<input type=""hidden"" name=""openid.error"" value=""a&quot;b&amp;&lt;c&gt;'" ++ [233; 128512] ++ u """/><input type=""submit"" value=""Go""/></form>") /\
  markup quoting there [(u "on load", u "f")] (u "Go") = Raise ValueError /\
  markup quoting (u "http://rp.example/" ++ [1]) [] (u "Go") = Raise ValueError.
Proof. split; [|split]; vm_compute; reflexivity. Qed.
Example C148_example :
  match tokens (written (markup quoting there [(u "id", u "f")] (u "Go"))) with
  | Some (TStart n a :: l) =>
      n = u "form" /\ attr_of (u "action") a = Some there /\ attr_of (u "id") a = Some (u "f") /\ List.length l = 7%nat /\
      nth 4 l (TEnd []) = TStart (u "input") [(u "type", u "hidden"); (u "name", u "openid.error"); (u "value", u "a""b&<c>'" ++ [233; 128512])]
  | _ => False
  end.
Proof. vm_compute. repeat split. Qed.
Definition quoting_page : text := written (message_page quoting there []).
Example C149_example :
  message_page quoting there [] = Ok quoting_page /\
  submission quoting_page = Some (there, body_of (submission quoting_page)) /\
  parse_qsl true (body_of (submission quoting_page)) = toPostArgs quoting /\
  endswith (body_of (submission quoting_page)) (u "&openid.error=a%22b%26%3Cc%3E%27%C3%A9%F0%9F%98%80") = true.
Proof. split; [|split; [|split]]; vm_compute; reflexivity. Qed.
Example C150_example : message_page quoting there [] = Ok quoting_page /\ submits_itself quoting_page.
Proof.
  assert (message_page quoting there [] = Ok quoting_page) as H by (vm_compute; reflexivity). split; [exact H|].
  apply (C150_no_argument_submit quoting there []); [constructor|exact H|vm_compute; reflexivity].
Qed.

(** ** C151: a page that does not submit itself: a bare argument 'submit' takes the place of
    the form's method, and the script hides the button. *)
Definition with_submit : msg :=
  made (m <- newMessage (Some OPENID2_NS) None ;; m <- setArg m OPENID_NS (u "mode") (u "checkid_setup") ;; setArg m BARE_NS (u "submit") (u "1")).
Theorem C151_page_submits_itself_refuted :
  exists m page, message_page m there [] = Ok page /\ getArg m OPENID_NS (u "mode") = Ok (Some (u "checkid_setup")) /\ ~ submits_itself page.
Proof.
  exists with_submit, (written (message_page with_submit there [])).
  assert (message_page with_submit there [] = Ok (written (message_page with_submit there []))) as H by (vm_compute; reflexivity).
  split; [exact H|]. split; [vm_compute; reflexivity|]. intros S.
  apply (C150_submits_itself with_submit there [] _ (NoDup_nil _) H) in S. apply S.
  assert (mem_text (u "submit") (map fst (toPostArgs with_submit)) = true) as M by (vm_compute; reflexivity). apply mem_text_In. exact M.
Qed.
Print Assumptions C151_page_submits_itself_refuted.

(** ** C152: a line end in a value arrives as two characters. *)
Definition two_lines : msg := made (m <- newMessage (Some OPENID2_NS) None ;; setArg m OPENID_NS (u "error") (97 :: 10 :: u "b")).
Theorem C152_values_unchanged_refuted :
  exists m page body, message_page m there [] = Ok page /\ submission page = Some (there, body) /\
    dget text_eqb (u "openid.error") (toPostArgs m) = Some (97 :: 10 :: u "b") /\
    dget text_eqb (u "openid.error") (parse_qsl true body) = Some (97 :: 13 :: 10 :: u "b").
Proof.
  exists two_lines, (written (message_page two_lines there [])), (body_of (submission (written (message_page two_lines there [])))).
  split; [|split; [|split]]; vm_compute; reflexivity.
Qed.
Print Assumptions C152_values_unchanged_refuted.

(** ** C153: the documented override of 'accept-charset' and 'enctype' never happens. *)
Theorem C153_defaults_overridden_refuted :
  exists attrs, dget text_eqb (u "accept-charset") attrs = Some (u "ISO-8859-1") /\ dget text_eqb (u "enctype") attrs = Some (u "multipart/form-data") /\
    forall m action submit_text t, markup m action attrs submit_text = Ok t ->
      exists a l, tokens t = Some (TStart (u "form") a :: l) /\
        attr_of (u "accept-charset") a = Some (u "UTF-8") /\ attr_of (u "enctype") a = Some (u "application/x-www-form-urlencoded").
Proof.
  set (attrs := [(u "accept-charset", u "ISO-8859-1"); (u "enctype", u "multipart/form-data")]). exists attrs.
  split; [reflexivity|]. split; [reflexivity|]. intros m action st t H.
  destruct (C148_read m action attrs st t) as (a & T & _ & _ & A & B & _); [| |exact H|].
  - repeat constructor; cbn [map fst In]; intuition discriminate.
  - intros k v [I|[I|[]]]; injection I as <- <-; reflexivity.
  - exists a. eexists. split; [exact T|]. auto.
Qed.
Print Assumptions C153_defaults_overridden_refuted.
Example C153_example : exists t, markup quoting there [(u "accept-charset", u "ISO-8859-1"); (u "enctype", u "multipart/form-data")] (u "Go") = Ok t.
Proof. exists (written (markup quoting there [(u "accept-charset", u "ISO-8859-1"); (u "enctype", u "multipart/form-data")] (u "Go"))). vm_compute. reflexivity. Qed.

(** ** C154: an 'ACTION' among form_tag_attrs is not replaced, and it wins. *)
Theorem C154_action_replaced_refuted :
  exists attrs page body, NoDup (map (fun kv : text * text => lower (fst kv)) attrs) /\ message_page quoting there attrs = Ok page /\
    submission page = Some (u "http://else.example/", body).
Proof.
  set (attrs := [(u "ACTION", u "http://else.example/")]).
  exists attrs, (written (message_page quoting there attrs)), (body_of (submission (written (message_page quoting there attrs)))).
  split; [repeat constructor; intros []|]. split; vm_compute; reflexivity.
Qed.
Print Assumptions C154_action_replaced_refuted.
