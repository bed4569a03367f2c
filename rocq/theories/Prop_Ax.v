(** Attribute exchange: which messages parse and to what, round trips, delivery in messages,
    and responses that stay within the request. *)
From Coq Require Import Lia ZifyBool ZifyN ZifyNat.
From Verif Require Import Py PyFacts UrlLib TrustRoot Message MessageSpec MessageFacts MessageRound Prop_Message Consumer ExtFacts Ax AxFacts.
From Verif Require Prop_Sreg.
Open Scope N_scope.

Local Arguments u : simpl never.

(** ** Parsing fetch requests *)
(** Specification: the type an alias stands for, and the count asked for. *)
Definition typed (args : dict text text) (a t : text) : Prop := dget text_eqb (u "type." ++ a) args = Some t.
Inductive count_of : option text -> count -> Prop :=
| co_absent : count_of None (Num 1)
| co_empty : count_of (Some []) (Num 1)
| co_unlimited : count_of (Some (u "unlimited")) Unlimited
| co_number s z : int_of_text s = Ok z -> (0 < z)%Z -> count_of (Some s) (Num z).
(** Aliases may not be protocol fields and may not contain '.' or ','. *)
Definition alias_ok (a : text) : Prop := ~ In a OPENID_PROTOCOL_FIELDS /\ ~ In 46 a /\ ~ In 44 a.
(** The alias is in the comma separated list under this key. *)
Definition listed (args : dict text text) (key a : text) : Prop :=
  exists s, dget text_eqb key args = Some s /\ s <> [] /\ In a (splitc 44 s).
Record fetch_ok (args : dict text text) : Prop := {
  fo_mode : dget text_eqb (u "mode") args = Some (u "fetch_request");
  fo_alias : forall a t, typed args a t -> alias_ok a;
  fo_uri : forall a b t, typed args a t -> typed args b t -> a = b;
  fo_count : forall a t, typed args a t -> exists c, count_of (dget text_eqb (u "count." ++ a) args) c;
  fo_listed : forall a, listed args (u "required") a \/ listed args (u "if_available") a -> exists t, typed args a t;
  fo_all : forall a t, typed args a t -> listed args (u "required") a \/ listed args (u "if_available") a
}.
(** An attribute of the request. *)
Definition asked (args : dict text text) (t : text) (x : attr) : Prop :=
  exists a c b, typed args a t /\ count_of (dget text_eqb (u "count." ++ a) args) c /\ x = mkAttr t c b (Some a) /\
                (b = true <-> listed args (u "required") a).

Lemma count_of_spec o c : read_count o = Ok c <-> count_of o c.
Proof.
  split.
  - unfold read_count. destruct o as [[|x s]|]; [intros H; injection H as <-; constructor| |intros H; injection H as <-; constructor].
    destruct (int_of_text (x :: s)) as [z|e] eqn:I; cbn [bind].
    + destruct (z <=? 0)%Z eqn:Z0.
      * cbn [isValueError]. destruct (text_eqb (x :: s) (u "unlimited")) eqn:E; [|discriminate]. intros H. injection H as <-. apply text_eqb_eq in E. rewrite E. constructor.
      * intros H. injection H as <-. constructor; auto. lia.
    + destruct (isValueError e); [|discriminate]. destruct (text_eqb (x :: s) (u "unlimited")) eqn:E; [|discriminate]. intros H. injection H as <-.
      apply text_eqb_eq in E. rewrite E. constructor.
  - intros H. destruct H as [| | |s z H1 H2]; auto. unfold read_count. destruct s as [|x s]; [discriminate H1|]. rewrite H1. cbn [bind].
    assert ((z <=? 0)%Z = false) as -> by lia. reflexivity.
Qed.
Lemma legal_ok a : legal a <-> alias_ok a.
Proof. unfold legal, alias_ok. cbn [bad_alias]. rewrite orb_false_iff, mem_text_false, memc_false. tauto. Qed.
Lemma typed_In args a t : NoDup (dkeys args) -> typed args a t <-> In (a, t) (types_of args).
Proof.
  intros N. rewrite In_types_of. unfold typed. split; [apply (dget_In text_eqb text_eqb_eq)|apply (In_dget text_eqb text_eqb_eq); exact N].
Qed.
Lemma NoDup_snd {X Y} (l : list (X * Y)) : NoDup (map snd l) <-> NoDup l /\ forall a b t, In (a, t) l -> In (b, t) l -> a = b.
Proof.
  induction l as [|[a t] l IH]; cbn [map snd]; [split; [intros _; split; [constructor|intros ? ? ? []]|constructor]|]. split.
  - intros N. inversion N as [|? ? N1 N2]; subst. apply IH in N2 as [N2 N3]. split.
    + constructor; auto. intros K. apply N1. apply (in_map snd) in K. exact K.
    + intros b c s [E|I] [F|J].
      * congruence.
      * injection E as <- <-. exfalso. apply N1. apply (in_map snd) in J. exact J.
      * injection F as <- <-. exfalso. apply N1. apply (in_map snd) in I. exact I.
      * eauto.
  - intros [N K]. inversion N as [|? ? N1 N2]; subst. constructor.
    + intros I. apply in_map_iff in I as ([b s] & E & I). cbn [snd] in E. subst s. apply N1. rewrite (K a b t); [exact I|left; auto|right; auto].
    + apply IH. split; auto. intros b c s I J. apply (K b c s); right; auto.
Qed.
Lemma NoDup_of_fst {X Y} (l : list (X * Y)) : NoDup (map fst l) -> NoDup l.
Proof. apply NoDup_map_inv. Qed.

(** The form used below: as C55_fetch_parse, with the order of the attributes. *)
Lemma fetch_parse_lemma args : NoDup (dkeys args) ->
  (fetch_ok args /\ exists r, fetch_request_parse args = Ok r /\ fr_update r = dget text_eqb (u "update_url") args /\
      dkeys (fr_attrs r) = map snd (types_of args) /\ NoDup (dkeys (fr_attrs r)) /\
      forall t x, dget text_eqb t (fr_attrs r) = Some x <-> asked args t x) \/
  (~ fetch_ok args /\ exists e, fetch_request_parse args = Raise e /\ In e fetch_errors).
Proof.
  intros N. pose proof (NoDup_types_of args N) as Nt. unfold fetch_request_parse, checkMode.
  destruct (dget text_eqb (u "mode") args) as [md|] eqn:M.
  2:{ right. split; [intros K; apply fo_mode in K; congruence|]. exists NotAXMessage. split; [reflexivity|cbn; auto 8]. }
  destruct (text_eqb md (u "fetch_request")) eqn:Em.
  2:{ right. split; [intros K; apply fo_mode in K; apply text_eqb_neq in Em; congruence|]. destruct (truthy md); eexists; (split; [reflexivity|cbn; auto 8]). }
  apply text_eqb_eq in Em. subst md. cbn [bind].
  change (empty_nsmap, mkFetchReq [] None) with (ns_of (map q_pair []), mkFetchReq (map plain []) None).
  destruct (fetch_loop args args []) as [(Q & Q1 & Q2 & Q3 & Q4)|(e & E1 & E2 & E3)]; [exact Nt|intros q []|constructor| |].
  2:{ cbv zeta in E1. right. rewrite E1. cbn [bind]. split; [|exists e; auto]. intros K. apply E3. split.
      - intros a t I. apply (typed_In args a t N) in I. split; [apply legal_ok; apply (fo_alias _ K a t I)|].
        destruct (fo_count _ K a t I) as (c & C). exists c. apply count_of_spec. exact C.
      - cbn [map app]. apply NoDup_snd. split; [apply NoDup_of_fst; exact Nt|]. intros a b t I J. apply (fo_uri _ K a b t); apply typed_In; auto. }
  cbv zeta in Q4. rewrite Q4. clear Q4. cbn [bind app]. rewrite Q1. cbn [app] in Q3.
  assert (forall q, In q Q -> typed args (q_alias q) (q_uri q)) as Tq.
  { intros q I. apply typed_In; auto. rewrite <- Q1. apply (in_map q_pair) in I. exact I. }
  assert (forall a t, typed args a t -> exists q, In q Q /\ q_alias q = a /\ q_uri q = t) as Tt.
  { intros a t T. apply typed_In in T; auto. rewrite <- Q1 in T. apply in_map_iff in T as (q & E & I). unfold q_pair in E. exists q. split; auto. split; congruence. }
  assert (map q_uri Q = map snd (types_of args)) as Qu by (rewrite <- Q1, map_map; reflexivity).
  destruct (toTypeURIs_spec (types_of args) (dget text_eqb (u "required") args)) as [(req & R1 & R2 & R3)|(R1 & a & R2 & R3)].
  2:{ right. rewrite R1. split; [|exists KeyError; split; [reflexivity|cbn; auto 8]]. intros K. apply R3.
      destruct (fo_listed _ K a (or_introl R2)) as (t & T). apply typed_In in T; auto. apply (in_map fst) in T. exact T. }
  rewrite R1. cbn [bind].
  change (map plain Q) with (map (flagged (fun _ => false)) Q). rewrite (set_required_loop Q None Q3 req).
  2:{ intros t I. apply R3 in I as (a & _ & D). apply (dget_In text_eqb text_eqb_eq) in D. rewrite Qu. apply (in_map snd) in D. exact D. }
  cbn [bind orb].
  destruct (toTypeURIs_spec (types_of args) (dget text_eqb (u "if_available") args)) as [(avail & A1 & A2 & A3)|(A1 & a & A2 & A3)].
  2:{ right. rewrite A1. split; [|exists KeyError; split; [reflexivity|cbn; auto 8]]. intros K. apply A3.
      destruct (fo_listed _ K a (or_intror A2)) as (t & T). apply typed_In in T; auto. apply (in_map fst) in T. exact T. }
  rewrite A1. cbn [bind fr_attrs ns_of n2a].
  assert (forall q, In q Q -> dget text_eqb (q_alias q) (types_of args) = Some (q_uri q)) as Dq.
  { intros q I. apply (In_dget text_eqb text_eqb_eq); [exact Nt|]. apply typed_In; auto. }
  assert (forall q, In q Q -> (In (q_uri q) req <-> listed args (u "required") (q_alias q))) as Lr.
  { intros q I. rewrite R3. split.
    - intros (a & L & D). assert (a = q_alias q) as ->; [|exact L]. apply (dget_In text_eqb text_eqb_eq) in D.
      rewrite Qu in Q3. apply NoDup_snd in Q3 as [_ Q3]. apply (Q3 a (q_alias q) (q_uri q) D). apply typed_In; auto.
    - intros L. exists (q_alias q). split; [exact L|]. auto. }
  assert (forall q, In q Q -> (In (q_uri q) avail <-> listed args (u "if_available") (q_alias q))) as La.
  { intros q I. rewrite A3. split.
    - intros (a & L & D). assert (a = q_alias q) as ->; [|exact L]. apply (dget_In text_eqb text_eqb_eq) in D.
      rewrite Qu in Q3. apply NoDup_snd in Q3 as [_ Q3]. apply (Q3 a (q_alias q) (q_uri q) D). apply typed_In; auto.
    - intros L. exists (q_alias q). split; [exact L|]. auto. }
  destruct (forallb _ _) eqn:Fa.
  - left. rewrite forallb_forall in Fa. split.
    + constructor; auto.
      * intros a t T. destruct (Tt a t T) as (q & I & <- & <-). apply legal_ok. apply (Q2 q I).
      * intros a b t T1 T2. rewrite Qu in Q3. apply NoDup_snd in Q3 as [_ Q3]. apply (Q3 a b t); apply typed_In; auto.
      * intros a t T. destruct (Tt a t T) as (q & I & <- & <-). exists (q_count q). apply count_of_spec. apply (Q2 q I).
      * intros a [L|L]; [apply R2 in L|apply A2 in L]; apply in_map_iff in L as ([b t] & E & I); cbn [fst] in E; subst b; exists t; apply typed_In; auto.
      * intros a t T. destruct (Tt a t T) as (q & I & <- & <-).
        assert (mem_text (q_uri q) (req ++ avail) = true) as K.
        { apply Fa. unfold dkeys. rewrite map_map. cbn [fst]. apply typed_In in T; auto. apply (in_map snd) in T. exact T. }
        apply mem_text_In in K. apply in_app_or in K as [K|K]; [left; apply Lr|right; apply La]; auto.
    + eexists. split; [reflexivity|]. cbn [fr_update fr_attrs]. split; [reflexivity|].
      assert (dkeys (map (flagged (fun q => mem_text (q_uri q) req)) Q) = map q_uri Q) as Dk by (unfold dkeys; rewrite map_map; reflexivity).
      split; [rewrite Dk; exact Qu|]. split; [rewrite Dk; exact Q3|]. intros t x.
      change (map (flagged (fun q => mem_text (q_uri q) req)) Q) with (map (fun q => (q_uri q, snd (flagged (fun q => mem_text (q_uri q) req) q))) Q).
      rewrite (dget_map q_uri (fun q => snd (flagged (fun q => mem_text (q_uri q) req) q)) Q t x Q3). cbn [flagged snd]. split.
      * intros (q & I & <- & <-). exists (q_alias q), (q_count q), (mem_text (q_uri q) req). split; [auto|]. split; [apply count_of_spec; apply (Q2 q I)|].
        split; [reflexivity|]. rewrite mem_text_In. apply Lr. exact I.
      * intros (a & c & b & T & C & -> & B). destruct (Tt a t T) as (q & I & <- & <-). exists q. split; auto. split; auto.
        assert (c = q_count q) as ->. { apply count_of_spec in C. destruct (Q2 q I) as [_ C']. congruence. }
        f_equal. apply Bool.eq_iff_eq_true. rewrite B, mem_text_In. apply Lr. exact I.
  - right. split; [|exists AXError; split; [reflexivity|cbn; auto 8]]. intros K. rewrite <- not_true_iff_false in Fa. apply Fa. apply forallb_forall.
    intros t I. apply mem_text_In. unfold dkeys in I. rewrite map_map in I. cbn [fst] in I. change (map (fun x => snd x) (types_of args)) with (map snd (types_of args)) in I.
    rewrite <- Qu in I. apply in_map_iff in I as (q & <- & I). apply in_or_app.
    destruct (fo_all _ K (q_alias q) (q_uri q) (Tq q I)) as [L|L]; [left; apply Lr|right; apply La]; auto.
Qed.

(** A fetch request is read exactly from the arguments that follow the specification, whatever
    their order; anything else raises an error of one of five kinds. *)
Theorem C55_fetch_parse :
  forall args, NoDup (dkeys args) ->
    (fetch_ok args /\ exists r, fetch_request_parse args = Ok r /\ fr_update r = dget text_eqb (u "update_url") args /\
        forall t x, dget text_eqb t (fr_attrs r) = Some x <-> asked args t x) \/
    (~ fetch_ok args /\ exists e, fetch_request_parse args = Raise e /\
        In e [AXError; NotAXMessage; KeyError; InvalidNamespace; AssertionError]).
Proof.
  intros args N. destruct (fetch_parse_lemma args N) as [(H1 & r & H2 & H3 & _ & _ & H4)|(H1 & e & H2 & H3)].
  - left. split; auto. exists r. auto.
  - right. split; auto. exists e. split; auto. unfold fetch_errors in H3. cbn in H3 |- *. intuition.
Qed.
Print Assumptions C55_fetch_parse.

Example C55_fetch_parse_ex :
  fetch_request_parse [(u "required", u "m"); (u "type.m", u "urn:mail"); (u "count.m", u "unlimited"); (u "mode", u "fetch_request");
                       (u "type.n", u "urn:nick"); (u "if_available", u "n,m"); (u "update_url", u "http://x/")] =
  Ok (mkFetchReq [(u "urn:mail", mkAttr (u "urn:mail") Unlimited true (Some (u "m"))); (u "urn:nick", mkAttr (u "urn:nick") (Num 1) false (Some (u "n")))]
                 (Some (u "http://x/"))) /\
  fetch_request_parse [(u "mode", u "fetch_request"); (u "type.m", u "urn:mail")] = Raise AXError /\
  fetch_request_parse [(u "mode", u "fetch_request"); (u "required", u "m")] = Raise KeyError /\
  fetch_request_parse [(u "mode", u "fetch_request"); (u "type.m", u "urn:mail"); (u "required", u "m"); (u "count.m", u "0")] = Raise AXError.
Proof. repeat split; vm_compute; reflexivity. Qed.

(** ** Parsing responses and store requests *)
Record kv_ok (mode : text) (args : dict text text) : Prop := {
  ko_mode : dget text_eqb (u "mode") args = Some mode;
  ko_alias : forall a t, typed args a t -> alias_ok a;
  ko_uri : forall a b t, typed args a t -> typed args b t -> a = b;
  ko_values : forall a t, typed args a t -> exists vs, values_of args a vs
}.
Definition kv_errors : list exn := [AXError; NotAXMessage; KeyError; InvalidNamespace; AssertionError; ValueError].
Lemma values_of_fun args a v w : values_of args a v -> values_of args a w -> v = w.
Proof. intros H K. apply read_values_spec in H. apply read_values_spec in K. congruence. Qed.
Lemma kv_parse_lemma mode args : mode <> [] -> NoDup (dkeys args) ->
  (kv_ok mode args /\ exists d, kv_parse mode args = Ok d /\ dkeys d = map snd (types_of args) /\ NoDup (dkeys d) /\
      forall t vs, dget text_eqb t d = Some vs <-> exists a, typed args a t /\ values_of args a vs) \/
  (~ kv_ok mode args /\ exists e, kv_parse mode args = Raise e /\ In e kv_errors).
Proof.
  intros Hm N. pose proof (NoDup_types_of args N) as Nt. unfold kv_parse, checkMode.
  destruct (dget text_eqb (u "mode") args) as [md|] eqn:M.
  2:{ right. split; [intros K; apply ko_mode in K; congruence|]. exists NotAXMessage. split; [reflexivity|cbn; auto 8]. }
  destruct (text_eqb md mode) eqn:Em.
  2:{ right. split; [intros K; apply ko_mode in K; apply text_eqb_neq in Em; congruence|]. destruct (truthy md); eexists; (split; [reflexivity|cbn; auto 8]). }
  apply text_eqb_eq in Em. subst md. cbn [bind]. change empty_nsmap with (ns_of []).
  destruct (kv_alias_loop args []) as [(E1 & E2 & E3)|(e & E1 & E2 & E3)]; [exact Nt|intros a []|constructor| |].
  2:{ right. rewrite E1. cbn [bind]. split; [|exists e; split; [reflexivity|unfold fetch_errors in E2; cbn in E2 |- *; intuition]]. intros K. apply E3. split.
      - intros a t I. apply (typed_In args a t N) in I. apply legal_ok; apply (ko_alias _ _ K a t I).
      - cbn [app]. apply NoDup_snd. split; [apply NoDup_of_fst; exact Nt|]. intros a b t I J. apply (ko_uri _ _ K a b t); apply typed_In; auto. }
  rewrite E1. cbn [bind app ns_of n2a]. cbn [app] in E3.
  destruct (kv_values_loop args (types_of args) []) as [(D & D1 & D2 & D3)|(e & D1 & D2 & a & t & D3 & D4)]; [exact E3|intros t _ []| |].
  2:{ right. cbv zeta in D1. rewrite D1. split; [|exists e; split; [reflexivity|destruct D2 as [->| ->]; cbn; auto 8]]. intros K. apply (typed_In args a t N) in D3.
      destruct (ko_values _ _ K a t D3) as (vs & V). exact (D4 vs V). }
  cbv zeta in D1. rewrite D1. cbn [app]. left. split.
  - constructor; auto.
    + intros a t T. apply legal_ok. apply typed_In in T; eauto.
    + intros a b t T1 T2. apply NoDup_snd in E3 as [_ E3]. apply (E3 a b t); apply typed_In; auto.
    + intros a t T. apply typed_In in T; auto. destruct (D3 a t T) as (v & _ & V). eauto.
  - exists D. split; auto. split; auto. rewrite D2. split; auto. intros t vs. split.
    + intros G. pose proof G as I. apply (dget_In text_eqb text_eqb_eq) in I. apply (in_map fst) in I. cbn [fst] in I. fold (dkeys D) in I. rewrite D2 in I.
      apply in_map_iff in I as ([a s] & Es & I). cbn [snd] in Es. subst s. exists a. split; [apply typed_In; auto|]. destruct (D3 a t I) as (v & V1 & V2). congruence.
    + intros (a & T & V). apply typed_In in T; auto. destruct (D3 a t T) as (v & V1 & V2). rewrite (values_of_fun _ _ _ _ V V2). exact V1.
Qed.

(** The values of a response or store request are read exactly from arguments that follow the
    specification, whatever their order. *)
Theorem C55_values_parse :
  forall mode args, mode <> [] -> NoDup (dkeys args) ->
    (kv_ok mode args /\ exists d, kv_parse mode args = Ok d /\
        forall t vs, dget text_eqb t d = Some vs <-> exists a, typed args a t /\ values_of args a vs) \/
    (~ kv_ok mode args /\ exists e, kv_parse mode args = Raise e /\
        In e [AXError; NotAXMessage; KeyError; InvalidNamespace; AssertionError; ValueError]).
Proof.
  intros mode args Hm N. destruct (kv_parse_lemma mode args Hm N) as [(H1 & d & H2 & _ & _ & H4)|(H1 & e & H2 & H3)].
  - left. split; auto. exists d. auto.
  - right. split; auto. exists e. auto.
Qed.
Print Assumptions C55_values_parse.

Example C55_values_parse_ex :
  kv_parse (u "fetch_response") [(u "value.m.2", u "b"); (u "type.m", u "urn:mail"); (u "count.m", u "2"); (u "mode", u "fetch_response");
                                 (u "value.m.1", u "a"); (u "type.n", u "urn:nick"); (u "value.n", u "joe")] =
  Ok [(u "urn:mail", [u "a"; u "b"]); (u "urn:nick", [u "joe"])] /\
  kv_parse (u "fetch_response") [(u "mode", u "fetch_response"); (u "type.m", u "urn:mail")] = Raise KeyError /\
  kv_parse (u "fetch_response") [(u "mode", u "fetch_response"); (u "type.m", u "urn:mail"); (u "count.m", u "two")] = Raise ValueError.
Proof. repeat split; vm_compute; reflexivity. Qed.

(** ** Values given by a program *)
Inductive vop := VAdd (t v : text) | VSet (t : text) (vs : list text).
Definition vop_type (o : vop) : text := match o with VAdd t _ | VSet t _ => t end.
Definition run_vop (d : kv_data) (o : vop) : kv_data :=
  match o with VAdd t v => addValue d t v | VSet t vs => setValues d t vs end.
(** The values given for a type by calls, latest first: those last set, and those added since. *)
Inductive given (t : text) : list vop -> list text -> Prop :=
| gi_nothing : given t [] []
| gi_set vs before : given t (VSet t vs :: before) vs
| gi_add v vs before : given t before vs -> given t (VAdd t v :: before) (vs ++ [v])
| gi_other o vs before : vop_type o <> t -> given t before vs -> given t (o :: before) vs.
(** A program gets the values it gave; a single value is got only where there is one. *)
Theorem C55_values_given ops t vs :
  given t (rev ops) vs ->
  let d := fold_left run_vop ops [] in
  NoDup (dkeys d) /\
  (In t (dkeys d) <-> In t (map vop_type ops)) /\
  (In t (dkeys d) -> dget text_eqb t d = Some vs) /\
  (forall v, getSingle d t = Ok (Some v) <-> vs = [v]) /\
  (getSingle d t = Ok None <-> vs = []) /\
  (getSingle d t = Raise AXError <-> (1 < List.length vs)%nat).
Proof.
  intros H. rewrite <- (rev_involutive ops). rewrite <- fold_left_rev_right, rev_involutive, map_rev. cbv zeta.
  set (d := fold_right (fun o d => run_vop d o) [] (rev ops)).
  assert (NoDup (dkeys d) /\ (In t (dkeys d) <-> In t (map vop_type (rev ops))) /\
          (In t (dkeys d) -> dget text_eqb t d = Some vs) /\ (~ In t (dkeys d) -> vs = [])) as (N & K & G & E).
  { unfold d. clear d. induction H as [|l before|v l before H IH|o l before D H IH]; cbn [fold_right map].
    - split; [constructor|]. split; [tauto|]. split; [intros []|auto].
    - set (d := fold_right _ _ _). unfold run_vop, setValues. split.
      { apply (NoDup_dset text_eqb text_eqb_eq). unfold d. clear. induction before as [|o b IH]; [constructor|].
        destruct o; apply (NoDup_dset text_eqb text_eqb_eq); exact IH. }
      assert (dget text_eqb t (dset text_eqb t l d) = Some l) as G by apply (dget_dset_same text_eqb text_eqb_eq).
      assert (In t (dkeys (dset text_eqb t l d))) as K by (apply (In_dkeys_dset text_eqb text_eqb_eq); auto).
      split; [split; auto; intros _; left; reflexivity|]. split; [auto|intros; contradiction].
    - destruct IH as (N & K & G & E). set (d := fold_right _ _ _) in *. unfold run_vop, addValue.
      assert (match dget text_eqb t d with Some l => l | None => [] end = l) as ->.
      { destruct (dget text_eqb t d) as [x|] eqn:D.
        - assert (In t (dkeys d)) as I by (apply (dget_In text_eqb text_eqb_eq) in D; apply (in_map fst) in D; exact D).
          apply G in I. congruence.
        - symmetry. apply E. intros I. specialize (G I). congruence. }
      split; [apply (NoDup_dset text_eqb text_eqb_eq); auto|].
      assert (In t (dkeys (dset text_eqb t (l ++ [v]) d))) as I by (apply (In_dkeys_dset text_eqb text_eqb_eq); auto).
      split; [split; auto; intros _; left; reflexivity|]. split; [intros _; apply (dget_dset_same text_eqb text_eqb_eq)|intros; contradiction].
    - destruct IH as (N & K & G & E). set (d := fold_right _ _ _) in *.
      assert (exists x, run_vop d o = dset text_eqb (vop_type o) x d) as (x & ->) by (destruct o; eexists; reflexivity).
      split; [apply (NoDup_dset text_eqb text_eqb_eq); auto|].
      assert (In t (dkeys (dset text_eqb (vop_type o) x d)) <-> In t (dkeys d)) as I.
      { rewrite (In_dkeys_dset text_eqb text_eqb_eq). split; auto. intros [I|I]; auto. congruence. }
      rewrite I. split; [rewrite K; simpl; split; auto; intros [J|J]; auto; contradiction|].
      split; [|auto]. intros J. rewrite (dget_dset_other text_eqb text_eqb_eq) by auto. auto. }
  split; auto. split; [rewrite K; apply in_rev|]. split; auto.
  assert (getSingle d t = match vs with [] => Ok None | [v] => Ok (Some v) | _ => Raise AXError end) as ->.
  { unfold getSingle. destruct (dget text_eqb t d) as [l|] eqn:D.
    - assert (In t (dkeys d)) as I by (apply (dget_In text_eqb text_eqb_eq) in D; apply (in_map fst) in D; exact D).
      apply G in I. assert (l = vs) as -> by congruence. destruct vs as [|v [|w l]]; reflexivity.
    - rewrite E; auto. intros I. specialize (G I). congruence. }
  destruct vs as [|v [|w l]]; simpl; repeat split; intros; try discriminate; try lia; congruence.
Qed.
Print Assumptions C55_values_given.
Example C55_values_given_ex :
  let ops := [VAdd (u "t") (u "a"); VSet (u "t") [u "b"]; VAdd (u "s") (u "x"); VAdd (u "t") (u "c")] in
  given (u "t") (rev ops) [u "b"; u "c"] /\ getSingle (fold_left run_vop ops []) (u "t") = Raise AXError /\
  getSingle (fold_left run_vop ops []) (u "s") = Ok (Some (u "x")) /\ getSingle (fold_left run_vop ops []) (u "r") = Ok None.
Proof.
  split; [|vm_compute; auto]. simpl. apply (gi_add _ (u "c") [u "b"]). apply gi_other; [discriminate|]. apply gi_set.
Qed.

(** ** Writing and reading back *)
(** A message with values under the aliases [A]. *)
Lemma flat_map_types (H : dict text text) {X} (B : X -> dict text text) (P : X -> text * text) l :
  (forall e, In e H -> startswith (fst e) (u "type.") = false) -> (forall x, types_of (B x) = [P x]) -> types_of (H ++ flat_map B l) = map P l.
Proof.
  intros Hh Hb. unfold types_of at 1. rewrite flat_map_app.
  assert (flat_map (fun e => if startswith (fst e) (u "type.") then [(skipn 5 (fst e), snd e)] else []) H = []) as ->.
  { induction H as [|e H IH]; auto. cbn [flat_map]. rewrite (Hh e (or_introl eq_refl)). apply IH. intros e' I. apply Hh. right; auto. }
  cbn [app]. induction l as [|x l IH]; auto. cbn [flat_map map]. rewrite flat_map_app. specialize (Hb x). unfold types_of in Hb. rewrite Hb, IH. reflexivity.
Qed.
Lemma types_of_nil (l : dict text text) : (forall e, In e l -> startswith (fst e) (u "type.") = false) -> types_of l = [].
Proof. induction l as [|e l IH]; intros H; auto. unfold types_of. cbn [flat_map]. rewrite (H e (or_introl eq_refl)). apply IH. intros e' I. apply H. right; auto. Qed.
Lemma types_of_block A e : types_of (block A e) = [(A (fst e), fst e)].
Proof.
  unfold block. unfold types_of. rewrite flat_map_app. cbn [flat_map fst snd app]. rewrite startswith_type, skipn_type.
  assert (startswith (u "count." ++ A (fst e)) (u "type.") = false) as -> by reflexivity. cbn [app]. f_equal.
  apply types_of_nil. intros x I. apply in_map_iff in I as ([i v] & <- & _). reflexivity.
Qed.
Lemma str_of_nat n : str_of_N (N.of_nat n) = str_of_Z (Z.of_nat n).
Proof. destruct n; reflexivity. Qed.
Lemma combine_seq {X} (vs : list X) : forall k i v, nth_error vs i = Some v -> In ((k + i)%nat, v) (combine (seq k (List.length vs)) vs).
Proof.
  induction vs as [|x vs IH]; intros k [|i] v H; try discriminate H; cbn [List.length seq combine].
  - left. cbn in H. rewrite Nat.add_0_r. congruence.
  - right. rewrite Nat.add_succ_r. apply (IH (S k) i v H).
Qed.
Lemma block_values A e args : NoDup (dkeys args) -> incl (block A e) args -> values_of args (A (fst e)) (snd e).
Proof.
  intros N I. apply (vo_many _ _ (str_of_N (N.of_nat (List.length (snd e)))) (Z.of_nat (List.length (snd e)))).
  - apply (In_dget text_eqb text_eqb_eq); auto. apply I. right; left; reflexivity.
  - rewrite str_of_nat. apply int_of_str.
  - lia.
  - intros i v H. apply (In_dget text_eqb text_eqb_eq); auto. apply I. unfold block. apply in_or_app. right. apply in_map_iff.
    exists (S i, v). split; auto. apply (combine_seq (snd e) 1 i v H).
Qed.
Lemma head_free A (H : dict text text) (E : kv_data) : (forall k, In k (dkeys H) -> ~ In 46 k) -> forall k, In k (dkeys H) -> ~ In k (dkeys (flat_map (block A) E)).
Proof.
  intros Hh k Hk K. rewrite dkeys_flat_map in K. apply in_flat_map in K as (e & _ & K). rewrite block_keys in K. apply (Hh k Hk).
  assert (forall x : text, In 46 (u "type." ++ x) /\ In 46 (u "count." ++ x) /\ In 46 (u "value." ++ x)) as D.
  { intros x. split; [|split]; apply in_or_app; left; cbv; auto 10. }
  apply in_app_or in K as [[<-|[<-|[]]]|K]; [apply D|apply D|]. apply in_map_iff in K as (i & <- & _). apply D.
Qed.
Lemma kv_shape mode A H (E : kv_data) : mode <> [] -> NoDup (dkeys H) -> (forall k, In k (dkeys H) -> ~ In 46 k) -> dget text_eqb (u "mode") H = Some mode ->
  NoDup (dkeys E) -> (forall t, In t (dkeys E) -> alias_ok (A t)) -> (forall t s, In t (dkeys E) -> In s (dkeys E) -> A t = A s -> t = s) ->
  NoDup (dkeys (H ++ flat_map (block A) E)) /\ (forall a t, typed (H ++ flat_map (block A) E) a t <-> In t (dkeys E) /\ a = A t) /\
  (forall t vs, In (t, vs) E -> values_of (H ++ flat_map (block A) E) (A t) vs) /\ kv_parse mode (H ++ flat_map (block A) E) = Ok E.
Proof.
  intros Hm HN Hh Hmode N L I.
  assert (NoDup (dkeys (H ++ flat_map (block A) E))) as Na.
  { unfold dkeys. rewrite map_app. apply NoDup_app_iff. split; [exact HN|]. split.
    - apply blocks_NoDup; auto. intros t Ht. apply L. exact Ht.
    - intros k Hk. apply (head_free A H E Hh k Hk). }
  assert (forall x, In x H -> startswith (fst x) (u "type.") = false) as Hst.
  { intros x Hx. destruct (startswith (fst x) (u "type.")) eqn:S; auto. exfalso. apply startswith_skipn in S. apply (Hh (fst x)); [apply in_map; exact Hx|].
    rewrite S. apply in_or_app. left. cbv; auto 10. }
  assert (types_of (H ++ flat_map (block A) E) = map (fun e => (A (fst e), fst e)) E) as Tm.
  { apply flat_map_types; auto. intros e. apply types_of_block. }
  assert (forall a t, typed (H ++ flat_map (block A) E) a t <-> In t (dkeys E) /\ a = A t) as T.
  { intros a t. rewrite typed_In by exact Na. rewrite Tm. unfold dkeys. rewrite !in_map_iff. split.
    - intros (e & Ee & Ie). apply pair_equal_spec in Ee as [<- <-]. eauto.
    - intros ((e & <- & Ie) & ->). eauto. }
  assert (forall t vs, In (t, vs) E -> values_of (H ++ flat_map (block A) E) (A t) vs) as V.
  { intros t vs Hi. apply (block_values A (t, vs)); auto. intros x Hx. apply in_or_app. right. apply in_flat_map. eauto. }
  split; auto. split; auto. split; auto.
  destruct (kv_parse_lemma mode _ Hm Na) as [(_ & d & D1 & D2 & D3 & D4)|(K & _)].
  - rewrite D1. f_equal. apply dict_ext; auto.
    + rewrite D2, Tm, map_map. reflexivity.
    + intros t Ht. destruct (dget text_eqb t d) as [vs|] eqn:G.
      * apply D4 in G as (a & Ta & Va). apply T in Ta as [Ie ->]. apply in_map_iff in Ie as ([t' ws] & Et & Ie). cbn [fst] in Et. subst t'.
        rewrite (values_of_fun _ _ _ _ Va (V t ws Ie)). symmetry. apply (In_dget text_eqb text_eqb_eq); auto.
      * apply (dget_None text_eqb text_eqb_eq) in G. contradiction.
  - exfalso. apply K. constructor.
    + apply (dget_In text_eqb text_eqb_eq) in Hmode. apply (In_dget text_eqb text_eqb_eq); auto. apply in_or_app. auto.
    + intros a t Ta. apply T in Ta as [Ht ->]. auto.
    + intros a b t Ta Tb. apply T in Ta as [_ ->]. apply T in Tb as [_ ->]. reflexivity.
    + intros a t Ta. apply T in Ta as [Ht ->]. apply in_map_iff in Ht as ([t' ws] & Et & Ie). cbn [fst] in Et. subst t'. eauto.
Qed.

(** Maps of aliases a store request can be given: built by adding aliases without commas. *)
Inductive alias_map : nsmap -> Prop :=
| am_empty : alias_map empty_nsmap
| am_alias m t a m' r : alias_map m -> ~ In 44 a -> addAlias m t (Al a) false = (m', r) -> alias_map m'
| am_add m t m' r : alias_map m -> Message.add m t = (m', r) -> alias_map m'.
Definition nocomma (m : nsmap) : Prop := forall t a, getAlias m t = Some (Al a) -> ~ In 44 a.
Lemma ext_nocomma j : ~ In 44 (u "ext" ++ str_of_N j).
Proof.
  intros H. apply in_app_or in H as [H|H]; [cbv in H; intuition discriminate|].
  pose proof (str_of_N_isdigit j) as D. rewrite forallb_forall in D. apply D in H. discriminate H.
Qed.
Lemma add_nocomma m t m' r : wf_ns m -> nocomma m -> Message.add m t = (m', r) -> nocomma m'.
Proof.
  intros W N E. destruct (add_total m t W) as [(b & _ & E')|(_ & j & m1 & E1 & E2 & _)].
  - rewrite E in E'. injection E' as -> _. exact N.
  - rewrite E in E1. injection E1 as -> ->. apply addAlias_Ok in E2 as (_ & _ & _ & _ & G & _). intros s a. rewrite G.
    destruct (text_eqb s t); [|apply N]. intros K. unfold MessageFacts.ext_alias in K. apply (f_equal (fun o => match o with Some (Al x) => x | _ => [] end)) in K. cbv beta iota in K.
    rewrite <- K. apply ext_nocomma.
Qed.
Lemma alias_map_ok m : alias_map m -> wf_ns m /\ nonull m /\ nocomma m.
Proof.
  induction 1 as [|m t a m' r B (W & N & C) Ha E|m t m' r B (W & N & C) E].
  - split; [apply wf_ns_empty|]. split; [intros t; discriminate|intros t a; discriminate].
  - split; [eapply addAlias_wf; eauto|]. destruct r as [b|e].
    + apply addAlias_Ok in E as (_ & _ & _ & _ & G & _). split.
      * intros s. rewrite G. destruct (text_eqb s t); [discriminate|apply N].
      * intros s b'. rewrite G. destruct (text_eqb s t); [intros K; injection K as <-; exact Ha|apply C].
    + destruct (addAlias_cases m t (Al a) false) as [(x & E' & _)|(E' & _)]; rewrite E in E'; [|discriminate E']. injection E' as -> _. auto.
  - destruct (add_wf m t W) as (m1 & al & E1 & W1 & _). rewrite E in E1. injection E1 as -> ->.
    split; auto. split; [exact (add_nonull m t m1 al W N E)|exact (add_nocomma m t m1 _ W C E)].
Qed.
Lemma kv_nocomma data : forall m kv m' kv', wf_ns m -> nocomma m -> foldM kv_step (m, kv) data = Ok (m', kv') -> nocomma m'.
Proof.
  induction data as [|[t vs] data IH]; intros m kv m' kv' W C H; cbn [foldM] in H; [injection H as <- _; exact C|].
  apply bind_Ok in H as ([m1 kv1] & H1 & H). unfold kv_step in H1. cbn [fst snd] in H1. destruct (Message.add m t) as [m2 r] eqn:E.
  pose proof (add_nocomma _ _ _ _ W C E) as C1. destruct (add_wf m t W) as (m3 & al & E1 & W1 & _). rewrite E in E1. injection E1 as -> ->.
  cbn [bind] in H1. apply (f_equal (fun r => match r with Ok x => fst x | Raise _ => m end)) in H1. cbn [fst] in H1. subst m3. eapply IH; eauto.
Qed.
Lemma al_ok m t : wf_ns m -> nonull m -> nocomma m -> getAlias m t <> None -> alias_ok (al_of m t).
Proof. intros W N C H. apply legal_ok. split; [apply al_of_dot; auto|]. apply (C t). apply al_of_spec; auto. Qed.

(** A store request always serializes, and reads back as the same data. *)
Theorem C55_store_round_trip :
  forall aliases data, alias_map aliases -> NoDup (dkeys data) ->
    exists args, store_request_args aliases data = Ok args /\ NoDup (dkeys args) /\ store_request_parse args = Ok data.
Proof.
  intros aliases data B N. destruct (alias_map_ok _ B) as (W & Nn & C). destruct (kv_args aliases data W Nn N) as (m & E & W' & N' & _ & K).
  pose proof (kv_nocomma data aliases [] m _ W C E) as C'. unfold store_request_args. rewrite E. cbn [bind].
  assert (forall t s, In t (dkeys data) -> In s (dkeys data) -> al_of m t = al_of m s -> t = s) as I by (intros t s Ht Hs; apply al_of_inj; auto).
  assert (forall t, In t (dkeys data) -> alias_ok (al_of m t)) as L by (intros t Ht; apply al_ok; auto).
  destruct (kv_shape (u "store_request") (al_of m) [(u "mode", u "store_request")] data) as (S1 & _ & _ & S2); auto.
  - discriminate.
  - repeat constructor. intros [].
  - intros k [<-|[]]. cbv. intuition discriminate.
  - exists ([(u "mode", u "store_request")] ++ flat_map (block (al_of m)) data). split; [|auto]. f_equal. apply dset_all.
    unfold dkeys. rewrite <- map_app. exact S1.
Qed.
Print Assumptions C55_store_round_trip.

Example C55_store_round_trip_ex :
  store_request_args (fst (addAlias empty_nsmap (u "urn:b") (Al (u "ext0")) false)) [(u "urn:a", [u "1"; u "2"]); (u "urn:b", [])] =
  Ok [(u "mode", u "store_request"); (u "type.ext1", u "urn:a"); (u "count.ext1", u "2"); (u "value.ext1.1", u "1"); (u "value.ext1.2", u "2");
      (u "type.ext0", u "urn:b"); (u "count.ext0", u "0")].
Proof. vm_compute. reflexivity. Qed.

(** ** Fetch requests *)
(** Requests as a relying party builds them. *)
Inductive fetch_built : fetch_request -> Prop :=
| fb_new o : fetch_built (mkFetchReq [] o)
| fb_add r t c b al x r' : fetch_built r -> AttrInfo t c b al = Ok x -> fr_add r x = Ok r' -> fetch_built r'.
(** What holds of every request, built or parsed. *)
Record request_ok (r : fetch_request) : Prop := {
  ro_keys : NoDup (dkeys (fr_attrs r));
  ro_uri : forall t x, In (t, x) (fr_attrs r) -> at_uri x = t;
  ro_alias : forall t x a, In (t, x) (fr_attrs r) -> at_alias x = Some a -> ~ In 44 a /\ ~ In 46 a
}.
Theorem C55_request_invariant :
  (forall r, fetch_built r -> request_ok r) /\
  (forall args r, NoDup (dkeys args) -> fetch_request_parse args = Ok r -> request_ok r).
Proof.
  split.
  - induction 1 as [o|r t c b al x r' B IH A E].
    + constructor; [constructor|intros ? ? []|intros ? ? ? []].
    + unfold AttrInfo in A. apply bind_Ok in A as (y & A1 & A2). injection A2 as <-. unfold fr_add in E. cbn [at_uri] in E.
      destruct (dhas text_eqb t (fr_attrs r)) eqn:D; [discriminate E|]. injection E as <-. unfold dhas in D. destruct (dget text_eqb t (fr_attrs r)) eqn:G; [discriminate D|].
      rewrite (dset_fresh text_eqb) by exact G. constructor; cbn [fr_attrs].
      * unfold dkeys. rewrite map_app. apply NoDup_app_iff. split; [apply (ro_keys _ IH)|]. split; [repeat constructor; intros []|].
        intros k Hk [<-|[]]. apply (dget_None text_eqb text_eqb_eq) in G. contradiction.
      * intros s y' K. apply in_app_or in K as [K|[K|[]]]; [apply (ro_uri _ IH s y' K)|]. apply pair_equal_spec in K as [<- <-]. reflexivity.
      * intros s y' a K. apply in_app_or in K as [K|[K|[]]]; [apply (ro_alias _ IH s y' a K)|]. apply pair_equal_spec in K as [<- <-]. cbn [at_alias]. intros ->.
        unfold checkAlias in A1. destruct (memc 44 a) eqn:C; [discriminate A1|]. destruct (memc 46 a) eqn:C'; [discriminate A1|].
        apply memc_false in C. apply memc_false in C'. auto.
  - intros args r N H. destruct (fetch_parse_lemma args N) as [(Ho & r' & H2 & _ & _ & H3 & H4)|(_ & e & H2 & _)]; [|congruence]. rewrite H in H2. injection H2 as <-.
    constructor; auto.
    + intros t x I. apply (In_dget text_eqb text_eqb_eq) in I; auto. apply H4 in I as (a & c & b & _ & _ & -> & _). reflexivity.
    + intros t x a I E. apply (In_dget text_eqb text_eqb_eq) in I; auto. apply H4 in I as (a' & c & b & T & _ & -> & _). cbn [at_alias] in E. injection E as ->.
      apply (fo_alias _ Ho) in T. unfold alias_ok in T. tauto.
Qed.
Print Assumptions C55_request_invariant.

(** The aliases a request asks for can be used together: none is a protocol field, none is asked
    for twice, and none looks like a generated one. *)
Record aliases_ok (r : fetch_request) : Prop := {
  ao_field : forall t x a, In (t, x) (fr_attrs r) -> at_alias x = Some a -> ~ In a OPENID_PROTOCOL_FIELDS;
  ao_twice : forall t x s y a, In (t, x) (fr_attrs r) -> In (s, y) (fr_attrs r) -> at_alias x = Some a -> at_alias y = Some a -> t = s;
  ao_ext : forall t x a j, In (t, x) (fr_attrs r) -> at_alias x = Some a -> a <> u "ext" ++ str_of_N j
}.
Lemma alias_clash r (R : request_ok r) (A : aliases_ok r) t x a before after :
  fr_attrs r = before ++ (t, x) :: after -> at_alias x = Some a ->
  bad_alias (Al a) = true \/ (exists s y, In (s, y) before /\ alias_fits (at_alias y) a) -> False.
Proof.
  intros E Ha H. assert (In (t, x) (fr_attrs r)) as I by (rewrite E; apply in_or_app; right; left; auto). destruct H as [H|(s & y & K & F)].
  - cbn [bad_alias] in H. apply orb_true_iff in H as [H|H].
    + apply mem_text_In in H. apply (ao_field _ A t x a I Ha H).
    + apply memc_In in H. apply (ro_alias _ R t x a I Ha). exact H.
  - assert (In (s, y) (fr_attrs r)) as J by (rewrite E; apply in_or_app; left; auto). destruct F as [F|(_ & j & ->)].
    + pose proof (ao_twice _ A t x s y a I J Ha F) as Et. subst s. pose proof (ro_keys _ R) as N. rewrite E in N. unfold dkeys in N. rewrite map_app in N.
      apply NoDup_app_iff in N as (_ & _ & N). apply (N t); [apply (in_map fst) in K; exact K|left; auto].
    + apply (ao_ext _ A t x _ j I Ha eq_refl).
Qed.
(** Then it can be sent. *)
Theorem C55_fetch_total :
  forall r, request_ok r -> aliases_ok r -> exists args, fetch_request_args r = Ok args.
Proof.
  intros r R A. destruct (fetch_args_shape r (ro_keys _ R)) as [(m & E & _)|(e & t & x & a & b1 & b2 & _ & _ & E & Ha & H)]; [eauto|].
  exfalso. exact (alias_clash r R A t x a b1 b2 E Ha H).
Qed.
Print Assumptions C55_fetch_total.
Example C55_fetch_total_ex :
  let r := mkFetchReq [(u "urn:a", mkAttr (u "urn:a") (Num 1) true None); (u "urn:b", mkAttr (u "urn:b") Unlimited false (Some (u "bee")))] None in
  fetch_built r /\ exists args, fetch_request_args r = Ok args.
Proof.
  split; [|eexists; vm_compute; reflexivity].
  refine (fb_add _ (u "urn:b") Unlimited false (Some (u "bee")) _ _ (fb_add _ (u "urn:a") (Num 1) true None _ _ (fb_new None) _ _) _ _); vm_compute; reflexivity.
Qed.

(** Requests whose counts and aliases can be read back. *)
Record request_sendable (r : fetch_request) : Prop := {
  rs_count : forall t x z, In (t, x) (fr_attrs r) -> at_count x = Num z -> (0 < z)%Z;
  rs_alias : forall t x, In (t, x) (fr_attrs r) -> at_alias x <> Some []
}.
Lemma types_of_fblock A e : types_of (fblock A e) = [(A (fst e), fst e)].
Proof.
  unfold fblock, types_of. rewrite flat_map_app. cbn [flat_map fst snd app]. rewrite startswith_type, skipn_type.
  destruct (is_one (at_count (snd e))); [reflexivity|]. cbn [flat_map fst snd].
  assert (startswith (u "count." ++ A (fst e)) (u "type.") = false) as -> by reflexivity. reflexivity.
Qed.
Lemma types_of_app a b : types_of (a ++ b) = types_of a ++ types_of b.
Proof. apply flat_map_app. Qed.
Lemma join_nonempty l : l <> [] -> (forall f, In f l -> f <> []) -> join [44] l <> [].
Proof.
  destruct l as [|x l]; [congruence|]. intros _ H K. assert (x <> []) as Hx by (apply H; left; auto). destruct x as [|c x]; [congruence|]. destruct l; discriminate K.
Qed.
Lemma fr_list_key k l e : In e (fr_list k l) -> fst e = k.
Proof. destruct l; cbn; [intros []|intros [<-|[]]; reflexivity]. Qed.
Lemma fr_list_lists k l (d : option text) : (forall f, In f l -> f <> [] /\ ~ In 44 f) -> (fr_list k l = [] -> d = None) ->
  (forall v, In (k, v) (fr_list k l) -> d = Some v) -> forall a, (exists s, d = Some s /\ s <> [] /\ In a (splitc 44 s)) <-> In a l.
Proof.
  intros H D1 D2 a. destruct l as [|x l].
  - rewrite (D1 eq_refl). split; [intros (s & K & _); discriminate K|intros []].
  - pose proof (D2 (join [44] (x :: l)) (or_introl eq_refl)) as Dj.
    assert (splitc 44 (join [44] (x :: l)) = x :: l) as Sj by (apply Prop_Sreg.splitc_join; [discriminate|]; intros f Hf; apply H; exact Hf).
    assert (join [44] (x :: l) <> []) as Nj by (apply join_nonempty; [discriminate|]; intros f Hf; apply H; exact Hf).
    generalize dependent (join [44] (x :: l)). intros J Dj Sj Nj. rewrite Dj. split.
    + intros (s & K & _ & I). injection K as <-. rewrite Sj in I. exact I.
    + intros I. exists J. rewrite Sj. auto.
Qed.

(** The facts about the arguments of a request that reading them back needs. *)
Lemma fetch_args_facts r args : request_ok r -> request_sendable r -> fetch_request_args r = Ok args ->
  exists A, (forall t x, In (t, x) (fr_attrs r) -> alias_fits (at_alias x) (A t)) /\ NoDup (dkeys args) /\ fetch_ok args /\
    types_of args = map (fun e => (A (fst e), fst e)) (fr_attrs r) /\ dget text_eqb (u "update_url") args = None /\
    (forall t x, asked args t x <-> exists y, In (t, y) (fr_attrs r) /\ x = mkAttr t (at_count y) (at_required y) (Some (A t))).
Proof.
  intros R S H. destruct (fetch_args_shape r (ro_keys _ R)) as [(m & E & W & Nn & G & F)|(e & t & x & a & b1 & b2 & E & _)]; [|congruence].
  rewrite H in E. apply (f_equal (fun r => match r with Ok t => t | Raise _ => [] end)) in E. cbv beta iota in E. set (A := al_of m) in *. pose proof (ro_keys _ R) as N.
  assert (forall t s, In t (dkeys (fr_attrs r)) -> In s (dkeys (fr_attrs r)) -> A t = A s -> t = s) as Inj.
  { intros t s Ht Hs. apply al_of_inj; auto; apply G; auto. }
  assert (forall t x, In (t, x) (fr_attrs r) -> alias_ok (A t) /\ A t <> []) as L.
  { intros t x I. assert (bad_alias (Al (A t)) = false) as Hb. { apply al_of_dot; auto. apply G. apply (in_map fst) in I. exact I. }
    destruct (F t x I) as [Fa|(Fa & j & Fj)].
    - split; [apply legal_ok; split; [exact Hb|apply (ro_alias _ R t x _ I Fa)]|]. intros K. apply (rs_alias _ S t x I). rewrite Fa. f_equal. exact K.
    - split; [apply legal_ok; split; [exact Hb|rewrite Fj; apply ext_nocomma]|]. rewrite Fj. discriminate. }
  set (Q := req_of A (fr_attrs r)) in *. set (V := avail_of A (fr_attrs r)) in *.
  assert (forall f, In f Q \/ In f V -> f <> [] /\ ~ In 44 f) as LQ.
  { intros f Hf. assert (exists t x, In (t, x) (fr_attrs r) /\ f = A t) as (t & x & I & ->).
    { destruct Hf as [Hf|Hf]; apply in_map_iff in Hf as ([t x] & <- & I); apply filter_In in I as [I _]; exists t, x; auto. }
    destruct (L t x I) as ((_ & _ & L1) & L2). auto. }
  assert (NoDup (dkeys args)) as Na.
  { rewrite E. unfold dkeys. rewrite !map_app. rewrite app_assoc. apply NoDup_app_iff. split.
    - apply fblocks_NoDup; auto. intros t Ht. apply in_map_iff in Ht as ([t' x] & Et & I). cbn [fst] in Et. subst t'. apply (L t x I).
    - split.
      + apply NoDup_app_iff. split; [destruct Q; repeat constructor; intros []|]. split; [destruct V; repeat constructor; intros []|].
        intros k Hk K. apply in_map_iff in Hk as (e1 & <- & Hk). apply in_map_iff in K as (e2 & Ee & K). apply fr_list_key in Hk. apply fr_list_key in K. rewrite Hk, K in Ee. discriminate Ee.
      + intros k Hk K. assert (k = u "required" \/ k = u "if_available") as Kk.
        { apply in_app_or in K as [K|K]; apply in_map_iff in K as (e & <- & K); apply fr_list_key in K; auto. }
        apply in_app_or in Hk as [[Hk|[]]|Hk]; [subst k; destruct Kk as [Kk|Kk]; discriminate Kk|].
        fold (dkeys (flat_map (fblock A) (fr_attrs r))) in Hk. rewrite dkeys_flat_map in Hk. apply in_flat_map in Hk as (e & _ & Hk).
        apply fblock_keys in Hk as [->| ->]; destruct Kk as [Kk|Kk]; discriminate Kk. }
  assert (types_of args = map (fun e => (A (fst e), fst e)) (fr_attrs r)) as Ty.
  { rewrite E, app_assoc, !types_of_app. rewrite <- types_of_app.
    rewrite (flat_map_types mode_fr (fblock A) (fun e => (A (fst e), fst e))); [|intros e [<-|[]]; reflexivity|intros e; apply types_of_fblock].
    rewrite !(types_of_nil (fr_list _ _)); [rewrite !app_nil_r; reflexivity| |]; intros e He; apply fr_list_key in He; rewrite He; reflexivity. }
  assert (forall a t, typed args a t <-> In t (dkeys (fr_attrs r)) /\ a = A t) as T.
  { intros a t. rewrite typed_In by exact Na. rewrite Ty. unfold dkeys. rewrite !in_map_iff. split.
    - intros (e & Ee & Ie). apply pair_equal_spec in Ee as [<- <-]. eauto.
    - intros ((e & <- & Ie) & ->). eauto. }
  assert (forall k, In k (dkeys args) -> k = u "mode" \/ k = u "required" /\ Q <> [] \/ k = u "if_available" /\ V <> [] \/
            exists t x, In (t, x) (fr_attrs r) /\ (k = u "type." ++ A t \/ k = u "count." ++ A t /\ is_one (at_count x) = false)) as Ks.
  { intros k Hk. rewrite E in Hk. unfold dkeys in Hk. rewrite !map_app, !in_app_iff in Hk. destruct Hk as [[<-|[]]|[Hk|[Hk|Hk]]]; auto.
    - fold (dkeys (flat_map (fblock A) (fr_attrs r))) in Hk. rewrite dkeys_flat_map in Hk. apply in_flat_map in Hk as ([t x] & I & Hk).
      right. right. right. exists t, x. split; auto. unfold fblock in Hk. cbn [fst snd] in Hk. destruct (is_one (at_count x)); cbn in Hk; intuition.
    - right. left. destruct Q; cbn in Hk; [destruct Hk|]. destruct Hk as [<-|[]]. split; [reflexivity|discriminate].
    - right. right. left. destruct V; cbn in Hk; [destruct Hk|]. destruct Hk as [<-|[]]. split; [reflexivity|discriminate]. }
  assert (forall t x, In (t, x) (fr_attrs r) -> count_of (dget text_eqb (u "count." ++ A t) args) (at_count x)) as Ct.
  { intros t x I. destruct (is_one (at_count x)) eqn:O.
    - assert (dget text_eqb (u "count." ++ A t) args = None) as ->.
      { apply (dget_None text_eqb text_eqb_eq). intros K. apply Ks in K as [K|[[K _]|[[K _]|(s & y & J & [K|[K O']])]]]; try discriminate K.
        apply app_inv_head in K. assert (t = s) as <- by (apply Inj; auto; [apply (in_map fst) in I; exact I|apply (in_map fst) in J; exact J]).
        assert (x = y) by (apply (In_dget text_eqb text_eqb_eq) in I; apply (In_dget text_eqb text_eqb_eq) in J; congruence). congruence. }
      destruct (at_count x) as [z|]; [|discriminate O]. cbn in O. apply Z.eqb_eq in O. subst z. constructor.
    - assert (dget text_eqb (u "count." ++ A t) args = Some (count_text (at_count x))) as ->.
      { apply (In_dget text_eqb text_eqb_eq); auto. rewrite E. apply in_or_app. right. apply in_or_app. left. apply in_flat_map. exists (t, x). split; auto.
        unfold fblock. cbn [fst snd]. rewrite O. left. reflexivity. }
      pose proof (rs_count _ S t x) as Sc. destruct (at_count x) as [z|]; [|constructor]. constructor; [apply int_of_str|]. apply (Sc z I eq_refl). }
  assert (forall a, listed args (u "required") a <-> In a Q) as Lq.
  { apply (fr_list_lists (u "required") Q); [intros f Hf; apply LQ; auto| |].
    - intros K. apply (dget_None text_eqb text_eqb_eq). intros Hk. apply Ks in Hk as [Hk|[[_ Hk]|[[Hk _]|(s & y & J & [Hk|[Hk O']])]]]; try discriminate Hk.
      destruct Q; [congruence|discriminate K].
    - intros v Hv. apply (In_dget text_eqb text_eqb_eq); auto. rewrite E. apply in_or_app. right. apply in_or_app. right. apply in_or_app. auto. }
  assert (forall a, listed args (u "if_available") a <-> In a V) as Lv.
  { apply (fr_list_lists (u "if_available") V); [intros f Hf; apply LQ; auto| |].
    - intros K. apply (dget_None text_eqb text_eqb_eq). intros Hk. apply Ks in Hk as [Hk|[[Hk _]|[[_ Hk]|(s & y & J & [Hk|[Hk O']])]]]; try discriminate Hk.
      destruct V; [congruence|discriminate K].
    - intros v Hv. apply (In_dget text_eqb text_eqb_eq); auto. rewrite E. apply in_or_app. right. apply in_or_app. right. apply in_or_app. auto. }
  assert (forall t x, In (t, x) (fr_attrs r) -> (In (A t) Q <-> at_required x = true) /\ (In (A t) V <-> at_required x = false)) as QV.
  { intros t x I. split; (split; intros K).
    - apply in_map_iff in K as ([s y] & Ea & K). apply filter_In in K as [K Kr]. cbn [fst snd] in *.
      assert (s = t) as -> by (apply Inj; auto; [apply (in_map fst) in K; exact K|apply (in_map fst) in I; exact I]).
      assert (x = y) by (apply (In_dget text_eqb text_eqb_eq) in I; apply (In_dget text_eqb text_eqb_eq) in K; congruence). congruence.
    - apply in_map_iff. exists (t, x). split; auto. apply filter_In. auto.
    - apply in_map_iff in K as ([s y] & Ea & K). apply filter_In in K as [K Kr]. cbn [fst snd] in *.
      assert (s = t) as -> by (apply Inj; auto; [apply (in_map fst) in K; exact K|apply (in_map fst) in I; exact I]).
      assert (x = y) by (apply (In_dget text_eqb text_eqb_eq) in I; apply (In_dget text_eqb text_eqb_eq) in K; congruence). apply negb_true_iff in Kr. congruence.
    - apply in_map_iff. exists (t, x). split; auto. apply filter_In. cbn [snd]. rewrite K. auto. }
  exists A. split; [exact F|]. split; [exact Na|]. split.
  { constructor.
    - apply (In_dget text_eqb text_eqb_eq); auto. rewrite E. left. reflexivity.
    - intros a t Ta. apply T in Ta as [Ht ->]. apply in_map_iff in Ht as ([t' x] & Et & I). cbn [fst] in Et. subst t'. apply (L t x I).
    - intros a b t Ta Tb. apply T in Ta as [_ ->]. apply T in Tb as [_ ->]. reflexivity.
    - intros a t Ta. apply T in Ta as [Ht ->]. apply in_map_iff in Ht as ([t' x] & Et & I). cbn [fst] in Et. subst t'. exists (at_count x). apply Ct. exact I.
    - intros a Ha. rewrite Lq, Lv in Ha. destruct Ha as [Ha|Ha]; apply in_map_iff in Ha as ([t x] & <- & I); apply filter_In in I as [I _]; exists t; apply T;
        (split; [apply (in_map fst) in I; exact I|reflexivity]).
    - intros a t Ta. apply T in Ta as [Ht ->]. apply in_map_iff in Ht as ([t' x] & Et & I). cbn [fst] in Et. subst t'. rewrite Lq, Lv.
      destruct (QV t x I) as [[_ Q1] [_ Q2]]. destruct (at_required x); auto. }
  split; [exact Ty|]. split.
  { apply (dget_None text_eqb text_eqb_eq). intros K. apply Ks in K as [K|[[K _]|[[K _]|(s & y & J & [K|[K O']])]]]; discriminate K. }
  intros t x. split.
  - intros (a & c & b & Ta & C & -> & B). apply T in Ta as [Ht ->]. apply in_map_iff in Ht as ([t' y] & Et & I). cbn [fst] in Et. subst t'. exists y. split; auto.
    pose proof (Ct t y I) as C'. apply count_of_spec in C. apply count_of_spec in C'. assert (c = at_count y) as -> by congruence. f_equal.
    apply Bool.eq_iff_eq_true. rewrite B, Lq. apply (QV t y I).
  - intros (y & I & ->). exists (A t), (at_count y), (at_required y). split; [apply T; split; [apply (in_map fst) in I; exact I|reflexivity]|].
    split; [apply Ct; exact I|]. split; [reflexivity|]. rewrite Lq. symmetry. apply (QV t y I).
Qed.

(** The arguments of a request read back as the same attributes, counts and requirements; an
    alias is the one asked for or a generated one; the update URL is not sent. *)
Theorem C55_fetch_round_trip :
  forall r args, request_ok r -> request_sendable r -> fetch_request_args r = Ok args ->
    exists A, (forall t x, In (t, x) (fr_attrs r) -> at_alias x = Some (A t) \/ at_alias x = None /\ exists j, A t = u "ext" ++ str_of_N j) /\
      fetch_request_parse args =
      Ok (mkFetchReq (map (fun e => (fst e, mkAttr (fst e) (at_count (snd e)) (at_required (snd e)) (Some (A (fst e))))) (fr_attrs r)) None).
Proof.
  intros r args R S H. destruct (fetch_args_facts r args R S H) as (A & F & Na & Ok' & Ty & Up & As). exists A. split; [exact F|].
  destruct (fetch_parse_lemma args Na) as [(_ & r' & P1 & P2 & P3 & P4 & P5)|(K & _)]; [|contradiction]. rewrite P1. f_equal. destruct r' as [at' up']. cbn [fr_attrs fr_update] in *.
  f_equal; [|congruence]. pose proof (ro_keys _ R) as N.
  assert (dkeys at' = dkeys (map (fun e => (fst e, mkAttr (fst e) (at_count (snd e)) (at_required (snd e)) (Some (A (fst e))))) (fr_attrs r))) as Dk.
  { rewrite P3, Ty. unfold dkeys. rewrite !map_map. reflexivity. }
  apply dict_ext; auto. intros t Ht.
  assert (dkeys at' = dkeys (fr_attrs r)) as Dk' by (rewrite Dk; unfold dkeys; rewrite map_map; reflexivity).
  destruct (dget text_eqb t at') as [x|] eqn:G.
  - apply P5 in G. apply As in G as (y & I & ->). symmetry. apply (In_dget text_eqb text_eqb_eq); [rewrite <- Dk, Dk'; exact N|].
    apply in_map_iff. exists (t, y). auto.
  - apply (dget_None text_eqb text_eqb_eq) in G. contradiction.
Qed.
Print Assumptions C55_fetch_round_trip.

Example C55_fetch_round_trip_ex :
  let r := mkFetchReq [(u "urn:a", mkAttr (u "urn:a") (Num 1) true None); (u "urn:b", mkAttr (u "urn:b") Unlimited false (Some (u "bee")));
                       (u "urn:c", mkAttr (u "urn:c") (Num 12) true None)] None in
  fetch_request_args r = Ok [(u "mode", u "fetch_request"); (u "type.ext0", u "urn:a"); (u "count.bee", u "unlimited"); (u "type.bee", u "urn:b");
                             (u "count.ext1", u "12"); (u "type.ext1", u "urn:c"); (u "required", u "ext0,ext1"); (u "if_available", u "bee")].
Proof. vm_compute. reflexivity. Qed.

(** ** Fetch responses *)
(** The requested types a response has no values for. *)
Definition silent (r : fetch_response) : list text :=
  match fp_request r with None => [] | Some q => filter (fun t => negb (dhas text_eqb t (fp_data r))) (dkeys (fr_attrs q)) end.
(** The update URL sent with a response: that of the request if it has one. *)
Definition nonempty (o : option text) : option text := match o with Some [] => None | o => o end.
Definition sent_update (r : fetch_response) : option text :=
  match fp_request r with
  | Some q => match nonempty (fr_update q) with Some v => Some v | None => nonempty (fp_update r) end
  | None => nonempty (fp_update r)
  end.
Record response_ok (r : fetch_response) : Prop := {
  po_keys : NoDup (dkeys (fp_data r));
  po_request : forall q, fp_request r = Some q -> request_ok q
}.
(** The data stays within the request. *)
Definition within (r : fetch_response) : Prop :=
  forall q, fp_request r = Some q ->
    (forall t vs, In (t, vs) (fp_data r) -> exists x, In (t, x) (fr_attrs q)) /\
    (forall t x vs, In (t, x) (fr_attrs q) -> In (t, vs) (fp_data r) ->
       match at_count x with Num z => (Z.of_nat (List.length vs) <= z)%Z | Unlimited => True end) /\
    (forall t x, In (t, x) (fr_attrs q) -> match at_count x with Num z => (0 <= z)%Z | Unlimited => True end).

Definition resp_head (r : fetch_response) : dict text text :=
  (u "mode", u "fetch_response") :: match sent_update r with Some v => [(u "update_url", v)] | None => [] end.
Lemma resp_head_ok r : NoDup (dkeys (resp_head r)) /\ (forall k, In k (dkeys (resp_head r)) -> ~ In 46 k) /\
  dget text_eqb (u "mode") (resp_head r) = Some (u "fetch_response") /\ dget text_eqb (u "update_url") (resp_head r) = sent_update r.
Proof.
  unfold resp_head. destruct (sent_update r) as [v|]; (split; [|split; [|split]]).
  - unfold dkeys. cbn [map fst]. constructor; [intros [H|[]]; discriminate H|]. constructor; [intros []|constructor].
  - intros k [<-|[<-|[]]]; cbv; intuition discriminate.
  - reflexivity.
  - reflexivity.
  - repeat constructor. intros [].
  - intros k [<-|[]]; cbv; intuition discriminate.
  - reflexivity.
  - reflexivity.
Qed.
Definition whole (r : fetch_response) : kv_data := fp_data r ++ map (fun t => (t, [])) (silent r).
Lemma whole_keys r : NoDup (dkeys (fp_data r)) -> (forall q, fp_request r = Some q -> NoDup (dkeys (fr_attrs q))) -> NoDup (dkeys (whole r)) /\ dkeys (whole r) = dkeys (fp_data r) ++ silent r.
Proof.
  intros N Q. assert (dkeys (whole r) = dkeys (fp_data r) ++ silent r) as E.
  { unfold whole, dkeys. rewrite map_app, map_map. cbn [fst]. rewrite map_id. reflexivity. }
  split; auto. rewrite E. apply NoDup_app_iff. split; auto. unfold silent. destruct (fp_request r) as [q|]; [|split; [constructor|auto]].
  split; [apply NoDup_filter; auto|]. intros t Ht K. apply filter_In in K as [_ K]. apply negb_true_iff in K. unfold dhas in K.
  destruct (dget text_eqb t (fp_data r)) eqn:G; [discriminate K|]. apply (dget_None text_eqb text_eqb_eq) in G. contradiction.
Qed.
Lemma response_rest r m zero : NoDup (dkeys (fp_data r)) -> (forall q, fp_request r = Some q -> NoDup (dkeys (fr_attrs q))) ->
  wf_ns m -> nonull m -> nocomma m -> zero = silent r -> (forall t, In t zero -> getAlias m t <> None) ->
  exists A, (forall t, getAlias m t <> None -> A t = al_of m t) /\ (forall t, In t (dkeys (whole r)) -> alias_ok (A t)) /\
    (forall t s, In t (dkeys (whole r)) -> In s (dkeys (whole r)) -> A t = A s -> t = s) /\
    ('(m, kv) <- getExtensionKVArgs m (fp_data r) ;;
     let kv := fold_left (fun d t => let al := match getAlias m t with Some a => al_text a | None => [] end in
                                     dset text_eqb (u "count." ++ al) (u "0") (dset text_eqb (u "type." ++ al) t d)) zero kv in
     let update_url := match fp_request r with
                       | Some q => if otruthy (fr_update q) then fr_update q else fp_update r
                       | None => fp_update r
                       end in
     let args := [(u "mode", u "fetch_response")] ++ (if otruthy update_url then match update_url with Some v => [(u "update_url", v)] | None => [] end else []) in
     Ok (fold_left (fun d e => dset text_eqb (fst e) (snd e) d) kv args)) = Ok (resp_head r ++ flat_map (block A) (whole r)).
Proof.
  intros N Q W Nn C Z Hz. destruct (kv_args m (fp_data r) W Nn N) as (m' & E & W' & N' & K1 & K2).
  pose proof (kv_nocomma (fp_data r) m [] m' _ W C E) as C'. destruct (whole_keys r N Q) as [Nw Kw].
  assert (forall t, In t (dkeys (whole r)) -> getAlias m' t <> None) as G.
  { intros t Ht. rewrite Kw in Ht. apply in_app_or in Ht as [Ht|Ht]; [auto|]. rewrite <- Z in Ht. rewrite K1; auto. }
  exists (al_of m'). split; [intros t Ht; unfold al_of; rewrite K1; auto|]. split; [intros t Ht; apply al_ok; auto|]. split; [intros t s Ht Hs; apply al_of_inj; auto|].
  rewrite E. cbn [bind].
  assert (flat_map (block (al_of m')) (whole r) = flat_map (block (al_of m')) (fp_data r) ++ flat_map (zblock (al_of m')) zero) as Ew.
  { unfold whole. rewrite flat_map_app. f_equal. rewrite <- Z. clear. induction zero as [|t l IH]; auto. cbn [map flat_map]. rewrite IH. reflexivity. }
  assert (NoDup (dkeys (flat_map (block (al_of m')) (whole r)))) as Nb.
  { apply blocks_NoDup; auto; [|intros t s Ht Hs; apply al_of_inj; auto]. intros t Ht. apply nodot. apply al_of_dot; auto. }
  rewrite zero_fold by (unfold dkeys; rewrite <- map_app, <- Ew; exact Nb). rewrite <- Ew. f_equal.
  destruct (resp_head_ok r) as (H1 & H2 & _).
  match goal with |- fold_left _ _ ?X = _ => assert (X = resp_head r) as -> end.
  { unfold resp_head, sent_update. cbn [app]. f_equal. destruct (fp_request r) as [q|].
    - destruct (fr_update q) as [[|c t]|]; cbn [otruthy truthy nonempty]; auto; destruct (fp_update r) as [[|c' t']|]; reflexivity.
    - destruct (fp_update r) as [[|c' t']|]; reflexivity. }
  apply dset_all. apply NoDup_app_iff. split; auto. split; auto. intros k Hk. apply (head_free _ (resp_head r) _ H2 k Hk).
Qed.

Lemma forallb_false {X} (f : X -> bool) l : forallb f l = false -> exists x, In x l /\ f x = false.
Proof. induction l as [|x l IH]; cbn; [discriminate|]. destruct (f x) eqn:E; [|eauto]. cbn. intros H. apply IH in H as (y & I & F). eauto. Qed.
Lemma dhas_key {V} (d : dict text V) t : dhas text_eqb t d = true <-> In t (dkeys d).
Proof.
  unfold dhas. destruct (dget text_eqb t d) eqn:G.
  - apply (dget_In text_eqb text_eqb_eq) in G. apply (in_map fst) in G. split; auto.
  - apply (dget_None text_eqb text_eqb_eq) in G. split; [discriminate|contradiction].
Qed.
Lemma fits_nocomma q m : request_ok q -> nonull m -> (forall t, getAlias m t <> None <-> In t (dkeys (fr_attrs q))) ->
  (forall t x, In (t, x) (fr_attrs q) -> alias_fits (at_alias x) (al_of m t)) -> nocomma m.
Proof.
  intros R N G F t a Ha. assert (In t (dkeys (fr_attrs q))) as Ht by (apply G; congruence). apply in_map_iff in Ht as ([t' x] & Et & I). cbn [fst] in Et. subst t'.
  specialize (F t x I). unfold al_of in F. rewrite Ha in F. cbn [al_text] in F. destruct F as [F|(_ & j & ->)]; [apply (ro_alias _ R t x a I F)|apply ext_nocomma].
Qed.
(** What a response is sent as, or why it is not. *)
Lemma response_shape r : response_ok r ->
  (within r /\ exists A, (forall t, In t (dkeys (whole r)) -> alias_ok (A t)) /\ (forall t s, In t (dkeys (whole r)) -> In s (dkeys (whole r)) -> A t = A s -> t = s) /\
     (forall q t x, fp_request r = Some q -> In (t, x) (fr_attrs q) -> alias_fits (at_alias x) (A t)) /\
     fetch_response_args r = Ok (resp_head r ++ flat_map (block A) (whole r))) \/
  (exists q, fp_request r = Some q /\ ~ within r /\
     ((exists t vs, In (t, vs) (fp_data r) /\ ~ In t (dkeys (fr_attrs q))) /\ fetch_response_args r = Raise KeyError \/
      (forall t vs, In (t, vs) (fp_data r) -> In t (dkeys (fr_attrs q))) /\ fetch_response_args r = Raise AXError)) \/
  (exists q e, fp_request r = Some q /\ fetch_response_args r = Raise e /\ (e = AssertionError \/ e = InvalidNamespace) /\ ~ aliases_ok q).
Proof.
  intros R. pose proof (po_keys _ R) as N. assert (forall q, fp_request r = Some q -> NoDup (dkeys (fr_attrs q))) as Nq by (intros q Hq; apply ro_keys; apply (po_request _ R q Hq)).
  unfold fetch_response_args. destruct (fp_request r) as [q|] eqn:Q.
  2:{ left. split; [intros q K; congruence|]. cbn [bind].
      destruct (response_rest r empty_nsmap [] N) as (A & _ & A1 & A2 & A3).
      { rewrite Q. intros q K. discriminate K. } { apply wf_ns_empty. } { intros t. discriminate. } { intros t a. discriminate. }
      { unfold silent. rewrite Q. reflexivity. } { intros t []. }
      exists A. rewrite Q in A3. split; auto. split; auto. split; [intros q t x K; discriminate K|exact A3]. }
  pose proof (po_request _ R q Q) as Rq.
  destruct (forallb (fun t => dhas text_eqb t (fr_attrs q)) (dkeys (fp_data r))) eqn:Fa.
  2:{ right. left. exists q. split; auto. apply forallb_false in Fa as (t & I & F). assert (~ In t (dkeys (fr_attrs q))) as Nt by (rewrite <- dhas_key; congruence).
      apply in_map_iff in I as ([t' vs] & Et & I). cbn [fst] in Et. subst t'. split.
      - intros K. destruct (K q Q) as (K1 & _). destruct (K1 t vs I) as (x & J). apply Nt. apply (in_map fst) in J. exact J.
      - left. split; [eauto|reflexivity]. }
  rewrite forallb_forall in Fa.
  assert (forall t vs, In (t, vs) (fp_data r) -> In t (dkeys (fr_attrs q))) as Dq.
  { intros t vs I. apply dhas_key. apply Fa. apply (in_map fst) in I. exact I. }
  destruct (check_loop (fp_data r) (fr_attrs q) [] empty_nsmap []) as [(m & E & W & Nn & G & F & T)|[(E & t & x & I & T)|(e & t & x & a & b1 & b2 & E & X & Es & Ha & H)]].
  - apply wf_ns_empty.
  - intros t. discriminate.
  - apply (ro_keys _ Rq).
  - apply (ro_uri _ Rq).
  - intros t. split; [intros K; exfalso; apply K; reflexivity|intros []].
  - intros t x [].
  - left. cbn [app] in G, F, E. split.
    + intros q' K. assert (q' = q) as -> by congruence. split; [|split].
      * intros t vs I. apply Dq in I. apply in_map_iff in I as ([t' x] & Et & I). cbn [fst] in Et. subst t'. eauto.
      * intros t x vs I J. specialize (T t x I). destruct (at_count x) as [z|] eqn:Ec; auto. apply Z.nlt_ge. intros L. apply T. exists z. split; auto.
        rewrite (ro_uri _ Rq t x I). rewrite (In_dget text_eqb text_eqb_eq _ _ _ N J). exact L.
      * intros t x I. specialize (T t x I). destruct (at_count x) as [z|] eqn:Ec; auto. apply Z.nlt_ge. intros L. apply T. exists z. split; auto. lia.
    + rewrite E. cbn [bind]. destruct (response_rest r m (unanswered (fp_data r) (fr_attrs q)) N) as (A & A0 & A1 & A2 & A3); auto.
      { rewrite Q. exact Nq. }
      { apply (fits_nocomma q m Rq Nn G F). }
      { unfold silent. rewrite Q. reflexivity. }
      { intros t Ht. apply G. apply filter_In in Ht. apply Ht. }
      exists A. rewrite Q in A3. split; auto. split; auto. split; [|exact A3]. intros q' t x K I. assert (q' = q) as -> by congruence.
      rewrite A0; [apply F; exact I|]. apply G. apply (in_map fst) in I. exact I.
  - right. left. exists q. split; auto. rewrite E. split; [|right; auto]. intros K. destruct (K q Q) as (_ & K2 & K3). destruct T as (z & Ec & L).
    rewrite (ro_uri _ Rq t x I) in L. specialize (K3 t x I). rewrite Ec in K3. destruct (dget text_eqb t (fp_data r)) as [vs|] eqn:D; [|lia].
    apply (dget_In text_eqb text_eqb_eq) in D. specialize (K2 t x vs I D). rewrite Ec in K2. lia.
  - right. right. exists q, e. rewrite E. split; auto. split; auto. split; auto. intros K. exact (alias_clash q Rq K t x a b1 b2 Es Ha H).
Qed.

(** A response is sent only when its data stays within the request; it then names each requested
    type exactly once, with the values of the data. *)
Theorem C55_response_limited :
  forall r args, response_ok r -> fetch_response_args r = Ok args ->
    within r /\ NoDup (dkeys args) /\
    (forall q, fp_request r = Some q ->
       (forall t, (exists a, typed args a t) <-> exists x, In (t, x) (fr_attrs q)) /\
       (forall a t vs, typed args a t -> values_of args a vs -> vs = match dget text_eqb t (fp_data r) with Some l => l | None => [] end) /\
       (forall a t x, typed args a t -> In (t, x) (fr_attrs q) -> at_alias x = Some a \/ at_alias x = None)).
Proof.
  intros r args R H. destruct (response_shape r R) as [(Wi & A & A1 & A2 & A3 & E)|[(q & Q & Nw & [(_ & E)|(_ & E)])|(q & e & Q & E & _)]]; try congruence.
  rewrite H in E. apply (f_equal (fun r => match r with Ok t => t | Raise _ => [] end)) in E. cbv beta iota in E. split; auto.
  destruct (whole_keys r (po_keys _ R)) as [Nw Kw]; [intros q Q; apply ro_keys; apply (po_request _ R q Q)|].
  destruct (resp_head_ok r) as (H1 & H2 & H3 & _).
  destruct (kv_shape (u "fetch_response") A (resp_head r) (whole r)) as (S1 & S2 & S3 & _); auto; [discriminate|]. subst args. split; [exact S1|].
  intros q Q.
  assert (forall t, In t (dkeys (whole r)) <-> In t (dkeys (fr_attrs q))) as Wq.
  { intros t. rewrite Kw, in_app_iff. unfold silent. rewrite Q, filter_In, negb_true_iff, <- not_true_iff_false, dhas_key. split.
    - intros [K|[K _]]; auto. apply in_map_iff in K as ([t' vs] & Et & I). cbn [fst] in Et. subst t'. destruct (Wi q Q) as (W1 & _). destruct (W1 t vs I) as (x & J).
      apply (in_map fst) in J. exact J.
    - intros K. destruct (dhas text_eqb t (fp_data r)) eqn:D; [left; apply dhas_key; exact D|right]. split; auto. rewrite <- dhas_key. congruence. }
  split; [|split].
  - intros t. split.
    + intros (a & T). apply S2 in T as [T _]. apply Wq in T. apply in_map_iff in T as ([t' x] & Et & I). cbn [fst] in Et. subst t'. eauto.
    + intros (x & I). exists (A t). apply S2. split; auto. apply Wq. apply (in_map fst) in I. exact I.
  - intros a t vs T V. apply S2 in T as [T ->]. pose proof T as T'. apply in_map_iff in T' as ([t' ws] & Et & I). cbn [fst] in Et. subst t'.
    rewrite (values_of_fun _ _ _ _ V (S3 t ws I)). unfold whole in I. apply in_app_or in I as [I|I].
    + rewrite (In_dget text_eqb text_eqb_eq _ _ _ (po_keys _ R) I). reflexivity.
    + apply in_map_iff in I as (s & Es & I). apply pair_equal_spec in Es as [-> <-]. unfold silent in I. rewrite Q in I. apply filter_In in I as [_ I].
      apply negb_true_iff in I. unfold dhas in I. destruct (dget text_eqb t (fp_data r)); [discriminate I|reflexivity].
  - intros a t x T I. apply S2 in T as [_ ->]. destruct (A3 q t x Q I) as [K|[K _]]; auto.
Qed.
Print Assumptions C55_response_limited.

(** When and why a response is refused. *)
Theorem C55_response_decides :
  forall r, response_ok r ->
    (fp_request r = None -> exists args, fetch_response_args r = Ok args) /\
    (forall q, fp_request r = Some q -> aliases_ok q ->
       (within r -> exists args, fetch_response_args r = Ok args) /\
       (~ within r -> fetch_response_args r = Raise KeyError /\ (exists t vs, In (t, vs) (fp_data r) /\ ~ In t (dkeys (fr_attrs q))) \/
                      fetch_response_args r = Raise AXError)).
Proof.
  intros r R. destruct (response_shape r R) as [(Wi & A & _ & _ & _ & E)|[(q & Q & Nw & D)|(q & e & Q & E & _ & Na)]].
  - split; [eauto|]. intros q Q Aq. split; [eauto|]. intros K. contradiction.
  - split; [intros K; congruence|]. intros q' Q' Aq. assert (q' = q) as -> by congruence. split; [intros K; contradiction|]. intros _.
    destruct D as [[D E]|[_ E]]; auto.
  - split; [intros K; congruence|]. intros q' Q' Aq. assert (q' = q) as -> by congruence. contradiction.
Qed.
Print Assumptions C55_response_decides.

(** A response reads back as the same data, with requested types that have no values empty. *)
Theorem C55_response_round_trip :
  forall r args, response_ok r -> fetch_response_args r = Ok args ->
    fetch_response_parse args = Ok (mkFetchResp (fp_data r ++ map (fun t => (t, [])) (silent r)) (sent_update r) None).
Proof.
  intros r args R H. destruct (response_shape r R) as [(Wi & A & A1 & A2 & A3 & E)|[(q & Q & Nw & [(_ & E)|(_ & E)])|(q & e & Q & E & _)]]; try congruence.
  rewrite H in E. apply (f_equal (fun r => match r with Ok t => t | Raise _ => [] end)) in E. cbv beta iota in E.
  destruct (whole_keys r (po_keys _ R)) as [Nw Kw]; [intros q Q; apply ro_keys; apply (po_request _ R q Q)|].
  destruct (resp_head_ok r) as (H1 & H2 & H3 & H4).
  destruct (kv_shape (u "fetch_response") A (resp_head r) (whole r)) as (S1 & _ & _ & S4); auto; [discriminate|].
  assert (kv_parse (u "fetch_response") args = Ok (whole r)) as S5 by (rewrite E; exact S4). assert (NoDup (dkeys args)) as S6 by (rewrite E; exact S1).
  unfold fetch_response_parse. rewrite S5. cbn [bind]. unfold whole. do 2 f_equal. rewrite <- H4.
  destruct (dget text_eqb (u "update_url") (resp_head r)) as [v|] eqn:D.
  - apply (dget_In text_eqb text_eqb_eq) in D. apply (In_dget text_eqb text_eqb_eq); auto. rewrite E. apply in_or_app. auto.
  - apply (dget_None text_eqb text_eqb_eq) in D. apply (dget_None text_eqb text_eqb_eq). rewrite E. unfold dkeys. rewrite map_app, in_app_iff. intros [K|K]; [contradiction|].
    fold (dkeys (flat_map (block A) (whole r))) in K. rewrite dkeys_flat_map in K. apply in_flat_map in K as (x & _ & K). rewrite block_keys in K.
    apply in_app_or in K as [[K|[K|[]]]|K]; try discriminate K. apply in_map_iff in K as (i & K & _). discriminate K.
Qed.
Print Assumptions C55_response_round_trip.

Example C55_response_ex :
  let q := mkFetchReq [(u "urn:a", mkAttr (u "urn:a") (Num 2) true (Some (u "a"))); (u "urn:b", mkAttr (u "urn:b") (Num 1) false None)] (Some (u "http://x/")) in
  fetch_response_args (mkFetchResp [(u "urn:a", [u "1"; u "2"])] None (Some q)) =
  Ok [(u "mode", u "fetch_response"); (u "update_url", u "http://x/"); (u "type.a", u "urn:a"); (u "count.a", u "2"); (u "value.a.1", u "1"); (u "value.a.2", u "2");
      (u "type.ext0", u "urn:b"); (u "count.ext0", u "0")] /\
  fetch_response_args (mkFetchResp [(u "urn:a", [u "1"; u "2"; u "3"])] None (Some q)) = Raise AXError /\
  fetch_response_args (mkFetchResp [(u "urn:c", [])] None (Some q)) = Raise KeyError.
Proof. repeat split; vm_compute; reflexivity. Qed.

(** ** In messages *)
Lemma typed_ext d args : (forall k, dget text_eqb k d = dget text_eqb k args) -> (forall a t, typed d a t <-> typed args a t) /\
  (forall key a, listed d key a <-> listed args key a).
Proof. intros E. split; intros x y; unfold typed, listed; rewrite E; tauto. Qed.
Lemma fetch_ok_ext d args : (forall k, dget text_eqb k d = dget text_eqb k args) -> fetch_ok args -> fetch_ok d.
Proof.
  intros E H. destruct (typed_ext d args E) as [T L]. constructor.
  - rewrite E. apply (fo_mode _ H).
  - intros a t K. apply T in K. apply (fo_alias _ H a t K).
  - intros a b t K1 K2. apply T in K1. apply T in K2. apply (fo_uri _ H a b t); auto.
  - intros a t K. rewrite E. apply T in K. apply (fo_count _ H a t K).
  - intros a K. rewrite !L in K. destruct (fo_listed _ H a K) as (t & Ht). exists t. apply T. exact Ht.
  - intros a t K. apply T in K. rewrite !L. apply (fo_all _ H a t K).
Qed.
Lemma asked_ext d args : (forall k, dget text_eqb k d = dget text_eqb k args) -> forall t x, asked d t x <-> asked args t x.
Proof.
  intros E t x. destruct (typed_ext d args E) as [T L]. unfold asked. split; intros (a & c & b & H1 & H2 & H3 & H4); exists a, c, b.
  - rewrite E in H2. rewrite T in H1. rewrite L in H4. auto.
  - rewrite E, T, L. auto.
Qed.
Lemma values_of_ext d args : (forall k, dget text_eqb k d = dget text_eqb k args) -> forall a vs, values_of d a vs <-> values_of args a vs.
Proof.
  assert (forall d args, (forall k, dget text_eqb k d = dget text_eqb k args) -> forall a vs, values_of d a vs -> values_of args a vs) as H.
  { clear. intros d args E a vs H. destruct H as [H1 H2|v H1 H2 H3|s z vs H1 H2 H3 H4].
    - apply vo_none; rewrite <- E; auto.
    - apply vo_one; auto; rewrite <- E; auto.
    - apply (vo_many _ _ s z); auto; [rewrite <- E; auto|]. intros i v K. rewrite <- E. auto. }
  intros E a vs. split; [apply H; exact E|apply H; intros k; symmetry; apply E].
Qed.

(** A request added to a message and sent is read by the server with the same attributes. *)
Theorem C55_fetch_delivered :
  forall e reg m r args m1 m2,
    built reg m -> good_registry reg -> request_ok r -> request_sendable r -> fetch_request_args r = Ok args ->
    getAlias (mns m) ax_ns = None -> ext_toMessage m ax_ns ax_alias args = Ok m1 ->
    wire_safe reg m1 -> fromPostArgs reg (toPostArgs m1) = Ok m2 ->
    exists r', fetch_fromOpenIDRequest e m2 = Ok (Some r') /\ fr_update r' = None /\
      (forall t x', dget text_eqb t (fr_attrs r') = Some x' ->
         exists x, dget text_eqb t (fr_attrs r) = Some x /\ at_uri x' = t /\ at_count x' = at_count x /\ at_required x' = at_required x) /\
      (forall t x, dget text_eqb t (fr_attrs r) = Some x -> exists x', dget text_eqb t (fr_attrs r') = Some x').
Proof.
  intros e reg m r args m1 m2 B G R S H Ga E Ws P. destruct (fetch_args_facts r args R S H) as (A & F & Na & Ok' & Ty & Up & As).
  destruct (Prop_Sreg.sent_args reg m ax_ns ax_alias args m1 m2 B G) as (B2 & GA & _); auto; [discriminate|].
  destruct (getArgs_spec reg m2 ax_ns B2) as (d & D1 & D2 & D3); [discriminate|].
  assert (forall k, dget text_eqb k d = dget text_eqb k args) as De. { intros k. specialize (D3 k). rewrite GA in D3. congruence. }
  unfold fetch_fromOpenIDRequest. rewrite D1. cbn [bind].
  destruct (fetch_parse_lemma d D2) as [(_ & r' & P1 & P2 & P3 & P4 & P5)|(K & _)]; [|exfalso; apply K; eapply fetch_ok_ext; eauto].
  rewrite P1. rewrite De, Up in P2. rewrite P2. exists r'. split; auto. split; auto. split.
  - intros t x' Hx. apply P5 in Hx. apply (asked_ext d args De) in Hx. apply As in Hx as (y & I & ->). exists y.
    split; [apply (In_dget text_eqb text_eqb_eq); [apply (ro_keys _ R)|exact I]|]. auto.
  - intros t x Hx. apply (dget_In text_eqb text_eqb_eq) in Hx. exists (mkAttr t (at_count x) (at_required x) (Some (A t))). apply P5.
    apply (asked_ext d args De). apply As. exists x. auto.
Qed.
Print Assumptions C55_fetch_delivered.

(** A response in a signed message is read back with the same values. *)
Theorem C55_response_delivered :
  forall reg m r args m1 m2 signed,
    built reg m -> good_registry reg -> response_ok r -> fetch_response_args r = Ok args ->
    getAlias (mns m) ax_ns = None -> ext_toMessage m ax_ns ax_alias args = Ok m1 ->
    wire_safe reg m1 -> fromPostArgs reg (toPostArgs m1) = Ok m2 ->
    (forall k v, dget text_eqb k args = Some v -> In (u "openid.ax." ++ k) signed) ->
    exists r', fetch_fromSuccessResponse m2 signed true = Ok (Some r') /\ fp_update r' = sent_update r /\
      forall t, dget text_eqb t (fp_data r') = dget text_eqb t (fp_data r ++ map (fun t => (t, [])) (silent r)).
Proof.
  intros reg m r args m1 m2 signed B G R H Ga E Ws P Sg. pose proof (C55_response_limited r args R H) as (_ & Na & _).
  pose proof (C55_response_round_trip r args R H) as Rt.
  destruct (Prop_Sreg.sent_args reg m ax_ns ax_alias args m1 m2 B G) as (B2 & GA & _ & _ & Al' & _); auto; [discriminate|].
  destruct (getArgs_spec reg m2 ax_ns B2) as (d & D1 & D2 & D3); [discriminate|].
  assert (forall k, dget text_eqb k d = dget text_eqb k args) as De. { intros k. specialize (D3 k). rewrite GA in D3. congruence. }
  unfold fetch_response_parse in Rt. apply bind_Ok in Rt as (dat & Rt & Ru). injection Ru as Ru1 Ru2.
  assert (u "fetch_response" <> []) as Hm by discriminate.
  destruct (kv_parse_lemma (u "fetch_response") args Hm Na) as [(K & d0 & P1 & P2 & P3 & P4)|(_ & x & P1 & _)]; [|congruence].
  assert (d0 = dat) as -> by congruence.
  assert (args <> []) as Nn. { intros K'. apply ko_mode in K. rewrite K' in K. discriminate K. }
  specialize (Al' Nn).
  assert (extensionResponse m2 signed (NS ax_ns) true = Ok (Some d)) as Ex.
  { cbn [extensionResponse]. unfold getSignedNS. rewrite D1. cbn [bind].
    assert (forall ks, incl ks (dkeys d) -> all_signed m2 signed (NS ax_ns) ks = Ok true) as Alls.
    { induction ks as [|k ks IH]; intros I; auto. cbn [all_signed].
      assert (isSigned m2 signed (NS ax_ns) k = Ok true) as ->.
      { unfold isSigned. unfold getKey. rewrite fixNS_uri by discriminate. cbn [bind]. rewrite Al'. cbn [bind].
        assert (In k (dkeys d)) as Ik by (apply I; left; auto). destruct (dget text_eqb k d) as [v|] eqn:Dk; [|apply (dget_None text_eqb text_eqb_eq) in Dk; contradiction].
        rewrite De in Dk. apply Sg in Dk. f_equal. apply mem_text_In. exact Dk. }
      cbn [bind]. apply IH. intros x Hx. apply I. right; auto. }
    rewrite (Alls (dkeys d)) by (intros x Hx; exact Hx). reflexivity. }
  unfold fetch_fromSuccessResponse. rewrite Ex. cbn [bind]. unfold fetch_response_parse.
  destruct (typed_ext d args De) as [T _].
  destruct (kv_parse_lemma (u "fetch_response") d Hm D2) as [(_ & d1 & Q1 & Q2 & Q3 & Q4)|(Kn & _)].
  - rewrite Q1. cbn [bind]. eexists. split; [reflexivity|]. cbn [fp_update fp_data]. rewrite De, Ru2. split; auto. rewrite <- Ru1.
    intros t. destruct (dget text_eqb t dat) as [vs|] eqn:Dt.
    + apply Q4. apply P4 in Dt as (a & T1 & V1). exists a. split; [apply T; exact T1|apply (values_of_ext d args De); exact V1].
    + destruct (dget text_eqb t d1) as [vs|] eqn:Dt1; auto. apply Q4 in Dt1 as (a & T1 & V1). apply T in T1. apply (values_of_ext d args De) in V1.
      assert (dget text_eqb t dat = Some vs) by (apply P4; eauto). congruence.
  - exfalso. apply Kn. constructor.
    + rewrite De. apply (ko_mode _ _ K).
    + intros a t Ta. apply T in Ta. apply (ko_alias _ _ K a t Ta).
    + intros a b t Ta Tb. apply T in Ta. apply T in Tb. apply (ko_uri _ _ K a b t); auto.
    + intros a t Ta. apply T in Ta. destruct (ko_values _ _ K a t Ta) as (vs & V). exists vs. apply (values_of_ext d args De). exact V.
Qed.
Print Assumptions C55_response_delivered.

(** What is read from a response with [signed] is read from signed arguments only. *)
Theorem C55_response_signed :
  forall reg m signed r, built reg m -> fetch_fromSuccessResponse m signed true = Ok (Some r) ->
    exists d, (forall k, getArg m (NS ax_ns) k = Ok (dget text_eqb k d)) /\
      (forall k v, dget text_eqb k d = Some v -> exists name, getKey m (NS ax_ns) k = Ok (Some name) /\ In name signed) /\
      (forall t vs, dget text_eqb t (fp_data r) = Some vs <-> exists a, typed d a t /\ values_of d a vs) /\
      fp_update r = dget text_eqb (u "update_url") d.
Proof.
  intros reg m signed r B H. unfold fetch_fromSuccessResponse in H. apply bind_Ok in H as (o & H1 & H). destruct o as [d|]; [|discriminate H].
  destruct (getArgs_spec reg m ax_ns B) as (d' & D1 & D2 & D3); [discriminate|]. cbn [extensionResponse] in H1. unfold getSignedNS in H1. rewrite D1 in H1. cbn [bind] in H1.
  apply bind_Ok in H1 as (b & H1 & H2). destruct b; [|discriminate H2]. injection H2 as ->. exists d. split; auto. split.
  - intros k v K. assert (isSigned m signed (NS ax_ns) k = Ok true) as I.
    { eapply Prop_Sreg.all_signed_In; eauto. apply (dget_In text_eqb text_eqb_eq) in K. apply (in_map fst) in K. exact K. }
    unfold isSigned in I. apply bind_Ok in I as (k' & I1 & I2). destruct k' as [k'|]; [|discriminate I2]. injection I2 as I2. apply mem_text_In in I2. eauto.
  - unfold fetch_response_parse in H. assert (u "fetch_response" <> []) as Hm by discriminate.
    destruct (kv_parse_lemma (u "fetch_response") d Hm D2) as [(K & d0 & P1 & P2 & P3 & P4)|(_ & x & P1 & _)].
    + rewrite P1 in H. cbn [bind] in H. injection H as <-. auto.
    + rewrite P1 in H. cbn [bind] in H. destruct x; discriminate H.
Qed.
Print Assumptions C55_response_signed.

(** A request with an update URL is read only when the URL matches the realm (or else the return
    address) of the message. *)
Theorem C55_update_url_matches :
  forall e m r url, fetch_fromOpenIDRequest e m = Ok (Some r) -> fr_update r = Some url -> url <> [] ->
    exists realm tr, (getArg m OPENID_NS (u "realm") = Ok (Some realm) \/
                      getArg m OPENID_NS (u "realm") = Ok None /\ getArg m OPENID_NS (u "return_to") = Ok (Some realm)) /\
      realm <> [] /\ parse e realm = Ok (Some tr) /\ validateURL e tr url = Ok true.
Proof.
  intros e m r url H Hu Nu. unfold fetch_fromOpenIDRequest in H. apply bind_Ok in H as (d & _ & H).
  destruct (fetch_request_parse d) as [r'|x]; [|destruct x; discriminate H].
  assert (fr_update r' = Some url) as Hu'.
  { destruct (fr_update r') as [[|c t]|] eqn:U; try (injection H as ->; congruence).
    apply bind_Ok in H as (rt & _ & H). apply bind_Ok in H as (rl & _ & H). destruct (match rl with Some v => Some v | None => rt end) as [[|c' t']|]; try discriminate H.
    apply bind_Ok in H as (tr & _ & H). destruct tr as [tr|]; [|discriminate H]. apply bind_Ok in H as (b & _ & H). destruct b; [|discriminate H]. injection H as ->. congruence. }
  rewrite Hu' in H. destruct url as [|c t]; [congruence|].
  apply bind_Ok in H as (rt & H1 & H). apply bind_Ok in H as (rl & H2 & H). destruct (match rl with Some v => Some v | None => rt end) as [[|c' t']|] eqn:Rl; try discriminate H.
  apply bind_Ok in H as (tr & H3 & H). destruct tr as [tr|]; [|discriminate H]. apply bind_Ok in H as (b & H4 & H). destruct b; [|discriminate H].
  exists (c' :: t'), tr. split; [|split; [discriminate|auto]]. destruct rl as [v|]; [left; congruence|right; split; congruence].
Qed.
Print Assumptions C55_update_url_matches.

Definition ax_query (realm : text) : dict text text :=
  [(u "openid.ns", OPENID2_NS); (u "openid.realm", realm); (u "openid.ns.ax", ax_ns); (u "openid.ax.mode", u "fetch_request");
   (u "openid.ax.type.a", u "urn:a"); (u "openid.ax.count.a", u "unlimited"); (u "openid.ax.required", u "a"); (u "openid.ax.update_url", u "http://rp.example/update")].
Example C55_update_url_ex :
  let e := mkUenv (fun _ => false) (fun _ => true) (fun _ => None) in
  let read realm := match fromPostArgs Prop_Sreg.sreg_registry (ax_query realm) with Ok m => fetch_fromOpenIDRequest e m | Raise x => Raise x end in
  read (u "http://rp.example/") = Ok (Some (mkFetchReq [(u "urn:a", mkAttr (u "urn:a") Unlimited true (Some (u "a")))] (Some (u "http://rp.example/update")))) /\
  read (u "http://other.example/") = Raise AXError /\
  read (u "rp.example") = Raise AttributeError.
Proof. vm_compute. auto. Qed.
Example C55_delivered_ex :
  let q := [(u "openid.ns", OPENID2_NS); (u "openid.ns.ax", ax_ns); (u "openid.ax.mode", u "fetch_response");
            (u "openid.ax.type.a", u "urn:a"); (u "openid.ax.count.a", u "1"); (u "openid.ax.value.a.1", u "x")] in
  match fromPostArgs Prop_Sreg.sreg_registry q with
  | Ok m => fetch_fromSuccessResponse m (map fst q) true = Ok (Some (mkFetchResp [(u "urn:a", [u "x"])] None None)) /\
            fetch_fromSuccessResponse m (removelast (map fst q)) true = Raise AttributeError /\
            fetch_fromSuccessResponse m [] false = Ok (Some (mkFetchResp [(u "urn:a", [u "x"])] None None))
  | Raise _ => False
  end.
Proof. vm_compute. auto. Qed.

(** ** What does not hold *)
(** The update URL of a request never reaches the server. *)
Theorem C112_update_url_sent_refuted :
  exists r args r', fetch_built r /\ fr_update r = Some (u "http://rp.example/update") /\ fetch_request_args r = Ok args /\
    fetch_request_parse args = Ok r' /\ fr_update r' <> fr_update r.
Proof.
  exists (mkFetchReq [] (Some (u "http://rp.example/update"))). do 2 eexists. split; [constructor|]. split; [reflexivity|].
  split; [vm_compute; reflexivity|]. split; [vm_compute; reflexivity|]. vm_compute. discriminate.
Qed.
Print Assumptions C112_update_url_sent_refuted.

(** A store response is made unless a success comes with an error message; whoever reads its
    mode learns which it was, and a failure's message, if there is one, is in it. *)
Theorem C113_store_response_sent :
  forall ok why,
    match StoreResponse ok why with
    | Raise e => e = AXError /\ ok = true /\ why <> None
    | Ok r =>
        (ok = true -> why = None) /\ NoDup (dkeys (store_response_args r)) /\
        (dget text_eqb (u "mode") (store_response_args r) = Some (u "store_response_success") <-> ok = true) /\
        (dget text_eqb (u "mode") (store_response_args r) = Some (u "store_response_failure") <-> ok = false) /\
        (forall t, t <> [] -> (dget text_eqb (u "error") (store_response_args r) = Some t <-> why = Some t))
    end.
Proof.
  intros ok why. destruct ok, why as [t|]; cbn [StoreResponse].
  - repeat split; auto; discriminate.
  - split; [auto|]. split; [repeat constructor; simpl; tauto|]. split; [split; auto; reflexivity|]. split; [split; [vm_compute|]; discriminate|].
    intros t _. split; [vm_compute|]; discriminate.
  - split; [discriminate|]. destruct t as [|c t].
    + split; [repeat constructor; simpl; tauto|]. split; [split; [vm_compute|]; discriminate|]. split; [split; auto; reflexivity|].
      intros t N. split; [vm_compute; discriminate|]. intros E; inv E. congruence.
    + split. { cbn [store_response_args st_succeeded st_error app dkeys map fst]. repeat constructor; simpl; [|tauto]. intros [H|[]]. vm_compute in H. discriminate. }
      split; [split; [vm_compute|]; discriminate|]. split; [split; auto; reflexivity|].
      intros t' N. split; intros E; [vm_compute in E|]; inv E; reflexivity.
  - split; [discriminate|]. split; [repeat constructor; simpl; tauto|]. split; [split; [vm_compute|]; discriminate|]. split; [split; auto; reflexivity|].
    intros t N. split; [vm_compute|]; discriminate.
Qed.
Print Assumptions C113_store_response_sent.
Example C113_sent_ex :
  match StoreResponse false (Some (u "quota")) with
  | Ok r => store_response_args r = [(u "mode", u "store_response_failure"); (u "error", u "quota")]
  | Raise _ => False
  end.
Proof. vm_compute. reflexivity. Qed.

(** No store response can be read. *)
Theorem C113_store_response_read_refuted :
  exists m m1, newMessage (Some OPENID2_NS) None = Ok m /\
    ext_toMessage m ax_ns ax_alias (store_response_args (mkStoreResp true None)) = Ok m1 /\
    store_fromSuccessResponse m1 [] false = Raise AttributeError /\
    forall m signed b r, store_fromSuccessResponse m signed b <> Ok r.
Proof.
  do 2 eexists. split; [vm_compute; reflexivity|]. split; [vm_compute; reflexivity|]. split; [vm_compute; reflexivity|].
  intros m signed b r H. unfold store_fromSuccessResponse in H. apply bind_Ok in H as (d & _ & H). discriminate H.
Qed.
Print Assumptions C113_store_response_read_refuted.

(** Messages can make reading them raise something other than AXError or KeyError: a type under
    an alias that is a protocol field, an unsigned response. *)
Theorem C114_ax_errors_refuted :
  (exists m m1, newMessage (Some OPENID2_NS) None = Ok m /\
     ext_toMessage m ax_ns ax_alias [(u "mode", u "fetch_request"); (u "type.mode", u "urn:a"); (u "required", u "mode")] = Ok m1 /\
     forall e, fetch_fromOpenIDRequest e m1 = Raise AssertionError) /\
  (exists m m1, newMessage (Some OPENID2_NS) None = Ok m /\
     ext_toMessage m ax_ns ax_alias [(u "mode", u "fetch_response")] = Ok m1 /\
     fetch_fromSuccessResponse m1 [] true = Raise AttributeError).
Proof.
  split.
  - do 2 eexists. split; [vm_compute; reflexivity|]. split; [vm_compute; reflexivity|]. intros e. vm_compute. reflexivity.
  - do 2 eexists. split; [vm_compute; reflexivity|]. split; [vm_compute; reflexivity|]. vm_compute. reflexivity.
Qed.
Print Assumptions C114_ax_errors_refuted.

(** Distinct, legal aliases are not enough for a request to be sent: a generated one can be in
    the way. *)
Theorem C115_distinct_aliases_refuted :
  exists r, fetch_built r /\
    (forall t x a, In (t, x) (fr_attrs r) -> at_alias x = Some a -> alias_ok a) /\
    (forall t x s y a, In (t, x) (fr_attrs r) -> In (s, y) (fr_attrs r) -> at_alias x = Some a -> at_alias y = Some a -> t = s) /\
    fetch_request_args r = Raise InvalidNamespace.
Proof.
  exists (mkFetchReq [(u "urn:a", mkAttr (u "urn:a") (Num 1) false None); (u "urn:b", mkAttr (u "urn:b") (Num 1) false (Some (u "ext0")))] None). split; [|split; [|split]].
  - refine (fb_add _ (u "urn:b") (Num 1) false (Some (u "ext0")) _ _ (fb_add _ (u "urn:a") (Num 1) false None _ _ (fb_new None) _ _) _ _); vm_compute; reflexivity.
  - intros t x a [K|[K|[]]]; apply pair_equal_spec in K as [<- <-]; cbn [at_alias]; [discriminate|]. intros Ka. injection Ka as <-. apply legal_ok. apply legalb_spec. vm_compute. reflexivity.
  - intros t x s y a [K|[K|[]]] [J|[J|[]]]; apply pair_equal_spec in K as [<- <-]; apply pair_equal_spec in J as [<- <-]; cbn [at_alias]; congruence.
  - vm_compute. reflexivity.
Qed.
Print Assumptions C115_distinct_aliases_refuted.
