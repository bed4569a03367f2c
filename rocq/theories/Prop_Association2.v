(** C08-C10, C40: what a signature covers, expiry, session negotiation. *)
From Coq Require Import Lia ZifyBool ZifyN ZifyNat Permutation.
From Verif Require Import Py PyFacts Utf8 Utf8Facts KVForm KVFormFacts CryptUtil CryptUtilFacts.
From Verif Require Import Message MessageFacts MessageWire MessageParse MessageSpec MessageRound.
From Verif Require Import Association AssociationFacts DH Prop_KVForm Prop_Message Prop_Association.
Local Arguments u : simpl never.

Lemma dget_keys (k : text) (d : dict text text) : dget text_eqb k d <> None <-> In k (dkeys d).
Proof.
  rewrite <- (dhas_In text_eqb text_eqb_eq). unfold dhas. destruct (dget text_eqb k d); split; intros; auto; try discriminate; contradiction.
Qed.

(** ** C08: the signature covers every listed field *)

(** The names in a signed list, and the value a verifier uses for one of them: the
    OpenID parameter of the query, or the empty string. *)
Definition listed (signed f : text) : Prop := In f (splitc 44 signed).
Definition value_or_empty (query : list (text * text)) (f : text) : text :=
  match wire_value query f with Some v => v | None => [] end.

(** The bytes a query's signature is computed over. *)
Definition signed_bytes (query : list (text * text)) (signed : text) (b : bytes) : Prop :=
  encode (kv_text (map (fun f => (f, value_or_empty query f)) (splitc 44 signed))) = Ok b.

Lemma parsed_check hmac reg a query m :
  good_registry reg -> NoDup (map fst query) -> (forall al, ~ In (u "openid.ns." ++ al, u "sreg") query) ->
  fromPostArgs reg query = Ok m -> checkMessageSignature hmac a m = Ok true ->
  exists sig signed b,
    wire_value query (u "sig") = Some sig /\ wire_value query (u "signed") = Some signed /\ signed <> [] /\
    kv_bytes (map (fun f => (f, value_or_empty query f)) (splitc 44 signed)) b /\
    signed_bytes query signed b /\ sig = toBase64 (hmac (a_type a) (a_secret a) b).
Proof.
  intros R Hn Hs P H. destruct (C14_parse_exact reg query m R Hn Hs P) as (_ & _ & _ & _ & Q5 & Q6).
  assert (built reg m) as B by (eapply b_parse; eauto).
  assert (exists v, getOpenIDNamespace m = Some v) as (v & V) by (pose proof (fromPostArgs_ver _ _ _ P Hn) as (X & _); eauto).
  pose proof (built_core _ _ _ B V) as C. destruct (check_Ok hmac a m v C H) as (s & sg & b & S1 & S2 & S3 & K & Hs' & _).
  assert (forall k w, dget akey_eqb (Uri v, k) (margs m) = Some w -> wire_value query k = Some w) as G.
  { intros k w E. rewrite <- Q6 || idtac. destruct (Q5 OPENID_NS k w) as (name & N1 & N2).
    { rewrite (core_get _ _ _ C). congruence. }
    unfold getKey in N1. rewrite (core_fix _ _ C) in N1. cbn [bind] in N1. rewrite (core_alias _ _ C) in N1. injection N1 as <-.
    apply (In_dget text_eqb text_eqb_eq); auto. }
  assert (pairs_of (toPostArgs m) sg = map (fun f => (f, value_or_empty query f)) (splitc 44 sg)) as E.
  { unfold pairs_of. apply map_ext. intros f. unfold field, value_or_empty, wire_value. rewrite Q6. auto. }
  rewrite E in K. exists s, sg, b. split; auto. split; auto. split; auto. split; auto. split; auto.
  destruct K as (t & K1 & K2). unfold signed_bytes. rewrite <- K2. f_equal.
  destruct (C02_kv_accepts_exactly false (map (fun f => (f, value_or_empty query f)) (splitc 44 sg))) as (_ & D).
  apply seqToKV_Ok in K1 as (_ & ->). apply kv_text_lines.
Qed.

(** Two queries that verify under one association with the same signature have the
    same signed list and the same value for every field listed in it; otherwise
    the two different byte strings signed are a collision of the MAC. *)
Theorem C08_signature_covers_every_listed_field :
  forall hmac reg a q1 q2 m1 m2,
    good_registry reg -> NoDup (map fst q1) -> NoDup (map fst q2) ->
    (forall al, ~ In (u "openid.ns." ++ al, u "sreg") q1) -> (forall al, ~ In (u "openid.ns." ++ al, u "sreg") q2) ->
    Forall isbyte (a_secret a) -> (forall t k b, Forall isbyte (hmac t k b)) ->
    fromPostArgs reg q1 = Ok m1 -> fromPostArgs reg q2 = Ok m2 ->
    checkMessageSignature hmac a m1 = Ok true -> checkMessageSignature hmac a m2 = Ok true ->
    wire_value q1 (u "sig") = wire_value q2 (u "sig") ->
    exists signed1 signed2, wire_value q1 (u "signed") = Some signed1 /\ wire_value q2 (u "signed") = Some signed2 /\
      ((signed1 = signed2 /\ forall f, listed signed1 f -> value_or_empty q1 f = value_or_empty q2 f) \/
       exists b1 b2, signed_bytes q1 signed1 b1 /\ signed_bytes q2 signed2 b2 /\ b1 <> b2 /\
                     hmac (a_type a) (a_secret a) b1 = hmac (a_type a) (a_secret a) b2).
Proof.
  intros hmac reg a q1 q2 m1 m2 R N1 N2 S1 S2 Hb Hm P1 P2 H1 H2 E.
  destruct (parsed_check hmac reg a q1 m1 R N1 S1 P1 H1) as (g1 & s1 & b1 & A1 & B1 & _ & K1 & X1 & G1).
  destruct (parsed_check hmac reg a q2 m2 R N2 S2 P2 H2) as (g2 & s2 & b2 & A2 & B2 & _ & K2 & X2 & G2).
  exists s1, s2. split; auto. split; auto.
  assert (hmac (a_type a) (a_secret a) b1 = hmac (a_type a) (a_secret a) b2) as M.
  { assert (g1 = g2) as G by congruence. rewrite G1, G2 in G. apply (f_equal fromBase64) in G.
    rewrite !fromBase64_toBase64 in G by auto. injection G as G. exact G. }
  destruct (list_eq_dec N.eq_dec b1 b2) as [Eb|Eb].
  - left. subst b2. pose proof (kv_bytes_inj _ _ _ K1 K2) as Ep.
    assert (splitc 44 s1 = splitc 44 s2) as Es.
    { apply (f_equal (map fst)) in Ep. rewrite !map_map in Ep. cbn [fst] in Ep. rewrite !map_id in Ep. exact Ep. }
    split; [eapply splitc_inj; eauto|]. intros f Hf. rewrite <- Es in Ep.
    pose proof (proj1 map_ext_in_iff Ep f Hf) as Ef. cbn beta in Ef. injection Ef as Ef. exact Ef.
  - right. exists b1, b2. auto.
Qed.
Print Assumptions C08_signature_covers_every_listed_field.

(** Hence a query that differs from a verified one in one listed non-empty value
    needs a different signature (or a MAC collision). *)
Theorem C08_changed_field_is_detected :
  forall hmac reg a q1 q2 m1 m2 signed f,
    good_registry reg -> NoDup (map fst q1) -> NoDup (map fst q2) ->
    (forall al, ~ In (u "openid.ns." ++ al, u "sreg") q1) -> (forall al, ~ In (u "openid.ns." ++ al, u "sreg") q2) ->
    Forall isbyte (a_secret a) -> (forall t k b, Forall isbyte (hmac t k b)) ->
    (forall b1 b2, signed_bytes q1 signed b1 -> signed_bytes q2 signed b2 ->
       hmac (a_type a) (a_secret a) b1 = hmac (a_type a) (a_secret a) b2 -> b1 = b2) ->
    fromPostArgs reg q1 = Ok m1 -> fromPostArgs reg q2 = Ok m2 ->
    checkMessageSignature hmac a m1 = Ok true ->
    wire_value q1 (u "signed") = Some signed -> wire_value q2 (u "signed") = Some signed ->
    wire_value q1 (u "sig") = wire_value q2 (u "sig") ->
    listed signed f -> value_or_empty q1 f <> value_or_empty q2 f ->
    checkMessageSignature hmac a m2 <> Ok true.
Proof.
  intros hmac reg a q1 q2 m1 m2 signed f R N1 N2 S1 S2 Hb Hm Hc P1 P2 H1 W1 W2 E Hf Hv H2.
  destruct (C08_signature_covers_every_listed_field hmac reg a q1 q2 m1 m2 R N1 N2 S1 S2 Hb Hm P1 P2 H1 H2 E) as (s1 & s2 & A1 & A2 & [[_ K]|K]).
  - rewrite W1 in A1. injection A1 as <-. auto.
  - rewrite W1 in A1. injection A1 as <-. rewrite W2 in A2. injection A2 as <-. destruct K as (b1 & b2 & K1 & K2 & K3 & K4). apply K3. eauto.
Qed.
Print Assumptions C08_changed_field_is_detected.

Definition id_mac (t : text) (k b : bytes) : bytes := map (fun x => x mod 256) (k ++ b).
Definition q_signed : list (text * text) :=
  match fromPostArgs reg0 a_query with
  | Ok m => match signMessage id_mac demo_assoc m with Ok m' => toPostArgs m' | Raise _ => [] end
  | Raise _ => []
  end.
Example C08_example :
  exists m, fromPostArgs reg0 q_signed = Ok m /\ checkMessageSignature id_mac demo_assoc m = Ok true /\
    wire_value q_signed (u "signed") = Some (u "assoc_handle,ax.mode,foo.bar,mode,ns,ns.ax,signed") /\
    exists m2, fromPostArgs reg0 (dset text_eqb (u "openid.mode") (u "cancel") q_signed) = Ok m2 /\
               checkMessageSignature id_mac demo_assoc m2 = Ok false.
Proof.
  eexists. split; [vm_compute; reflexivity|]. split; [vm_compute; reflexivity|]. split; [vm_compute; reflexivity|].
  eexists. split; [vm_compute; reflexivity|vm_compute; reflexivity].
Qed.

(** A field listed as signed but missing counts as empty: adding it with an empty
    value is not detected. *)
Theorem C68_added_empty_field_is_detected_refuted :
  exists a q1 q2 m1 m2, fromPostArgs [] q1 = Ok m1 /\ fromPostArgs [] q2 = Ok m2 /\
    checkMessageSignature id_mac a m1 = Ok true /\ checkMessageSignature id_mac a m2 = Ok true /\
    wire_value q1 (u "identity") = None /\ wire_value q2 (u "identity") = Some [] /\
    (exists s, wire_value q1 (u "signed") = Some s /\ listed s (u "identity")) /\
    (forall k, k <> u "openid.identity" -> dget text_eqb k q1 = dget text_eqb k q2).
Proof.
  pose (s := match getMessageSignature id_mac demo_assoc
                (match fromPostArgs [] [(u "openid.ns", OPENID2_NS); (u "openid.signed", u "identity,signed")] with Ok m => m | Raise _ => empty_msg end)
             with Ok s => s | Raise _ => [] end). vm_compute in s.
  exists demo_assoc, [(u "openid.ns", OPENID2_NS); (u "openid.signed", u "identity,signed"); (u "openid.sig", s)],
    [(u "openid.ns", OPENID2_NS); (u "openid.signed", u "identity,signed"); (u "openid.sig", s); (u "openid.identity", [])].
  do 2 eexists. split; [vm_compute; reflexivity|]. split; [vm_compute; reflexivity|]. split; [vm_compute; reflexivity|]. split; [vm_compute; reflexivity|].
  split; [vm_compute; reflexivity|]. split; [vm_compute; reflexivity|]. split.
  - eexists. split; [vm_compute; reflexivity|]. vm_compute. auto.
  - intros k Hk. apply text_eqb_neq in Hk. cbn [dget]. rewrite Hk. destruct (text_eqb k (u "openid.ns")), (text_eqb k (u "openid.signed")), (text_eqb k (u "openid.sig")); auto.
Qed.
Print Assumptions C68_added_empty_field_is_detected_refuted.

(** ** C09: signing covers every protocol field *)
Theorem C09_signing_covers_everything :
  forall hmac reg a m m', built reg m -> signMessage hmac a m = Ok m' ->
    exists v signed sig, getOpenIDNamespace m = Some v /\ getOpenIDNamespace m' = Some v /\
      (* the three parameters it sets *)
      getArg m' OPENID_NS (u "assoc_handle") = Ok (Some (a_handle a)) /\
      getArg m' OPENID_NS (u "signed") = Ok (Some signed) /\
      getArg m' OPENID_NS (u "sig") = Ok (Some sig) /\
      (* everything else is as in the input *)
      (forall n k, (place m n, k) <> (Some (Uri v), u "assoc_handle") -> (place m n, k) <> (Some (Uri v), u "signed") ->
         (place m n, k) <> (Some (Uri v), u "sig") -> getArg m' n k = getArg m n k) /\
      (forall n k, getKey m' n k = getKey m n k) /\
      (* the signed list names exactly the OpenID parameters sent, except the signature *)
      ((forall f, wire_value (toPostArgs m) f <> None -> ~ In 44 f /\ f <> u "sig") ->
         (forall f, listed signed f <-> wire_value (toPostArgs m') f <> None /\ f <> u "sig") /\
         (forall f, listed signed f <-> wire_value (toPostArgs m) f <> None \/ f = u "assoc_handle" \/ f = u "signed")).
Proof.
  intros hmac reg a m m' B H. destruct (sign_core _ _ _ _ _ B H) as (v & V & C).
  assert (built reg m') as B'.
  { clear V C v. unfold signMessage in H. binv H. binv H. destruct (a0 || a1); [discriminate|]. binv H.
    match type of H with context [if ?x then Raise _ else _] => destruct x; [discriminate|] end. binv H. binv H. binv H.
    eapply b_set; [|exact H]. eapply b_set; [|exact E3]. eapply b_set; [exact B|exact E2]. }
  apply (signMessage_Ok hmac a m v m' C) in H. destruct H as [_ C' N S1 S2 (m1 & b & C1 & N1 & A1 & K & A3 & PP) T _]. cbv zeta in *.
  exists v, (join [44] (signed_names m1)), (toBase64 (hmac (a_type a) (a_secret a) b)).
  split; auto. split; [apply C'|].
  assert (u "assoc_handle" <> u "sig" /\ u "assoc_handle" <> u "signed" /\ u "signed" <> u "sig") as (D1 & D2 & D3) by (split; [|split]; discriminate).
  split; [|split; [|split; [|split; [|split]]]].
  - rewrite (core_get _ _ _ C'), A3. rewrite !(dget_dset_other akey_eqb akey_eqb_eq) by (apply akey_ne; discriminate).
    rewrite A1, (dget_dset_same akey_eqb akey_eqb_eq). auto.
  - rewrite (core_get _ _ _ C'), A3. rewrite (dget_dset_other akey_eqb akey_eqb_eq) by (apply akey_ne; discriminate).
    rewrite (dget_dset_same akey_eqb akey_eqb_eq). auto.
  - rewrite (core_get _ _ _ C'), A3. rewrite (dget_dset_same akey_eqb akey_eqb_eq). auto.
  - intros n k H1 H2 H3. assert (getOpenIDNamespace m' = getOpenIDNamespace m) as VV by (rewrite V; apply C').
    pose proof (getArg_place reg m' n k B') as G'. pose proof (getArg_place reg m n k B) as G. rewrite (place_null _ _ _ VV) in G'.
    destruct (place m n) as [x|] eqn:Px.
    + rewrite G, G', A3, A1. rewrite !(dget_dset_other akey_eqb akey_eqb_eq); auto; congruence.
    + unfold getArg. rewrite (fixNS_ext m' m n VV). destruct (fixNS m n) eqn:Fx; auto.
      pose proof (place_ok reg m n B) as Pk. rewrite Px in Pk. destruct Pk as (e & Pk). congruence.
  - intros n k. apply getKey_ext. auto.
  - intros Hf.
    assert (forall f, wire_value (toPostArgs m) f <> None <-> In (u "openid." ++ f) (dkeys (toPostArgs m))) as W.
    { intros f. apply dget_keys. }
    assert (forall f, In (u "openid." ++ f) (dkeys (toPostArgs m1)) <-> wire_value (toPostArgs m) f <> None \/ f = u "assoc_handle") as K1.
    { intros f. rewrite (post_set_keys m v (u "assoc_handle") (a_handle a) m1) by auto. rewrite W.
      split; intros [X|X]; auto. right. apply (app_inv_head (u "openid.")) in X. auto. subst. auto. }
    assert (splitc 44 (join [44] (signed_names m1)) = signed_names m1) as Sp.
    { apply splitc_join; [apply signed_names_ne|]. rewrite Forall_forall. intros f Hin. apply signed_names_In in Hin as [Hin| ->].
      - apply K1 in Hin as [Hin| ->]; [apply Hf; auto|vm_compute; intuition discriminate].
      - vm_compute. intuition discriminate. }
    assert (forall f, listed (join [44] (signed_names m1)) f <-> wire_value (toPostArgs m) f <> None \/ f = u "assoc_handle" \/ f = u "signed") as L.
    { intros f. unfold listed. rewrite Sp, signed_names_In, K1. tauto. }
    split; auto. intros f. rewrite L. unfold wire_value at 2. rewrite PP.
    destruct (text_eq_dec f (u "sig")) as [->|Ns].
    + split; [|intros [_ X]; contradiction]. intros [X|[X|X]]; [apply Hf in X; tauto|discriminate|discriminate].
    + rewrite (dget_dset_other text_eqb text_eqb_eq) by (intros X; apply Ns; apply (app_inv_head (u "openid.")) in X; auto).
      destruct (text_eq_dec f (u "signed")) as [->|Nd].
      * assert (dget text_eqb (u "openid." ++ u "signed") (dset text_eqb (u "openid.signed") (join [44] (signed_names m1)) (toPostArgs m1)) = Some (join [44] (signed_names m1))) as -> by apply (dget_dset_same text_eqb text_eqb_eq).
        split; auto. intros _. split; auto. discriminate.
      * rewrite (dget_dset_other text_eqb text_eqb_eq) by (intros X; apply Nd; apply (app_inv_head (u "openid.")) in X; auto).
        assert (dget text_eqb (u "openid." ++ f) (toPostArgs m1) <> None <-> In (u "openid." ++ f) (dkeys (toPostArgs m1))) as Z.
        { apply dget_keys. }
        rewrite Z, K1. tauto.
Qed.
Print Assumptions C09_signing_covers_everything.

(** It refuses signed messages and other handles; every failure is a ValueError. *)
Theorem C09_signing_refuses :
  forall hmac reg a m v, built reg m -> getOpenIDNamespace m = Some v ->
    ((exists s, getArg m OPENID_NS (u "sig") = Ok (Some s)) -> signMessage hmac a m = Raise ValueError) /\
    ((exists s, getArg m OPENID_NS (u "signed") = Ok (Some s)) -> signMessage hmac a m = Raise ValueError) /\
    (forall h, getArg m OPENID_NS (u "assoc_handle") = Ok (Some h) -> h <> [] -> h <> a_handle a ->
       signMessage hmac a m = Raise ValueError) /\
    (forall e, signMessage hmac a m = Raise e -> isValueError e = true).
Proof.
  intros hmac reg a m v B V. pose proof (built_core _ _ _ B V) as C.
  assert (forall e, signMessage hmac a m = Raise e -> isValueError e = true) as F by (intros e; eapply signMessage_fail; eauto).
  split; [|split; [|split]]; auto.
  - intros (s & H). rewrite (core_get _ _ _ C) in H. injection H as H. unfold signMessage. rewrite !(core_has _ _ _ C). unfold dhas. rewrite H. reflexivity.
  - intros (s & H). rewrite (core_get _ _ _ C) in H. injection H as H. unfold signMessage. rewrite !(core_has _ _ _ C). unfold dhas. rewrite H.
    cbn [bind]. destruct (dget akey_eqb (Uri v, u "sig") (margs m)); cbn [bind orb]; auto.
  - intros h H H1 H2. unfold signMessage. rewrite !(core_has _ _ _ C). cbn [bind]. rewrite H. cbn [bind].
    match goal with |- context [if ?x then Ok true else _] => destruct x end; cbn [bind orb]; auto.
    match goal with |- context [if ?x then Raise _ else _] => destruct x end; auto.
    apply truthy_true in H1. apply text_eqb_neq in H2. rewrite H1, H2. reflexivity.
Qed.
Print Assumptions C09_signing_refuses.
Example C09_example :
  exists m m', fromPostArgs reg0 a_query = Ok m /\ signMessage id_mac demo_assoc m = Ok m' /\
    signMessage id_mac demo_assoc m' = Raise ValueError /\
    signMessage id_mac (mkAssoc (u "other") [1] 0 600 (u "HMAC-SHA1")) m' = Raise ValueError /\
    getArg m' OPENID_NS (u "signed") = Ok (Some (u "assoc_handle,ax.mode,foo.bar,mode,ns,ns.ax,signed")).
Proof. do 2 eexists. split; [vm_compute; reflexivity|]. split; [vm_compute; reflexivity|]. split; [vm_compute; reflexivity|]. split; [vm_compute; reflexivity|vm_compute; reflexivity]. Qed.

(** ** C10: expiry *)
Theorem C10_expiry :
  forall handle secret issued lifetime ty a now,
    newAssoc handle secret issued lifetime ty = Ok a ->
    (0 <= getExpiresIn a now)%Z /\
    (now < issued + lifetime -> getExpiresIn a now = issued + lifetime - now)%Z /\
    (issued + lifetime <= now -> getExpiresIn a now = 0)%Z.
Proof.
  intros handle secret issued lifetime ty a now H. unfold newAssoc in H. destruct (negb _); inv H. unfold getExpiresIn. simpl. lia.
Qed.
Print Assumptions C10_expiry.
Theorem C10_from_expires_in :
  forall t n handle secret ty a, fromExpiresIn t n handle secret ty = Ok a ->
    a_handle a = handle /\ a_secret a = secret /\ known_type (a_type a) /\ a_type a = ty /\
    forall now, (t <= now)%Z -> getExpiresIn a now = Z.max 0 (n - (now - t)).
Proof.
  intros t n handle secret ty a H. unfold fromExpiresIn, newAssoc in H. destruct (mem_text ty all_association_types) eqn:T; inv H. simpl.
  split; auto. split; auto. split; [apply known_type_mem; auto|]. split; auto. intros now Hn. unfold getExpiresIn. simpl. f_equal. lia.
Qed.
Print Assumptions C10_from_expires_in.
Theorem C10_only_known_types :
  forall handle secret issued lifetime ty,
    (known_type ty -> newAssoc handle secret issued lifetime ty = Ok (mkAssoc handle secret issued lifetime ty)) /\
    (~ known_type ty -> newAssoc handle secret issued lifetime ty = Raise ValueError).
Proof.
  intros. unfold newAssoc. rewrite <- known_type_mem. destruct (mem_text ty all_association_types); simpl; split; auto; congruence.
Qed.
Print Assumptions C10_only_known_types.
Example C10_example : exists a, fromExpiresIn 100 50 (u "h") [1] (u "HMAC-SHA1") = Ok a /\
  getExpiresIn a 120 = 30%Z /\ getExpiresIn a 150 = 0%Z /\ getExpiresIn a 1000 = 0%Z.
Proof. eexists. split; [vm_compute; reflexivity|]. vm_compute. auto. Qed.

(** ** C40: the negotiator *)
(** The four combinations OpenID 2.0 allows. *)
Definition valid_pair (a s : text) : Prop :=
  (a = u "HMAC-SHA1" /\ (s = u "DH-SHA1" \/ s = u "no-encryption")) \/
  (a = u "HMAC-SHA256" /\ (s = u "DH-SHA256" \/ s = u "no-encryption")).
Inductive negop := NSet (l : list (text * text)) | NAdd (a : text) (s : option text).
Definition neg_op (n : negotiator) (o : negop) : negotiator * res unit :=
  match o with NSet l => setAllowedTypes n l | NAdd a s => addAllowedType n a s end.
Definition neg_history (ops : list negop) : negotiator := fold_left (fun n o => fst (neg_op n o)) ops [].

Lemma session_types_spec a s : In s (getSessionTypes a) <-> valid_pair a s.
Proof.
  unfold getSessionTypes, valid_pair. cbn [dget]. destruct (text_eqb a (u "HMAC-SHA256")) eqn:E1.
  - apply text_eqb_eq in E1. subst. simpl. split.
    + intros [<-|[<-|[]]]; auto.
    + intros [[H _]|[_ [->| ->]]]; [discriminate|auto|auto].
  - apply text_eqb_neq in E1. destruct (text_eqb a (u "HMAC-SHA1")) eqn:E2.
    + apply text_eqb_eq in E2. subst. simpl. split.
      * intros [<-|[<-|[]]]; auto.
      * intros [[_ [->| ->]]|[H _]]; [auto|auto|discriminate].
    + apply text_eqb_neq in E2. simpl. split; [intros []|]. intros [[H _]|[H _]]; contradiction.
Qed.
Lemma check_pair a s : checkSessionType a s = if mem_text s (getSessionTypes a) then Ok tt else Raise ValueError.
Proof. unfold checkSessionType. destruct (mem_text s (getSessionTypes a)); auto. Qed.
Lemma valid_dec a s : {valid_pair a s} + {~ valid_pair a s}.
Proof.
  destruct (mem_text s (getSessionTypes a)) eqn:E; [left|right].
  - apply session_types_spec, mem_text_In; auto.
  - intros H. apply session_types_spec, mem_text_In in H. congruence.
Qed.
Lemma check_valid a s : checkSessionType a s = if valid_dec a s then Ok tt else Raise ValueError.
Proof.
  rewrite check_pair. destruct (valid_dec a s) as [V|V].
  - apply session_types_spec, mem_text_In in V. rewrite V. auto.
  - destruct (mem_text s (getSessionTypes a)) eqn:E; auto. apply mem_text_In, session_types_spec in E. contradiction.
Qed.
Lemma check_all l : foldM (fun _ p => checkSessionType (fst p) (snd p)) tt l =
  if forallb (fun p => if valid_dec (fst p) (snd p) then true else false) l then Ok tt else Raise ValueError.
Proof.
  induction l as [|[a s] l IH]; auto. cbn [foldM fst snd forallb]. rewrite check_valid. destruct (valid_dec a s); cbn [bind andb]; auto.
Qed.
Lemma addAll_spec a ss : forall n, Forall (valid_pair a) ss -> addAll n a ss = (n ++ map (pair a) ss, Ok tt).
Proof.
  induction ss as [|s ss IH]; intros n H; cbn [addAll map].
  - rewrite app_nil_r. auto.
  - inv H. unfold addAllowedType1. rewrite check_valid. destruct (valid_dec a s); [|contradiction]. rewrite IH by auto. rewrite <- app_assoc. auto.
Qed.

(** What each operation does, also when it raises. *)
Theorem C40_operations :
  forall n,
    (forall l, (Forall (fun p => valid_pair (fst p) (snd p)) l /\ setAllowedTypes n l = (l, Ok tt)) \/
               (~ Forall (fun p => valid_pair (fst p) (snd p)) l /\ setAllowedTypes n l = (n, Raise ValueError))) /\
    (forall a s, (valid_pair a s /\ addAllowedType n a (Some s) = (n ++ [(a, s)], Ok tt)) \/
                 (~ valid_pair a s /\ addAllowedType n a (Some s) = (n, Raise ValueError))) /\
    (forall a, ((exists ss, ss <> [] /\ (forall s, In s ss <-> valid_pair a s) /\
                            addAllowedType n a None = (n ++ map (pair a) ss, Ok tt)) \/
                ((forall s, ~ valid_pair a s) /\ addAllowedType n a None = (n, Raise ValueError)))).
Proof.
  intros n. split; [|split].
  - intros l. unfold setAllowedTypes. rewrite check_all.
    destruct (forallb (fun p : text * text => if valid_dec (fst p) (snd p) then true else false) l) eqn:E; [left|right]; split; auto.
    + rewrite forallb_forall in E. rewrite Forall_forall. intros p Hp. apply E in Hp. destruct (valid_dec (fst p) (snd p)); [auto|discriminate].
    + intros H. rewrite Forall_forall in H. assert (forallb (fun p : text * text => if valid_dec (fst p) (snd p) then true else false) l = true); [|congruence].
      apply forallb_forall. intros p Hp. apply H in Hp. destruct (valid_dec (fst p) (snd p)); auto.
  - intros a s. cbn [addAllowedType]. unfold addAllowedType1. rewrite check_valid. destruct (valid_dec a s); auto.
  - intros a. cbn [addAllowedType]. destruct (getSessionTypes a) as [|x l] eqn:E.
    + right. split; auto. intros s H. apply session_types_spec in H. rewrite E in H. destruct H.
    + left. exists (x :: l). split; [discriminate|]. split.
      * intros s. rewrite <- session_types_spec, E. tauto.
      * apply addAll_spec. rewrite Forall_forall. intros s Hs. apply session_types_spec. rewrite E. auto.
Qed.
Print Assumptions C40_operations.

Theorem C40_negotiator_consistent :
  forall ops, let n := neg_history ops in
    (forall a s, In (a, s) n -> valid_pair a s) /\
    (forall a s, isAllowed n a s = true <-> In (a, s) n) /\
    getAllowedType n = hd_error n /\
    (forall a s, getAllowedType n = Some (a, s) -> isAllowed n a s = true).
Proof.
  intros ops n. assert (forall a s, In (a, s) n -> valid_pair a s) as V.
  { unfold n, neg_history. rewrite <- fold_left_rev_right. induction (rev ops) as [|o l IH]; [intros a s []|]. cbn [fold_right].
    set (n0 := fold_right _ _ l) in *. destruct (C40_operations n0) as (O1 & O2 & O3). intros a s. destruct o as [l0|b t]; cbn [neg_op].
    - destruct (O1 l0) as [[F ->]|[F ->]]; cbn [fst]; auto. intros H. rewrite Forall_forall in F. apply (F (a, s)); auto.
    - destruct t as [t|].
      + destruct (O2 b t) as [[F ->]|[F ->]]; cbn [fst]; auto. intros H. apply in_app_or in H as [H|[H|[]]]; auto. injection H as <- <-. auto.
      + destruct (O3 b) as [(ss & _ & F & ->)|[F ->]]; cbn [fst]; auto. intros H. apply in_app_or in H as [H|H]; auto.
        apply in_map_iff in H as (s' & H & H'). injection H as <- <-. apply F; auto. }
  assert (forall a s, isAllowed n a s = true <-> In (a, s) n) as A.
  { intros a s. unfold isAllowed. rewrite andb_true_iff, mem_text_In, session_types_spec, existsb_exists. split.
    - intros ((p & H1 & H2) & _). unfold type_pair_eqb in H2. apply andb_true_iff in H2 as [H2 H3]. apply text_eqb_eq in H2, H3.
      cbn [fst snd] in *. subst. destruct p. auto.
    - intros H. split; auto. exists (a, s). split; auto. unfold type_pair_eqb. cbn [fst snd]. rewrite !text_eqb_refl. auto. }
  split; auto. split; auto. split; [destruct n; auto|]. intros a s H. apply A. destruct n; [discriminate|]. injection H as ->. left. auto.
Qed.
Print Assumptions C40_negotiator_consistent.

(** The two negotiators the library provides. *)
Theorem C40_default_negotiators :
  default_negotiator = [(u "HMAC-SHA256", u "DH-SHA256"); (u "HMAC-SHA256", u "no-encryption");
                        (u "HMAC-SHA1", u "DH-SHA1"); (u "HMAC-SHA1", u "no-encryption")] /\
  (forall a s, valid_pair a s <-> In (a, s) default_negotiator) /\
  (forall a s, In (a, s) encrypted_negotiator <-> valid_pair a s /\ s <> u "no-encryption").
Proof.
  split; [vm_compute; reflexivity|]. assert (default_negotiator = default_association_order) as -> by (vm_compute; reflexivity).
  assert (encrypted_negotiator = only_encrypted_association_order) as -> by (vm_compute; reflexivity).
  unfold default_association_order, only_encrypted_association_order, valid_pair. split; intros a s; cbn [In].
  - split.
    + intros [[-> [->| ->]]|[-> [->| ->]]]; auto.
    + intros [H|[H|[H|[H|[]]]]]; injection H as <- <-; auto.
  - split.
    + intros [H|[H|[]]]; injection H as <- <-; split; auto; discriminate.
    + intros ([[-> [->| ->]]|[-> [->| ->]]] & H); auto; contradiction.
Qed.
Print Assumptions C40_default_negotiators.
Example C40_example :
  neg_history [NSet [(u "HMAC-SHA1", u "DH-SHA1")]; NAdd (u "HMAC-SHA1") (Some (u "DH-SHA256")); NAdd (u "HMAC-SHA256") None]
  = [(u "HMAC-SHA1", u "DH-SHA1"); (u "HMAC-SHA256", u "DH-SHA256"); (u "HMAC-SHA256", u "no-encryption")].
Proof. vm_compute. reflexivity. Qed.

(** ** C75: the secret an association type asks for fits the mask of its sessions *)
(** The hash of a Diffie-Hellman session type and the sizes of the digests. *)
Definition session_hash (s : text) : option hash_alg :=
  if text_eqb s (u "DH-SHA1") then Some SHA1 else if text_eqb s (u "DH-SHA256") then Some SHA256 else None.
Definition digest_size (h : hash_alg) : N := match h with SHA1 => 20 | SHA256 => 32 end.

Theorem C75_secret_fits_session :
  forall a s, valid_pair a s ->
    (exists n, getSecretSize a = Ok n) /\
    (forall h, session_hash s = Some h -> getSecretSize a = Ok (digest_size h)).
Proof.
  intros a s [[-> [->| ->]]|[-> [->| ->]]]; (split; [eexists; vm_compute; reflexivity|]); intros h H; vm_compute in H;
    [injection H as <-; vm_compute; reflexivity|discriminate|injection H as <-; vm_compute; reflexivity|discriminate].
Qed.
Print Assumptions C75_secret_fits_session.

(** So masking and unmasking such a secret never fails for its length. *)
Theorem C75_mask_has_room :
  forall a s h n secret mask,
    valid_pair a s -> session_hash s = Some h -> getSecretSize a = Ok n ->
    len secret = n -> len mask = digest_size h ->
    exists r, strxor secret mask = Ok r /\ len r = n /\ strxor r mask = Ok secret.
Proof.
  intros a s h n secret mask V H N1 L1 L2. destruct (C75_secret_fits_session a s V) as [_ F].
  rewrite (F h H) in N1. injection N1 as <-.
  assert (E : List.length secret = List.length mask) by (unfold len in *; lia).
  assert (X : forall x y : bytes, List.length x = List.length y -> List.length (xor_bytes x y) = List.length x).
  { induction x as [|p x IH]; intros [|q y] Q; try discriminate; [reflexivity|]. cbn [xor_bytes List.length]. f_equal. apply IH. injection Q as Q. exact Q. }
  exists (xor_bytes secret mask). unfold strxor. rewrite E, Nat.eqb_refl. split; [reflexivity|].
  split; [unfold len in *; rewrite X by exact E; lia|].
  rewrite X by exact E. rewrite E, Nat.eqb_refl. f_equal.
  clear - E. revert mask E. induction secret as [|p x IH]; intros [|q y] Q; try discriminate; [reflexivity|]. cbn [xor_bytes].
  injection Q as Q. rewrite IH by exact Q. rewrite N.lxor_assoc, N.lxor_nilpotent, N.lxor_0_r. reflexivity.
Qed.
Print Assumptions C75_mask_has_room.

Example C75_example :
  getSecretSize (u "HMAC-SHA1") = Ok 20 /\ getSecretSize (u "HMAC-SHA256") = Ok 32 /\ getSecretSize (u "HMAC-MD5") = Raise ValueError.
Proof. split; [vm_compute; reflexivity|]. split; [vm_compute; reflexivity|vm_compute; reflexivity]. Qed.
