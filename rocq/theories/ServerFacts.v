(** Proofs about Server.v: what decoding reads, and the stores behind a signatory. *)
From Coq Require Import Lia ZifyBool ZifyN ZifyNat.
From Verif Require Import Py PyFacts Utf8 Utf8Facts KVForm CryptUtil Message MessageFacts MessageWire MessageParse MessageSpec MessageRound Association AssociationFacts.
From Verif Require Import Prop_Association.
Open Scope N_scope.
Local Arguments u : simpl never.

(** ** Undotted OpenID fields of a parsed query *)
Lemma fixNS_not_core m n oid x : In oid allowed_openid_namespaces -> n <> oid -> fixNS m (NS n) = Ok x -> x <> Uri oid.
Proof.
  intros A Hn H K. subst x. unfold fixNS in H. cbn [bind] in H. destruct (_ && _).
  - injection H as H. subst oid. destruct A as [A|[A|[A|[]]]]; discriminate.
  - injection H as H. contradiction.
Qed.
Lemma put_arg_core reg m al k v m' oid q : wf m -> getOpenIDNamespace m = Some oid -> In oid allowed_openid_namespaces ->
  ~ In 46 q -> put_arg reg m (al, k, v) = Ok m' ->
  dget akey_eqb (Uri oid, q) (margs m') =
    match al with
    | Null => if text_eqb q k then Some v else dget akey_eqb (Uri oid, q) (margs m)
    | Al _ => dget akey_eqb (Uri oid, q) (margs m)
    end.
Proof.
  intros W V A Hq H. pose proof (allowed_not_sreg _ A) as Hs. unfold put_arg in H.
  assert (getAlias (mns m) oid = Some Null) as GA by (apply (wn_inv _ (wm_ns _ W)); exact V).
  assert (forall m0 n, wf m0 -> margs m0 = margs m -> n <> oid -> setArg m0 (NS n) k v = Ok m' ->
            dget akey_eqb (Uri oid, q) (margs m') = dget akey_eqb (Uri oid, q) (margs m)) as O.
  { intros m0 n W0 E0 Hn Hx. apply setArg_inv in Hx as (x & F & M & _); auto. rewrite M, E0.
    apply (dget_dset_other akey_eqb akey_eqb_eq). intros K. inv K. eapply fixNS_not_core; eauto. }
  destruct (getNamespaceURI (mns m) al) as [n|] eqn:E.
  - destruct al as [|a].
    + unfold getOpenIDNamespace in V. rewrite E in V. injection V as ->.
      apply setArg_inv in H as (x & F & M & _); auto. rewrite fixNS_uri in F by auto. injection F as <-. rewrite M.
      rewrite (dget_dset akey_eqb akey_eqb_eq). unfold akey_eqb. cbn [fst snd ns_eqb]. rewrite text_eqb_refl. auto.
    + apply (O m n) in H; auto. intros ->. apply (wn_inv _ (wm_ns _ W)) in E. congruence.
  - destruct al as [|a]; [unfold getOpenIDNamespace in V; congruence|].
    destruct (getDefaultNamespace reg m (Al a)) as [n|] eqn:D.
    + pose proof (wf_alias m n (Al a) true W) as W2.
      destruct (addAlias (mns m) n (Al a) true) as [n' [b|x]] eqn:AA; [|discriminate].
      apply addAlias_Ok in AA as (_ & _ & _ & _ & _ & _ & _ & G). apply (O (mkMsg (margs m) n') n) in H; auto.
      intros ->. destruct G; congruence.
    + rewrite V in H. apply setArg_inv in H as (x & F & M & _); auto. rewrite M.
      apply (dget_dset_other akey_eqb akey_eqb_eq). intros K. inv K. apply Hq. cbn [alias_text]. apply in_or_app. right. left. auto.
Qed.

Lemma put_args_core reg oid q : In oid allowed_openid_namespaces -> ~ In 46 q ->
  forall l m m', wf m -> getOpenIDNamespace m = Some oid -> foldM (put_arg reg) m l = Ok m' ->
  NoDup (map fst l) ->
  (forall v, In (Null, q, v) l -> dget akey_eqb (Uri oid, q) (margs m') = Some v) /\
  ((forall v, ~ In (Null, q, v) l) -> dget akey_eqb (Uri oid, q) (margs m') = dget akey_eqb (Uri oid, q) (margs m)).
Proof.
  intros A Hq. induction l as [|[[al k] v] l IH]; intros m m' W V H N; cbn [foldM] in H.
  - inv H. split; [intros ? []|auto].
  - destruct (put_arg reg m (al, k, v)) as [m1|x] eqn:E; [|discriminate]. cbn [bind] in H.
    pose proof (put_arg_wf _ _ _ _ W E) as W1.
    assert (getOpenIDNamespace m1 = Some oid) as V1 by (rewrite <- V; apply (put_arg_null reg m (al, k, v) m1); auto; congruence).
    pose proof (put_arg_core reg m al k v m1 oid q W V A Hq E) as P. cbn [map fst] in N. inv N.
    destruct (IH m1 m' W1 V1 H) as (I1 & I2); auto. split.
    + intros w [K|K].
      * inv K. rewrite text_eqb_refl in P. rewrite I2; auto. intros w' K. apply H2. apply (in_map fst) in K. exact K.
      * apply I1; auto.
    + intros K. rewrite I2 by (intros w Hw; eapply K; right; eauto). rewrite P. destruct al; auto.
      destruct (text_eqb q k) eqn:Q; auto. apply text_eqb_eq in Q. subst. exfalso. eapply K; left; eauto.
Qed.

Lemma parsed_field reg query m k : NoDup (dkeys query) -> fromPostArgs reg query = Ok m -> ~ In 46 k -> k <> u "ns" ->
  getArg m OPENID_NS k = Ok (dget text_eqb (u "openid." ++ k) query).
Proof.
  intros Hn H Hd Hk. pose proof (fromPostArgs_ver _ _ _ H Hn) as (V & A).
  assert (core m (oid_of (openid_part query))) as C.
  { eapply built_core; eauto. eapply b_parse; eauto. }
  rewrite (core_get _ _ _ C). f_equal. pose proof (NoDup_openid_part _ Hn) as Hp.
  pose proof (fromPostArgs_spec reg query Hn) as S. destruct (fromOpenIDArgs reg (openid_part query)) as [m0|x] eqn:F; [|congruence].
  destruct S as (m' & S1 & _ & S3 & _). rewrite S1 in H. inv H. rewrite S3. set (oid := oid_of (openid_part query)) in *.
  rewrite fromOpenIDArgs_unfold in F by auto. fold oid in F. binv F. rename a into m1. binv F. rename a into m2.
  apply newMessage_Some in E as (_ & W1 & M1 & N1 & _).
  assert (NoDup (dkeys (decls_of (openid_part query)))) as ND by (apply NoDup_decls; auto).
  destruct (add_decls_sound _ _ _ W1 ND E0) as (W2 & M2 & _ & N2).
  assert (getOpenIDNamespace m2 = Some oid) as V2. { apply N2. left. apply N1. auto. }
  destruct (put_args_core reg oid k A Hd _ _ _ W2 V2 F (NoDup_args _ Hp)) as (P1 & P2).
  assert (entry_ok Null k) as EO by (split; auto).
  assert (forall v, In (Null, k, v) (args_of (openid_part query)) <-> In (u "openid." ++ k, v) query) as I.
  { intros v. rewrite In_args_of, In_openid_part. cbn [untag]. tauto. }
  destruct (dget text_eqb (u "openid." ++ k) query) as [v|] eqn:D.
  - apply (dget_In text_eqb text_eqb_eq) in D. apply P1. apply I. auto.
  - etransitivity; [apply P2|rewrite M2, M1; auto]. intros v K. apply I in K. apply (In_dget text_eqb text_eqb_eq) in K; auto. congruence.
Qed.

Lemma check_fail hmac a m oid x : core m oid -> checkMessageSignature hmac a m = Raise x -> isValueError x = true.
Proof.
  intros C H. unfold checkMessageSignature in H. rewrite (core_get _ _ _ C) in H. cbn [bind] in H.
  destruct (dget _ _ (margs m)) as [s|]; [|inv H; auto]. destruct (truthy s); cbn [negb] in H; [|inv H; auto].
  unfold getMessageSignature in H. rewrite (makePairs_eq _ _ C) in H.
  destruct (dget _ _ (margs m)) as [t|]; [|inv H; auto]. destruct (truthy t); cbn [bind] in H; [|inv H; auto].
  destruct (sign hmac a _) as [g|y] eqn:S; cbn [bind] in H; [|inv H; eapply sign_error; eauto].
  destruct (encode (toBase64 g)) as [b|y] eqn:B; cbn [bind] in H; [|apply encode_Raise in B; subst; inv H; auto].
  destruct (encode s) as [c|y] eqn:B2; cbn [bind] in H; [discriminate|]. apply encode_Raise in B2. subst. inv H. auto.
Qed.
