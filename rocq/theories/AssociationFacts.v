(** Proofs about Association.v: serialization, signing and verification. *)
From Coq Require Import Lia ZifyBool ZifyN ZifyNat Permutation.
From Verif Require Import Py PyFacts Utf8 Utf8Facts KVForm KVFormFacts CryptUtil CryptUtilFacts.
From Verif Require Import Message MessageFacts MessageWire MessageParse MessageSpec MessageRound Association.
Local Arguments u : simpl never.

Lemma splitc_app_sep c a b : splitc c (a ++ c :: b) = splitc c a ++ splitc c b.
Proof.
  induction a as [|x a IH]; cbn [app splitc].
  - rewrite N.eqb_refl. auto.
  - rewrite IH. destruct (x =? c); auto. pose proof (splitc_nonempty c a). destruct (splitc c a); [congruence|]. auto.
Qed.
Lemma splitc_join_gen c l : l <> [] -> splitc c (join [c] l) = flat_map (splitc c) l.
Proof.
  induction l as [|p l IH]; intros H; [congruence|]. destruct l as [|q l].
  - simpl. rewrite app_nil_r. auto.
  - change (join [c] (p :: q :: l)) with (p ++ c :: join [c] (q :: l)). rewrite splitc_app_sep, IH by discriminate. auto.
Qed.

(** ** Core parameters and the wire form *)
Definition core (m : msg) (oid : text) : Prop := wf m /\ getOpenIDNamespace m = Some oid /\ oid <> sreg_lit.

Lemma core_fix m oid : core m oid -> fixNS m OPENID_NS = Ok (Uri oid).
Proof.
  intros (_ & H & Hs). unfold fixNS. rewrite H. simpl. apply text_eqb_neq in Hs. unfold sreg_lit in Hs. rewrite Hs, andb_false_r. auto.
Qed.
Lemma core_alias m oid : core m oid -> getAlias (mns m) oid = Some Null.
Proof. intros (W & H & _). apply (wn_inv _ (wm_ns _ W)). exact H. Qed.
Lemma core_get m oid k : core m oid -> getArg m OPENID_NS k = Ok (dget akey_eqb (Uri oid, k) (margs m)).
Proof. intros C. unfold getArg. rewrite (core_fix _ _ C). auto. Qed.
Lemma core_has m oid k : core m oid -> hasKey m OPENID_NS k = Ok (dhas akey_eqb (Uri oid, k) (margs m)).
Proof. intros C. unfold hasKey. rewrite (core_fix _ _ C). auto. Qed.
Lemma core_set m oid k v : core m oid ->
  exists m', setArg m OPENID_NS k v = Ok m' /\ margs m' = dset akey_eqb (Uri oid, k) v (margs m) /\
    mns m' = mns m /\ core m' oid.
Proof.
  intros C. pose proof C as (W & H & Hs).
  destruct (setArg_uri m oid k v W Hs) as (E & W'). { rewrite (core_alias _ _ C). discriminate. }
  exists (mkMsg (dset akey_eqb (Uri oid, k) v (margs m)) (mns m)). split.
  - rewrite <- E. unfold setArg. rewrite (core_fix _ _ C), fixNS_uri; auto.
  - split; auto. split; auto. split; auto.
Qed.

Lemma post_ns_ext m m' : mns m' = mns m -> post_ns m' = post_ns m.
Proof. intros H. unfold post_ns. rewrite H. auto. Qed.
Lemma keyname_ext m m' n k : mns m' = mns m -> keyname m' n k = keyname m n k.
Proof. intros H. unfold keyname. rewrite H. auto. Qed.

Lemma getKey_ext m m' n k : mns m' = mns m -> getKey m' n k = getKey m n k.
Proof. intros H. unfold getKey. rewrite (fixNS_ext m' m n). { rewrite H. auto. } unfold getOpenIDNamespace. rewrite H. auto. Qed.

Lemma post_set_fresh m oid k v m' : core m oid -> mns m' = mns m ->
  dget akey_eqb (Uri oid, k) (margs m) = None -> margs m' = dset akey_eqb (Uri oid, k) v (margs m) ->
  toPostArgs m' = dset text_eqb (u "openid." ++ k) v (toPostArgs m).
Proof.
  intros C N F A. unfold toPostArgs. rewrite N, A, (dset_fresh akey_eqb) by auto. rewrite fold_left_app. cbn [fold_left fst snd].
  rewrite (getKey_ext m m' _ _ N). unfold nsarg_of. unfold getKey at 1. pose proof C as (W & H & Hs). rewrite fixNS_uri by auto. cbn [bind].
  rewrite (core_alias _ _ C). f_equal.
  match goal with |- fold_left _ _ ?d = _ => generalize d end. generalize (margs m).
  induction d as [|e d IH]; intros d0; cbn [fold_left]; auto. rewrite (getKey_ext m m' _ _ N). apply IH.
Qed.

Lemma assoc_last_map_dset {B} (f : (ns * text) * text -> text * B) t key v l :
  (forall w, fst (f (key, w)) <> t) ->
  assoc_last text_eqb t (map f (dset akey_eqb key v l)) = assoc_last text_eqb t (map f l).
Proof.
  intros Hf. assert (forall w, text_eqb t (fst (f (key, w))) = false) as Hf' by (intros w; apply text_eqb_neq; intros K; apply (Hf w); auto).
  induction l as [|[k' w] l IH]; cbn [dset].
  - cbn [map assoc_last]. specialize (Hf' v). destruct (f (key, v)). cbn [fst] in Hf'. rewrite Hf'. auto.
  - destruct (akey_eqb key k') eqn:E.
    + apply akey_eqb_eq in E. subst k'. cbn [map assoc_last]. pose proof (Hf' v) as E1. pose proof (Hf' w) as E2.
      destruct (f (key, v)), (f (key, w)). cbn [fst] in *. rewrite E1, E2. auto.
    + cbn [map assoc_last]. destruct (f (k', w)). rewrite IH. auto.
Qed.

Lemma post_set_other m oid k v m' t : core m oid -> wf m' -> mns m' = mns m ->
  margs m' = dset akey_eqb (Uri oid, k) v (margs m) -> t <> u "openid." ++ k ->
  dget text_eqb t (toPostArgs m') = dget text_eqb t (toPostArgs m).
Proof.
  intros C W' N A Ht. rewrite !toPostArgs_dget by (auto; apply C). rewrite (post_ns_ext m m') by auto.
  assert (assoc_last text_eqb t (post_args m') = assoc_last text_eqb t (post_args m)) as ->; auto.
  unfold post_args. rewrite A. rewrite (map_ext (fun e => (keyname m' (fst (fst e)) (snd (fst e)), snd e)) (fun e => (keyname m (fst (fst e)) (snd (fst e)), snd e))).
  2:{ intros e. rewrite (keyname_ext m m'); auto. }
  apply assoc_last_map_dset. intros w. cbn [fst snd keyname]. rewrite (core_alias _ _ C). auto.
Qed.

Lemma assoc_last_In_some {V} t (l : list (text * V)) v : In (t, v) l -> assoc_last text_eqb t l <> None.
Proof.
  induction l as [|[k w] l IH]; [intros []|]. intros [H|H]; cbn [assoc_last].
  - inv H. rewrite text_eqb_refl. destruct (assoc_last text_eqb t l); discriminate.
  - apply IH in H. destruct (assoc_last text_eqb t l); [discriminate|contradiction].
Qed.
Lemma post_core_has m oid k v : core m oid -> dget akey_eqb (Uri oid, k) (margs m) = Some v ->
  dget text_eqb (u "openid." ++ k) (toPostArgs m) <> None.
Proof.
  intros C H. pose proof C as (W & _). rewrite toPostArgs_dget by auto.
  pose proof (assoc_last_In_some (u "openid." ++ k) (post_args m) v) as A.
  destruct (assoc_last text_eqb (u "openid." ++ k) (post_args m)); [discriminate|]. exfalso. apply A; auto.
  apply In_post_args; [apply W|]. exists (Uri oid), k. split; auto. cbn [keyname]. rewrite (core_alias _ _ C). auto.
Qed.

Lemma post_set_keys m oid k v m' t : core m oid -> core m' oid -> mns m' = mns m ->
  margs m' = dset akey_eqb (Uri oid, k) v (margs m) ->
  In t (dkeys (toPostArgs m')) <-> In t (dkeys (toPostArgs m)) \/ t = u "openid." ++ k.
Proof.
  intros C C' N A. rewrite <- !(dhas_In text_eqb text_eqb_eq). unfold dhas. destruct (text_eq_dec t (u "openid." ++ k)) as [->|Ht].
  - split; auto. intros _. pose proof (post_core_has m' oid k v C') as P. rewrite A, (dget_dset_same akey_eqb akey_eqb_eq) in P.
    specialize (P eq_refl). destruct (dget _ _ _); [auto|contradiction].
  - rewrite (post_set_other m oid k v m' t); auto; [|apply C']. tauto.
Qed.

(** ** Verification depends on the wire form only *)
Definition openid_same (d e : dict text text) : Prop :=
  forall k, dget text_eqb (u "openid." ++ k) d = dget text_eqb (u "openid." ++ k) e.

Definition field (d : dict text text) (f : text) : text :=
  match dget text_eqb (u "openid." ++ f) d with Some v => v | None => [] end.
Definition pairs_of (d : dict text text) (s : text) : list (text * text) :=
  map (fun f => (f, field d f)) (splitc 44 s).

Lemma makePairs_eq m oid : core m oid ->
  makePairs m = match dget akey_eqb (Uri oid, u "signed") (margs m) with
                | Some s => if truthy s then Ok (pairs_of (toPostArgs m) s) else Raise ValueError
                | None => Raise ValueError
                end.
Proof.
  intros C. unfold makePairs. rewrite (core_get _ _ _ C). cbn [bind]. destruct (dget _ _ (margs m)) as [s|]; auto.
  destruct (truthy s); auto.
Qed.

Section M.
  Variable hmac : text -> bytes -> bytes -> bytes.

  Lemma sign_error a ps e : sign hmac a ps = Raise e -> isValueError e = true.
  Proof using.
    unfold sign. intros H. destruct (seqToKV false ps) eqn:E; cbn [bind] in H.
    - destruct (negb _); [inv H; auto|]. destruct (encode a0) eqn:E2; cbn [bind] in H; [discriminate|]. apply encode_Raise in E2. subst. inv H. auto.
    - apply seqToKV_Raise in E. subst. inv H. auto.
  Qed.

  (** What is signed: the key-value text of the pairs, in bytes. *)
  Definition kv_bytes (ps : list (text * text)) (b : bytes) : Prop :=
    exists t, seqToKV false ps = Ok t /\ encode t = Ok b.
  Lemma sign_Ok a ps s : sign hmac a ps = Ok s -> exists b, kv_bytes ps b /\ s = hmac (a_type a) (a_secret a) b /\
    In (a_type a) [u "HMAC-SHA1"; u "HMAC-SHA256"].
  Proof using.
    unfold sign. intros H. binv H. destruct (negb _) eqn:T; [discriminate|]. binv H. inv H.
    exists a1. split; [|split]; auto. { exists a0; auto. } apply mem_text_In. apply negb_false_iff. auto.
  Qed.
  Lemma kv_bytes_inj p1 p2 b : kv_bytes p1 b -> kv_bytes p2 b -> p1 = p2.
  Proof using.
    intros (t1 & A1 & B1) (t2 & A2 & B2). assert (t1 = t2) by (eapply encode_inj; eauto). subst. eapply seqToKV_inj; eauto.
  Qed.
  Lemma check_Ok a m oid : core m oid -> checkMessageSignature hmac a m = Ok true ->
    exists s signed b,
      dget akey_eqb (Uri oid, u "sig") (margs m) = Some s /\
      dget akey_eqb (Uri oid, u "signed") (margs m) = Some signed /\ signed <> [] /\
      kv_bytes (pairs_of (toPostArgs m) signed) b /\
      s = toBase64 (hmac (a_type a) (a_secret a) b) /\ In (a_type a) [u "HMAC-SHA1"; u "HMAC-SHA256"].
  Proof using.
    intros C. unfold checkMessageSignature, getMessageSignature. rewrite (core_get _ _ _ C), (makePairs_eq _ _ C). cbn [bind].
    destruct (dget akey_eqb (Uri oid, u "sig") (margs m)) as [s|]; [|discriminate]. destruct (negb (truthy s)); [discriminate|].
    destruct (dget akey_eqb (Uri oid, u "signed") (margs m)) as [sg|]; [|discriminate]. destruct (truthy sg) eqn:T; [|discriminate].
    cbn [bind]. intros H. binv H. binv E. apply sign_Ok in E0 as (b & K1 & K2 & K3). inv E. binv H. binv H. injection H as H.
    apply list_eqb_eq in H; [|apply N.eqb_eq]. subst a1. exists s, sg, b. split; auto. split; auto. split; [apply truthy_true; auto|].
    split; auto. split; auto. symmetry. eapply encode_inj; eauto.
  Qed.
  Lemma check_same a m m' oid oid' : core m oid -> core m' oid' ->
    dget akey_eqb (Uri oid, u "sig") (margs m) = dget akey_eqb (Uri oid', u "sig") (margs m') ->
    dget akey_eqb (Uri oid, u "signed") (margs m) = dget akey_eqb (Uri oid', u "signed") (margs m') ->
    openid_same (toPostArgs m) (toPostArgs m') ->
    checkMessageSignature hmac a m = checkMessageSignature hmac a m'.
  Proof using.
    intros C C' S1 S2 P. unfold checkMessageSignature, getMessageSignature.
    rewrite (core_get _ _ _ C), (makePairs_eq _ _ C), (core_get _ _ _ C'), (makePairs_eq _ _ C'), S1, S2. cbn [bind].
    destruct (dget akey_eqb (Uri oid', u "signed") (margs m')) as [sg|]; auto.
    assert (pairs_of (toPostArgs m) sg = pairs_of (toPostArgs m') sg) as ->; auto.
    unfold pairs_of. apply map_ext. intros f. unfold field. rewrite P. auto.
  Qed.

  (** ** signMessage *)
  Definition signed_names (m1 : msg) : list text := signed_list_of (dkeys (toPostArgs m1)).
  Lemma signed_names_ne m1 : signed_names m1 <> [].
  Proof using.
    unfold signed_names, signed_list_of. intros H.
    assert (In (u "signed") (sort text_leb (map (skipn 7) (filter (fun k => startswith k (u "openid.")) (dkeys (toPostArgs m1))) ++ [u "signed"]))) as K.
    { eapply Permutation_in; [apply sort_perm|]. apply in_or_app. right. left. auto. }
    rewrite H in K. destruct K.
  Qed.
  Lemma signed_names_In m1 f : In f (signed_names m1) <-> In (u "openid." ++ f) (dkeys (toPostArgs m1)) \/ f = u "signed".
  Proof using.
    unfold signed_names, signed_list_of. split.
    - intros H. eapply Permutation_in in H; [|apply Permutation_sym, sort_perm]. apply in_app_or in H as [H|[<-|[]]]; auto.
      apply in_map_iff in H as (k & <- & H). apply filter_In in H as [H K]. apply startswith_spec in K as (r & ->). left. exact H.
    - intros H. eapply Permutation_in; [apply sort_perm|]. apply in_or_app. destruct H as [H| ->]; [left|right; left; auto].
      apply in_map_iff. exists (u "openid." ++ f). split; auto. apply filter_In. split; auto.
  Qed.
  Lemma join_ne c l x : In x l -> x <> [] -> join [c] l <> [].
  Proof using.
    induction l as [|p l IH]; [intros []|]. intros H Hx. destruct l as [|q l].
    - destruct H as [->|[]]. auto.
    - change (join [c] (p :: q :: l)) with (p ++ c :: join [c] (q :: l)). destruct p; discriminate.
  Qed.

  Record signed_as (a : assoc) (m : msg) (oid : text) (m' : msg) : Prop := {
    sa_core : core m oid;
    sa_core' : core m' oid;
    sa_ns : mns m' = mns m;
    sa_nosig : dget akey_eqb (Uri oid, u "sig") (margs m) = None;
    sa_nosigned : dget akey_eqb (Uri oid, u "signed") (margs m) = None;
    sa_body : exists m1 b,
      core m1 oid /\ mns m1 = mns m /\ margs m1 = dset akey_eqb (Uri oid, u "assoc_handle") (a_handle a) (margs m) /\
      let sl := join [44] (signed_names m1) in
      let post2 := dset text_eqb (u "openid.signed") sl (toPostArgs m1) in
      kv_bytes (pairs_of post2 sl) b /\
      let s := toBase64 (hmac (a_type a) (a_secret a) b) in
      margs m' = dset akey_eqb (Uri oid, u "sig") s (dset akey_eqb (Uri oid, u "signed") sl (margs m1)) /\
      toPostArgs m' = dset text_eqb (u "openid.sig") s post2;
    sa_type : In (a_type a) [u "HMAC-SHA1"; u "HMAC-SHA256"];
    sa_handle : forall h, dget akey_eqb (Uri oid, u "assoc_handle") (margs m) = Some h -> h = [] \/ h = a_handle a
  }.

  Lemma akey_ne oid (a b : text) : a <> b -> (Uri oid, a) <> (Uri oid, b).
  Proof using. congruence. Qed.

  Lemma signMessage_Ok a m oid m' : core m oid -> signMessage hmac a m = Ok m' -> signed_as a m oid m'.
  Proof using.
    intros C H. unfold signMessage in H. rewrite !(core_has _ _ _ C) in H. cbn [bind] in H.
    unfold dhas in H at 1. destruct (dget akey_eqb (Uri oid, u "sig") (margs m)) eqn:S1; [cbn in H; unfold dhas in H; rewrite S1 in H; discriminate|].
    cbn [bind] in H. unfold dhas in H. rewrite S1 in H. destruct (dget akey_eqb (Uri oid, u "signed") (margs m)) eqn:S2; [discriminate|]. cbn [orb] in H.
    rewrite (core_get _ _ _ C) in H. cbn [bind] in H.
    destruct (match dget akey_eqb (Uri oid, u "assoc_handle") (margs m) with Some h => _ | None => _ end) eqn:Hh; [discriminate|].
    destruct (core_set m oid (u "assoc_handle") (a_handle a) C) as (m1 & E1 & A1 & N1 & C1). rewrite E1 in H. cbn [bind] in H.
    fold (signed_names m1) in H. set (sl := join [44] (signed_names m1)) in H.
    destruct (core_set m1 oid (u "signed") sl C1) as (m2 & E2 & A2 & N2 & C2). rewrite E2 in H. cbn [bind] in H.
    assert (dget akey_eqb (Uri oid, u "signed") (margs m1) = None) as S2'.
    { rewrite A1, (dget_dset_other akey_eqb akey_eqb_eq); auto. apply akey_ne. discriminate. }
    assert (dget akey_eqb (Uri oid, u "sig") (margs m2) = None) as S1'.
    { rewrite A2, (dget_dset_other akey_eqb akey_eqb_eq) by (apply akey_ne; discriminate).
      rewrite A1, (dget_dset_other akey_eqb akey_eqb_eq); auto. apply akey_ne. discriminate. }
    pose proof (post_set_fresh m1 oid (u "signed") sl m2 C1 N2 S2' A2) as P2.
    unfold getMessageSignature in H. rewrite (makePairs_eq _ _ C2) in H. rewrite A2 in H at 1.
    rewrite (dget_dset_same akey_eqb akey_eqb_eq) in H.
    assert (truthy sl = true) as T. { apply truthy_true. apply (join_ne _ _ (u "signed")); [|discriminate]. apply signed_names_In. auto. }
    rewrite T in H. cbn [bind] in H. binv H. binv E. apply sign_Ok in E0 as (b & K1 & K2 & K3). inv E.
    destruct (core_set m2 oid (u "sig") (toBase64 (hmac (a_type a) (a_secret a) b)) C2) as (m3 & E3 & A3 & N3 & C3). rewrite E3 in H. inv H.
    pose proof (post_set_fresh m2 oid (u "sig") _ m' C2 N3 S1' A3) as P3.
    constructor; auto.
    - congruence.
    - exists m1, b. split; auto. split; auto. split; auto. fold sl. rewrite P2 in K1. split; [exact K1|].
      split; [rewrite A3, A2; auto|]. rewrite P3, P2. auto.
    - intros h Hk. rewrite Hk in Hh. apply andb_false_iff in Hh as [Hh|Hh]; [left; apply truthy_false; auto|right].
      apply negb_false_iff, text_eqb_eq in Hh. auto.
  Qed.

  Lemma signMessage_fail a m oid e : core m oid -> signMessage hmac a m = Raise e -> isValueError e = true.
  Proof using.
    intros C H. unfold signMessage in H. rewrite !(core_has _ _ _ C) in H. cbn [bind] in H.
    match type of H with context [if ?x then Ok true else _] => destruct x end; cbn [bind orb] in H; [inv H; auto|].
    match type of H with context [if ?x then Raise _ else _] => destruct x end; [inv H; auto|].
    rewrite (core_get _ _ _ C) in H. cbn [bind] in H.
    match type of H with context [if ?x then Raise _ else _] => destruct x end; [inv H; auto|].
    destruct (core_set m oid (u "assoc_handle") (a_handle a) C) as (m1 & E1 & A1 & N1 & C1). rewrite E1 in H. cbn [bind] in H.
    fold (signed_names m1) in H. set (sl := join [44] (signed_names m1)) in H.
    destruct (core_set m1 oid (u "signed") sl C1) as (m2 & E2 & A2 & N2 & C2). rewrite E2 in H. cbn [bind] in H.
    unfold getMessageSignature in H. rewrite (makePairs_eq _ _ C2) in H. rewrite A2 in H at 1.
    rewrite (dget_dset_same akey_eqb akey_eqb_eq) in H.
    destruct (truthy sl); [|inv H; auto]. cbn [bind] in H. destruct (sign hmac a _) eqn:S; cbn [bind] in H.
    - destruct (core_set m2 oid (u "sig") (toBase64 a0) C2) as (m3 & E3 & _). congruence.
    - inv H. eapply sign_error; eauto.
  Qed.

  Lemma b2a_ne s : s <> [] -> toBase64 s <> [].
  Proof using. destruct s as [|a [|b [|c s]]]; simpl; congruence. Qed.

  Lemma signed_verifies a m oid m' : signed_as a m oid m' ->
    (forall b, hmac (a_type a) (a_secret a) b <> [] /\ Forall isbyte (hmac (a_type a) (a_secret a) b)) ->
    (forall k, In (u "openid." ++ k) (dkeys (toPostArgs m)) -> ~ In (u "sig") (splitc 44 k)) ->
    checkMessageSignature hmac a m' = Ok true.
  Proof using.
    intros [C C' N S1 S2 (m1 & b & C1 & N1 & A1 & K & A3 & P) T _] Hm Hc. cbv zeta in *.
    set (sl := join [44] (signed_names m1)) in *. set (s := toBase64 (hmac (a_type a) (a_secret a) b)) in *.
    unfold checkMessageSignature, getMessageSignature. rewrite (core_get _ _ _ C'), (makePairs_eq _ _ C'), A3.
    rewrite (dget_dset_same akey_eqb akey_eqb_eq). cbn [bind].
    assert (truthy s = true) as Ts. { apply truthy_true, b2a_ne, Hm. } rewrite Ts. cbn [negb].
    rewrite (dget_dset_other akey_eqb akey_eqb_eq) by (apply akey_ne; discriminate). rewrite (dget_dset_same akey_eqb akey_eqb_eq).
    assert (truthy sl = true) as Tl. { apply truthy_true. apply (join_ne _ _ (u "signed")); [|discriminate]. apply signed_names_In. auto. }
    rewrite Tl. cbn [bind].
    assert (pairs_of (toPostArgs m') sl = pairs_of (dset text_eqb (u "openid.signed") sl (toPostArgs m1)) sl) as ->.
    { unfold pairs_of. apply map_ext_in. intros f Hf. unfold field. rewrite P.
      rewrite (dget_dset_other text_eqb text_eqb_eq); auto. intros E. apply (app_inv_head (u "openid.")) in E. subst f.
      unfold sl in Hf. rewrite splitc_join_gen in Hf by apply signed_names_ne. apply in_flat_map in Hf as (k & Hk & Hf).
      apply signed_names_In in Hk as [Hk| ->].
      - apply (post_set_keys m oid (u "assoc_handle") (a_handle a) m1) in Hk; auto. destruct Hk as [Hk|Hk].
        + apply (Hc k); auto.
        + apply (app_inv_head (u "openid.")) in Hk. subst k. vm_compute in Hf. intuition discriminate.
      - vm_compute in Hf. intuition discriminate. }
    destruct K as (t & K1 & K2). unfold sign. rewrite K1. cbn [bind]. apply mem_text_In in T. rewrite T. cbn [negb]. rewrite K2. cbn [bind].
    fold s. assert (encode s = Ok s) as ->. { apply encode_ascii, b2a_ascii, Hm. } cbn [bind]. f_equal. apply list_eqb_eq; auto. apply N.eqb_eq.
  Qed.
End M.
