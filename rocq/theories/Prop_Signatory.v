(** C34, C35: check_authentication and signing, over any store that keeps associations
    ([keeps_memory], [keeps_sql], [keeps_file]). *)
From Coq Require Import Lia ZifyBool ZifyN ZifyNat.
From Verif Require Import Py PyFacts Utf8 KVForm CryptUtil DH Message MessageFacts MessageParse MessageSpec MessageRound Association AssociationFacts.
From Verif Require Import UrlLib TrustRoot Nonce Store StoreSpec StoreFacts Server Prop_Message Prop_Association Prop_Association2.
From Verif Require Import ServerFacts ServerStores SignatoryFacts Prop_ServerDecode.
Open Scope Z_scope.
Local Arguments u : simpl never.

Lemma new_response reg r oid : getOpenIDNamespace (request_message r) = Some oid -> In oid allowed_openid_namespaces ->
  exists r0, OpenIDResponse r = Ok r0 /\ rs_request r0 = r /\ core (rs_fields r0) oid /\ margs (rs_fields r0) = [] /\ built reg (rs_fields r0).
Proof.
  intros V A. unfold OpenIDResponse. rewrite V. destruct (newMessage_ok oid (mem_text oid OPENID1_NAMESPACES) A) as (m & E).
  change (newMessage (Some oid) (Some (mem_text oid OPENID1_NAMESPACES))) with (newMessage (Some oid) None) in E. rewrite E. cbn [bind].
  assert (built reg m) as B by (eapply b_new; eauto).
  exists (mkResponse r m). split; auto. split; auto.
  change (newMessage (Some oid) None) with (newMessage (Some oid) (Some (mem_text oid OPENID1_NAMESPACES))) in E.
  apply newMessage_Some in E as (_ & _ & M & N & _). split; [|auto]. cbn [rs_fields]. eapply built_core; eauto. apply N. auto.
Qed.
Lemma setField_core reg r oid k v : core (rs_fields r) oid -> built reg (rs_fields r) ->
  exists r', setField r k v = Ok r' /\ rs_request r' = rs_request r /\ core (rs_fields r') oid /\ built reg (rs_fields r') /\
    margs (rs_fields r') = dset akey_eqb (Uri oid, k) v (margs (rs_fields r)) /\ mns (rs_fields r') = mns (rs_fields r).
Proof.
  intros C B. unfold setField. destruct (core_set _ _ k v C) as (m' & E & M & N & C'). rewrite E. cbn [bind].
  exists (mkResponse (rs_request r) m'). cbn [rs_request rs_fields]. split; auto. split; auto. split; auto. split; [eapply b_set; eauto|auto].
Qed.
Definition field_is (r : response) (k : text) (v : option text) : Prop := getArg (rs_fields r) OPENID_NS k = Ok v.

Section Over.
  Context {S : Type} (step : S -> Z -> op -> S * out) (s0 : S) (fine : op -> Prop) (K : keeps step s0 fine).
  Variable e : uenv.
  Variable reg : dict text text.
  Variable params_ok : Z -> Z -> bool.
  Variable hmac : text -> bytes -> bytes -> bytes.
  Notation state := (after step s0).

  (** A check_authentication request on the wire, answered at [now] after the history [h] of
      store calls. *)
  Theorem C34_check_authentication : forall query ep x c h now,
    NoDup (map fst query) -> decode e reg params_ok query ep x = DOk (Some (RCheckAuth c)) ->
    ready fine now h -> handle_ok fine dumb_key (ca_assoc_handle c) ->
    (forall i, wire_value query (u "invalidate_handle") = Some i -> i <> [] -> handle_ok fine normal_key i) ->
    exists calls r (valid : bool) (stale : option text),
      CheckAuth_answer hmac step now c (state h) = (state (calls ++ h), Ok r) /\
      ready fine now (calls ++ h) /\ no_store calls /\
      (* the answer *)
      rs_request r = RCheckAuth c /\
      getOpenIDNamespace (rs_fields r) = getOpenIDNamespace (ca_message c) /\
      field_is r (u "is_valid") (Some (if valid then u "true" else u "false")) /\
      field_is r (u "invalidate_handle") stale /\
      (forall k, k <> u "is_valid" -> k <> u "invalidate_handle" -> field_is r k None) /\
      (* true only for an unexpired private association under which the message verifies *)
      (valid = true <-> exists a, good_at now (stored dumb_key (ca_assoc_handle c) h) = Some a /\
                                  checkMessageSignature hmac a (ca_signed c) = Ok true) /\
      (* the handle to be dropped is confirmed if and only if it is not a shared association any more *)
      (forall i, stale = Some i <-> wire_value query (u "invalidate_handle") = Some i /\ i <> [] /\
                                    good_at now (stored normal_key i h) = None) /\
      (* the private association is gone, everything else is as before *)
      stored dumb_key (ca_assoc_handle c) (calls ++ h) = None /\
      (forall k y a, stored k y (calls ++ h) = Some a -> stored k y h = Some a) /\
      (forall k y, (k, y) <> (dumb_key, ca_assoc_handle c) ->
         good_at now (stored k y (calls ++ h)) = good_at now (stored k y h)).
  Proof using K.
    intros query ep x c h now Hn H R G Gi.
    destruct (C33_decode_check_authentication e reg params_ok query ep x c Hn H) as (F & Hm & Hh & Hsig & Hi & Hs).
    destruct (fromPostArgs_ver _ _ _ F Hn) as (V & A). set (oid := oid_of (openid_part query)) in *.
    assert (built reg (ca_message c)) as B by (eapply b_parse; eauto).
    pose proof (built_core _ _ _ B V) as Co.
    assert (core (ca_signed c) oid) as Cs. { destruct (core_set _ _ (u "mode") (u "id_res") Co) as (m' & E1 & _ & _ & C1). congruence. }
    destruct (verify_spec step s0 fine K hmac now h _ _ _ R G Cs) as (c1 & valid & E1 & K1 & N1 & S1 & W).
    pose proof (ready_app fine now c1 h K1 R) as R1.
    set (h1 := c1 ++ h) in *. set (e2 := (now, RemoveA dumb_key (ca_assoc_handle c))).
    assert (ready fine now (e2 :: h1)) as R2. { apply (ready_app fine now [e2] h1); auto. constructor; auto. split; auto. apply G. }
    destruct (new_response reg (RCheckAuth c) oid V A) as (r0 & Er0 & Q0 & C0 & M0 & B0).
    destruct (setField_core reg r0 oid (u "is_valid") (if valid then u "true" else u "false") C0 B0) as (r1 & Er1 & Q1 & C1 & B1 & M1 & _).
    rewrite M0 in M1.
    assert (forall calls', no_store calls' -> calls_ok fine now calls' -> same_good now (calls' ++ e2 :: h1) (e2 :: h1) ->
      ready fine now (calls' ++ e2 :: h1) /\ no_store (calls' ++ e2 :: c1) /\
      stored dumb_key (ca_assoc_handle c) (calls' ++ e2 :: h1) = None /\
      (forall k y a, stored k y (calls' ++ e2 :: h1) = Some a -> stored k y h = Some a) /\
      (forall k y, (k, y) <> (dumb_key, ca_assoc_handle c) -> good_at now (stored k y (calls' ++ e2 :: h1)) = good_at now (stored k y h))) as Z.
    { intros calls' N' K' (P1 & P2). split; [apply ready_app; auto|]. split.
      - apply no_store_app; auto. intros t k a [X|X]; [discriminate|]. eapply N1; eauto.
      - assert (forall k y a, stored k y (e2 :: h1) = Some a -> stored k y h1 = Some a) as D.
        { intros k y a X. cbn [stored e2] in X. destruct (_ && _); [discriminate|auto]. }
        split; [|split].
        + destruct (stored dumb_key (ca_assoc_handle c) (calls' ++ e2 :: h1)) as [a|] eqn:X; auto. apply P1 in X. cbn [stored e2] in X.
          rewrite !text_eqb_refl in X. discriminate.
        + intros k y a X. apply S1, D, P1, X.
        + intros k y Ne. rewrite P2. cbn [stored e2]. destruct (text_eqb k dumb_key && text_eqb y (ca_assoc_handle c)) eqn:X.
          * rewrite andb_true_iff, !text_eqb_eq in X. destruct X. congruence.
          * apply S1. }
    unfold CheckAuth_answer, sbind. rewrite E1. cbn [invalidate]. unfold invalidate. cbn [key_of].
    rewrite (remove_spec step s0 fine K now h1 dumb_key); [|auto|apply G]. fold e2. unfold sret at 1. rewrite Er0. unfold sret at 1. rewrite Er1.
    assert (forall k, k <> u "is_valid" -> dget akey_eqb (Uri oid, k) (margs (rs_fields r1)) = None) as M1'.
    { intros k Hk. rewrite M1, (dget_dset_other akey_eqb akey_eqb_eq); auto. apply akey_ne. auto. }
    assert (dget akey_eqb (Uri oid, u "is_valid") (margs (rs_fields r1)) = Some (if valid then u "true" else u "false")) as M1''.
    { rewrite M1. apply (dget_dset_same akey_eqb akey_eqb_eq). }
    destruct (match ca_invalidate_handle c with Some i => truthy i | None => false end) eqn:T.
    - destruct (ca_invalidate_handle c) as [i|] eqn:Ei; [|discriminate]. rewrite T. apply truthy_true in T. symmetry in Hi.
      destruct (getAssociation_spec step s0 fine K now (e2 :: h1) i false true R2) as (c2 & o & E2 & K2 & N2 & S2 & _ & _ & O2); [apply Gi; auto|].
      specialize (O2 eq_refl). cbn [key_of] in O2. rewrite E2.
      destruct (Z c2 N2 K2 S2) as (Z1 & Z2 & Z3 & Z4 & Z5).
      assert (stored normal_key i (e2 :: h1) = stored normal_key i h1) as X1 by reflexivity.
      assert (good_at now (stored normal_key i (e2 :: h1)) = good_at now (stored normal_key i h)) as X2 by (rewrite X1; apply S1).
      rewrite X2 in O2.
      destruct o as [a|].
      + exists (c2 ++ e2 :: c1), r1, valid, None. rewrite <- app_assoc. cbn [app]. fold h1. split; auto. split; auto. split; auto. split; [congruence|].
        split; [rewrite V; apply C1|]. unfold field_is. split; [rewrite (core_get _ _ _ C1), M1''; auto|].
        split; [rewrite (core_get _ _ _ C1), M1' by discriminate; auto|].
        split; [intros k Hk1 Hk2; rewrite (core_get _ _ _ C1), M1' by auto; auto|]. split; auto. split; auto.
        intros i'. split; [discriminate|]. intros (X & _ & Y). rewrite Hi in X. inv X. congruence.
      + destruct (setField_core reg r1 oid (u "invalidate_handle") i C1 B1) as (r2 & Er2 & Q2 & C2 & B2 & M2 & _). unfold sret. rewrite Er2.
        exists (c2 ++ e2 :: c1), r2, valid, (Some i). rewrite <- app_assoc. cbn [app]. fold h1. split; auto. split; auto. split; auto. split; [congruence|].
        split; [rewrite V; apply C2|]. unfold field_is. rewrite !(core_get _ _ _ C2), M2.
        split; [rewrite (dget_dset_other akey_eqb akey_eqb_eq), M1'' by (apply akey_ne; discriminate); auto|].
        split; [rewrite (dget_dset_same akey_eqb akey_eqb_eq); auto|].
        split; [intros k Hk1 Hk2; rewrite (core_get _ _ _ C2), M2, (dget_dset_other akey_eqb akey_eqb_eq), M1' by (auto; apply akey_ne; auto); auto|].
        split; auto. split; auto. intros i'. split.
        * intros X. inv X. auto.
        * intros (X & _). congruence.
    - destruct (Z [] (fun t k a X => X) (Forall_nil _) (same_good_refl _ _)) as (Z1 & Z2 & Z3 & Z4 & Z5). cbn [app] in *.
      exists (e2 :: c1), r1, valid, None. cbn [app]. fold h1.
      split. { destruct (ca_invalidate_handle c) as [i|]; [rewrite T|]; auto. }
      split; auto. split; auto. split; [congruence|].
      split; [rewrite V; apply C1|]. unfold field_is. split; [rewrite (core_get _ _ _ C1), M1''; auto|].
      split; [rewrite (core_get _ _ _ C1), M1' by discriminate; auto|].
      split; [intros k Hk1 Hk2; rewrite (core_get _ _ _ C1), M1' by auto; auto|]. split; auto. split; auto.
      intros i. split; [discriminate|]. intros (X & Y & _). rewrite <- Hi in X. rewrite X in T. apply truthy_true in Y. congruence.
  Qed.

  (** A private association vouches once: unless the handle is stored again, every later
      check of it says false. *)
  Theorem C34_one_off : forall query ep x c h now,
    NoDup (map fst query) -> decode e reg params_ok query ep x = DOk (Some (RCheckAuth c)) ->
    ready fine now h -> handle_ok fine dumb_key (ca_assoc_handle c) ->
    (forall i, wire_value query (u "invalidate_handle") = Some i -> i <> [] -> handle_ok fine normal_key i) ->
    exists calls r, CheckAuth_answer hmac step now c (state h) = (state (calls ++ h), Ok r) /\
      forall later query' c' now',
        (forall t a, In (t, StoreA dumb_key a) later -> a_handle a <> ca_assoc_handle c) ->
        ready fine now' (later ++ calls ++ h) ->
        NoDup (map fst query') -> decode e reg params_ok query' ep x = DOk (Some (RCheckAuth c')) ->
        ca_assoc_handle c' = ca_assoc_handle c ->
        (forall i, wire_value query' (u "invalidate_handle") = Some i -> i <> [] -> handle_ok fine normal_key i) ->
        exists s r', CheckAuth_answer hmac step now' c' (state (later ++ calls ++ h)) = (s, Ok r') /\
          field_is r' (u "is_valid") (Some (u "false")).
  Proof using K.
    intros query ep x c h now Hn H R G Gi.
    destruct (C34_check_authentication _ _ _ _ _ _ Hn H R G Gi) as (calls & r & v & st & E & _ & _ & _ & _ & _ & _ & _ & _ & _ & Gone & _).
    exists calls, r. split; auto. intros later query' c' now' L R' Hn' H' Eh Gi'.
    rewrite <- Eh in G. destruct (C34_check_authentication _ _ _ _ _ _ Hn' H' R' G Gi') as (calls' & r' & v' & st' & E' & _ & _ & _ & _ & F' & _ & _ & V' & _).
    eexists. exists r'. split; [exact E'|]. destruct v'; auto. exfalso. destruct V' as (V' & _). destruct (V' eq_refl) as (a & A & _).
    assert (stored dumb_key (ca_assoc_handle c') (later ++ calls ++ h) = None) as X.
    { rewrite Eh. clear - L Gone. induction later as [|[t o] l IH]; cbn [app]; auto.
      assert (stored dumb_key (ca_assoc_handle c) (l ++ calls ++ h) = None) as Y by (apply IH; intros; eapply L; right; eauto).
      destruct o; cbn [stored]; auto.
      - destruct (text_eqb dumb_key url && text_eqb (ca_assoc_handle c) (a_handle a)) eqn:Q; auto.
        rewrite andb_true_iff, !text_eqb_eq in Q. destruct Q as (<- & Q). exfalso. eapply L; [left; eauto|]. auto.
      - destruct (_ && _); auto. }
    rewrite X in A. discriminate.
  Qed.
End Over.

(** ** C35 *)
Section Sign.
  Context {S : Type} (step : S -> Z -> op -> S * out) (s0 : S) (fine : op -> Prop) (K : keeps step s0 fine).
  Variable reg : dict text text.
  Variable hmac : text -> bytes -> bytes -> bytes.
  Notation state := (after step s0).
  Lemma stored_handle k y h a : stored k y h = Some a -> a_handle a = y.
  Proof using.
    induction h as [|[t o] h IH]; cbn [stored]; [discriminate|]. destruct o; auto.
    - destruct (text_eqb k url && text_eqb y (a_handle a0)) eqn:Q; auto. intros X. inv X. rewrite andb_true_iff, !text_eqb_eq in Q. symmetry. apply Q.
    - destruct (_ && _); [discriminate|auto].
  Qed.
  (** The associations in the store have one of the two types an Association can have. *)
  Definition known_types (h : history) : Prop := forall k y a, stored k y h = Some a -> known_type (a_type a).

  (** The association used for a requested handle [o], and the handle declared invalid. *)
  Inductive chosen (now : Z) (secret : N -> bytes) (uniq : bytes) (o : option text) (h calls : history) (a : assoc) : option text -> Prop :=
  | chosen_shared hd : o = Some hd -> hd <> [] -> good_at now (stored normal_key hd h) = Some a -> no_store calls ->
      same_good now (calls ++ h) h -> chosen now secret uniq o h calls a None
  | chosen_private inval : known_type (a_type a) -> a = fresh_assoc now secret uniq (a_type a) ->
      stored dumb_key (a_handle a) (calls ++ h) = Some a ->
      (forall k y b, (k, y) <> (dumb_key, a_handle a) -> stored k y (calls ++ h) = Some b -> stored k y h = Some b) ->
      (forall k y, (k, y) <> (dumb_key, a_handle a) -> good_at now (stored k y (calls ++ h)) = good_at now (stored k y h)) ->
      (forall t k b, In (t, StoreA k b) calls -> k = dumb_key /\ b = a) ->
      (forall i, inval = Some i <-> o = Some i /\ i <> []) ->
      (forall i, inval = Some i -> good_at now (stored normal_key i h) = None) ->
      chosen now secret uniq o h calls a inval.

  Lemma fresh_ne now secret uniq ty : a_handle (fresh_assoc now secret uniq ty) <> [].
  Proof using. discriminate. Qed.

  Lemma private_ok now secret uniq o h calls ty inval : known_type ty -> no_store calls -> same_good now (calls ++ h) h ->
    (forall i, inval = Some i <-> o = Some i /\ i <> []) ->
    (forall i, inval = Some i -> good_at now (stored normal_key i h) = None) ->
    chosen now secret uniq o h ((now, StoreA dumb_key (fresh_assoc now secret uniq ty)) :: calls) (fresh_assoc now secret uniq ty) inval.
  Proof using.
    intros T N (S1 & S2) I1 I2. set (a := fresh_assoc now secret uniq ty).
    assert (forall k y, (k, y) <> (dumb_key, a_handle a) -> stored k y (((now, StoreA dumb_key a) :: calls) ++ h) = stored k y (calls ++ h)) as O.
    { intros k y Ne. cbn [app stored]. destruct (text_eqb k dumb_key && text_eqb y (a_handle a)) eqn:Q; auto.
      rewrite andb_true_iff, !text_eqb_eq in Q. destruct Q. congruence. }
    apply chosen_private; auto.
    - cbn [app stored]. rewrite !text_eqb_refl. auto.
    - intros k y b Ne. rewrite O by auto. apply S1.
    - intros k y Ne. rewrite O by auto. apply S2.
    - intros t k b [X|X]; [inv X; auto|]. exfalso. eapply N; eauto.
  Qed.

  Definition sign_out (q : request) (x : res msg) : res response :=
    match x with
    | Ok m => Ok (mkResponse q m)
    | Raise KVFormError => Raise EncodingError
    | Raise x => Raise x
    end.
  Lemma sign_response_spec r c oid h now secret uniq : rs_request r = RCheckID c -> core (rs_fields r) oid -> built reg (rs_fields r) ->
    ready fine now h -> known_types h ->
    (forall hd, ci_assoc_handle c = Some hd -> hd <> [] -> handle_ok fine normal_key hd) ->
    (forall ty, known_type ty -> fine (StoreA dumb_key (fresh_assoc now secret uniq ty))) ->
    exists calls r1 a inval,
      sign_response hmac step now secret uniq r (state h) = (state (calls ++ h),
        sign_out (rs_request r1) (signMessage hmac a (rs_fields r1))) /\
      ready fine now (calls ++ h) /\ chosen now secret uniq (ci_assoc_handle c) h calls a inval /\
      rs_request r1 = RCheckID c /\ core (rs_fields r1) oid /\ built reg (rs_fields r1) /\ mns (rs_fields r1) = mns (rs_fields r) /\
      margs (rs_fields r1) = match inval with Some i => dset akey_eqb (Uri oid, u "invalidate_handle") i (margs (rs_fields r)) | None => margs (rs_fields r) end.
  Proof using K.
    intros Q C B R KT G F. unfold sign_response, sbind at 1, sret at 1. rewrite Q. cbn [request_assoc_handle].
    assert (forall inval calls ty, known_type ty -> no_store calls -> calls_ok fine now calls -> same_good now (calls ++ h) h ->
      (forall i, inval = Some i <-> ci_assoc_handle c = Some i /\ i <> []) ->
      (forall i, inval = Some i -> good_at now (stored normal_key i h) = None) ->
      let a := fresh_assoc now secret uniq ty in
      createAssociation step now secret uniq true ty (state (calls ++ h)) = (state (((now, StoreA dumb_key a) :: calls) ++ h), Ok a) /\
      ready fine now (((now, StoreA dumb_key a) :: calls) ++ h) /\
      chosen now secret uniq (ci_assoc_handle c) h ((now, StoreA dumb_key a) :: calls) a inval) as P.
    { intros inval calls ty T N A S1 I1 I2 a. pose proof (ready_app fine now calls h A R) as R1.
      split; [apply (createAssociation_spec step s0 fine K now (calls ++ h) secret uniq true ty); auto|].
      split; [apply (ready_app fine now [(now, StoreA dumb_key a)] (calls ++ h)); auto; constructor; auto; split; auto; apply F; auto|].
      apply private_ok; auto. }
    assert (known_type (u "HMAC-SHA1")) as T1 by (left; auto).
    destruct (match ci_assoc_handle c with Some hd => truthy hd | None => false end) eqn:T.
    - destruct (ci_assoc_handle c) as [hd|] eqn:Ho; [|discriminate]. rewrite T. apply truthy_true in T.
      unfold sbind at 2. destruct (getAssociation_spec step s0 fine K now h hd false false R) as (c1 & o & E & A & N & S1 & O1 & O2 & _); [apply G; auto|].
      unfold sbind at 1. rewrite E. cbn [key_of] in *. pose proof (ready_app fine now c1 h A R) as R1.
      destruct (match o with Some a => run_out a now | None => true end) eqn:RO.
      + assert (good_at now (stored normal_key hd h) = None) as Gn.
        { rewrite <- O1. destruct o as [a|]; auto. apply run_out_good. auto. }
        destruct (setField_core reg r oid (u "invalidate_handle") hd C B) as (r1 & Er & Qr & Cr & Br & Mr & Nr).
        unfold sbind at 1, sret at 1. rewrite Er.
        assert (forall i, Some hd = Some i <-> Some hd = Some i /\ i <> []) as I1. { intros i. split; [intros X; split; congruence|tauto]. }
        assert (forall i, Some hd = Some i -> good_at now (stored normal_key i h) = None) as I2. { intros i X. congruence. }
        destruct o as [a|].
        * assert (known_type (a_type a)) as Ta by (eapply KT; eauto).
          assert ((if truthy (a_type a) then a_type a else u "HMAC-SHA1") = a_type a) as -> by (destruct Ta as [->| ->]; reflexivity).
          unfold sbind at 1, invalidate. cbn [key_of]. rewrite (remove_spec step s0 fine K now (c1 ++ h)); [|auto|apply G; auto].
          destruct (P (Some hd) ((now, RemoveA normal_key hd) :: c1) (a_type a)) as (P1 & P2 & P3); auto.
          { intros t k b [X|X]; [discriminate|]. eapply N; eauto. }
          { constructor; auto. split; auto. apply G; auto. }
          { destruct S1 as (S1 & S2). split.
            - intros k y b X. cbn [app stored] in X. destruct (_ && _); [discriminate|]. auto.
            - intros k y. cbn [app stored]. destruct (text_eqb k normal_key && text_eqb y hd) eqn:X; auto.
              rewrite andb_true_iff, !text_eqb_eq in X. destruct X as (-> & ->). rewrite Gn. auto. }
          unfold sbind.
          match goal with |- context [createAssociation step now secret uniq true ?ty ?x] =>
            assert (createAssociation step now secret uniq true ty x = _) as P1' by (exact P1); rewrite P1' end.
          unfold sret. cbn [fst snd].
          do 2 eexists. exists (fresh_assoc now secret uniq (a_type a)), (Some hd). split; [reflexivity|]. split; auto. split; auto. split; [congruence|auto].
        * unfold sbind at 1, sret at 1. destruct (P (Some hd) c1 (u "HMAC-SHA1")) as (P1 & P2 & P3); auto.
          unfold sbind. rewrite P1. unfold sret. cbn [fst snd].
          do 2 eexists. exists (fresh_assoc now secret uniq (u "HMAC-SHA1")), (Some hd). split; [reflexivity|]. split; auto. split; auto. split; [congruence|auto].
      + destruct o as [a|]; [|discriminate]. unfold sret. cbn [fst snd]. exists c1, r, a, None. split; auto. split; auto. split; [|auto 10].
        apply run_out_false in RO. eapply chosen_shared; eauto. congruence.
    - assert (forall i, None = Some i <-> ci_assoc_handle c = Some i /\ i <> []) as I1.
      { intros i. split; [discriminate|]. intros (X & Y). rewrite X in T. apply truthy_true in Y. congruence. }
      destruct (P None [] (u "HMAC-SHA1")) as (P1 & P2 & P3); auto.
      { intros t k b []. } { constructor. } { apply same_good_refl. } { discriminate. }
      cbn [app] in P1, P2.
      exists [(now, StoreA dumb_key (fresh_assoc now secret uniq (u "HMAC-SHA1")))], r, (fresh_assoc now secret uniq (u "HMAC-SHA1")), None.
      split; [|auto 10]. destruct (ci_assoc_handle c); [rewrite T|]; unfold sbind; rewrite P1; reflexivity.
  Qed.

  Theorem C35_already_signed : forall r now secret uniq s oid sig, core (rs_fields r) oid ->
    field_is r (u "mode") (Some (u "id_res")) -> field_is r (u "sig") (Some sig) ->
    encodeResponse hmac step now secret uniq r s = (s, Raise AlreadySigned).
  Proof using.
    intros r now secret uniq s oid sig C M G. unfold encodeResponse, sbind, sret, needsSigning. rewrite M. cbn [bind opt_eqb]. rewrite text_eqb_refl.
    unfold field_is in G. rewrite (core_get _ _ _ C) in G. rewrite (core_has _ _ _ C). unfold dhas. injection G as ->. auto.
  Qed.

  Theorem C35_assertions_are_signed : forall r c h now secret uniq,
    mac_bytes hmac -> built reg (rs_fields r) -> rs_request r = RCheckID c ->
    field_is r (u "mode") (Some (u "id_res")) ->
    (* no parameter is called 'sig' or has a ',sig' part in its name *)
    (forall f, wire_value (toPostArgs (rs_fields r)) f <> None -> ~ In (u "sig") (splitc 44 f)) ->
    ready fine now h -> known_types h ->
    (forall hd, ci_assoc_handle c = Some hd -> hd <> [] -> handle_ok fine normal_key hd) ->
    (forall ty, known_type ty -> fine (StoreA dumb_key (fresh_assoc now secret uniq ty))) ->
    exists calls result, encodeResponse hmac step now secret uniq r (state h) = (state (calls ++ h), result) /\
      ready fine now (calls ++ h) /\
      forall w, result = Ok w -> exists a m inval,
        (* what is sent is the message m, which verifies under a *)
        encode_response (mkResponse (RCheckID c) m) = Ok w /\ checkMessageSignature hmac a m = Ok true /\
        chosen now secret uniq (ci_assoc_handle c) h calls a inval /\
        getArg m OPENID_NS (u "assoc_handle") = Ok (Some (a_handle a)) /\
        (forall i, inval = Some i -> getArg m OPENID_NS (u "invalidate_handle") = Ok (Some i)) /\
        (* and all other fields are as in the response *)
        getOpenIDNamespace m = getOpenIDNamespace (rs_fields r) /\
        (forall k, k <> u "assoc_handle" -> k <> u "signed" -> k <> u "sig" -> (inval = None \/ k <> u "invalidate_handle") ->
           getArg m OPENID_NS k = getArg (rs_fields r) OPENID_NS k).
  Proof using K.
    intros r c h now secret uniq Mb B Q M Ns R KT G F.
    assert (exists oid, core (rs_fields r) oid) as (oid & C).
    { unfold field_is, getArg, fixNS in M. destruct (getOpenIDNamespace (rs_fields r)) as [v|] eqn:E; [|discriminate].
      exists v. eapply built_core; eauto. }
    destruct (sign_response_spec r c oid h now secret uniq Q C B R KT G F) as (calls & r1 & a & inval & E & R1 & Ch & Q1 & C1 & B1 & N1 & M1).
    unfold encodeResponse, sbind, sret, needsSigning. rewrite M. cbn [bind opt_eqb]. rewrite text_eqb_refl.
    rewrite (core_has _ _ _ C). unfold dhas.
    destruct (dget akey_eqb (Uri oid, u "sig") (margs (rs_fields r))) as [sg|] eqn:Sg.
    { exists [], (Raise AlreadySigned). split; auto. split; auto. discriminate. }
    rewrite E. destruct (signMessage hmac a (rs_fields r1)) as [m|x] eqn:Sm.
    2:{ cbn [sign_out]. destruct (match x with KVFormError => Raise EncodingError | _ => Raise x end : res response) eqn:Ex.
        - destruct x; discriminate.
        - exists calls, (Raise e). split; auto. split; auto. discriminate. }
    cbn [sign_out]. rewrite Q1. exists calls, (encode_response (mkResponse (RCheckID c) m)). split; auto. split; auto.
    intros w W. exists a, m, inval. split; auto.
    pose proof (signMessage_Ok hmac a _ oid m C1 Sm) as SA. destruct SA as [_ C' N' _ _ (m1 & b & C1' & N1' & A1 & _ & A3 & _) _ _]. cbv zeta in A3.
    split. { eapply C07_signed_message_verifies; eauto. intros f Hf. destruct inval as [i|].
             - destruct (list_eq_dec N.eq_dec f (u "invalidate_handle")) as [->|Ne].
               + vm_compute. intuition discriminate.
               + apply Ns. intros X. apply Hf. unfold wire_value in *. rewrite <- X.
                 apply (post_set_other (rs_fields r) oid (u "invalidate_handle") i); auto; [apply C1|].
                 intros Y. apply app_inv_head in Y. auto.
             - apply Ns. replace (rs_fields r) with (rs_fields r1); auto. destruct (rs_fields r), (rs_fields r1). cbn in *. congruence. }
    split; auto. rewrite !(core_get _ _ _ C'), A3.
    split. { rewrite !(dget_dset_other akey_eqb akey_eqb_eq) by (apply akey_ne; discriminate). rewrite A1, (dget_dset_same akey_eqb akey_eqb_eq). auto. }
    split. { intros i ->. rewrite !(dget_dset_other akey_eqb akey_eqb_eq) by (apply akey_ne; discriminate).
             rewrite A1, (dget_dset_other akey_eqb akey_eqb_eq) by (apply akey_ne; discriminate). rewrite M1, (dget_dset_same akey_eqb akey_eqb_eq). auto. }
    split. { destruct C as (_ & -> & _). apply C'. }
    intros k K1 K2 K3 K4. rewrite (core_get _ _ _ C'), (core_get _ _ _ C), A3.
    rewrite !(dget_dset_other akey_eqb akey_eqb_eq) by (apply akey_ne; auto).
    rewrite A1, (dget_dset_other akey_eqb akey_eqb_eq) by (apply akey_ne; auto). rewrite M1. destruct inval as [i|]; auto.
    rewrite (dget_dset_other akey_eqb akey_eqb_eq); auto. apply akey_ne. destruct K4; [discriminate|auto].
  Qed.
End Sign.
Print Assumptions C34_check_authentication.
Print Assumptions C34_one_off.
Print Assumptions C35_already_signed.
Print Assumptions C35_assertions_are_signed.

(** A login without shared association: the assertion is signed with a private one, names
    the unknown handle as invalid, is confirmed once and only once. *)
Definition login_request : request :=
  match decode plain_env [] (fun _ _ => true) login_query (u "http://op.example/") 1 with DOk (Some r) => r | _ => RCheckAuth (mkCheckAuth empty_msg [] empty_msg None) end.
Definition login_response : res response :=
  match login_request with
  | RCheckID c => CheckID_answer plain_env c true None None None 1700000000 (u "salt42")
  | _ => Raise TypeError
  end.
Definition secret0 (n : N) : bytes := map N.of_nat (seq 1 (N.to_nat n)).
Definition run_login : mem * res web :=
  match login_response with
  | Ok r => encodeResponse long_mac mem_step 1700000000 secret0 [9; 8; 7; 6]%N r mem_init
  | Raise x => (mem_init, Raise x)
  end.
Definition back_query : list (text * text) :=
  match snd run_login with
  | Ok w => match w_location w with
            | Some t => match cut 63 t with Some (_, q) => tl (parse_qsl true q) | None => [] end
            | None => [] end
  | Raise _ => [] end.
Definition check_query : list (text * text) := dset text_eqb (u "openid.mode") (u "check_authentication") back_query.
Definition checks (now : Z) (s : mem) : mem * res (option text * option text) :=
  match decode plain_env [] (fun _ _ => true) check_query (u "http://op.example/") 1 with
  | DOk (Some (RCheckAuth c)) =>
      match CheckAuth_answer long_mac mem_step now c s with
      | (s', Ok r) => (s', a <- getArg (rs_fields r) OPENID_NS (u "is_valid") ;; b <- getArg (rs_fields r) OPENID_NS (u "invalidate_handle") ;; Ok (a, b))
      | (s', Raise x) => (s', Raise x)
      end
  | _ => (s, Raise TypeError)
  end.
Example C35_example :
  wire_value back_query (u "mode") = Some (u "id_res") /\
  wire_value back_query (u "assoc_handle") = Some (u "{HMAC-SHA1}{6553f100}{CQgHBg==}") /\
  wire_value back_query (u "invalidate_handle") = Some (u "h1").
Proof. split; [vm_compute; reflexivity|]. split; [vm_compute; reflexivity|vm_compute; reflexivity]. Qed.
Example C34_example :
  let s1 := fst run_login in
  snd (checks 1700000001 s1) = Ok (Some (u "true"), Some (u "h1")) /\
  snd (checks 1700000002 (fst (checks 1700000001 s1))) = Ok (Some (u "false"), Some (u "h1")) /\
  snd (checks (1700000000 + SECRET_LIFETIME) s1) = Ok (Some (u "false"), Some (u "h1")).
Proof. split; [vm_compute; reflexivity|]. split; [vm_compute; reflexivity|vm_compute; reflexivity]. Qed.
