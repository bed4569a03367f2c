(** Proofs about the signatory of Server.v over any store that [keeps] associations. *)
From Coq Require Import Lia ZifyBool ZifyN ZifyNat.
From Verif Require Import Py PyFacts Utf8 KVForm CryptUtil DH Message MessageFacts MessageSpec MessageRound Association AssociationFacts.
From Verif Require Import UrlLib TrustRoot Nonce Store StoreSpec StoreFacts Server Prop_Association ServerFacts ServerStores.
Open Scope Z_scope.
Local Arguments u : simpl never.

(** From [h] to [h'] (at [now]) associations are at most dropped, and only those that have run out. *)
Definition same_good (now : Z) (h' h : history) : Prop :=
  (forall k x a, stored k x h' = Some a -> stored k x h = Some a) /\
  (forall k x, good_at now (stored k x h') = good_at now (stored k x h)).
Lemma same_good_refl now h : same_good now h h.
Proof. split; auto. Qed.
Lemma same_good_trans now h1 h2 h3 : same_good now h1 h2 -> same_good now h2 h3 -> same_good now h1 h3.
Proof. intros (A1 & A2) (B1 & B2). split; intros; auto. rewrite A2, B2. auto. Qed.

Lemma run_out_good a now : run_out a now = true <-> good_at now (Some a) = None.
Proof. unfold run_out, getExpiresIn. simpl. destruct (now <? _) eqn:E; split; intros H; try discriminate; auto; lia. Qed.
Lemma run_out_false a now : run_out a now = false <-> good_at now (Some a) = Some a.
Proof. unfold run_out, getExpiresIn. simpl. destruct (now <? _) eqn:E; split; intros H; try discriminate; auto; lia. Qed.

Section Signatory.
  Context {S : Type} (step : S -> Z -> op -> S * out) (s0 : S) (fine : op -> Prop) (K : keeps step s0 fine).
  Variable hmac : text -> bytes -> bytes -> bytes.
  Notation state := (after step s0).

  Definition ready (now : Z) (h : history) : Prop := clock now h /\ Forall (fun e => fine (snd e)) h.
  Definition calls_ok (now : Z) (calls : history) : Prop := Forall (fun e => fst e = now /\ fine (snd e)) calls.
  Lemma ready_app now calls h : calls_ok now calls -> ready now h -> ready now (calls ++ h).
  Proof.
    induction 1 as [|[t o] l (E & F) _ IH]; auto. intros R. destruct (IH R) as (C & A). simpl in E. subst t.
    split; cbn [app clock]; [split; [lia|auto]|constructor; auto].
  Qed.
  Definition handle_ok (key handle : text) : Prop := fine (GetA key (Some handle)) /\ fine (RemoveA key handle).

  Lemma store_get_spec now h key handle : ready now h -> fine (GetA key (Some handle)) ->
    exists o, store_get step now key handle (state h) = (state ((now, GetA key (Some handle)) :: h), Ok o) /\
      good_at now o = good_at now (stored key handle h) /\ (forall a, o = Some a -> stored key handle h = Some a).
  Proof using K.
    intros (C & F) G. destruct (ks_get _ _ _ K h now key handle C F G) as (o & A & B). exists o. split; auto.
    unfold store_get. unfold answer in A. cbn [after]. destruct (step (state h) now (GetA key (Some handle))) as [s' x]. simpl in *. subst. auto.
  Qed.
  Lemma remove_spec now h key handle : ready now h -> fine (RemoveA key handle) ->
    store_unit step now (RemoveA key handle) (state h) = (state ((now, RemoveA key handle) :: h), Ok tt).
  Proof using K.
    intros (C & F) G. destruct (ks_remove _ _ _ K h now key handle C F G) as (b & A).
    unfold store_unit. unfold answer in A. cbn [after]. destruct (step (state h) now (RemoveA key handle)) as [s' x]. simpl in *. subst. auto.
  Qed.
  Lemma store_spec now h key a : ready now h -> fine (StoreA key a) ->
    store_unit step now (StoreA key a) (state h) = (state ((now, StoreA key a) :: h), Ok tt).
  Proof using K.
    intros (C & F) G. pose proof (ks_store _ _ _ K h now key a C F G) as A.
    unfold store_unit. unfold answer in A. cbn [after]. destruct (step (state h) now (StoreA key a)) as [s' x]. simpl in *. subst. auto.
  Qed.

  Definition no_store (calls : history) : Prop := forall t k a, ~ In (t, StoreA k a) calls.
  Lemma no_store_app c1 c2 : no_store c1 -> no_store c2 -> no_store (c1 ++ c2).
  Proof. intros A B t k a H. apply in_app_or in H as [H|H]; [eapply A|eapply B]; eauto. Qed.

  Lemma getAssociation_spec now h handle dumb chk : ready now h -> handle_ok (key_of dumb) handle ->
    exists calls o, getAssociation step now handle dumb chk (state h) = (state (calls ++ h), Ok o) /\
      calls_ok now calls /\ no_store calls /\ same_good now (calls ++ h) h /\
      good_at now o = good_at now (stored (key_of dumb) handle h) /\
      (forall a, o = Some a -> stored (key_of dumb) handle h = Some a) /\
      (chk = true -> o = good_at now (stored (key_of dumb) handle h)).
  Proof using K.
    intros R (G1 & G2). unfold getAssociation, sbind. destruct (store_get_spec now h _ handle R G1) as (o & E & O1 & O2). rewrite E.
    set (c1 := (now, GetA (key_of dumb) (Some handle))).
    assert (calls_ok now [c1]) as C1 by (constructor; auto).
    assert (no_store [c1]) as N1 by (intros t k a [X|[]]; discriminate).
    destruct o as [a|].
    2:{ exists [c1], None. split; auto. split; auto. split; auto. split; [exact (same_good_refl now h)|]. split; auto. }
    destruct (run_out a now && chk) eqn:RO.
    - apply andb_true_iff in RO as (RO & ->). apply run_out_good in RO.
      rewrite (remove_spec now (c1 :: h)); auto. 2:{ apply (ready_app now [c1]); auto. }
      exists [(now, RemoveA (key_of dumb) handle); c1], None. split; auto.
      split; [constructor; auto|]. split; [intros t k b [X|[X|[]]]; discriminate|]. split.
      + cbn [app]. split.
        * intros k x b H. cbn [stored] in H. destruct (_ && _); [discriminate|]. auto.
        * intros k x. cbn [stored]. destruct (text_eqb k (key_of dumb) && text_eqb x handle) eqn:Q; auto.
          rewrite andb_true_iff, !text_eqb_eq in Q. destruct Q as (-> & ->). rewrite <- O1, RO. auto.
      + rewrite <- O1, RO. split; auto. split; auto. discriminate.
    - exists [c1], (Some a). split; auto. split; auto. split; auto. split; [exact (same_good_refl now h)|]. split; auto. split; auto.
      intros ->. rewrite andb_true_r in RO. apply run_out_false in RO. congruence.
  Qed.

  Definition fresh_assoc (now : Z) (secret : N -> bytes) (uniq : bytes) (ty : text) : assoc :=
    mkAssoc (new_handle ty now uniq) (secret (if text_eqb ty (u "HMAC-SHA1") then 20%N else 32%N)) now SECRET_LIFETIME ty.
  Lemma createAssociation_spec now h secret uniq dumb ty : ready now h -> known_type ty ->
    fine (StoreA (key_of dumb) (fresh_assoc now secret uniq ty)) ->
    createAssociation step now secret uniq dumb ty (state h) =
      (state ((now, StoreA (key_of dumb) (fresh_assoc now secret uniq ty)) :: h), Ok (fresh_assoc now secret uniq ty)).
  Proof using K.
    intros R T F. unfold createAssociation, sbind, sret.
    assert (getSecretSize ty = Ok (if text_eqb ty (u "HMAC-SHA1") then 20%N else 32%N)) as -> by (destruct T as [->| ->]; reflexivity).
    assert (fromExpiresIn now SECRET_LIFETIME (new_handle ty now uniq) (secret (if text_eqb ty (u "HMAC-SHA1") then 20%N else 32%N)) ty = Ok (fresh_assoc now secret uniq ty)) as ->.
    { destruct T as [->| ->]; reflexivity. }
    rewrite (store_spec now h); auto.
  Qed.
  Lemma createAssociation_unknown now s secret uniq dumb ty : ~ known_type ty ->
    createAssociation step now secret uniq dumb ty s = (s, Raise ValueError).
  Proof using.
    intros T. unfold createAssociation, sbind, sret, getSecretSize. destruct (text_eqb ty (u "HMAC-SHA1")) eqn:E1.
    { apply text_eqb_eq in E1. exfalso. apply T. left. auto. }
    destruct (text_eqb ty (u "HMAC-SHA256")) eqn:E2; auto. apply text_eqb_eq in E2. exfalso. apply T. right. auto.
  Qed.

  Lemma verify_spec now h handle m oid : ready now h -> handle_ok dumb_key handle -> core m oid ->
    exists calls b, verify hmac step now handle m (state h) = (state (calls ++ h), Ok b) /\
      calls_ok now calls /\ no_store calls /\ same_good now (calls ++ h) h /\
      (b = true <-> exists a, good_at now (stored dumb_key handle h) = Some a /\ checkMessageSignature hmac a m = Ok true).
  Proof using K.
    intros R G C. destruct (getAssociation_spec now h handle true true R G) as (calls & o & E & A1 & A2 & A3 & A4 & A5 & A6).
    specialize (A6 eq_refl). unfold verify, sbind. rewrite E. exists calls. cbn [key_of] in *. subst o. destruct (good_at now (stored dumb_key handle h)) as [a|] eqn:Q.
    - destruct (checkMessageSignature hmac a m) as [b|x] eqn:V.
      + exists b. split; auto. split; auto. split; auto. split; auto. split.
        * intros ->. eauto.
        * intros (a' & X & Y). inv X. congruence.
      + pose proof (check_fail hmac a m oid x C V) as Vx. exists false. unfold sret. rewrite Vx. split; auto. split; auto. split; auto. split; auto. split; [discriminate|].
        intros (a' & X & Y). inv X. congruence.
    - exists false. split; auto. split; auto. split; auto. split; auto. split; [discriminate|]. intros (a' & X & _). discriminate.
  Qed.
End Signatory.
