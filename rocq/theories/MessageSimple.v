(** Messages that hold core arguments only, known as a list. *)
From Coq Require Import Lia ZifyBool ZifyN ZifyNat Permutation.
From Verif Require Import Py PyFacts Utf8 KVForm CryptUtil DH Message MessageFacts MessageParse MessageSpec MessageRound Association AssociationFacts Prop_Message Prop_Association.
Local Arguments u : simpl never.

Definition on_wire (kvs : list (text * text)) : list (text * text) := map (fun kv => (u "openid." ++ fst kv, snd kv)) kvs.
(** OpenID 2 messages carry their namespace. *)
Definition ns_param (oid : text) : list (text * text) := if text_eqb oid OPENID2_NS then [(u "openid.ns", OPENID2_NS)] else [].
Record simple (reg : dict text text) (m : msg) (oid : text) (kvs : list (text * text)) : Prop := {
  si_core : core m oid;
  si_built : built reg m;
  si_args : margs m = map (fun kv => ((Uri oid, fst kv), snd kv)) kvs;
  si_post : toPostArgs m = ns_param oid ++ on_wire kvs;
  si_keys : NoDup (map fst kvs) /\ ~ In (u "ns") (map fst kvs)
}.

Lemma simple_new reg oid : In oid allowed_openid_namespaces -> exists m, newMessage (Some oid) None = Ok m /\ simple reg m oid [].
Proof.
  intros A. assert (exists m, newMessage (Some oid) None = Ok m) as (m & E) by (destruct A as [<-|[<-|[<-|[]]]]; eexists; vm_compute; reflexivity).
  exists m. split; auto. assert (built reg m) as B by (eapply b_new; eauto).
  assert (getOpenIDNamespace m = Some oid /\ margs m = [] /\ toPostArgs m = ns_param oid) as (V & M & P).
  { destruct A as [<-|[<-|[<-|[]]]]; vm_compute in E; inv E; split; [vm_compute; reflexivity|split; vm_compute; reflexivity|
      vm_compute; reflexivity|split; vm_compute; reflexivity|vm_compute; reflexivity|split; vm_compute; reflexivity]. }
  constructor; auto.
  - eapply built_core; eauto.
  - rewrite P. symmetry. apply app_nil_r.
  - split; [constructor|intros []].
Qed.

Lemma dget_simple oid (kvs : list (text * text)) k : dget akey_eqb (Uri oid, k) (map (fun kv => ((Uri oid, fst kv), snd kv)) kvs) = dget text_eqb k kvs.
Proof.
  induction kvs as [|[k' v] l IH]; cbn [map dget fst snd]; auto. rewrite IH.
  assert (akey_eqb (Uri oid, k) (Uri oid, k') = text_eqb k k') as ->; auto.
  apply eq_true_iff_eq. rewrite akey_eqb_eq, text_eqb_eq. split; congruence.
Qed.
Lemma simple_get reg m oid kvs k : simple reg m oid kvs -> getArg m OPENID_NS k = Ok (dget text_eqb k kvs).
Proof. intros [C _ A _ _]. rewrite (core_get _ _ _ C), A, dget_simple. auto. Qed.
Lemma dget_fresh {V} k (l : list (text * V)) : ~ In k (map fst l) -> dget text_eqb k l = None.
Proof. intros H. apply (dget_None text_eqb text_eqb_eq). exact H. Qed.
Lemma simple_has reg m oid kvs k : simple reg m oid kvs -> hasKey m OPENID_NS k = Ok (dhas text_eqb k kvs).
Proof. intros [C _ A _ _]. rewrite (core_has _ _ _ C), A. unfold dhas. rewrite dget_simple. auto. Qed.

Lemma simple_set reg m oid kvs k v : simple reg m oid kvs -> ~ In k (map fst kvs) -> k <> u "ns" ->
  exists m', setArg m OPENID_NS k v = Ok m' /\ simple reg m' oid (kvs ++ [(k, v)]).
Proof.
  intros [C B A P (D1 & D2)] Hk Hn. destruct (core_set m oid k v C) as (m' & E & M & N & C'). exists m'. split; auto.
  assert (dget akey_eqb (Uri oid, k) (margs m) = None) as F by (rewrite A, dget_simple; apply dget_fresh; auto).
  constructor; auto.
  - eapply b_set; eauto.
  - rewrite M, A, (dset_fresh akey_eqb), map_app; auto. rewrite <- A. auto.
  - rewrite (post_set_fresh m oid k v m'), P by auto. rewrite (dset_fresh text_eqb).
    + unfold on_wire. rewrite map_app, app_assoc. auto.
    + apply dget_fresh. rewrite map_app, in_app_iff. intros [X|X].
      * unfold ns_param in X. destruct (text_eqb oid OPENID2_NS); cbn in X; [|destruct X]. destruct X as [X|[]].
        apply (app_inv_head (u "openid.") (u "ns") k) in X. congruence.
      * unfold on_wire in X. rewrite map_map in X. cbn [fst] in X. apply in_map_iff in X as ((k' & v') & X & I). cbn [fst] in X.
        apply app_inv_head in X. subst k'. apply Hk. apply in_map_iff. exists (k, v'). auto.
  - split.
    + rewrite map_app. apply (Permutation_NoDup (l := k :: map fst kvs)); [apply Permutation_cons_append|constructor; auto].
    + rewrite map_app, in_app_iff. intros [X|[X|[]]]; auto.
Qed.
Lemma simple_update reg kvs' : forall m oid kvs, simple reg m oid kvs -> NoDup (map fst kvs') ->
  (forall k, In k (map fst kvs') -> ~ In k (map fst kvs) /\ k <> u "ns") ->
  exists m', updateArgs m OPENID_NS kvs' = Ok m' /\ simple reg m' oid (kvs ++ kvs').
Proof.
  intros m oid kvs S D H. unfold updateArgs. rewrite (core_fix m oid) by apply S. cbn [bind].
  revert m kvs S D H. induction kvs' as [|[k v] l IH]; intros m kvs S D H; cbn [foldM].
  { exists m. rewrite app_nil_r. auto. }
  apply NoDup_cons_iff in D as (D0 & D). destruct (H k) as (H1 & H2'); [left; auto|].
  destruct (simple_set reg m oid kvs k v S H1 H2') as (m' & E & S').
  cbn [fst snd]. unfold nsarg_of.
  assert (setArg m (NS oid) k v = setArg m OPENID_NS k v) as X.
  { unfold setArg. rewrite (core_fix m oid) by apply S. rewrite fixNS_uri; auto. destruct S as [(_ & _ & X) _ _ _ _]. auto. }
  rewrite X, E. cbn [bind]. destruct (IH m' (kvs ++ [(k, v)]) S' D) as (m2 & E2 & S2).
  - intros j I. destruct (H j) as (J1 & J2); [right; auto|]. split; auto. rewrite map_app, in_app_iff. intros [Y|[Y|[]]]; auto. cbn in Y. subst j. apply D0. exact I.
  - exists m2. split; auto. rewrite <- app_assoc in S2. exact S2.
Qed.
