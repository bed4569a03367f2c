(** Proofs: messages built through the API are well formed; wire round trip. *)
From Coq Require Import Lia ZifyBool ZifyN ZifyNat Permutation.
From Verif Require Import Py PyFacts KVForm Message MessageFacts MessageWire MessageParse MessageSpec.
Local Arguments u : simpl never.

Lemma place_fixNS m n : fixNS m n = match place m n with Some x => match x with Uri t => if negb (memc 58 t) && text_eqb t (u "sreg") then Ok (Uri SREG_URI) else Ok (Uri t) | Bare => Ok Bare end
                                    | None => match n with OPENID_NS => Raise UndefinedOpenIDNamespace | _ => Raise TypeError end end.
Proof.
  unfold fixNS, place. destruct n; simpl; auto.
  - destruct (getOpenIDNamespace m); auto.
  - destruct (text_eqb t (u "sreg")) eqn:E; auto.
    + apply text_eqb_eq in E. subst. reflexivity.
    + rewrite E, !andb_false_r. auto.
Qed.

Lemma wf_alias m uri al i : wf m -> wf (mkMsg (margs m) (fst (addAlias (mns m) uri al i))).
Proof.
  intros W. destruct (addAlias (mns m) uri al i) as [n' r] eqn:E. simpl. pose proof (addAlias_wf _ _ _ _ _ _ (wm_ns _ W) E) as W'.
  apply wf_mns; auto. intros x Hx.
  destruct (addAlias_cases (mns m) uri al i) as [(e & C & _)|(C & _ & _ & _ & _)]; rewrite C in E; inv E; auto.
  unfold getAlias. simpl. rewrite (dget_dset text_eqb text_eqb_eq). destruct (text_eqb x uri); [discriminate|auto].
Qed.
Lemma wf_auto m uri : wf m -> wf (mkMsg (margs m) (fst (add (mns m) uri))).
Proof.
  intros W. destruct (add_wf (mns m) uri (wm_ns _ W)) as (n' & a & E & W' & _ & _ & P & _). rewrite E. simpl.
  apply wf_mns; auto. intros x Hx. rewrite P; auto.
Qed.
Lemma foldM_inv {S A} (f : S -> A -> res S) (P : S -> Prop) l :
  (forall s a s', P s -> f s a = Ok s' -> P s') -> forall s s', P s -> foldM f s l = Ok s' -> P s'.
Proof.
  intros H. induction l as [|a l IH]; intros s s' Hs E; simpl in E.
  - inv E. auto.
  - binv E. eauto.
Qed.
Lemma setArg_wf m n k v m' : wf m -> setArg m n k v = Ok m' -> wf m'.
Proof. intros W H. apply setArg_inv in H as (x & _ & _ & W' & _); auto. Qed.
Lemma updateArgs_wf m n kv m' : wf m -> updateArgs m n kv = Ok m' -> wf m'.
Proof.
  intros W H. unfold updateArgs in H. binv H. revert H. apply foldM_inv; auto. intros s e s' Hs E'. eapply setArg_wf; eauto.
Qed.
Lemma put_arg_wf reg m e m' : wf m -> put_arg reg m e = Ok m' -> wf m'.
Proof.
  intros W. destruct e as [[al k] v]. unfold put_arg. destruct (getNS m al) as [n|].
  - apply setArg_wf; auto.
  - destruct (getDefaultNamespace reg m al) as [n|].
    + pose proof (wf_alias m n al true W) as W2. destruct (addAlias (mns m) n al true) as [n' [b|e]]; [|discriminate].
      apply setArg_wf; auto.
    + apply setArg_wf; auto.
Qed.
Lemma fromOpenIDArgs_wf reg args m : fromOpenIDArgs reg args = Ok m -> wf m.
Proof.
  unfold fromOpenIDArgs. intros H. destruct (match sc_ns _ with Some n => _ | None => _ end) as [n i].
  binv H. apply newMessage_wf in E as [W _]. binv H.
  assert (wf a0) as W0.
  { revert E. apply foldM_inv; auto. intros s e s' Hs. pose proof (wf_alias s (snd e) (Al (fst e)) false Hs) as W2.
    destruct (addAlias (mns s) (snd e) (Al (fst e)) false) as [n' [b|x]]; [|discriminate]. intros K; inv K. auto. }
  revert H. apply foldM_inv; auto. intros s e s'. apply put_arg_wf.
Qed.
Lemma fromPostArgs_wf reg args m : fromPostArgs reg args = Ok m -> wf m.
Proof.
  unfold fromPostArgs. intros H. binv H. apply fromOpenIDArgs_wf in E. inv H.
  constructor; simpl.
  - apply E.
  - apply bare_fold_keys. apply E.
  - intros n k Hin. apply (wm_def _ E) with k. apply (dhas_In akey_eqb akey_eqb_eq). unfold dhas.
    apply (dhas_In akey_eqb akey_eqb_eq) in Hin. unfold dhas in Hin. rewrite bare_fold in Hin. exact Hin.
  - intros n k Hin. apply (wm_sreg _ E n k). apply (dhas_In akey_eqb akey_eqb_eq). unfold dhas.
    apply (dhas_In akey_eqb akey_eqb_eq) in Hin. unfold dhas in Hin. rewrite bare_fold in Hin. exact Hin.
Qed.
Lemma ext_toMessage_wf m uri a args m' : wf m -> ext_toMessage m uri a args = Ok m' -> wf m'.
Proof.
  intros W H. unfold ext_toMessage in H. binv H. revert H. apply updateArgs_wf.
  pose proof (wf_alias m uri (Al a) (isOpenID1 m) W) as W2.
  destruct (addAlias (mns m) uri (Al a) (isOpenID1 m)) as [n' [b|e]]; simpl in W2.
  - inv E. auto.
  - destruct (isKeyError e); [|discriminate]. destruct (opt_eqb alias_eqb _ _); inv E; auto.
Qed.
Lemma built_wf reg m : built reg m -> wf m.
Proof.
  induction 1.
  - apply newMessage_wf in H. tauto.
  - eapply setArg_wf; eauto.
  - apply delArg_inv in H0 as (x & _ & _ & _ & _ & W); auto.
  - eapply updateArgs_wf; eauto.
  - apply wf_alias; auto.
  - apply wf_auto; auto.
  - eapply ext_toMessage_wf; eauto.
  - eapply fromPostArgs_wf; eauto.
  - eapply fromOpenIDArgs_wf; eauto.
Qed.

(** ** Round trip *)
Lemma getArg_bare m k : getArg m BARE_NS k = Ok (dget akey_eqb (Bare, k) (margs m)).
Proof. reflexivity. Qed.
Lemma getArg_ns m n k : n <> sreg_lit -> getArg m (NS n) k = Ok (dget akey_eqb (Uri n, k) (margs m)).
Proof. intros H. unfold getArg. rewrite fixNS_uri; auto. Qed.
Lemma getArg_openid m n k : getOpenIDNamespace m = Some n -> n <> sreg_lit ->
  getArg m OPENID_NS k = Ok (dget akey_eqb (Uri n, k) (margs m)).
Proof.
  intros H Hs. unfold getArg, fixNS. rewrite H. simpl. apply text_eqb_neq in Hs. unfold sreg_lit in Hs. rewrite Hs, andb_false_r. auto.
Qed.

Section RT.
  Variables (reg : dict text text) (m : msg) (oid : text).
  Definition rt_hyps := good_registry reg /\ wf m /\ wire_safe reg m /\ getOpenIDNamespace m = Some oid.

  Lemma rt_core : rt_hyps -> forall k v, dget akey_eqb (Uri oid, k) (margs m) = Some v ->
      k <> u "ns" /\ forall a r, k = a ++ 46 :: r -> ~ In 46 a ->
        a <> u "ns" /\ getNS m (Al a) = None /\ (oid1 oid = true -> dget text_eqb a reg = None).
  Proof using.
    intros (R & W & S & O) k v H. destruct (ws_core _ _ S k v) as [A B].
    { rewrite (getArg_openid m oid); auto. - congruence. - intros ->. eapply (ws_sreg _ _ S); eauto. }
    split; auto. intros a r Hk Ha. destruct (B a r Hk Ha) as (B1 & B2 & B3). split; auto. split; auto.
    intros H1. apply B3. unfold isOpenID1. rewrite O. exact H1.
  Qed.
  Lemma rt_alias : rt_hyps -> forall x al, getAlias (mns m) x = Some al ->
    match al with Null => x = oid | Al a => ~ In 46 a /\ a <> u "ns" end.
  Proof using.
    intros (R & W & S & O) x al H. pose proof H as H'. apply (wn_inv _ (wm_ns _ W)) in H'.
    destruct al as [|a].
    - unfold getOpenIDNamespace in O. congruence.
    - apply (wn_ok _ (wm_ns _ W)) in H'. simpl in H'. apply orb_false_iff in H' as [H1 H2].
      apply memc_false in H2. split; auto. intros ->. discriminate.
  Qed.

  Lemma rt_clean : rt_hyps -> clean_names m.
  Proof using.
    intros H. pose proof (rt_core H) as C. pose proof (rt_alias H) as A. destruct H as (R & W & S & O).
    assert (forall k, In (Bare, k) (dkeys (margs m)) -> is_bare k) as B.
    { intros k Hin. apply (dhas_In akey_eqb akey_eqb_eq) in Hin. unfold dhas in Hin.
      destruct (dget akey_eqb (Bare, k) (margs m)) as [v|] eqn:E; [|discriminate].
      apply (ws_bare _ _ S k v). rewrite getArg_bare. congruence. }
    assert (forall n k, In (Uri n, k) (dkeys (margs m)) -> exists al r, getAlias (mns m) n = Some al /\
              keyname m (Uri n) k = u "openid." ++ r /\ r = untag al k /\
              match al with Null => n = oid /\ (k <> u "ns" /\ forall a r, k = a ++ 46 :: r -> ~ In 46 a -> a <> u "ns" /\ getNS m (Al a) = None)
                       | Al a => ~ In 46 a /\ a <> u "ns" end) as U.
    { intros n k Hin. destruct (getAlias (mns m) n) as [al|] eqn:E; [|exfalso; eapply (wm_def _ W); eauto].
      exists al, (untag al k). split; auto. simpl. rewrite E. specialize (A n al E). destruct al as [|a]; simpl; auto.
      split; auto. split; auto. split; auto. subst n. apply (dhas_In akey_eqb akey_eqb_eq) in Hin. unfold dhas in Hin.
      destruct (dget akey_eqb (Uri oid, k) (margs m)) as [v|] eqn:E2; [|discriminate]. destruct (C _ _ E2) as [C1 C2].
      split; auto. intros a r Hk Ha. destruct (C2 a r Hk Ha) as (X & Y & _). auto. }
    constructor.
    - intros n k n' k' H1 H2 E. destruct n as [|x], n' as [|y].
      + simpl in E. congruence.
      + destruct (U _ _ H2) as (al & r & _ & K & _). rewrite K in E. cbn [keyname] in E. subst k. apply B in H1. unfold is_bare in H1.
        rewrite startswith_app in H1. discriminate.
      + destruct (U _ _ H1) as (al & r & _ & K & _). rewrite K in E. cbn [keyname] in E. subst k'. apply B in H2. unfold is_bare in H2.
        rewrite startswith_app in H2. discriminate.
      + destruct (U _ _ H1) as (al & r & A1 & K & -> & M). destruct (U _ _ H2) as (al' & r' & A1' & K' & -> & M').
        rewrite K, K' in E. apply app_inv_head in E.
        destruct al as [|a], al' as [|a']; simpl in E.
        * destruct M as [-> _], M' as [-> _]. congruence.
        * subst k. exfalso. destruct M as (_ & _ & M). destruct (M a' k' eq_refl) as [_ M2]; [tauto|].
          apply (wn_inv _ (wm_ns _ W)) in A1'. congruence.
        * subst k'. exfalso. destruct M' as (_ & _ & M'). destruct (M' a k eq_refl) as [_ M2]; [tauto|].
          apply (wn_inv _ (wm_ns _ W)) in A1. congruence.
        * pose proof (cut_app 46 a k (proj1 M)) as C1. rewrite E, (cut_app 46 a' k' (proj1 M')) in C1. inv C1.
          apply (wn_inv _ (wm_ns _ W)) in A1, A1'. congruence.
    - intros n k x al H1 [H2 _] E. destruct n as [|y].
      + simpl in E. subst k. apply B in H1. unfold is_bare in H1.
        destruct al; simpl in H1; discriminate.
      + destruct (U _ _ H1) as (al' & r & A1 & K & -> & M). rewrite K in E.
        destruct al as [|a]; cbn [ns_field] in E.
        * assert (u "openid." ++ untag al' k = u "openid." ++ u "ns") as E' by exact E.
          apply app_inv_head in E'. destruct al' as [|b]; cbn [untag] in E'.
          -- tauto.
          -- assert (In 46 (u "ns")) as Q. { rewrite <- E'. apply in_or_app. simpl; auto. } vm_compute in Q. intuition discriminate.
        * assert (u "openid." ++ untag al' k = u "openid." ++ (u "ns" ++ 46 :: a)) as E' by exact E.
          apply app_inv_head in E'. destruct al' as [|b]; cbn [untag] in E'.
          -- destruct M as (_ & _ & M). destruct (M (u "ns") a E') as [M2 _]; [|congruence].
             intros Q. vm_compute in Q. intuition discriminate.
          -- assert (~ In 46 (u "ns")) as Nd by (intros Q; vm_compute in Q; intuition discriminate).
             pose proof (cut_app 46 b k (proj1 M)) as C1. rewrite E', (cut_app 46 (u "ns") a Nd) in C1. inv C1. tauto.
  Qed.

  Notation wire := (openid_part (toPostArgs m)).

  Lemma rt_in : rt_hyps -> forall r v, In (r, v) wire <->
    (exists al, explicit m v al /\ u "openid." ++ r = ns_field al) \/
    (exists n k, dget akey_eqb (n, k) (margs m) = Some v /\ u "openid." ++ r = keyname m n k).
  Proof using.
    intros H r v. rewrite In_openid_part. rewrite <- toPostArgs_spec; [|apply H|apply rt_clean; auto]. split.
    - intros Hin. apply (In_dget text_eqb text_eqb_eq); auto using toPostArgs_keys.
    - apply (dget_In text_eqb text_eqb_eq).
  Qed.

  (** How an argument of [m] is read back. *)
  Lemma rt_key : rt_hyps -> forall x k v, dget akey_eqb (Uri x, k) (margs m) = Some v ->
    exists al k0, entry_ok al k0 /\ keyname m (Uri x) k = u "openid." ++ untag al k0 /\
      ((x = oid /\ k = untag al k0 /\ (al = Null \/ exists a, al = Al a /\ getNS m al = None /\ (oid1 oid = true -> dget text_eqb a reg = None))) \/
       (exists a, al = Al a /\ k0 = k /\ getNS m al = Some x)).
  Proof using.
    intros H x k v Hk. pose proof (rt_core H) as C. pose proof (rt_alias H) as A. destruct H as (R & W & S & O).
    assert (getAlias (mns m) x <> None) as D.
    { eapply (wm_def _ W). apply (dget_In akey_eqb akey_eqb_eq) in Hk. apply (in_map fst) in Hk. exact Hk. }
    destruct (getAlias (mns m) x) as [al|] eqn:E; [|contradiction]. pose proof (A _ _ E) as A'. simpl. rewrite E. destruct al as [|a].
    - subst x. destruct (C _ _ Hk) as [C1 C2]. destruct (cut 46 k) as [[a r]|] eqn:Q.
      + apply cut_Some in Q as [-> Q]. destruct (C2 a r eq_refl Q) as (X & Y & Z). exists (Al a), r.
        split; [simpl; auto|]. split; auto. left. split; auto. split; auto. right. exists a. auto.
      + apply cut_None in Q. exists Null, k. split; [simpl; auto|]. split; auto.
    - exists (Al a), k. split; [simpl; auto|]. split; auto. right. exists a. split; auto. split; auto.
      apply (wn_inv _ (wm_ns _ W)). auto.
  Qed.

  Lemma rt_decl : rt_hyps -> forall a n, In (u "ns." ++ a, n) wire <-> explicit m n (Al a).
  Proof using.
    intros H a n. rewrite rt_in by auto. split.
    - intros [(al & X & Y)|(x & k & X & Y)].
      + destruct al as [|b]; cbn [ns_field] in Y; [discriminate|].
        assert (u "openid.ns." ++ a = u "openid.ns." ++ b) as Y' by exact Y. apply app_inv_head in Y'. subst; auto.
      + exfalso. destruct x as [|x].
        * cbn [keyname] in Y. destruct H as (R & W & S & O). pose proof (ws_bare _ _ S k n) as B. rewrite getArg_bare, X in B.
          specialize (B eq_refl). rewrite <- Y in B. rewrite startswith_app in B. discriminate.
        * destruct (rt_key H _ _ _ X) as (al & k0 & He & K & _). rewrite K in Y. apply app_inv_head in Y.
          assert (read_key (untag al k0) = RArg al k0) as Q by (apply read_key_RArg; auto).
          assert (read_key (u "ns." ++ a) = RDecl a) as Q' by (apply read_key_RDecl; auto). congruence.
    - intros X. left. exists (Al a). split; auto.
  Qed.
  Lemma rt_nsdecl : rt_hyps -> forall n, In (u "ns", n) wire <-> explicit m n Null.
  Proof using.
    intros H n. rewrite rt_in by auto. split.
    - intros [(al & X & Y)|(x & k & X & Y)].
      + destruct al as [|b]; cbn [ns_field] in Y; auto. discriminate.
      + exfalso. destruct x as [|x].
        * cbn [keyname] in Y. destruct H as (R & W & S & O). pose proof (ws_bare _ _ S k n) as B. rewrite getArg_bare, X in B.
          specialize (B eq_refl). rewrite <- Y in B. discriminate.
        * destruct (rt_key H _ _ _ X) as (al & k0 & He & K & _). rewrite K in Y.
          assert (u "openid." ++ u "ns" = u "openid." ++ untag al k0) as Y' by exact Y. apply app_inv_head in Y'.
          assert (read_key (untag al k0) = RArg al k0) as Q by (apply read_key_RArg; auto).
          assert (read_key (u "ns") = RNs) as Q' by (apply read_key_RNs; auto). congruence.
    - intros X. left. exists Null. split; auto.
  Qed.
  Lemma rt_arg : rt_hyps -> forall al k0 v, entry_ok al k0 -> In (untag al k0, v) wire ->
    exists x k, dget akey_eqb (Uri x, k) (margs m) = Some v /\
      ((x = oid /\ k = untag al k0 /\ (al = Null \/ exists a, al = Al a /\ getNS m al = None /\ (oid1 oid = true -> dget text_eqb a reg = None))) \/
       (exists a, al = Al a /\ k0 = k /\ getNS m al = Some x)).
  Proof using.
    intros H al k0 v He Hin. apply rt_in in Hin; auto. destruct Hin as [(al' & X & Y)|(x & k & X & Y)].
    - exfalso. assert (read_key (untag al k0) = RArg al k0) as Q by (apply read_key_RArg; auto).
      destruct al' as [|a]; cbn [ns_field] in Y.
      + assert (u "openid." ++ untag al k0 = u "openid." ++ u "ns") as Y' by exact Y. apply app_inv_head in Y'. rewrite Y' in Q. discriminate.
      + assert (u "openid." ++ untag al k0 = u "openid." ++ u "ns." ++ a) as Y' by exact Y. apply app_inv_head in Y'. rewrite Y' in Q.
        assert (read_key (u "ns." ++ a) = RDecl a) as Q' by (apply read_key_RDecl; auto). congruence.
    - destruct x as [|x].
      + exfalso. cbn [keyname] in Y. destruct H as (R & W & S & O). pose proof (ws_bare _ _ S k v) as B. rewrite getArg_bare, X in B.
        specialize (B eq_refl). rewrite <- Y in B. rewrite startswith_app in B. discriminate.
      + destruct (rt_key H _ _ _ X) as (al' & k0' & He' & K & D). rewrite K in Y. apply app_inv_head in Y.
        apply untag_inj in Y as [<- <-]; auto. eauto.
  Qed.

  Lemma rt_oid : rt_hyps -> oid_of wire = oid /\ (dget text_eqb (u "ns") wire = None -> isImplicit (mns m) oid = true).
  Proof using.
    intros H. pose proof H as (R & W & S & O). assert (getAlias (mns m) oid = Some Null) as GA.
    { apply (wn_inv _ (wm_ns _ W)). exact O. }
    unfold oid_of. destruct (dget text_eqb (u "ns") wire) as [n|] eqn:E.
    - split; [|discriminate]. apply (dget_In text_eqb text_eqb_eq) in E. apply rt_nsdecl in E as [E _]; auto.
      apply (wn_inv _ (wm_ns _ W)) in E. unfold getOpenIDNamespace in O. congruence.
    - assert (isImplicit (mns m) oid = true) as I.
      { destruct (isImplicit (mns m) oid) eqn:I; auto. exfalso. apply mem_text_false in I.
        assert (In (u "ns", oid) wire) as K by (apply rt_nsdecl; split; auto).
        apply (dget_None text_eqb text_eqb_eq) in E. apply E. apply (in_map fst) in K. exact K. }
      split; auto. destruct (ws_version _ _ S) as (v & V1 & V2 & V3). assert (v = oid) as -> by congruence.
      symmetry. apply V3; auto.
  Qed.

  Lemma rt_parse : rt_hyps -> exists m0, fromOpenIDArgs reg wire = Ok m0.
  Proof using.
    intros H. pose proof (rt_oid H) as [RO _]. pose proof (rt_alias H) as A. pose proof H as ((R1 & R2) & W & S & O).
    apply fromOpenIDArgs_complete; auto.
    - apply NoDup_openid_part, toPostArgs_keys.
    - intros a Hin. apply rt_decl in Hin as [Hin _]; auto. apply (wn_inv _ (wm_ns _ W)) in Hin. eapply (ws_sreg _ _ S); eauto.
    - rewrite RO. destruct (ws_version _ _ S) as (v & V1 & V2 & V3). congruence.
    - intros a n Hin. apply rt_decl in Hin as [Hin _]; auto. pose proof Hin as Hin'. apply (wn_inv _ (wm_ns _ W)) in Hin'. split.
      + eapply (wn_ok _ (wm_ns _ W)); eauto.
      + rewrite RO. intros ->. assert (getAlias (mns m) oid = Some Null) as GA by (apply (wn_inv _ (wm_ns _ W)); exact O). congruence.
    - intros a b n Ha Hb. apply rt_decl in Ha as [Ha _], Hb as [Hb _]; auto. congruence.
    - rewrite RO. intros a n O1 Rg (k & v & Hin) Hnd Hd Hne.
      destruct (rt_arg H (Al a) k v) as (x & k' & X & [(-> & -> & [Y|(a' & Y & _ & Z)])|(a' & Y & -> & Z)]); auto; try discriminate.
      { simpl. auto. }
      + inv Y. rewrite (Z O1) in Rg. discriminate.
      + inv Y. assert (isImplicit (mns m) x = true) as I.
        { destruct (isImplicit (mns m) x) eqn:I; auto. exfalso. apply mem_text_false in I. apply (Hnd x). apply rt_decl; auto.
          split; auto. apply (wn_inv _ (wm_ns _ W)); auto. }
        destruct (ws_ext _ _ S a' x Z I) as [_ Rx]. assert (n = x) as -> by congruence.
        split; [eapply (wn_ok _ (wm_ns _ W)); eauto|]. pose proof Z as Z'. apply (wn_inv _ (wm_ns _ W)) in Z'. split.
        * intros ->. assert (getAlias (mns m) oid = Some Null) as GA by (apply (wn_inv _ (wm_ns _ W)); exact O). congruence.
        * intros b Hb. apply rt_decl in Hb as [Hb Hb2]; auto. apply mem_text_In in I. contradiction.
  Qed.

  Lemma rt_main : rt_hyps -> exists m', fromPostArgs reg (toPostArgs m) = Ok m' /\ wf m' /\
    getOpenIDNamespace m' = Some oid /\
    (forall key, dget akey_eqb key (margs m') = dget akey_eqb key (margs m)) /\
    (forall al, getNS m' al <> Some sreg_lit) /\
    (forall x k v al, dget akey_eqb (Uri x, k) (margs m) = Some v -> getAlias (mns m') x = Some al <-> getAlias (mns m) x = Some al).
  Proof using.
    intros H. destruct (rt_parse H) as (m0 & P0). pose proof (rt_oid H) as [RO _]. pose proof H as ((R1 & R2) & W & S & O).
    pose proof (fromPostArgs_spec reg (toPostArgs m) (toPostArgs_keys m)) as F. rewrite P0 in F.
    destruct F as (m' & F1 & F2 & F3 & F4 & F5). exists m'. split; auto.
    assert (Parsed reg wire m0) as P.
    { apply fromOpenIDArgs_sound; auto.
      - apply NoDup_openid_part, toPostArgs_keys.
      - intros a Hin. apply rt_decl in Hin as [Hin _]; auto. apply (wn_inv _ (wm_ns _ W)) in Hin. eapply (ws_sreg _ _ S); eauto. }
    assert (forall al k0, (al = Null \/ exists a, al = Al a /\ getNS m al = None /\ (oid1 oid = true -> dget text_eqb a reg = None)) ->
              entry_ok al k0 -> tgt m0 oid al k0 = (Uri oid, untag al k0)) as T1.
    { intros al k0 [->|(a & -> & N1 & N2)] He.
      - unfold tgt. pose proof (pa_null _ _ _ P) as PN. rewrite RO in PN. rewrite PN. auto.
      - unfold tgt. destruct (getNS m0 (Al a)) as [n|] eqn:E; auto. exfalso. apply (pa_ns _ _ _ P) in E as [E|(E1 & E2 & E3 & _)].
        + apply rt_decl in E as [E _]; auto. apply (wn_inv _ (wm_ns _ W)) in E. congruence.
        + rewrite RO in E2. rewrite (N2 E2) in E3. discriminate. }
    assert (forall a x k v, getNS m (Al a) = Some x -> dget akey_eqb (Uri x, k) (margs m) = Some v -> getNS m0 (Al a) = Some x) as T2.
    { intros a x k v Ha Hk. apply (pa_ns _ _ _ P).
      assert (getAlias (mns m) x = Some (Al a)) as GA by (apply (wn_inv _ (wm_ns _ W)); auto).
      destruct (isImplicit (mns m) x) eqn:I.
      - right. destruct (ws_ext _ _ S a x Ha I) as [I1 I2]. rewrite RO.
        split. { intros n' Hn. apply rt_decl in Hn as [Hn Hn2]; auto. apply (wn_inv _ (wm_ns _ W)) in Hn. rewrite Ha in Hn. inv Hn. apply mem_text_In in I. contradiction. }
        split. { unfold isOpenID1 in I1. rewrite O in I1. exact I1. }
        split; auto. pose proof (rt_alias H _ _ GA) as [Q1 Q2]. split; auto. split; auto.
        exists k, v. apply rt_in; auto. right. exists (Uri x), k. split; auto. simpl. rewrite GA. auto.
      - left. apply rt_decl; auto. split; auto. apply mem_text_false; auto. }
    split; [apply F5, P|]. split.
    { unfold getOpenIDNamespace. rewrite F2. pose proof (pa_null _ _ _ P) as PN. rewrite RO in PN. exact PN. }
    assert (forall x k v, dget akey_eqb (Uri x, k) (margs m) = Some v <-> dget akey_eqb (Uri x, k) (margs m0) = Some v) as Q.
    { intros x k v. split.
      - intros Hk. destruct (rt_key H _ _ _ Hk) as (al & k0 & He & K & D).
        assert (In (untag al k0, v) wire) as Hin. { apply rt_in; auto. right. exists (Uri x), k. auto. }
        pose proof (pa_in _ _ _ P al k0 v He Hin) as PI. rewrite RO in PI.
        destruct D as [(-> & -> & D)|(a & -> & -> & D)].
        + rewrite (T1 al k0 D He) in PI. auto.
        + unfold tgt in PI. rewrite (T2 a x k v D Hk) in PI. auto.
      - intros Hk. destruct (pa_out _ _ _ P _ _ Hk) as (al & k0 & He & Hin & T). rewrite RO in T.
        destruct (rt_arg H al k0 v He Hin) as (x' & k' & X & [(-> & -> & D)|(a & -> & -> & D)]).
        + rewrite (T1 al k0 D He) in T. inv T. auto.
        + unfold tgt in T. rewrite (T2 a x' k' v D X) in T. inv T. auto. }
    assert (forall (a b : option text), (forall v, a = Some v <-> b = Some v) -> a = b) as OE.
    { intros [a|] [b|] Hab; auto.
      - symmetry. apply Hab. auto.
      - destruct (Hab a) as [K _]. discriminate K; auto.
      - destruct (Hab b) as [_ K]. discriminate K; auto. }
    split; [|split].
    - intros [[|x] k]; apply OE; intros v.
      + rewrite F4.
        2:{ intros k' v' K. apply (pa_out _ _ _ P) in K as (al & y & _ & _ & T). unfold tgt in T. destruct (getNS m0 al); discriminate. }
        split.
        * intros [Hin Hb]. apply (In_dget text_eqb text_eqb_eq) in Hin; [|apply toPostArgs_keys].
          apply toPostArgs_spec in Hin; [|auto|apply rt_clean; auto]. destruct Hin as [(al & X & Y)|(n & k' & X & Y)].
          -- subst k. unfold is_bare in Hb. destruct al; simpl in Hb; discriminate.
          -- destruct n as [|x]; [cbn [keyname] in Y; subst; auto|]. exfalso.
             destruct (rt_key H _ _ _ X) as (al & k0 & He & K & _). rewrite K in Y. subst k.
             unfold is_bare in Hb. rewrite startswith_app in Hb. discriminate.
        * intros Hk. pose proof (ws_bare _ _ S k v) as B. rewrite getArg_bare, Hk in B. specialize (B eq_refl). split; auto.
          apply (dget_In text_eqb text_eqb_eq). apply toPostArgs_spec; [auto|apply rt_clean; auto|]. right. exists Bare, k. auto.
      + rewrite F3. symmetry. apply Q.
    - intros al. rewrite F2. apply P.
    - intros x k v al Hk. rewrite F2. destruct (getAlias (mns m) x) as [al0|] eqn:E.
      + assert (getAlias (mns m0) x = Some al0) as ->; [|tauto]. apply (wn_inv _ (wm_ns _ (pa_wf _ _ _ P))).
        destruct al0 as [|a].
        * apply rt_alias in E; auto. subst. pose proof (pa_null _ _ _ P) as PN. rewrite RO in PN. exact PN.
        * eapply T2; eauto. apply (wn_inv _ (wm_ns _ W)). auto.
      + exfalso. eapply (wm_def _ W); eauto. apply (dget_In akey_eqb akey_eqb_eq) in Hk. apply (in_map fst) in Hk. exact Hk.
  Qed.
End RT.

(** ** The version of a message *)
Lemma addAlias_Al_null m uri a i : getNamespaceURI (fst (addAlias m uri (Al a) i)) Null = getNamespaceURI m Null.
Proof.
  destruct (addAlias_cases m uri (Al a) i) as [(e & C & _)|(C & _)]; rewrite C; simpl; auto.
  unfold getNamespaceURI. simpl. rewrite (dget_dset_other alias_eqb alias_eqb_eq); auto. discriminate.
Qed.
Lemma add_loop_null fuel : forall i m uri, getNamespaceURI (fst (add_loop fuel i m uri)) Null = getNamespaceURI m Null.
Proof.
  induction fuel as [|f IH]; intros i m uri; cbn [add_loop]; auto.
  pose proof (addAlias_Al_null m uri (u "ext" ++ str_of_N i) false) as H.
  destruct (addAlias m uri (Al (u "ext" ++ str_of_N i)) false) as [m' [a|e]]; simpl in *; auto.
  destruct (isKeyError e); auto. rewrite IH. auto.
Qed.
Lemma add_null m uri : getNamespaceURI (fst (add m uri)) Null = getNamespaceURI m Null.
Proof. unfold add. destruct (getAlias m uri); auto. apply add_loop_null. Qed.
Lemma setArg_null m n k v m' : setArg m n k v = Ok m' -> getOpenIDNamespace m' = getOpenIDNamespace m.
Proof.
  unfold setArg. intros H. binv H. destruct a as [|t]; [inv H; auto|].
  pose proof (add_null (mns m) t) as A. destruct (add (mns m) t) as [n' [b|e]]; inv H. exact A.
Qed.
Lemma foldM_same {S A B} (f : S -> A -> res S) (g : S -> B) l :
  (forall s a s', f s a = Ok s' -> g s' = g s) -> forall s s', foldM f s l = Ok s' -> g s' = g s.
Proof.
  intros H. induction l as [|a l IH]; intros s s' E; simpl in E.
  - inv E. auto.
  - binv E. transitivity (g a0); eauto.
Qed.
Lemma updateArgs_null m n kv m' : updateArgs m n kv = Ok m' -> getOpenIDNamespace m' = getOpenIDNamespace m.
Proof.
  unfold updateArgs. intros H. binv H. revert H. apply (foldM_same _ getOpenIDNamespace). intros s e s'. apply setArg_null.
Qed.
Lemma put_arg_null reg m e m' : getOpenIDNamespace m <> None -> put_arg reg m e = Ok m' -> getOpenIDNamespace m' = getOpenIDNamespace m.
Proof.
  intros Hn. destruct e as [[al k] v]. unfold put_arg. destruct (getNS m al) as [n|] eqn:E.
  - apply setArg_null.
  - destruct (getDefaultNamespace reg m al) as [n|].
    + destruct al as [|a]; [contradiction|]. pose proof (addAlias_Al_null (mns m) n a true) as A.
      destruct (addAlias (mns m) n (Al a) true) as [n' [b|e]]; [|discriminate]. intros H. apply setArg_null in H.
      rewrite H. exact A.
    + apply setArg_null.
Qed.
Lemma dget_ns_scan l : forall s, sc_ns (fold_left scan_step l s) = match assoc_last text_eqb (u "ns") l with Some v => Some v | None => sc_ns s end.
Proof.
  induction l as [|[k v] l IH]; intros s; cbn [fold_left]; auto. rewrite IH. cbn [assoc_last].
  destruct (assoc_last text_eqb (u "ns") l); auto. rewrite text_eqb_sym. unfold scan_step.
  destruct (cut 46 k) as [[a b]|] eqn:C.
  - destruct (text_eqb k (u "ns")) eqn:E.
    + apply text_eqb_eq in E. subst. discriminate.
    + destruct (text_eqb a (u "ns")); auto.
  - destruct (text_eqb k (u "ns")) eqn:E; auto.
Qed.
Lemma fromOpenIDArgs_ver reg args : NoDup (dkeys args) ->
  match fromOpenIDArgs reg args with
  | Ok m => getOpenIDNamespace m = Some (oid_of args) /\ In (oid_of args) allowed_openid_namespaces
  | Raise e => In (oid_of args) allowed_openid_namespaces \/ e = InvalidOpenIDNamespace
  end.
Proof.
  intros Hn. rewrite fromOpenIDArgs_unfold by auto.
  destruct (in_dec text_eq_dec (oid_of args) allowed_openid_namespaces) as [I|I].
  2:{ rewrite newMessage_bad by auto. simpl. auto. }
  destruct (newMessage _ _) as [m1|e] eqn:E1; [|simpl; auto]. cbn [bind].
  destruct (foldM add_decl m1 (decls_of args)) as [m0|e] eqn:E2; [|simpl; auto]. cbn [bind].
  destruct (foldM (put_arg reg) m0 (args_of args)) as [m|e] eqn:E3; [|auto].
  split; auto. apply newMessage_Some in E1 as (_ & _ & _ & N1 & _).
  assert (getOpenIDNamespace m1 = Some (oid_of args)) as V1 by (apply N1; auto).
  assert (getOpenIDNamespace m0 = Some (oid_of args)) as V0.
  { rewrite <- V1. revert E2. apply (foldM_same _ getOpenIDNamespace). intros s e s'. unfold add_decl.
    pose proof (addAlias_Al_null (mns s) (snd e) (fst e) false) as A.
    destruct (addAlias (mns s) (snd e) (Al (fst e)) false) as [n' [b|x]]; [|discriminate]. intros K; inv K. exact A. }
  revert E3. generalize (args_of args) V0. generalize m0. clear. intros m0 l. revert m0.
  induction l as [|e l IH]; intros m0 V E; simpl in E; [inv E; auto|]. binv E. apply (IH a); auto.
  rewrite (put_arg_null reg m0 e a); auto. congruence.
Qed.
Lemma fromPostArgs_ver reg args m : fromPostArgs reg args = Ok m -> NoDup (dkeys args) ->
  getOpenIDNamespace m = Some (oid_of (openid_part args)) /\ In (oid_of (openid_part args)) allowed_openid_namespaces.
Proof.
  intros H Hn. pose proof (fromPostArgs_spec reg args Hn) as S.
  pose proof (fromOpenIDArgs_ver reg (openid_part args) (NoDup_openid_part _ Hn)) as V.
  destruct (fromOpenIDArgs reg (openid_part args)) as [m0|e]; [|congruence].
  destruct S as (m' & S1 & S2 & _). rewrite S1 in H. inv H. unfold getOpenIDNamespace in *. rewrite S2. auto.
Qed.
Lemma fromOpenIDArgs_dup reg args m : fromOpenIDArgs reg args = Ok m ->
  exists v, getOpenIDNamespace m = Some v /\ In v allowed_openid_namespaces.
Proof.
  unfold fromOpenIDArgs. intros H. destruct (match sc_ns _ with Some n => _ | None => _ end) as [n i].
  binv H. apply newMessage_Some in E as (I & _ & _ & N1 & _). exists n. split; auto. binv H. rename a into m1, a0 into m0.
  assert (getOpenIDNamespace m1 = Some n) as V1 by (apply N1; auto).
  assert (getOpenIDNamespace m0 = Some n) as V0.
  { rewrite <- V1. revert E. apply (foldM_same _ getOpenIDNamespace). intros s e s'.
    pose proof (addAlias_Al_null (mns s) (snd e) (fst e) false) as A.
    destruct (addAlias (mns s) (snd e) (Al (fst e)) false) as [n' [b|x]]; [|discriminate]. intros K; inv K. exact A. }
  revert H. generalize (sc_args (fold_left scan_step args {| sc_ns := None; sc_decl := []; sc_args := [] |})) V0. generalize m0. clear. intros m0 l. revert m0.
  induction l as [|e l IH]; intros m0 V E; simpl in E; [inv E; auto|]. binv E. apply (IH a); auto.
  rewrite (put_arg_null reg m0 e a); auto. congruence.
Qed.
Lemma built_ver reg m : built reg m -> match getOpenIDNamespace m with Some v => In v allowed_openid_namespaces | None => True end.
Proof.
  induction 1.
  - destruct o as [n|]; [|inv H; exact I]. 
    assert (exists b, newMessage (Some n) (Some b) = Ok m) as (b & E).
    { unfold newMessage in *. destruct i; eauto. }
    apply newMessage_Some in E as (E1 & _ & _ & E2 & _). destruct (getOpenIDNamespace m) eqn:G; auto. apply E2 in G as [_ ->]. auto.
  - rewrite (setArg_null _ _ _ _ _ H0). auto.
  - unfold delArg in H0. binv H0. destruct (dhas _ _ _); inv H0. exact IHbuilt.
  - rewrite (updateArgs_null _ _ _ _ H0). auto.
  - unfold getOpenIDNamespace in *. simpl. rewrite addAlias_Al_null. auto.
  - unfold getOpenIDNamespace in *. simpl. rewrite add_null. auto.
  - unfold ext_toMessage in H0. binv H0. rewrite (updateArgs_null _ _ _ _ H0).
    pose proof (addAlias_Al_null (mns m) uri a (isOpenID1 m)) as A.
    destruct (addAlias (mns m) uri (Al a) (isOpenID1 m)) as [n' [b|e]]; simpl in A.
    + inv E. unfold getOpenIDNamespace in *. simpl. rewrite A. auto.
    + destruct (isKeyError e); [|discriminate]. destruct (opt_eqb alias_eqb _ _); inv E. unfold getOpenIDNamespace in *. simpl. rewrite A. auto.
  - unfold fromPostArgs in H. binv H. apply fromOpenIDArgs_dup in E as (v & E1 & E2). inv H.
    unfold getOpenIDNamespace in *. simpl. rewrite E1. auto.
  - apply fromOpenIDArgs_dup in H as (v & E1 & E2). rewrite E1. auto.
Qed.

(** ** Places *)
Lemma place_ok reg m n : built reg m ->
  match place m n with
  | Some x => fixNS m n = Ok x
  | None => exists e, fixNS m n = Raise e
  end.
Proof.
  intros B. apply built_ver in B. rewrite place_fixNS.
  destruct n; simpl; eauto.
  - destruct (getOpenIDNamespace m) as [v|]; simpl; eauto. apply allowed_not_sreg in B. apply text_eqb_neq in B.
    unfold sreg_lit in B. rewrite B, andb_false_r. auto.
  - destruct (text_eqb t (u "sreg")) eqn:E; auto. rewrite E, andb_false_r. auto.
Qed.
Lemma place_null m m' n : getOpenIDNamespace m' = getOpenIDNamespace m -> place m' n = place m n.
Proof. intros H. unfold place. rewrite H. auto. Qed.

Lemma getArg_place reg m n k : built reg m ->
  match place m n with
  | Some x => getArg m n k = Ok (dget akey_eqb (x, k) (margs m))
  | None => exists e, getArg m n k = Raise e
  end.
Proof.
  intros B. pose proof (place_ok reg m n B) as P. unfold getArg. destruct (place m n); [rewrite P; auto|].
  destruct P as (e & ->). simpl; eauto.
Qed.
