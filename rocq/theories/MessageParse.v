(** Proofs about [Message]: what fromPostArgs builds and what toPostArgs emits. *)
From Coq Require Import Lia ZifyBool ZifyN ZifyNat Permutation.
From Verif Require Import Py PyFacts KVForm Message MessageFacts MessageWire.
Local Arguments u : simpl never.

(** ** fromOpenIDArgs *)
Definition oid_of (args : dict text text) : text :=
  match dget text_eqb (u "ns") args with Some v => v | None => OPENID1_NS end.

Lemma In_args_of l al k v : In (al, k, v) (args_of l) <-> entry_ok al k /\ In (untag al k, v) l.
Proof.
  unfold args_of. rewrite in_flat_map. split.
  - intros ([key w] & Hin & H). simpl in H. destruct (read_key key) eqn:E; simpl in H; try tauto.
    destruct H as [H|[]]. inv H. apply read_key_RArg in E as [E1 E2]. subst. auto.
  - intros [H1 H2]. exists (untag al k, v). split; auto. simpl.
    assert (read_key (untag al k) = RArg al k) as -> by (apply read_key_RArg; auto). simpl; auto.
Qed.
Lemma In_decls_of l a v : In (a, v) (decls_of l) <-> In (u "ns." ++ a, v) l.
Proof.
  unfold decls_of. rewrite in_flat_map. split.
  - intros ([key w] & Hin & H). cbn [fst snd] in H. destruct (read_key key) eqn:E; simpl in H; try tauto.
    destruct H as [H|[]]. inv H. apply read_key_RDecl in E. subst. auto.
  - intros H2. exists (u "ns." ++ a, v). split; auto. cbn [fst snd].
    assert (read_key (u "ns." ++ a) = RDecl a) as -> by (apply read_key_RDecl; auto). simpl; auto.
Qed.
Lemma NoDup_args l : NoDup (dkeys l) -> NoDup (map fst (args_of l)).
Proof.
  unfold dkeys, args_of. induction l as [|[k v] l IH]; simpl; intros H; [constructor|]. inv H.
  destruct (read_key k) eqn:E; simpl; auto. constructor; auto. intros Hin. apply H2.
  apply in_map_iff in Hin as ([[al2 k2] w] & X & Hin). simpl in X. inv X.
  apply (In_args_of l al k0 w) in Hin as [Hx Hy].
  apply read_key_RArg in E as [_ ->]. apply in_map_iff. eexists; split; [|eauto]. auto.
Qed.

Lemma newMessage_Some n i m : newMessage (Some n) (Some i) = Ok m ->
  In n allowed_openid_namespaces /\ wf m /\ margs m = [] /\
  (forall al x, getNS m al = Some x <-> al = Null /\ x = n) /\
  implicit_ns (mns m) = if i then [n] else [].
Proof.
  intros H. pose proof (newMessage_wf _ _ _ H) as [W E]. unfold newMessage, setOpenIDNamespace in H.
  destruct (mem_text n allowed_openid_namespaces) eqn:M; [|discriminate]. simpl negb in H. cbv iota in H.
  destruct (addAlias (mns empty_msg) n Null i) as [n' [b|e]] eqn:A; inv H.
  apply mem_text_In in M. split; auto. split; auto. split; auto.
  apply addAlias_Ok in A as (_ & _ & _ & A1 & _ & A3 & _). split.
  - intros al x. simpl. rewrite A1. destruct (alias_eqb al Null) eqn:E2.
    + apply alias_eqb_eq in E2. split; [intros K; inv K; auto|intros [_ ->]; auto].
    + apply alias_eqb_neq in E2. simpl. split; [discriminate|tauto].
  - simpl. rewrite A3. simpl. destruct i; auto.
Qed.
Lemma newMessage_ok n i : In n allowed_openid_namespaces -> exists m, newMessage (Some n) (Some i) = Ok m.
Proof.
  intros H. unfold newMessage, setOpenIDNamespace. apply mem_text_In in H. rewrite H. simpl negb. cbv iota.
  destruct (addAlias_fresh (mns empty_msg) n Null i) as (m & ->); eauto.
Qed.
Lemma newMessage_bad n i : ~ In n allowed_openid_namespaces -> newMessage (Some n) (Some i) = Raise InvalidOpenIDNamespace.
Proof.
  intros H. unfold newMessage, setOpenIDNamespace. apply mem_text_false in H. rewrite H. auto.
Qed.

Lemma allowed_not_sreg n : In n allowed_openid_namespaces -> n <> sreg_lit.
Proof. simpl. intros [<-|[<-|[<-|[]]]]; discriminate. Qed.

Section Parse.
  Variable reg : dict text text.

  (** Everything there is to know about a successful parse. *)
  Record Parsed (args : dict text text) (m : msg) : Prop := {
    pa_oid : In (oid_of args) allowed_openid_namespaces;
    pa_wf : wf m;
    pa_null : getNS m Null = Some (oid_of args);
    pa_sreg : forall al, getNS m al <> Some sreg_lit;
    pa_ns : forall a n, getNS m (Al a) = Some n <->
        In (u "ns." ++ a, n) args \/
        ((forall n', ~ In (u "ns." ++ a, n') args) /\ oid1 (oid_of args) = true /\
         dget text_eqb a reg = Some n /\ ~ In 46 a /\ a <> u "ns" /\ exists k v, In (a ++ 46 :: k, v) args);
    pa_imp : forall n, In n (implicit_ns (mns m)) <->
        (n = oid_of args /\ dget text_eqb (u "ns") args = None) \/
        (exists a, (forall n', ~ In (u "ns." ++ a, n') args) /\ getNS m (Al a) = Some n);
    pa_in : forall al k v, entry_ok al k -> In (untag al k, v) args ->
        dget akey_eqb (tgt m (oid_of args) al k) (margs m) = Some v;
    pa_out : forall key v, dget akey_eqb key (margs m) = Some v ->
        exists al k, entry_ok al k /\ In (untag al k, v) args /\ tgt m (oid_of args) al k = key
  }.

  Lemma fromOpenIDArgs_unfold args : NoDup (dkeys args) ->
    fromOpenIDArgs reg args =
    m <- newMessage (Some (oid_of args)) (Some (match dget text_eqb (u "ns") args with Some _ => false | None => true end)) ;;
    m <- foldM add_decl m (decls_of args) ;;
    foldM (put_arg reg) m (args_of args).
  Proof using.
    intros Hn. unfold fromOpenIDArgs.
    destruct (scan_spec args (mkScan None [] []) Hn) as (A & B & C); [simpl; auto|].
    cbv zeta in A, B, C. rewrite A, B, C. cbn [sc_args sc_decl sc_ns app]. unfold oid_of.
    destruct (dget text_eqb (u "ns") args); reflexivity.
  Qed.

  Lemma base_Inv args m1 m0 i :
    newMessage (Some (oid_of args)) (Some i) = Ok m1 -> NoDup (dkeys args) ->
    (forall a, ~ In (u "ns." ++ a, sreg_lit) args) ->
    foldM add_decl m1 (decls_of args) = Ok m0 ->
    In (oid_of args) allowed_openid_namespaces /\ wf m0 /\ Inv reg m0 (oid_of args) [] m0 /\
    (forall a n, getNS m0 (Al a) = Some n <-> In (u "ns." ++ a, n) args) /\
    implicit_ns (mns m0) = (if i then [oid_of args] else []).
  Proof using.
    intros H1 Hn Hs H2. apply newMessage_Some in H1 as (M1 & M2 & M3 & M4 & M5).
    apply add_decls_sound in H2 as (D1 & D2 & D3 & D4); auto using NoDup_decls.
    split; auto. split; auto.
    assert (forall a n, getNS m0 (Al a) = Some n <-> In (u "ns." ++ a, n) args) as Q.
    { intros a n. rewrite D4, M4. split.
      - intros [[K _]|(x & K & Hx)]; [discriminate|]. inv K. apply In_decls_of. auto.
      - intros K. right. exists a. split; auto. apply In_decls_of; auto. }
    split; [|split; auto; congruence].
    constructor; auto.
    - apply D4. left. apply M4. auto.
    - intros [|a] K; [|apply Q in K; eapply Hs; eauto].
      apply D4 in K as [K|(x & K & _)]; [|discriminate]. apply M4 in K as [_ K].
      apply allowed_not_sreg in M1. congruence.
    - intros al n. split; auto. intros [K|(x & y & w & _ & _ & _ & _ & [])]; auto.
    - intros n. split; auto. intros [K|(al & x & y & w & _ & _ & _ & _ & [])]; auto.
    - intros al k v [].
    - intros key v K. rewrite D2, M3 in K. discriminate.
  Qed.

  Lemma fromOpenIDArgs_sound args m :
    (forall a, dget text_eqb a reg <> Some sreg_lit) ->
    NoDup (dkeys args) -> (forall a, ~ In (u "ns." ++ a, sreg_lit) args) ->
    fromOpenIDArgs reg args = Ok m -> Parsed args m.
  Proof using.
    intros Hr Hn Hs H. rewrite fromOpenIDArgs_unfold in H by auto. binv H.
    rename a into m1, E into E1. binv H. rename a into m0, E into E2.
    destruct (base_Inv _ _ _ _ E1 Hn Hs E2) as (B1 & B2 & B3 & B4 & B5).
    apply (put_args_sound reg Hr m0 (oid_of args) _ [] m0 m B3) in H.
    2:{ intros al k v Hin. apply In_args_of in Hin as [Hin _]. auto. }
    2:{ apply NoDup_args; auto. }
    simpl in H. destruct H as [W N0 Sr Ns Im Hi Ho]. constructor; auto.
    - intros a n. rewrite Ns, B4. split.
      + intros [K|(x & k & v & K1 & K2 & K3 & K4 & K5)]; auto. inv K1. right.
        apply In_args_of in K5 as [[K5 K7] K6].
        split; [intros n' Kn; apply B4 in Kn; congruence|]. repeat split; auto. simpl in K6. eauto.
      + intros [K|(K0 & K1 & K2 & K3 & K4 & k & v & K5)]; auto. right. exists a, k, v.
        split; auto. split.
        { destruct (getNS m0 (Al a)) as [q|] eqn:Q; auto. apply B4 in Q. exfalso. eapply K0; eauto. }
        split; auto. split; auto. apply In_args_of. split; simpl; auto.
    - intros n. rewrite Im, B5. split.
      + intros [K|(al & K)].
        * left. destruct (dget text_eqb (u "ns") args); [destruct K|]. destruct K as [K|[]]. auto.
        * right. pose proof K as K'. destruct K as (a & k & v & -> & K2 & K3 & K4 & K5). exists a. split.
          -- intros n' Kn. apply B4 in Kn. congruence.
          -- apply Ns. auto.
      + intros [[-> K]|(a & K1 & K2)].
        * left. rewrite K. simpl. auto.
        * right. exists (Al a). apply Ns in K2 as [K2|K2]; auto. apply B4 in K2. exfalso. eapply K1; eauto.
    - intros al k v He Hin. apply Hi. apply In_args_of. auto.
    - intros key v Hk. apply Ho in Hk as (al & k & Hin & T). apply In_args_of in Hin as [A B]. eauto.
  Qed.

  Lemma fromOpenIDArgs_complete (args : dict text text) :
    (forall a, dget text_eqb a reg <> Some sreg_lit) ->
    (forall a b n, dget text_eqb a reg = Some n -> dget text_eqb b reg = Some n -> a = b) ->
    NoDup (dkeys args) -> (forall a, ~ In (u "ns." ++ a, sreg_lit) args) ->
    In (oid_of args) allowed_openid_namespaces ->
    (forall a n, In (u "ns." ++ a, n) args -> bad_alias (Al a) = false /\ n <> oid_of args) ->
    (forall a b n, In (u "ns." ++ a, n) args -> In (u "ns." ++ b, n) args -> a = b) ->
    (forall a n, oid1 (oid_of args) = true -> dget text_eqb a reg = Some n ->
        (exists k v, In (a ++ 46 :: k, v) args) -> (forall n', ~ In (u "ns." ++ a, n') args) ->
        ~ In 46 a -> a <> u "ns" ->
        bad_alias (Al a) = false /\ n <> oid_of args /\ forall b, ~ In (u "ns." ++ b, n) args) ->
    exists m, fromOpenIDArgs reg args = Ok m.
  Proof using.
    intros Hr Hri Hn Hs Ho Hd1 Hd2 Hu. rewrite fromOpenIDArgs_unfold by auto.
    destruct (newMessage_ok (oid_of args) (match dget text_eqb (u "ns") args with Some _ => false | None => true end) Ho) as (m1 & E1).
    rewrite E1. cbn [bind]. pose proof (newMessage_Some _ _ _ E1) as (_ & W1 & M1 & N1 & I1).
    assert (forall n, n <> oid_of args -> getAlias (mns m1) n = None) as GA.
    { intros n Hne. destruct (getAlias (mns m1) n) as [al|] eqn:Q; auto. apply (wn_inv _ (wm_ns _ W1)) in Q.
      apply N1 in Q as [_ Q]. contradiction. }
    destruct (add_decls_complete (decls_of args) m1 W1) as (m0 & E2).
    { apply NoDup_decls; auto. }
    { assert (forall ds : list (text * text), NoDup (dkeys ds) -> (forall a b n, In (a, n) ds -> In (b, n) ds -> a = b) -> NoDup (map snd ds)) as G.
      { induction ds as [|[a n] ds IH]; simpl; intros X Y; constructor.
        - intros Hin. apply in_map_iff in Hin as ([b n'] & Z & Hin). simpl in Z. subst n'. inv X. apply H1.
          assert (a = b) as -> by (apply (Y a b n); auto). apply in_map_iff. exists (b, n); auto.
        - inv X. apply IH; auto. intros x y z Hx Hy. apply (Y x y z); auto. }
      apply G; [apply NoDup_decls; auto|]. intros a b n Ha Hb. apply In_decls_of in Ha, Hb. eauto. }
    { intros a n Hin. apply In_decls_of in Hin. destruct (Hd1 a n Hin) as [X Y]. split; auto. split; auto.
      destruct (getNS m1 (Al a)) eqn:Q; auto. apply N1 in Q as [Q _]. discriminate. }
    rewrite E2. cbn [bind].
    destruct (base_Inv _ _ _ _ E1 Hn Hs E2) as (B1 & B2 & B3 & B4 & B5).
    apply (put_args_complete reg Hr m0 (oid_of args) (args_of args) [] m0); auto.
    - intros al k v Hin. apply In_args_of in Hin. tauto.
    - apply NoDup_args; auto.
    - simpl. intros a n k v Hin O Hnone R. apply In_args_of in Hin as [[He1 He2] Hin].
      destruct (Hu a n O R) as (U1 & U2 & U3); eauto.
      { intros n' Kn. apply B4 in Kn. congruence. }
      split; auto. split.
      + destruct (getAlias (mns m0) n) as [al|] eqn:Q; auto. exfalso. apply (wn_inv _ (wm_ns _ B2)) in Q.
        destruct al as [|b]; [|apply B4 in Q; eapply U3; eauto].
        pose proof (iv_null _ _ _ _ _ B3). congruence.
      + intros a' R' _ _. eauto.
  Qed.

  (** ** fromPostArgs *)
  Definition is_bare (k : text) : Prop := startswith k (u "openid.") = false.
  Lemma split_openid_Some key r : split_openid key = Some r <-> key = u "openid." ++ r.
  Proof using.
    unfold split_openid. split.
    - destruct (cut 46 key) as [[p q]|] eqn:C; [|discriminate].
      destruct (text_eqb p (u "openid")) eqn:E; [|discriminate]. apply text_eqb_eq in E. apply cut_Some in C as [-> _].
      intros H; inv H. reflexivity.
    - intros ->. reflexivity.
  Qed.
  Lemma split_openid_None key : split_openid key = None <-> is_bare key.
  Proof using.
    unfold is_bare. destruct (split_openid key) as [r|] eqn:E.
    - apply split_openid_Some in E. subst. rewrite startswith_app. split; discriminate.
    - split; auto. intros _. destruct (startswith key (u "openid.")) eqn:S; auto.
      apply startswith_spec in S as (r & ->).
      assert (split_openid (u "openid." ++ r) = Some r) by (apply split_openid_Some; auto). congruence.
  Qed.
  Definition openid_part (args : dict text text) : dict text text :=
    flat_map (fun e => match split_openid (fst e) with Some r => [(r, snd e)] | None => [] end) args.
  Lemma In_openid_part args r v : In (r, v) (openid_part args) <-> In (u "openid." ++ r, v) args.
  Proof using.
    unfold openid_part. rewrite in_flat_map. split.
    - intros ([k w] & Hin & H). cbn [fst snd] in H. destruct (split_openid k) eqn:E; [|destruct H].
      destruct H as [H|[]]. inv H. apply split_openid_Some in E. subst. auto.
    - intros H. exists (u "openid." ++ r, v). split; auto. cbn [fst snd].
      assert (split_openid (u "openid." ++ r) = Some r) as -> by (apply split_openid_Some; auto). simpl; auto.
  Qed.
  Lemma NoDup_openid_part args : NoDup (dkeys args) -> NoDup (dkeys (openid_part args)).
  Proof using.
    unfold dkeys, openid_part. induction args as [|[k v] l IH]; simpl; intros H; [constructor|]. inv H.
    destruct (split_openid k) eqn:E; simpl; auto. constructor; auto. intros Hin. apply H2.
    apply in_map_iff in Hin as ([k2 w] & X & Hin). simpl in X. subst. apply (In_openid_part l t w) in Hin.
    apply split_openid_Some in E as ->. apply in_map_iff. eexists; split; [|eauto]. auto.
  Qed.

  Lemma bare_fold l : forall d key,
    dget akey_eqb key (fold_left (fun d (e : text * text) => dset akey_eqb (Bare, fst e) (snd e) d) l d) =
    match fst key with
    | Bare => match assoc_last text_eqb (snd key) l with Some v => Some v | None => dget akey_eqb key d end
    | Uri _ => dget akey_eqb key d
    end.
  Proof using.
    induction l as [|[k v] l IH]; intros d [[|n] key]; simpl; auto; rewrite IH; simpl.
    - destruct (assoc_last text_eqb key l) eqn:A; auto. rewrite (dget_dset akey_eqb akey_eqb_eq).
      unfold akey_eqb; simpl. destruct (text_eqb key k); auto.
    - rewrite (dget_dset_other akey_eqb akey_eqb_eq); auto. discriminate.
  Qed.
  Lemma bare_fold_keys l : forall d, NoDup (dkeys d) ->
    NoDup (dkeys (fold_left (fun d (e : text * text) => dset akey_eqb (Bare, fst e) (snd e) d) l d)).
  Proof using.
    induction l as [|e l IH]; intros d H; simpl; auto. apply IH. apply NoDup_dset; auto using akey_eqb_eq.
  Qed.

  Lemma fromPostArgs_spec args : NoDup (dkeys args) ->
    match fromOpenIDArgs reg (openid_part args) with
    | Raise e => fromPostArgs reg args = Raise e
    | Ok m => exists m', fromPostArgs reg args = Ok m' /\ mns m' = mns m /\
        (forall n k, dget akey_eqb (Uri n, k) (margs m') = dget akey_eqb (Uri n, k) (margs m)) /\
        (forall k v, ((forall k v, dget akey_eqb (Bare, k) (margs m) <> Some v)) ->
           (dget akey_eqb (Bare, k) (margs m') = Some v <-> In (k, v) args /\ is_bare k)) /\
        (wf m -> wf m')
    end.
  Proof using.
    intros Hn. unfold fromPostArgs. change (flat_map _ args) with (openid_part args).
    rewrite (dict_of_NoDup text_eqb text_eqb_eq) by (apply NoDup_openid_part; auto).
    destruct (fromOpenIDArgs reg (openid_part args)) as [m|e]; [|reflexivity]. cbn [bind].
    set (bare := filter _ args).
    assert (forall k v, In (k, v) bare <-> In (k, v) args /\ is_bare k) as B.
    { intros k v. unfold bare. rewrite filter_In. cbn [fst]. rewrite <- split_openid_None.
      destruct (split_openid k); split; intros [X Y]; auto; discriminate. }
    assert (NoDup (dkeys bare)) as NB.
    { unfold bare, dkeys. clear B bare. induction args as [|[k v] l IH]; [constructor|].
      unfold dkeys in Hn. simpl in Hn. inv Hn. simpl. destruct (split_openid k); simpl; auto. constructor; auto.
      intros H. apply H1. apply in_map_iff in H as (x & <- & H). apply filter_In in H as [H _]. apply in_map; auto. }
    eexists. split; [reflexivity|]. cbn [mns margs]. split; [auto|]. split; [|split].
    - intros n k. rewrite bare_fold. auto.
    - intros k v Hno. rewrite bare_fold. cbn [fst snd].
      rewrite (assoc_last_NoDup text_eqb text_eqb_eq) by auto.
      rewrite <- B. split.
      + destruct (dget text_eqb k bare) as [w|] eqn:G.
        * intros K; inv K. apply (dget_In text_eqb text_eqb_eq) in G. auto.
        * intros K. exfalso. eapply Hno; eauto.
      + intros K. rewrite (In_dget text_eqb text_eqb_eq k v); auto.
    - intros W. constructor; simpl.
      + apply W.
      + apply bare_fold_keys. apply W.
      + intros n k Hin. apply (wm_def _ W) with k. apply (dhas_In akey_eqb akey_eqb_eq). unfold dhas.
        apply (dhas_In akey_eqb akey_eqb_eq) in Hin. unfold dhas in Hin. rewrite bare_fold in Hin. exact Hin.
      + intros n k Hin. apply (wm_sreg _ W n k). apply (dhas_In akey_eqb akey_eqb_eq). unfold dhas.
        apply (dhas_In akey_eqb akey_eqb_eq) in Hin. unfold dhas in Hin. rewrite bare_fold in Hin. exact Hin.
  Qed.

  (** A successful parse of a whole query. *)
  Lemma fromPostArgs_sound args m :
    (forall a, dget text_eqb a reg <> Some sreg_lit) ->
    NoDup (dkeys args) -> (forall a, ~ In (u "openid.ns." ++ a, sreg_lit) args) ->
    fromPostArgs reg args = Ok m ->
    wf m /\ exists m0, fromOpenIDArgs reg (openid_part args) = Ok m0 /\ Parsed (openid_part args) m0 /\ mns m = mns m0 /\
      (forall n k, dget akey_eqb (Uri n, k) (margs m) = dget akey_eqb (Uri n, k) (margs m0)) /\
      (forall k v, dget akey_eqb (Bare, k) (margs m) = Some v <-> In (k, v) args /\ is_bare k).
  Proof using.
    intros Hr Hn Hs H. pose proof (fromPostArgs_spec args Hn) as S.
    destruct (fromOpenIDArgs reg (openid_part args)) as [m0|e] eqn:F; [|congruence].
    destruct S as (m' & S1 & S2 & S3 & S4 & S5). rewrite S1 in H. inv H.
    assert (Parsed (openid_part args) m0) as P.
    { apply fromOpenIDArgs_sound; auto using NoDup_openid_part. intros a Hin. apply In_openid_part in Hin. exact (Hs a Hin). }
    split; [apply S5, P|]. exists m0. split; auto. split; auto. split; auto. split; auto. intros k v. apply S4.
    intros k' v' K. apply (pa_out _ _ P) in K as (al & y & _ & _ & T). unfold tgt in T. destruct (getNS m0 al); discriminate.
  Qed.
End Parse.

(** ** toPostArgs *)
Definition keyname (m : msg) (n : ns) (k : text) : text :=
  match n with
  | Bare => k
  | Uri x => match getAlias (mns m) x with
             | Some Null => u "openid." ++ k
             | Some (Al a) => u "openid." ++ a ++ 46 :: k
             | None => []
             end
  end.
Definition explicit (m : msg) (x : text) (al : alias) : Prop :=
  getAlias (mns m) x = Some al /\ ~ In x (implicit_ns (mns m)).
Record clean_names (m : msg) : Prop := {
  cn_inj : forall n k n' k', In (n, k) (dkeys (margs m)) -> In (n', k') (dkeys (margs m)) ->
             keyname m n k = keyname m n' k' -> (n, k) = (n', k');
  cn_ns : forall n k x al, In (n, k) (dkeys (margs m)) -> explicit m x al -> keyname m n k <> ns_field al
}.

Lemma assoc_last_In {V} k (v : V) l : assoc_last text_eqb k l = Some v -> In (k, v) l.
Proof.
  induction l as [|[k' v'] l IH]; simpl; [discriminate|]. destruct (assoc_last text_eqb k l) eqn:E.
  - intros H; inv H. auto.
  - destruct (text_eqb k k') eqn:E2; [|discriminate]. apply text_eqb_eq in E2. intros H; inv H. auto.
Qed.
Lemma assoc_last_None {V} k (l : list (text * V)) : assoc_last text_eqb k l = None -> forall v, ~ In (k, v) l.
Proof.
  induction l as [|[k' v'] l IH]; simpl; [tauto|]. destruct (assoc_last text_eqb k l) eqn:E; [discriminate|].
  destruct (text_eqb k k') eqn:E2; [discriminate|]. apply text_eqb_neq in E2. intros _ v [H|H]; [inv H; congruence|].
  eapply IH; eauto.
Qed.

Lemma ns_field_inj a b : ns_field a = ns_field b -> a = b.
Proof.
  destruct a, b; simpl; auto; intros H; try discriminate.
  - apply (app_inv_head (u "openid.ns.")) in H. congruence.
Qed.

Definition post_ns (m : msg) : list (text * text) :=
  flat_map (fun e => if isImplicit (mns m) (fst e) then [] else [(ns_field (snd e), fst e)]) (n2a (mns m)).
Definition post_args (m : msg) : list (text * text) :=
  map (fun e => (keyname m (fst (fst e)) (snd (fst e)), snd e)) (margs m).

Lemma toPostArgs_dget m t : wf m ->
  dget text_eqb t (toPostArgs m) =
  match assoc_last text_eqb t (post_args m) with
  | Some v => Some v
  | None => assoc_last text_eqb t (post_ns m)
  end.
Proof.
  intros W. unfold toPostArgs.
  set (d0 := fold_left (fun (d : dict text text) (e : text * alias) => if isImplicit (mns m) (fst e) then d else dset text_eqb (ns_field (snd e)) (fst e) d) (n2a (mns m)) []).
  transitivity (dget text_eqb t (fold_left (fun d (e : (ns * text) * text) =>
     match (Some (keyname m (fst (fst e)) (snd (fst e)), snd e)) with Some (k, v) => dset text_eqb k v d | None => d end) (margs m) d0)).
  { f_equal. assert (forall e, In e (margs m) -> getKey m (nsarg_of (fst (fst e))) (snd (fst e)) = Ok (Some (keyname m (fst (fst e)) (snd (fst e))))) as G.
    { intros [[n k] v] Hin. cbn [fst snd]. apply (in_map fst) in Hin. destruct (wf_getKey m n k W Hin) as (t' & G1 & G2).
      rewrite G1. f_equal. f_equal. unfold keyname. destruct n; auto. destruct G2 as (a & -> & ->). destruct a; auto. }
    generalize (margs m) d0 G. clear. intros l. induction l as [|e l IH]; intros d G; simpl; auto.
    rewrite G by (simpl; auto). apply IH. intros x Hx. apply G. simpl; auto. }
  rewrite (dget_fold_dset text_eqb text_eqb_eq (fun e : (ns * text) * text => Some (keyname m (fst (fst e)) (snd (fst e)), snd e))).
  assert (flat_map (fun e : (ns * text) * text => match Some (keyname m (fst (fst e)) (snd (fst e)), snd e) with Some p => [p] | None => [] end) (margs m) = post_args m) as ->.
  { unfold post_args. induction (margs m); simpl; auto; f_equal; auto. }
  destruct (assoc_last text_eqb t (post_args m)); auto. unfold d0.
  transitivity (dget text_eqb t (fold_left (fun d (e : text * alias) =>
     match (if isImplicit (mns m) (fst e) then None else Some (ns_field (snd e), fst e)) with Some (k, v) => dset text_eqb k v d | None => d end) (n2a (mns m)) [])).
  { f_equal. generalize (@nil (text * text)). induction (n2a (mns m)) as [|e l IH]; intros d; simpl; auto.
    destruct (isImplicit (mns m) (fst e)); auto. }
  rewrite (dget_fold_dset text_eqb text_eqb_eq (fun e : text * alias => if isImplicit (mns m) (fst e) then None else Some (ns_field (snd e), fst e))).
  assert (flat_map (fun e : text * alias => match (if isImplicit (mns m) (fst e) then None else Some (ns_field (snd e), fst e)) with Some p => [p] | None => [] end) (n2a (mns m)) = post_ns m) as ->.
  { unfold post_ns. induction (n2a (mns m)) as [|e l IH]; simpl; auto. f_equal; auto. destruct (isImplicit (mns m) (fst e)); auto. }
  destruct (assoc_last text_eqb t (post_ns m)); auto.
Qed.

Lemma In_post_args m t v : NoDup (dkeys (margs m)) ->
  In (t, v) (post_args m) <-> exists n k, dget akey_eqb (n, k) (margs m) = Some v /\ t = keyname m n k.
Proof.
  intros W. unfold post_args. rewrite in_map_iff. split.
  - intros ([[n k] w] & E & Hin). simpl in E. inv E. exists n, k. split; auto. apply (In_dget akey_eqb akey_eqb_eq); auto.
  - intros (n & k & H & ->). exists ((n, k), v). split; auto. apply (dget_In akey_eqb akey_eqb_eq); auto.
Qed.
Lemma In_post_ns m t v : wf_ns (mns m) ->
  In (t, v) (post_ns m) <-> exists al, explicit m v al /\ t = ns_field al.
Proof.
  intros W. unfold post_ns, explicit. rewrite in_flat_map. split.
  - intros ([x al] & Hin & H). cbn [fst snd] in H. destruct (isImplicit (mns m) x) eqn:I; [destruct H|].
    destruct H as [H|[]]. inv H. exists al. split; auto. split.
    + apply (In_dget text_eqb text_eqb_eq); auto. apply W.
    + apply mem_text_false. exact I.
  - intros (al & [H1 H2] & ->). exists (v, al). split.
    + apply (dget_In text_eqb text_eqb_eq); auto.
    + cbn [fst snd]. unfold isImplicit. apply mem_text_false in H2. rewrite H2. simpl; auto.
Qed.

Lemma toPostArgs_spec m t v : wf m -> clean_names m ->
  dget text_eqb t (toPostArgs m) = Some v <->
  (exists al, explicit m v al /\ t = ns_field al) \/
  (exists n k, dget akey_eqb (n, k) (margs m) = Some v /\ t = keyname m n k).
Proof.
  intros W C. rewrite toPostArgs_dget by auto.
  assert (forall n k v, dget akey_eqb (n, k) (margs m) = Some v -> In (n, k) (dkeys (margs m))) as K.
  { intros n k w H. apply (dget_In akey_eqb akey_eqb_eq) in H. apply (in_map fst) in H. exact H. }
  split.
  - destruct (assoc_last text_eqb t (post_args m)) as [w|] eqn:E.
    + intros H; inv H. right. apply assoc_last_In in E. apply In_post_args in E; auto. apply W.
    + intros H. left. apply assoc_last_In in H. apply In_post_ns in H; auto. apply W.
  - destruct (assoc_last text_eqb t (post_args m)) as [w|] eqn:E.
    + apply assoc_last_In in E. apply In_post_args in E as (n & k & H & E); [|apply W]. intros [(al & X & Y)|(n' & k' & H' & E')].
      * exfalso. eapply (cn_ns _ C); eauto. congruence.
      * assert ((n, k) = (n', k')) as Q; [|inv Q; congruence]. apply (cn_inj _ C); eauto. congruence.
    + intros [(al & X & Y)|(n & k & H & Y)].
      * destruct (assoc_last text_eqb t (post_ns m)) as [w|] eqn:E2.
        -- apply assoc_last_In in E2. apply In_post_ns in E2 as (al' & X' & Y'); [|apply W].
           assert (al = al') as <- by (apply ns_field_inj; congruence). f_equal.
           destruct X as [X _], X' as [X' _]. apply (wn_inv _ (wm_ns _ W)) in X, X'. congruence.
        -- exfalso. eapply assoc_last_None; eauto. apply In_post_ns; [apply W|]. eauto.
      * exfalso. eapply assoc_last_None; eauto. apply In_post_args; [apply W|]. eauto.
Qed.

Lemma toPostArgs_keys m : NoDup (dkeys (toPostArgs m)).
Proof.
  unfold toPostArgs.
  assert (forall (A : Type) (f : dict text text -> A -> dict text text) l d,
            (forall d a, NoDup (dkeys d) -> NoDup (dkeys (f d a))) -> NoDup (dkeys d) -> NoDup (dkeys (fold_left f l d))) as G.
  { intros A f l. induction l; simpl; auto. }
  apply G; [|apply G; [|constructor]].
  - intros d a H. destruct (getKey _ _ _) as [[k|]|]; auto. apply NoDup_dset; auto using text_eqb_eq.
  - intros d a H. destruct (isImplicit _ _); auto. apply NoDup_dset; auto using text_eqb_eq.
Qed.
