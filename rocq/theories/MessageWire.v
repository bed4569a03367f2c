(** Proofs about [Message]: wire format (fromOpenIDArgs, fromPostArgs, toPostArgs). *)
From Coq Require Import Lia ZifyBool ZifyN ZifyNat Permutation.
From Verif Require Import Py PyFacts KVForm Message MessageFacts.

Local Arguments u : simpl never.
Notation getNS m al := (getNamespaceURI (mns m) al).

(** ** The scan *)
Definition untag (al : alias) (k : text) : text :=
  match al with Null => k | Al a => a ++ 46 :: k end.
Definition entry_ok (al : alias) (k : text) : Prop :=
  match al with
  | Null => ~ In 46 k /\ k <> u "ns"
  | Al a => ~ In 46 a /\ a <> u "ns"
  end.

Lemma untag_inj al k al' k' : entry_ok al k -> entry_ok al' k' -> untag al k = untag al' k' -> al = al' /\ k = k'.
Proof.
  destruct al as [|a], al' as [|a']; simpl; intros [H1 _] [H2 _] E.
  - subst; auto.
  - exfalso. apply H1. rewrite E. apply in_or_app. right. left. reflexivity.
  - exfalso. apply H2. rewrite <- E. apply in_or_app. right. left. reflexivity.
  - pose proof (cut_app 46 a k H1) as C1. pose proof (cut_app 46 a' k' H2) as C2.
    assert (a ++ 46 :: k = a' ++ 46 :: k') as E' by exact E.
    rewrite E', C2 in C1. inv C1; auto.
Qed.

(** How one parameter name is read. *)
Inductive reading := RNs | RDecl (a : text) | RArg (al : alias) (k : text).
Definition read_key (key : text) : reading :=
  match cut 46 key with
  | None => if text_eqb key (u "ns") then RNs else RArg Null key
  | Some (a, k) => if text_eqb a (u "ns") then RDecl k else RArg (Al a) k
  end.
Lemma read_key_RNs key : read_key key = RNs <-> key = u "ns".
Proof.
  unfold read_key. split.
  - destruct (cut 46 key) as [[a k]|].
    + destruct (text_eqb a (u "ns")); discriminate.
    + destruct (text_eqb key (u "ns")) eqn:E; [|discriminate]. apply text_eqb_eq in E. auto.
  - intros ->. reflexivity.
Qed.
Lemma read_key_RDecl key a : read_key key = RDecl a <-> key = u "ns." ++ a.
Proof.
  unfold read_key. split.
  - destruct (cut 46 key) as [[x k]|] eqn:C.
    + destruct (text_eqb x (u "ns")) eqn:E; [|discriminate]. apply text_eqb_eq in E. apply cut_Some in C as [-> _].
      intros H; inv H. reflexivity.
    + destruct (text_eqb key (u "ns")); discriminate.
  - intros ->. reflexivity.
Qed.
Lemma read_key_RArg key al k : read_key key = RArg al k <-> entry_ok al k /\ key = untag al k.
Proof.
  unfold read_key. split.
  - destruct (cut 46 key) as [[x y]|] eqn:C.
    + destruct (text_eqb x (u "ns")) eqn:E; [discriminate|]. apply text_eqb_neq in E. apply cut_Some in C as [-> H].
      intros K; inv K. simpl. auto.
    + destruct (text_eqb key (u "ns")) eqn:E; [discriminate|]. apply text_eqb_neq in E. apply cut_None in C.
      intros K; inv K. simpl. auto.
  - intros [H ->]. destruct al as [|a]; simpl in *; destruct H as [H1 H2].
    + apply cut_None in H1. rewrite H1. apply text_eqb_neq in H2. rewrite H2. auto.
    + change (a ++ 46 :: k) with (a ++ 46 :: k). rewrite (cut_app 46 a k H1).
      apply text_eqb_neq in H2. rewrite H2. auto.
Qed.

Definition args_of (l : list (text * text)) : list (alias * text * text) :=
  flat_map (fun e => match read_key (fst e) with RArg al k => [(al, k, snd e)] | _ => [] end) l.
Definition decls_of (l : list (text * text)) : list (text * text) :=
  flat_map (fun e => match read_key (fst e) with RDecl a => [(a, snd e)] | _ => [] end) l.

Lemma NoDup_decls l : NoDup (dkeys l) -> NoDup (dkeys (decls_of l)).
Proof.
  unfold dkeys, decls_of. induction l as [|[k v] l IH]; simpl; intros H; [constructor|]. inv H.
  destruct (read_key k) eqn:E; simpl; auto. constructor; auto. intros Hin. apply H2.
  apply in_map_iff in Hin as ([b w] & <- & Hin). apply in_flat_map in Hin as ([k' v'] & Hk & Hx). simpl in *.
  destruct (read_key k') eqn:E'; simpl in Hx; try tauto. destruct Hx as [Hx|[]]. inv Hx.
  apply read_key_RDecl in E, E'. subst. apply in_map_iff. eexists; split; [|eauto]. auto.
Qed.

Lemma scan_spec l : forall s, NoDup (dkeys l) -> (forall a, In a (dkeys (sc_decl s)) -> ~ In a (dkeys (decls_of l))) ->
  let s' := fold_left scan_step l s in
  sc_args s' = sc_args s ++ args_of l /\
  sc_decl s' = sc_decl s ++ decls_of l /\
  sc_ns s' = match dget text_eqb (u "ns") l with Some v => Some v | None => sc_ns s end.
Proof.
  induction l as [|[k v] l IH]; intros s Hn Hd; cbn [fold_left].
  - simpl. rewrite !app_nil_r. auto.
  - inversion Hn as [|? ? Hn1 Hn2]; subst.
    assert (scan_step s (k, v) = match read_key k with
              | RNs => mkScan (Some v) (sc_decl s) (sc_args s)
              | RDecl a => mkScan (sc_ns s) (dset text_eqb a v (sc_decl s)) (sc_args s)
              | RArg al k' => mkScan (sc_ns s) (sc_decl s) (sc_args s ++ [(al, k', v)]) end) as ->.
    { unfold scan_step, read_key. destruct (cut 46 k) as [[a b]|]; [destruct (text_eqb a _)|destruct (text_eqb k _)]; auto. }
    unfold args_of, decls_of in *. cbn [flat_map fst snd] in *. cbn [dget].
    rewrite text_eqb_sym.
    destruct (read_key k) as [|a|al k'] eqn:E.
    + apply read_key_RNs in E. subst k. rewrite text_eqb_refl.
      destruct (IH (mkScan (Some v) (sc_decl s) (sc_args s))) as (A & B & C); auto.
      simpl in A, B, C |- *. rewrite A, B, C. split; auto. split; auto.
      destruct (dget text_eqb (u "ns") l) eqn:D; auto. exfalso. apply Hn1.
      apply (dget_In text_eqb text_eqb_eq) in D. apply (in_map fst) in D. exact D.
    + apply read_key_RDecl in E. subst k.
      assert (text_eqb (u "ns." ++ a) (u "ns") = false) as -> by reflexivity.
      assert (~ In a (dkeys (sc_decl s))) as Ha.
      { intros H. apply (Hd a H). simpl. auto. }
      rewrite (dset_fresh text_eqb).
      2:{ apply (dget_None text_eqb text_eqb_eq). auto. }
      destruct (IH (mkScan (sc_ns s) (sc_decl s ++ [(a, v)]) (sc_args s))) as (A & B & C); auto.
      { simpl. intros x Hx Hin. unfold dkeys in Hx. rewrite map_app in Hx. apply in_app_or in Hx as [Hx|[<-|[]]].
        - apply (Hd x Hx). simpl. auto.
        - pose proof (NoDup_decls _ Hn) as ND. unfold decls_of in ND. cbn [flat_map fst snd] in ND.
          assert (read_key (u "ns." ++ a) = RDecl a) as R by (apply read_key_RDecl; auto).
          rewrite R in ND. simpl in ND. inv ND. contradiction. }
      simpl in A, B, C |- *. rewrite A, B, C, <- !app_assoc. auto.
    + destruct (IH (mkScan (sc_ns s) (sc_decl s) (sc_args s ++ [(al, k', v)]))) as (A & B & C); auto.
      simpl in A, B, C |- *. rewrite A, B, C, <- !app_assoc.
      destruct (text_eqb k (u "ns")) eqn:D; auto. apply text_eqb_eq in D. subst k. discriminate.
Qed.

(** ** Declarations loop *)
Definition add_decl (m : msg) (e : text * text) : res msg :=
  match addAlias (mns m) (snd e) (Al (fst e)) false with
  | (n', Ok _) => Ok (mkMsg (margs m) n')
  | (_, Raise e) => Raise e
  end.

Lemma add_decls_sound ds : forall m m', wf m -> NoDup (dkeys ds) ->
  foldM add_decl m ds = Ok m' ->
  wf m' /\ margs m' = margs m /\ implicit_ns (mns m') = implicit_ns (mns m) /\
  (forall al n, getNS m' al = Some n <-> getNS m al = Some n \/ (exists a, al = Al a /\ In (a, n) ds)).
Proof.
  induction ds as [|[a n] ds IH]; intros m m' W Hn H; simpl in H.
  - inv H. repeat split; auto; try apply W. intros [|(x & _ & [])]; auto.
  - binv H. unfold add_decl in E. simpl in E. destruct (addAlias (mns m) n (Al a) false) as [n' [b|e]] eqn:A; [|discriminate].
    injection E as <-. inv Hn.
    pose proof (addAlias_wf _ _ _ _ _ _ (wm_ns _ W) A) as W'. apply addAlias_Ok in A as (_ & Hb & Hi & A1 & A2 & A3 & A4 & A5).
    destruct (IH (mkMsg (margs m) n') m') as (B1 & B2 & B3 & B4); auto.
    { constructor; simpl; try apply W; auto. intros x k Hx. rewrite A2. destruct (text_eqb x n); [discriminate|].
      eapply (wm_def _ W); eauto. }
    split; auto. split; [rewrite B2; auto|]. split; [rewrite B3; simpl; rewrite A3; auto|].
    intros al x. rewrite B4. simpl. rewrite A1. destruct (alias_eqb al (Al a)) eqn:E.
    + apply alias_eqb_eq in E. subst. split.
      * intros [K|(y & Y & Hy)]; [inv K; right; eauto|]. inv Y. right. eauto.
      * intros [K|(y & Y & [Hy|Hy])].
        -- left. destruct A4 as [A4|A4]; congruence.
        -- left. congruence.
        -- right; eauto.
    + apply alias_eqb_neq in E. split.
      * intros [K|(y & Y & Hy)]; [auto|]. right; eauto.
      * intros [K|(y & Y & [Hy|Hy])]; auto; [|right; eauto]. inv Hy. congruence.
Qed.

Lemma add_decls_complete ds : forall m, wf m -> NoDup (dkeys ds) -> NoDup (map snd ds) ->
  (forall a n, In (a, n) ds -> bad_alias (Al a) = false /\ getNS m (Al a) = None /\ getAlias (mns m) n = None) ->
  exists m', foldM add_decl m ds = Ok m'.
Proof.
  induction ds as [|[a n] ds IH]; intros m W Hn Hs Hok; simpl; eauto.
  destruct (Hok a n) as (Hb & H1 & H2); simpl; auto. inv Hn. inv Hs.
  assert (~ In n (implicit_ns (mns m))) as Hi. { intros Hi. apply (wn_impl _ (wm_ns _ W)) in Hi. contradiction. }
  destruct (addAlias_fresh (mns m) n (Al a) false Hb H1 H2 Hi) as (n' & A).
  unfold add_decl at 1. simpl. rewrite A. simpl.
  pose proof (addAlias_wf _ _ _ _ _ _ (wm_ns _ W) A) as W'. apply addAlias_Ok in A as (_ & _ & _ & A1 & A2 & A3 & _).
  apply IH; auto.
  - constructor; simpl; try apply W; auto. intros x k Hx. rewrite A2. destruct (text_eqb x n); [discriminate|].
    eapply (wm_def _ W); eauto.
  - intros b p Hin. destruct (Hok b p) as (Hb' & H1' & H2'); simpl; auto. split; auto. simpl. rewrite A1, A2.
    destruct (alias_eqb (Al b) (Al a)) eqn:E.
    { apply alias_eqb_eq in E. inv E. exfalso. apply H3. apply in_map_iff. exists (a, p); auto. }
    destruct (text_eqb p n) eqn:E2; auto. apply text_eqb_eq in E2. subst. exfalso. apply H5.
    apply in_map_iff. exists (b, n); auto.
Qed.

(** ** Arguments loop *)
Section Loop.
  Variable reg : dict text text.
  Hypothesis reg_nosreg : forall a, dget text_eqb a reg <> Some sreg_lit.

  Definition oid1 (oid : text) : bool := mem_text oid OPENID1_NAMESPACES.

  (** The namespace and key an argument is stored under. *)
  Definition tgt (m : msg) (oid : text) (al : alias) (k : text) : ns * text :=
    match getNS m al with
    | Some n => (Uri n, k)
    | None => (Uri oid, untag al k)
    end.

  Definition used (m0 : msg) (oid : text) (done : list (alias * text * text)) (al : alias) (n : text) : Prop :=
    exists a k v, al = Al a /\ getNS m0 (Al a) = None /\ oid1 oid = true /\ dget text_eqb a reg = Some n /\
                  In (Al a, k, v) done.

  Record Inv (m0 : msg) (oid : text) (done : list (alias * text * text)) (m : msg) : Prop := {
    iv_wf : wf m;
    iv_null : getNS m Null = Some oid;
    iv_sreg : forall al, getNS m al <> Some sreg_lit;
    iv_ns : forall al n, getNS m al = Some n <-> getNS m0 al = Some n \/ used m0 oid done al n;
    iv_imp : forall n, In n (implicit_ns (mns m)) <-> In n (implicit_ns (mns m0)) \/ exists al, used m0 oid done al n;
    iv_in : forall al k v, In (al, k, v) done -> dget akey_eqb (tgt m oid al k) (margs m) = Some v;
    iv_out : forall key v, dget akey_eqb key (margs m) = Some v ->
               exists al k, In (al, k, v) done /\ tgt m oid al k = key
  }.

  Lemma used_app m0 oid d d' al n : used m0 oid (d ++ d') al n <-> used m0 oid d al n \/ used m0 oid d' al n.
  Proof using.
    unfold used. split.
    - intros (a & k & v & A & B & C & D & E). apply in_app_or in E as [E|E]; [left|right]; exists a, k, v; auto.
    - intros [(a & k & v & A & B & C & D & E)|(a & k & v & A & B & C & D & E)]; exists a, k, v;
        repeat split; auto; apply in_or_app; auto.
  Qed.

  Lemma tgt_inj m oid al k al' k' :
    wf m -> getNS m Null = Some oid -> entry_ok al k -> entry_ok al' k' ->
    tgt m oid al k = tgt m oid al' k' -> al = al' /\ k = k'.
  Proof using.
    intros W Hn H H'. unfold tgt.
    assert (forall al n, getNS m al = Some n -> n = oid -> al = Null) as U.
    { intros x n Hx ->. apply (wn_inv _ (wm_ns _ W)) in Hx. apply (wn_inv _ (wm_ns _ W)) in Hn. congruence. }
    destruct (getNS m al) as [n|] eqn:E; destruct (getNS m al') as [n'|] eqn:E'; intros K; inv K.
    - apply (wn_inv _ (wm_ns _ W)) in E. apply (wn_inv _ (wm_ns _ W)) in E'. split; congruence.
    - specialize (U _ _ E eq_refl). subst al. apply (untag_inj Null (untag al' k') al' k'); auto.
    - specialize (U _ _ E' eq_refl). subst al'. destruct (untag_inj Null (untag al k) al k) as [A B]; auto.
    - apply untag_inj; auto.
  Qed.

  Lemma setArg_uri m n k v : wf m -> n <> sreg_lit -> getAlias (mns m) n <> None ->
    setArg m (NS n) k v = Ok (mkMsg (dset akey_eqb (Uri n, k) v (margs m)) (mns m)) /\
    wf (mkMsg (dset akey_eqb (Uri n, k) v (margs m)) (mns m)).
  Proof using.
    intros W Hs Ha. destruct (setArg_total m (NS n) k v (Uri n) W (fixNS_uri m n Hs)) as (m' & E & E2 & W' & al & A).
    destruct (add_wf (mns m) n (wm_ns _ W)) as (n' & al' & A' & _ & _ & _ & _ & _ & _ & S).
    rewrite A in A'. inv A'. specialize (S Ha). rewrite E. destruct m' as [x y]. simpl in *. subst. auto.
  Qed.

  Lemma wf_mns m n' : wf m -> wf_ns n' -> (forall x, getAlias (mns m) x <> None -> getAlias n' x <> None) ->
    wf (mkMsg (margs m) n').
  Proof using.
    intros W Wn H. constructor; simpl; auto; try apply W. intros n k Hin. apply H. eapply (wm_def _ W); eauto.
  Qed.

  (** What [put_arg] does when it succeeds. *)
  Lemma put_arg_Ok m oid al k v m' :
    wf m -> getNS m Null = Some oid -> (forall al, getNS m al <> Some sreg_lit) ->
    put_arg reg m (al, k, v) = Ok m' ->
    wf m' /\ margs m' = dset akey_eqb (tgt m' oid al k) v (margs m) /\
    ((mns m' = mns m /\ (getNS m al = None -> oid1 oid = true -> exists a, al = Al a /\ dget text_eqb a reg = None)) \/
     (exists a n, al = Al a /\ getNS m al = None /\ oid1 oid = true /\ dget text_eqb a reg = Some n /\
          addAlias (mns m) n al true = (mns m', Ok al))).
  Proof using reg_nosreg.
    intros W Hn Hs H. unfold put_arg in H.
    destruct (getNS m al) as [n|] eqn:E.
    - assert (n <> sreg_lit) as Hne by (intros ->; eapply Hs; eauto).
      assert (getAlias (mns m) n <> None) as Ha.
      { apply (wn_inv _ (wm_ns _ W)) in E. congruence. }
      destruct (setArg_uri m n k v W Hne Ha) as (E2 & W2). rewrite E2 in H. inv H.
      split; auto. split; [|left; split; auto; discriminate]. unfold tgt; simpl. rewrite E. auto.
    - unfold getDefaultNamespace, isOpenID1, getOpenIDNamespace in H. rewrite Hn in H.
      change (mem_text oid OPENID1_NAMESPACES) with (oid1 oid) in H.
      destruct al as [|a]; [congruence|]. cbn [alias_text] in H.
      assert (oid <> sreg_lit) as Hne by (intros ->; eapply Hs; eauto).
      assert (getAlias (mns m) oid <> None) as Ha.
      { apply (wn_inv _ (wm_ns _ W)) in Hn. congruence. }
      assert (setArg m (NS oid) (a ++ u "." ++ k) v = Ok m' -> wf m' /\ margs m' = dset akey_eqb (tgt m' oid (Al a) k) v (margs m) /\ mns m' = mns m) as G.
      { intros K. destruct (setArg_uri m oid (a ++ u "." ++ k) v W Hne Ha) as (E2 & W2). rewrite E2 in K. inv K.
        split; auto. split; auto. unfold tgt; simpl. rewrite E. auto. }
      destruct (oid1 oid) eqn:O.
      + destruct (dget text_eqb a reg) as [n|] eqn:R.
        * destruct (addAlias (mns m) n (Al a) true) as [n' [b|e]] eqn:A; [|discriminate].
          pose proof (addAlias_wf _ _ _ _ _ _ (wm_ns _ W) A) as Wn'.
          pose proof (addAlias_Ok _ _ _ _ _ _ A) as (Eb & _ & _ & A1 & A2 & A3 & _). subst b.
          assert (n <> sreg_lit) as Hne' by (intros ->; eapply reg_nosreg; eauto).
          assert (wf (mkMsg (margs m) n')) as W1.
          { apply wf_mns; auto. intros x Hx. rewrite A2. destruct (text_eqb x n); [discriminate|auto]. }
          destruct (setArg_uri (mkMsg (margs m) n') n k v W1 Hne') as (E2 & W2).
          { simpl. rewrite A2, text_eqb_refl. discriminate. }
          rewrite E2 in H. inv H. split; auto. split.
          -- simpl. unfold tgt; simpl. rewrite A1. rewrite alias_eqb_refl. auto.
          -- right. exists a, n. simpl. repeat split; auto.
        * apply G in H as (G1 & G2 & G3). split; auto. split; auto. left. split; auto. intros _ _. exists a; auto.
      + apply G in H as (G1 & G2 & G3). split; auto. split; auto. left. split; auto. discriminate.
  Qed.

  Lemma Inv_step m0 oid done m al k v m' :
    Inv m0 oid done m -> entry_ok al k ->
    (forall al k v, In (al, k, v) done -> entry_ok al k) ->
    (forall v', ~ In (al, k, v') done) ->
    put_arg reg m (al, k, v) = Ok m' -> Inv m0 oid (done ++ [(al, k, v)]) m'.
  Proof using reg_nosreg.
    intros I Hok Hoks Hnew H. destruct I as [W Hn Hs Hns Him Hin Hout].
    destruct (put_arg_Ok m oid al k v m' W Hn Hs H) as (W' & Ea & C).
    assert (forall x n, getNS m x = Some n -> getNS m' x = Some n) as Mono.
    { intros x n Hx. destruct C as [(C & _)|(a & n0 & -> & C1 & C2 & C3 & C4)]; [rewrite C; auto|].
      apply addAlias_Ok in C4 as (_ & _ & _ & A1 & _). rewrite A1. destruct (alias_eqb x (Al a)) eqn:E; auto.
      apply alias_eqb_eq in E. congruence. }
    assert (getNS m' Null = Some oid) as Hn' by (apply Mono; auto).
    (* aliases of earlier entries keep their meaning *)
    assert (forall x, (exists y w, In (x, y, w) done) -> getNS m' x = getNS m x) as Keep.
    { intros x (y & w & Hx). destruct (getNS m x) as [n|] eqn:E; [apply Mono; auto|].
      destruct C as [(C & _)|(a & n0 & -> & C1 & C2 & C3 & C4)]; [rewrite C; auto|].
      apply addAlias_Ok in C4 as (_ & _ & _ & A1 & _). rewrite A1. destruct (alias_eqb x (Al a)) eqn:E2; auto.
      apply alias_eqb_eq in E2. subst x. exfalso.
      assert (getNS m (Al a) = Some n0) as K; [|congruence]. apply Hns. right. exists a, y, w. repeat split; auto.
      destruct (getNS m0 (Al a)) as [q|] eqn:Q; auto.
      assert (getNS m (Al a) = Some q) by (apply Hns; auto). congruence. }
    assert (forall x y w, In (x, y, w) done -> tgt m' oid x y = tgt m oid x y) as KeepT.
    { intros x y w Hx. unfold tgt. rewrite (Keep x); eauto. }
    constructor; auto.
    - intros x Hx. destruct C as [(C & _)|(a & n0 & -> & C1 & C2 & C3 & C4)]; [rewrite C in Hx; eapply Hs; eauto|].
      apply addAlias_Ok in C4 as (_ & _ & _ & A1 & _). rewrite A1 in Hx. destruct (alias_eqb x (Al a)) eqn:E2.
      + inv Hx. eapply reg_nosreg; eauto.
      + eapply Hs; eauto.
    - intros x n. rewrite used_app. destruct C as [(C & C')|(a & n0 & -> & C1 & C2 & C3 & C4)].
      + rewrite C, Hns. split; [tauto|]. intros [K|[K|K]]; auto.
        destruct K as (a & y & w & -> & K1 & K2 & K3 & [K4|[]]). inv K4.
        destruct (getNS m (Al a)) as [q|] eqn:Q.
        * apply Hns in Q as [Q|Q]; [congruence|]. right. destruct Q as (a2 & y2 & w2 & Q0 & Q1 & Q2 & Q3 & Q4). inv Q0.
          exists a2, y2, w2. repeat split; auto.
        * destruct (C' eq_refl K2) as (a2 & X & Y). inv X. congruence.
      + apply addAlias_Ok in C4 as (_ & _ & _ & A1 & _). rewrite A1. destruct (alias_eqb x (Al a)) eqn:E2.
        * apply alias_eqb_eq in E2. subst x. split.
          -- intros K. inv K. right. right. exists a, k, v. repeat split; simpl; auto.
             destruct (getNS m0 (Al a)) as [q|] eqn:Q; auto.
             assert (getNS m (Al a) = Some q) by (apply Hns; auto). congruence.
          -- intros [K|[K|K]].
             ++ assert (getNS m (Al a) = Some n) by (apply Hns; auto). congruence.
             ++ assert (getNS m (Al a) = Some n) by (apply Hns; auto). congruence.
             ++ destruct K as (a2 & y2 & w2 & Q0 & Q1 & Q2 & Q3 & Q4). inv Q0. congruence.
        * rewrite Hns. apply alias_eqb_neq in E2. split; [tauto|]. intros [K|[K|K]]; auto.
          destruct K as (a2 & y2 & w2 & Q0 & Q1 & Q2 & Q3 & [Q4|[]]). inv Q4. congruence.
    - intros n. destruct C as [(C & C')|(a & n0 & -> & C1 & C2 & C3 & C4)].
      + rewrite C, Him. split.
        * intros [K|(x & K)]; auto. right. exists x. apply used_app. auto.
        * intros [K|(x & K)]; auto. apply used_app in K as [K|K]; [right; eauto|].
          destruct K as (a & y & w & -> & K1 & K2 & K3 & [K4|[]]). inv K4.
          destruct (getNS m (Al a)) as [q|] eqn:Q.
          -- apply Hns in Q as [Q|Q]; [congruence|]. right. destruct Q as (a2 & y2 & w2 & Q0 & Q1 & Q2 & Q3 & Q4). inv Q0.
             exists (Al a2), a2, y2, w2. repeat split; auto.
          -- destruct (C' eq_refl K2) as (a2 & X & Y). inv X. congruence.
      + apply addAlias_Ok in C4 as (_ & _ & _ & _ & _ & A3 & _). rewrite A3. rewrite in_app_iff, Him. simpl. split.
        * intros [[K|(x & K)]|[K|[]]]; auto.
          -- right. exists x. apply used_app; auto.
          -- subst n0. right. exists (Al a). apply used_app. right. exists a, k, v. repeat split; simpl; auto.
             destruct (getNS m0 (Al a)) as [q|] eqn:Q; auto.
             assert (getNS m (Al a) = Some q) by (apply Hns; auto). congruence.
        * intros [K|(x & K)]; auto. apply used_app in K as [K|K]; [left; right; eauto|].
          destruct K as (a2 & y2 & w2 & Q0 & Q1 & Q2 & Q3 & [Q4|[]]). inv Q4. right. left. congruence.
    - intros x y w Hx. apply in_app_or in Hx as [Hx|[Hx|[]]].
      + rewrite Ea. rewrite (dget_dset_other akey_eqb akey_eqb_eq).
        * rewrite (KeepT x y w); auto.
        * intros T. apply tgt_inj in T as [-> ->]; eauto. eapply Hnew; eauto.
      + inv Hx. rewrite Ea. apply (dget_dset_same akey_eqb akey_eqb_eq).
    - intros key w Hk. rewrite Ea, (dget_dset akey_eqb akey_eqb_eq) in Hk.
      destruct (akey_eqb key (tgt m' oid al k)) eqn:E2.
      + apply akey_eqb_eq in E2. inv Hk. exists al, k. split; auto. apply in_or_app; simpl; auto.
      + apply Hout in Hk as (x & y & Hx & T). exists x, y. split; [apply in_or_app; auto|].
        rewrite (KeepT x y w); auto.
  Qed.

  Lemma put_args_sound m0 oid todo : forall done m m',
    Inv m0 oid done m ->
    (forall al k v, In (al, k, v) (done ++ todo) -> entry_ok al k) ->
    NoDup (map fst (done ++ todo)) ->
    foldM (put_arg reg) m todo = Ok m' -> Inv m0 oid (done ++ todo) m'.
  Proof using reg_nosreg.
    induction todo as [|[[al k] v] todo IH]; intros done m m' I Hok Hnd H; simpl in H.
    - inv H. rewrite app_nil_r. auto.
    - binv H. replace (done ++ (al, k, v) :: todo) with ((done ++ [(al, k, v)]) ++ todo) in * by (rewrite <- app_assoc; auto).
      apply (IH _ a m'); auto. eapply Inv_step; eauto.
      + eapply Hok. apply in_or_app. left. apply in_or_app. simpl. auto.
      + intros x y w Hx. eapply Hok. apply in_or_app. left. apply in_or_app. eauto.
      + intros v' Hx. rewrite !map_app in Hnd. simpl in Hnd. rewrite <- app_assoc in Hnd.
        apply NoDup_remove_2 in Hnd. apply Hnd. apply in_or_app. left. apply in_map_iff. exists (al, k, v'). auto.
  Qed.

  Lemma put_args_complete m0 oid todo : forall done m,
    Inv m0 oid done m ->
    (forall al k v, In (al, k, v) (done ++ todo) -> entry_ok al k) ->
    NoDup (map fst (done ++ todo)) ->
    (* registered aliases that get used are legal and name namespaces not otherwise mapped *)
    (forall a n k v, In (Al a, k, v) (done ++ todo) -> oid1 oid = true -> getNS m0 (Al a) = None ->
       dget text_eqb a reg = Some n ->
       bad_alias (Al a) = false /\ getAlias (mns m0) n = None /\
       (forall a' , dget text_eqb a' reg = Some n -> (exists k v, In (Al a', k, v) (done ++ todo)) -> getNS m0 (Al a') = None -> a' = a)) ->
    wf m0 ->
    exists m', foldM (put_arg reg) m todo = Ok m'.
  Proof using reg_nosreg.
    induction todo as [|[[al k] v] todo IH]; intros done m I Hok Hnd Hreg W0; [simpl; eauto|cbn [foldM]].
    replace (done ++ (al, k, v) :: todo) with ((done ++ [(al, k, v)]) ++ todo) in * by (rewrite <- app_assoc; auto).
    assert (exists m1, put_arg reg m (al, k, v) = Ok m1) as (m1 & E).
    { destruct I as [W Hn Hs Hns Him Hin Hout]. unfold put_arg.
      destruct (getNS m al) as [n|] eqn:E.
      - assert (n <> sreg_lit) as Hne by (intros ->; eapply Hs; eauto).
        destruct (setArg_uri m n k v W Hne) as (E2 & _); eauto.
        apply (wn_inv _ (wm_ns _ W)) in E. congruence.
      - unfold getDefaultNamespace, isOpenID1, getOpenIDNamespace. rewrite Hn.
        change (mem_text oid OPENID1_NAMESPACES) with (oid1 oid).
        assert (oid <> sreg_lit) as Hne by (intros ->; eapply Hs; eauto).
        assert (getAlias (mns m) oid <> None) as Ha.
        { apply (wn_inv _ (wm_ns _ W)) in Hn. congruence. }
        destruct (setArg_uri m oid (alias_text al ++ u "." ++ k) v W Hne Ha) as (E2 & _).
        destruct (oid1 oid) eqn:O; [|rewrite E2; eauto].
        destruct al as [|a]; [rewrite E2; eauto|].
        destruct (dget text_eqb a reg) as [n|] eqn:R; [|rewrite E2; eauto].
        assert (getNS m0 (Al a) = None) as H0.
        { destruct (getNS m0 (Al a)) as [q|] eqn:Q; auto.
          assert (getNS m (Al a) = Some q) by (apply Hns; auto). congruence. }
        destruct (Hreg a n k v) as (R1 & R2 & R3); auto.
        { apply in_or_app. left. apply in_or_app. simpl; auto. }
        assert (getAlias (mns m) n = None) as Han.
        { destruct (getAlias (mns m) n) as [b|] eqn:B; auto. exfalso.
          apply (wn_inv _ (wm_ns _ W)) in B. apply Hns in B as [B|B].
          - apply (wn_inv _ (wm_ns _ W0)) in B. congruence.
          - destruct B as (a2 & y2 & w2 & -> & Q1 & Q2 & Q3 & Q4).
            assert (a2 = a) as ->.
            { apply R3; auto. exists y2, w2. apply in_or_app. left. apply in_or_app. auto. }
            assert (getNS m (Al a) = Some n); [|congruence]. apply Hns. right. exists a, y2, w2. auto. }
        assert (~ In n (implicit_ns (mns m))) as Hi.
        { intros Hi. apply (wn_impl _ (wm_ns _ W)) in Hi. contradiction. }
        destruct (addAlias_fresh (mns m) n (Al a) true R1 E Han Hi) as (n' & A). rewrite A.
        pose proof (addAlias_wf _ _ _ _ _ _ (wm_ns _ W) A) as Wn'.
        pose proof (addAlias_Ok _ _ _ _ _ _ A) as (_ & _ & _ & A1 & A2 & A3 & _).
        assert (n <> sreg_lit) as Hne' by (intros ->; eapply reg_nosreg; eauto).
        destruct (setArg_uri (mkMsg (margs m) n') n k v) as (E3 & _); auto.
        + apply wf_mns; auto. intros x Hx. rewrite A2. destruct (text_eqb x n); [discriminate|auto].
        + simpl. rewrite A2, text_eqb_refl. discriminate.
        + rewrite E3. eauto. }
    rewrite E. cbn [bind]. apply (IH (done ++ [(al, k, v)])); auto.
    eapply Inv_step; eauto.
    + eapply Hok. apply in_or_app. left. apply in_or_app. simpl. auto.
    + intros x y w Hx. eapply Hok. apply in_or_app. left. apply in_or_app. eauto.
    + intros v' Hx. rewrite !map_app in Hnd. simpl in Hnd. rewrite <- app_assoc in Hnd.
      apply NoDup_remove_2 in Hnd. apply Hnd. apply in_or_app. left. apply in_map_iff. exists (al, k, v'). auto.
  Qed.
End Loop.
