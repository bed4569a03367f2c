(** Facts shared by the extension modules: what adding an extension to a message does to it,
    and what becomes of its aliases on the wire. *)
From Verif Require Import Py PyFacts Message MessageSpec MessageFacts MessageWire MessageParse MessageRound Prop_Message.

Local Arguments u : simpl never.

(** The aliases of a message that has been sent and read back: none is new, and the declared
    ones and those in use are all there. *)
Theorem C15_aliases_survive :
  forall reg m m', built reg m -> good_registry reg -> wire_safe reg m -> fromPostArgs reg (toPostArgs m) = Ok m' ->
    (forall x al, getAlias (mns m') x = Some al -> getAlias (mns m) x = Some al) /\
    (forall x al, getAlias (mns m) x = Some al ->
       isImplicit (mns m) x = false \/ (exists k v, getArg m (NS x) k = Ok (Some v)) ->
       getAlias (mns m') x = Some al).
Proof.
  intros reg m m' B R S P. pose proof (built_wf _ _ B) as W. destruct (ws_version _ _ S) as (oid & O & Oa & _).
  assert (rt_hyps reg m oid) as H by (split; auto).
  destruct (rt_main reg m oid H) as (m1 & P1 & W' & O' & A & _ & G). assert (m1 = m') as -> by congruence. clear P1.
  destruct (rt_parse reg m oid H) as (m0 & P0). pose proof (rt_oid reg m oid H) as [RO _]. pose proof H as ((R1 & R2) & _).
  pose proof (fromPostArgs_spec reg (toPostArgs m) (toPostArgs_keys m)) as F. rewrite P0 in F.
  destruct F as (m1 & F1 & F2 & _). assert (m1 = m') as -> by congruence. clear F1.
  assert (Parsed reg (openid_part (toPostArgs m)) m0) as Q.
  { apply fromOpenIDArgs_sound; auto.
    - apply NoDup_openid_part, toPostArgs_keys.
    - intros a Hin. apply (rt_decl reg m oid) in Hin as [Hin _]; auto. apply (wn_inv _ (wm_ns _ W)) in Hin. eapply (ws_sreg _ _ S); eauto. }
  assert (getAlias (mns m) oid = Some Null) as GA by (apply (wn_inv _ (wm_ns _ W)); exact O).
  split.
  - intros x al Hx. rewrite F2 in Hx. apply (wn_inv _ (wm_ns _ (pa_wf _ _ _ Q))) in Hx. destruct al as [|a].
    + pose proof (pa_null _ _ _ Q) as N. rewrite RO in N. congruence.
    + apply (pa_ns _ _ _ Q) in Hx as [Hx|(N1 & N2 & N3 & N4 & N5 & k & v & N6)].
      * apply (rt_decl reg m oid H) in Hx as [Hx _]. exact Hx.
      * rewrite RO in N2. destruct (rt_arg reg m oid H (Al a) k v) as (y & k' & Y & [(_ & _ & [D|(b & D & D1 & D2)])|(b & D & D1 & D2)]); auto; try discriminate.
        -- simpl. auto.
        -- injection D as <-. rewrite (D2 N2) in N3. discriminate.
        -- injection D as <-. assert (getAlias (mns m) y = Some (Al a)) as Gy by (apply (wn_inv _ (wm_ns _ W)); exact D2).
           destruct (isImplicit (mns m) y) eqn:I.
           ++ destruct (ws_ext _ _ S a y D2 I) as [_ D3]. congruence.
           ++ exfalso. apply (N1 y). apply (rt_decl reg m oid H). split; auto. apply mem_text_false. exact I.
  - intros x al Hx [I|(k & v & K)].
    + rewrite F2. apply (wn_inv _ (wm_ns _ (pa_wf _ _ _ Q))). destruct al as [|a].
      * apply (rt_alias reg m oid H) in Hx. subst x. pose proof (pa_null _ _ _ Q) as N. rewrite RO in N. exact N.
      * apply (pa_ns _ _ _ Q). left. apply (rt_decl reg m oid H). split; auto. apply mem_text_false. exact I.
    + assert (x <> sreg_lit) as Nx. { intros ->. eapply (ws_sreg _ _ S). apply (wn_inv _ (wm_ns _ W)). exact Hx. }
      rewrite getArg_ns in K by auto. injection K as K. apply (G x k v al K). exact Hx.
Qed.
Print Assumptions C15_aliases_survive.

Lemma last_value_dget args : NoDup (dkeys args) -> forall k, last_value k args = dget text_eqb k args.
Proof.
  induction args as [|[a v] args IH]; intros N k; auto. cbn [last_value dget]. unfold dkeys in N. cbn [map fst] in N.
  inversion N as [|? ? N1 N2]; subst. rewrite IH by exact N2.
  destruct (text_eqb k a) eqn:E.
  - apply text_eqb_eq in E. subst k. destruct (dget text_eqb a args) eqn:D; auto. exfalso. apply N1.
    apply (dget_In text_eqb text_eqb_eq) in D. apply (in_map fst) in D. exact D.
  - destruct (dget text_eqb k args); auto.
Qed.

Lemma updateArgs_alias m uri kv m' a : updateArgs m (NS uri) kv = Ok m' -> wf m -> getAlias (mns m) uri = Some a -> uri <> sreg_lit ->
  mns m' = mns m.
Proof.
  intros H W G Hs. unfold updateArgs in H. binv H. rewrite fixNS_uri in E by auto. injection E as <-.
  revert m W G H. induction kv as [|[k v] kv IH]; intros m W G H; simpl in H; [inv H; auto|]. binv H.
  destruct (setArg_uri m uri k v W Hs) as (E2 & W2); [congruence|]. cbn [nsarg_of] in E. rewrite E2 in E. injection E as <-.
  rewrite (IH _ W2 G H). auto.
Qed.

Lemma ext_alias m uri a i n' : wf m ->
  match addAlias (mns m) uri (Al a) i with
  | (n', Ok _) => Ok (mkMsg (margs m) n')
  | (n', Raise e) =>
      if isKeyError e then
        if opt_eqb alias_eqb (getAlias n' uri) (Some (Al a)) then Ok (mkMsg (margs m) n') else Raise e
      else Raise e
  end = Ok n' ->
  n' = mkMsg (margs m) (fst (addAlias (mns m) uri (Al a) i)) /\ getAlias (mns n') uri = Some (Al a) /\
  (getAlias (mns m) uri = None \/ getAlias (mns m) uri = Some (Al a)) /\
  forall x, x <> uri -> getAlias (mns n') x = getAlias (mns m) x.
Proof.
  intros W E. destruct (addAlias (mns m) uri (Al a) i) as [n1 [b|e]] eqn:E1.
  - injection E as <-. apply addAlias_Ok in E1 as (_ & _ & _ & C2 & C3 & _ & _ & C5). cbn [fst mns]. split; auto.
    rewrite C3, text_eqb_refl. split; auto. split; auto. intros x Hx. rewrite C3. apply text_eqb_neq in Hx. rewrite Hx. auto.
  - destruct (addAlias_cases (mns m) uri (Al a) i) as [(e' & C & _)|(C & _)]; [|congruence]. rewrite C in E1. inversion E1. subst n1 e'.
    destruct (isKeyError e); [|discriminate]. destruct (opt_eqb alias_eqb _ _) eqn:Oe; [|discriminate]. injection E as <-. cbn [fst mns].
    apply (opt_eqb_eq alias_eqb alias_eqb_eq) in Oe. auto.
Qed.

(** What adding an extension does. *)
Lemma ext_delivers reg m uri a args m' :
  built reg m -> uri <> u "sreg" -> NoDup (dkeys args) -> ext_toMessage m uri a args = Ok m' ->
  built reg m' /\ getOpenIDNamespace m' = getOpenIDNamespace m /\
  getAlias (mns m') uri = Some (Al a) /\
  (getAlias (mns m) uri = None \/ getAlias (mns m) uri = Some (Al a)) /\
  (forall x, x <> uri -> getAlias (mns m') x = getAlias (mns m) x) /\
  (forall k, getArg m' (NS uri) k = match dget text_eqb k args with Some v => Ok (Some v) | None => getArg m (NS uri) k end) /\
  (forall n k, place m n <> Some (Uri uri) -> getArg m' n k = getArg m n k).
Proof.
  intros B Hs N H. assert (built reg m') as B' by (eapply b_ext; eauto). pose proof (built_wf _ _ B) as W.
  unfold ext_toMessage in H. apply bind_Ok in H as (m1 & E & H). apply ext_alias in E as (-> & A1 & A2 & A3); auto.
  pose proof (b_alias reg m uri a (isOpenID1 m) B) as B1. set (m1 := mkMsg _ _) in *.
  assert (getOpenIDNamespace m1 = getOpenIDNamespace m) as V1 by (unfold getOpenIDNamespace, m1; apply addAlias_Al_null).
  destruct (C13_update reg m1 (NS uri) args m' B1 H) as (X1 & X2).
  assert (forall n k, getArg m1 n k = getArg m n k) as S1.
  { intros n k. unfold getArg. rewrite (fixNS_ext m1 m n V1). reflexivity. }
  pose proof (updateArgs_alias m1 uri args m' (Al a) H (built_wf _ _ B1) A1 Hs) as N1.
  pose proof (updateArgs_null _ _ _ _ H) as V2.
  split; [exact B'|]. split; [congruence|]. rewrite N1. split; [exact A1|]. split; [exact A2|]. split; [exact A3|].
  assert (place m1 (NS uri) = Some (Uri uri)) as Pu.
  { simpl. apply text_eqb_neq in Hs. rewrite Hs. reflexivity. }
  split.
  - intros k. rewrite X1, (last_value_dget args N), S1. reflexivity.
  - intros n k Hn. rewrite X2, S1; auto. rewrite Pu, (place_null _ _ n V1). exact Hn.
Qed.

(** Adding an extension works unless the alias is taken, unusable, or the extension is there
    already under another alias. *)
Lemma ext_total m uri a args :
  wf m -> uri <> u "sreg" -> bad_alias (Al a) = false -> getNamespaceURI (mns m) (Al a) = None -> getAlias (mns m) uri = None ->
  exists m', ext_toMessage m uri a args = Ok m'.
Proof.
  intros W Hs Hb Ha Hu. unfold ext_toMessage.
  destruct (addAlias_fresh (mns m) uri (Al a) (isOpenID1 m) Hb Ha Hu) as (n' & E).
  { intros K. apply (wn_impl _ (wm_ns _ W)) in K. contradiction. }
  pose proof (wf_alias m uri (Al a) (isOpenID1 m) W) as W1. rewrite E in *. cbn [bind fst] in *.
  apply addAlias_Ok in E as (_ & _ & _ & _ & C3 & _). set (m1 := mkMsg (margs m) n') in *.
  assert (getAlias (mns m1) uri <> None) as G. { unfold m1. cbn [mns]. rewrite C3, text_eqb_refl. discriminate. }
  unfold updateArgs. rewrite fixNS_uri by auto. cbn [bind nsarg_of]. clear -G W1 Hs. revert G W1. generalize m1. clear m m1 n'.
  induction args as [|[k v] kv IH]; intros m G W; cbn [foldM fst snd]; eauto.
  destruct (setArg_uri m uri k v W Hs G) as (E2 & W2). rewrite E2. cbn [bind]. apply IH; auto.
Qed.

(** Reading the arguments of a namespace: the dictionary, by its keys. *)
Lemma getArgs_spec reg m uri : built reg m -> uri <> u "sreg" ->
  exists d, getArgs m (NS uri) = Ok d /\ NoDup (dkeys d) /\ forall k, getArg m (NS uri) k = Ok (dget text_eqb k d).
Proof.
  intros B Hs. assert (forall m, place m (NS uri) = Some (Uri uri)) as Pu.
  { intros m0. simpl. apply text_eqb_neq in Hs. rewrite Hs. reflexivity. }
  unfold getArgs. rewrite fixNS_uri by auto. cbn [bind]. eexists. split; [reflexivity|]. split.
  - pose proof (wm_keys _ (built_wf _ _ B)) as K. revert K. clear. induction (margs m) as [|[[x k] v] l IH]; intros K; [constructor|].
    unfold dkeys in *. cbn [map fst] in K. inversion K as [|? ? K1 K2]; subst. cbn [filter fst snd].
    destruct (ns_eqb x (Uri uri)) eqn:Q; auto. cbn [map fst snd]. constructor; auto.
    intros I. apply K1. apply ns_eqb_eq in Q. subst x. rewrite map_map in I. apply in_map_iff in I as ([[y k'] v'] & I1 & I2).
    cbn [fst snd] in I1. subst k'. apply filter_In in I2 as [I2 I3]. cbn [fst] in I3. apply ns_eqb_eq in I3. subst y.
    apply (in_map fst) in I2. exact I2.
  - intros k. destruct (C13_readers_agree reg m (NS uri) k B) as (o & d & D1 & _ & D2 & D3 & _); [rewrite Pu; discriminate|].
    unfold getArgs in D2. rewrite fixNS_uri in D2 by auto. cbn [bind] in D2. injection D2 as <-. rewrite D1, D3. reflexivity.
Qed.
