(** Proofs about [Message]: namespace maps and argument maps. *)
From Coq Require Import Lia ZifyBool ZifyN ZifyNat Permutation.
From Verif Require Import Py PyFacts KVForm Message.

Lemma alias_eqb_eq a b : alias_eqb a b = true <-> a = b.
Proof.
  destruct a as [|x], b as [|y]; simpl; try (split; [discriminate|congruence]); try tauto.
  rewrite text_eqb_eq. split; congruence.
Qed.
Lemma alias_eqb_refl a : alias_eqb a a = true.
Proof. apply alias_eqb_eq; auto. Qed.
Lemma alias_eqb_neq a b : alias_eqb a b = false <-> a <> b.
Proof.
  split; intros H.
  - intros ->. rewrite alias_eqb_refl in H. discriminate.
  - destruct (alias_eqb a b) eqn:E; auto. apply alias_eqb_eq in E. contradiction.
Qed.
Lemma ns_eqb_eq a b : ns_eqb a b = true <-> a = b.
Proof.
  destruct a as [|x], b as [|y]; simpl; try (split; [discriminate|congruence]); try tauto.
  rewrite text_eqb_eq. split; congruence.
Qed.
Lemma ns_eqb_refl a : ns_eqb a a = true.
Proof. apply ns_eqb_eq; auto. Qed.
Lemma akey_eqb_eq a b : akey_eqb a b = true <-> a = b.
Proof.
  destruct a, b. unfold akey_eqb; simpl. rewrite andb_true_iff, ns_eqb_eq, text_eqb_eq. split.
  - intros [-> ->]; auto.
  - intros H; inv H; auto.
Qed.
Lemma akey_eqb_refl a : akey_eqb a a = true.
Proof. apply akey_eqb_eq; auto. Qed.

Lemma opt_text_eqb_eq a b : opt_eqb text_eqb a b = true <-> a = b.
Proof. apply opt_eqb_eq. apply text_eqb_eq. Qed.

(** ** NamespaceMap invariant *)
Record wf_ns (m : nsmap) : Prop := {
  wn_a : NoDup (dkeys (a2n m));
  wn_n : NoDup (dkeys (n2a m));
  wn_inv : forall a n, getNamespaceURI m a = Some n <-> getAlias m n = Some a;
  wn_ok : forall a n, getNamespaceURI m a = Some n -> bad_alias a = false;
  wn_impl : forall n, In n (implicit_ns m) -> getAlias m n <> None
}.

Lemma wf_ns_empty : wf_ns empty_nsmap.
Proof. constructor; simpl; try constructor; try discriminate; tauto. Qed.

Lemma addAlias_cases m uri a i :
  (exists e, addAlias m uri a i = (m, Raise e) /\ (e = AssertionError \/ e = InvalidNamespace)) \/
  (addAlias m uri a i =
     (mkNsmap (dset alias_eqb a uri (a2n m)) (dset text_eqb uri a (n2a m))
              (if i then implicit_ns m ++ [uri] else implicit_ns m), Ok a) /\
   bad_alias a = false /\
   (getNamespaceURI m a = None \/ getNamespaceURI m a = Some uri) /\
   (getAlias m uri = None \/ getAlias m uri = Some a) /\ ~ In uri (implicit_ns m)).
Proof.
  unfold addAlias. destruct (bad_alias a); [left; eauto|].
  destruct (getNamespaceURI m a) as [c|] eqn:E1.
  - destruct (text_eqb c uri) eqn:E2; simpl; [|left; eauto]. apply text_eqb_eq in E2. subst.
    destruct (getAlias m uri) as [b|] eqn:E3.
    + destruct (alias_eqb b a) eqn:E4; simpl; [|left; eauto]. apply alias_eqb_eq in E4. subst.
      destruct (mem_text uri (implicit_ns m)) eqn:E5; [left; eauto|]. apply mem_text_false in E5.
      right. repeat split; auto.
    + simpl. destruct (mem_text uri (implicit_ns m)) eqn:E5; [left; eauto|]. apply mem_text_false in E5.
      right. repeat split; auto.
  - simpl. destruct (getAlias m uri) as [b|] eqn:E3.
    + destruct (alias_eqb b a) eqn:E4; simpl; [|left; eauto]. apply alias_eqb_eq in E4. subst.
      destruct (mem_text uri (implicit_ns m)) eqn:E5; [left; eauto|]. apply mem_text_false in E5.
      right. repeat split; auto.
    + simpl. destruct (mem_text uri (implicit_ns m)) eqn:E5; [left; eauto|]. apply mem_text_false in E5.
      right. repeat split; auto.
Qed.

Lemma addAlias_wf m uri a i m' r : wf_ns m -> addAlias m uri a i = (m', r) -> wf_ns m'.
Proof.
  intros W H. destruct (addAlias_cases m uri a i) as [(e & E & _)|(E & Hb & H1 & H2 & H3)]; rewrite E in H; inv H; auto.
  destruct W as [Wa Wn Wi Wo Wp].
  constructor; unfold getAlias, getNamespaceURI in *; simpl.
  - apply NoDup_dset; auto using alias_eqb_eq.
  - apply NoDup_dset; auto using text_eqb_eq.
  - intros b n. rewrite (dget_dset alias_eqb alias_eqb_eq), (dget_dset text_eqb text_eqb_eq).
    destruct (alias_eqb b a) eqn:E1.
    + apply alias_eqb_eq in E1. subst b. destruct (text_eqb n uri) eqn:E2.
      * apply text_eqb_eq in E2. subst. tauto.
      * apply text_eqb_neq in E2. split; [congruence|]. intros Hn.
        apply Wi in Hn. destruct H1 as [H1|H1]; congruence.
    + apply alias_eqb_neq in E1. destruct (text_eqb n uri) eqn:E2.
      * apply text_eqb_eq in E2. subst. split; [|congruence]. intros Hn.
        apply Wi in Hn. destruct H2 as [H2|H2]; congruence.
      * apply Wi.
  - intros b n. rewrite (dget_dset alias_eqb alias_eqb_eq). destruct (alias_eqb b a) eqn:E1; eauto.
    apply alias_eqb_eq in E1. subst; auto.
  - intros n Hn. rewrite (dget_dset text_eqb text_eqb_eq). destruct (text_eqb n uri) eqn:E1; [discriminate|].
    apply text_eqb_neq in E1. destruct i; auto. apply in_app_or in Hn as [|[|[]]]; auto; congruence.
Qed.

(** Effect of a successful [addAlias] on lookups. *)
Lemma addAlias_Ok m uri a i m' b :
  addAlias m uri a i = (m', Ok b) ->
  b = a /\ bad_alias a = false /\ ~ In uri (implicit_ns m) /\
  (forall x, getNamespaceURI m' x = if alias_eqb x a then Some uri else getNamespaceURI m x) /\
  (forall x, getAlias m' x = if text_eqb x uri then Some a else getAlias m x) /\
  implicit_ns m' = (if i then implicit_ns m ++ [uri] else implicit_ns m) /\
  (getNamespaceURI m a = None \/ getNamespaceURI m a = Some uri) /\
  (getAlias m uri = None \/ getAlias m uri = Some a).
Proof.
  intros H. destruct (addAlias_cases m uri a i) as [(e & E & _)|(E & Hb & H1 & H2 & H3)]; rewrite E in H; inv H.
  unfold getNamespaceURI, getAlias in *; simpl. repeat split; auto.
  - intros x. apply (dget_dset alias_eqb alias_eqb_eq).
  - intros x. apply (dget_dset text_eqb text_eqb_eq).
Qed.

Lemma addAlias_fresh m uri a i :
  bad_alias a = false -> getNamespaceURI m a = None -> getAlias m uri = None -> ~ In uri (implicit_ns m) ->
  exists m', addAlias m uri a i = (m', Ok a).
Proof.
  intros Hb H1 H2 H3. unfold addAlias. rewrite Hb, H1, H2. apply mem_text_false in H3. rewrite H3. eauto.
Qed.

(** ** add *)
Lemma ext_good i : bad_alias (Al (u "ext" ++ str_of_N i)) = false.
Proof.
  unfold bad_alias. apply orb_false_iff. split.
  - apply mem_text_false. intros H. unfold OPENID_PROTOCOL_FIELDS in H. simpl in H.
    repeat destruct H as [H|H]; try discriminate; auto.
  - apply memc_false. rewrite in_app_iff. intros [H|H].
    + simpl in H. repeat destruct H as [H|H]; try discriminate; auto.
    + pose proof (str_of_N_isdigit i) as D. rewrite forallb_forall in D. apply D in H. discriminate.
Qed.

Lemma ext_inj i j : u "ext" ++ str_of_N i = u "ext" ++ str_of_N j -> i = j.
Proof. intros H. apply app_inv_head in H. apply str_of_N_inj; auto. Qed.

Definition ext_alias (i : N) : alias := Al (u "ext" ++ str_of_N i).

Lemma add_loop_spec m uri : wf_ns m -> getAlias m uri = None -> forall fuel i,
  (exists j m', i <= j /\ add_loop fuel i m uri = (m', Ok (ext_alias j)) /\
        addAlias m uri (ext_alias j) false = (m', Ok (ext_alias j)) /\
        getNamespaceURI m (ext_alias j) = None /\
        (forall k, i <= k < j -> getNamespaceURI m (ext_alias k) <> None)) \/
  (add_loop fuel i m uri = (m, Raise OutOfFuel) /\
   forall k, i <= k < i + N.of_nat fuel -> getNamespaceURI m (ext_alias k) <> None).
Proof.
  intros W Hu. induction fuel as [|f IH]; intros i.
  - right. split; auto. intros; lia.
  - cbn [add_loop]. fold (ext_alias i).
    destruct (getNamespaceURI m (ext_alias i)) as [c|] eqn:E.
    + assert (c <> uri) as Hc. { intros ->. apply (wn_inv _ W) in E. congruence. }
      assert (addAlias m uri (ext_alias i) false = (m, Raise InvalidNamespace)) as ->.
      { unfold addAlias. unfold ext_alias at 1. rewrite ext_good, E.
        apply text_eqb_neq in Hc. rewrite Hc. auto. }
      cbn [isKeyError]. destruct (IH (i + 1)) as [(j & m' & A & B & C & D & F)|[A B]].
      * left. exists j, m'. repeat split; auto; [lia|]. intros k Hk.
        destruct (N.eq_dec k i) as [->|]; [congruence|]. apply F. lia.
      * right. split; auto. intros k Hk. destruct (N.eq_dec k i) as [->|]; [congruence|]. apply B. lia.
    + left. destruct (addAlias_fresh m uri (ext_alias i) false) as (m' & Em); auto.
      * apply ext_good.
      * intros Hin. apply (wn_impl _ W) in Hin. contradiction.
      * rewrite Em. exists i, m'. repeat split; auto; [lia|]. intros; lia.
Qed.

Lemma add_total m uri : wf_ns m ->
  (exists a, getAlias m uri = Some a /\ add m uri = (m, Ok a)) \/
  (getAlias m uri = None /\
   exists j m', add m uri = (m', Ok (ext_alias j)) /\ addAlias m uri (ext_alias j) false = (m', Ok (ext_alias j)) /\
                getNamespaceURI m (ext_alias j) = None /\
                (forall k, k < j -> getNamespaceURI m (ext_alias k) <> None)).
Proof.
  intros W. unfold add. destruct (getAlias m uri) as [a|] eqn:E; [left; eauto|right]. split; auto.
  destruct (add_loop_spec m uri W E (S (length (a2n m))) 0) as [(j & m' & A & B & C & D & F)|[A B]].
  - exists j, m'. repeat split; auto. intros k Hk. apply F. lia.
  - exfalso.
    assert (NoDup (map ext_alias (map N.of_nat (seq 0 (S (length (a2n m))))))) as ND.
    { apply FinFun.Injective_map_NoDup. { intros x y H. injection H as H. apply str_of_N_inj; auto. }
      apply FinFun.Injective_map_NoDup; [intros x y H; lia|]. apply seq_NoDup. }
    assert (incl (map ext_alias (map N.of_nat (seq 0 (S (length (a2n m)))))) (dkeys (a2n m))) as I.
    { intros x Hx. rewrite in_map_iff in Hx. destruct Hx as (k & <- & Hk). rewrite in_map_iff in Hk.
      destruct Hk as (n & <- & Hn). apply in_seq in Hn.
      specialize (B (N.of_nat n) ltac:(lia)).
      destruct (dget alias_eqb (ext_alias (N.of_nat n)) (a2n m)) as [v|] eqn:G; [|exfalso; apply B; exact G].
      apply (dget_In alias_eqb alias_eqb_eq) in G. apply (in_map fst) in G. exact G. }
    apply NoDup_incl_length in I; auto. rewrite !map_length, seq_length in I. unfold dkeys in I.
    rewrite map_length in I. lia.
Qed.

Lemma add_wf m uri : wf_ns m -> exists m' a, add m uri = (m', Ok a) /\ wf_ns m' /\
  getAlias m' uri = Some a /\
  implicit_ns m' = implicit_ns m /\
  (forall x, getAlias m x <> None -> getAlias m' x = getAlias m x) /\
  (forall x, x <> uri -> getAlias m' x = getAlias m x) /\
  (forall x n, getNamespaceURI m x = Some n -> getNamespaceURI m' x = Some n) /\
  (getAlias m uri <> None -> m' = m).
Proof.
  intros W. destruct (add_total m uri W) as [(a & E & A)|(E & j & m' & A & B & C & _)].
  - exists m, a. do 7 (split; auto).
  - exists m', (ext_alias j). pose proof (addAlias_wf _ _ _ _ _ _ W B) as W'.
    apply addAlias_Ok in B as (_ & _ & _ & B1 & B2 & B3 & _).
    rewrite B2, text_eqb_refl. split; auto. split; auto. split; auto. split; auto. split; [|split; [|split]].
    + intros x Hx. rewrite B2. destruct (text_eqb x uri) eqn:G; auto. apply text_eqb_eq in G. congruence.
    + intros x Hx. rewrite B2. apply text_eqb_neq in Hx. rewrite Hx. auto.
    + intros x n Hx. rewrite B1. destruct (alias_eqb x (ext_alias j)) eqn:G; auto. apply alias_eqb_eq in G. congruence.
    + congruence.
Qed.

(** ** Messages *)
Definition sreg_lit : text := u "sreg".
Record wf (m : msg) : Prop := {
  wm_ns : wf_ns (mns m);
  wm_keys : NoDup (dkeys (margs m));
  wm_def : forall n k, In (Uri n, k) (dkeys (margs m)) -> getAlias (mns m) n <> None;
  wm_sreg : forall n k, In (Uri n, k) (dkeys (margs m)) -> n <> sreg_lit
}.

Lemma wf_empty : wf empty_msg.
Proof. constructor; simpl; auto using wf_ns_empty; try constructor; intros ? ? []. Qed.

Lemma fixNS_out m a n : fixNS m a = Ok n -> n <> Uri sreg_lit.
Proof.
  unfold fixNS. intros H. binv H. destruct a0 as [|t].
  - injection H as <-. discriminate.
  - destruct (negb (memc 58 t) && text_eqb t (u "sreg")) eqn:E0; injection H as <-.
    + intros K. discriminate.
    + intros K. injection K as ->. discriminate.
Qed.
Lemma fixNS_uri m t : t <> sreg_lit -> fixNS m (NS t) = Ok (Uri t).
Proof.
  intros H. unfold fixNS. simpl. destruct (text_eqb t (u "sreg")) eqn:E.
  - apply text_eqb_eq in E. contradiction.
  - rewrite andb_false_r. auto.
Qed.
Lemma fixNS_of m n : n <> Uri sreg_lit -> fixNS m (nsarg_of n) = Ok n.
Proof. destruct n as [|t]; auto. intros H. apply fixNS_uri. congruence. Qed.
Lemma fixNS_cases m a :
  (exists n, fixNS m a = Ok n) \/
  (fixNS m a = Raise TypeError /\ (a = NULL_NS \/ a = NoneNS)) \/
  (fixNS m a = Raise UndefinedOpenIDNamespace /\ a = OPENID_NS /\ getOpenIDNamespace m = None).
Proof.
  unfold fixNS. destruct a; simpl; auto; eauto.
  - destruct (getOpenIDNamespace m) as [t|]; simpl; eauto. destruct (negb (memc 58 t) && text_eqb t (u "sreg")); eauto.
  - destruct (negb (memc 58 t) && text_eqb t (u "sreg")); eauto.
Qed.
(** [fixNS] only looks at the null alias. *)
Lemma fixNS_ext m m' a : getOpenIDNamespace m = getOpenIDNamespace m' -> fixNS m a = fixNS m' a.
Proof. intros H. unfold fixNS. rewrite H. auto. Qed.

Lemma newMessage_wf o i m : newMessage o i = Ok m -> wf m /\ margs m = [].
Proof.
  unfold newMessage. destruct o as [n|]; [|intros H; inv H; auto using wf_empty].
  unfold setOpenIDNamespace. destruct (mem_text n allowed_openid_namespaces); [|discriminate]. simpl negb. cbv iota.
  set (im := match i with Some b => b | None => _ end).
  destruct (addAlias (mns empty_msg) n Null im) as [n' [a|e]] eqn:E; intros H; inv H.
  apply addAlias_wf in E; [|apply wf_ns_empty]. split; auto. constructor; simpl; auto; try constructor; intros ? ? [].
Qed.


Lemma setArg_total m a k v n : wf m -> fixNS m a = Ok n ->
  exists m', setArg m a k v = Ok m' /\ margs m' = dset akey_eqb (n, k) v (margs m) /\ wf m' /\
    match n with Bare => mns m' = mns m | Uri t => exists al, add (mns m) t = (mns m', Ok al) end.
Proof.
  intros W Hf. unfold setArg. rewrite Hf. cbn [bind]. pose proof (fixNS_out _ _ _ Hf) as Hs.
  destruct W as [Wn Wk Wd Ws].
  destruct n as [|t].
  - eexists; split; [reflexivity|]. split; [reflexivity|]. split; [|reflexivity].
    constructor; simpl; auto.
    + apply NoDup_dset; auto using akey_eqb_eq.
    + intros n k' H. apply (In_dkeys_dset akey_eqb akey_eqb_eq) in H as [H|H]; [discriminate|eauto].
    + intros n k' H. apply (In_dkeys_dset akey_eqb akey_eqb_eq) in H as [H|H]; [discriminate|eauto].
  - destruct (add_wf (mns m) t Wn) as (n' & al & A & W' & G & _ & P & _).
    rewrite A. eexists; split; [reflexivity|]. split; [reflexivity|]. split; [|simpl; eauto].
    constructor; simpl; auto.
    + apply NoDup_dset; auto using akey_eqb_eq.
    + intros n k' H. apply (In_dkeys_dset akey_eqb akey_eqb_eq) in H as [H|H].
      * inv H. congruence.
      * rewrite P; eauto.
    + intros n k' H. apply (In_dkeys_dset akey_eqb akey_eqb_eq) in H as [H|H]; [|eauto].
      inv H. congruence.
Qed.

Lemma setArg_inv m a k v m' : wf m -> setArg m a k v = Ok m' ->
  exists n, fixNS m a = Ok n /\ margs m' = dset akey_eqb (n, k) v (margs m) /\ wf m' /\
    match n with Bare => mns m' = mns m | Uri t => exists al, add (mns m) t = (mns m', Ok al) end.
Proof.
  intros W H. assert (exists n, fixNS m a = Ok n) as (n & Hf).
  { unfold setArg in H. binv H. eauto. }
  destruct (setArg_total m a k v n W Hf) as (m2 & E & R). rewrite E in H. inv H. eauto.
Qed.

Lemma setArg_raise m a k v e : wf m -> setArg m a k v = Raise e ->
  fixNS m a = Raise e.
Proof.
  intros W H. destruct (fixNS m a) as [n|e'] eqn:E.
  - destruct (setArg_total m a k v n W E) as (m2 & E2 & _). congruence.
  - unfold setArg in H. rewrite E in H. simpl in H. congruence.
Qed.

Lemma setArg_ns m a k v m' : wf m -> setArg m a k v = Ok m' ->
  getOpenIDNamespace m <> None -> getOpenIDNamespace m' = getOpenIDNamespace m.
Proof.
  intros W H Hn. destruct (setArg_inv _ _ _ _ _ W H) as (n & _ & _ & _ & R).
  unfold getOpenIDNamespace in *. destruct n as [|t]; [rewrite R; auto|].
  destruct R as (al & R). destruct (add_wf (mns m) t (wm_ns _ W)) as (n' & al' & A & _ & _ & _ & _ & _ & P & _).
  rewrite A in R. inv R. destruct (getNamespaceURI (mns m) Null) eqn:E; [|contradiction]. apply P; auto.
Qed.

Lemma delArg_inv m a k m' : wf m -> delArg m a k = Ok m' ->
  exists n, fixNS m a = Ok n /\ In (n, k) (dkeys (margs m)) /\ margs m' = ddel akey_eqb (n, k) (margs m) /\
            mns m' = mns m /\ wf m'.
Proof.
  unfold delArg. intros W H. binv H. destruct (dhas akey_eqb (a0, k) (margs m)) eqn:D; [|discriminate].
  injection H as <-. apply (dhas_In akey_eqb akey_eqb_eq) in D. exists a0. repeat split; simpl; auto; try apply W.
  - apply NoDup_ddel, W.
  - intros n k' Hin. unfold dkeys in Hin. apply in_map_iff in Hin as (x & E1 & Hx). apply In_ddel_sub in Hx.
    destruct x as [kk vv]. simpl in E1. subst. eapply (wm_def _ W). apply (in_map fst) in Hx. exact Hx.
  - intros n k' Hin. unfold dkeys in Hin. apply in_map_iff in Hin as (x & E1 & Hx). apply In_ddel_sub in Hx.
    destruct x as [kk vv]. simpl in E1. subst. eapply (wm_sreg _ W). apply (in_map fst) in Hx. exact Hx.
Qed.

Lemma wf_getKey m n k : wf m -> In (n, k) (dkeys (margs m)) ->
  exists t, getKey m (nsarg_of n) k = Ok (Some t) /\
    match n with
    | Bare => t = k
    | Uri x => exists a, getAlias (mns m) x = Some a /\
                 t = match a with Null => u "openid." ++ k | Al y => u "openid." ++ y ++ u "." ++ k end
    end.
Proof.
  intros W Hin. unfold getKey. rewrite fixNS_of.
  2:{ destruct n as [|x]; [discriminate|]. intros K. inv K. eapply (wm_sreg _ W); eauto. }
  cbn [bind]. destruct n as [|x]; eauto.
  destruct (getAlias (mns m) x) as [a|] eqn:E; [|exfalso; eapply (wm_def _ W); eauto].
  destruct a; eexists; split; try reflexivity; eauto.
Qed.

(** Lookup through fold_left dset. *)
Lemma dget_fold_dset {K V A} (eqb : K -> K -> bool) (Heq : forall a b, eqb a b = true <-> a = b)
      (f : A -> option (K * V)) (l : list A) : forall d k,
  dget eqb k (fold_left (fun d e => match f e with Some (k, v) => dset eqb k v d | None => d end) l d) =
  match assoc_last eqb k (flat_map (fun e => match f e with Some p => [p] | None => [] end) l) with
  | Some v => Some v
  | None => dget eqb k d
  end.
Proof.
  induction l as [|e l IH]; intros d k; simpl; auto. rewrite IH.
  destruct (f e) as [[k' v]|]; simpl; auto. rewrite (dget_dset eqb Heq).
  destruct (assoc_last eqb k (flat_map _ l)); auto. destruct (eqb k k'); auto.
Qed.
