(** Facts about the attribute exchange model. *)
From Coq Require Import Lia ZifyBool ZifyN ZifyNat.
From Verif Require Import Py PyFacts Message MessageFacts Ax.
Open Scope N_scope.

Local Arguments u : simpl never.

(** ** Lists and dictionaries *)
Lemma NoDup_app_iff {A} (a b : list A) : NoDup (a ++ b) <-> NoDup a /\ NoDup b /\ forall x, In x a -> ~ In x b.
Proof.
  induction a as [|x a IH]; cbn [app].
  - split; [intros N; split; [constructor|auto]|tauto].
  - split.
    + intros N. inversion N as [|? ? N1 N2]; subst. apply IH in N2 as (M1 & M2 & M3). rewrite in_app_iff in N1. split; [constructor; tauto|]. split; [auto|].
      intros y [<-|Hy]; auto.
    + intros (N1 & N2 & N3). inversion N1; subst. constructor.
      * rewrite in_app_iff. intros [K|K]; auto. apply (N3 x); [left; auto|auto].
      * apply IH. split; [auto|]. split; [auto|]. intros y Hy. apply N3. right; auto.
Qed.
Lemma NoDup_flat_map {A B C} (f : A -> list B) (owner : B -> C) (g : A -> C) l :
  (forall x, In x l -> NoDup (f x)) -> (forall x k, In x l -> In k (f x) -> owner k = g x) -> NoDup (map g l) -> NoDup (flat_map f l).
Proof.
  induction l as [|x l IH]; intros H1 H2 H3; [constructor|]. cbn [flat_map]. apply NoDup_app_iff. cbn [map] in H3. inversion H3 as [|? ? K1 K2]; subst.
  split; [apply H1; left; auto|]. split; [apply IH; auto; intros; [apply H1|eapply H2]; eauto; right; auto|].
  intros k Hk K. apply in_flat_map in K as (y & Hy & K). apply K1. apply in_map_iff. exists y. split; auto.
  rewrite <- (H2 y k); [|right; auto|auto]. apply H2; [left; auto|auto].
Qed.
Lemma dset_all_fresh (l : dict text text) : forall d, NoDup (dkeys d ++ dkeys l) ->
  fold_left (fun d e => dset text_eqb (fst e) (snd e) d) l d = d ++ l.
Proof.
  induction l as [|[k v] l IH]; intros d N; cbn [fold_left]; [rewrite app_nil_r; auto|].
  unfold dkeys in N. cbn [map fst] in N. cbn [fst snd].
  assert (~ In k (dkeys d)) as Nk.
  { intros K. apply NoDup_app_iff in N as (_ & _ & N). apply (N k K). left; auto. }
  rewrite (dset_fresh text_eqb) by (apply (dget_None text_eqb text_eqb_eq); exact Nk).
  rewrite IH, <- app_assoc; auto. unfold dkeys. rewrite map_app. cbn [map fst]. rewrite <- app_assoc. exact N.
Qed.
Lemma startswith_skipn p : forall k, startswith k p = true -> k = p ++ skipn (List.length p) k.
Proof.
  induction p as [|c p IH]; intros k H; [reflexivity|]. destruct k as [|d k]; [discriminate H|]. cbn in H.
  apply andb_true_iff in H as [H1 H2]. apply N.eqb_eq in H1. subst. cbn [app skipn List.length]. f_equal. apply IH. exact H2.
Qed.
Lemma dset_map {Q} (k : Q -> text) {V} (v : Q -> V) l t x : NoDup (map k l) -> In t (map k l) ->
  dset text_eqb t x (map (fun q => (k q, v q)) l) = map (fun q => (k q, if text_eqb t (k q) then x else v q)) l.
Proof.
  induction l as [|q l IH]; intros N I; [destruct I|]. cbn [map] in *. inversion N as [|? ? N1 N2]; subst. cbn [dset].
  destruct (text_eqb t (k q)) eqn:E.
  - apply text_eqb_eq in E. subst t. f_equal. apply map_ext_in. intros q' Hq'. destruct (text_eqb (k q) (k q')) eqn:E; auto.
    apply text_eqb_eq in E. exfalso. apply N1. rewrite E. apply in_map. auto.
  - f_equal. apply IH; auto. destruct I as [I|I]; auto. rewrite I, text_eqb_refl in E. discriminate E.
Qed.
Lemma dget_map {Q} (k : Q -> text) {V} (v : Q -> V) l t y :
  NoDup (map k l) -> dget text_eqb t (map (fun q => (k q, v q)) l) = Some y <-> exists q, In q l /\ k q = t /\ v q = y.
Proof.
  intros N. split.
  - intros H. apply (dget_In text_eqb text_eqb_eq) in H. apply in_map_iff in H as (q & H & I). exists q. split; auto. split; congruence.
  - intros (q & I & <- & <-). apply (In_dget text_eqb text_eqb_eq).
    + unfold dkeys. rewrite map_map. cbn [fst]. exact N.
    + apply in_map_iff. exists q. auto.
Qed.
Lemma mapM_spec {A B} (f : A -> res B) (g : A -> B) l : (forall x, In x l -> f x = Ok (g x)) -> mapM f l = Ok (map g l).
Proof. induction l as [|x l IH]; intros H; auto. cbn [mapM map]. rewrite H by (left; auto). cbn [bind]. rewrite IH; auto. intros y Hy. apply H. right; auto. Qed.

(** ** Aliases read from a message *)
(** A map of aliases, by the pairs it was built from. *)
Definition ns_of (P : list (text * text)) : nsmap :=
  mkNsmap (map (fun p => (Al (fst p), snd p)) P) (map (fun p => (snd p, Al (fst p))) P) [].
Lemma ns_of_uri P a : getNamespaceURI (ns_of P) (Al a) = dget text_eqb a P.
Proof. unfold getNamespaceURI, ns_of. cbn [a2n]. induction P as [|[b t] P IH]; auto. cbn [map dget fst snd alias_eqb]. rewrite IH. reflexivity. Qed.
Lemma ns_of_alias P t : In t (map snd P) <-> getAlias (ns_of P) t <> None.
Proof.
  unfold getAlias, ns_of. cbn [n2a]. induction P as [|[b s] P IH]; cbn [map dget fst snd In]; [tauto|]. destruct (text_eqb t s) eqn:E.
  - apply text_eqb_eq in E. subst. split; auto. discriminate.
  - apply text_eqb_neq in E. rewrite <- IH. split; [intros [K|K]; congruence|auto].
Qed.
Lemma addAlias_ns_of P a t : ~ In a (map fst P) ->
  addAlias (ns_of P) t (Al a) false =
  if bad_alias (Al a) then (ns_of P, Raise AssertionError)
  else if mem_text t (map snd P) then (ns_of P, Raise InvalidNamespace)
  else (ns_of (P ++ [(a, t)]), Ok (Al a)).
Proof.
  intros Na. unfold addAlias. destruct (bad_alias (Al a)); auto. rewrite ns_of_uri.
  assert (dget text_eqb a P = None) as -> by (apply (dget_None text_eqb text_eqb_eq); exact Na).
  destruct (mem_text t (map snd P)) eqn:M.
  - apply mem_text_In in M. apply in_map_iff in M as ([b s] & Hs & I). cbn [snd] in Hs. subst s.
    destruct (getAlias (ns_of P) t) as [al|] eqn:G.
    + assert (alias_eqb al (Al a) = false) as ->; [|reflexivity]. apply alias_eqb_neq. intros ->.
      unfold getAlias, ns_of in G. cbn [n2a] in G. apply (dget_In text_eqb text_eqb_eq) in G. apply in_map_iff in G as ([b' s'] & G & I').
      cbn [fst snd] in G. injection G as -> ->. apply Na. apply (in_map fst) in I'. exact I'.
    + exfalso. revert G. apply ns_of_alias. apply (in_map snd) in I. exact I.
  - apply mem_text_false in M. destruct (getAlias (ns_of P) t) as [al|] eqn:G.
    + exfalso. apply M. apply ns_of_alias. congruence.
    + cbn [ns_of implicit_ns mem_text existsb]. f_equal. unfold ns_of. rewrite !map_app. cbn [map fst snd a2n n2a].
      rewrite (dset_fresh alias_eqb), (dset_fresh text_eqb); [reflexivity| |].
      * exact G.
      * pose proof (ns_of_uri P a) as E. unfold getNamespaceURI, ns_of in E. cbn [a2n] in E. rewrite E. apply (dget_None text_eqb text_eqb_eq). exact Na.
Qed.

(** The (alias, type URI) pairs of some arguments. *)
Definition types_of (l : dict text text) : list (text * text) :=
  flat_map (fun e => if startswith (fst e) (u "type.") then [(skipn 5 (fst e), snd e)] else []) l.
Lemma startswith_type a : startswith (u "type." ++ a) (u "type.") = true.
Proof. apply startswith_app. Qed.
Lemma skipn_type a : skipn 5 (u "type." ++ a) = a.
Proof. reflexivity. Qed.
Lemma In_types_of l a t : In (a, t) (types_of l) <-> In (u "type." ++ a, t) l.
Proof.
  unfold types_of. rewrite in_flat_map. split.
  - intros ([k v] & I & H). cbn [fst snd] in H. destruct (startswith k (u "type.")) eqn:S; [|destruct H].
    destruct H as [H|[]]. apply pair_equal_spec in H as [<- <-]. apply startswith_skipn in S. change (List.length (u "type.")) with 5%nat in S. rewrite <- S. exact I.
  - intros I. exists (u "type." ++ a, t). split; auto. cbn [fst snd]. rewrite startswith_type, skipn_type. left; auto.
Qed.
Lemma NoDup_types_of l : NoDup (dkeys l) -> NoDup (map fst (types_of l)).
Proof.
  induction l as [|[k v] l IH]; intros N; [constructor|]. unfold dkeys in N. cbn [map fst] in N. inversion N as [|? ? N1 N2]; subst.
  unfold types_of. cbn [flat_map fst snd]. fold (types_of l). destruct (startswith k (u "type.")) eqn:S; [|apply IH; exact N2].
  cbn [app map fst]. constructor; [|apply IH; exact N2]. intros K. apply in_map_iff in K as ([a t] & E & I). cbn [fst] in E. subst a.
  apply In_types_of in I. apply startswith_skipn in S. change (List.length (u "type.")) with 5%nat in S. rewrite <- S in I. apply N1. apply (in_map fst) in I. exact I.
Qed.

(** Aliases that can be used in attribute exchange messages. *)
Definition legal (a : text) : Prop := bad_alias (Al a) = false /\ ~ In 44 a.
Definition legalb (a : text) : bool := negb (bad_alias (Al a)) && negb (memc 44 a).
Lemma legalb_spec a : legalb a = true <-> legal a.
Proof. unfold legalb, legal. rewrite andb_true_iff, !negb_true_iff, memc_false. tauto. Qed.
Lemma checkAlias_legal a : legal a -> checkAlias a = Ok tt.
Proof.
  intros [B C]. unfold checkAlias. apply memc_false in C. rewrite C. cbn [bad_alias] in B. apply orb_false_iff in B as [_ B]. rewrite B. reflexivity.
Qed.

(** ** Parsing a fetch request *)
Record trip := mkTrip { q_alias : text; q_uri : text; q_count : count }.
Definition q_pair (q : trip) : text * text := (q_alias q, q_uri q).
Definition plain (q : trip) : text * attr := (q_uri q, mkAttr (q_uri q) (q_count q) false (Some (q_alias q))).
Definition fetch_errors : list exn := [AssertionError; InvalidNamespace; KeyError; AXError; NotAXMessage].

Lemma nat_of_digits_Raise s e : nat_of_digits s = Raise e -> isValueError e = true.
Proof. unfold nat_of_digits. intros H. repeat match type of H with context [match ?x with _ => _ end] => destruct x; try discriminate H end; injection H as <-; reflexivity. Qed.
Lemma int_of_text_Raise s e : int_of_text s = Raise e -> isValueError e = true.
Proof.
  unfold int_of_text. destruct (strip s) as [|c r]; [intros H; injection H as <-; reflexivity|]. destruct (c =? 45).
  - destruct (nat_of_digits r) as [z|x] eqn:E; cbn [bind]; [discriminate|]. intros H. injection H as <-. eapply nat_of_digits_Raise; eauto.
  - destruct (c =? 43); apply nat_of_digits_Raise.
Qed.
Lemma read_count_Raise o e : read_count o = Raise e -> e = AXError.
Proof.
  unfold read_count. destruct o as [[|c s]|]; try discriminate. generalize (text_eqb (c :: s) (u "unlimited")). intros b.
  destruct (int_of_text (c :: s)) as [z|x] eqn:E; cbn [bind].
  - destruct (z <=? 0)%Z; [|discriminate]. cbn. destruct b; [discriminate|]. intros H. injection H as <-. reflexivity.
  - rewrite (int_of_text_Raise _ _ E). destruct b; [discriminate|]. intros H. injection H as <-. reflexivity.
Qed.

Lemma fetch_loop args0 l : forall Q,
  NoDup (map fst (types_of l)) -> (forall q, In q Q -> ~ In (q_alias q) (map fst (types_of l))) -> NoDup (map q_uri Q) ->
  let st Q := (ns_of (map q_pair Q), mkFetchReq (map plain Q) None) in
  (exists Q', map q_pair Q' = types_of l /\
     (forall q, In q Q' -> legal (q_alias q) /\ read_count (dget text_eqb (u "count." ++ q_alias q) args0) = Ok (q_count q)) /\
     NoDup (map q_uri (Q ++ Q')) /\ foldM (fetch_step args0) (st Q) l = Ok (st (Q ++ Q'))) \/
  (exists e, foldM (fetch_step args0) (st Q) l = Raise e /\ In e fetch_errors /\
     ~ ((forall a t, In (a, t) (types_of l) -> legal a /\ exists c, read_count (dget text_eqb (u "count." ++ a) args0) = Ok c) /\
        NoDup (map q_uri Q ++ map snd (types_of l)))).
Proof.
  induction l as [|[k v] l IH]; intros Q N D U st.
  - left. exists []. rewrite app_nil_r. split; [reflexivity|]. split; [intros q []|]. split; [exact U|reflexivity].
  - cbn [foldM].
    assert (fetch_step args0 (st Q) (k, v) = if startswith k (u "type.") then _ else Ok (st Q)) as Fs by reflexivity. rewrite Fs; clear Fs.
    unfold types_of in *. cbn [flat_map fst snd] in *. fold (types_of l) in *.
    destruct (startswith k (u "type.")) eqn:S.
    2:{ cbn [bind]. apply IH; auto. }
    set (a := skipn 5 k) in *. cbn [app map fst snd] in N, D. inversion N as [|? ? N1 N2]; subst.
    assert (fst (st Q) = ns_of (map q_pair Q)) as -> by reflexivity. assert (snd (st Q) = mkFetchReq (map plain Q) None) as -> by reflexivity.
    rewrite addAlias_ns_of.
    2:{ rewrite map_map. cbn [q_pair fst]. intros K. apply in_map_iff in K as (q & K & I). apply (D q I). left; auto. }
    rewrite map_map. cbn [q_pair snd]. change (map (fun x : trip => q_uri x) Q) with (map q_uri Q).
    destruct (bad_alias (Al a)) eqn:Ba.
    { right. exists AssertionError. split; [reflexivity|]. split; [left; auto|]. intros [K _]. destruct (K a v) as ((K1 & _) & _); [left; auto|]. congruence. }
    destruct (mem_text v (map q_uri Q)) eqn:M.
    { right. exists InvalidNamespace. split; [reflexivity|]. split; [right; left; auto|]. intros [_ K]. apply mem_text_In in M.
      apply NoDup_app_iff in K as (_ & _ & K). apply (K v M). left; auto. }
    cbn [bind]. destruct (read_count (dget text_eqb (u "count." ++ a) args0)) as [c|e] eqn:Rc.
    2:{ right. exists e. split; [reflexivity|]. split; [apply read_count_Raise in Rc; subst; cbn; auto|].
        intros [K _]. destruct (K a v) as (_ & c & K2); [left; auto|]. congruence. }
    cbn [bind]. unfold AttrInfo, checkAlias. destruct (memc 44 a) eqn:Cm.
    { right. exists AXError. split; [reflexivity|]. split; [cbn; auto|]. intros [K _]. destruct (K a v) as ((_ & K1) & _); [left; auto|].
      apply memc_In in Cm. contradiction. }
    assert (legal a) as La by (split; [exact Ba|apply memc_false; exact Cm]).
    assert (memc 46 a = false) as -> by (cbn [bad_alias] in Ba; apply orb_false_iff in Ba; tauto). cbn [bind]. unfold fr_add. cbn [fr_attrs at_uri fr_update].
    apply mem_text_false in M.
    assert (dget text_eqb v (map plain Q) = None) as Dn.
    { apply (dget_None text_eqb text_eqb_eq). unfold dkeys. rewrite map_map. cbn [plain fst]. exact M. }
    unfold dhas. rewrite Dn. cbn [bind]. rewrite (dset_fresh text_eqb) by exact Dn.
    match goal with |- context [foldM (fetch_step args0) ?X l] => replace X with (st (Q ++ [mkTrip a v c])) by (unfold st; rewrite !map_app; reflexivity) end.
    destruct (IH (Q ++ [mkTrip a v c])) as [(Q' & I1 & I2 & I3 & I4)|(e & I1 & I2 & I3)].
    + exact N2.
    + intros q Hq K. apply in_app_or in Hq as [Hq|[<-|[]]].
      * apply (D q Hq). right; auto.
      * cbn [q_alias] in K. contradiction.
    + rewrite map_app. apply NoDup_app_iff. split; [exact U|]. split; [repeat constructor; intros []|]. intros x Hx [<-|[]]. contradiction.
    + left. exists (mkTrip a v c :: Q'). split; [cbn [map q_pair q_alias q_uri]; rewrite <- I1; reflexivity|]. split.
      * intros q [<-|Hq]; [cbn [q_alias q_count]; auto|auto].
      * rewrite <- app_assoc in I3, I4. split; [exact I3|exact I4].
    + right. exists e. split; [exact I1|]. split; [exact I2|]. intros [K1 K2]. apply I3. split.
      * intros a' t' I. apply (K1 a' t'). right; auto.
      * rewrite map_app. rewrite <- app_assoc. exact K2.
Qed.

(** ** The lists of aliases *)
Definition lists (o : option text) (a : text) : Prop := exists s, o = Some s /\ s <> [] /\ In a (splitc 44 s).
Lemma toTypeURIs_spec P o :
  (exists l, toTypeURIs (ns_of P) o = Ok l /\ (forall a, lists o a -> In a (map fst P)) /\
             forall t, In t l <-> exists a, lists o a /\ dget text_eqb a P = Some t) \/
  (toTypeURIs (ns_of P) o = Raise KeyError /\ exists a, lists o a /\ ~ In a (map fst P)).
Proof.
  destruct o as [[|c s]|]; unfold toTypeURIs.
  - left. exists []. split; auto. split; [intros a (x & E & N & _); congruence|]. intros t. split; [intros []|]. intros (a & (x & E & N & _) & _). congruence.
  - assert (forall a, lists (Some (c :: s)) a <-> In a (splitc 44 (c :: s))) as L.
    { intros a. split; [intros (x & E & _ & I); injection E as <-; exact I|]. intros I. exists (c :: s). split; auto. split; [discriminate|exact I]. }
    generalize dependent (splitc 44 (c :: s)). intros w L.
    assert (forall w, (exists l, mapM (fun a => match getNamespaceURI (ns_of P) (Al a) with None => Raise KeyError | Some t => Ok t end) w = Ok l /\
              (forall a, In a w -> In a (map fst P)) /\ forall t, In t l <-> exists a, In a w /\ dget text_eqb a P = Some t) \/
            (mapM (fun a => match getNamespaceURI (ns_of P) (Al a) with None => Raise KeyError | Some t => Ok t end) w = Raise KeyError /\
              exists a, In a w /\ ~ In a (map fst P))) as W.
    { clear w L. intros w. induction w as [|a w IH]; cbn [mapM].
      - left. exists []. split; auto. split; [intros a []|]. intros t. split; [intros []|intros (a & [] & _)].
      - rewrite ns_of_uri. destruct (dget text_eqb a P) as [t|] eqn:D.
        + cbn [bind]. destruct IH as [(l & -> & H1 & H2)|(-> & b & H1 & H2)].
          * left. exists (t :: l). split; auto. split.
            -- intros b [<-|Hb]; auto. apply (dget_In text_eqb text_eqb_eq) in D. apply (in_map fst) in D. exact D.
            -- intros t'. split.
               ++ intros [<-|I]; [exists a; split; [left; auto|exact D]|]. apply H2 in I as (b & I & J). exists b. split; [right; auto|exact J].
               ++ intros (b & [<-|I] & J); [left; congruence|]. right. apply H2. exists b. auto.
          * right. split; auto. exists b. split; [right; auto|auto].
        + cbn [bind]. right. split; auto. exists a. split; [left; auto|]. apply (dget_None text_eqb text_eqb_eq) in D. exact D. }
    destruct (W w) as [(l & H1 & H2 & H3)|(H1 & a & H2 & H3)].
    + left. exists l. split; auto. split; [intros a I; apply H2, L, I|]. intros t. rewrite H3. split; intros (a & I & J); exists a; (split; [apply L; exact I|exact J]).
    + right. split; auto. exists a. split; [apply L; exact H2|exact H3].
  - left. exists []. split; auto. split; [intros a (x & E & N & _); congruence|]. intros t. split; [intros []|]. intros (a & (x & E & N & _) & _). congruence.
Qed.

Definition flagged (f : trip -> bool) (q : trip) : text * attr := (q_uri q, mkAttr (q_uri q) (q_count q) (f q) (Some (q_alias q))).
Lemma set_required_loop Q o : NoDup (map q_uri Q) -> forall l f, (forall t, In t l -> In t (map q_uri Q)) ->
  foldM set_required (mkFetchReq (map (flagged f) Q) o) l = Ok (mkFetchReq (map (flagged (fun q => f q || mem_text (q_uri q) l)) Q) o).
Proof.
  intros N. induction l as [|t l IH]; intros f H.
  - cbn [foldM]. do 2 f_equal. apply map_ext. intros q. unfold flagged. cbn [mem_text existsb]. rewrite orb_false_r. reflexivity.
  - cbn [foldM]. unfold set_required at 1. cbn [fr_attrs fr_update].
    assert (In t (map q_uri Q)) as I by (apply H; left; auto). pose proof I as I'. apply in_map_iff in I' as (q & E & Iq).
    assert (dget text_eqb t (map (flagged f) Q) = Some (snd (flagged f q))) as ->.
    { apply (dget_map q_uri (fun q => snd (flagged f q))); [exact N|]. exists q. auto. }
    cbn [flagged snd at_uri at_count at_alias].
    pose proof (dset_map q_uri (fun q => snd (flagged f q)) Q t (mkAttr (q_uri q) (q_count q) true (Some (q_alias q))) N I) as Dm.
    unfold flagged in Dm at 1. cbn [snd] in Dm. fold (flagged f) in Dm. change (fun q => (q_uri q, mkAttr (q_uri q) (q_count q) (f q) (Some (q_alias q)))) with (flagged f) in Dm.
    rewrite Dm. clear Dm. cbn [bind].
    replace (map (fun q0 => (q_uri q0, if text_eqb t (q_uri q0) then mkAttr (q_uri q) (q_count q) true (Some (q_alias q)) else snd (flagged f q0))) Q)
      with (map (flagged (fun q0 => f q0 || text_eqb t (q_uri q0))) Q).
    + rewrite IH; [|intros x Hx; apply H; right; auto]. do 2 f_equal. apply map_ext. intros x. unfold flagged. cbn [mem_text existsb].
      rewrite (text_eqb_sym t (q_uri x)), orb_assoc. reflexivity.
    + apply map_ext_in. intros x Hx. unfold flagged. cbn [snd]. destruct (text_eqb t (q_uri x)) eqn:Et; [|rewrite orb_false_r; reflexivity].
      apply text_eqb_eq in Et. assert (x = q) as ->; [|rewrite orb_true_r; reflexivity].
      rewrite <- E in Et. revert N Hx Iq Et. clear. intros N Hx Iq E. induction Q as [|y Q IH]; [destruct Hx|]. cbn [map] in N. inversion N as [|? ? N1 N2]; subst.
      destruct Hx as [<-|Hx]; destruct Iq as [<-|Iq]; auto; exfalso; apply N1; [rewrite <- E|rewrite E]; apply in_map; auto.
Qed.

(** ** Parsing key/value messages *)
Lemma kv_alias_loop l : forall P,
  NoDup (map fst (types_of l)) -> (forall a, In a (map fst P) -> ~ In a (map fst (types_of l))) -> NoDup (map snd P) ->
  (foldM kv_alias_step (ns_of P) l = Ok (ns_of (P ++ types_of l)) /\
   (forall a t, In (a, t) (types_of l) -> legal a) /\ NoDup (map snd (P ++ types_of l))) \/
  (exists e, foldM kv_alias_step (ns_of P) l = Raise e /\ In e fetch_errors /\
   ~ ((forall a t, In (a, t) (types_of l) -> legal a) /\ NoDup (map snd (P ++ types_of l)))).
Proof.
  induction l as [|[k v] l IH]; intros P N D U.
  - left. cbn [foldM types_of flat_map]. rewrite app_nil_r. split; auto. split; [intros a t []|exact U].
  - cbn [foldM]. unfold kv_alias_step at 1 3. unfold types_of in *. cbn [flat_map fst snd] in *. fold (types_of l) in *.
    destruct (startswith k (u "type.")) eqn:S.
    2:{ cbn [bind]. apply IH; auto. }
    set (a := skipn 5 k) in *. cbn [app map fst snd] in N, D. inversion N as [|? ? N1 N2]; subst.
    unfold checkAlias. destruct (memc 44 a) eqn:Cm.
    { right. exists AXError. split; [reflexivity|]. split; [cbn; auto|]. intros [K _]. destruct (K a v) as (_ & K1); [left; auto|]. apply memc_In in Cm. contradiction. }
    destruct (memc 46 a) eqn:Cd.
    { right. exists AXError. split; [reflexivity|]. split; [cbn; auto|]. intros [K _]. destruct (K a v) as (K1 & _); [left; auto|].
      cbn [bad_alias] in K1. rewrite Cd, orb_true_r in K1. discriminate K1. }
    cbn [bind]. assert (~ In a (map fst P)) as Na. { intros K. apply (D a K). left; auto. }
    rewrite addAlias_ns_of by exact Na.
    destruct (bad_alias (Al a)) eqn:Ba.
    { right. exists AssertionError. split; [reflexivity|]. split; [left; auto|]. intros [K _]. destruct (K a v) as (K1 & _); [left; auto|]. congruence. }
    destruct (mem_text v (map snd P)) eqn:M.
    { right. exists InvalidNamespace. split; [reflexivity|]. split; [right; left; auto|]. intros [_ K]. apply mem_text_In in M.
      rewrite map_app in K. apply NoDup_app_iff in K as (_ & _ & K). apply (K v M). left; auto. }
    cbn [bind]. assert (legal a) as La by (split; [exact Ba|apply memc_false; exact Cm]). apply mem_text_false in M.
    destruct (IH (P ++ [(a, v)])) as [(I1 & I2 & I3)|(e & I1 & I2 & I3)].
    + exact N2.
    + intros b Hb K. rewrite map_app in Hb. apply in_app_or in Hb as [Hb|[<-|[]]].
      * apply (D b Hb). right; auto.
      * cbn [fst] in K. contradiction.
    + rewrite map_app. apply NoDup_app_iff. split; [exact U|]. split; [repeat constructor; intros []|]. intros x Hx [<-|[]]. contradiction.
    + left. rewrite <- app_assoc in I1, I3. cbn [app] in I1, I3 |- *. split; [exact I1|]. split; [|exact I3]. intros b t [E|I].
      * apply pair_equal_spec in E as [<- _]. exact La.
      * apply (I2 b t I).
    + right. exists e. split; [exact I1|]. split; [exact I2|]. intros [K1 K2]. apply I3. split.
      * intros b t I. apply (K1 b t). right; auto.
      * rewrite <- app_assoc. exact K2.
Qed.

(** The values of an alias in some arguments. *)
Inductive values_of (args : dict text text) (a : text) : list text -> Prop :=
| vo_none : dget text_eqb (u "count." ++ a) args = None -> dget text_eqb (u "value." ++ a) args = Some [] -> values_of args a []
| vo_one v : dget text_eqb (u "count." ++ a) args = None -> dget text_eqb (u "value." ++ a) args = Some v -> v <> [] -> values_of args a [v]
| vo_many s z vs : dget text_eqb (u "count." ++ a) args = Some s -> int_of_text s = Ok z ->
    List.length vs = Z.to_nat z -> (forall i v, nth_error vs i = Some v -> dget text_eqb (value_key a (S i)) args = Some v) -> values_of args a vs.

Lemma mapM_seq {A} (f : nat -> option A) : forall n i vs,
  mapM (fun i => match f i with None => Raise KeyError | Some v => Ok v end) (seq i n) = Ok vs <->
  List.length vs = n /\ forall j v, nth_error vs j = Some v -> f (i + j)%nat = Some v.
Proof.
  induction n as [|n IH]; intros i vs; cbn [seq mapM].
  - split; [intros H; injection H as <-; split; auto; intros [|j] v K; discriminate K|]. intros [H _]. destruct vs; [auto|discriminate H].
  - split.
    + intros H. destruct (f i) as [v|] eqn:F; [|discriminate H]. cbn [bind] in H. apply bind_Ok in H as (w & E & H). injection H as <-.
      apply IH in E as [E1 E2]. split; [cbn; congruence|]. intros [|j] x K; cbn [nth_error] in K.
      * rewrite Nat.add_0_r. congruence.
      * rewrite Nat.add_succ_r. apply (E2 j x K).
    + intros [H1 H2]. destruct vs as [|v w]; [discriminate H1|]. pose proof (H2 O v eq_refl) as F. rewrite Nat.add_0_r in F. rewrite F. cbn [bind].
      assert (mapM (fun i => match f i with None => Raise KeyError | Some v => Ok v end) (seq (S i) n) = Ok w) as ->; [|reflexivity].
      apply IH. split; [cbn in H1; congruence|]. intros j x K. specialize (H2 (S j) x K). rewrite Nat.add_succ_r in H2. exact H2.
Qed.
Lemma mapM_seq_Raise {A} (f : nat -> option A) e : forall l, mapM (fun i => match f i with None => Raise KeyError | Some v => Ok v end) l = Raise e -> e = KeyError.
Proof.
  induction l as [|i l IH]; cbn [mapM]; [discriminate|]. destruct (f i); cbn [bind]; [|intros H; injection H as <-; auto].
  destruct (mapM _ l); cbn [bind]; [discriminate|]. intros H. apply IH. congruence.
Qed.
Lemma read_values_spec args a vs : read_values args a = Ok vs <-> values_of args a vs.
Proof.
  unfold read_values. destruct (dget text_eqb (u "count." ++ a) args) as [s|] eqn:Dc.
  - destruct (int_of_text s) as [z|e] eqn:I; cbn [bind].
    + rewrite mapM_seq. split; [intros [H1 H2]; eapply vo_many; eauto|]. intros H. inversion H as [K|? K|s' z' ? K1 K2 K3 K4]; try congruence. subst.
      rewrite Dc in K1. injection K1 as <-. rewrite I in K2. injection K2 as <-. split; auto.
    + split; [discriminate|]. intros H. inversion H as [K|? K|s' z' ? K1 K2 K3 K4]; congruence.
  - destruct (dget text_eqb (u "value." ++ a) args) as [v|] eqn:Dv.
    + split.
      * destruct v as [|c v]; cbn [truthy]; intros H; injection H as <-; [apply vo_none; auto|apply vo_one; auto; discriminate].
      * intros H. inversion H as [K K'|v' K K' K2|s' z' ? K1 K2 K3 K4]; try congruence.
        -- rewrite Dv in K'. injection K' as ->. reflexivity.
        -- rewrite Dv in K'. injection K' as ->. destruct v'; [congruence|reflexivity].
    + split; [discriminate|]. intros H. inversion H; congruence.
Qed.
Lemma read_values_Raise args a e : read_values args a = Raise e -> e = KeyError \/ e = ValueError.
Proof.
  unfold read_values. destruct (dget text_eqb (u "count." ++ a) args) as [s|].
  - destruct (int_of_text s) as [z|x] eqn:I; cbn [bind].
    + intros H. apply mapM_seq_Raise in H. auto.
    + intros H. injection H as <-. right. revert I. unfold int_of_text, nat_of_digits. intros I.
      repeat match type of I with context [match ?x with _ => _ end] => destruct x; cbn [bind] in I; try discriminate I end; congruence.
  - destruct (dget text_eqb (u "value." ++ a) args); [discriminate|]. intros H. injection H as <-. auto.
Qed.

Lemma kv_values_loop args l : forall (D : kv_data), NoDup (map snd l) -> (forall t, In t (map snd l) -> ~ In t (dkeys D)) ->
  let step := fun d (e : text * alias) => v <- read_values args (al_text (snd e)) ;; Ok (dset text_eqb (fst e) v d) in
  (exists E, foldM step D (map (fun p => (snd p, Al (fst p))) l) = Ok (D ++ E) /\ dkeys E = map snd l /\
     forall a t, In (a, t) l -> exists v, dget text_eqb t E = Some v /\ values_of args a v) \/
  (exists e, foldM step D (map (fun p => (snd p, Al (fst p))) l) = Raise e /\ (e = KeyError \/ e = ValueError) /\
     exists a t, In (a, t) l /\ forall v, ~ values_of args a v).
Proof.
  induction l as [|[a t] l IH]; intros D N Df step.
  - left. exists []. rewrite app_nil_r. split; auto. split; auto. intros a t [].
  - cbn [map foldM]. cbn [fst snd]. unfold step at 1 3. cbn [fst snd al_text]. cbn [map snd] in N, Df. inversion N as [|? ? N1 N2]; subst.
    destruct (read_values args a) as [v|e] eqn:R; cbn [bind].
    + rewrite (dset_fresh text_eqb) by (apply (dget_None text_eqb text_eqb_eq); apply Df; left; auto).
      destruct (IH (D ++ [(t, v)])) as [(E & E1 & E2 & E3)|(e & E1 & E2 & b & s & E3 & E4)]; auto.
      * intros s Hs K. unfold dkeys in K. rewrite map_app in K. apply in_app_or in K as [K|[<-|[]]].
        -- apply (Df s); [right; auto|exact K].
        -- cbn [fst] in Hs. contradiction.
      * left. exists ((t, v) :: E). rewrite <- app_assoc in E1. split; [exact E1|]. split; [unfold dkeys in *; cbn [map fst]; congruence|].
        intros b s [K|K].
        -- apply pair_equal_spec in K as [<- <-]. exists v. cbn [dget]. rewrite text_eqb_refl. split; auto. apply read_values_spec. exact R.
        -- destruct (E3 b s K) as (w & W1 & W2). exists w. split; auto. cbn [dget]. destruct (text_eqb s t) eqn:Es; auto.
           apply text_eqb_eq in Es. subst s. exfalso. apply N1. apply (in_map snd) in K. exact K.
      * right. exists e. split; [exact E1|]. split; [exact E2|]. exists b, s. split; [right; auto|exact E4].
    + right. exists e. split; auto. split; [eapply read_values_Raise; eauto|]. exists a, t. split; [left; auto|].
      intros v Hv. apply read_values_spec in Hv. congruence.
Qed.

(** ** Writing *)
Definition nonull (m : nsmap) : Prop := forall t, getAlias m t <> Some Null.
(** The alias of a type URI. *)
Definition al_of (m : nsmap) (t : text) : text := match getAlias m t with Some a => al_text a | None => [] end.
Lemma al_of_spec m t : nonull m -> getAlias m t <> None -> getAlias m t = Some (Al (al_of m t)).
Proof. intros N H. unfold al_of. specialize (N t). destruct (getAlias m t) as [[|a]|]; try congruence. reflexivity. Qed.
Lemma al_of_dot m t : wf_ns m -> nonull m -> getAlias m t <> None -> bad_alias (Al (al_of m t)) = false.
Proof. intros W N H. apply (wn_ok _ W (Al (al_of m t)) t). apply (wn_inv _ W). apply al_of_spec; auto. Qed.
Lemma al_of_inj m t s : wf_ns m -> nonull m -> getAlias m t <> None -> getAlias m s <> None -> al_of m t = al_of m s -> t = s.
Proof.
  intros W N Ht Hs E. apply al_of_spec in Ht; auto. apply al_of_spec in Hs; auto. rewrite E in Ht. apply (wn_inv _ W) in Ht. apply (wn_inv _ W) in Hs. congruence.
Qed.
Lemma nodot a : bad_alias (Al a) = false -> ~ In 46 a.
Proof. cbn [bad_alias]. intros H. apply orb_false_iff in H as [_ H]. apply memc_false in H. exact H. Qed.

(** The alias a key is about. *)
Definition owner (k : text) : text := nth 1 (splitc 46 k) [].
Lemma owner_type a : ~ In 46 a -> owner (u "type." ++ a) = a.
Proof. intros H. unfold owner. change (u "type." ++ a) with (u "type" ++ 46 :: a). rewrite splitc_app, (splitc_nin 46 a) by (auto; cbv; intuition discriminate). reflexivity. Qed.
Lemma owner_count a : ~ In 46 a -> owner (u "count." ++ a) = a.
Proof. intros H. unfold owner. change (u "count." ++ a) with (u "count" ++ 46 :: a). rewrite splitc_app, (splitc_nin 46 a) by (auto; cbv; intuition discriminate). reflexivity. Qed.
Lemma owner_value a i : ~ In 46 a -> owner (value_key a i) = a.
Proof.
  intros H. unfold owner, value_key. change (u "value." ++ a ++ u "." ++ str_of_N (N.of_nat i)) with (u "value" ++ 46 :: (a ++ 46 :: str_of_N (N.of_nat i))).
  rewrite splitc_app by (cbv; intuition discriminate). rewrite splitc_app by auto. reflexivity.
Qed.
Lemma value_key_inj a i j : value_key a i = value_key a j -> i = j.
Proof. unfold value_key. intros H. apply app_inv_head in H. apply app_inv_head in H. apply app_inv_head in H. apply str_of_N_inj in H. lia. Qed.

Definition block (A : text -> text) (e : text * list text) : dict text text :=
  [(u "type." ++ A (fst e), fst e); (u "count." ++ A (fst e), str_of_N (N.of_nat (List.length (snd e))))] ++
  map (fun iv => (value_key (A (fst e)) (fst iv), snd iv)) (combine (seq 1 (List.length (snd e))) (snd e)).
Lemma map_fst_combine {X Y} (a : list X) : forall b : list Y, List.length a = List.length b -> map fst (combine a b) = a.
Proof. induction a as [|x a IH]; intros [|y b] H; try discriminate H; auto. cbn [combine map fst]. f_equal. apply IH. cbn in H. congruence. Qed.
Lemma block_keys A e : dkeys (block A e) = [u "type." ++ A (fst e); u "count." ++ A (fst e)] ++ map (value_key (A (fst e))) (seq 1 (List.length (snd e))).
Proof.
  unfold block, dkeys. rewrite map_app. cbn [map fst]. f_equal. rewrite map_map. cbn [fst]. rewrite <- (map_map fst (value_key (A (fst e)))).
  rewrite map_fst_combine; auto. apply seq_length.
Qed.
Lemma block_NoDup A e : NoDup (dkeys (block A e)).
Proof.
  rewrite block_keys. cbn [app]. constructor; [|constructor].
  - intros [H|H]; [discriminate H|]. apply in_map_iff in H as (i & H & _). discriminate H.
  - intros H. apply in_map_iff in H as (i & H & _). discriminate H.
  - apply FinFun.Injective_map_NoDup; [|apply seq_NoDup]. intros i j. apply value_key_inj.
Qed.
Lemma block_owner A e k : ~ In 46 (A (fst e)) -> In k (dkeys (block A e)) -> owner k = A (fst e).
Proof.
  intros N. rewrite block_keys. cbn [app]. intros [<-|[<-|H]]; [apply owner_type; auto|apply owner_count; auto|].
  apply in_map_iff in H as (i & <- & _). apply owner_value; auto.
Qed.
Lemma dkeys_flat_map {X} (f : X -> dict text text) l : dkeys (flat_map f l) = flat_map (fun x => dkeys (f x)) l.
Proof. unfold dkeys. induction l as [|x l IH]; auto. cbn [flat_map]. rewrite map_app, IH. reflexivity. Qed.
Lemma NoDup_map_inj {X Y} (f : X -> Y) l : NoDup l -> (forall x y, In x l -> In y l -> f x = f y -> x = y) -> NoDup (map f l).
Proof.
  induction l as [|x l IH]; intros N H; [constructor|]. inversion N as [|? ? N1 N2]; subst. cbn [map]. constructor.
  - intros K. apply in_map_iff in K as (y & E & I). apply N1. rewrite <- (H y x); auto; [right; auto|left; auto].
  - apply IH; auto. intros y z Hy Hz. apply H; right; auto.
Qed.
Lemma blocks_NoDup A (d : kv_data) : NoDup (dkeys d) -> (forall t, In t (dkeys d) -> ~ In 46 (A t)) ->
  (forall t s, In t (dkeys d) -> In s (dkeys d) -> A t = A s -> t = s) -> NoDup (dkeys (flat_map (block A) d)).
Proof.
  intros N D I. rewrite dkeys_flat_map. apply (NoDup_flat_map _ owner (fun e => A (fst e))).
  - intros e _. apply block_NoDup.
  - intros e k He Hk. apply block_owner; auto. apply D. apply in_map. exact He.
  - rewrite <- (map_map fst A). apply NoDup_map_inj; auto.
Qed.

Lemma dset_all (l : dict text text) d : NoDup (dkeys d ++ dkeys l) -> fold_left (fun d e => dset text_eqb (fst e) (snd e) d) l d = d ++ l.
Proof. apply dset_all_fresh. Qed.

Lemma fold_left_map {X Y Z} (f : Z -> Y -> Z) (g : X -> Y) l : forall z, fold_left f (map g l) z = fold_left (fun z x => f z (g x)) l z.
Proof. induction l as [|x l IH]; intros z; auto. cbn. apply IH. Qed.

Lemma kv_step_block m args t vs m' a : Message.add m t = (m', Ok (Al a)) -> NoDup (dkeys args ++ dkeys (block (fun _ => a) (t, vs))) ->
  kv_step (m, args) (t, vs) = Ok (m', args ++ block (fun _ => a) (t, vs)).
Proof.
  intros E N. unfold kv_step. cbn [fst snd]. rewrite E. cbn [bind al_text]. do 2 f_equal.
  rewrite <- (dset_all _ _ N). unfold block. rewrite fold_left_app. cbn [fold_left fst snd].
  rewrite (fold_left_map (fun d e => dset text_eqb (fst e) (snd e) d) (fun iv => (value_key a (fst iv), snd iv))). reflexivity.
Qed.

Lemma block_ext A B e : A (fst e) = B (fst e) -> block A e = block B e.
Proof. intros H. unfold block. rewrite H. reflexivity. Qed.
Lemma flat_map_ext_in {X Y} (f g : X -> list Y) l : (forall x, In x l -> f x = g x) -> flat_map f l = flat_map g l.
Proof. induction l as [|x l IH]; intros H; auto. cbn [flat_map]. rewrite (H x) by (left; auto). f_equal. apply IH. intros y Hy. apply H. right; auto. Qed.

Lemma add_nonull m t m' a : wf_ns m -> nonull m -> Message.add m t = (m', Ok a) -> nonull m'.
Proof.
  intros W N E. destruct (add_total m t W) as [(b & _ & E')|(_ & j & m1 & E1 & E2 & _)].
  - rewrite E in E'. injection E' as -> _. exact N.
  - rewrite E in E1. injection E1 as -> ->. apply addAlias_Ok in E2 as (_ & _ & _ & _ & G & _). intros s. rewrite G. destruct (text_eqb s t); [discriminate|apply N].
Qed.

Lemma kv_loop data : forall done m, wf_ns m -> nonull m -> NoDup (dkeys (done ++ data)) -> (forall t, In t (dkeys done) -> getAlias m t <> None) ->
  exists m', foldM kv_step (m, flat_map (block (al_of m)) done) data = Ok (m', flat_map (block (al_of m')) (done ++ data)) /\
    wf_ns m' /\ nonull m' /\ (forall t, getAlias m t <> None -> getAlias m' t = getAlias m t) /\
    (forall t, In t (dkeys data) -> getAlias m' t <> None).
Proof.
  induction data as [|[t vs] data IH]; intros done m W N D H.
  - exists m. rewrite app_nil_r. split; [reflexivity|]. do 3 (split; [auto|]). intros t [].
  - cbn [foldM]. destruct (add_wf m t W) as (m1 & al & E & W1 & G1 & _ & K1 & K2 & _). pose proof (add_nonull _ _ _ _ W N E) as N1.
    destruct al as [|a]; [exfalso; apply (N1 t); exact G1|].
    assert (al_of m1 t = a) as At by (unfold al_of; rewrite G1; reflexivity).
    assert (flat_map (block (al_of m)) done = flat_map (block (al_of m1)) done) as E1.
    { apply flat_map_ext_in. intros e He. apply block_ext. unfold al_of. rewrite K1; auto. apply H. apply in_map. exact He. }
    assert (block (fun _ => a) (t, vs) = block (al_of m1) (t, vs)) as E2 by (apply block_ext; cbn [fst]; auto).
    assert (forall s, In s (dkeys (done ++ [(t, vs)])) -> getAlias m1 s <> None) as G.
    { intros s Hs. unfold dkeys in Hs. rewrite map_app in Hs. apply in_app_or in Hs as [Hs|[<-|[]]].
      - rewrite K1; apply H; exact Hs.
      - cbn [fst]. congruence. }
    assert (NoDup (dkeys (done ++ [(t, vs)]))) as D1.
    { revert D. unfold dkeys. rewrite !map_app. cbn [map fst]. intros D. change (t :: map fst data) with ([t] ++ map fst data) in D. rewrite app_assoc in D.
      apply NoDup_app_iff in D. apply D. }
    rewrite E1, (kv_step_block m _ t vs m1 a E).
    + cbn [bind]. rewrite E2. replace (flat_map (block (al_of m1)) done ++ block (al_of m1) (t, vs)) with (flat_map (block (al_of m1)) (done ++ [(t, vs)]))
        by (rewrite flat_map_app; cbn [flat_map]; rewrite app_nil_r; reflexivity).
      destruct (IH (done ++ [(t, vs)]) m1 W1 N1) as (m2 & I1 & I2 & I3 & I4 & I5); auto.
      * rewrite <- app_assoc. exact D.
      * exists m2. rewrite <- app_assoc in I1. split; [exact I1|]. split; [exact I2|]. split; [exact I3|]. split.
        -- intros s Hs. rewrite I4, K1; auto. rewrite K1; auto.
        -- intros s [<-|Hs]; [|apply I5; exact Hs]. cbn [fst]. rewrite I4; congruence.
    + rewrite E2. unfold dkeys. rewrite <- map_app.
      replace (flat_map (block (al_of m1)) done ++ block (al_of m1) (t, vs)) with (flat_map (block (al_of m1)) (done ++ [(t, vs)]))
        by (rewrite flat_map_app; cbn [flat_map]; rewrite app_nil_r; reflexivity).
      apply blocks_NoDup; auto.
      * intros s Hs. apply nodot. apply al_of_dot; auto.
      * intros s s' Hs Hs'. apply al_of_inj; auto.
Qed.
Lemma kv_args m data : wf_ns m -> nonull m -> NoDup (dkeys data) ->
  exists m', getExtensionKVArgs m data = Ok (m', flat_map (block (al_of m')) data) /\
    wf_ns m' /\ nonull m' /\ (forall t, getAlias m t <> None -> getAlias m' t = getAlias m t) /\
    (forall t, In t (dkeys data) -> getAlias m' t <> None).
Proof. intros W N D. apply (kv_loop data [] m W N D). intros t []. Qed.

Lemma dget_map_ext {V W} (f : V -> W) (l : dict text V) t : dget text_eqb t (map (fun e => (fst e, f (snd e))) l) = option_map f (dget text_eqb t l).
Proof. induction l as [|[k v] l IH]; auto. cbn [map dget fst snd]. destruct (text_eqb t k); auto. Qed.
Lemma dict_ext {V} (a : dict text V) : forall b, NoDup (dkeys a) -> dkeys a = dkeys b -> (forall t, In t (dkeys a) -> dget text_eqb t a = dget text_eqb t b) -> a = b.
Proof.
  induction a as [|[k v] a IH]; intros [|[k' v'] b] N E H; try discriminate E; auto. unfold dkeys in N, E. cbn [map fst] in N, E. injection E as <- E.
  inversion N as [|? ? N1 N2]; subst. pose proof (H k (or_introl eq_refl)) as Hk. cbn [dget] in Hk. rewrite text_eqb_refl in Hk. injection Hk as <-. f_equal.
  apply IH; auto. intros t Ht. specialize (H t (or_intror Ht)). cbn [dget] in H. destruct (text_eqb t k) eqn:Et; auto.
  apply text_eqb_eq in Et. subst. contradiction.
Qed.

Lemma new_alias_cases m t d : wf_ns m -> nonull m -> getAlias m t = None ->
  (exists m' a, new_alias m t d = (m', Ok (Al a)) /\ wf_ns m' /\ nonull m' /\ getAlias m' t = Some (Al a) /\
     (forall s, s <> t -> getAlias m' s = getAlias m s) /\ (d = Some a \/ d = None /\ exists j, a = u "ext" ++ str_of_N j)) \/
  (exists e a, d = Some a /\ new_alias m t d = (m, Raise e) /\ (e = AssertionError \/ e = InvalidNamespace) /\
     (bad_alias (Al a) = true \/ exists s, getAlias m s = Some (Al a))).
Proof.
  intros W N G. unfold new_alias. destruct d as [a|].
  - destruct (addAlias m t (Al a) false) as [m1 [b|e]] eqn:E.
    + left. pose proof (addAlias_wf _ _ _ _ _ _ W E) as W1. apply addAlias_Ok in E as (-> & _ & _ & _ & G1 & _). exists m1, a.
      split; auto. split; auto. split.
      * intros s. rewrite G1. destruct (text_eqb s t); [discriminate|apply N].
      * rewrite G1, text_eqb_refl. split; auto. split; auto. intros s Hs. rewrite G1. apply text_eqb_neq in Hs. rewrite Hs. reflexivity.
    + right. exists e, a. split; auto. destruct (addAlias_cases m t (Al a) false) as [(x & E' & X)|(E' & _)]; rewrite E in E'; [|discriminate E'].
      injection E' as -> ->. split; auto. split; auto. unfold addAlias in E. destruct (bad_alias (Al a)); auto. right.
      destruct (getNamespaceURI m (Al a)) as [s|] eqn:Gs; [exists s; apply (wn_inv _ W); exact Gs|]. rewrite G in E.
      destruct (mem_text t (implicit_ns m)) eqn:Mi; [|discriminate E]. apply mem_text_In in Mi. exfalso. apply (wn_impl _ W) in Mi. congruence.
  - left. destruct (add_total m t W) as [(b & K & _)|(_ & j & m1 & E1 & E2 & _)]; [congruence|]. exists m1, (u "ext" ++ str_of_N j). split; [exact E1|].
    pose proof (addAlias_wf _ _ _ _ _ _ W E2) as W1. split; auto. split; [exact (add_nonull m t m1 _ W N E1)|].
    apply addAlias_Ok in E2 as (_ & _ & _ & _ & G1 & _). rewrite G1, text_eqb_refl. split; auto. split; [|eauto].
    intros s Hs. rewrite G1. apply text_eqb_neq in Hs. rewrite Hs. reflexivity.
Qed.

(** The alias an attribute was given. *)
Definition alias_fits (d : option text) (a : text) : Prop := d = Some a \/ d = None /\ exists j, a = u "ext" ++ str_of_N j.
Definition fblock (A : text -> text) (e : text * attr) : dict text text :=
  (if is_one (at_count (snd e)) then [] else [(u "count." ++ A (fst e), count_text (at_count (snd e)))]) ++ [(u "type." ++ A (fst e), fst e)].
Definition req_of (A : text -> text) (l : dict text attr) : list text := map (fun e => A (fst e)) (filter (fun e => at_required (snd e)) l).
Definition avail_of (A : text -> text) (l : dict text attr) : list text := map (fun e => A (fst e)) (filter (fun e => negb (at_required (snd e))) l).
Definition mode_fr : dict text text := [(u "mode", u "fetch_request")].

Lemma fblock_keys A e k : In k (dkeys (fblock A e)) -> k = u "count." ++ A (fst e) \/ k = u "type." ++ A (fst e).
Proof. unfold fblock. destruct (is_one _); cbn; intuition. Qed.
Lemma fblock_NoDup A e : NoDup (dkeys (fblock A e)).
Proof.
  unfold fblock, dkeys. destruct (is_one _); cbn [app map fst]; repeat constructor; try (intros []; fail). intros [H|[]]. discriminate H.
Qed.
Lemma fblocks_NoDup A (d : dict text attr) : NoDup (dkeys d) -> (forall t, In t (dkeys d) -> ~ In 46 (A t)) ->
  (forall t s, In t (dkeys d) -> In s (dkeys d) -> A t = A s -> t = s) -> NoDup (dkeys mode_fr ++ dkeys (flat_map (fblock A) d)).
Proof.
  intros N D I. apply NoDup_app_iff. split; [repeat constructor; intros []|]. rewrite dkeys_flat_map. split.
  - apply (NoDup_flat_map _ owner (fun e => A (fst e))).
    + intros e _. apply fblock_NoDup.
    + intros e k He Hk. apply fblock_keys in Hk as [->| ->]; [apply owner_count|apply owner_type]; apply D; apply in_map; exact He.
    + rewrite <- (map_map fst A). apply NoDup_map_inj; auto.
  - intros k [<-|[]] K. apply in_flat_map in K as (e & _ & K). apply fblock_keys in K as [K|K]; discriminate K.
Qed.

Lemma fr_step_block m R V args t x m' a : new_alias m t (at_alias x) = (m', Ok (Al a)) -> NoDup (dkeys args ++ dkeys (fblock (fun _ => a) (t, x))) ->
  fr_step (mkFrState m R V args) (t, x) =
  Ok (mkFrState m' (if at_required x then R ++ [a] else R) (if at_required x then V else V ++ [a]) (args ++ fblock (fun _ => a) (t, x))).
Proof.
  intros E N. unfold fr_step. cbn [fs_aliases fs_required fs_if_available fs_args]. rewrite E. cbn [bind al_text]. do 2 f_equal.
  rewrite <- (dset_all _ _ N). unfold fblock. cbn [fst snd]. destruct (is_one (at_count x)); reflexivity.
Qed.
Lemma snoc_filter {X Y} (f : X -> Y) g l (x : X) : map f (filter g (l ++ [x])) = (if g x then map f (filter g l) ++ [f x] else map f (filter g l)).
Proof. rewrite filter_app. cbn [filter]. destruct (g x); rewrite map_app; cbn [map]; rewrite ?app_nil_r; reflexivity. Qed.

Lemma fr_loop attrs : forall done m, wf_ns m -> nonull m -> NoDup (dkeys (done ++ attrs)) -> (forall t, getAlias m t <> None <-> In t (dkeys done)) ->
  (forall t x, In (t, x) done -> alias_fits (at_alias x) (al_of m t)) ->
  let st m l := mkFrState m (req_of (al_of m) l) (avail_of (al_of m) l) (mode_fr ++ flat_map (fblock (al_of m)) l) in
  (exists m', foldM fr_step (st m done) attrs = Ok (st m' (done ++ attrs)) /\ wf_ns m' /\ nonull m' /\
     (forall t, In t (dkeys done) -> getAlias m' t = getAlias m t) /\ (forall t, getAlias m' t <> None <-> In t (dkeys (done ++ attrs))) /\
     (forall t x, In (t, x) (done ++ attrs) -> alias_fits (at_alias x) (al_of m' t))) \/
  (exists e t x a before after, foldM fr_step (st m done) attrs = Raise e /\ (e = AssertionError \/ e = InvalidNamespace) /\
     done ++ attrs = before ++ (t, x) :: after /\ at_alias x = Some a /\
     (bad_alias (Al a) = true \/ exists s y, In (s, y) before /\ alias_fits (at_alias y) a)).
Proof.
  induction attrs as [|[t x] attrs IH]; intros done m W N D H Fd st.
  - left. exists m. rewrite app_nil_r. split; [reflexivity|]. do 4 (split; [auto|]). exact Fd.
  - cbn [foldM].
    assert (~ In t (dkeys done)) as Nt.
    { intros K. unfold dkeys in D. rewrite map_app in D. apply NoDup_app_iff in D as (_ & _ & D). apply (D t K). left; auto. }
    destruct (new_alias_cases m t (at_alias x) W N) as [(m1 & a & E & W1 & N1 & G1 & K1 & F1)|(e & a & F1 & E & X & Y)].
    { destruct (getAlias m t) eqn:G; auto. exfalso. apply Nt. apply H. congruence. }
    2:{ right. exists e, t, x, a, done, attrs. unfold fr_step at 1, st at 1. cbn [fs_aliases]. rewrite E. cbn [bind]. split; auto. split; auto. split; auto. split; auto.
        destruct Y as [Y|(s & Y)]; auto. right. assert (In s (dkeys done)) as Hs by (apply H; congruence).
        apply in_map_iff in Hs as ([s' y] & Es & I). cbn [fst] in Es. subst s'. exists s, y. split; auto.
        replace a with (al_of m s) by (unfold al_of; rewrite Y; reflexivity). apply Fd. exact I. }
    assert (al_of m1 t = a) as At by (unfold al_of; rewrite G1; reflexivity).
    assert (forall e, In e done -> al_of m (fst e) = al_of m1 (fst e)) as Ad.
    { intros e He. unfold al_of. rewrite K1; auto. intros Et. apply Nt. rewrite <- Et. apply in_map. exact He. }
    assert (flat_map (fblock (al_of m)) done = flat_map (fblock (al_of m1)) done) as E1.
    { apply flat_map_ext_in. intros e He. unfold fblock. rewrite (Ad e He). reflexivity. }
    assert (fblock (fun _ => a) (t, x) = fblock (al_of m1) (t, x)) as E2 by (unfold fblock; cbn [fst snd]; rewrite At; reflexivity).
    assert (forall s, getAlias m1 s <> None <-> In s (dkeys (done ++ [(t, x)]))) as G.
    { intros s. unfold dkeys. rewrite map_app, in_app_iff. cbn [map fst In]. destruct (text_eqb s t) eqn:Es.
      - apply text_eqb_eq in Es. subst. split; auto. congruence.
      - apply text_eqb_neq in Es. rewrite (K1 s Es). rewrite H. unfold dkeys. intuition congruence. }
    assert (NoDup (dkeys (done ++ [(t, x)]))) as D1.
    { revert D. unfold dkeys. rewrite !map_app. cbn [map fst]. intros D. change (t :: map fst attrs) with ([t] ++ map fst attrs) in D. rewrite app_assoc in D.
      apply NoDup_app_iff in D. apply D. }
    assert (forall g, map (fun e => al_of m (fst e)) (filter g done) = map (fun e : text * attr => al_of m1 (fst e)) (filter g done)) as Am.
    { intros g. apply map_ext_in. intros e He. apply filter_In in He as [He _]. auto. }
    unfold st. rewrite E1. rewrite (fr_step_block m _ _ _ t x m1 a E).
    + cbn [bind]. rewrite E2. rewrite <- app_assoc.
      match goal with |- context [foldM fr_step ?X attrs] => replace X with (st m1 (done ++ [(t, x)])) end.
      2:{ unfold st, req_of, avail_of. rewrite !Am, !snoc_filter. cbn [fst snd]. rewrite At, flat_map_app. cbn [flat_map]. rewrite app_nil_r.
          destruct (at_required x); reflexivity. }
      destruct (IH (done ++ [(t, x)]) m1 W1 N1) as [(m2 & I1 & I2 & I3 & I4 & I5 & I6)|(e & t' & x' & a' & b1 & b2 & I1 & I2 & I3 & I4 & I5)]; auto.
      * rewrite <- app_assoc. exact D.
      * intros s y K. apply in_app_or in K as [K|[K|[]]].
        -- pose proof (Ad (s, y) K) as As. cbn [fst] in As. rewrite <- As. apply Fd. exact K.
        -- apply pair_equal_spec in K as [<- <-]. rewrite At. exact F1.
      * left. exists m2. rewrite <- app_assoc in I1, I5, I6. split; [exact I1|]. split; [exact I2|]. split; [exact I3|]. split.
        -- intros s Hs. rewrite I4 by (unfold dkeys; rewrite map_app; apply in_or_app; left; exact Hs). apply K1. intros ->. contradiction.
        -- split; [exact I5|exact I6].
      * right. exists e, t', x', a', b1, b2. rewrite <- app_assoc in I3. split; auto.
    + rewrite E2. unfold dkeys at 1. rewrite map_app. fold (dkeys mode_fr). rewrite <- app_assoc. unfold dkeys at 2. rewrite <- map_app.
      replace (flat_map (fblock (al_of m1)) done ++ fblock (al_of m1) (t, x)) with (flat_map (fblock (al_of m1)) (done ++ [(t, x)]))
        by (rewrite flat_map_app; cbn [flat_map]; rewrite app_nil_r; reflexivity).
      apply fblocks_NoDup; auto.
      * intros s Hs. apply nodot. apply al_of_dot; auto. apply G. exact Hs.
      * intros s s' Hs Hs'. apply al_of_inj; auto; apply G; auto.
Qed.

(** The arguments of a fetch request. *)
Definition fr_list (k : text) (l : list text) : dict text text := match l with [] => [] | _ => [(k, join [44] l)] end.
Lemma fetch_args_shape r : NoDup (dkeys (fr_attrs r)) ->
  (exists m, fetch_request_args r = Ok (mode_fr ++ flat_map (fblock (al_of m)) (fr_attrs r) ++ fr_list (u "required") (req_of (al_of m) (fr_attrs r)) ++
                                        fr_list (u "if_available") (avail_of (al_of m) (fr_attrs r))) /\
     wf_ns m /\ nonull m /\ (forall t, getAlias m t <> None <-> In t (dkeys (fr_attrs r))) /\
     (forall t x, In (t, x) (fr_attrs r) -> alias_fits (at_alias x) (al_of m t))) \/
  (exists e t x a before after, fetch_request_args r = Raise e /\ (e = AssertionError \/ e = InvalidNamespace) /\
     fr_attrs r = before ++ (t, x) :: after /\ at_alias x = Some a /\
     (bad_alias (Al a) = true \/ exists s y, In (s, y) before /\ alias_fits (at_alias y) a)).
Proof.
  intros N. destruct (fr_loop (fr_attrs r) [] empty_nsmap wf_ns_empty) as [(m & I1 & I2 & I3 & _ & I5 & I6)|(e & t & x & a & b1 & b2 & I1 & I2 & I3)].
  - intros t. discriminate.
  - exact N.
  - intros t. split; [intros K; exfalso; apply K; reflexivity|intros []].
  - intros t x [].
  - left. exists m. cbn [app] in I1, I5, I6. unfold fetch_request_args.
    change (foldM fr_step _ (fr_attrs r)) with (foldM fr_step (mkFrState empty_nsmap [] [] (mode_fr ++ [])) (fr_attrs r)).
    cbn [req_of avail_of filter map flat_map] in I1. rewrite I1. cbn [bind fs_required fs_if_available fs_args].
    split; [|auto]. f_equal. set (Q := req_of (al_of m) (fr_attrs r)). set (V := avail_of (al_of m) (fr_attrs r)).
    assert (forall k, In k (dkeys (mode_fr ++ flat_map (fblock (al_of m)) (fr_attrs r))) -> k <> u "required" /\ k <> u "if_available") as Nk.
    { intros k Hk. unfold dkeys in Hk. rewrite map_app in Hk. apply in_app_or in Hk as [[<-|[]]|Hk]; [split; discriminate|].
      fold (dkeys (flat_map (fblock (al_of m)) (fr_attrs r))) in Hk. rewrite dkeys_flat_map in Hk. apply in_flat_map in Hk as (e & _ & Hk).
      apply fblock_keys in Hk as [->| ->]; split; discriminate. }
    rewrite !app_assoc. set (B := mode_fr ++ flat_map (fblock (al_of m)) (fr_attrs r)) in *. clearbody Q V B.
    match goal with |- context [match Q with [] => B | t :: l => @?f t l end] => assert (match Q with [] => B | t :: l => f t l end = B ++ fr_list (u "required") Q) as Rq end.
    { destruct Q as [|q Q]; [cbn [fr_list]; rewrite app_nil_r; reflexivity|]. apply (dset_fresh text_eqb). apply (dget_None text_eqb text_eqb_eq).
      intros K. apply Nk in K. tauto. }
    destruct V as [|v V]; [cbn [fr_list]; rewrite app_nil_r; exact Rq|].
    refine (eq_trans (f_equal (dset text_eqb (u "if_available") (join [44] (v :: V))) Rq) _). apply (dset_fresh text_eqb). apply (dget_None text_eqb text_eqb_eq).
    intros K. unfold dkeys in K. rewrite map_app in K. apply in_app_or in K as [K|K]; [apply Nk in K; tauto|].
    destruct Q; cbn in K; [destruct K|destruct K as [K|[]]; discriminate K].
  - right. exists e, t, x, a, b1, b2. split; [|auto]. unfold fetch_request_args.
    change (foldM fr_step _ (fr_attrs r)) with (foldM fr_step (mkFrState empty_nsmap [] [] (mode_fr ++ [])) (fr_attrs r)).
    cbn [req_of avail_of filter map flat_map] in I1. rewrite I1. reflexivity.
Qed.

(** Checking the data of a response against the request. *)
Definition too_many (data : kv_data) (x : attr) : Prop :=
  exists z, at_count x = Num z /\ (z < Z.of_nat (match dget text_eqb (at_uri x) data with Some l => List.length l | None => 0%nat end))%Z.
Definition unanswered (data : kv_data) (attrs : dict text attr) : list text :=
  filter (fun t => negb (dhas text_eqb t data)) (dkeys attrs).
Lemma check_loop data attrs : forall done m zero, wf_ns m -> nonull m -> NoDup (dkeys (done ++ attrs)) -> (forall t x, In (t, x) attrs -> at_uri x = t) ->
  (forall t, getAlias m t <> None <-> In t (dkeys done)) -> (forall t x, In (t, x) done -> alias_fits (at_alias x) (al_of m t)) ->
  (exists m', foldM (fr_check_step data) (m, zero) attrs = Ok (m', zero ++ unanswered data attrs) /\ wf_ns m' /\ nonull m' /\
     (forall t, getAlias m' t <> None <-> In t (dkeys (done ++ attrs))) /\
     (forall t x, In (t, x) (done ++ attrs) -> alias_fits (at_alias x) (al_of m' t)) /\
     (forall t x, In (t, x) attrs -> ~ too_many data x)) \/
  (foldM (fr_check_step data) (m, zero) attrs = Raise AXError /\ exists t x, In (t, x) attrs /\ too_many data x) \/
  (exists e t x a before after, foldM (fr_check_step data) (m, zero) attrs = Raise e /\ (e = AssertionError \/ e = InvalidNamespace) /\
     done ++ attrs = before ++ (t, x) :: after /\ at_alias x = Some a /\
     (bad_alias (Al a) = true \/ exists s y, In (s, y) before /\ alias_fits (at_alias y) a)).
Proof.
  induction attrs as [|[t x] attrs IH]; intros done m zero W N D U H Fd.
  - left. exists m. cbn [foldM unanswered dkeys map filter]. rewrite !app_nil_r. do 5 (split; [auto|]). intros t x [].
  - cbn [foldM]. assert (~ In t (dkeys done)) as Nt.
    { intros K. unfold dkeys in D. rewrite map_app in D. apply NoDup_app_iff in D as (_ & _ & D). apply (D t K). left; auto. }
    pose proof (U t x (or_introl eq_refl)) as Ut.
    assert (getAlias m t = None) as Gt. { destruct (getAlias m t) eqn:G; auto. exfalso. apply Nt. apply H. congruence. }
    assert (fr_check_step data (m, zero) (t, x) =
            let (m', r) := new_alias m t (at_alias x) in
            _ <- r ;; if match at_count x with Unlimited => false | Num z => (z <? Z.of_nat (match dget text_eqb t data with Some l => List.length l | None => O end))%Z end
                      then Raise AXError else Ok (m', match dget text_eqb t data with Some _ => zero | None => zero ++ [t] end)) as Es.
    { unfold fr_check_step. cbn [fst snd]. rewrite Ut. reflexivity. }
    rewrite Es. clear Es.
    destruct (new_alias_cases m t (at_alias x) W N Gt) as [(m1 & a & E & W1 & N1 & G1 & K1 & F1)|(e & a & F1 & E & X & Y)].
    2:{ right. right. exists e, t, x, a, done, attrs. rewrite E. cbn [bind]. split; auto. split; auto. split; auto. split; auto.
        destruct Y as [Y|(s & Y)]; auto. right. assert (In s (dkeys done)) as Hs by (apply H; congruence).
        apply in_map_iff in Hs as ([s' y] & Es & I). cbn [fst] in Es. subst s'. exists s, y. split; auto.
        replace a with (al_of m s) by (unfold al_of; rewrite Y; reflexivity). apply Fd. exact I. }
    rewrite E. cbn [bind].
    assert (match at_count x with Unlimited => false | Num z => (z <? Z.of_nat (match dget text_eqb t data with Some l => List.length l | None => O end))%Z end = true <-> too_many data x) as Tm.
    { unfold too_many. rewrite Ut. destruct (at_count x) as [z|].
      - rewrite Z.ltb_lt. split; [eauto|]. intros (z' & Ez & Hz). injection Ez as ->. exact Hz.
      - split; [discriminate|]. intros (z' & Ez & _). discriminate Ez. }
    destruct (match at_count x with Unlimited => false | Num z => (z <? Z.of_nat (match dget text_eqb t data with Some l => List.length l | None => O end))%Z end).
    { right. left. split; [reflexivity|]. exists t, x. split; [left; auto|apply Tm; auto]. }
    cbn [bind].
    assert (al_of m1 t = a) as At by (unfold al_of; rewrite G1; reflexivity).
    assert (forall s y, In (s, y) done -> al_of m s = al_of m1 s) as Ad.
    { intros s y He. unfold al_of. rewrite K1; auto. intros ->. apply Nt. apply (in_map fst) in He. exact He. }
    destruct (IH (done ++ [(t, x)]) m1 (match dget text_eqb t data with Some _ => zero | None => zero ++ [t] end) W1 N1)
      as [(m2 & I1 & I2 & I3 & I4 & I5 & I6)|[(I1 & t' & x' & I2 & I3)|(e & t' & x' & a' & b1 & b2 & I1 & I2 & I3 & I4)]].
    + rewrite <- app_assoc. exact D.
    + intros s y K. apply U. right; auto.
    + intros s. unfold dkeys. rewrite map_app, in_app_iff. cbn [map fst In]. destruct (text_eqb s t) eqn:Es.
      * apply text_eqb_eq in Es. subst. split; auto. congruence.
      * apply text_eqb_neq in Es. rewrite (K1 s Es). rewrite H. unfold dkeys. intuition congruence.
    + intros s y K. apply in_app_or in K as [K|[K|[]]].
      * rewrite <- (Ad s y K). apply Fd. exact K.
      * apply pair_equal_spec in K as [<- <-]. rewrite At. exact F1.
    + left. exists m2. rewrite <- app_assoc in I4, I5. split.
      * rewrite I1. do 2 f_equal. unfold unanswered, dkeys. cbn [map fst filter]. unfold dhas at 2. destruct (dget text_eqb t data); cbn [negb]; auto. rewrite <- app_assoc. reflexivity.
      * do 4 (split; [auto|]). intros s y [K|K]; [apply pair_equal_spec in K as [<- <-]; rewrite <- Tm; discriminate|]. apply (I6 s y K).
    + right. left. split; auto. exists t', x'. split; [right; auto|auto].
    + right. right. exists e, t', x', a', b1, b2. rewrite <- app_assoc in I3. auto.
Qed.

(** The arguments written for types without values. *)
Definition zblock (A : text -> text) (t : text) : dict text text := block A (t, []).
Lemma zero_fold m zero : forall kv, NoDup (dkeys kv ++ dkeys (flat_map (zblock (al_of m)) zero)) ->
  fold_left (fun d t => let al := match getAlias m t with Some a => al_text a | None => [] end in
                        dset text_eqb (u "count." ++ al) (u "0") (dset text_eqb (u "type." ++ al) t d)) zero kv =
  kv ++ flat_map (zblock (al_of m)) zero.
Proof.
  induction zero as [|t zero IH]; intros kv N; cbn [fold_left flat_map]; [rewrite app_nil_r; reflexivity|].
  cbn [flat_map] in N. unfold dkeys in N at 2. rewrite map_app in N. fold (dkeys (zblock (al_of m) t)) in N. fold (dkeys (flat_map (zblock (al_of m)) zero)) in N.
  rewrite app_assoc in N. rewrite app_assoc.
  replace (dset text_eqb _ _ (dset _ _ _ kv)) with (kv ++ zblock (al_of m) t).
  - rewrite IH; auto. unfold dkeys at 1. rewrite map_app. exact N.
  - rewrite <- (dset_all (zblock (al_of m) t) kv) by (apply NoDup_app_iff in N; apply N). reflexivity.
Qed.
