(** C57, C99, C100: endpoints from documents (/repo/openid/consumer/discover.py,
    /repo/openid/yadis/filters.py). *)
From Coq Require Import Lia ZifyBool ZifyN ZifyNat Permutation Sorted.
From Verif Require Import Py PyFacts UrlLib Message Xri Prop_Xri Etxrd Prop_Etxrd Endpoint Discover.

Local Arguments u : simpl never.

(** ** C57: the order of services *)
(** The rank of a service: the position of the first preferred type it has. *)
Definition rank (preferred types : list text) (n : nat) : Prop :=
  (exists before t after, preferred = before ++ t :: after /\ In t types /\ (forall x, In x before -> ~ In x types) /\ n = List.length before) \/
  ((forall x, In x preferred -> ~ In x types) /\ n = List.length preferred).

Lemma best_match_rank pref types : rank pref types (best_match pref types).
Proof.
  induction pref as [|t pref IH]; cbn [best_match]; [right; split; auto|].
  destruct (mem_text t types) eqn:E.
  - apply mem_text_In in E. left. exists [], t, pref. split; [auto|]. split; [auto|]. split; [intros x []|auto].
  - apply mem_text_false in E. destruct IH as [(b & x & a & -> & H1 & H2 & H3)|(H1 & H2)].
    + left. exists (t :: b), x, a. split; [auto|]. split; [auto|]. split; [intros y [<-|Y]; auto|]. cbn. congruence.
    + right. split; [intros y [<-|Y]; auto|]. cbn. congruence.
Qed.
Lemma rank_fun pref types n m : rank pref types n -> rank pref types m -> n = m.
Proof.
  revert n m. induction pref as [|t pref IH]; intros n m.
  - intros [(b & x & a & E & _)|(_ & ->)]; [destruct b; discriminate|]. intros [(b & x & a & E & _)|(_ & ->)]; [destruct b; discriminate|auto].
  - assert (forall k, rank (t :: pref) types k -> (In t types /\ k = 0%nat) \/ (~ In t types /\ exists k', k = S k' /\ rank pref types k')) as K.
    { intros k [(b & x & a & E & H1 & H2 & ->)|(H & ->)].
      - destruct b as [|y b]; injection E as <- ->; [left; auto|]. right. split; [apply H2; left; auto|]. exists (List.length b). split; auto.
        left. exists b, x, a. split; auto. split; auto. split; auto. intros z Z. apply H2. right. auto.
      - right. split; [apply H; left; auto|]. exists (List.length pref). split; auto. right. split; auto. intros z Z. apply H. right. auto. }
    intros H1 H2. destruct (K _ H1) as [(A & ->)|(A & n' & -> & B)], (K _ H2) as [(A' & ->)|(A' & m' & -> & B')]; try tauto. f_equal. auto.
Qed.

(** A stable sort by a bounded key is the concatenation of the classes. *)
Section ByKey.
  Context {A : Type} (f : A -> nat).
  Definition key_leb (a b : A) : bool := Nat.leb (f a) (f b).
  Definition classes (from k : nat) (l : list A) : list A := flat_map (fun n => filter (fun a => Nat.eqb (f a) n) l) (seq from k).
  Lemma insert_skip x l m : Forall (fun y => (f y < f x)%nat) l -> insert key_leb x (l ++ m) = l ++ insert key_leb x m.
  Proof using. induction 1 as [|y l Hy H IH]; auto. cbn [app insert]. unfold key_leb at 1. replace (Nat.leb (f x) (f y)) with false by lia. rewrite IH. auto. Qed.
  Lemma insert_front x l : Forall (fun y => (f x <= f y)%nat) l -> insert key_leb x l = x :: l.
  Proof using. destruct 1 as [|y l Hy H]; auto. cbn [insert]. unfold key_leb. replace (Nat.leb (f x) (f y)) with true by lia. auto. Qed.
  Lemma classes_In from k l y : In y (classes from k l) -> In y l /\ (from <= f y < from + k)%nat.
  Proof using.
    unfold classes. intros H. apply in_flat_map in H as (n & Hn & H). apply filter_In in H as (H & E). apply in_seq in Hn. split; auto. lia.
  Qed.
  Lemma classes_cons_out from k x l : (f x < from \/ from + k <= f x)%nat -> classes from k (x :: l) = classes from k l.
  Proof using.
    intros H. unfold classes. rewrite !flat_map_concat_map. f_equal. apply map_ext_in. intros n Hn. apply in_seq in Hn. cbn [filter].
    replace (Nat.eqb (f x) n) with false by lia. auto.
  Qed.
  Lemma classes_split k n l : (n <= k)%nat -> classes 0 (S k) l = classes 0 n l ++ filter (fun a => Nat.eqb (f a) n) l ++ classes (S n) (k - n) l.
  Proof using.
    intros H. unfold classes. replace (S k) with (n + S (k - n))%nat by lia. rewrite seq_app, flat_map_app. cbn [seq flat_map]. auto.
  Qed.
  Lemma sort_classes k l : Forall (fun a => (f a <= k)%nat) l -> sort key_leb l = classes 0 (S k) l.
  Proof using.
    induction 1 as [|x l Hx H IH].
    - cbn [sort]. unfold classes. induction (seq 0 (S k)); auto.
    - cbn [sort]. rewrite IH, !(classes_split k (f x)) by auto. rewrite (classes_cons_out 0), (classes_cons_out (S (f x))) by lia. cbn [filter].
      rewrite Nat.eqb_refl. rewrite insert_skip.
      + rewrite insert_front; auto. apply Forall_forall. intros y Y. apply in_app_iff in Y as [Y|Y].
        * apply filter_In in Y as (_ & Y). lia.
        * apply classes_In in Y. lia.
      + apply Forall_forall. intros y Y. apply classes_In in Y. lia.
  Qed.
End ByKey.
Lemma insert_ext {A} (leb1 leb2 : A -> A -> bool) x l : (forall y, In y l -> leb1 x y = leb2 x y) -> insert leb1 x l = insert leb2 x l.
Proof.
  induction l as [|y l IH]; intros H; auto. cbn [insert]. rewrite (H y) by (left; auto). destruct (leb2 x y); auto. f_equal. apply IH.
  intros z Z. apply H. right. auto.
Qed.
Lemma sort_index (l : list (nat * nat * endpoint)) : StronglySorted (fun a b => (snd (fst a) < snd (fst b))%nat) l ->
  sort rank_leb l = sort (key_leb (fun a => fst (fst a))) l.
Proof.
  induction 1 as [|x l S IH H]; auto. cbn [sort]. rewrite IH. apply insert_ext. intros y Y. rewrite Forall_forall in H.
  assert (In y l) as Yl by (apply (sort_In (key_leb (fun a : nat * nat * endpoint => fst (fst a)))); auto). specialize (H _ Yl).
  destruct x as [[rx ix] ex], y as [[ry iy] ey]. unfold rank_leb, key_leb. cbn [fst snd] in *. lia.
Qed.
Lemma arrange_classes services pref : arrangeByType services pref = classes (fun ep => best_match pref (ep_type_uris ep)) 0 (S (List.length pref)) services.
Proof.
  unfold arrangeByType. rewrite sort_index.
  2: { generalize 0%nat. induction services as [|s l IH]; intros n; cbn [List.length seq combine map]; constructor; auto.
       clear. rewrite Forall_forall. intros x X. apply in_map_iff in X as ((i & ep) & <- & X). cbn.
       apply in_combine_l in X. apply in_seq in X. lia. }
  assert (forall types, (best_match pref types <= List.length pref)%nat) as B.
  { intros types. induction pref as [|t p IHp]; cbn; [lia|]. destruct (mem_text t types); [lia|]. specialize (IHp). lia. }
  rewrite (sort_classes _ (List.length pref)).
  2: { apply Forall_forall. intros x X. apply in_map_iff in X as (p & <- & X). cbn. apply B. }
  unfold classes. rewrite !flat_map_concat_map, concat_map, map_map. f_equal. apply map_ext. intros n. clear.
  generalize 0%nat. induction services as [|s l IH]; intros i; auto. cbn [List.length seq combine map filter fst snd].
  destruct (Nat.eqb (best_match pref (ep_type_uris s)) n); cbn [map snd]; rewrite IH; auto.
Qed.

(** Arranging by type puts together the services of rank 0, of rank 1 and so on, each class
    in its old order. *)
Theorem C57_arrange : forall services preferred,
  exists classes, arrangeByType services preferred = List.concat classes /\ List.length classes = S (List.length preferred) /\
    (forall n c, nth_error classes n = Some c -> exists has_rank, (forall ep, has_rank ep = true <-> rank preferred (ep_type_uris ep) n) /\ c = filter has_rank services) /\
    Permutation services (arrangeByType services preferred).
Proof.
  intros services pref. exists (map (fun n => filter (fun ep => Nat.eqb (best_match pref (ep_type_uris ep)) n) services) (seq 0 (S (List.length pref)))).
  split; [rewrite arrange_classes; unfold classes; apply flat_map_concat_map|]. split; [rewrite map_length, seq_length; auto|]. split.
  - intros n c H. exists (fun ep => Nat.eqb (best_match pref (ep_type_uris ep)) n). split.
    + intros ep. rewrite Nat.eqb_eq. split; [intros <-; apply best_match_rank|]. intros R. eapply rank_fun; [apply best_match_rank|auto].
    + rewrite nth_error_map in H. destruct (nth_error (seq 0 (S (List.length pref))) n) as [m|] eqn:E; [|discriminate]. cbn in H. inv H.
      assert (m = n) as ->; auto. apply nth_error_nth with (d := 0%nat) in E as E2. rewrite seq_nth in E2; [lia|].
      assert (n < List.length (seq 0 (S (List.length pref))))%nat by (apply nth_error_Some; congruence). rewrite seq_length in H. auto.
  - unfold arrangeByType. rewrite <- sort_perm. rewrite map_map. cbn. generalize 0%nat. induction services as [|s l IH]; intros n; cbn; auto.
Qed.
Print Assumptions C57_arrange.
(** Provider-identifier services come first; otherwise the order is that of the document. *)
Theorem C57_providers_first : forall services,
  getOPOrUserServices services = filter isOPIdentifier services ++ filter (fun ep => negb (isOPIdentifier ep)) services.
Proof.
  intros services. assert (arrangeByType services [OPENID_IDP_2_0_TYPE] = filter isOPIdentifier services ++ filter (fun ep => negb (isOPIdentifier ep)) services) as A.
  { rewrite arrange_classes. unfold classes. cbn [List.length seq flat_map]. rewrite app_nil_r. f_equal; apply filter_ext; intros ep; unfold isOPIdentifier; cbn [best_match];
      destruct (mem_text _ _); auto. }
  unfold getOPOrUserServices. rewrite A. destruct (_ ++ _) as [|x l] eqn:E; auto.
  assert (services = []) as ->; [|reflexivity]. destruct services as [|s r]; auto. exfalso. cbn [filter] in E. destruct (isOPIdentifier s); cbn in E; [discriminate|].
  destruct (filter isOPIdentifier r); discriminate.
Qed.
Print Assumptions C57_providers_first.
(** What an endpoint supports: the types it lists, and with a provider identifier the 2.0
    signon. *)
Theorem C57_supports : forall ep t,
  supportsType ep t = true <->
  In t (ep_type_uris ep) \/ t = u "http://specs.openid.net/auth/2.0/signon" /\ In (u "http://specs.openid.net/auth/2.0/server") (ep_type_uris ep).
Proof.
  intros ep t. unfold supportsType, isOPIdentifier. rewrite orb_true_iff, andb_true_iff, !mem_text_In, text_eqb_eq. reflexivity.
Qed.
Print Assumptions C57_supports.
Definition ep_of_type (t : text) : endpoint := mkEndpoint (Some (u "http://a/")) (Some (u "http://op/")) [t] None None true None.
Example C57_example :
  getOPOrUserServices [ep_of_type OPENID_1_1_TYPE; ep_of_type OPENID_IDP_2_0_TYPE; ep_of_type OPENID_2_0_TYPE] =
    [ep_of_type OPENID_IDP_2_0_TYPE; ep_of_type OPENID_1_1_TYPE; ep_of_type OPENID_2_0_TYPE] /\
  arrangeByType [ep_of_type OPENID_1_1_TYPE; ep_of_type (u "x"); ep_of_type OPENID_2_0_TYPE] openid_type_uris =
    [ep_of_type OPENID_2_0_TYPE; ep_of_type OPENID_1_1_TYPE; ep_of_type (u "x")].
Proof. split; vm_compute; reflexivity. Qed.

Example C57_supports_example :
  map (supportsType (ep_of_type OPENID_IDP_2_0_TYPE)) openid_type_uris = [true; true; false; false] /\
  map (supportsType (ep_of_type OPENID_1_1_TYPE)) openid_type_uris = [false; false; true; false].
Proof. split; vm_compute; reflexivity. Qed.

(** ** C99 (refuted): the order documented for getOPOrUserServices *)
(** "Extract OP Identifier services.  If none found, return the rest, sorted with most
    preferred first according to OpenIDServiceEndpoint.openid_type_uris." *)
Definition documented_order (services result : list endpoint) : Prop :=
  (exists op, In op services /\ isOPIdentifier op = true) -> forall ep, In ep result -> isOPIdentifier ep = true.
Definition documented_preference (services result : list endpoint) : Prop :=
  (forall op, In op services -> isOPIdentifier op = false) -> StronglySorted (fun a b => (best_match openid_type_uris (ep_type_uris a) <= best_match openid_type_uris (ep_type_uris b))%nat) result.
Theorem C99_only_providers_refuted : exists services, ~ documented_order services (getOPOrUserServices services).
Proof.
  exists [ep_of_type OPENID_2_0_TYPE; ep_of_type OPENID_IDP_2_0_TYPE]. intros H.
  assert (isOPIdentifier (ep_of_type OPENID_2_0_TYPE) = true) as X; [|vm_compute in X; discriminate X]. apply H.
  - exists (ep_of_type OPENID_IDP_2_0_TYPE). split; [right; left; reflexivity|vm_compute; reflexivity].
  - rewrite C57_providers_first. apply in_app_iff. right. vm_compute. left. reflexivity.
Qed.
Print Assumptions C99_only_providers_refuted.
Theorem C99_preferred_first_refuted : exists services, ~ documented_preference services (getOPOrUserServices services).
Proof.
  exists [ep_of_type OPENID_1_1_TYPE; ep_of_type OPENID_2_0_TYPE]. intros H.
  assert (forall op, In op [ep_of_type OPENID_1_1_TYPE; ep_of_type OPENID_2_0_TYPE] -> isOPIdentifier op = false) as K
    by (intros op [<-|[<-|[]]]; vm_compute; reflexivity).
  specialize (H K). vm_compute in H. inversion H as [|a l S F]; subst. inversion F as [|b l' L F']; subst. inversion L as [|m L2]; subst. inversion L2.
Qed.
Print Assumptions C99_preferred_first_refuted.

(** ** C100: the local identifier of a service *)
Definition local_id_elements (service : xel) (types : list text) : list xel :=
  (if mem_text (u "http://openid.net/signon/1.1") types || mem_text (u "http://openid.net/signon/1.0") types
   then filter (fun c => text_eqb (x_tag c) (u "{http://openid.net/xmlns/1.0}Delegate")) (x_children service) else []) ++
  (if mem_text (u "http://specs.openid.net/auth/2.0/signon") types
   then filter (fun c => text_eqb (x_tag c) (u "{xri://$xrd*($v*2.0)}LocalID")) (x_children service) else []).
(** Elements without text in front are ignored; after them all must have the same text. *)
Definition agreed (els : list xel) (l : option text) : Prop :=
  exists blank rest, els = blank ++ rest /\ Forall (fun e => x_text e = None) blank /\
    match l with None => rest = [] | Some t => rest <> [] /\ Forall (fun e => x_text e = Some t) rest end.
Lemma same_text_some els l : same_text els (Some l) = if forallb (fun e => opt_eqb text_eqb (Some l) (x_text e)) els then Ok (Some l) else Raise DiscoveryFailure.
Proof. induction els as [|e r IH]; auto. cbn [same_text forallb]. destruct (opt_eqb text_eqb (Some l) (x_text e)); auto. Qed.
Lemma same_text_spec els : match same_text els None with
  | Ok l => agreed els l
  | Raise x => x = DiscoveryFailure /\ forall l, ~ agreed els l end.
Proof.
  induction els as [|e r IH]; cbn [same_text]; [exists [], []; auto|]. destruct (x_text e) as [t|] eqn:E.
  - rewrite same_text_some. assert (forall k, forallb (fun e => opt_eqb text_eqb (Some t) (x_text e)) k = true <-> Forall (fun e => x_text e = Some t) k) as K.
    { intros k. rewrite forallb_forall, Forall_forall. split; intros H x X; specialize (H x X).
      - symmetry. apply (opt_eqb_eq text_eqb text_eqb_eq). auto.
      - apply (opt_eqb_eq text_eqb text_eqb_eq). auto. }
    destruct (forallb _ r) eqn:F.
    + exists [], (e :: r). split; auto. split; auto. split; [discriminate|]. constructor; auto. apply K. auto.
    + split; auto. intros l (b & rest & Eq & B & H). destruct b as [|y b].
      * cbn in Eq. subst rest. destruct l as [t'|]; [|discriminate H]. destruct H as (_ & H). inversion H as [|e' r' H1 H2]; subst.
        rewrite E in H1. injection H1 as <-. apply K in H2. congruence.
      * injection Eq as <- _. inversion B; congruence.
  - destruct (same_text r None) as [l|x].
    + destruct IH as (b & rest & -> & B & H). exists (e :: b), rest. auto.
    + destruct IH as (-> & IH). split; auto. intros l (b & rest & Eq & B & H). destruct b as [|y b].
      * cbn in Eq. subst rest. destruct l as [t'|]; [|discriminate H]. destruct H as (_ & H). inversion H. congruence.
      * injection Eq as <- ->. inversion B; subst. apply (IH l). exists b, rest. auto.
Qed.
(** Discovery of a service that names two different local identifiers fails. *)
Theorem C100_local_identifier : forall service types,
  match findOPLocalIdentifier service types with
  | Ok l => agreed (local_id_elements service types) l
  | Raise x => x = DiscoveryFailure /\ forall l, ~ agreed (local_id_elements service types) l
  end.
Proof.
  intros service types. exact (same_text_spec (local_id_elements service types)).
Qed.
Print Assumptions C100_local_identifier.
Theorem C100_agreed_is_a_function : forall els l l', agreed els l -> agreed els l' -> l = l'.
Proof.
  assert (forall els l l', agreed els l -> agreed els l' -> l = None -> l' = None) as K.
  { intros els l l' (b & r & -> & B & H) (b' & r' & E & B' & H') ->. subst r. destruct l' as [t|]; auto. destruct H' as (N & H'). exfalso.
    rewrite app_nil_r in E. subst b. apply Forall_app in B as (_ & B). destruct r' as [|x r']; [auto|]. inversion B; inversion H'; congruence. }
  intros els [t|] [t'|] H H'.
  - destruct H as (b & r & -> & B & N & H), H' as (b' & r' & E & B' & N' & H'). f_equal.
    destruct r as [|x r]; [contradiction|]. destruct r' as [|x' r'] using rev_ind; [contradiction|].
    assert (In x' (b ++ x :: r)) as I by (rewrite E; apply in_app_iff; right; apply in_app_iff; right; left; auto).
    assert (x_text x' = Some t') as X by (apply Forall_app in H' as (_ & H'); inversion H'; auto).
    apply in_app_iff in I as [I|I].
    + rewrite Forall_forall in B. specialize (B _ I). congruence.
    + rewrite Forall_forall in H. specialize (H _ I). congruence.
  - discriminate (K _ _ _ H' H eq_refl).
  - symmetry. discriminate (K _ _ _ H H' eq_refl).
  - auto.
Qed.
Print Assumptions C100_agreed_is_a_function.
Definition sv (children : list xel) : xel := mkXel service_tag [] None children.
Definition el (tag : text) (t : text) : xel := mkXel tag [] (Some t) [].
Example C100_example :
  findOPLocalIdentifier (sv [el (u "{http://openid.net/xmlns/1.0}Delegate") (u "a"); el (u "{xri://$xrd*($v*2.0)}LocalID") (u "a")]) [OPENID_2_0_TYPE; OPENID_1_1_TYPE] = Ok (Some (u "a")) /\
  findOPLocalIdentifier (sv [el (u "{http://openid.net/xmlns/1.0}Delegate") (u "a"); el (u "{xri://$xrd*($v*2.0)}LocalID") (u "b")]) [OPENID_2_0_TYPE; OPENID_1_1_TYPE] = Raise DiscoveryFailure /\
  findOPLocalIdentifier (sv [el (u "{http://openid.net/xmlns/1.0}Delegate") (u "a"); el (u "{xri://$xrd*($v*2.0)}LocalID") (u "b")]) [OPENID_2_0_TYPE] = Ok (Some (u "b")).
Proof. vm_compute. auto. Qed.
