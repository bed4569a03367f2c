(** Lemmas about the Python primitives of [Py]. *)
From Coq Require Import Lia ZifyBool Permutation Sorted DecimalFacts.
From Coq Require Decimal DecimalN.
From Verif Require Import Py.

Ltac inv H := inversion H; subst; clear H.

Lemma bind_Ok {A B} (m : res A) (k : A -> res B) b :
  bind m k = Ok b -> exists a, m = Ok a /\ k a = Ok b.
Proof. destruct m; simpl; intros H; [eauto | discriminate]. Qed.

Ltac binv H :=
  let a := fresh "a" in let E := fresh "E" in
  apply bind_Ok in H; destruct H as (a & E & H).

(** ** Equality *)
Lemma list_eqb_eq {A} (eqb : A -> A -> bool) :
  (forall x y, eqb x y = true <-> x = y) ->
  forall a b, list_eqb eqb a b = true <-> a = b.
Proof.
  intros He; induction a as [|x a IH]; destruct b as [|y b]; simpl; split; intros H;
    try discriminate; auto.
  - apply andb_prop in H as [H1 H2]. apply He in H1. apply IH in H2. congruence.
  - inversion H; subst. rewrite (proj2 (He y y) eq_refl), (proj2 (IH b) eq_refl). reflexivity.
Qed.

Lemma text_eqb_eq a b : text_eqb a b = true <-> a = b.
Proof. apply list_eqb_eq. intros; apply N.eqb_eq. Qed.

Lemma text_eqb_refl a : text_eqb a a = true.
Proof. apply text_eqb_eq; reflexivity. Qed.

Lemma text_eqb_neq a b : text_eqb a b = false <-> a <> b.
Proof.
  split; intros H.
  - intros ->. rewrite text_eqb_refl in H. discriminate.
  - destruct (text_eqb a b) eqn:E; auto. apply text_eqb_eq in E. contradiction.
Qed.

Lemma text_eqb_sym a b : text_eqb a b = text_eqb b a.
Proof.
  destruct (text_eqb a b) eqn:E; symmetry.
  - apply text_eqb_eq in E. subst. apply text_eqb_refl.
  - apply text_eqb_neq in E. apply text_eqb_neq. congruence.
Qed.

Lemma text_eq_dec (a b : text) : {a = b} + {a <> b}.
Proof.
  destruct (text_eqb a b) eqn:E; [left; apply text_eqb_eq | right; apply text_eqb_neq]; auto.
Qed.

Lemma opt_eqb_eq {A} (eqb : A -> A -> bool) :
  (forall x y, eqb x y = true <-> x = y) ->
  forall a b, opt_eqb eqb a b = true <-> a = b.
Proof.
  intros He [a|] [b|]; simpl; split; intros H; try discriminate; auto.
  - f_equal. apply He; auto.
  - apply He. congruence.
Qed.

Lemma truthy_true s : truthy s = true <-> s <> [].
Proof. destruct s; simpl; split; congruence. Qed.
Lemma truthy_false s : truthy s = false <-> s = [].
Proof. destruct s; simpl; split; congruence. Qed.

Lemma memc_In c s : memc c s = true <-> In c s.
Proof.
  unfold memc. rewrite existsb_exists. split.
  - intros (x & Hx & E). apply N.eqb_eq in E. subst; auto.
  - intros H; exists c; split; auto. apply N.eqb_refl.
Qed.
Lemma memc_false c s : memc c s = false <-> ~ In c s.
Proof.
  rewrite <- memc_In. destruct (memc c s); split; intros; try congruence; try tauto.
Qed.
Lemma memc_app c a b : memc c (a ++ b) = memc c a || memc c b.
Proof. unfold memc. apply existsb_app. Qed.

Lemma mem_text_In x l : mem_text x l = true <-> In x l.
Proof.
  unfold mem_text. rewrite existsb_exists. split.
  - intros (y & Hy & E). apply text_eqb_eq in E. subst; auto.
  - intros H; exists x; split; auto. apply text_eqb_refl.
Qed.
Lemma mem_text_false x l : mem_text x l = false <-> ~ In x l.
Proof.
  rewrite <- mem_text_In. destruct (mem_text x l); split; intros; try congruence; try tauto.
Qed.

(** ** Ordering of texts *)
Lemma text_leb_refl a : text_leb a a = true.
Proof.
  induction a as [|x a IH]; simpl; auto.
  rewrite N.ltb_irrefl, N.eqb_refl. auto.
Qed.
Lemma text_leb_total a b : text_leb a b = true \/ text_leb b a = true.
Proof.
  revert b; induction a as [|x a IH]; intros [|y b]; simpl; auto.
  destruct (x <? y) eqn:E1; auto. destruct (y <? x) eqn:E2; auto.
  assert (x = y) by lia. subst. rewrite N.eqb_refl. auto.
Qed.
Lemma text_leb_antisym a b : text_leb a b = true -> text_leb b a = true -> a = b.
Proof.
  revert b; induction a as [|x a IH]; intros [|y b]; simpl; auto; try discriminate.
  destruct (x <? y) eqn:E1; destruct (y <? x) eqn:E2; try lia.
  - destruct (y =? x) eqn:E3; intros; try discriminate; lia.
  - destruct (x =? y) eqn:E3; intros; try discriminate; lia.
  - assert (x = y) by lia. subst. rewrite N.eqb_refl. intros; f_equal; auto.
Qed.
Lemma text_leb_trans a b c : text_leb a b = true -> text_leb b c = true -> text_leb a c = true.
Proof.
  revert b c; induction a as [|x a IH]; intros [|y b] [|z c]; simpl; auto; try discriminate.
  destruct (x <? y) eqn:E1; destruct (y <? z) eqn:E2; destruct (x <? z) eqn:E3; auto; try lia.
  - destruct (y =? z) eqn:E4; intros; try discriminate; lia.
  - destruct (x =? y) eqn:E4; intros; try discriminate; lia.
  - destruct (x =? y) eqn:E4; destruct (y =? z) eqn:E5; destruct (x =? z) eqn:E6;
      try discriminate; try lia. apply IH.
Qed.

(** ** startswith / endswith *)
Lemma startswith_spec s p : startswith s p = true <-> exists r, s = p ++ r.
Proof.
  revert s; induction p as [|y p IH]; intros s; simpl.
  - split; eauto.
  - destruct s as [|x s].
    + split; [discriminate | intros (r & H); discriminate].
    + rewrite andb_true_iff, IH. split.
      * intros (E & r & ->). apply N.eqb_eq in E. subst. eauto.
      * intros (r & H). inv H. split; [apply N.eqb_refl | eauto].
Qed.
Lemma startswith_app p r : startswith (p ++ r) p = true.
Proof. apply startswith_spec; eauto. Qed.
Lemma endswith_spec s p : endswith s p = true <-> exists r, s = r ++ p.
Proof.
  unfold endswith. rewrite startswith_spec. split; intros (r & H).
  - exists (rev r). rewrite <- (rev_involutive s), H, rev_app_distr, rev_involutive. auto.
  - exists (rev r). subst. rewrite rev_app_distr. auto.
Qed.

(** ** cut *)
Lemma cut_Some c s a b : cut c s = Some (a, b) <-> s = a ++ c :: b /\ ~ In c a.
Proof.
  revert a b; induction s as [|x s IH]; intros a b; simpl.
  - split; [discriminate|]. intros (H & _). destruct a; discriminate.
  - destruct (x =? c) eqn:E.
    + apply N.eqb_eq in E. subst. split.
      * intros H; inv H. auto.
      * intros (H & Hn). destruct a as [|y a]; simpl in H; inv H; auto.
        exfalso; apply Hn; left; auto.
    + apply N.eqb_neq in E. destruct (cut c s) as [[a' b']|] eqn:C.
      * split.
        -- intros H; inv H. destruct (proj1 (IH a' b) eq_refl) as (-> & Hn).
           split; auto. intros [->|]; auto.
        -- intros (H & Hn). destruct a as [|y a]; simpl in H; inv H; [congruence|].
           assert (Some (a', b') = Some (a, b)) as K.
           { apply IH. split; auto. intros ?; apply Hn; right; auto. }
           inv K; auto.
      * split; [discriminate|]. intros (H & Hn).
        destruct a as [|y a]; simpl in H; inv H; [congruence|].
        exfalso. assert (@None (text*text) = Some (a, b)) as K; [|discriminate].
        apply IH. split; auto. intros ?; apply Hn; right; auto.
Qed.
Lemma cut_None c s : cut c s = None <-> ~ In c s.
Proof.
  destruct (cut c s) as [[a b]|] eqn:E.
  - apply cut_Some in E as (-> & _). split; [discriminate|].
    intros H; exfalso; apply H, in_elt.
  - split; auto. intros _ Hin. apply in_split in Hin as (l1 & l2 & ->).
    revert E. induction l1 as [|x l1 IH]; simpl.
    + rewrite N.eqb_refl. discriminate.
    + destruct (x =? c); [discriminate|]. destruct (cut c (l1 ++ c :: l2)) as [[? ?]|]; [discriminate|]. auto.
Qed.
Lemma cut_app c a b : ~ In c a -> cut c (a ++ c :: b) = Some (a, b).
Proof. intros; apply cut_Some; auto. Qed.

Lemma rcut_Some c s a b : rcut c s = Some (a, b) <-> s = a ++ c :: b /\ ~ In c b.
Proof.
  unfold rcut. destruct (cut c (rev s)) as [[x y]|] eqn:E.
  - apply cut_Some in E as (E & Hn). split.
    + intros H; inv H. split.
      * rewrite <- (rev_involutive s), E, rev_app_distr. simpl. rewrite <- app_assoc. auto.
      * rewrite <- in_rev. auto.
    + intros (-> & Hb). rewrite rev_app_distr in E. simpl in E. rewrite <- app_assoc in E.
      simpl in E. assert (cut c (rev b ++ c :: rev a) = Some (x, y)) as K.
      { apply cut_Some. auto. }
      rewrite cut_app in K by (rewrite <- in_rev; auto). inv K.
      rewrite !rev_involutive. auto.
  - apply cut_None in E. rewrite <- in_rev in E. split; [discriminate|].
    intros (-> & _). exfalso; apply E, in_elt.
Qed.
Lemma rcut_None c s : rcut c s = None <-> ~ In c s.
Proof.
  unfold rcut. rewrite (in_rev s). destruct (cut c (rev s)) as [[a b]|] eqn:E.
  - split; [discriminate|]. intros H. apply cut_None in H. congruence.
  - apply cut_None in E. tauto.
Qed.

(** ** splitc / join *)
Lemma splitc_nonempty c s : splitc c s <> [].
Proof. destruct s as [|x s]; simpl; [discriminate|]. destruct (x =? c); [discriminate|]. destruct (splitc c s); discriminate. Qed.

Lemma splitc_nin c s : ~ In c s -> splitc c s = [s].
Proof.
  induction s as [|x s IH]; simpl; auto. intros H.
  destruct (x =? c) eqn:E. { apply N.eqb_eq in E. exfalso; auto. }
  rewrite IH; auto.
Qed.

Lemma splitc_app c a b : ~ In c a -> splitc c (a ++ c :: b) = a :: splitc c b.
Proof.
  induction a as [|x a IH]; simpl; intros H.
  - rewrite N.eqb_refl. auto.
  - destruct (x =? c) eqn:E. { apply N.eqb_eq in E. exfalso; auto. }
    rewrite IH; auto.
Qed.

Lemma splitc_join c ps :
  ps <> [] -> Forall (fun p => ~ In c p) ps -> splitc c (join [c] ps) = ps.
Proof.
  intros Hne HF. induction HF as [|p ps Hp HF IH]; [congruence|].
  destruct ps as [|q ps].
  - simpl. apply splitc_nin; auto.
  - change (join [c] (p :: q :: ps)) with (p ++ c :: join [c] (q :: ps)).
    rewrite splitc_app by auto. rewrite IH; congruence.
Qed.

Lemma splitc_pieces c s : Forall (fun p => ~ In c p) (splitc c s).
Proof.
  induction s as [|x s IH]; simpl.
  - constructor; auto.
  - destruct (x =? c) eqn:E.
    + constructor; auto.
    + destruct (splitc c s) as [|p ps].
      * constructor; auto. simpl. intros [->|[]]. rewrite N.eqb_refl in E; discriminate.
      * inv IH. constructor; auto. simpl. intros [->|]; auto. rewrite N.eqb_refl in E; discriminate.
Qed.

Lemma join_splitc c s : join [c] (splitc c s) = s.
Proof.
  induction s as [|x s IH]; simpl; auto.
  destruct (x =? c) eqn:E.
  - apply N.eqb_eq in E. subst. pose proof (splitc_nonempty c s).
    destruct (splitc c s) as [|p ps] eqn:K; [congruence|].
    change (join [c] ([] :: p :: ps)) with (c :: join [c] (p :: ps)). rewrite IH. auto.
  - pose proof (splitc_nonempty c s). destruct (splitc c s) as [|p ps]; [congruence|].
    destruct ps; simpl in *; congruence.
Qed.

Lemma splitc_inj c a b : splitc c a = splitc c b -> a = b.
Proof. intros H. rewrite <- (join_splitc c a), H. apply join_splitc. Qed.

Lemma splitc_length_app c a b :
  splitc c (a ++ b) = removelast (splitc c a) ++ (last (splitc c a) [] ++ hd [] (splitc c b)) :: tl (splitc c b).
Proof.
  induction a as [|x a IH]; simpl.
  - pose proof (splitc_nonempty c b). destruct (splitc c b); [congruence|]. auto.
  - rewrite IH. pose proof (splitc_nonempty c a). destruct (splitc c a) as [|p ps]; [congruence|].
    destruct (x =? c).
    + simpl. destruct ps; auto.
    + destruct ps; simpl; auto.
Qed.

(** ** strip *)
Lemma lstripf_idem f s : lstripf f (lstripf f s) = lstripf f s.
Proof.
  induction s as [|x s IH]; simpl; auto. destruct (f x) eqn:E; auto. simpl. rewrite E. auto.
Qed.
Lemma lstripf_split f s : exists l, s = l ++ lstripf f s /\ forallb f l = true.
Proof.
  induction s as [|x s (l & E & H)]; simpl.
  - exists []; auto.
  - destruct (f x) eqn:Ex.
    + exists (x :: l). simpl. rewrite Ex, H, <- E. auto.
    + exists []; auto.
Qed.
Lemma lstripf_hd f s x r : lstripf f s = x :: r -> f x = false.
Proof.
  induction s as [|y s IH]; simpl; [discriminate|]. destruct (f y) eqn:E; auto. intros H; inv H; auto.
Qed.
Lemma lstripf_app f s t x r : lstripf f s = x :: r -> lstripf f (s ++ t) = lstripf f s ++ t.
Proof.
  induction s as [|y s IH]; simpl; [discriminate|]. destruct (f y); auto.
Qed.
Lemma lstripf_nil f s : lstripf f s = [] <-> forallb f s = true.
Proof.
  induction s as [|y s IH]; simpl; [tauto|]. destruct (f y); simpl; auto. split; discriminate.
Qed.
Lemma lstripf_fix f s : match s with [] => True | x :: _ => f x = false end -> lstripf f s = s.
Proof. destruct s; simpl; auto. intros ->; auto. Qed.

(** A text is clean when it neither starts nor ends with a stripped character. *)
Definition clean (f : N -> bool) (s : text) : Prop :=
  match s with [] => True | x :: _ => f x = false end /\
  match rev s with [] => True | x :: _ => f x = false end.

Lemma stripf_clean f s : clean f s -> stripf f s = s.
Proof.
  intros (H1 & H2). unfold stripf. rewrite (lstripf_fix f s) by auto.
  rewrite (lstripf_fix f (rev s)) by auto. apply rev_involutive.
Qed.

Lemma clean_stripf f s : clean f (stripf f s).
Proof.
  unfold stripf. destruct (lstripf f s) as [|x r] eqn:E; [split; simpl; auto|].
  pose proof (lstripf_hd _ _ _ _ E) as Hx.
  destruct (lstripf_split f (rev (x :: r))) as (l & Hl & Hf).
  destruct (lstripf f (rev (x :: r))) as [|y t] eqn:E2.
  - split; simpl; auto.
  - pose proof (lstripf_hd _ _ _ _ E2) as Hy. split.
    + assert (x :: r = rev (y :: t) ++ rev l) as K.
      { rewrite <- rev_app_distr, <- Hl, rev_involutive. auto. }
      destruct (rev (y :: t)) as [|z w] eqn:E3.
      * apply (f_equal (@length N)) in E3. rewrite rev_length in E3. discriminate.
      * simpl in K. inv K. auto.
    + rewrite rev_involutive. auto.
Qed.

Lemma stripf_idem f s : stripf f (stripf f s) = stripf f s.
Proof. apply stripf_clean, clean_stripf. Qed.

Lemma stripf_fix_iff f s : stripf f s = s <-> clean f s.
Proof.
  split; [|apply stripf_clean]. intros H. rewrite <- H. apply clean_stripf.
Qed.

Lemma strip_idem s : strip (strip s) = strip s.
Proof. apply stripf_idem. Qed.

Lemma stripf_In f s x : In x (stripf f s) -> In x s.
Proof.
  unfold stripf. rewrite <- in_rev. intros H.
  destruct (lstripf_split f (rev (lstripf f s))) as (l & E & _).
  assert (In x (rev (lstripf f s))) as K. { rewrite E. apply in_or_app; auto. }
  apply in_rev in K. destruct (lstripf_split f s) as (l' & E' & _).
  rewrite E'. apply in_or_app; auto.
Qed.

Lemma stripf_nil f s : stripf f s = [] <-> forallb f s = true.
Proof.
  unfold stripf. split.
  - intros H. apply (f_equal (@rev N)) in H. rewrite rev_involutive in H. simpl in H.
    apply lstripf_nil in H. destruct (lstripf f s) as [|x r] eqn:E; [apply lstripf_nil; auto|].
    pose proof (lstripf_hd _ _ _ _ E) as Hx. exfalso.
    simpl in H. rewrite forallb_app in H. simpl in H. rewrite Hx in H.
    rewrite andb_false_r in H. discriminate.
  - intros H. apply lstripf_nil in H. rewrite H. auto.
Qed.

Lemma stripf_split f s : exists l r, s = l ++ stripf f s ++ r /\ forallb f l = true /\ forallb f r = true.
Proof.
  destruct (lstripf_split f s) as (l & E & Hl).
  destruct (lstripf_split f (rev (lstripf f s))) as (r & E2 & Hr).
  exists l, (rev r). repeat split; auto.
  - unfold stripf. rewrite <- rev_app_distr, <- E2, rev_involutive. auto.
  - rewrite forallb_forall in *. intros x Hx. apply Hr. apply in_rev; auto.
Qed.

(** ** str(int) / int(str) *)
Lemma uint_text_digits d : d <> Decimal.Nil -> digits (uint_text d) = Some d.
Proof.
  induction d; intros H; try congruence; simpl;
    destruct d; try reflexivity; simpl in *;
    rewrite IHd by discriminate; reflexivity.
Qed.

Definition isdigit (c : N) : bool := (48 <=? c) && (c <=? 57).

Lemma uint_text_isdigit d : forallb isdigit (uint_text d) = true.
Proof. induction d; simpl; auto. Qed.

Lemma to_uint_nonnil n : N.to_uint n <> Decimal.Nil.
Proof.
  intros H. pose proof (DecimalN.Unsigned.to_of (N.to_uint n)) as K.
  rewrite DecimalN.Unsigned.of_to in K. rewrite H in K. discriminate.
Qed.

Lemma str_of_N_digits n : digits (str_of_N n) = Some (N.to_uint n).
Proof. apply uint_text_digits, to_uint_nonnil. Qed.

Lemma str_of_N_inj a b : str_of_N a = str_of_N b -> a = b.
Proof.
  intros H. apply (f_equal digits) in H. rewrite !str_of_N_digits in H.
  injection H as H. rewrite <- (DecimalN.Unsigned.of_to a), H. apply DecimalN.Unsigned.of_to.
Qed.

Lemma str_of_N_isdigit n : forallb isdigit (str_of_N n) = true.
Proof. apply uint_text_isdigit. Qed.

Lemma str_of_N_nonnil n : str_of_N n <> [].
Proof.
  unfold str_of_N. pose proof (to_uint_nonnil n). destruct (N.to_uint n); simpl; congruence.
Qed.

Lemma isdigit_not_space c : isdigit c = true -> isspace c = false.
Proof. unfold isdigit, isspace. lia. Qed.

Lemma clean_all f s : (forall x, In x s -> f x = false) -> clean f s.
Proof.
  intros H. split.
  - destruct s; auto. apply H; left; auto.
  - destruct (rev s) eqn:E; auto. apply H. apply in_rev. rewrite E. left; auto.
Qed.

Lemma strip_digits s : forallb isdigit s = true -> strip s = s.
Proof.
  intros H. apply stripf_clean, clean_all. intros x Hx.
  rewrite forallb_forall in H. apply isdigit_not_space; auto.
Qed.

Lemma str_of_Z_strip z : strip (str_of_Z z) = str_of_Z z.
Proof.
  apply stripf_clean, clean_all. intros x Hx. destruct z; simpl in Hx.
  - destruct Hx as [<-|[]]. reflexivity.
  - pose proof (str_of_N_isdigit (Npos p)) as H. rewrite forallb_forall in H.
    apply isdigit_not_space; auto.
  - destruct Hx as [<-|Hx]; [reflexivity|].
    pose proof (str_of_N_isdigit (Npos p)) as H. rewrite forallb_forall in H.
    apply isdigit_not_space; auto.
Qed.

Lemma str_of_Z_no c z : isdigit c = false -> c <> 45 -> ~ In c (str_of_Z z).
Proof.
  intros Hd Hm Hin. destruct z; simpl in Hin.
  - destruct Hin as [<-|[]]. discriminate.
  - pose proof (str_of_N_isdigit (Npos p)) as H. rewrite forallb_forall in H.
    rewrite H in Hd; auto; discriminate.
  - destruct Hin as [<-|Hin]; [congruence|].
    pose proof (str_of_N_isdigit (Npos p)) as H. rewrite forallb_forall in H.
    rewrite H in Hd; auto; discriminate.
Qed.

Lemma int_of_digits s d :
  forallb isdigit s = true -> digits s = Some d -> int_of_text s = Ok (Z.of_N (N.of_uint d)).
Proof.
  intros Hd Hs. unfold int_of_text. rewrite strip_digits by auto.
  destruct s as [|c s]; [discriminate|]. simpl in Hd. apply andb_prop in Hd as [Hc _].
  unfold isdigit in Hc.
  assert ((c =? 45) = false /\ (c =? 43) = false) as [H1 H2] by lia.
  rewrite H1, H2. unfold nat_of_digits. rewrite Hs. auto.
Qed.

Lemma int_of_str z : int_of_text (str_of_Z z) = Ok z.
Proof.
  destruct z.
  - reflexivity.
  - simpl str_of_Z. rewrite (int_of_digits _ (N.to_uint (Npos p))).
    + rewrite DecimalN.Unsigned.of_to. reflexivity.
    + apply str_of_N_isdigit.
    + apply str_of_N_digits.
  - unfold int_of_text. rewrite str_of_Z_strip. simpl. unfold nat_of_digits.
    rewrite str_of_N_digits, DecimalN.Unsigned.of_to. reflexivity.
Qed.

Lemma str_of_Z_inj a b : str_of_Z a = str_of_Z b -> a = b.
Proof. intros H. apply (f_equal int_of_text) in H. rewrite !int_of_str in H. congruence. Qed.

(** ** mapM / foldM *)
Lemma mapM_Ok_Forall2 {A B} (f : A -> res B) l r :
  mapM f l = Ok r <-> Forall2 (fun a b => f a = Ok b) l r.
Proof.
  revert r; induction l as [|x l IH]; simpl; intros r; split; intros H.
  - inv H. constructor.
  - inv H. auto.
  - binv H. binv H. inv H. constructor; auto. apply IH; auto.
  - inv H. rewrite H2. simpl. apply IH in H4. rewrite H4. auto.
Qed.

Lemma mapM_app {A B} (f : A -> res B) l1 l2 :
  mapM f (l1 ++ l2) = (a <- mapM f l1 ;; b <- mapM f l2 ;; Ok (a ++ b)).
Proof.
  induction l1 as [|x l1 IH]; simpl.
  - destruct (mapM f l2); auto.
  - destruct (f x); simpl; auto. rewrite IH. destruct (mapM f l1); simpl; auto.
    destruct (mapM f l2); simpl; auto.
Qed.

Lemma mapM_ext {A B} (f g : A -> res B) l :
  (forall x, In x l -> f x = g x) -> mapM f l = mapM g l.
Proof.
  induction l as [|x l IH]; simpl; intros H; auto.
  rewrite (H x) by auto. destruct (g x); simpl; auto. rewrite IH; auto.
Qed.

(** ** Dictionaries *)
Section DictFacts.
  Context {K V : Type} (eqb : K -> K -> bool).
  Hypothesis eqb_eq : forall a b, eqb a b = true <-> a = b.
  Notation get := (@dget K V eqb).
  Notation set := (@dset K V eqb).
  Notation del := (@ddel K V eqb).

  Lemma eqb_refl' a : eqb a a = true.
  Proof using eqb_eq. apply eqb_eq; auto. Qed.
  Lemma eqb_neq' a b : a <> b -> eqb a b = false.
  Proof using eqb_eq. intros H. destruct (eqb a b) eqn:E; auto. apply eqb_eq in E. congruence. Qed.

  Lemma dget_dset_same k v d : get k (set k v d) = Some v.
  Proof using eqb_eq.
    induction d as [|[k' v'] d IH]; simpl; [rewrite eqb_refl'; auto|].
    destruct (eqb k k') eqn:E; simpl; rewrite E; auto.
  Qed.
  Lemma dget_dset_other k k' v d : k' <> k -> get k' (set k v d) = get k' d.
  Proof using eqb_eq.
    intros H. induction d as [|[k2 v2] d IH]; simpl.
    - rewrite eqb_neq'; auto.
    - destruct (eqb k k2) eqn:E; simpl.
      + apply eqb_eq in E. subst. rewrite !eqb_neq'; auto.
      + destruct (eqb k' k2); auto.
  Qed.
  Lemma dget_dset k k' v d : get k' (set k v d) = if eqb k' k then Some v else get k' d.
  Proof using eqb_eq.
    destruct (eqb k' k) eqn:E.
    - apply eqb_eq in E. subst. apply dget_dset_same.
    - apply dget_dset_other. intros ->. rewrite eqb_refl' in E. discriminate.
  Qed.
  Lemma dget_ddel_other k k' d : k' <> k -> get k' (del k d) = get k' d.
  Proof using eqb_eq.
    intros H. induction d as [|[k2 v2] d IH]; simpl; auto.
    destruct (eqb k k2) eqn:E; simpl.
    - apply eqb_eq in E. subst. rewrite eqb_neq'; auto.
    - destruct (eqb k' k2); auto.
  Qed.
  Lemma dget_In k v d : get k d = Some v -> In (k, v) d.
  Proof using eqb_eq.
    induction d as [|[k2 v2] d IH]; simpl; [discriminate|].
    destruct (eqb k k2) eqn:E; intros H.
    - apply eqb_eq in E. inv H. auto.
    - auto.
  Qed.
  Lemma dget_None k d : get k d = None <-> ~ In k (dkeys d).
  Proof using eqb_eq.
    unfold dkeys. induction d as [|[k2 v2] d IH]; simpl; [tauto|].
    destruct (eqb k k2) eqn:E.
    - apply eqb_eq in E. subst. split; [discriminate|]. intros H; exfalso; auto.
    - rewrite IH. split; intros H.
      + intros [->|]; auto. rewrite eqb_refl' in E. discriminate.
      + auto.
  Qed.
  Lemma dhas_In k d : @dhas K V eqb k d = true <-> In k (dkeys d).
  Proof using eqb_eq.
    unfold dhas. destruct (get k d) eqn:E.
    - apply dget_In in E. apply (in_map fst) in E. simpl in E. tauto.
    - apply dget_None in E. split; [discriminate|]. tauto.
  Qed.
  Lemma In_dget k v d : NoDup (dkeys d) -> In (k, v) d -> get k d = Some v.
  Proof using eqb_eq.
    unfold dkeys. induction d as [|[k2 v2] d IH]; simpl; intros Hn; [intros []|].
    inv Hn. intros [H|H].
    - inv H. rewrite eqb_refl'. auto.
    - rewrite eqb_neq'; auto. intros ->. apply H1. apply (in_map fst) in H. auto.
  Qed.
  Lemma dkeys_dset k v d :
    dkeys (set k v d) = if @dhas K V eqb k d then dkeys d else dkeys d ++ [k].
  Proof using eqb_eq.
    unfold dkeys, dhas. induction d as [|[k2 v2] d IH]; simpl; auto.
    destruct (eqb k k2) eqn:E; simpl; auto.
    rewrite IH. destruct (get k d); auto.
  Qed.
  Lemma NoDup_dset k v d : NoDup (dkeys d) -> NoDup (dkeys (set k v d)).
  Proof using eqb_eq.
    intros H. rewrite dkeys_dset. destruct (@dhas K V eqb k d) eqn:E; auto.
    apply (Permutation_NoDup (l := k :: dkeys d)).
    - apply Permutation_cons_append.
    - constructor; auto. rewrite <- dhas_In, E. discriminate.
  Qed.
  Lemma In_dkeys_dset k v d x : In x (dkeys (set k v d)) <-> x = k \/ In x (dkeys d).
  Proof using eqb_eq.
    rewrite dkeys_dset. destruct (@dhas K V eqb k d) eqn:E.
    - apply dhas_In in E. split; auto. intros [->|]; auto.
    - rewrite in_app_iff. simpl. intuition congruence.
  Qed.
  Lemma In_ddel_sub x k d : In x (del k d) -> In x d.
  Proof using.
    induction d as [|[k2 v2] d IH]; simpl; auto. destruct (eqb k k2); simpl; tauto.
  Qed.
  Lemma NoDup_ddel k d : NoDup (dkeys d) -> NoDup (dkeys (del k d)).
  Proof using.
    unfold dkeys. induction d as [|[k2 v2] d IH]; simpl; intros H; auto. inv H.
    destruct (eqb k k2); simpl; auto. constructor; auto.
    intros Hin. apply H2. apply in_map_iff in Hin as ([a b] & E & Hin). simpl in E. subst.
    apply In_ddel_sub in Hin. apply (in_map fst) in Hin. auto.
  Qed.
  Lemma dget_ddel_same k d : NoDup (dkeys d) -> get k (del k d) = None.
  Proof using eqb_eq.
    intros H. apply dget_None. unfold dkeys in *. induction d as [|[k2 v2] d IH]; simpl in *; auto.
    inv H. destruct (eqb k k2) eqn:E; simpl.
    - apply eqb_eq in E. subst. auto.
    - intros [->|]; [|apply IH; auto]. rewrite eqb_refl' in E. discriminate.
  Qed.
  Lemma dget_ddel k k' d : NoDup (dkeys d) -> get k' (del k d) = if eqb k' k then None else get k' d.
  Proof using eqb_eq.
    intros H. destruct (eqb k' k) eqn:E.
    - apply eqb_eq in E. subst. apply dget_ddel_same; auto.
    - apply dget_ddel_other. intros ->. rewrite eqb_refl' in E. discriminate.
  Qed.
  Lemma ddel_absent k d : get k d = None -> del k d = d.
  Proof using eqb_eq.
    induction d as [|[k2 v2] d IH]; simpl; auto. destruct (eqb k k2); [discriminate|].
    intros H. rewrite IH; auto.
  Qed.

  (** Last binding of [k] in a list of pairs: what [dict(pairs)] holds. *)
  Fixpoint assoc_last (k : K) (l : list (K * V)) : option V :=
    match l with
    | [] => None
    | (k', v) :: r => match assoc_last k r with
                      | Some w => Some w
                      | None => if eqb k k' then Some v else None
                      end
    end.
  Lemma dget_dupdate k d e :
    get k (dupdate eqb d e) = match assoc_last k e with Some v => Some v | None => get k d end.
  Proof using eqb_eq.
    unfold dupdate. revert d; induction e as [|[k' v] e IH]; simpl; intros d; auto.
    rewrite IH. destruct (assoc_last k e); auto. rewrite dget_dset. destruct (eqb k k'); auto.
  Qed.
  Lemma dget_dict_of k l : get k (dict_of eqb l) = assoc_last k l.
  Proof using eqb_eq.
    unfold dict_of. change (fold_left _ l []) with (dupdate eqb (@nil (K*V)) l).
    rewrite dget_dupdate. simpl. destruct (assoc_last k l); auto.
  Qed.
  Lemma NoDup_dupdate (d e : dict K V) : NoDup (dkeys d) -> NoDup (dkeys (dupdate eqb d e)).
  Proof using eqb_eq.
    unfold dupdate. revert d; induction e as [|[k' v] e IH]; simpl; intros d H; auto.
    apply IH, NoDup_dset; auto.
  Qed.
  Lemma NoDup_dict_of (l : list (K * V)) : NoDup (dkeys (dict_of eqb l)).
  Proof using eqb_eq.
    unfold dict_of. change (fold_left _ l []) with (dupdate eqb (@nil (K*V)) l).
    apply NoDup_dupdate. constructor.
  Qed.
  Lemma assoc_last_NoDup k l : NoDup (dkeys l) -> assoc_last k l = get k l.
  Proof using eqb_eq.
    unfold dkeys. induction l as [|[k' v] l IH]; simpl; intros H; auto. inv H.
    rewrite IH by auto. destruct (eqb k k') eqn:E.
    - apply eqb_eq in E. subst. destruct (get k' l) eqn:G; auto.
      apply dget_In in G. apply (in_map fst) in G. contradiction.
    - destruct (get k l); auto.
  Qed.
  Lemma dset_fresh k v d : get k d = None -> set k v d = d ++ [(k, v)].
  Proof using.
    induction d as [|[k' v'] d IH]; simpl; auto. destruct (eqb k k'); [discriminate|].
    intros H. rewrite IH; auto.
  Qed.
  Lemma dupdate_fresh (d e : dict K V) :
    NoDup (dkeys (d ++ e)) -> dupdate eqb d e = d ++ e.
  Proof using eqb_eq.
    unfold dupdate. revert d; induction e as [|[k v] e IH]; simpl; intros d H.
    - rewrite app_nil_r. auto.
    - rewrite dset_fresh.
      + rewrite IH; rewrite <- app_assoc; auto.
      + apply dget_None. unfold dkeys in *. rewrite map_app in H. simpl in H.
        apply NoDup_remove_2 in H. intros Hin. apply H. apply in_or_app; auto.
  Qed.
  Lemma dict_of_NoDup (l : list (K * V)) : NoDup (dkeys l) -> dict_of eqb l = l.
  Proof using eqb_eq. intros H. apply (dupdate_fresh []). auto. Qed.
End DictFacts.

(** ** Sorting *)
Section SortFacts.
  Context {A : Type} (leb : A -> A -> bool).
  Lemma insert_perm x l : Permutation (x :: l) (insert leb x l).
  Proof using.
    induction l as [|y l IH]; simpl; auto. destruct (leb x y); auto.
    rewrite perm_swap. constructor. auto.
  Qed.
  Lemma sort_perm l : Permutation l (sort leb l).
  Proof using.
    induction l as [|x l IH]; simpl; auto. rewrite <- insert_perm. constructor; auto.
  Qed.
  Lemma sort_In x l : In x (sort leb l) <-> In x l.
  Proof using. split; apply Permutation_in; [symmetry|]; apply sort_perm. Qed.
  Lemma sort_length l : List.length (sort leb l) = List.length l.
  Proof using. symmetry. apply Permutation_length, sort_perm. Qed.

  Hypothesis leb_total : forall a b, leb a b = true \/ leb b a = true.
  Lemma insert_sorted x l : Sorted (fun a b => leb a b = true) l -> Sorted (fun a b => leb a b = true) (insert leb x l).
  Proof using leb_total.
    induction l as [|y l IH]; simpl; intros H; [repeat constructor|].
    destruct (leb x y) eqn:E.
    - constructor; auto.
    - inv H. constructor; auto.
      assert (leb y x = true) by (destruct (leb_total x y); congruence).
      destruct l as [|z l]; simpl; [constructor; auto|].
      destruct (leb x z); constructor; auto. inv H3; auto.
  Qed.
  Lemma sort_sorted l : Sorted (fun a b => leb a b = true) (sort leb l).
  Proof using leb_total. induction l; simpl; [constructor | apply insert_sorted; auto]. Qed.

  Hypothesis leb_trans : forall a b c, leb a b = true -> leb b c = true -> leb a c = true.
  Lemma sort_strongly_sorted l : StronglySorted (fun a b => leb a b = true) (sort leb l).
  Proof using leb_total leb_trans.
    apply Sorted_StronglySorted; [intros x y z; apply leb_trans | apply sort_sorted].
  Qed.

  (** Stability: among the elements selected by a predicate that are mutually
      equivalent, the input order is kept. *)
  Lemma insert_filter_eq x l (p : A -> bool) :
    (forall a b, p a = true -> p b = true -> leb a b = true) ->
    filter p (insert leb x l) = filter p (x :: l).
  Proof using.
    intros Hp. induction l as [|y l IH]; simpl; auto.
    destruct (leb x y) eqn:E; [reflexivity|]. simpl.
    rewrite IH. simpl. destruct (p x) eqn:Px; destruct (p y) eqn:Py; auto.
    rewrite Hp in E; auto. discriminate.
  Qed.
  Lemma sort_stable l (p : A -> bool) :
    (forall a b, p a = true -> p b = true -> leb a b = true) ->
    filter p (sort leb l) = filter p l.
  Proof using.
    intros Hp. induction l as [|x l IH]; simpl; auto.
    rewrite insert_filter_eq by auto. simpl. rewrite IH. auto.
  Qed.
  Lemma insert_id x l : Forall (fun y => leb x y = true) l -> insert leb x l = x :: l.
  Proof using. destruct l; simpl; auto. intros H. inv H. rewrite H2. auto. Qed.
  Lemma sort_id l : StronglySorted (fun a b => leb a b = true) l -> sort leb l = l.
  Proof using.
    induction 1; simpl; auto. rewrite IHStronglySorted. apply insert_id; auto.
  Qed.
End SortFacts.

(** Two sorted permutations under an antisymmetric order are equal. *)
Lemma sorted_perm_eq {A} (leb : A -> A -> bool) :
  (forall a b, leb a b = true -> leb b a = true -> a = b) ->
  forall l1 l2, StronglySorted (fun a b => leb a b = true) l1 ->
           StronglySorted (fun a b => leb a b = true) l2 ->
           Permutation l1 l2 -> l1 = l2.
Proof.
  intros Ha. induction l1 as [|x l1 IH]; intros l2 H1 H2 P.
  - symmetry. apply Permutation_nil; auto.
  - destruct l2 as [|y l2]; [apply Permutation_sym, Permutation_nil in P; discriminate|].
    inv H1. inv H2.
    assert (x = y).
    { assert (In x (y :: l2)) as Hx by (eapply Permutation_in; eauto; left; auto).
      assert (In y (x :: l1)) as Hy by (eapply Permutation_in; [symmetry; eauto|left; auto]).
      destruct Hx as [->|Hx]; auto. destruct Hy as [->|Hy]; auto.
      rewrite Forall_forall in *. apply Ha; auto. }
    subst. f_equal. apply IH; auto. eapply Permutation_cons_inv; eauto.
Qed.
