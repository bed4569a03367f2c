(** Facts about floats, the table of qualities and the order of results (Accept.v). *)
From Coq Require Import Lia ZifyBool Sorting.Permutation Sorting.Sorted.
From Verif Require Import Py PyFacts Accept.

(** ** Comparing floats *)
Ltac fcases :=
  repeat match goal with
  | x : float |- _ => destruct x as [[]|[]| |[] ? ?]
  end.
Lemma SFltb_trans a b c : SFltb a b = true -> SFltb b c = true -> SFltb a c = true.
Proof.
  unfold SFltb, SFcompare. fcases; simpl; auto; try discriminate;
    repeat match goal with
    | |- context [Pos.compare_cont Eq ?x ?y] => change (Pos.compare_cont Eq x y) with (Pos.compare x y)
    | |- context [(?x ?= ?y)%Z] => destruct (Z.compare_spec x y)
    | |- context [(?x ?= ?y)%positive] => destruct (Pos.compare_spec x y)
    end; simpl; auto; try discriminate; intros; try lia.
Qed.
Lemma SFltb_irrefl a : SFltb a a = false.
Proof.
  unfold SFltb, SFcompare. fcases; simpl; auto;
    rewrite Z.compare_refl; change (Pos.compare_cont Eq m m) with (Pos.compare m m); rewrite Pos.compare_refl; auto.
Qed.
(** Numbers, not NaN. *)
Definition num (q : float) : Prop := q <> S754_nan.
Lemma SF_total a b : num a -> num b -> SFltb a b = true \/ SFeqb a b = true \/ SFltb b a = true.
Proof.
  unfold num, SFltb, SFeqb, SFcompare. fcases; simpl; auto; try congruence; intros _ _;
    repeat match goal with
    | |- context [Pos.compare_cont Eq ?x ?y] => change (Pos.compare_cont Eq x y) with (Pos.compare x y)
    | |- context [(?x ?= ?y)%Z] => destruct (Z.compare_spec x y)
    | |- context [(?x ?= ?y)%positive] => destruct (Pos.compare_spec x y)
    end; simpl; auto; try lia.
Qed.
Lemma SFeqb_lt a b c : SFeqb a b = true -> SFltb b c = true -> SFltb a c = true.
Proof.
  unfold SFltb, SFeqb, SFcompare. fcases; simpl; auto; try discriminate;
    repeat match goal with
    | |- context [Pos.compare_cont Eq ?x ?y] => change (Pos.compare_cont Eq x y) with (Pos.compare x y)
    | |- context [(?x ?= ?y)%Z] => destruct (Z.compare_spec x y)
    | |- context [(?x ?= ?y)%positive] => destruct (Pos.compare_spec x y)
    end; simpl; auto; try discriminate; intros; try lia.
Qed.
Lemma SFeqb_sym a b : SFeqb a b = SFeqb b a.
Proof.
  unfold SFeqb, SFcompare. fcases; simpl; auto;
    repeat match goal with
    | |- context [Pos.compare_cont Eq ?x ?y] => change (Pos.compare_cont Eq x y) with (Pos.compare x y)
    | |- context [(?x ?= ?y)%Z] => destruct (Z.compare_spec x y)
    | |- context [(?x ?= ?y)%positive] => destruct (Pos.compare_spec x y)
    end; simpl; auto; try lia.
Qed.
Lemma SF_lt_eqb a b c : SFltb a b = true -> SFeqb b c = true -> SFltb a c = true.
Proof.
  unfold SFltb, SFeqb, SFcompare. fcases; simpl; auto; try discriminate;
    repeat match goal with
    | |- context [Pos.compare_cont Eq ?x ?y] => change (Pos.compare_cont Eq x y) with (Pos.compare x y)
    | |- context [(?x ?= ?y)%Z] => destruct (Z.compare_spec x y)
    | |- context [(?x ?= ?y)%positive] => destruct (Pos.compare_spec x y)
    end; simpl; auto; try discriminate; intros; try lia.
Qed.
Lemma SFeqb_trans a b c : SFeqb a b = true -> SFeqb b c = true -> SFeqb a c = true.
Proof.
  unfold SFeqb, SFcompare. fcases; simpl; auto; try discriminate;
    repeat match goal with
    | |- context [Pos.compare_cont Eq ?x ?y] => change (Pos.compare_cont Eq x y) with (Pos.compare x y)
    | |- context [(?x ?= ?y)%Z] => destruct (Z.compare_spec x y)
    | |- context [(?x ?= ?y)%positive] => destruct (Pos.compare_spec x y)
    end; simpl; auto; try discriminate; intros; try lia.
Qed.

(** ** 1 - q is a number *)
Definition posr (r : shr_record) : Prop := (0 <= shr_m r)%Z.
Lemma shr_1_pos r : posr r -> posr (shr_1 r).
Proof. destruct r as [m r s]. unfold posr, shr_1. simpl. destruct m as [|[p|p|]|[p|p|]]; simpl; lia. Qed.
Lemma shr_pos r e n : posr r -> posr (fst (shr r e n)).
Proof.
  intros H. destruct n as [|p|p]; simpl; auto. revert r H.
  assert (forall p r, posr r -> posr (iter_pos shr_1 p r)) as K; [|intros; apply K; auto].
  induction p0 as [p0 IH|p0 IH|]; simpl; intros r H; auto using shr_1_pos.
Qed.
Lemma round_aux_num s m e l : (0 <= m)%Z -> num (binary_round_aux prec emax s m e l).
Proof.
  intros H. unfold binary_round_aux, num.
  assert (forall m e l, (0 <= m)%Z -> posr (fst (shr_fexp prec emax m e l))) as K.
  { intros m' e' l' Hm. unfold shr_fexp. apply shr_pos. unfold posr, shr_record_of_loc. destruct l' as [|[]]; auto. }
  pose proof (K m e l H) as K1. destruct (shr_fexp prec emax m e l) as [r e1]. simpl in K1. unfold posr in K1.
  set (n := round_nearest_even (shr_m r) (loc_of_shr_record r)).
  assert (0 <= n)%Z as Hn.
  { unfold n, round_nearest_even. destruct (loc_of_shr_record r) as [|[]]; try lia. destruct (Z.even (shr_m r)); lia. }
  pose proof (K n e1 loc_Exact Hn) as K2. destruct (shr_fexp prec emax n e1 loc_Exact) as [r2 e2].
  simpl in K2. unfold posr in K2. destruct (shr_m r2) as [|p|p]; try congruence; [|lia].
  destruct (e2 <=? emax - prec)%Z; congruence.
Qed.
Lemma round_num s m e : num (binary_round prec emax s m e).
Proof.
  unfold binary_round. destruct (shl_align _ _ _) as [mz ez]. apply round_aux_num. lia.
Qed.
Lemma normalize_num m e s : num (binary_normalize prec emax m e s).
Proof. unfold binary_normalize. destruct m; try apply round_num. discriminate. Qed.
Lemma distance_num q : num q -> num (distance q).
Proof.
  unfold distance, fone. destruct q as [s|s| |s m e]; intros H; try congruence; try discriminate.
  apply normalize_num.
Qed.

(** ** The greatest of some floats *)
Lemma fmax_fold l : forall b, num b ->
  let m := fold_left fmax l b in
  num m /\ (m = b \/ In m l) /\ SFltb m b = false /\ forall x, In x l -> SFltb m x = false.
Proof.
  induction l as [|y l IH]; intros b Hb; simpl.
  - repeat split; auto. apply SFltb_irrefl. tauto.
  - assert (num (fmax b y)) as Hm.
    { unfold fmax. destruct (SFltb b y) eqn:E; auto. intros ->. destruct b as [[]|[]| |[]]; discriminate E. }
    destruct (IH (fmax b y) Hm) as (N & A & B & C). set (m := fold_left fmax l (fmax b y)) in *.
    unfold fmax in A, B. split; auto. destruct (SFltb b y) eqn:E.
    + split; [destruct A; auto|]. split.
      * destruct (SFltb m b) eqn:F; auto. rewrite (SFltb_trans _ _ _ F E) in B. auto.
      * intros x [<-|Hx]; auto.
    + split; [destruct A; auto|]. split; auto. intros x [<-|Hx]; auto.
      destruct (SFltb m y) eqn:F; auto. exfalso.
      destruct (SF_total m b N Hb) as [G|[G|G]]; try congruence.
      * rewrite SFeqb_sym in G. rewrite (SFeqb_lt _ _ _ G F) in E. discriminate.
      * rewrite (SFltb_trans _ _ _ G F) in E. discriminate.
Qed.

(** ** The table *)
Lemma pair_eqb_eq a b : pair_eqb a b = true <-> a = b.
Proof.
  destruct a as [a1 a2], b as [b1 b2]. unfold pair_eqb. simpl. rewrite andb_true_iff, !text_eqb_eq.
  split; [intros (-> & ->); auto|intros E; inv E; auto].
Qed.
Definition star : text := u "*".
(** The qualities of the ranges [*/...], [main/*] and [main/sub]. *)
Definition any_q (l : list range) : list float :=
  map snd (filter (fun r : range => text_eqb (fst (fst r)) star) l).
Definition main_q (main : text) (l : list range) : list float :=
  map snd (filter (fun r : range => negb (text_eqb (fst (fst r)) star) && text_eqb (snd (fst r)) star && text_eqb main (fst (fst r))) l).
Definition sub_q (main sub : text) (l : list range) : list float :=
  map snd (filter (fun r : range => negb (text_eqb (fst (fst r)) star) && negb (text_eqb (snd (fst r)) star) && pair_eqb (main, sub) (fst r)) l).
Definition or_zero (o : option float) : float := match o with Some q => q | None => fzero end.
Lemma table_default l : forall t, t_default (fold_left add_range l t) = fold_left fmax (any_q l) (t_default t).
Proof.
  induction l as [|[[m s] q] l IH]; intros t; auto. simpl fold_left. rewrite IH. unfold any_q, add_range. simpl.
  change (u "*") with star. destruct (text_eqb m star); auto. destruct (text_eqb s star); auto.
Qed.
Lemma table_main main l : forall t, dget text_eqb main (t_main (fold_left add_range l t)) =
  match main_q main l with [] => dget text_eqb main (t_main t)
  | qs => Some (fold_left fmax qs (or_zero (dget text_eqb main (t_main t)))) end.
Proof.
  induction l as [|[[m s] q] l IH]; intros t; auto. simpl fold_left. rewrite IH. unfold main_q, add_range. simpl.
  change (u "*") with star. destruct (text_eqb m star); simpl; auto. destruct (text_eqb s star); simpl; auto.
  destruct (text_eqb main m) eqn:E; simpl.
  - apply text_eqb_eq in E. subst m. rewrite (dget_dset_same text_eqb text_eqb_eq).
    match goal with |- context [map snd ?x] => destruct (map snd x) end; auto.
  - assert (main <> m) by (intros ->; rewrite text_eqb_refl in E; discriminate).
    rewrite (dget_dset_other text_eqb text_eqb_eq) by auto. auto.
Qed.
Lemma table_sub main sub l : forall t, dget pair_eqb (main, sub) (t_sub (fold_left add_range l t)) =
  match sub_q main sub l with [] => dget pair_eqb (main, sub) (t_sub t)
  | qs => Some (fold_left fmax qs (or_zero (dget pair_eqb (main, sub) (t_sub t)))) end.
Proof.
  induction l as [|[[m s] q] l IH]; intros t; auto. simpl fold_left. rewrite IH. unfold sub_q, add_range. simpl.
  change (u "*") with star. destruct (text_eqb m star); simpl; auto. destruct (text_eqb s star); simpl; auto.
  destruct (pair_eqb (main, sub) (m, s)) eqn:E; simpl.
  - apply pair_eqb_eq in E. inv E. rewrite (dget_dset_same pair_eqb pair_eqb_eq).
    match goal with |- context [map snd ?x] => destruct (map snd x) end; auto.
  - assert ((main, sub) <> (m, s)) by (intros K; apply pair_eqb_eq in K; congruence).
    rewrite (dget_dset_other pair_eqb pair_eqb_eq) by auto. auto.
Qed.
Lemma quality_table main sub l : quality_of (table_of l) main sub =
  match sub_q main sub l with
  | (_ :: _) as qs => fold_left fmax qs fzero
  | [] => match main_q main l with
          | (_ :: _) as qs => fold_left fmax qs fzero
          | [] => fold_left fmax (any_q l) (match l with [] => fone | _ => fzero end)
          end
  end.
Proof.
  unfold quality_of, table_of. rewrite table_sub, table_main, table_default. simpl.
  destruct (sub_q main sub l); auto. destruct (main_q main l); auto.
Qed.

(** ** Sorting *)
Lemma insert_map {A B} (f : A -> B) leb x l :
  insert leb (f x) (map f l) = map f (insert (fun a b => leb (f a) (f b)) x l).
Proof. induction l as [|y l IH]; simpl; auto. destruct (leb (f x) (f y)); simpl; auto. rewrite IH. auto. Qed.
Lemma sort_map {A B} (f : A -> B) leb l :
  sort leb (map f l) = map f (sort (fun a b => leb (f a) (f b)) l).
Proof. induction l as [|x l IH]; simpl; auto. rewrite IH, insert_map. auto. Qed.
Lemma insert_ext {A} (f g : A -> A -> bool) x l : (forall y, In y l -> f x y = g x y) -> insert f x l = insert g x l.
Proof.
  induction l as [|y l IH]; simpl; intros H; auto. rewrite H by auto. destruct (g x y); auto. rewrite IH; auto.
Qed.
Lemma sort_ext {A} (f g : A -> A -> bool) l : (forall x y, In x l -> In y l -> f x y = g x y) -> sort f l = sort g l.
Proof.
  induction l as [|x l IH]; simpl; intros H; auto. rewrite IH by auto.
  apply insert_ext. intros y Hy. apply H; auto. right. eapply Permutation_in; [symmetry; apply sort_perm|]; eauto.
Qed.
(** Sorting by a key that is a number for the elements of the list. *)
Section Keyed.
  Context {A : Type} (key : A -> float) (pos : A -> nat).
  Definition kp_leb (a b : A) : bool := SFltb (key a) (key b) || (SFeqb (key a) (key b) && Nat.leb (pos a) (pos b)).
  Let fix_ (q : float) : float := if is_nan q then fzero else q.
  Let leb' (a b : A) : bool := SFltb (fix_ (key a)) (fix_ (key b)) || (SFeqb (fix_ (key a)) (fix_ (key b)) && Nat.leb (pos a) (pos b)).
  Lemma fix_num q : num (fix_ q).
  Proof using. clear key pos leb'. unfold fix_, num. destruct q; discriminate. Qed.
  Lemma kp_sorted l : (forall a, In a l -> num (key a)) -> StronglySorted (fun a b => kp_leb a b = true) (sort kp_leb l).
  Proof using.
    intros H.
    assert (forall x y, In x l -> In y l -> kp_leb x y = leb' x y) as E.
    { intros x y Hx Hy. unfold kp_leb, leb', fix_. apply H in Hx, Hy. unfold num in *.
      destruct (key x); try congruence; destruct (key y); try congruence; reflexivity. }
    rewrite (sort_ext kp_leb leb' l E).
    assert (StronglySorted (fun a b => leb' a b = true) (sort leb' l)) as K.
    { apply sort_strongly_sorted; unfold leb'.
      - intros a b. pose proof (SF_total _ _ (fix_num (key a)) (fix_num (key b))) as T.
        rewrite (SFeqb_sym (fix_ (key b))). destruct T as [T|[T|T]]; rewrite ?T; auto.
        simpl. rewrite !orb_true_iff, !Nat.leb_le. lia.
      - intros a b c. rewrite !orb_true_iff, !andb_true_iff, !Nat.leb_le.
        intros [H1|(H1 & K1)] [H2|(H2 & K2)].
        + left. eapply SFltb_trans; eauto.
        + left. eapply SF_lt_eqb; eauto.
        + left. eapply SFeqb_lt; eauto.
        + right. split; [eapply SFeqb_trans; eauto|lia]. }
    assert (forall x, In x (sort leb' l) -> In x l) as I.
    { intros x. apply Permutation_in. symmetry. apply sort_perm. }
    revert I. induction K as [|x r K IH F]; intros I; constructor.
    - apply IH. intros y Hy. apply I. right. auto.
    - rewrite Forall_forall in *. intros y Hy. rewrite E; auto; apply I; simpl; auto.
  Qed.
End Keyed.
