(** Facts about store histories. *)
From Coq Require Import Lia ZifyBool ZifyN ZifyNat Sorted Permutation.
From Verif Require Import Py PyFacts Association Nonce Store StoreSpec.
Open Scope Z_scope.

Lemma skewed_window ts t : skewed ts t = negb (in_window t ts).
Proof. unfold skewed, in_window, SKEW. destruct (60 * 60 * 5 <? Z.abs (ts - t)) eqn:E, (t - 18000 <=? ts) eqn:A, (ts <=? t + 18000) eqn:B; simpl; lia. Qed.
Lemma expired_spec a t : expired a t = (a_issued a + a_lifetime a <=? t).
Proof. unfold expired, getExpiresIn. destruct (_ =? 0) eqn:E, (_ <=? t) eqn:F; lia. Qed.
Lemma good_at_expired t o : good_at t o = match o with Some a => if expired a t then None else Some a | None => None end.
Proof. destruct o as [a|]; simpl; auto. rewrite expired_spec. destruct (t <? _) eqn:E, (_ <=? t) eqn:F; auto; lia. Qed.
Lemma expired_mono a t t' : t <= t' -> expired a t = true -> expired a t' = true.
Proof. rewrite !expired_spec. lia. Qed.

Lemma ntriple_eqb_eq a b : ntriple_eqb a b = true <-> a = b.
Proof.
  destruct a as [[u1 t1] s1], b as [[u2 t2] s2]. unfold ntriple_eqb. simpl.
  rewrite !andb_true_iff, !text_eqb_eq, Z.eqb_eq. split; [intros [[-> ->] ->]; auto|intros H; inv H; auto].
Qed.
Lemma existsb_triple x l : existsb (ntriple_eqb x) l = true <-> In x l.
Proof.
  rewrite existsb_exists. split; [intros (y & H & E); apply ntriple_eqb_eq in E; subst; auto|].
  intros H. exists x. split; auto. apply ntriple_eqb_eq; auto.
Qed.
Lemma assoc_eqb_eq a b : assoc_eqb a b = true <-> a = b.
Proof.
  destruct a as [h1 s1 i1 l1 t1], b as [h2 s2 i2 l2 t2]. unfold assoc_eqb. simpl.
  rewrite !andb_true_iff, !text_eqb_eq, !Z.eqb_eq. split; [intros [[[[-> ->] ->] ->] ->]; auto|intros H; inv H; auto].
Qed.

Lemma clock_le t t' h : t <= t' -> clock t h -> clock t' h.
Proof. destruct h as [|[t0 o] h]; simpl; intuition lia. Qed.
Lemma clock_In t h e : clock t h -> In e h -> fst e <= t.
Proof.
  revert t; induction h as [|[t0 o] h IH]; intros t; simpl; [tauto|]. intros (H & C) [<-|Hin]; simpl; auto.
  specialize (IH _ C Hin). lia.
Qed.

Lemma used_spec url ts salt h :
  used url ts salt h = true <-> exists t, In (t, UseN url ts salt) h /\ in_window t ts = true.
Proof.
  unfold used. rewrite existsb_exists. split.
  - intros ([t o] & Hin & E). simpl in E. destruct o; try discriminate.
    rewrite !andb_true_iff, !text_eqb_eq, Z.eqb_eq in E. destruct E as [[[-> ->] ->] E]. eauto.
  - intros (t & Hin & E). exists (t, UseN url ts salt). split; auto. simpl. rewrite !text_eqb_refl, Z.eqb_refl, E. auto.
Qed.
Lemma remembered_used url ts salt h : remembered url ts salt h = true -> used url ts salt h = true.
Proof.
  induction h as [|[t o] h IH]; simpl; [discriminate|]. unfold used in *. simpl.
  destruct o; auto; [|rewrite andb_true_iff; tauto].
  rewrite !orb_true_iff. intros [H|H]; auto.
Qed.
(** While still fresh, nothing used has been forgotten. *)
Lemma used_remembered url ts salt h : forall t, clock t h -> in_window t ts = true ->
  used url ts salt h = true -> remembered url ts salt h = true.
Proof.
  induction h as [|[t0 o] h IH]; intros t C W H; [discriminate|]. simpl in C. destruct C as (C1 & C2).
  unfold used in H. simpl in H. apply orb_prop in H as [H|H].
  - destruct o; try discriminate. simpl in *. rewrite H. auto.
  - assert (in_window t0 ts = true) as W0.
    { change (used url ts salt h = true) in H. apply used_spec in H as (t1 & Hin & W1).
      pose proof (clock_In _ _ _ C2 Hin) as L. simpl in L. unfold in_window in *. lia. }
    specialize (IH _ C2 W0 H). simpl. destruct o; auto; [|rewrite W0; auto]. rewrite IH, orb_true_r. auto.
Qed.

(** ** "At most once" follows from the answer being "fresh and not used before". *)
Section Once.
  Context {S : Type} (step : S -> Z -> op -> S * out) (s0 : S) (ok : history -> Prop).
  Context (okh : forall e h, ok (e :: h) -> ok h).
  Context (ans : forall h t url ts salt, clock t h -> ok ((t, UseN url ts salt) :: h) ->
             answer step s0 h t (UseN url ts salt) = Flag (in_window t ts && negb (used url ts salt h))).
  Lemma accepted_once url ts salt h : forall t, clock t h -> ok h ->
    accepted step s0 url ts salt h = if used url ts salt h then 1%nat else 0%nat.
  Proof using ans okh.
    induction h as [|[t0 o] h IH]; intros t C K; [reflexivity|]. cbn [clock] in C. destruct C as (C1 & C2).
    cbn [accepted]. rewrite (IH _ C2 (okh _ _ K)).
    change (used url ts salt ((t0, o) :: h)) with
            (match o with UseN url' ts' salt' => text_eqb url url' && (ts =? ts') && text_eqb salt salt' && in_window t0 ts | _ => false end
             || used url ts salt h)%bool.
    destruct o as [| | | url' ts' salt' | |]; try (rewrite orb_false_l; destruct (used url ts salt h); reflexivity).
    destruct (text_eqb url url' && (ts =? ts') && text_eqb salt salt')%bool eqn:E.
    - rewrite !andb_true_iff, !text_eqb_eq, Z.eqb_eq in E. destruct E as [[<- <-] <-].
      rewrite ans; auto. rewrite andb_true_l. destruct (in_window t0 ts), (used url ts salt h); reflexivity.
    - rewrite andb_false_l, orb_false_l. destruct (used url ts salt h); reflexivity.
  Qed.
End Once.

(** ** Dictionaries and lists *)
Lemma dget_dels {V} (ks : list text) : forall (d : dict text V) h, NoDup (dkeys d) ->
  dget text_eqb h (fold_left (fun d k => ddel text_eqb k d) ks d) = if mem_text h ks then None else dget text_eqb h d.
Proof.
  induction ks as [|k ks IH]; intros d h N; simpl; auto. rewrite IH by (apply NoDup_ddel; auto).
  rewrite (dget_ddel text_eqb text_eqb_eq) by auto. destruct (text_eqb h k); simpl; auto. destruct (mem_text h ks); auto.
Qed.
Lemma NoDup_dels {V} (ks : list text) : forall (d : dict text V), NoDup (dkeys d) ->
  NoDup (dkeys (fold_left (fun d k => ddel text_eqb k d) ks d)).
Proof. induction ks as [|k ks IH]; intros d N; simpl; auto. apply IH, NoDup_ddel; auto. Qed.
Lemma In_dels {V} (ks : list text) : forall (d : dict text V) x,
  In x (fold_left (fun d k => ddel text_eqb k d) ks d) -> In x d.
Proof. induction ks as [|k ks IH]; intros d x; simpl; auto. intros H. apply IH in H. eapply In_ddel_sub; eauto. Qed.

(** ** Taking the last of the sorted tuples *)
Lemma ties_spec l : ties l = true -> exists a b, In a l /\ In b l /\ a <> b /\ a_issued a = a_issued b.
Proof.
  induction l as [|a l IH]; simpl; [discriminate|]. intros H. apply orb_prop in H as [H|H].
  - apply existsb_exists in H as (b & Hin & E). apply andb_prop in E as (E1 & E2). apply Z.eqb_eq in E1.
    exists a, b. repeat split; auto. intros ->. apply negb_true_iff in E2.
    assert (assoc_eqb b b = true) by (apply assoc_eqb_eq; auto). congruence.
  - destruct (IH H) as (x & y & ? & ? & ?). exists x, y. auto.
Qed.
Lemma ties_none l : ties l = false -> forall a b, In a l -> In b l -> a_issued a = a_issued b -> a = b.
Proof.
  induction l as [|x l IH]; simpl; [tauto|]. intros H. apply orb_false_elim in H as (H1 & H2).
  assert (forall b, In b l -> a_issued x = a_issued b -> x = b) as K.
  { intros b Hin E. destruct (assoc_eqb x b) eqn:Q; [apply assoc_eqb_eq; auto|]. exfalso.
    assert (existsb (fun b => (a_issued x =? a_issued b) && negb (assoc_eqb x b)) l = true); [|congruence].
    apply existsb_exists. exists b. split; auto. rewrite Q. simpl. lia. }
  intros a b [->|Ha] [->|Hb] E; auto. symmetry. apply K; auto.
Qed.
Lemma sorted_last_spec l :
  match sorted_last l with
  | Ok None => l = []
  | Ok (Some a) => In a l /\ (forall b, In b l -> a_issued b <= a_issued a) /\
                   (forall x y, In x l -> In y l -> a_issued x = a_issued y -> x = y)
  | Raise e => e = TypeError /\ exists a b, In a l /\ In b l /\ a <> b /\ a_issued a = a_issued b
  end.
Proof.
  unfold sorted_last. destruct (ties l) eqn:T; [split; auto; apply ties_spec; auto|].
  set (le := fun a b : assoc => a_issued a <=? a_issued b).
  assert (StronglySorted (fun a b => le a b = true) (sort le l)) as SS.
  { apply sort_strongly_sorted; unfold le; intros; lia. }
  assert (forall x, In x (sort le l) <-> In x l) as SI by (intros; apply sort_In).
  destruct (rev (sort le l)) as [|a r] eqn:E.
  - assert (sort le l = []) as N by (rewrite <- (rev_involutive (sort le l)), E; reflexivity).
    destruct l as [|x l]; auto. exfalso. specialize (SI x). rewrite N in SI. destruct SI as (_ & SI). apply SI. left. auto.
  - assert (sort le l = rev r ++ [a]) as N by (rewrite <- (rev_involutive (sort le l)), E; reflexivity).
    rewrite N in *. split; [apply SI; rewrite in_app_iff; simpl; auto|]. split; [|apply ties_none; auto].
    intros b Hb. apply SI in Hb. apply in_app_iff in Hb as [Hb|[->|[]]]; [|lia].
    clear - SS Hb. induction (rev r) as [|x q IH]; [destruct Hb|]. simpl in SS. inv SS. destruct Hb as [->|Hb]; auto.
    rewrite Forall_forall in H2. assert (In a (q ++ [a])) as I by (rewrite in_app_iff; simpl; auto).
    specialize (H2 _ I). unfold le in H2. lia.
Qed.
Lemma NoDup_app_snoc {A} (l : list A) x : NoDup l -> ~ In x l -> NoDup (l ++ [x]).
Proof.
  intros H1 H2. apply (Permutation_NoDup (l := x :: l)); [apply Permutation_cons_append|constructor; auto].
Qed.
Lemma NoDup_app_disjoint {A} (l m : list A) :
  NoDup l -> NoDup m -> (forall x, In x l -> In x m -> False) -> NoDup (l ++ m).
Proof.
  intros H1 H2 D. induction l as [|x l IH]; simpl; auto. inv H1. constructor.
  - rewrite in_app_iff. intros [H|H]; auto. apply (D x); simpl; auto.
  - apply IH; auto. intros y Hy. apply D. right. auto.
Qed.
