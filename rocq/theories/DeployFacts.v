(** Facts about logs of overlapping calls, for Prop_Deploy.v. *)
From Coq Require Import Lia ZifyBool ZifyN ZifyNat.
From Verif Require Import Py PyFacts Association Nonce Store StoreSpec StoreFacts FileStore FileSys FileAtomic Prop_FileAtomic Deploy.
Open Scope Z_scope.
Local Arguments u : simpl never.

(** ** Answers *)
Lemma answers_cons i ev l : answers_in i (ev :: l) = answers_in i l ++ rev (answer_of i ev).
Proof. unfold answers_in. cbn [flat_map]. rewrite rev_app_distr. auto. Qed.
Lemma answer_of_rev i ev : rev (answer_of i ev) = answer_of i ev.
Proof. destruct ev as [j t o|j t o r]; cbn; auto. destruct (Nat.eqb j i); auto. Qed.
Lemma answers_app i l m : answers_in i (l ++ m) = answers_in i m ++ answers_in i l.
Proof. unfold answers_in. rewrite flat_map_app, rev_app_distr. auto. Qed.

(** Every call that ends is being made. *)
Fixpoint ends_ok (log : list event) : Prop :=
  match log with
  | [] => True
  | Began _ _ _ :: l => ends_ok l
  | Ended i _ o _ :: l => ends_ok l /\ running l i = Some o
  end.
Lemma ends_ok_all now A : asteps (a_init now) A -> calls_run A /\ ends_ok (a_log A).
Proof.
  intros S. apply (asteps_ind2 (fun A => calls_run A /\ ends_ok (a_log A)) now); auto.
  - split; [intros i o ans H; discriminate|exact I].
  - clear. intros A B (R & E) S. split; [eapply calls_run_step; eauto|]. destruct S as [A d|A k o C|A k o B r C Ef|A k o ans r C Tl|A k o r C|A k o ans C Sd|A k o r C Fr|A k|A url' a k t Rc Ex|A k url' C|A url' ts salt k ans C Old]; cbn [a_log ends_ok]; auto.
    + destruct (effect_keeps _ _ _ _ Ef) as (_ & -> & _). auto.
    + split; auto. eapply R; eauto.
    + split; auto. eapply R; eauto.
    + split; auto. eapply R; eauto.
Qed.
Lemma ends_ok_app l m : ends_ok (l ++ m) -> ends_ok m.
Proof. induction l as [|[j t o|j t o r] l IH]; cbn; auto. intros (H & _). auto. Qed.
Lemma obeys_app {J} (next : J -> list out -> option op) jobs l m : obeys next jobs (l ++ m) -> obeys next jobs m.
Proof. induction l as [|[j t o|j t o r] l IH]; cbn; auto. intros (H & _). auto. Qed.
Lemma running_split log i o : running log i = Some o ->
  exists m2 t m1, log = m2 ++ Began i t o :: m1 /\ answers_in i m1 = answers_in i log /\ (forall t' o', ~ In (Began i t' o') m2) /\ (forall t' o' r, ~ In (Ended i t' o' r) m2).
Proof.
  induction log as [|ev l IH]; [discriminate|]. intros R.
  destruct ev as [j t o'|j t o' r]; cbn in R; destruct (Nat.eqb i j) eqn:E; try discriminate.
  - apply Nat.eqb_eq in E. inv R. exists [], t, l. split; [auto|]. split; [rewrite answers_cons; cbn; rewrite app_nil_r; auto|]. split; intros; intros [].
  - destruct (IH R) as (m2 & t0 & m1 & -> & A & B & C). exists (Began j t o' :: m2), t0, m1. split; auto. split; [rewrite answers_cons; cbn; rewrite app_nil_r; auto|].
    apply Nat.eqb_neq in E. split; [intros t' o2 [X|X]; [inv X; auto|eapply B; eauto]|intros t' o2 r [X|X]; [discriminate|eapply C; eauto]].
  - destruct (IH R) as (m2 & t0 & m1 & -> & A & B & C). exists (Ended j t o' r :: m2), t0, m1. split; auto. apply Nat.eqb_neq in E. split; [rewrite answers_cons; cbn; rewrite (proj2 (Nat.eqb_neq j i)) by auto; cbn; rewrite app_nil_r; auto|].
    split; [intros t' o2 [X|X]; [discriminate|eapply B; eauto]|intros t' o2 r' [X|X]; [inv X; auto|eapply C; eauto]].
Qed.
Lemma running_app i l m : running (l ++ m) i = match running l i with Some o => Some o | None => running (l ++ m) i end.
Proof. induction l as [|[j t o|j t o r] l IH]; cbn; auto; destruct (Nat.eqb i j); auto. Qed.
Lemma running_app_cases i l m o : running (l ++ m) i = Some o -> (exists t, In (Began i t o) l) \/ running m i = Some o.
Proof.
  induction l as [|[j t o'|j t o' r] l IH]; cbn; auto; destruct (Nat.eqb i j) eqn:E; try discriminate.
  - apply Nat.eqb_eq in E. intros X. inv X. eauto.
  - intros X. destruct (IH X) as [(t' & H)|H]; eauto.
  - intros X. destruct (IH X) as [(t' & H)|H]; eauto.
Qed.
Section Jobs.
  Context {J : Type} (next : J -> list out -> option op) (jobs : list J).
  Lemma running_next log i j o : obeys next jobs log -> nth_error jobs i = Some j -> running log i = Some o -> next j (answers_in i log) = Some o.
  Proof using.
    intros O N R. destruct (running_split log i o R) as (m2 & t & m1 & -> & A & _). rewrite <- A. apply obeys_app in O. cbn in O. apply O. auto.
  Qed.
  (** The k-th answer that a job has had was the answer to its k-th call. *)
  Lemma nth_ended i j : nth_error jobs i = Some j -> forall log k, ends_ok log -> obeys next jobs log -> (k < List.length (answers_in i log))%nat ->
    exists l2 t o r l1, log = l2 ++ Ended i t o r :: l1 /\ answers_in i l1 = firstn k (answers_in i log) /\
      nth_error (answers_in i log) k = Some r /\ next j (firstn k (answers_in i log)) = Some o /\ running l1 i = Some o.
  Proof using.
    intros N. induction log as [|ev l IH]; intros k E O L; [cbn in L; lia|].
    assert (ends_ok l) as E' by (apply (ends_ok_app [ev]); auto). assert (obeys next jobs l) as O' by (apply (obeys_app _ _ [ev]); auto).
    rewrite answers_cons, answer_of_rev in *. destruct (Nat.lt_ge_cases k (List.length (answers_in i l))) as [Lk|Ge].
    - destruct (IH k E' O' Lk) as (l2 & t & o & r & l1 & -> & A & B & C & D). exists (ev :: l2), t, o, r, l1.
      rewrite firstn_app, (proj2 (Nat.sub_0_le _ _)) by lia. cbn [firstn]. rewrite app_nil_r, nth_error_app1 by auto. auto.
    - destruct ev as [j' t o|j' t o r]; cbn [answer_of] in *; [rewrite app_nil_r in L; lia|]. destruct (Nat.eqb j' i) eqn:Q; [|rewrite app_nil_r in L; lia].
      apply Nat.eqb_eq in Q. subst j'. rewrite app_length in L. cbn in L. assert (k = List.length (answers_in i l)) as -> by lia. destruct E as (_ & E).
      exists [], t, o, r, l. rewrite firstn_app, Nat.sub_diag, firstn_all, firstn_O, app_nil_r, nth_error_app2, Nat.sub_diag by lia. split; auto. split; auto. split; auto. split; auto.
      apply running_next; auto.
  Qed.
  (** Every call is allowed to the one who begins it. *)
  Lemma began_next log i t o : obeys next jobs log -> In (Began i t o) log -> nth_error jobs i = None \/ exists j outs, nth_error jobs i = Some j /\ next j outs = Some o.
  Proof using.
    intros O H. apply in_split in H as (l2 & l1 & ->). apply obeys_app in O. cbn in O. destruct (nth_error jobs i) as [j|]; auto. right. exists j, (answers_in i l1). split; auto. apply O. auto.
  Qed.
End Jobs.

(** ** What a lookup finds has been stored *)
Definition begun (url : text) (a : assoc) (log : list event) : Prop := exists k t, In (Began k t (StoreA url a)) log.
Definition sinv (A : amach) : Prop :=
  calls_run A /\
  (forall url h a, a_reg A url h = Some a -> a_handle a = h /\ begun url a (a_log A)) /\
  (forall i url (h : text) a, h <> [] -> a_call A i = Some (GetA url (Some h), Some (Got (Some a))) -> a_handle a = h /\ begun url a (a_log A)) /\
  (forall l2 i t url (h : text) a l1, h <> [] -> a_log A = l2 ++ Ended i t (GetA url (Some h)) (Got (Some a)) :: l1 -> a_handle a = h /\ begun url a l1).
Lemma begun_cons url a ev l : begun url a l -> begun url a (ev :: l).
Proof. intros (k & t & H). exists k, t. right. auto. Qed.
Lemma put_cases reg url h v url' h' a : put reg url h v url' h' = Some a -> (url' = url /\ h' = h /\ v = Some a) \/ reg url' h' = Some a.
Proof. unfold put. destruct (_ && _) eqn:E; auto. apply andb_true_iff in E as (E1 & E2). apply text_eqb_eq in E1, E2. auto. Qed.
Lemma get_free url (h : text) : h <> [] -> free (GetA url (Some h)) = false.
Proof. intros N. cbn. destruct h; auto. contradiction. Qed.
Lemma sinv_step A B : sinv A -> astep A B -> sinv B.
Proof.
  intros (R & I1 & I2 & I3) S. split; [eapply calls_run_step; eauto|].
  destruct S as [A d|A k o C|A k o B r C Ef|A k o ans r C Tl|A k o r C|A k o ans C Sd|A k o r C Fr|A k|A url' a k t Rc Ex|A k url' C|A url' ts salt k ans C Old]; cbn [a_log a_clock a_reg a_call] in *; try (split; [exact I1|split; [exact I2|exact I3]]).
  - split; [intros url h a H; destruct (I1 url h a H); split; auto using begun_cons|]. split.
    + intros i url h a Ne H. apply set_call_cases in H as [(_ & H)|(_ & H)]; [discriminate|]. destruct (I2 i url h a Ne H); split; auto using begun_cons.
    + intros l2 i t url h a l1 Ne H. destruct l2 as [|x l2]; cbn in H; apply cons_eq in H as (H1 & H2); [discriminate|]. eapply I3; eauto.
  - destruct (effect_keeps _ _ _ _ Ef) as (_ & E2 & E3). rewrite E2, E3. split; [|split; auto].
    + intros url h a H. unfold effect in Ef. destruct (free o); [discriminate|]. destruct o as [url' b|url' [h'|]|url' h'|url' ts salt| |]; inv Ef; cbn [a_reg] in H; auto.
      * apply put_cases in H as [(-> & -> & H)|H]; auto. inv H. split; auto. destruct (running_began _ _ _ (R _ _ _ C)) as (t & X). exists k, t. auto.
      * apply put_cases in H as [(_ & _ & H)|H]; [discriminate|auto].
    + intros i url h a Ne H. apply set_call_cases in H as [(-> & H)|(_ & H)]; [|eauto]. inv H. unfold effect in Ef. rewrite (get_free url h Ne) in Ef. inv Ef. auto.
  - split; [exact I1|split; [|exact I3]]. intros i url h a Ne H. apply set_call_cases in H as [(-> & H)|(_ & H)]; [|eauto]. inv H. destruct Tl as (Tl & _). discriminate.
  - split; [intros url h a H; destruct (I1 url h a H); split; auto using begun_cons|]. split.
    + intros i url h a Ne H. apply set_call_cases in H as [(_ & H)|(_ & H)]; [discriminate|]. destruct (I2 i url h a Ne H); split; auto using begun_cons.
    + intros l2 i t url h a l1 Ne H. destruct l2 as [|x l2]; cbn in H; apply cons_eq in H as (H1 & H2); [|eapply I3; eauto]. inv H1. eauto.
  - split; [intros url h a H; destruct (I1 url h a H); split; auto using begun_cons|]. split.
    + intros i url h a Ne H. apply set_call_cases in H as [(_ & H)|(_ & H)]; [discriminate|]. destruct (I2 i url h a Ne H); split; auto using begun_cons.
    + intros l2 i t url h a l1 Ne H. destruct l2 as [|x l2]; cbn in H; apply cons_eq in H as (H1 & H2); [|eapply I3; eauto]. inv H1.
  - split; [intros url h a H; destruct (I1 url h a H); split; auto using begun_cons|]. split.
    + intros i url h a Ne H. apply set_call_cases in H as [(_ & H)|(_ & H)]; [discriminate|]. destruct (I2 i url h a Ne H); split; auto using begun_cons.
    + intros l2 i t url h a l1 Ne H. destruct l2 as [|x l2]; cbn in H; apply cons_eq in H as (H1 & H2); [|eapply I3; eauto]. inv H1. rewrite (get_free url h Ne) in Fr. discriminate.
  - split; [exact I1|split; [|exact I3]]. intros i url h a Ne H. apply set_call_cases in H as [(_ & H)|(_ & H)]; [discriminate|eauto].
  - split; [|split; [exact I2|exact I3]]. intros url h b H. apply put_cases in H as [(_ & _ & H)|H]; [discriminate|auto].
  - split; [|split; [exact I2|exact I3]]. intros url h b H. apply put_cases in H as [(_ & _ & H)|H]; [discriminate|auto].
Qed.
Lemma found_stored now A : asteps (a_init now) A -> forall l2 i t url (h : text) a l1, h <> [] ->
  a_log A = l2 ++ Ended i t (GetA url (Some h)) (Got (Some a)) :: l1 -> a_handle a = h /\ begun url a l1.
Proof.
  intros S. assert (sinv A) as (_ & _ & _ & H); [|exact H]. apply (asteps_ind2 sinv now); auto; [|intros; eapply sinv_step; eauto].
  split; [intros i o ans H; discriminate|]. split; [discriminate|]. split; [discriminate|]. intros l2 i t url h a l1 _ H. destruct l2; discriminate.
Qed.

(** ** What has been removed is not found *)
Section Gone.
  Variables (url h : text) (m0 : list event).
  Hypothesis nonempty : h <> [].
  (** No association is being stored under this key at m0, and none afterwards. *)
  Definition stores (o : op) : Prop := match o with StoreA url' b => url' = url /\ a_handle b = h | _ => False end.
  Hypothesis quiet : forall k o, running m0 k = Some o -> ~ stores o.
  Definition no_store (post : list event) : Prop := forall k t o, In (Began k t o) post -> ~ stores o.
  (** Something that has been stored under this key has expired by t. *)
  Definition stale (t : Z) (log : list event) : Prop := exists b, begun url b log /\ a_handle b = h /\ a_issued b + a_lifetime b <= t.
  Definition gone (A : amach) : Prop := a_reg A url h = None \/ stale (a_clock A) (a_log A).
  Notation rem := (RemoveA url h).
  Notation get := (GetA url (Some h)).
  (** In [post] a removal began and ended; and after it process j began a lookup which it is still making. *)
  Definition removed (post : list event) : Prop :=
    exists p2 i t r p1, post = p2 ++ Ended i t rem r :: p1 /\ r <> Err OSError /\ running p1 i = Some rem.
  Definition behind_rem (j : nat) (post : list event) : Prop :=
    exists p2 p1, post = p2 ++ p1 /\ removed p1 /\ running p2 j = Some get.
  Definition qinv (A : amach) : Prop :=
    calls_run A /\
    (forall post, a_log A = post ++ m0 -> no_store post ->
      ((exists i r, a_call A i = Some (rem, Some r) /\ running post i = Some rem) \/ removed post -> gone A) /\
      (forall j a, a_call A j = Some (get, Some (Got (Some a))) -> behind_rem j post -> stale (a_clock A) (a_log A))) /\
    (forall l2 j t a p, a_log A = l2 ++ Ended j t get (Got (Some a)) :: p ++ m0 -> no_store p -> behind_rem j p -> stale t (p ++ m0)).

  Lemma stale_later t t' log log' : stale t log -> t <= t' -> incl log log' -> stale t' log'.
  Proof using. intros (b & (k & s & B) & E & X) L I. exists b. split; [exists k, s; auto|]. split; auto. clear - X L. lia. Qed.
  Lemma removed_cons ev post : removed (ev :: post) -> removed post \/ exists i t r, ev = Ended i t rem r /\ r <> Err OSError /\ running post i = Some rem.
  Proof using.
    intros (p2 & i & t & r & p1 & E & Ne & R). destruct p2 as [|x p2]; cbn in E; apply cons_eq in E as (E1 & E2); [subst; eauto 10|]. left. exists p2, i, t, r, p1. auto.
  Qed.
  Lemma removed_more ev post : removed post -> removed (ev :: post).
  Proof using. intros (p2 & i & t & r & p1 & -> & H). exists (ev :: p2), i, t, r, p1. auto. Qed.
  Lemma removed_pre l post : removed post -> removed (l ++ post).
  Proof using. induction l; cbn; auto using removed_more. Qed.
  Lemma behind_removed j post : behind_rem j post -> removed post.
  Proof using. intros (p2 & p1 & -> & H & _). apply removed_pre. auto. Qed.
  Lemma behind_cons j ev post : behind_rem j (ev :: post) -> behind_rem j post \/ exists t, ev = Began j t get /\ removed post.
  Proof using.
    intros (p2 & p1 & E & Rm & Ru). destruct p2 as [|x p2]; [discriminate|]. cbn in E. apply cons_eq in E as (-> & ->). cbn in Ru. destruct x as [k t o|k t o r]; destruct (Nat.eqb j k) eqn:Q; try discriminate.
    - apply Nat.eqb_eq in Q. subst. inv Ru. right. exists t. split; auto. apply removed_pre. auto.
    - left. exists p2, p1. auto.
    - left. exists p2, p1. auto.
  Qed.
  Lemma no_store_call A post : calls_run A -> a_log A = post ++ m0 -> no_store post -> forall k o ans, a_call A k = Some (o, ans) -> ~ stores o.
  Proof using quiet.
    intros R L N k o ans C. apply R in C. rewrite L in C. apply running_app_cases in C as [(t & C)|C]; [eapply N; eauto|eapply quiet; eauto].
  Qed.
  Lemma rem_free : free rem = false. Proof using nonempty. clear - nonempty. cbn. destruct h; auto. contradiction. Qed.
  Lemma reg_put reg url' h' v : put reg url' h' v url h = (if text_eqb url url' && text_eqb h h' then v else reg url h).
  Proof using. reflexivity. Qed.
  (** Steps that do not end or begin a call. *)
  Lemma qinv_step A B : qinv A -> astep A B -> qinv B.
  Proof using nonempty quiet.
    intros (R & I1 & I2) S. split; [eapply calls_run_step; eauto|].
    pose proof (step_grows A B S) as (Gc & Gl).
    destruct S as [A d|A k o C|A k o B r C Ef|A k o ans r C Tl|A k o r C|A k o ans C Sd|A k o r C Fr|A k|A url' a k t Rc Ex|A k url' C|A url' ts salt k ans C Old]; cbn [a_log a_clock a_reg a_call] in *.
    - (* tick *) split; [|exact I2]. intros post L N. destruct (I1 post L N) as (J1 & J2). split.
      + intros H. destruct (J1 H) as [G|G]; [left; auto|right; eapply stale_later; eauto].
      + intros j a Cj Bh. eapply stale_later; [apply (J2 j a Cj Bh)|auto|auto].
    - (* begin *) split.
      + intros post L N. destruct post as [|x post].
        { split; [|intros j a _ Bh; apply behind_removed in Bh; destruct Bh as ([|] & ? & ? & ? & ? & X & _); discriminate].
          intros [(i & r & _ & X)|([|] & ? & ? & ? & ? & X & _)]; discriminate. }
        cbn in L. apply cons_eq in L as (<- & L). assert (no_store post) as N' by (intros k' t' o' X; eapply N; right; eauto). destruct (I1 post L N') as (J1 & J2). split.
        * intros H. assert (gone A) as [G|G]; [|left; auto|right; eapply stale_later; eauto].
          destruct H as [(i & r & Ci & Ru)|H].
          -- apply set_call_cases in Ci as [(_ & Ci)|(Ne & Ci)]; [discriminate|]. apply J1. left. exists i, r. split; auto. cbn in Ru. apply Nat.eqb_neq in Ne. rewrite Ne in Ru. auto.
          -- apply J1. right. apply removed_cons in H as [H|(i & t & r & X & _)]; [auto|discriminate].
        * intros j a Cj Bh. apply set_call_cases in Cj as [(_ & Cj)|(Ne & Cj)]; [discriminate|]. eapply stale_later; [apply (J2 j a Cj)|apply Z.le_refl|auto].
          apply behind_cons in Bh as [Bh|(t & X & _)]; auto. inv X. contradiction.
      + intros l2 j t a p L N Bh. destruct l2 as [|x l2]; cbn in L; apply cons_eq in L as (L1 & L2); [discriminate|]. eapply I2; eauto.
    - (* act *) destruct (effect_keeps _ _ _ _ Ef) as (E1 & E2 & E3). rewrite E1, E2, E3 in *. split; [|exact I2]. intros post L N. destruct (I1 post L N) as (J1 & J2).
      pose proof (no_store_call A post R L N) as Nc.
      assert (gone A -> gone (mkA (a_clock A) (a_reg B) (a_used B) (set_call (a_call A) k (Some (o, Some r))) (a_log A))) as Keep.
      { intros [G|G]; [left|right; exact G]. cbn. unfold effect in Ef. destruct (free o); [discriminate|]. destruct o as [url' b|url' [h'|]|url' h'|url' ts salt| |]; inv Ef; cbn [a_reg]; auto; rewrite reg_put; destruct (_ && _) eqn:Q; auto.
        apply andb_true_iff in Q as (Q1 & Q2). apply text_eqb_eq in Q1, Q2. subst. exfalso. apply (Nc _ _ _ C). cbn. auto. }
      split.
      + intros H. destruct H as [(i & r' & Ci & Ru)|H]; [|apply Keep, J1; auto].
        apply set_call_cases in Ci as [(-> & Ci)|(Ne & Ci)]; [|apply Keep, J1; eauto]. inv Ci. unfold effect in Ef. rewrite rem_free in Ef. inv Ef. left. cbn. rewrite reg_put, !(proj2 (text_eqb_eq _ _) eq_refl). auto.
      + intros j a Cj Bh. apply set_call_cases in Cj as [(-> & Cj)|(Ne & Cj)]; [|eauto]. inv Cj. unfold effect in Ef. rewrite (get_free url h nonempty) in Ef. inv Ef.
        destruct (J1 (or_intror (behind_removed _ _ Bh))) as [G|G]; auto. congruence.
    - (* late *) split; [|exact I2]. intros post L N. destruct (I1 post L N) as (J1 & J2). split.
      + intros [(i & r' & Ci & Ru)|H].
        * apply set_call_cases in Ci as [(-> & Ci)|(Ne & Ci)]; [|destruct (J1 (or_introl (ex_intro _ i (ex_intro _ r' (conj Ci Ru))))) as [G|G]; [left|right]; auto].
          inv Ci. cbn in Tl. destruct Tl as (_ & _ & b & i & t & T1 & T2 & T3). right. exists b. split; [exists i, t; auto|]. split; auto. rewrite expired_spec in T3. clear - T3. cbn. lia.
        * destruct (J1 (or_intror H)) as [G|G]; [left|right]; auto.
      + intros j a Cj Bh. apply set_call_cases in Cj as [(-> & Cj)|(Ne & Cj)]; [|eauto]. inv Cj. destruct Tl as (Tl & _). discriminate.
    - (* end *) split.
      + intros post L N. destruct post as [|x post].
        { split; [|intros j a _ Bh; apply behind_removed in Bh; destruct Bh as ([|] & ? & ? & ? & ? & X & _); discriminate].
          intros [(i & r' & _ & X)|([|] & ? & ? & ? & ? & X & _)]; discriminate. }
        cbn in L. apply cons_eq in L as (<- & L). assert (no_store post) as N' by (intros k' t' o' X; eapply N; right; eauto). destruct (I1 post L N') as (J1 & J2). split.
        * intros H. assert (gone A) as [G|G]; [|left; auto|right; eapply stale_later; eauto].
          destruct H as [(i & r' & Ci & Ru)|H].
          -- apply set_call_cases in Ci as [(_ & Ci)|(Ne & Ci)]; [discriminate|]. apply J1. left. exists i, r'. split; auto. cbn in Ru. apply Nat.eqb_neq in Ne. rewrite Ne in Ru. auto.
          -- apply removed_cons in H as [H|(i & t & r' & X & Nr & Ru)]; [apply J1; auto|]. inv X. apply J1. left. exists i, r'. auto.
        * intros j a Cj Bh. apply set_call_cases in Cj as [(_ & Cj)|(Ne & Cj)]; [discriminate|]. eapply stale_later; [apply (J2 j a Cj)|apply Z.le_refl|auto].
          apply behind_cons in Bh as [Bh|(t & X & _)]; [auto|discriminate].
      + intros l2 j t a p L N Bh. destruct l2 as [|x l2]; cbn in L; apply cons_eq in L as (L1 & L2); [|eapply I2; eauto]. inv L1. destruct (I1 p L2 N) as (_ & J2). rewrite <- L2. eauto.
    - (* fail *) split.
      + intros post L N. destruct post as [|x post].
        { split; [|intros j a _ Bh; apply behind_removed in Bh; destruct Bh as ([|] & ? & ? & ? & ? & X & _); discriminate].
          intros [(i & r' & _ & X)|([|] & ? & ? & ? & ? & X & _)]; discriminate. }
        cbn in L. apply cons_eq in L as (<- & L). assert (no_store post) as N' by (intros k' t' o' X; eapply N; right; eauto). destruct (I1 post L N') as (J1 & J2). split.
        * intros H. assert (gone A) as [G|G]; [|left; auto|right; eapply stale_later; eauto].
          destruct H as [(i & r' & Ci & Ru)|H].
          -- apply set_call_cases in Ci as [(_ & Ci)|(Ne & Ci)]; [discriminate|]. apply J1. left. exists i, r'. split; auto. cbn in Ru. apply Nat.eqb_neq in Ne. rewrite Ne in Ru. auto.
          -- apply removed_cons in H as [H|(i & t & r' & X & Nr & Ru)]; [apply J1; auto|]. inv X. contradiction.
        * intros j a Cj Bh. apply set_call_cases in Cj as [(_ & Cj)|(Ne & Cj)]; [discriminate|]. eapply stale_later; [apply (J2 j a Cj)|apply Z.le_refl|auto].
          apply behind_cons in Bh as [Bh|(t & X & _)]; [auto|discriminate].
      + intros l2 j t a p L N Bh. destruct l2 as [|x l2]; cbn in L; apply cons_eq in L as (L1 & L2); [discriminate|]. eapply I2; eauto.
    - (* free *) split.
      + intros post L N. destruct post as [|x post].
        { split; [|intros j a _ Bh; apply behind_removed in Bh; destruct Bh as ([|] & ? & ? & ? & ? & X & _); discriminate].
          intros [(i & r' & _ & X)|([|] & ? & ? & ? & ? & X & _)]; discriminate. }
        cbn in L. apply cons_eq in L as (<- & L). assert (no_store post) as N' by (intros k' t' o' X; eapply N; right; eauto). destruct (I1 post L N') as (J1 & J2). split.
        * intros H. assert (gone A) as [G|G]; [|left; auto|right; eapply stale_later; eauto].
          destruct H as [(i & r' & Ci & Ru)|H].
          -- apply set_call_cases in Ci as [(_ & Ci)|(Ne & Ci)]; [discriminate|]. apply J1. left. exists i, r'. split; auto. cbn in Ru. apply Nat.eqb_neq in Ne. rewrite Ne in Ru. auto.
          -- apply removed_cons in H as [H|(i & t & r' & X & Nr & Ru)]; [apply J1; auto|]. inv X. rewrite rem_free in Fr. discriminate.
        * intros j a Cj Bh. apply set_call_cases in Cj as [(_ & Cj)|(Ne & Cj)]; [discriminate|]. eapply stale_later; [apply (J2 j a Cj)|apply Z.le_refl|auto].
          apply behind_cons in Bh as [Bh|(t & X & _)]; [auto|discriminate].
      + intros l2 j t a p L N Bh. destruct l2 as [|x l2]; cbn in L; apply cons_eq in L as (L1 & L2); [|eapply I2; eauto]. inv L1. rewrite (get_free url h nonempty) in Fr. discriminate.
    - (* crash *) split; [|exact I2]. intros post L N. destruct (I1 post L N) as (J1 & J2). split.
      + intros [(i & r' & Ci & Ru)|H].
        * apply set_call_cases in Ci as [(_ & Ci)|(Ne & Ci)]; [discriminate|]. destruct (J1 (or_introl (ex_intro _ i (ex_intro _ r' (conj Ci Ru))))) as [G|G]; [left|right]; auto.
        * destruct (J1 (or_intror H)) as [G|G]; [left|right]; auto.
      + intros j a Cj Bh. apply set_call_cases in Cj as [(_ & Cj)|(Ne & Cj)]; [discriminate|eauto].
    - (* drop *) split; [|exact I2]. intros post L N. destruct (I1 post L N) as (J1 & J2). split; [|exact J2].
      intros H. destruct (J1 H) as [G|G]; [left|right; auto]. cbn. rewrite reg_put. destruct (_ && _); auto.
    - (* wipe *) split; [|exact I2]. intros post L N. destruct (I1 post L N) as (J1 & J2). split; [|exact J2].
      intros H. destruct (J1 H) as [G|G]; [left|right; auto]. cbn. rewrite reg_put. destruct (_ && _); auto.
    - (* forget *) split; [|exact I2]. intros post L N. destruct (I1 post L N) as (J1 & J2). split; [|exact J2].
      intros H. destruct (J1 H) as [G|G]; [left|right]; auto.
  Qed.
  Lemma removed_not_found now A : asteps (a_init now) A -> forall l2 j t a p, a_log A = l2 ++ Ended j t get (Got (Some a)) :: p ++ m0 ->
    no_store p -> behind_rem j p -> stale t (p ++ m0).
  Proof using nonempty quiet.
    intros S. assert (qinv A) as (_ & _ & H); [|exact H]. apply (asteps_ind2 qinv now); auto; [|intros; eapply qinv_step; eauto].
    split; [intros i o ans H; discriminate|]. split.
    - intros post L N. destruct post; [|discriminate]. split; [|discriminate]. intros _. left. auto.
    - intros l2 j t a p L. destruct l2; discriminate.
  Qed.
End Gone.

(** ** Splitting logs *)
Lemma app_split {A : Type} (a b c d : list A) : a ++ b = c ++ d -> exists x, (c = a ++ x /\ b = x ++ d) \/ (a = c ++ x /\ d = x ++ b).
Proof. revert c. induction a as [|y a IH]; intros [|z c] H; cbn in *; eauto. apply cons_eq in H as (-> & H). destruct (IH _ H) as (x & [(-> & ->)|(-> & ->)]); eauto. Qed.
Lemma running_app2 i l m o : running (l ++ m) i = Some o -> running l i = Some o \/ (running m i = Some o /\ answers_in i l = []).
Proof.
  induction l as [|ev l IH]; [auto|]. rewrite answers_cons, answer_of_rev. destruct ev as [j t o'|j t o' r]; cbn [app running answer_of]; destruct (Nat.eqb i j) eqn:E; auto; try discriminate.
  - intros H. destruct (IH H) as [X|(X & Y)]; auto. right. rewrite Y. auto.
  - intros H. destruct (IH H) as [X|(X & Y)]; auto. right. rewrite Y. rewrite Nat.eqb_sym, E. auto.
Qed.
(** An answer that was not had by l1 came after it. *)
Lemma ended_after i l2 l1 p2 t o r p1 : l2 ++ l1 = p2 ++ Ended i t o r :: p1 -> answers_in i l1 = [] -> exists q, p1 = q ++ l1 /\ l2 = p2 ++ Ended i t o r :: q.
Proof.
  intros E N. assert (answers_in i (Ended i t o r :: p1) <> []) as X. { rewrite answers_cons, answer_of_rev. cbn. rewrite Nat.eqb_refl. destruct (answers_in i p1); discriminate. }
  apply app_split in E as (x & [(-> & ->)|(-> & E)]).
  - rewrite answers_app in N. apply app_eq_nil in N as (N & _). contradiction.
  - destruct x as [|y x]; cbn in E; [rewrite <- E in N; contradiction|]. apply cons_eq in E as (<- & ->). eauto.
Qed.
