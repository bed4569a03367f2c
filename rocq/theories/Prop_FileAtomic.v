(** C167-C171: what follows for overlapping calls of the file store from their being atomic. *)
From Coq Require Import Lia ZifyBool ZifyN ZifyNat.
From Verif Require Import Py PyFacts Association Nonce Store StoreSpec StoreFacts CryptUtil CryptUtilFacts FileStore FileStoreFacts Prop_KVForm Prop_StoreMem Prop_StoreSql Prop_FileNames Prop_StoreFile FileSys FileAtomic FileSysFacts Prop_FileSys.
Open Scope Z_scope.
Local Arguments u : simpl never.

(** ** Steps of the machine *)
Lemma asteps_ind2 (P : amach -> Prop) now : P (a_init now) -> (forall A B, P A -> astep A B -> P B) -> forall A, asteps (a_init now) A -> P A.
Proof.
  intros H0 HS A S. remember (a_init now) as A0 eqn:E. induction S; subst; auto. apply (HS B); auto.
Qed.
(** The call that process i makes, as far as the log tells. *)
Fixpoint running (log : list event) (i : nat) : option op :=
  match log with
  | [] => None
  | Began j _ o :: l => if Nat.eqb i j then Some o else running l i
  | Ended j _ _ _ :: l => if Nat.eqb i j then None else running l i
  end.
Lemma step_grows A B : astep A B -> a_clock A <= a_clock B /\ incl (a_log A) (a_log B).
Proof.
  intros S. destruct S; cbn; (split; [try lia|try apply incl_refl; try (intros x Hx; right; exact Hx)]).
  - unfold effect in H0. destruct (free o); [discriminate|]. destruct o as [url a|url [h|]|url h|url ts salt| |]; inv H0; cbn; lia.
  - unfold effect in H0. destruct (free o); [discriminate|]. destruct o as [url a|url [h|]|url h|url ts salt| |]; inv H0; cbn; apply incl_refl.
Qed.
Lemma effect_keeps A o B r : effect A o = Some (B, r) -> a_clock B = a_clock A /\ a_log B = a_log A /\ a_call B = a_call A.
Proof. unfold effect. destruct (free o); [discriminate|]. destruct o as [url a|url [h|]|url h|url ts salt| |]; intros E; inv E; auto. Qed.
Definition calls_run (A : amach) : Prop := forall i o ans, a_call A i = Some (o, ans) -> running (a_log A) i = Some o.
Lemma set_call_cases f i v j w : set_call f i v j = w -> (j = i /\ v = w) \/ (j <> i /\ f j = w).
Proof. unfold set_call. destruct (Nat.eqb j i) eqn:E; intros <-; [left; apply Nat.eqb_eq in E; auto|right; apply Nat.eqb_neq in E; auto]. Qed.
Lemma calls_run_step A B : calls_run A -> astep A B -> calls_run B.
Proof.
  intros I S. destruct S; intros j o' ans' C; cbn in *; auto; try (apply (I j o' ans' C)).
  - apply set_call_cases in C as [(-> & C)|(N & C)]; [inv C; rewrite Nat.eqb_refl; auto|]. apply Nat.eqb_neq in N. rewrite N. eapply I; eauto.
  - destruct (effect_keeps _ _ _ _ H0) as (_ & E2 & E3). rewrite E2. rewrite E3 in C. apply set_call_cases in C as [(-> & C)|(N & C)]; [inv C|]; eapply I; eauto.
  - apply set_call_cases in C as [(-> & C)|(N & C)]; [inv C|]; eapply I; eauto.
  - apply set_call_cases in C as [(-> & C)|(N & C)]; [discriminate|]. apply Nat.eqb_neq in N. rewrite N. eapply I; eauto.
  - apply set_call_cases in C as [(-> & C)|(N & C)]; [discriminate|]. apply Nat.eqb_neq in N. rewrite N. eapply I; eauto.
  - apply set_call_cases in C as [(-> & C)|(N & C)]; [discriminate|]. apply Nat.eqb_neq in N. rewrite N. eapply I; eauto.
  - apply set_call_cases in C as [(-> & C)|(N & C)]; [discriminate|]. eapply I; eauto.
Qed.
Lemma running_began log i o : running log i = Some o -> exists t, In (Began i t o) log.
Proof.
  induction log as [|[j t o'|j t o' r] l IH]; cbn; [discriminate| |]; destruct (Nat.eqb i j) eqn:E.
  - apply Nat.eqb_eq in E. intros Q. inv Q. eauto.
  - intros Q. destruct (IH Q) as (t' & H). eauto.
  - discriminate.
  - intros Q. destruct (IH Q) as (t' & H). eauto.
Qed.

Lemma cons_eq {X} (x y : X) l m : x :: l = y :: m -> x = y /\ l = m.
Proof. intros E. injection E. auto. Qed.

(** ** A lookup sees the last change *)
Definition touches (url h : text) (o : op) : bool :=
  match o with
  | StoreA url' b => text_eqb url' url && text_eqb (a_handle b) h
  | RemoveA url' h' => text_eqb url' url && text_eqb h' h
  | _ => false
  end.
Definition leaves (o : op) : option assoc := match o with StoreA _ a => Some a | _ => None end.
(** Nothing stored under this key has expired by t. *)
Definition unexpired (url h : text) (t : Z) (log : list event) : Prop :=
  forall k t' b, In (Began k t' (StoreA url b)) log -> a_handle b = h -> t < a_issued b + a_lifetime b.
Section Register.
  Variables (url h : text) (i : nat) (t0 : Z) (o0 : op) (m1 : list event).
  Hypothesis nonempty : h <> [].
  Hypothesis mine : touches url h o0 = true.
  Hypothesis alone : forall k o, k <> i -> running m1 k = Some o -> touches url h o = false.
  Let e0 := Began i t0 o0.
  Definition still (post : list event) : Prop := forall k t o, In (Began k t o) post -> touches url h o = false.
  Definition fresh (A : amach) : Prop := unexpired url h (a_clock A) (a_log A).
  (** The call of process j that began in [post] began after the change had ended. *)
  Definition behind (j : nat) (post : list event) : Prop :=
    exists p2 t1 p1 t r, post = p2 ++ Began j t1 (GetA url (Some h)) :: p1 /\ (forall t o, ~ In (Began j t o) p2) /\
      In (Ended i t o0 r) p1 /\ r <> Err OSError.
  Definition rinv (A : amach) : Prop :=
    calls_run A /\
    forall post, a_log A = post ++ e0 :: m1 -> still post ->
      (forall k o ans, a_call A k = Some (o, ans) -> touches url h o = true -> k = i /\ o = o0) /\
      (fresh A -> (exists r, a_call A i = Some (o0, Some r)) \/ (exists t r, In (Ended i t o0 r) post /\ r <> Err OSError) -> a_reg A url h = leaves o0) /\
      (fresh A -> forall j r, a_call A j = Some (GetA url (Some h), Some r) -> behind j post -> r = Got (leaves o0)).
  Definition rlog (A : amach) : Prop :=
    forall p3 j t r p2, a_log A = p3 ++ Ended j t (GetA url (Some h)) r :: p2 ++ e0 :: m1 -> still p2 -> behind j p2 -> unexpired url h t (p2 ++ e0 :: m1) ->
      r = Got (leaves o0) \/ r = Err OSError.
  Lemma fresh_back A B : astep A B -> fresh B -> fresh A.
  Proof using.
    intros S F k t b H E. destruct (step_grows A B S) as (C & L). specialize (F k t b (L _ H) E). clear - F C. lia.
  Qed.
  Lemma not_free_get : free (GetA url (Some h)) = false.
  Proof using nonempty. clear - nonempty. cbn. destruct h; auto. contradiction. Qed.
  Lemma not_free_mine o : touches url h o = true -> free o = false.
  Proof using nonempty.
    destruct o as [url' a|url' oh|url' h'|url' ts salt| |]; cbn; try discriminate; auto. rewrite andb_true_iff, !text_eqb_eq. intros (-> & ->). clear - nonempty. destruct h; auto. contradiction.
  Qed.
  Lemma mine_fresh A post : a_log A = post ++ e0 :: m1 -> fresh A -> forall a, leaves o0 = Some a -> expired a (a_clock A) = false.
  Proof using mine.
    intros L F a E. rewrite expired_spec. destruct o0 as [url' b|url' oh|url' h'|url' ts salt| |] eqn:Eo; try discriminate. cbn in E. inv E.
    cbn in mine. rewrite andb_true_iff, !text_eqb_eq in mine. destruct mine as (-> & M).
    assert (a_clock A < a_issued a + a_lifetime a) as X. { apply (F i t0 a); auto. rewrite L. apply in_or_app. right. left. auto. } clear - X. lia.
  Qed.
  (** Steps that leave the log as it is. *)
  Lemma touches_key o : touches url h o = true -> (exists a, o = StoreA url a /\ a_handle a = h) \/ o = RemoveA url h.
  Proof using.
    destruct o as [url' a|url' oh|url' h'|url' ts salt| |]; cbn; try discriminate; rewrite andb_true_iff, !text_eqb_eq; intros (-> & E); [left; eauto|right; subst; auto].
  Qed.
  Lemma put_touch reg url' h' v : touches url h (RemoveA url' h') = false -> put reg url' h' v url h = reg url h.
  Proof using.
    cbn. intros E. unfold put. destruct (text_eqb url url') eqn:E1; auto. destruct (text_eqb h h') eqn:E2; auto. apply text_eqb_eq in E1, E2.
    rewrite <- E1, <- E2, !(proj2 (text_eqb_eq _ _) eq_refl) in E. discriminate.
  Qed.
  Lemma put_mine reg v : put reg url h v url h = v.
  Proof using. unfold put. rewrite !(proj2 (text_eqb_eq _ _) eq_refl). auto. Qed.
  Lemma rinv_step A B : rinv A -> astep A B -> rinv B.
  Proof using nonempty mine alone.
    intros (R & I) S. split; [eapply calls_run_step; eauto|]. intros post L St. pose proof (fresh_back A B S) as Fb.
    destruct S as [A d|A k o C|A k o B r C E|A k o ans r C Tl|A k o r C|A k o ans C Sd|A k o r C Fr|A k|A url' a k t Rc Ex|A k url' C|A url' ts salt k ans C Old]; cbn [a_log a_clock a_reg a_call] in *.
    - destruct (I post L St) as (I1 & I2 & I3). split; [exact I1|]. split; [auto|]. intros F. exact (I3 (Fb F)).
    - (* begin *)
      destruct post as [|e post]; cbn in L; apply cons_eq in L as (L1 & L2).
      + unfold e0 in L1. injection L1 as -> _ ->. rewrite L2 in *. split; [|split].
        * intros k' o' ans' C' T'. cbn in C'. apply set_call_cases in C' as [(-> & C')|(N & C')]; [inv C'; auto|]. exfalso.
          apply R in C'. rewrite L2 in C'. rewrite (alone k' o' N C') in T'. discriminate.
        * intros _ [(r & C')|(t & r & [] & _)]. cbn in C'. unfold set_call in C'. rewrite Nat.eqb_refl in C'. discriminate.
        * intros _ j r _ (p2 & ? & ? & ? & ? & Q & _). destruct p2; discriminate.
      + subst e. assert (still post) as St' by (intros k' t o' H; apply (St k' t o'); right; auto). destruct (I post L2 St') as (I1 & I2 & I3).
        assert (touches url h o = false) as To by (apply (St k (a_clock A) o); left; auto). split; [|split].
        * intros k' o' ans' C' T'. cbn in C'. apply set_call_cases in C' as [(-> & C')|(N & C')]; [inv C'; congruence|]. eapply I1; eauto.
        * intros F H. apply (I2 (Fb F)). destruct H as [(r & C')|(t & r & [H|H] & Ne)]; [left|discriminate|right; eauto].
          cbn in C'. apply set_call_cases in C' as [(_ & C')|(_ & C')]; [discriminate|eauto].
        * intros F j r C' Bh. cbn in C'. apply set_call_cases in C' as [(-> & C')|(N & C')]; [discriminate|]. apply (I3 (Fb F) j r C').
          destruct Bh as (p2 & t1 & p1 & t & r' & Q & Np & H). destruct p2 as [|e p2]; cbn in Q; apply cons_eq in Q as (Q1 & Q2); [injection Q1 as -> _ _; contradiction|].
          exists p2, t1, p1, t, r'. split; auto. split; auto. intros t2 o2 H2. apply (Np t2 o2). right. auto.
    - (* act *)
      destruct (effect_keeps _ _ _ _ E) as (E1 & E2 & E3). rewrite E2 in L. destruct (I post L St) as (I1 & I2 & I3).
      assert (fresh B = fresh A) as Fe by (unfold fresh; rewrite E1, E2; auto).
      change (fresh (mkA _ _ _ _ _)) with (fresh B) in *. rewrite Fe in *. rewrite E3 in *.
      assert (a_reg B url h = if touches url h o then leaves o else a_reg A url h) as Rg.
      { unfold effect in E. destruct (free o); [discriminate|]. destruct o as [url' a|url' [h'|]|url' h'|url' ts salt| |]; inv E; cbn [a_reg touches leaves]; auto.
        - destruct (text_eqb url' url && text_eqb (a_handle a) h) eqn:X.
          + apply andb_true_iff in X as (X1 & X2). apply text_eqb_eq in X1, X2. rewrite X1, X2. apply put_mine.
          + apply put_touch. exact X.
        - destruct (text_eqb url' url && text_eqb h' h) eqn:X.
          + apply andb_true_iff in X as (X1 & X2). apply text_eqb_eq in X1, X2. rewrite X1, X2. apply put_mine.
          + apply put_touch. exact X. }
      assert (fresh A -> (exists r0, (k = i /\ o = o0 /\ r0 = r) \/ a_call A i = Some (o0, Some r0)) \/ (exists t r0, In (Ended i t o0 r0) post /\ r0 <> Err OSError) -> a_reg B url h = leaves o0) as Now.
      { intros F H. rewrite Rg. destruct (touches url h o) eqn:To.
        - destruct (I1 k o None C To) as (-> & ->). auto.
        - apply I2; auto. destruct H as [(r0 & [(_ & -> & _)|H])|H]; [congruence|left; eauto|right; auto]. }
      split; [|split]; auto.
      + intros k' o' ans' C' T'. apply set_call_cases in C' as [(-> & C')|(N & C')]; [inv C'|]; eapply I1; eauto.
      + intros F H. apply Now; auto. destruct H as [(r0 & C')|H]; [|right; auto]. left. apply set_call_cases in C' as [(-> & C')|(N & C')]; [inv C'; exists r0; auto|exists r0; auto].
      + intros F j r' C' Bh. apply set_call_cases in C' as [(-> & C')|(N & C')]; [|eapply I3; eauto]. inv C'.
        unfold effect in E. rewrite not_free_get in E. inv E. f_equal. apply I2; auto. right.
        destruct Bh as (p2 & t1 & p1 & t & r' & -> & _ & H & Ne). exists t, r'. split; auto. apply in_or_app. right. right. auto.
    - (* late *)
      destruct (I post L St) as (I1 & I2 & I3).
      change (fresh (mkA _ _ _ _ _)) with (fresh A) in *.
      assert (fresh A -> o <> RemoveA url h) as Nr.
      { intros F ->. destruct Tl as (_ & _ & a & k' & t' & Hb & Hh & X). rewrite expired_spec in X. specialize (F k' t' a Hb Hh). lia. }
      split; [|split]; auto.
      + intros k' o' ans' C' T'. apply set_call_cases in C' as [(-> & C')|(N & C')]; [inv C'|]; eapply I1; eauto.
      + intros F H. destruct H as [(r0 & C')|H]; [|apply I2; auto]. apply set_call_cases in C' as [(-> & C')|(N & C')]; [|apply I2; eauto]. inv C'.
        destruct (touches_key o0 mine) as [(a & -> & _)| ->]; [destruct Tl|destruct (Nr F); auto].
      + intros F j r' C' Bh. apply set_call_cases in C' as [(-> & C')|(N & C')]; [|eapply I3; eauto]. inv C'. destruct Tl as (-> & a & -> & X).
        pose proof (I3 F k _ C Bh) as Q. injection Q as Q. rewrite (mine_fresh A post L F a (eq_sym Q)) in X. discriminate.
    - (* end *)
      destruct post as [|e post]; cbn in L; apply cons_eq in L as (L1 & L2); [discriminate|]. subst e.
      assert (still post) as St' by (intros k' t o' H; apply (St k' t o'); right; auto). destruct (I post L2 St') as (I1 & I2 & I3).
      split; [|split].
      + intros k' o' ans' C' T'. apply set_call_cases in C' as [(-> & C')|(N & C')]; [discriminate|]; eapply I1; eauto.
      + intros F H. apply (I2 (Fb F)). destruct H as [(r0 & C')|(t & r0 & [H|H] & Ne)]; [|inv H; left; eauto|right; eauto].
        apply set_call_cases in C' as [(_ & C')|(_ & C')]; [discriminate|eauto].
      + intros F j r' C' Bh. apply set_call_cases in C' as [(-> & C')|(N & C')]; [discriminate|]. apply (I3 (Fb F) j r' C').
        destruct Bh as (p2 & t1 & p1 & t & r'' & Q & Np & H). destruct p2 as [|e p2]; cbn in Q; [discriminate|]. apply cons_eq in Q as (_ & Q).
        exists p2, t1, p1, t, r''. split; auto. split; auto. intros t2 o2 H2. apply (Np t2 o2). right. auto.
    - (* fail *)
      destruct post as [|e post]; cbn in L; apply cons_eq in L as (L1 & L2); [discriminate|]. subst e.
      assert (still post) as St' by (intros k' t o' H; apply (St k' t o'); right; auto). destruct (I post L2 St') as (I1 & I2 & I3).
      split; [|split].
      + intros k' o' ans' C' T'. apply set_call_cases in C' as [(-> & C')|(N & C')]; [discriminate|]; eapply I1; eauto.
      + intros F H. apply (I2 (Fb F)). destruct H as [(r0 & C')|(t & r0 & [H|H] & Ne)]; [|inv H; contradiction|right; eauto].
        apply set_call_cases in C' as [(_ & C')|(_ & C')]; [discriminate|eauto].
      + intros F j r' C' Bh. apply set_call_cases in C' as [(-> & C')|(N & C')]; [discriminate|]. apply (I3 (Fb F) j r' C').
        destruct Bh as (p2 & t1 & p1 & t & r'' & Q & Np & H). destruct p2 as [|e p2]; cbn in Q; [discriminate|]. apply cons_eq in Q as (_ & Q).
        exists p2, t1, p1, t, r''. split; auto. split; auto. intros t2 o2 H2. apply (Np t2 o2). right. auto.
    - (* free *)
      destruct post as [|e post]; cbn in L; apply cons_eq in L as (L1 & L2); [discriminate|]. subst e.
      assert (still post) as St' by (intros k' t o' H; apply (St k' t o'); right; auto). destruct (I post L2 St') as (I1 & I2 & I3).
      split; [|split].
      + intros k' o' ans' C' T'. apply set_call_cases in C' as [(-> & C')|(N & C')]; [discriminate|]; eapply I1; eauto.
      + intros F H. apply (I2 (Fb F)). destruct H as [(r0 & C')|(t & r0 & [H|H] & Ne)]; [| |right; eauto].
        * apply set_call_cases in C' as [(_ & C')|(_ & C')]; [discriminate|eauto].
        * injection H as <- _ -> _. rewrite (not_free_mine o0 mine) in Fr. discriminate.
      + intros F j r' C' Bh. apply set_call_cases in C' as [(-> & C')|(N & C')]; [discriminate|]. apply (I3 (Fb F) j r' C').
        destruct Bh as (p2 & t1 & p1 & t & r'' & Q & Np & H). destruct p2 as [|e p2]; cbn in Q; [discriminate|]. apply cons_eq in Q as (_ & Q).
        exists p2, t1, p1, t, r''. split; auto. split; auto. intros t2 o2 H2. apply (Np t2 o2). right. auto.
    - (* crash *)
      destruct (I post L St) as (I1 & I2 & I3). split; [|split]; auto.
      + intros k' o' ans' C' T'. apply set_call_cases in C' as [(-> & C')|(N & C')]; [discriminate|]; eapply I1; eauto.
      + intros F H. apply (I2 (Fb F)). destruct H as [(r0 & C')|H]; auto. apply set_call_cases in C' as [(_ & C')|(_ & C')]; [discriminate|eauto].
      + intros F j r' C' Bh. apply set_call_cases in C' as [(-> & C')|(N & C')]; [discriminate|]. apply (I3 (Fb F) j r' C' Bh).
    - (* drop *)
      destruct (I post L St) as (I1 & I2 & I3). split; [|split]; auto.
      intros F H. pose proof (Fb F) as Fa. rewrite put_touch; [apply I2; auto|]. destruct (touches url h (RemoveA url' (a_handle a))) eqn:X; auto. exfalso.
      cbn in X. rewrite andb_true_iff, !text_eqb_eq in X. destruct X as (-> & X). rewrite expired_spec in Ex. specialize (Fa k t a Rc X). lia.
    - (* wipe *)
      destruct (I post L St) as (I1 & I2 & I3). split; [|split]; auto.
      intros F H. rewrite put_touch; [apply I2; auto|]. cbn. clear - nonempty. destruct h; [contradiction|]. apply andb_false_r.
    - destruct (I post L St) as (I1 & I2 & I3). split; [|split]; auto.
  Qed.
  Lemma rlog_step A B : rinv A -> rlog A -> astep A B -> rlog B.
  Proof using nonempty.
    intros (_ & I) G S p3 j t r p2 L St Bh U.
    destruct S as [A d|A k o C|A k o B r' C E|A k o ans r' C Tl|A k o r' C|A k o ans C Sd|A k o r' C Fr|A k|A url' a k t' Rc Ex|A k url' C|A url' ts salt k ans C Old]; cbn [a_log] in L; try (eapply G; eauto; fail).
    - destruct p3 as [|e p3]; cbn in L; apply cons_eq in L as (L1 & L2); [discriminate|]. eapply G; eauto.
    - destruct (effect_keeps _ _ _ _ E) as (_ & E2 & _). rewrite E2 in L. eapply G; eauto.
    - destruct p3 as [|e p3]; cbn in L; apply cons_eq in L as (L1 & L2); [|eapply G; eauto]. injection L1 as -> <- -> ->.
      destruct (I p2 L2 St) as (_ & _ & I3). left. apply (I3) with (j := j); auto. unfold fresh. rewrite L2. exact U.
    - destruct p3 as [|e p3]; cbn in L; apply cons_eq in L as (L1 & L2); [|eapply G; eauto]. injection L1 as _ _ _ <-. auto.
    - destruct p3 as [|e p3]; cbn in L; apply cons_eq in L as (L1 & L2); [|eapply G; eauto]. injection L1 as _ _ -> _. rewrite not_free_get in Fr. discriminate.
  Qed.
  Lemma rlog_all now A : asteps (a_init now) A -> rlog A.
  Proof using nonempty mine alone.
    intros S. apply (asteps_ind2 (fun A => rinv A /\ rlog A) now); auto.
    - split; [split; [intros k o ans C; discriminate|]; intros post L; destruct post; discriminate|]. intros p3 j t r p2 L. destruct p3; discriminate.
    - intros B C (H1 & H2) H3. split; [eapply rinv_step; eauto|eapply rlog_step; eauto].
  Qed.
End Register.

(** C167: a change is visible to every lookup after it.  Suppose a call stored or removed the association
    of a URL and handle while no other call doing so was running, no such call began since, and it did
    not fail.  Then a lookup for the URL and handle that began after it ended answers what
    was stored, or nothing after a removal (or fails), unless some association stored under the
    URL and handle has expired meanwhile. *)
Theorem C167_visible :
  forall sha1, digest20 sha1 -> forall now ls, sys_ok ls -> distinct_on sha1 (sys_texts ls) ->
    forall url h i t0 o0 t r0 j t1 t2 r l4 l3 l2 m2 m1,
      s_log (run sha1 true (sys_init now) ls) =
        l4 ++ Ended j t2 (GetA url (Some h)) r :: l3 ++ Began j t1 (GetA url (Some h)) :: l2 ++ Ended i t o0 r0 :: m2 ++ Began i t0 o0 :: m1 ->
      h <> [] -> touches url h o0 = true -> r0 <> Err OSError ->
      (forall k o, k <> i -> running m1 k = Some o -> touches url h o = false) ->
      (forall k t' o, In (Began k t' o) (l3 ++ l2 ++ m2) -> touches url h o = false) -> (forall t' o, ~ In (Began j t' o) l3) ->
      unexpired url h t2 (l3 ++ Began j t1 (GetA url (Some h)) :: l2 ++ Ended i t o0 r0 :: m2 ++ Began i t0 o0 :: m1) ->
      r = Got (leaves o0) \/ r = Err OSError.
Proof.
  intros sha1 D now ls O X url h i t0 o0 t r0 j t1 t2 r l4 l3 l2 m2 m1 L Ne To Nf Al St Nj Un.
  destruct (C166_atomic sha1 D now ls O X) as (A & S & La). rewrite L in La.
  apply (rlog_all url h i t0 o0 m1 Ne To Al now A S l4 j t2 r (l3 ++ Began j t1 (GetA url (Some h)) :: l2 ++ Ended i t o0 r0 :: m2)).
  - rewrite La. rewrite <- !app_assoc. cbn. rewrite <- !app_assoc. auto.
  - intros k t' o H. rewrite !in_app_iff in H. cbn in H. rewrite in_app_iff in H. cbn in H.
    destruct H as [H|[H|[H|[H|H]]]]; try discriminate; [|inv H; auto| |]; apply (St k t' o); rewrite !in_app_iff; auto.
  - exists l3, t1, (l2 ++ Ended i t o0 r0 :: m2), t, r0. split; auto. split; auto. split; auto. apply in_or_app. right. left. auto.
  - rewrite <- !app_assoc. cbn. rewrite <- !app_assoc. exact Un.
Qed.
Print Assumptions C167_visible.

(** ** Nonces *)
Definition is_clean (e : event) : bool := match e with Began _ _ CleanN => true | _ => false end.
Section Once.
  Variables (url : text) (ts : Z) (salt : text).
  Notation me := (UseN url ts salt).
  Definition intact (A : amach) : bool := (a_clock A <=? ts + 18000) || negb (existsb is_clean (a_log A)).
  Definition acc (A : amach) (i : nat) : Prop := a_call A i = Some (me, Some (Flag true)).
  Definition ninv (A : amach) : Prop :=
    calls_run A /\
    (intact A = true ->
      (forall i, acc A i -> a_used A url ts salt = true) /\ (forall i j, acc A i -> acc A j -> i = j) /\
      (forall i t, In (Ended i t me (Flag true)) (a_log A) -> a_used A url ts salt = true /\ forall j, ~ acc A j)) /\
    (forall l3 i t l2 i' t' l1, a_log A = l3 ++ Ended i t me (Flag true) :: l2 ++ Ended i' t' me (Flag true) :: l1 ->
       ts + 18000 < t /\ exists k t'', In (Began k t'' CleanN) (l2 ++ Ended i' t' me (Flag true) :: l1)).
  Lemma existsb_incl (P : event -> bool) l m : incl l m -> existsb P m = false -> existsb P l = false.
  Proof using. intros I E. destruct (existsb P l) eqn:X; auto. apply existsb_exists in X as (x & X1 & X2). assert (existsb P m = true) by (apply existsb_exists; eauto). congruence. Qed.
  Lemma intact_back A B : astep A B -> intact B = true -> intact A = true.
  Proof using.
    intros S. destruct (step_grows A B S) as (C & L). unfold intact. rewrite !orb_true_iff, !negb_true_iff. intros [H|H]; [left; clear - C H; lia|right; eapply existsb_incl; eauto].
  Qed.
  (** Steps that add nothing to the log, and no acceptance. *)
  Lemma ninv_same A B : ninv A -> astep A B -> a_log B = a_log A -> (forall i, acc B i -> acc A i) -> (intact A = true -> a_used A url ts salt = true -> a_used B url ts salt = true) -> ninv B.
  Proof using.
    intros (R & I1 & I2) S L Ac Us. split; [eapply calls_run_step; eauto|]. rewrite L. split; auto. intros N. pose proof (intact_back A B S N) as Na. destruct (I1 Na) as (J1 & J2 & J3). split; [|split].
    - intros i H. eauto.
    - intros i j H1 H2. auto.
    - intros i t H. destruct (J3 i t H) as (K1 & K2). split; auto. intros j Hj. apply (K2 j). auto.
  Qed.
  (** Steps that log something else. *)
  Lemma ninv_log A B e : ninv A -> astep A B -> a_log B = e :: a_log A -> (forall i t, e <> Ended i t me (Flag true)) -> (forall i, acc B i -> acc A i) -> a_used B = a_used A -> ninv B.
  Proof using.
    intros (R & I1 & I2) S L Ne Ac Us. split; [eapply calls_run_step; eauto|]. rewrite L, Us. split.
    - intros N. pose proof (intact_back A B S N) as Na. destruct (I1 Na) as (J1 & J2 & J3). split; [|split].
      + intros i H. eauto.
      + intros i j H1 H2. auto.
      + intros i t [H|H]; [destruct (Ne i t H)|]. destruct (J3 i t H) as (K1 & K2). split; auto. intros j Hj. apply (K2 j). auto.
    - intros l3 i t l2 i' t' l1 E. destruct l3 as [|x l3]; cbn in E; apply cons_eq in E as (E1 & E2); [destruct (Ne i t E1)|]. eapply I2; eauto.
  Qed.
  Lemma acc_other A B k v : (forall i, a_call B i = set_call (a_call A) k v i) -> v <> Some (me, Some (Flag true)) -> forall i, acc B i -> acc A i.
  Proof using. intros C V i H. unfold acc in *. rewrite C in H. apply set_call_cases in H as [(-> & H)|(_ & H)]; auto. contradiction. Qed.
  Lemma ninv_step A B : ninv A -> astep A B -> ninv B.
  Proof using.
    intros I S. pose proof S as S0. destruct S as [A d|A k o C|A k o B r C E|A k o ans r C Tl|A k o r C|A k o ans C Sd|A k o r C Fr|A k|A url' a k t Rc Ex|A k url' C|A url' ts' salt' k ans C Old].
    - apply (ninv_same A _ I S0); auto.
    - apply (ninv_log A _ (Began k (a_clock A) o) I S0); auto; [discriminate|]. eapply acc_other; [reflexivity|discriminate].
    - destruct (effect_keeps _ _ _ _ E) as (E1 & E2 & E3).
      assert (a_used B url ts salt = true \/ a_used B url ts salt = a_used A url ts salt) as Ub.
      { unfold effect in E. destruct (free o); [discriminate|]. destruct o as [url' a|url' [h'|]|url' h'|url' ts' salt'| |]; inv E; cbn [a_used]; auto.
        unfold mark. destruct (_ && _); auto. }
      destruct (option_map (fun p => match p with (UseN a b c, Some (Flag true)) => text_eqb a url && (b =? ts) && text_eqb c salt | _ => false end) (Some (o, Some r))) as [[|]|] eqn:Q; cbn in Q; [| |discriminate].
      + destruct o as [url' a|url' [h'|]|url' h'|url' ts' salt'| |]; try discriminate. destruct r as [|[]|[]|x|n]; try discriminate. injection Q as Q.
        rewrite !andb_true_iff, !text_eqb_eq, Z.eqb_eq in Q. destruct Q as [[-> ->] ->]. unfold effect in E. cbn [free] in E. injection E as <- Ef. apply negb_true_iff in Ef.
        destruct I as (R & I1 & I2). split; [eapply calls_run_step; eauto|]. cbn [a_log a_call a_used a_clock]. split; auto.
        intros N. pose proof (intact_back _ _ S0 N) as Na. destruct (I1 Na) as (J1 & J2 & J3).
        assert (forall i, ~ acc A i) as No by (intros i H; rewrite (J1 i H) in Ef; discriminate).
        assert (forall i, acc (mkA (a_clock A) (a_reg A) (mark (a_used A) url ts salt true) (set_call (a_call A) k (Some (me, Some (Flag true)))) (a_log A)) i -> i = k) as Only.
        { intros i H. unfold acc in H. cbn in H. apply set_call_cases in H as [(-> & _)|(_ & H)]; auto. destruct (No i H). }
        split; [|split].
        * intros i _. unfold mark. rewrite !(proj2 (text_eqb_eq _ _) eq_refl), Z.eqb_refl. auto.
        * intros i j H1 H2. apply Only in H1, H2. congruence.
        * intros i t H. destruct (J3 i t H) as (K1 & _). congruence.
      + apply (ninv_same A _ I S0); cbn [a_log]; auto.
        * eapply acc_other; [cbn; rewrite E3; reflexivity|]. intros H. inv H. rewrite !(proj2 (text_eqb_eq _ _) eq_refl), Z.eqb_refl in Q. discriminate.
        * intros _ H. cbn [a_used]. destruct Ub; congruence.
    - apply (ninv_same A _ I S0); auto. eapply acc_other; [reflexivity|]. intros H. inv H. destruct Tl as (H & _). discriminate.
    - (* end *)
      destruct (match r with Flag true => match o with UseN a b c => text_eqb a url && (b =? ts) && text_eqb c salt | _ => false end | _ => false end) eqn:Q.
      + destruct r as [|[]|[]|x|n]; try discriminate. destruct o as [url' a|url' oh|url' h'|url' ts' salt'| |]; try discriminate.
        rewrite !andb_true_iff, !text_eqb_eq, Z.eqb_eq in Q. destruct Q as [[-> ->] ->].
        destruct I as (R & I1 & I2). split; [eapply calls_run_step; eauto|]. cbn [a_log a_call a_used a_clock].
        assert (acc A k) as Ak by exact C. split.
        * intros N. pose proof (intact_back _ _ S0 N) as Na. destruct (I1 Na) as (J1 & J2 & J3).
          assert (forall j, ~ acc (mkA (a_clock A) (a_reg A) (a_used A) (set_call (a_call A) k None) (Ended k (a_clock A) me (Flag true) :: a_log A)) j) as No.
          { intros j H. unfold acc in H. cbn in H. apply set_call_cases in H as [(_ & H)|(Ne & H)]; [discriminate|]. apply Ne. apply J2; auto. }
          split; [|split].
          -- intros i H. destruct (No i H).
          -- intros i j H. destruct (No i H).
          -- intros i t _. split; auto. apply (J1 k Ak).
        * intros l3 i t l2 i' t' l1 E. destruct l3 as [|x l3]; cbn in E; apply cons_eq in E as (E1' & E2'); [|eapply I2; eauto]. injection E1' as <- <-.
          destruct (intact A) eqn:N.
          -- destruct (I1 eq_refl) as (_ & _ & J3). exfalso. apply (proj2 (J3 i' t' ltac:(rewrite E2'; apply in_or_app; right; left; reflexivity)) k Ak).
          -- unfold intact in N. apply orb_false_iff in N as (N1 & N2). split; [clear - N1; lia|]. apply negb_false_iff, existsb_exists in N2 as (x & N2 & N3).
             rewrite E2' in N2. destruct x as [k' t'' [| | | | |]|]; try discriminate. eauto.
      + apply (ninv_log A _ (Ended k (a_clock A) o r) I S0); auto; [|eapply acc_other; [reflexivity|discriminate]].
        intros i t H. injection H as _ _ -> ->. rewrite !(proj2 (text_eqb_eq _ _) eq_refl), Z.eqb_refl in Q. discriminate.
    - apply (ninv_log A _ (Ended k (a_clock A) o (Err OSError)) I S0); auto; [discriminate|]. eapply acc_other; [reflexivity|discriminate].
    - apply (ninv_log A _ (Ended k (a_clock A) o r) I S0); auto; [|eapply acc_other; [reflexivity|discriminate]].
      intros i t H. injection H as _ _ -> ->. discriminate.
    - apply (ninv_same A _ I S0); auto. eapply acc_other; [reflexivity|discriminate].
    - apply (ninv_same A _ I S0); auto.
    - apply (ninv_same A _ I S0); auto.
    - apply (ninv_same A _ I S0); auto. intros N H. cbn [a_used]. unfold mark. destruct (_ && _) eqn:Q; auto. exfalso.
      rewrite !andb_true_iff, !text_eqb_eq, Z.eqb_eq in Q. destruct Q as [[<- <-] <-]. unfold intact in N. apply orb_true_iff in N as [N|N]; [clear - N Old; lia|].
      destruct I as (R & _). pose proof (R k _ _ C) as Rn. apply running_began in Rn as (t & Rn).
      assert (existsb is_clean (a_log A) = true) as X by (apply existsb_exists; eexists; split; [exact Rn|auto]). rewrite X in N. discriminate.
  Qed.
  Lemma ninv_all now A : asteps (a_init now) A -> ninv A.
  Proof using.
    intros S. apply (asteps_ind2 ninv now); auto; [|intros; eapply ninv_step; eauto]. split; [intros k o ans C; discriminate|]. split.
    - intros _. split; [|split]; intros i; try discriminate. intros t [].
    - intros l3 i t l2 i' t' l1 E. destruct l3; discriminate.
  Qed.
End Once.

(** C168: a nonce is accepted only while its time is within five hours; and if it is accepted a second
    time, a clean-up of nonces has begun before, and the second call, which had started early
    enough, ended later than five hours after the nonce's time. *)
Theorem C168_nonce_once :
  forall sha1, digest20 sha1 -> forall now ls, sys_ok ls -> distinct_on sha1 (sys_texts ls) ->
    forall l3 i t url ts salt l2, s_log (run sha1 true (sys_init now) ls) = l3 ++ Ended i t (UseN url ts salt) (Flag true) :: l2 ->
      (exists t0 t', In (Began i t0 (UseN url ts salt)) l2 /\ t0 <= t' <= t /\ -18000 <= ts - t' <= 18000) /\
      forall i' t', In (Ended i' t' (UseN url ts salt) (Flag true)) l2 -> ts + 18000 < t /\ exists k t'', In (Began k t'' CleanN) l2.
Proof.
  intros sha1 D now ls O X l3 i t url ts salt l2 L. split.
  - destruct (at_the_end sha1 true (fun _ => True) True now ls D O X) with (l2 := l3) (i := i) (t := t) (o := UseN url ts salt) (r := Flag true) (l1 := l2) as (t0 & g & A & B & C & P); auto.
    + apply fails_any.
    + destruct P as (_ & _ & t' & P1 & P2 & P3). exists t0, t'. split; auto. unfold skewed, SKEW in P3. lia.
  - intros i' t' H. destruct (C166_atomic sha1 D now ls O X) as (A & S & La). rewrite L in La. apply in_split in H as (l2' & l1 & ->).
    destruct (ninv_all url ts salt now A S) as (_ & _ & I). apply (I l3 i t l2' i' t' l1 La).
Qed.
Print Assumptions C168_nonce_once.

(** ** Examples and limits *)
Lemma toy_digest : digest20 toy_sha1.
Proof.
  intros b. unfold toy_sha1. set (f := fun c : N => ((c * 7 + 3) mod 256)%N). split.
  - rewrite firstn_length, app_length, repeat_length. lia.
  - apply Forall_forall. intros x H. assert (In x (map f (rev b) ++ repeat 0%N 20)) as H'.
    { rewrite <- (firstn_skipn 20 (map f (rev b) ++ repeat 0%N 20)). apply in_or_app. left. exact H. }
    apply in_app_or in H' as [H'|H'].
    + apply in_map_iff in H' as (c & <- & _). unfold f, isbyte. apply N.mod_lt. discriminate.
    + apply repeat_spec in H'. subst. unfold isbyte. lia.
Qed.
Definition ex_url : text := u "http://a/".
Lemma ex_url_ok : file_url ex_url.
Proof.
  split; [exists ex_url; reflexivity|]. exists (u "http"), (u "a/"). split; [vm_compute; reflexivity|]. split; [|split]; intros H; vm_compute in H; intuition discriminate.
Qed.
Lemma ex_assoc_ok issued lifetime : file_assoc (ex_assoc (u "h1") issued lifetime).
Proof.
  split; [exists (u "h1"); reflexivity|]. split; [discriminate|]. split; [vm_compute; repeat (apply Forall_cons || apply Forall_nil); reflexivity|]. split; [left; reflexivity|].
  split; [|intros H; vm_compute in H; intuition discriminate]. intros [(c & r & H & W)|(c & r & H & W)].
  - vm_compute in H. injection H as <- <-. apply C02_white in W. discriminate.
  - cbn [a_handle ex_assoc] in H. change (u "h1") with ([104%N] ++ [49%N]) in H. apply app_inj_tail in H as (_ & <-). apply C02_white in W. discriminate.
Qed.
Lemma ex_distinct l : incl l [ex_url; u "h1"; u "x"] -> distinct_on toy_sha1 l.
Proof.
  intros I a b x y A B. apply I in A, B. cbn in A, B. destruct A as [<-|[<-|[<-|[]]]], B as [<-|[<-|[<-|[]]]]; auto; intros H1 H2; vm_compute in H1, H2; injection H1 as <-; injection H2 as <-; intros H; vm_compute in H; discriminate.
Qed.
(** A whole storeAssociation; a lookup up to the reading of the clock. *)
Definition store_steps (i : nat) : list label := [Step i; Step i; Step i; Flush i 7; Step i; Step i; Step i].
Definition read_steps (i : nat) : list label := [Step i; Part i 40; Part i 400; Step i; Step i].
Definition calm (l : label) : Prop := match l with Fail _ | Crash _ | Start _ (RemoveA _ _) => False | _ => True end.

(** Two processes store at the same time, a third looks while they write, and finds what has been renamed first. *)
Definition ex_run : list label :=
  [Start 1 (StoreA ex_url (ex_assoc (u "h1") 0 100)); Start 2 (StoreA ex_url (ex_assoc (u "h1") 1 100))] ++ store_steps 1 ++ [Step 2; Step 2; Start 3 (GetA ex_url (Some (u "h1")))] ++
  read_steps 3 ++ [Step 2; Tick 3; Flush 2 5; Fail 2; Step 2; Step 2; Start 3 (UseN ex_url 5 (u "x")); Start 4 (UseN ex_url 5 (u "x")); Step 3; Step 4; Step 4; Step 4; Step 3].
Example C163_example :
  sys_ok ex_run /\ distinct_on toy_sha1 (sys_texts ex_run) /\
  map (fun e => match e with Ended i _ _ r => Some (i, r) | _ => None end) (s_log (run toy_sha1 true (sys_init 0) ex_run)) =
    [Some (3%nat, Flag false); Some (4%nat, Flag true); None; None; Some (2%nat, Err OSError);
     Some (3%nat, Got (Some (ex_assoc (u "h1") 0 100))); None; Some (1%nat, Done); None; None] /\
  s_temp (run toy_sha1 true (sys_init 0) (firstn 10 ex_run)) = [1%nat] /\ s_temp (run toy_sha1 true (sys_init 0) ex_run) = [].
Proof.
  split; [|split; [|split; [vm_compute; reflexivity|split; vm_compute; reflexivity]]].
  - repeat (apply Forall_cons || apply Forall_nil); cbn; auto using ex_url_ok, ex_assoc_ok.
    + split; [apply ex_url_ok|]. intros x Q. injection Q as <-. exists (u "h1"). reflexivity.
    + split; [right; apply ex_url_ok|]. split; [lia|]. exists (u "x"). reflexivity.
    + split; [right; apply ex_url_ok|]. split; [lia|]. exists (u "x"). reflexivity.
  - apply ex_distinct. intros x H. vm_compute in H. cbn. intuition.
Qed.

(** C169: a stored association can be lost although nothing removes it and it has not expired:
    process 2 finds that the predecessor has expired, process 3 stores the new one, and process 2
    deletes the file. *)
Definition lost_run : list label :=
  Start 1 (StoreA ex_url (ex_assoc (u "h1") 0 10)) :: store_steps 1 ++ [Tick 20; Start 2 (GetA ex_url (Some (u "h1")))] ++ read_steps 2 ++
  Start 3 (StoreA ex_url (ex_assoc (u "h1") 20 100)) :: store_steps 3 ++ [Step 2; Start 4 (GetA ex_url (Some (u "h1"))); Step 4].
Theorem C169_lost_refuted :
  exists sha1 ls url a, digest20 sha1 /\ sys_ok ls /\ distinct_on sha1 (sys_texts ls) /\ Forall calm ls /\
    exists i t j t1 t2 before, s_log (run sha1 true (sys_init 0) ls) = Ended j t2 (GetA url (Some (a_handle a))) (Got None) :: Began j t1 (GetA url (Some (a_handle a))) :: before /\
      In (Ended i t (StoreA url a) Done) before /\ a_handle a <> [] /\ t2 < a_issued a + a_lifetime a.
Proof.
  exists toy_sha1, lost_run, ex_url, (ex_assoc (u "h1") 20 100). split; [apply toy_digest|]. split; [|split; [|split]].
  - repeat (apply Forall_cons || apply Forall_nil); cbn; auto using ex_url_ok, ex_assoc_ok; (split; [apply ex_url_ok|]; intros x Q; injection Q as <-; exists (u "h1"); reflexivity).
  - apply ex_distinct. intros x H. vm_compute in H. cbn. intuition.
  - repeat (apply Forall_cons || apply Forall_nil); cbn; auto.
  - exists 3%nat, 20, 4%nat, 20, 20, (tl (tl (s_log (run toy_sha1 true (sys_init 0) lost_run)))). split; [vm_compute; reflexivity|]. split; [|split; [discriminate|reflexivity]].
    vm_compute. right. left. reflexivity.
Qed.
Print Assumptions C169_lost_refuted.

(** C170: where renaming does not replace (Windows), storeAssociation can fail although no system
    call fails: process 1 is refused, deletes the file, and before it tries again process 2 has
    put its file there. *)
Definition windows_run : list label :=
  Start 3 (StoreA ex_url (ex_assoc (u "h1") 0 10)) :: store_steps 3 ++
  [Start 1 (StoreA ex_url (ex_assoc (u "h1") 5 10)); Start 2 (StoreA ex_url (ex_assoc (u "h1") 6 10))] ++ store_steps 1 ++ removelast (store_steps 2) ++
  [Step 1; Step 2; Step 1; Step 1].
Theorem C170_windows_refuted :
  exists sha1 ls i t url a, digest20 sha1 /\ sys_ok ls /\ distinct_on sha1 (sys_texts ls) /\ Forall calm ls /\
    In (Ended i t (StoreA url a) (Err OSError)) (s_log (run sha1 false (sys_init 0) ls)) /\
    forall j t' o x, ~ In (Ended j t' o (Err x)) (s_log (run sha1 true (sys_init 0) ls)).
Proof.
  exists toy_sha1, windows_run, 1%nat, 0, ex_url, (ex_assoc (u "h1") 5 10). split; [apply toy_digest|]. split; [|split; [|split; [|split]]].
  - repeat (apply Forall_cons || apply Forall_nil); cbn; auto using ex_url_ok, ex_assoc_ok.
  - apply ex_distinct. intros x H. vm_compute in H. cbn. intuition.
  - repeat (apply Forall_cons || apply Forall_nil); cbn; auto.
  - vm_compute. left. reflexivity.
  - intros j t' o x H. vm_compute in H. intuition discriminate.
Qed.
Print Assumptions C170_windows_refuted.

(** C171: a nonce can be accepted twice although no call fails: process 2 has found the timestamp
    recent enough and stops; a second later process 3 cleans up, deleting the file of the first use;
    then process 2 creates it again. *)
Definition ex_nonce : text := match nonceFilename toy_sha1 ex_url 5 (u "x") with Ok n => n | Raise _ => [] end.
Definition replay_run : list label :=
  [Start 1 (UseN ex_url 5 (u "x")); Step 1; Step 1; Step 1; Tick 18005; Start 2 (UseN ex_url 5 (u "x")); Step 2; Tick 1;
   Start 3 CleanN; Pick 3 ex_nonce; Step 3; Step 3; Step 3; Step 2; Step 2].
Theorem C171_replay_refuted :
  exists sha1 ls url ts salt, digest20 sha1 /\ sys_ok ls /\ distinct_on sha1 (sys_texts ls) /\ Forall calm ls /\
    exists i t j t' l l', s_log (run sha1 true (sys_init 0) ls) = Ended i t (UseN url ts salt) (Flag true) :: l ++ Ended j t' (UseN url ts salt) (Flag true) :: l'.
Proof.
  exists toy_sha1, replay_run, ex_url, 5, (u "x"). split; [apply toy_digest|]. split; [|split; [|split]].
  - repeat (apply Forall_cons || apply Forall_nil); cbn; auto; (split; [right; apply ex_url_ok|]; split; [lia|]; exists (u "x"); reflexivity).
  - apply ex_distinct. intros x H. vm_compute in H. cbn. intuition.
  - repeat (apply Forall_cons || apply Forall_nil); cbn; auto.
  - exists 2%nat, 18006, 1%nat, 0, (firstn 3 (tl (s_log (run toy_sha1 true (sys_init 0) replay_run)))), (skipn 5 (s_log (run toy_sha1 true (sys_init 0) replay_run))). vm_compute. reflexivity.
Qed.
Print Assumptions C171_replay_refuted.
