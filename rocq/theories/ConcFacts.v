(** Facts about jobs that share a store (Conc.v): a job is a tree of store calls, so what it
    asks next depends only on the answers it has had. *)
From Coq Require Import Lia ZifyBool ZifyN ZifyNat.
From Verif Require Import Py PyFacts CryptUtil Association Nonce Store StoreSpec Conc.
Open Scope Z_scope.

Inductive tree (A : Type) := Leaf (r : res A) | Node (o : op) (k : out -> tree A).
Arguments Leaf {A}. Arguments Node {A}.
Fixpoint climb {A} (t : tree A) (s : script) : script * res A :=
  match t with
  | Leaf r => (s, r)
  | Node o k => let '(s', a) := script_step s 0 o in climb (k a) s'
  end.
Fixpoint every {A} (P : op -> Prop) (t : tree A) : Prop :=
  match t with Leaf _ => True | Node o k => P o /\ forall a, every P (k a) end.
Fixpoint walk {A} (t : tree A) (outs : list out) : tree A :=
  match t, outs with
  | Node o k, a :: r => walk (k a) r
  | _, _ => t
  end.
Definition here {A} (t : tree A) : option op := match t with Leaf _ => None | Node o _ => Some o end.

Fixpoint graft {A B} (t : tree A) (k : A -> tree B) : tree B :=
  match t with
  | Leaf (Ok a) => k a
  | Leaf (Raise x) => Leaf (Raise x)
  | Node o f => Node o (fun a => graft (f a) k)
  end.
Lemma climb_graft {A B} (t : tree A) (k : A -> tree B) : forall s,
  climb (graft t k) s = match climb t s with (s', Ok a) => climb (k a) s' | (s', Raise x) => (s', Raise x) end.
Proof. induction t as [[a|x]|o f IH]; intros s; cbn [graft climb]; auto. destruct (script_step s 0 o) as (s', a). apply IH. Qed.
Lemma every_graft {A B} P (t : tree A) (k : A -> tree B) : every P t -> (forall a, every P (k a)) -> every P (graft t k).
Proof. intros E K. induction t as [[a|x]|o f IH]; cbn [graft every]; auto. destruct E as (E1 & E2). split; auto. Qed.

Lemma climb_asked {A} (t : tree A) : forall outs acc k, (k <= List.length outs)%nat ->
  nth_error (asked (fst (climb t (mkScript outs acc)))) (List.length acc + k) = here (walk t (firstn k outs)).
Proof.
  induction t as [r|o f IH]; intros outs acc k L; cbn [climb].
  - cbn [fst asked]. assert (walk (Leaf r : tree A) (firstn k outs) = Leaf r) as -> by (destruct (firstn k outs); auto).
    apply nth_error_None. lia.
  - destruct outs as [|a outs]; cbn [script_step to_come asked].
    + cbn in L. assert (k = 0%nat) as -> by lia. cbn [firstn walk here].
      assert (forall t' : tree A, exists more, asked (fst (climb t' (mkScript [] (acc ++ [o])))) = (acc ++ [o]) ++ more) as Z.
      { intros t'. generalize (acc ++ [o]). clear. induction t' as [r|o f IH]; intros acc; cbn [climb].
        - exists []. rewrite app_nil_r. auto.
        - cbn [script_step to_come asked]. destruct (IH (Err TypeError) (acc ++ [o])) as (m & E). rewrite E, <- app_assoc. eauto. }
      destruct (Z (f (Err TypeError))) as (more & E). change (script_step _ 0 o) with (mkScript [] (acc ++ [o]), Err TypeError). cbv beta iota. rewrite E.
      rewrite <- app_assoc, nth_error_app2, Nat.add_0_r, Nat.sub_diag by lia. auto.
    + change (script_step _ 0 o) with (mkScript outs (acc ++ [o]), a). cbv beta iota.
      destruct k as [|k].
      * cbn [firstn walk here].
        assert (forall (t' : tree A) outs' acc', exists more, asked (fst (climb t' (mkScript outs' acc'))) = acc' ++ more) as Z.
        { clear. induction t' as [r|o f IH]; intros outs' acc'; cbn [climb].
          - exists []. rewrite app_nil_r. auto.
          - destruct outs' as [|a' outs']; cbn [script_step to_come asked].
            + change (script_step _ 0 o) with (mkScript [] (acc' ++ [o]), Err TypeError). cbv beta iota.
              destruct (IH (Err TypeError) [] (acc' ++ [o])) as (m & E). rewrite E, <- app_assoc. eauto.
            + change (script_step _ 0 o) with (mkScript outs' (acc' ++ [o]), a'). cbv beta iota.
              destruct (IH a' outs' (acc' ++ [o])) as (m & E). rewrite E, <- app_assoc. eauto. }
        destruct (Z (f a) outs (acc ++ [o])) as (more & E). rewrite E, <- app_assoc, nth_error_app2, Nat.add_0_r, Nat.sub_diag by lia. auto.
      * cbn [firstn walk]. cbn in L. rewrite <- (IH a outs (acc ++ [o]) k) by lia. rewrite app_length. cbn. f_equal. lia.
Qed.

Lemma climb_asked0 {A} (t : tree A) outs k : (k <= List.length outs)%nat ->
  nth_error (asked (fst (climb t (mkScript outs [])))) k = here (walk t (firstn k outs)).
Proof. intros L. apply (climb_asked t outs [] k L). Qed.

(** ** Programs as trees whose calls all satisfy [P] *)
Definition is_tree {A} (P : op -> Prop) (m : script -> script * res A) : Type :=
  { t : tree A | every P t /\ forall s, m s = climb t s }.
Lemma it_weaken {A} (P Q : op -> Prop) (m : script -> script * res A) : (forall o, P o -> Q o) -> is_tree P m -> is_tree Q m.
Proof.
  intros PQ (t & E & H). exists t. split; auto. clear H. induction t as [r|o f IH]; cbn [every] in *; auto. destruct E. split; auto.
Qed.
Lemma asked_grows {A} P (m : script -> script * res A) : is_tree P m -> forall outs acc s r, m (mkScript outs acc) = (s, r) -> exists more, asked s = acc ++ more.
Proof.
  intros (t & _ & H) outs acc s r E. rewrite H in E. clear H. revert outs acc E. induction t as [r'|o f IH]; intros outs acc E; cbn [climb] in E.
  - inv E. exists []. rewrite app_nil_r. auto.
  - destruct outs as [|a outs].
    + change (script_step _ 0 o) with (mkScript [] (acc ++ [o]), Err TypeError) in E. cbv beta iota in E. apply IH in E as (m' & ->). rewrite <- app_assoc. eauto.
    + change (script_step _ 0 o) with (mkScript outs (acc ++ [o]), a) in E. cbv beta iota in E. apply IH in E as (m' & ->). rewrite <- app_assoc. eauto.
Qed.
(** The calls of such a program: the next one, and those before it. *)
Lemma tree_stable {A} P (m : script -> script * res A) : is_tree P m -> forall outs k, (k <= List.length outs)%nat ->
  nth_error (asked (fst (m (mkScript outs [])))) k = nth_error (asked (fst (m (mkScript (firstn k outs) [])))) (List.length (firstn k outs)).
Proof.
  intros (t & _ & H) outs k L. rewrite !H. rewrite (climb_asked0 t outs k L), (climb_asked0 t (firstn k outs) (List.length (firstn k outs))) by lia.
  rewrite firstn_all. auto.
Qed.
Lemma tree_may {A} P (m : script -> script * res A) : is_tree P m -> forall outs o,
  nth_error (asked (fst (m (mkScript outs [])))) (List.length outs) = Some o -> P o.
Proof.
  intros (t & E & H) outs o. rewrite H, (climb_asked0 t outs (List.length outs)) by lia. rewrite firstn_all. clear H. revert outs. induction t as [r|o' f IH]; intros outs.
  - destruct outs; discriminate.
  - destruct E as (E1 & E2). destruct outs as [|a outs]; cbn [walk here]; [intros X; inv X; auto|apply IH; auto].
Qed.

(** ** Runs *)
Section Run.
  Context {J : Type} (next : J -> list out -> option op).
  Context {S : Type} (step : S -> Z -> op -> S * out) (s0 : S).
  Variable h0 : history.
  Variable others : op -> Prop.
  Variable jobs : list J.
  Notation runs := (runs next step s0 h0 others jobs).

  Lemma answers_cons i e tr : answers_to i (e :: tr) = answers_to i tr ++ (if Nat.eqb (by_job e) i then [the_out e] else []).
  Proof using. unfold answers_to. cbn [filter]. destruct (Nat.eqb _ _); cbn; [auto|rewrite app_nil_r; auto]. Qed.
  Lemma answers_app i tr2 tr1 : answers_to i (tr2 ++ tr1) = answers_to i tr1 ++ answers_to i tr2.
  Proof using. unfold answers_to. rewrite filter_app, map_app, rev_app_distr. auto. Qed.
  Lemma runs_app tr2 tr1 : runs (tr2 ++ tr1) -> runs tr1.
  Proof using. induction tr2 as [|e tr2 IH]; auto. cbn [app]. intros H. inversion H; auto. Qed.
  Lemma runs_cons e tr : runs (e :: tr) -> runs tr /\ clock (at_time e) (calls_of tr ++ h0) /\
    the_out e = answer step s0 (calls_of tr ++ h0) (at_time e) (the_op e) /\
    ((nth_error jobs (by_job e) = None /\ others (the_op e)) \/
     exists j, nth_error jobs (by_job e) = Some j /\ next j (answers_to (by_job e) tr) = Some (the_op e)).
  Proof using. intros H. inversion H; cbn; eauto 10. Qed.

  (** The [k]th call of a job. *)
  Lemma nth_next tr i j k : runs tr -> nth_error jobs i = Some j -> (k < List.length (answers_to i tr))%nat ->
    exists tr2 ev tr1, tr = tr2 ++ ev :: tr1 /\ by_job ev = i /\ List.length (answers_to i tr1) = k /\
      nth_error (answers_to i tr) k = Some (the_out ev) /\ next j (firstn k (answers_to i tr)) = Some (the_op ev) /\
      clock (at_time ev) (calls_of tr1 ++ h0) /\ the_out ev = answer step s0 (calls_of tr1 ++ h0) (at_time ev) (the_op ev).
  Proof using.
    intros R Ji. induction tr as [|ev tr IH]; intros L; [cbn in L; lia|].
    apply runs_cons in R as (R & C & O & W). specialize (IH R). rewrite answers_cons in *. destruct (Nat.eqb (by_job ev) i) eqn:E.
    - apply Nat.eqb_eq in E. rewrite E in W. destruct W as [(W & _)|(j' & W1 & W2)]; [congruence|]. rewrite Ji in W1. inv W1. rewrite app_length in L. cbn in L.
      destruct (Nat.eq_dec k (List.length (answers_to (by_job ev) tr))) as [->|Ne].
      + exists [], ev, tr. split; auto. split; auto. split; auto. rewrite nth_error_app2, Nat.sub_diag by lia. split; auto.
        rewrite firstn_app, firstn_all, Nat.sub_diag. cbn [firstn]. rewrite app_nil_r. auto.
      + destruct IH as (tr2 & ev' & tr1 & E & P1 & P2 & P3 & P4 & P5); [lia|].
        exists (ev :: tr2), ev', tr1. split; [rewrite E; auto|]. split; auto. split; auto. rewrite nth_error_app1 by lia. split; auto.
        rewrite firstn_app. replace (k - List.length (answers_to (by_job ev) tr))%nat with 0%nat by lia. cbn [firstn]. rewrite app_nil_r. auto.
    - rewrite app_nil_r in *. destruct IH as (tr2 & ev' & tr1 & E' & P); [lia|]. exists (ev :: tr2), ev', tr1. split; [rewrite E'; auto|auto].
  Qed.
End Run.

(** ** Concrete runs *)
Fixpoint clockb (t : Z) (h : history) : bool :=
  match h with [] => true | (t', _) :: r => (t' <=? t) && clockb t' r end.
Lemma clockb_ok h : forall t, clockb t h = true -> clock t h.
Proof. induction h as [|[t' o] h IH]; intros t; cbn; auto. rewrite andb_true_iff. intros (H1 & H2). split; [lia|auto]. Qed.
Section Go.
  Context {J : Type} (next : J -> list out -> option op).
  Context {S : Type} (step : S -> Z -> op -> S * out) (s0 : S).
  Variable h0 : history.
  Variable others : op -> Prop.
  Variable jobs : list J.
  (** Let the jobs make their calls in the order of [who] (job and time). *)
  Fixpoint go (who : list (nat * Z)) (tr : list call) : option (list call) :=
    match who with
    | [] => Some tr
    | (i, t) :: r =>
        match nth_error jobs i with
        | Some j => match next j (answers_to i tr) with
                    | Some o => if clockb t (calls_of tr ++ h0)
                                then go r (mkCall i t o (answer step s0 (calls_of tr ++ h0) t o) :: tr) else None
                    | None => None
                    end
        | None => None
        end
    end.
  Lemma go_runs who : forall tr tr', runs next step s0 h0 others jobs tr -> go who tr = Some tr' -> runs next step s0 h0 others jobs tr'.
  Proof using.
    induction who as [|(i, t) who IH]; intros tr tr' R H; cbn [go] in H; [congruence|].
    destruct (nth_error jobs i) as [j|] eqn:Ji; [|discriminate]. destruct (next j (answers_to i tr)) as [o|] eqn:N; [|discriminate].
    destruct (clockb _ _) eqn:C; [|discriminate]. eapply IH; [|exact H]. eapply runs_call; eauto. apply clockb_ok. auto.
  Qed.
End Go.
