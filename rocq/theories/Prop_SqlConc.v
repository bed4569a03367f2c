(** C143-C145: the SQL stores used by several processes at the same time. *)
From Coq Require Import Lia ZifyBool ZifyN ZifyNat Permutation.
From Verif Require Import Py PyFacts Utf8 Utf8Facts Association AssociationFacts Prop_Association.
From Verif Require Import Nonce Store StoreSpec StoreFacts Prop_StoreMem Prop_StoreSql SqlTxn Prop_SqlTxn SqlConc.
Import Py Store.
Open Scope Z_scope.
Local Arguments u : simpl never.

Definition no_cleanup (ls : list label) : Prop := Forall (fun l => match l with Call _ CleanN => False | _ => True end) ls.
(** Nonces are inserted while the timestamp is still fresh: no process is held up between
    looking at the clock and inserting until the nonce has gone stale. *)
Fixpoint prompt (d : dialect) (procs : list nat) (s : sys) (ls : list label) : Prop :=
  match ls with
  | [] => True
  | l :: r =>
      match l with
      | Step i => match s_proc s i with
                  | Run _ (Exec (Add_nonce n) _) _ => s_clock s - 18000 <= snd (fst n)
                  | _ => True
                  end
      | _ => True
      end /\ prompt d procs (step d procs s l) r
  end.
(** How often useNonce has answered True. *)
Definition is_grant (url : text) (ts : Z) (salt : text) (e : op * ans) : bool :=
  match e with
  | (UseN url' ts' salt', Out (Flag true)) => text_eqb url url' && (ts =? ts') && text_eqb salt salt'
  | _ => false
  end.
Definition grants (url : text) (ts : Z) (salt : text) (s : sys) : nat :=
  length (filter (is_grant url ts salt) (s_answers s)).

(** ** Statements and the rows they write *)
Lemma key_eqb_eq a b : key_eqb a b = true <-> a = b.
Proof.
  destruct a as [u1 t1 s1|u1 h1], b as [u2 t2 s2|u2 h2]; simpl; try (split; discriminate).
  - rewrite !andb_true_iff, !text_eqb_eq, Z.eqb_eq. split; [intros ((-> & ->) & ->); auto|intros E; inv E; auto].
  - rewrite !andb_true_iff, !text_eqb_eq. split; [intros (-> & ->); auto|intros E; inv E; auto].
Qed.
Lemma key_eqb_refl a : key_eqb a a = true.
Proof. apply key_eqb_eq; auto. Qed.
Lemma nrow_eqb_eq a b : nrow_eqb a b = true <-> a = b.
Proof.
  destruct a as [[u1 t1] s1], b as [[u2 t2] s2]. unfold nrow_eqb. simpl. rewrite !andb_true_iff, !text_eqb_eq, Z.eqb_eq.
  split; [intros ((-> & ->) & ->); auto|intros E; inv E; auto].
Qed.
Lemma filter_self {A} (p : A -> bool) (q : A -> bool) l : (forall x, In x l -> q x = p x) -> filter q l = filter p l.
Proof. intros H. apply filter_ext_in. auto. Qed.
Lemma fold_put d (f : arow -> arow) rows : (forall x, akey d (f x) = akey d x) -> forall s,
  NoDup (map (akey d) (q_assocs s)) -> (forall x, In x rows -> In x (q_assocs s)) -> NoDup (map (akey d) rows) ->
  q_nonces (apply d s (map (fun x => PutA (f x)) rows)) = q_nonces s /\
  Permutation (q_assocs (apply d s (map (fun x => PutA (f x)) rows)))
    (filter (fun x => negb (existsb (fun r => key_eqb (akey d x) (akey d r)) rows)) (q_assocs s) ++ map f rows).
Proof.
  intros Kf. induction rows as [|r rows IH]; intros s N Sub NR; cbn [map].
  - split; auto. simpl. rewrite app_nil_r. replace (filter (fun _ => true) (q_assocs s)) with (q_assocs s); auto.
    clear. induction (q_assocs s) as [|x l IH]; simpl; [auto|f_equal; auto].
  - cbn [apply fold_left]. inv NR. set (s1 := apply1 d s (PutA (f r))).
    assert (NoDup (map (akey d) (q_assocs s1))) as N1.
    { unfold s1. cbn [apply1 q_assocs]. rewrite map_app. apply NoDup_app_snoc; [apply NoDup_map_filter; auto|].
      intros H. apply in_map_iff in H as (y & E & H). apply filter_In in H as (_ & H). rewrite E, key_eqb_refl in H. discriminate. }
    destruct (IH s1) as (E1 & E2); auto.
    { intros x Hx. unfold s1. cbn [apply1 q_assocs]. apply in_app_iff. left. apply filter_In. split; [apply Sub; right; auto|].
      apply negb_true_iff. destruct (key_eqb _ _) eqn:E; auto. exfalso. apply key_eqb_eq in E. rewrite Kf in E.
      apply H1. rewrite <- E. apply in_map. auto. }
    split; [exact E1|]. eapply Permutation_trans; [exact E2|]. unfold s1. cbn [apply1 q_assocs].
    rewrite filter_app, filter_filter. cbn [filter].
    assert (existsb (fun r0 => key_eqb (akey d (f r)) (akey d r0)) rows = false) as ->.
    { destruct (existsb _ rows) eqn:E; auto. exfalso. apply existsb_exists in E as (y & Hy & E). apply key_eqb_eq in E. rewrite Kf in E.
      apply H1. rewrite E. apply in_map. auto. }
    cbn [negb]. rewrite <- app_assoc. cbn [app].
    match goal with |- Permutation (?a ++ _) (?b ++ _) => replace a with b; auto end.
    apply filter_ext. intros x. rewrite Kf. cbn [existsb]. rewrite negb_orb. auto.
Qed.
(** Writing the rows is what the statement does. *)
Theorem C143_writes :
  forall d s st s' r, NoDup (map (akey d) (q_assocs s)) -> exec d s st = inr (s', r) ->
    same_rows (apply d s (writes s st)) s'.
Proof.
  intros d s st s' r N H. destruct st as [r0|r0|secret issued lifetime ty url handle|url|url handle|url handle|now|n|before]; cbn [exec] in H.
  - inv H. unfold apply. cbn [writes fold_left apply1]. split; auto.
  - destruct (existsb (same_key d r0) (q_assocs s)) eqn:E; [discriminate|]. inv H. unfold apply. cbn [writes fold_left apply1]. split; auto. cbn [q_assocs].
    rewrite existsb_filter in E. assert (filter (same_key d r0) (q_assocs s) = []) as E' by (destruct (filter (same_key d r0) (q_assocs s)); auto; discriminate).
    apply filter_none in E'. change (filter (fun x => negb (key_eqb (akey d x) (akey d r0))) (q_assocs s)) with (filter (fun x => negb (same_key d r0 x)) (q_assocs s)).
    rewrite E'. auto.
  - inv H. cbn [writes].
    assert (forall x, akey d (updated secret issued lifetime ty x) = akey d x) as Kf by reflexivity.
    set (rows := db_get_assoc (q_assocs s) url handle).
    destruct (fold_put d (updated secret issued lifetime ty) rows Kf s N) as (E1 & E2).
    { intros x Hx. unfold rows, db_get_assoc in Hx. apply filter_In in Hx. tauto. }
    { apply NoDup_map_filter. auto. }
    split; [|exact E1]. eapply Permutation_trans; [exact E2|]. cbn [q_assocs].
    assert (forall x, In x (q_assocs s) -> existsb (fun r => key_eqb (akey d x) (akey d r)) rows = text_eqb (r_url x) url && text_eqb (r_handle x) handle) as K.
    { intros x Hx. destruct (text_eqb (r_url x) url && text_eqb (r_handle x) handle) eqn:Q.
      - apply existsb_exists. exists x. split; [apply filter_In; auto|apply key_eqb_refl].
      - destruct (existsb _ rows) eqn:E; auto. apply existsb_exists in E as (y & Hy & E). apply filter_In in Hy as (Hy & Q').
        apply key_eqb_eq in E. assert (x = y) as -> by (eapply (NoDup_map_eq (akey d)); eauto). congruence. }
    rewrite (filter_self (fun x => negb (text_eqb (r_url x) url && text_eqb (r_handle x) handle))); [|intros x Hx; rewrite K; auto].
    unfold rows, db_get_assoc. clear. induction (q_assocs s) as [|x l IH]; simpl; auto.
    destruct (text_eqb (r_url x) url && text_eqb (r_handle x) handle); cbn [negb map].
    + eapply Permutation_trans; [apply Permutation_sym, Permutation_middle|]. constructor. auto.
    + cbn [app]. constructor. auto.
  - inv H. split; auto.
  - inv H. split; auto.
  - inv H. unfold apply. cbn [writes fold_left apply1]. split; auto. cbn [q_assocs]. unfold db_remove_assoc.
    rewrite (filter_self (fun x => negb (text_eqb (r_url x) url && text_eqb (r_handle x) handle))); auto.
    intros x Hx. f_equal. destruct (text_eqb (r_url x) url && text_eqb (r_handle x) handle) eqn:Q.
    + apply existsb_exists. exists x. split; [apply filter_In; auto|apply key_eqb_refl].
    + destruct (existsb _ _) eqn:E; auto. apply existsb_exists in E as (y & Hy & E). apply filter_In in Hy as (Hy & Q').
      apply key_eqb_eq in E. assert (x = y) as -> by (eapply (NoDup_map_eq (akey d)); eauto). congruence.
  - inv H. unfold apply. cbn [writes fold_left apply1]. split; auto. cbn [q_assocs]. unfold db_clean_assoc.
    rewrite (filter_self (fun x => negb (r_issued x + r_lifetime x <? now))); auto.
    intros x Hx. f_equal. destruct (r_issued x + r_lifetime x <? now) eqn:Q.
    + apply existsb_exists. exists x. split; [apply filter_In; auto|apply key_eqb_refl].
    + destruct (existsb _ _) eqn:E; auto. apply existsb_exists in E as (y & Hy & E). apply filter_In in Hy as (Hy & Q').
      apply key_eqb_eq in E. assert (x = y) as -> by (eapply (NoDup_map_eq (akey d)); eauto). congruence.
  - destruct (db_add_nonce (d_pk d) (q_nonces s) n) as [t|] eqn:E; [|discriminate]. inv H. unfold db_add_nonce in E.
    destruct (existsb _ _); [discriminate|]. inv E. split; auto.
  - inv H. unfold apply. cbn [writes fold_left apply1]. split; auto. cbn [q_nonces]. unfold db_clean_nonce.
    apply filter_self. intros x Hx. f_equal. destruct (snd (fst x) <? before) eqn:Q.
    + apply existsb_exists. exists x. split; [apply filter_In; auto|apply nrow_eqb_eq; auto].
    + destruct (existsb _ _) eqn:E; auto. apply existsb_exists in E as (y & Hy & E). apply filter_In in Hy as (Hy & Q').
      apply nrow_eqb_eq in E. subst y. congruence.
Qed.
Print Assumptions C143_writes.

(** ** Nonces *)
(** Programs and writes that do not concern nonces. *)
Fixpoint plain {A} (p : prog A) : Prop :=
  match p with
  | Exec st k => match st with Add_nonce _ | Clean_nonce _ => False | _ => True end /\ forall r, plain (k r)
  | _ => True
  end.
Definition plain_w (w : write) : Prop := match w with AddN _ | DelN _ => False | _ => True end.
Lemma plain_bind {A B} (p : prog A) (f : A -> prog B) : plain p -> (forall a, plain (f a)) -> plain (pbind p f).
Proof. induction p as [a|e|st k IH]; simpl; auto. intros (H1 & H2) Hf. split; auto. Qed.
Lemma plain_enc {A} s (k : bytes -> prog A) : (forall b, plain (k b)) -> plain (enc s k).
Proof. unfold enc. intros H. destruct (encode s); simpl; auto. Qed.
Lemma plain_ex {A} st (k : reply -> prog A) : match st with Add_nonce _ | Clean_nonce _ => False | _ => True end ->
  (forall r, plain (k r)) -> plain (ex st k).
Proof. intros H1 H. simpl. split; auto. intros [e|r]; simpl; auto. Qed.
Lemma plain_rows now url rows : forall acc, plain (p_rows now url acc rows).
Proof.
  induction rows as [|r rows IH]; intros acc; simpl; auto. destruct (row_assoc r) as [a|x]; simpl; auto.
  destruct (expired a now); auto. apply plain_bind; auto.
  apply plain_enc; intros. apply plain_enc; intros. apply plain_ex; [exact I|]. intros; simpl; auto.
Qed.
Lemma plain_found now url (r : reply) : plain
  (match fst r with
   | [] => Ret None
   | rows => pbind (p_rows now url [] rows) (fun l =>
             match sorted_last l with Ok a => Ret a | Raise x => Throw (Python x) end)
   end).
Proof.
  destruct (fst r) as [|x l]; [simpl; auto|]. apply plain_bind; [apply plain_rows|].
  intros q. destruct (sorted_last q); simpl; auto.
Qed.
Definition about_nonces (o : op) : bool := match o with UseN _ _ _ | CleanN => true | _ => false end.
Lemma plain_prog d now o : about_nonces o = false -> plain (prog_of d now o).
Proof.
  destruct o as [url a|url h|url h|url ts salt| |]; cbn [prog_of about_nonces]; try discriminate; intros _; (apply plain_bind; [|simpl; auto]).
  - unfold p_storeAssociation, p_set_assoc. destruct (d_replace d).
    + apply plain_enc; intros. apply plain_enc; intros. apply plain_enc; intros. apply plain_ex; [exact I|]; intros; simpl; auto.
    + apply plain_enc; intros. apply plain_enc; intros. apply plain_ex; [exact I|]; intros r.
      destruct (fst r); apply plain_enc; intros; (apply plain_ex; [exact I|]; intros; simpl; auto).
  - unfold p_getAssociation. destruct h as [h|].
    + apply plain_enc; intros. apply plain_enc; intros. apply plain_ex; [exact I|]; intros. apply plain_found.
    + apply plain_enc; intros. apply plain_ex; [exact I|]; intros. apply plain_found.
  - apply plain_enc; intros. apply plain_enc; intros. apply plain_ex; [exact I|]; intros; simpl; auto.
  - apply plain_ex; [exact I|]; intros; simpl; auto.
Qed.
Lemma plain_writes view st : match st with Add_nonce _ | Clean_nonce _ => False | _ => True end -> Forall plain_w (writes view st).
Proof.
  destruct st; simpl; intros H; try contradiction; auto.
  apply Forall_forall. intros w Hw. apply in_map_iff in Hw as (x & <- & _). exact I.
Qed.
Lemma apply_plain d ws : Forall plain_w ws -> forall s, q_nonces (apply d s ws) = q_nonces s.
Proof.
  induction 1 as [|w ws H _ IH]; intros s; auto. unfold apply. cbn [fold_left]. fold (apply d (apply1 d s w) ws). rewrite IH.
  destruct w; try destruct H; auto.
Qed.
Definition use_k (r : err + reply) : prog out :=
  pbind (match r with inl Integrity => Ret false | inl e => Throw e | inr _ => Ret true end) (fun b => Ret (Flag b)).
Lemma use_prog d t url ts salt :
  prog_of d t (UseN url ts salt) = Ret (Flag false) \/ (exists x, prog_of d t (UseN url ts salt) = Throw (Python x)) \/
  exists bu bs, encode url = Ok bu /\ encode salt = Ok bs /\ in_window t ts = true /\
    prog_of d t (UseN url ts salt) = Exec (Add_nonce (bu, ts, bs)) use_k.
Proof.
  cbn [prog_of]. unfold p_useNonce. destruct (skewed ts t) eqn:W; [left; auto|right]. rewrite skewed_window in W. apply negb_false_iff in W.
  unfold enc. destruct (encode url) as [bu|x]; [|left; exists x; auto]. destruct (encode salt) as [bs|x]; [|left; exists x; auto].
  right. exists bu, bs. repeat split; auto.
Qed.

Local Arguments is_grant : simpl never.
Section Nonces.
  Variable d : dialect.
  Variable procs : list nat.
  Variable quiet : Prop.

  Definition proc_ok (s : sys) (p : proc) : Prop :=
    match p with
    | Idle => True
    | Start o => o = CleanN -> ~ quiet
    | Run (UseN url ts salt) p w =>
        (exists t, t <= s_clock s /\ p = prog_of d t (UseN url ts salt) /\ w = []) \/
        (exists bu bs, encode url = Ok bu /\ encode salt = Ok bs /\ p = Ret (Flag true) /\ w = [AddN (bu, ts, bs)] /\
                       grants url ts salt s = 0%nat) \/
        (w = [] /\ (p = Ret (Flag false) \/ exists e, p = Throw e))
    | Run CleanN p w =>
        ~ quiet /\
        ((exists t, t <= s_clock s /\ p = prog_of d t CleanN /\ w = []) \/
         (exists l a, p = Ret a /\ w = [DelN l] /\ forall n, In n l -> snd (fst n) < s_clock s - 18000) \/
         (w = [] /\ exists e, p = Throw e))
    | Run _ p w => plain p /\ Forall plain_w w
    end.
  Definition conc_inv (s : sys) : Prop :=
    (forall i, proc_ok s (s_proc s i)) /\
    (forall i j n m, i <> j -> In (AddN n) (pending (s_proc s i)) -> In (AddN m) (pending (s_proc s j)) -> nkey d n <> nkey d m) /\
    (forall url ts salt, (grants url ts salt s <= 1)%nat) /\
    (forall url ts salt, (0 < grants url ts salt s)%nat -> quiet \/ s_clock s - 18000 <= ts ->
       exists bu bs, encode url = Ok bu /\ encode salt = Ok bs /\ In (bu, ts, bs) (q_nonces (s_db s))) /\
    (forall i, s_proc s i <> Idle -> In i procs) /\
    (forall bu ts bs, In (bu, ts, bs) (q_nonces (s_db s)) -> exists url salt, encode url = Ok bu /\ encode salt = Ok bs /\
       ((0 < grants url ts salt s)%nat \/ In (UseN url ts salt) (s_lost s))).

  Lemma set_same f i p : set_proc f i p i = p.
  Proof using. unfold set_proc. rewrite Nat.eqb_refl. auto. Qed.
  Lemma set_other f i j p : j <> i -> set_proc f i p j = f j.
  Proof using. intros H. unfold set_proc. destruct (Nat.eqb j i) eqn:E; auto. apply Nat.eqb_eq in E. contradiction. Qed.

  (** A step of one process that leaves the tables alone and answers no True. *)
  Lemma proc_inv s i p a : conc_inv s ->
    (forall url ts salt, grants url ts salt (mkSys (s_clock s) (s_db s) (set_proc (s_proc s) i p) a (s_lost s)) = grants url ts salt s) ->
    proc_ok s p -> (p <> Idle -> In i procs) ->
    (forall n, In (AddN n) (pending p) -> In (AddN n) (pending (s_proc s i)) \/
       forall j m, j <> i -> In (AddN m) (pending (s_proc s j)) -> nkey d n <> nkey d m) ->
    conc_inv (mkSys (s_clock s) (s_db s) (set_proc (s_proc s) i p) a (s_lost s)).
  Proof using.
    intros (I1 & I2 & I3 & I4 & I5 & I6) G P Hi K. set (s' := mkSys _ _ _ _ _) in *.
    assert (forall q, proc_ok s q -> proc_ok s' q) as PO.
    { intros q. destruct q as [|o|o q w]; auto. destruct o as [| | |url ts salt| |]; auto. simpl.
      intros [H|[(bu & bs & H1 & H2 & H3 & H4 & H5)|H]]; auto. right. left. exists bu, bs. rewrite G. auto. }
    repeat split.
    - intros j. simpl. destruct (Nat.eq_dec j i) as [->|N]; [rewrite set_same; auto|rewrite set_other; auto].
    - intros j k n m N. simpl. destruct (Nat.eq_dec j i) as [->|Nj].
      + rewrite set_same, set_other by auto. intros H1 H2. destruct (K n H1) as [H|H]; [apply (I2 i k); auto|eapply H; eauto].
      + rewrite (set_other _ _ j) by auto. destruct (Nat.eq_dec k i) as [->|Nk].
        * rewrite set_same. intros H1 H2 E. destruct (K m H2) as [H|H]; [apply (I2 i j m n); auto|eapply H; eauto].
        * rewrite set_other by auto. apply I2; auto.
    - intros. rewrite G. auto.
    - intros url ts salt. rewrite G. simpl. auto.
    - intros j. simpl. destruct (Nat.eq_dec j i) as [->|N]; [rewrite set_same; auto|rewrite set_other; auto].
    - intros bu ts bs H. simpl in *. destruct (I6 _ _ _ H) as (url & salt & H1 & H2 & H3). exists url, salt. rewrite G. auto.
  Qed.
  Lemma go_inv s i p : conc_inv s -> proc_ok s p -> (p <> Idle -> In i procs) ->
    (forall n, In (AddN n) (pending p) -> In (AddN n) (pending (s_proc s i)) \/
       forall j m, j <> i -> In (AddN m) (pending (s_proc s j)) -> nkey d n <> nkey d m) ->
    conc_inv (go s i p).
  Proof using. intros I P Hi K. unfold go. apply proc_inv; auto. Qed.
  Lemma is_grant_true url ts salt o a : is_grant url ts salt (o, a) = true -> o = UseN url ts salt /\ a = Out (Flag true).
  Proof using.
    clear. unfold is_grant. destruct o; try discriminate. destruct a as [[]|]; try discriminate. destruct b; try discriminate.
    rewrite !andb_true_iff, !text_eqb_eq, Z.eqb_eq. intros ((-> & ->) & ->). auto.
  Qed.
  Lemma finish_inv s i o r : conc_inv s -> (forall url ts salt, o = UseN url ts salt -> r <> inr (Flag true)) ->
    conc_inv (finish d s i o r).
  Proof using.
    intros I R. unfold finish. apply proc_inv; [auto| |simpl; auto|congruence|].
    - intros url ts salt. unfold grants. cbn [s_answers filter].
      destruct (is_grant url ts salt (o, reported d o r)) eqn:E; auto. exfalso.
      apply is_grant_true in E as (-> & E). unfold reported in E. specialize (R _ _ _ eq_refl).
      destruct r as [e|q]; [|inv E; congruence]. destruct e as [|why|x]; try discriminate. destruct (d_reads d && not_unique why); discriminate.
    - simpl. tauto.
  Qed.

  Lemma unlocked s i k : (forall i, s_proc s i <> Idle -> In i procs) -> locked d procs s i k = false ->
    forall j m, j <> i -> In (AddN m) (pending (s_proc s j)) -> k <> nkey d m.
  Proof using.
    intros I5 L j m N Hm ->. unfold locked in L.
    assert (existsb (fun j => negb (Nat.eqb j i) && existsb (key_eqb (nkey d m)) (flat_map (locks d) (pending (s_proc s j)))) procs = true); [|congruence].
    apply existsb_exists. exists j. split; [apply I5; intros E; rewrite E in Hm; destruct Hm|].
    apply andb_true_iff. split; [apply negb_true_iff, Nat.eqb_neq; auto|].
    apply existsb_exists. exists (nkey d m). split; [|apply key_eqb_refl]. apply in_flat_map. exists (AddN m). split; simpl; auto.
  Qed.

  (** Committing. *)
  Lemma commit_inv s i o a w lost' answers' : conc_inv s -> s_proc s i = Run o (Ret a) w ->
    (forall url ts salt, length (filter (is_grant url ts salt) answers') =
       (grants url ts salt s + (if is_grant url ts salt (o, Out a) then match lost' with [] => 1 | _ => 0 end else 0))%nat) ->
    (lost' <> [] -> lost' = [o]) ->
    conc_inv (mkSys (s_clock s) (apply d (s_db s) w) (set_proc (s_proc s) i Idle) answers' (lost' ++ s_lost s)).
  Proof using.
    intros (I1 & I2 & I3 & I4 & I5 & I6) E G HL. set (s' := mkSys _ _ _ _ _).
    assert (forall url ts salt, grants url ts salt s' = (grants url ts salt s + (if is_grant url ts salt (o, Out a) then match lost' with [] => 1 | _ => 0 end else 0))%nat) as G' by (intros; apply G).
    pose proof (I1 i) as P. rewrite E in P.
    (* either the nonce table and the number of grants stay, or one nonce is added *)
    assert ((forall url ts salt, is_grant url ts salt (o, Out a) = false) \/
            exists url ts salt bu bs, o = UseN url ts salt /\ a = Flag true /\ encode url = Ok bu /\ encode salt = Ok bs /\
              w = [AddN (bu, ts, bs)] /\ grants url ts salt s = 0%nat) as C.
    { destruct o as [| | |url ts salt| |]; try (left; reflexivity). cbn [proc_ok] in P.
      destruct P as [(t & _ & P & _)|[(bu & bs & P1 & P2 & P3 & P4 & P5)|(_ & [P|(e & P)])]].
      - left. destruct (use_prog d t url ts salt) as [Q|[(x & Q)|(bu & bs & _ & _ & _ & Q)]]; rewrite Q in P; inv P. reflexivity.
      - right. inv P3. exists url, ts, salt, bu, bs. repeat split; auto.
      - inv P. left. reflexivity.
      - discriminate. }
    assert ((exists url ts salt bu bs, o = UseN url ts salt /\ a = Flag true /\ encode url = Ok bu /\ encode salt = Ok bs /\
              w = [AddN (bu, ts, bs)] /\ grants url ts salt s = 0%nat) \/
            (forall url ts salt, is_grant url ts salt (o, Out a) = false) /\
            ((w = [] \/ Forall plain_w w) \/ (~ quiet /\ exists l, w = [DelN l] /\ forall n, In n l -> snd (fst n) < s_clock s - 18000))) as D.
    { destruct C as [C|C]; [right; split; auto|left; auto]. destruct o as [| | |url ts salt| |]; cbn [proc_ok] in P; try tauto.
      - left. left. destruct P as [(t & _ & _ & P)|[(bu & bs & _ & _ & P & _)|(P & _)]]; auto. inv P.
        specialize (C url ts salt). unfold is_grant in C. rewrite !text_eqb_refl, Z.eqb_refl in C. discriminate.
      - destruct P as (Q & [(t & _ & _ & P)|[(l & b & _ & P & P')|(P & _)]]); auto. right. split; auto. exists l. auto. }
    clear C. destruct D as [(url & ts & salt & bu & bs & -> & -> & Eu & Es & -> & G0)|(NG & W)].
    - (* a nonce *)
      assert (forall url' ts' salt', is_grant url' ts' salt' (UseN url ts salt, Out (Flag true)) = true -> url' = url /\ ts' = ts /\ salt' = salt) as GE.
      { intros url' ts' salt' H. apply is_grant_true in H as (H & _). inv H. auto. }
      assert (is_grant url ts salt (UseN url ts salt, Out (Flag true)) = true) as GT by (unfold is_grant; rewrite !text_eqb_refl, Z.eqb_refl; auto).
      assert (In (AddN (bu, ts, bs)) (pending (s_proc s i))) as Pi by (rewrite E; left; auto).
      split; [|split; [|split; [|split; [|split]]]].
      + intros j. simpl. destruct (Nat.eq_dec j i) as [->|N]; [rewrite set_same; exact I|rewrite set_other; auto].
        pose proof (I1 j) as Q. destruct (s_proc s j) as [|o'|o' q w'] eqn:Ej; auto. destruct o' as [| | |url' ts' salt'| |]; auto.
        simpl in *. destruct Q as [Q|[(bu' & bs' & Q1 & Q2 & Q3 & Q4 & Q5)|Q]]; auto. right. left. exists bu', bs'. repeat split; auto.
        rewrite G', Q5. destruct (is_grant url' ts' salt' _) eqn:Y; auto. exfalso. apply GE in Y as (-> & -> & ->).
        eapply (I2 i j (bu, ts, bs) (bu', ts, bs')); auto; [rewrite Ej; subst w'; left; auto|congruence].
      + intros j k n m N. simpl. destruct (Nat.eq_dec j i) as [->|Nj]; [rewrite set_same; simpl; tauto|].
        destruct (Nat.eq_dec k i) as [->|Nk]; [rewrite set_same; simpl; tauto|]. rewrite !set_other by auto. apply I2; auto.
      + intros url' ts' salt'. rewrite G'. destruct (is_grant url' ts' salt' _) eqn:Y.
        * apply GE in Y as (-> & -> & ->). rewrite G0. destruct lost'; lia.
        * rewrite Nat.add_0_r. auto.
      + intros url' ts' salt'. rewrite G'. simpl. intros H Fr. destruct (is_grant url' ts' salt' (UseN url ts salt, Out (Flag true))) eqn:Y.
        * apply GE in Y as (-> & -> & ->). exists bu, bs. repeat split; auto. apply in_app_iff. right. left. auto.
        * rewrite Nat.add_0_r in H. destruct (I4 _ _ _ H Fr) as (b1 & b2 & B1 & B2 & B3). exists b1, b2. repeat split; auto. apply in_app_iff. auto.
      + intros j. simpl. destruct (Nat.eq_dec j i) as [->|N]; [rewrite set_same; congruence|rewrite set_other; auto].
      + intros bu' ts' bs' H. simpl in H. apply in_app_iff in H as [H|[H|[]]].
        * destruct (I6 _ _ _ H) as (url' & salt' & H1 & H2 & [H3|H3]); exists url', salt'; (split; [auto|split; [auto|]]).
          -- left. rewrite G'. lia.
          -- right. simpl. apply in_app_iff. auto.
        * inv H. exists url, salt. split; auto. split; auto. rewrite G', GT. destruct lost' as [|o' l'].
          -- left. lia.
          -- right. simpl. left. specialize (HL ltac:(discriminate)). congruence.
    - assert (forall url ts salt, grants url ts salt s' = grants url ts salt s) as GS by (intros; rewrite G', NG; lia).
      assert (forall n, In n (q_nonces (s_db s)) -> In n (q_nonces (s_db s')) \/ (~ quiet /\ snd (fst n) < s_clock s - 18000)) as KK.
      { intros n H. simpl. destruct W as [[-> | W]|(Q & l & -> & W)]; [left; auto|rewrite apply_plain; auto|].
        simpl. destruct (existsb (nrow_eqb n) l) eqn:X.
        - right. split; auto. apply existsb_exists in X as (m & Hm & X). apply nrow_eqb_eq in X. subst m. auto.
        - left. apply filter_In. rewrite X. auto. }
      assert (forall n, In n (q_nonces (s_db s')) -> In n (q_nonces (s_db s))) as KS.
      { intros n. simpl. destruct W as [[-> | W]|(Q & l & -> & W)]; [auto|rewrite apply_plain; auto|].
        simpl. intros H. apply filter_In in H. tauto. }
      split; [|split; [|split; [|split; [|split]]]].
      + intros j. simpl. destruct (Nat.eq_dec j i) as [->|N]; [rewrite set_same; exact I|rewrite set_other; auto].
        pose proof (I1 j) as Q. destruct (s_proc s j) as [|o'|o' q w'] eqn:Ej; auto. destruct o' as [| | |url' ts' salt'| |]; auto.
        simpl in *. destruct Q as [Q|[(bu' & bs' & Q1 & Q2 & Q3 & Q4 & Q5)|Q]]; auto. right. left. exists bu', bs'. repeat split; auto. rewrite GS. auto.
      + intros j k n m N. simpl. destruct (Nat.eq_dec j i) as [->|Nj]; [rewrite set_same; simpl; tauto|].
        destruct (Nat.eq_dec k i) as [->|Nk]; [rewrite set_same; simpl; tauto|]. rewrite !set_other by auto. apply I2; auto.
      + intros. rewrite GS. auto.
      + intros url ts salt. rewrite GS. intros H Fr. destruct (I4 _ _ _ H Fr) as (b1 & b2 & B1 & B2 & B3). exists b1, b2. repeat split; auto.
        destruct (KK _ B3) as [K|(K1 & K2)]; auto. simpl in *. destruct Fr as [Fr|Fr]; [contradiction|lia].
      + intros j. simpl. destruct (Nat.eq_dec j i) as [->|N]; [rewrite set_same; congruence|rewrite set_other; auto].
      + intros bu ts bs H. destruct (I6 _ _ _ (KS _ H)) as (url & salt & H1 & H2 & H3). exists url, salt. rewrite GS. repeat split; auto.
        destruct H3; auto. right. simpl. apply in_app_iff. auto.
  Qed.

  Lemma step_inv s l : conc_inv s ->
    match l with Call _ CleanN => ~ quiet | _ => True end ->
    match l with
    | Step i => match s_proc s i with Run _ (Exec (Add_nonce n) _) _ => quiet \/ s_clock s - 18000 <= snd (fst n) | _ => True end
    | _ => True
    end -> conc_inv (step d procs s l).
  Proof using.
    intros I O F. pose proof I as (I1 & I2 & I3 & I4 & I5 & I6). destruct l as [i o|i|i why|i why|i|n]; cbn [step].
    - destruct (s_proc s i) eqn:E; auto. destruct (existsb (Nat.eqb i) procs) eqn:X; auto. apply go_inv; [auto| | |simpl; tauto].
      + simpl. intros ->. auto.
      + intros _. apply existsb_exists in X as (j & Hj & X). apply Nat.eqb_eq in X. congruence.
    - unfold exec_step. pose proof (I1 i) as P. destruct (s_proc s i) as [|o|o p w] eqn:E; auto.
      + apply go_inv; [auto| |intros _; apply I5; congruence|simpl; tauto]. cbn [proc_ok] in P.
        destruct (about_nonces o) eqn:A.
        * destruct o; try discriminate.
          -- left. exists (s_clock s). split; [lia|auto].
          -- split; auto. left. exists (s_clock s). split; [lia|auto].
        * destruct o; try discriminate; (split; [apply plain_prog; auto|constructor]).
      + assert (In i procs) as Hi by (apply I5; congruence).
        destruct p as [a|e|st k].
        * unfold finish. cbn [s_clock s_db s_proc s_answers s_lost].
          apply (commit_inv s i o a w [] ((o, reported d o (inr a)) :: s_answers s)); auto; [|congruence].
          intros url ts salt. assert (reported d o (inr a) = Out a) as -> by (destruct o; auto).
          unfold grants. cbn [filter]. destruct (is_grant url ts salt (o, Out a)); simpl; lia.
        * apply finish_inv; auto. intros; discriminate.
        * destruct (existsb (locked d procs s i) (wanted d (apply d (s_db s) w) st)) eqn:L; auto.
          destruct (about_nonces o) eqn:A.
          -- destruct o as [| | |url ts salt| |]; try discriminate.
             ++ cbn [proc_ok] in P. destruct P as [(t & T & P & ->)|[(bu & bs & _ & _ & P & _)|(_ & [P|(e & P)])]]; try discriminate.
                destruct (use_prog d t url ts salt) as [Q|[(x & Q)|(bu & bs & Eu & Es & W & Q)]]; rewrite Q in P; inv P.
                cbn [exec apply fold_left] in *. destruct (db_add_nonce (d_pk d) (q_nonces (s_db s)) (bu, ts, bs)) as [q|] eqn:DA.
                ** apply go_inv; [auto| |auto|].
                   --- right. left. exists bu, bs. repeat split; auto.
                       destruct (Nat.eq_dec (grants url ts salt s) 0) as [Z|NZ]; auto. exfalso.
                       destruct (I4 url ts salt) as (b1 & b2 & B1 & B2 & B3); [lia|auto|].
                       assert (b1 = bu) as -> by congruence. assert (b2 = bs) as -> by congruence.
                       unfold db_add_nonce in DA.
                       match type of DA with (if ?e then _ else _) = _ => assert (e = true) as Y end; [|rewrite Y in DA; discriminate].
                       apply existsb_exists. exists (bu, ts, bs). split; auto. simpl. rewrite !text_eqb_refl, Z.eqb_refl. auto.
                   --- simpl. intros n [H|[]]. inv H. right. apply unlocked; auto. simpl in L. rewrite orb_false_r in L. exact L.
                ** apply go_inv; [auto| |auto|simpl; tauto]. right. right. split; auto. unfold use_k.
                   destruct (d_dup d); simpl; eauto.
             ++ cbn [proc_ok] in P. destruct P as (Q & [(t & T & P & ->)|[(l & a & P & _)|(_ & (e & P))]]); try discriminate.
                cbn [prog_of p_cleanupNonces ex pbind] in P. inv P. cbn [exec apply fold_left pbind].
                apply go_inv; [auto| |auto|simpl; intros n [H|[]]; discriminate]. split; auto. right. left. eexists. eexists. split; [reflexivity|].
                split; [reflexivity|]. intros n Hn. apply filter_In in Hn as (_ & Hn). unfold SKEW in Hn. lia.
          -- assert (plain (Exec st k) /\ Forall plain_w w) as ((P1 & P2) & P3) by (destruct o; try discriminate; auto).
             destruct (exec d (apply d (s_db s) w) st) as [e|[s' r]].
             ++ apply go_inv; [auto|destruct o; try discriminate; simpl; auto|auto|]. rewrite E. simpl. auto.
             ++ pose proof (plain_writes (apply d (s_db s) w) st P1) as PW.
                apply go_inv; [auto|destruct o; try discriminate; (split; [auto|apply Forall_app; auto])|auto|].
                simpl. intros n Hn. exfalso. apply in_app_iff in Hn as [Hn|Hn].
                ** rewrite Forall_forall in P3. exact (P3 _ Hn).
                ** rewrite Forall_forall in PW. exact (PW _ Hn).
    - pose proof (I1 i) as P. destruct (s_proc s i) as [|o|o p w] eqn:E; auto.
      + apply finish_inv; auto. intros; discriminate.
      + destruct p as [a|e|st k].
        * apply finish_inv; auto. intros; discriminate.
        * apply finish_inv; auto. intros; discriminate.
        * assert (In i procs) as Hi by (apply I5; congruence).
          apply go_inv; [auto| |auto|rewrite E; simpl; auto].
          destruct o as [| | |url ts salt| |]; cbn [proc_ok] in P |- *; try (destruct P as ((_ & P) & P3); split; auto; fail).
          -- destruct P as [(t & T & P & ->)|[(bu & bs & _ & _ & P & _)|(_ & [P|(e & P)])]]; try discriminate.
             destruct (use_prog d t url ts salt) as [Q|[(x & Q)|(bu & bs & Eu & Es & W & Q)]]; rewrite Q in P; inv P.
             right. right. split; auto. right. unfold use_k. simpl. eauto.
          -- destruct P as (Q & [(t & T & P & ->)|[(l & a & P & _)|(_ & (e & P))]]); try discriminate.
             cbn [prog_of p_cleanupNonces ex pbind] in P. inv P. split; auto. right. right. split; auto. simpl. eauto.
    - destruct (s_proc s i) as [|o|o p w] eqn:E; auto. destruct p as [a|e|st k]; auto.
      unfold finish. cbn [s_clock s_db s_proc s_answers s_lost].
      apply (commit_inv s i o a w [o] ((o, reported d o (inl (Operational why))) :: s_answers s)); auto.
      intros url ts salt. unfold grants. cbn [filter].
      destruct (is_grant url ts salt (o, reported d o (inl (Operational why)))) eqn:Y.
      + exfalso. apply is_grant_true in Y as (-> & Y). simpl in Y. destruct (d_reads d && not_unique why); discriminate.
      + destruct (is_grant url ts salt (o, Out a)); lia.
    - apply go_inv; [auto|exact Logic.I|congruence|simpl; tauto].
    - set (s' := mkSys _ _ _ _ _).
      assert (forall q, proc_ok s q -> proc_ok s' q) as PO.
      { intros q. destruct q as [|o|o q w]; auto. destruct o as [| | |url ts salt| |]; auto; simpl.
        - intros [(t & T & H)|H]; [left; exists t; split; [lia|auto]|right; auto].
        - intros (Q & [(t & T & H)|[(l & a & H1 & H2 & H3)|H]]); split; auto.
          + left. exists t. split; [lia|auto].
          + right. left. exists l, a. repeat split; auto. intros m Hm. specialize (H3 _ Hm). lia. }
      split; [intros j; apply PO; apply I1|split; [|split; [|split; [|split]]]]; auto.
      intros url ts salt H Fr. apply I4; auto. destruct Fr as [Fr|Fr]; auto. right. simpl in Fr. lia.
  Qed.
  Lemma init_inv now : conc_inv (sys_init now).
  Proof using.
    split; [intros; exact I|]. split; [intros ? ? ? ? _ []|]. split; [intros; unfold grants; simpl; lia|]. split; [intros ? ? ? H; unfold grants in H; simpl in H; lia|].
    split; [intros; simpl in *; congruence|]. intros ? ? ? [].
  Qed.
End Nonces.

Lemma run_inv d procs (quiet : Prop) ls : forall s, conc_inv d procs quiet s ->
  (quiet -> no_cleanup ls) -> (~ quiet -> prompt d procs s ls) -> quiet \/ ~ quiet -> conc_inv d procs quiet (run_sys d procs s ls).
Proof.
  induction ls as [|l ls IH]; intros s I Q P EM; auto. cbn [run_sys fold_left].
  apply IH; auto.
  - apply step_inv; auto.
    + destruct l as [i o| | | | |]; auto. destruct o; auto. destruct EM as [EM|EM]; auto. specialize (Q EM). inv Q. contradiction.
    + destruct l as [|i| | | |]; auto. destruct EM as [EM|EM].
      * destruct (s_proc s i) as [|o|o [| |[]] w]; auto.
      * specialize (P EM). destruct P as (P & _). destruct (s_proc s i) as [|o|o [| |[]] w]; auto.
  - intros H. specialize (Q H). inv Q. auto.
  - intros H. specialize (P H). apply P.
Qed.

(** Any schedule of any number of processes calling any of the methods, with failing calls and
    crashes, in which no nonces are cleaned up. *)
Theorem C143_once :
  forall d procs now ls, no_cleanup ls -> forall url ts salt,
    (grants url ts salt (run_sys d procs (sys_init now) ls) <= 1)%nat.
Proof.
  intros d procs now ls Q url ts salt.
  destruct (run_inv d procs True ls (sys_init now)) as (_ & _ & G & _); auto; [apply init_inv|tauto].
Qed.
(** With cleanup, if nonces are inserted while they are fresh. *)
Theorem C143_once_cleanup :
  forall d procs now ls, prompt d procs (sys_init now) ls -> forall url ts salt,
    (grants url ts salt (run_sys d procs (sys_init now) ls) <= 1)%nat.
Proof.
  intros d procs now ls P url ts salt.
  destruct (run_inv d procs False ls (sys_init now)) as (_ & _ & G & _); auto; [apply init_inv|tauto].
Qed.
(** What has been granted is in the table for as long as it is fresh, and what is in the table
    has been granted, or had its commit reported as failed.  So a nonce is never burnt by a
    process that failed earlier, or died. *)
Theorem C143_committed :
  forall d procs now ls, prompt d procs (sys_init now) ls ->
    let s := run_sys d procs (sys_init now) ls in
    (forall url ts salt, (0 < grants url ts salt s)%nat -> s_clock s - 18000 <= ts ->
       exists bu bs, encode url = Ok bu /\ encode salt = Ok bs /\ In (bu, ts, bs) (q_nonces (s_db s))) /\
    (forall bu ts bs, In (bu, ts, bs) (q_nonces (s_db s)) -> exists url salt, encode url = Ok bu /\ encode salt = Ok bs /\
       ((0 < grants url ts salt s)%nat \/ In (UseN url ts salt) (s_lost s))).
Proof.
  intros d procs now ls P s.
  assert (conc_inv d procs False s) as (_ & _ & _ & I4 & _ & I6) by (apply run_inv; [apply init_inv|tauto|auto|tauto]).
  split; [|exact I6]. intros url ts salt G F. apply I4; auto.
Qed.
Print Assumptions C143_once.
Print Assumptions C143_once_cleanup.
Print Assumptions C143_committed.
(** Two processes race for a nonce: the second waits for the first, which fails, and then wins. *)
Example C143_example :
  let use := UseN (u "http://p/") 90 (u "x") in
  let ls := [Call 1 use; Call 2 use; Step 1; Step 2; Step 1; Step 2; Fail 1 (u "disk full"); Step 2; Step 2; Call 3 use; Step 3; Step 3; Step 3] in
  s_answers (run_sys postgresql [1; 2; 3]%nat (sys_init 100) ls) =
    [(use, Out (Flag false)); (use, Out (Flag true)); (use, DbError (Operational (u "disk full")))] /\
  prompt postgresql [1; 2; 3]%nat (sys_init 100) ls.
Proof.
  split; [vm_compute; reflexivity|]. vm_compute. repeat (split; [first [exact I|discriminate]|]). exact I.
Qed.

(** ** C144: with REPLACE, working connections never fail *)
(** No statement of the program can hit a duplicate key, or else the error is handled. *)
Fixpoint calm {A} (p : prog A) : Prop :=
  match p with
  | Ret _ => True
  | Throw e => exists x, e = Python x
  | Exec st k =>
      match st with
      | New_assoc _ => False
      | Add_nonce _ => calm (k (inl Integrity))
      | _ => True
      end /\ forall r, calm (k (inr r))
  end.
Lemma calm_bind {A B} (p : prog A) (f : A -> prog B) : calm p -> (forall a, calm (f a)) -> calm (pbind p f).
Proof.
  induction p as [a|e|st k IH]; simpl; auto. intros (H1 & H2) Hf. split; auto. destruct st; auto.
Qed.
Lemma calm_enc {A} s (k : bytes -> prog A) : (forall b, calm (k b)) -> calm (enc s k).
Proof. unfold enc. intros H. destruct (encode s); simpl; eauto. Qed.
Lemma calm_ex {A} st (k : reply -> prog A) : match st with New_assoc _ | Add_nonce _ => False | _ => True end ->
  (forall r, calm (k r)) -> calm (ex st k).
Proof. intros H1 H. simpl. split; auto. destruct st; auto; contradiction. Qed.
Lemma calm_rows now url rows : forall acc, calm (p_rows now url acc rows).
Proof.
  induction rows as [|r rows IH]; intros acc; simpl; auto. destruct (row_assoc r) as [a|x]; simpl; eauto.
  destruct (expired a now); auto. apply calm_bind; auto.
  apply calm_enc; intros. apply calm_enc; intros. apply calm_ex; [exact I|]. intros; simpl; auto.
Qed.
Lemma calm_found now url (r : reply) : calm
  (match fst r with
   | [] => Ret None
   | rows => pbind (p_rows now url [] rows) (fun l =>
             match sorted_last l with Ok a => Ret a | Raise x => Throw (Python x) end)
   end).
Proof.
  destruct (fst r) as [|x l]; [simpl; auto|]. apply calm_bind; [apply calm_rows|].
  intros q. destruct (sorted_last q); simpl; eauto.
Qed.
Lemma calm_prog d now o : d_replace d = true -> calm (prog_of d now o).
Proof.
  intros RP. destruct o as [url a|url h|url h|url ts salt| |]; cbn [prog_of]; (apply calm_bind; [|simpl; auto]).
  - unfold p_storeAssociation, p_set_assoc. rewrite RP.
    apply calm_enc; intros. apply calm_enc; intros. apply calm_enc; intros. apply calm_ex; [exact I|]; intros; simpl; auto.
  - unfold p_getAssociation. destruct h as [h|].
    + apply calm_enc; intros. apply calm_enc; intros. apply calm_ex; [exact I|]; intros. apply calm_found.
    + apply calm_enc; intros. apply calm_ex; [exact I|]; intros. apply calm_found.
  - apply calm_enc; intros. apply calm_enc; intros. apply calm_ex; [exact I|]; intros; simpl; auto.
  - unfold p_useNonce. destruct (skewed ts now); [simpl; auto|].
    apply calm_enc; intros. apply calm_enc; intros. simpl. auto.
  - apply calm_ex; [exact I|]; intros; simpl; auto.
  - apply calm_ex; [exact I|]; intros; simpl; auto.
Qed.
Definition no_failures (ls : list label) : Prop :=
  Forall (fun l => match l with Fail _ _ | Lose _ _ => False | _ => True end) ls.
Definition calm_inv (s : sys) : Prop :=
  (forall i, match s_proc s i with Run _ p _ => calm p | _ => True end) /\
  Forall (fun e => exists a, snd e = Out a) (s_answers s).
Lemma calm_step d procs s l : d_replace d = true -> d_dup d = Integrity ->
  match l with Fail _ _ | Lose _ _ => False | _ => True end -> calm_inv s -> calm_inv (step d procs s l).
Proof.
  intros RP DP NF (I1 & I2).
  assert (forall i p, match p with Run _ p _ => calm p | _ => True end -> calm_inv (go s i p)) as G.
  { intros i p H. split; auto. intros j. simpl. unfold set_proc. destruct (Nat.eqb j i); auto. apply I1. }
  assert (forall db i o r, (match r with inr _ => True | inl e => exists x, e = Python x end) ->
            calm_inv (finish d (mkSys (s_clock s) db (s_proc s) (s_answers s) (s_lost s)) i o r)) as Fi.
  { intros db i o r H. split.
    - intros j. simpl. unfold set_proc. destruct (Nat.eqb j i); auto. apply I1.
    - simpl. constructor; auto. simpl. destruct r as [e|a]; [destruct H as (x & ->); exists (Err x)|exists a]; destruct o; auto. }
  destruct l as [i o|i|i why|i why|i|n]; cbn [step]; try contradiction.
  - destruct (s_proc s i); try (split; auto; fail). destruct (existsb (Nat.eqb i) procs); [apply G; auto|split; auto].
  - unfold exec_step. pose proof (I1 i) as P. destruct (s_proc s i) as [|o|o p w]; [split; auto|apply G; apply calm_prog; auto|].
    destruct p as [a|e|st k].
    + apply Fi. auto.
    + destruct s as [c0 d0 p0 a0 l0]. apply (Fi d0). auto.
    + destruct (existsb _ _); [split; auto|]. destruct P as (P1 & P2).
      destruct (exec d (apply d (s_db s) w) st) as [e|[s' r]] eqn:E; [|apply G; auto].
      apply G. destruct st; cbn [exec] in E; try discriminate; [contradiction|].
      destruct (db_add_nonce _ _ _); inv E. rewrite DP. auto.
  - apply G. auto.
  - split; auto.
Qed.
Theorem C144_working :
  forall d procs now ls, d_replace d = true -> d_dup d = Integrity -> no_failures ls ->
    Forall (fun e => exists a, snd e = Out a) (s_answers (run_sys d procs (sys_init now) ls)).
Proof.
  intros d procs now ls RP DP NF.
  assert (calm_inv (sys_init now)) as I by (split; [intros; exact I|constructor]).
  revert I. generalize (sys_init now). induction NF as [|l ls N _ IH]; intros s I; [apply I|]. cbn [run_sys fold_left]. apply IH.
  apply calm_step; auto.
Qed.
Print Assumptions C144_working.
Example C144_example :
  let put := StoreA (u "http://p/") a1 in
  let ls := [Call 1 put; Call 2 put; Step 1; Step 2; Step 1; Step 2; Step 1; Step 2; Step 2] in
  s_answers (run_sys sqlite [1; 2]%nat (sys_init 100) ls) = [(put, Out Done); (put, Out Done)] /\ no_failures ls.
Proof. split; [vm_compute; reflexivity|repeat constructor]. Qed.

(** ** C145: what does not hold *)
(** On PostgreSQL two processes that store an association under the same handle both look, both
    insert, and the second one raises IntegrityError although no call failed. *)
Theorem C145_postgresql_store_refuted :
  exists ls put, no_failures ls /\
    s_answers (run_sys postgresql [1; 2]%nat (sys_init 100) ls) = [(put, DbError Integrity); (put, Out Done)].
Proof.
  set (put := StoreA (u "http://p/") a1).
  exists [Call 1 put; Call 2 put; Step 1; Step 2; Step 1; Step 2; Step 1; Step 2; Step 1; Step 2; Step 2], put.
  split; [repeat constructor|vm_compute; reflexivity].
Qed.
Print Assumptions C145_postgresql_store_refuted.
(** A process held up between the clock and the insert grants a nonce for the second time. *)
Theorem C146_stalled_refuted :
  exists d procs ls url ts salt, no_failures ls /\ grants url ts salt (run_sys d procs (sys_init 0) ls) = 2%nat.
Proof.
  exists postgresql, [1; 2; 3]%nat,
    [Call 1 (UseN (u "http://a/") 5 (u "x")); Step 1; Call 2 (UseN (u "http://a/") 5 (u "x")); Step 2; Step 2; Step 2;
     Tick 20000; Call 3 CleanN; Step 3; Step 3; Step 3; Step 1; Step 1], (u "http://a/"), 5, (u "x").
  split; [repeat constructor|vm_compute; reflexivity].
Qed.
Print Assumptions C146_stalled_refuted.
