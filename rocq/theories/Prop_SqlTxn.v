(** C140-C142: the SQL stores on a connection whose calls may fail. *)
From Coq Require Import Lia ZifyBool ZifyN ZifyNat Permutation.
From Verif Require Import Py PyFacts Utf8 Utf8Facts Association AssociationFacts Prop_Association.
From Verif Require Import Nonce Store StoreSpec StoreFacts Prop_StoreMem Prop_StoreSql SqlTxn.
Import Py Store.
Open Scope Z_scope.
Local Arguments u : simpl never.

(** ** What is assumed of the database

    A duplicate key is refused with an IntegrityError, or with an OperationalError that the
    store recognizes. *)
Definition refuses (d : dialect) : Prop :=
  d_dup d = Integrity \/
  exists why, d_dup d = Operational why /\ d_reads d = true /\ not_unique why = true.
(** The other failures are not of that kind. *)
Definition other_failures (d : dialect) (f : faults) : Prop :=
  forall n e, f_err f n = Some e -> exists why, e = Operational why /\ (d_reads d = true -> not_unique why = false).
(** The same rows, in another order. *)
Definition same_rows (s t : sql) : Prop :=
  Permutation (q_assocs s) (q_assocs t) /\ q_nonces s = q_nonces t.
Definition alike (d : dialect) (s t : sql) : Prop := if d_replace d then s = t else same_rows s t.
(** Where there is no REPLACE the key is whole, and unique. *)
Definition keyed (d : dialect) (s : sql) : Prop :=
  d_replace d = false -> d_pk d = whole_key /\ NoDup (map rkey (q_assocs s)).

(** ** Programs without failures *)
Fixpoint ev {A} (d : dialect) (w : sql) (p : prog A) : sql * (err + A) :=
  match p with
  | Ret a => (w, inr a)
  | Throw e => (w, inl e)
  | Exec st k =>
      match exec d w st with
      | inl e => ev d w (k (inl e))
      | inr (w', r) => ev d w' (k (inr r))
      end
  end.
Lemma ev_bind {A B} d (p : prog A) (f : A -> prog B) : forall w,
  ev d w (pbind p f) = match ev d w p with (w', inr a) => ev d w' (f a) | (w', inl e) => (w', inl e) end.
Proof.
  induction p as [a|e|st k IH]; intros w; simpl; auto.
  destruct (exec d w st) as [e|[w' r]]; apply IH.
Qed.
Lemma ev_enc {A} d w s (k : bytes -> prog A) :
  ev d w (enc s k) = match encode s with Ok b => ev d w (k b) | Raise x => (w, inl (Python x)) end.
Proof. unfold enc. destruct (encode s); auto. Qed.
Lemma ev_ex {A} d w st (k : reply -> prog A) :
  ev d w (ex st k) = match exec d w st with inr (w', r) => ev d w' (k r) | inl e => (w, inl e) end.
Proof. unfold ex. simpl. destruct (exec d w st) as [e|[w' r]]; auto. Qed.

(** A program in which failures other than those of a duplicate key pass through. *)
Definition passes (e : err) : Prop := exists why, e = Operational why.
Fixpoint strict {A} (p : prog A) : Prop :=
  match p with
  | Exec st k => (forall e, passes e -> k (inl e) = Throw e) /\ forall r, strict (k r)
  | _ => True
  end.
Lemma strict_bind {A B} (p : prog A) (f : A -> prog B) : strict p -> (forall a, strict (f a)) -> strict (pbind p f).
Proof.
  induction p as [a|e|st k IH]; simpl; auto. intros (H1 & H2) Hf. split.
  - intros e E. rewrite (H1 e E). reflexivity.
  - intros r. apply IH; auto.
Qed.
Lemma strict_enc {A} s (k : bytes -> prog A) : (forall b, strict (k b)) -> strict (enc s k).
Proof. unfold enc. intros H. destruct (encode s); simpl; auto. Qed.
Lemma strict_ex {A} st (k : reply -> prog A) : (forall r, strict (k r)) -> strict (ex st k).
Proof. intros H. simpl. split; auto. intros [e|r]; simpl; auto. Qed.
Lemma strict_rows now url rows : forall acc, strict (p_rows now url acc rows).
Proof.
  induction rows as [|r rows IH]; intros acc; simpl; auto. destruct (row_assoc r) as [a|x]; simpl; auto.
  destruct (expired a now); auto. apply strict_bind; auto.
  apply strict_enc; intros. apply strict_enc; intros. apply strict_ex; intros; simpl; auto.
Qed.
Lemma strict_found now url (r : reply) : strict
  (match fst r with
   | [] => Ret None
   | rows => pbind (p_rows now url [] rows) (fun l =>
             match sorted_last l with Ok a => Ret a | Raise x => Throw (Python x) end)
   end).
Proof.
  destruct (fst r) as [|x l]; [simpl; auto|]. apply strict_bind; [apply strict_rows|].
  intros q. destruct (sorted_last q); simpl; auto.
Qed.
Lemma strict_prog d now o : strict (prog_of d now o).
Proof.
  destruct o as [url a|url h|url h|url ts salt| |]; cbn [prog_of]; (apply strict_bind; [|simpl; auto]).
  - unfold p_storeAssociation, p_set_assoc. destruct (d_replace d).
    + apply strict_enc; intros. apply strict_enc; intros. apply strict_enc; intros. apply strict_ex; intros; simpl; auto.
    + apply strict_enc; intros. apply strict_enc; intros. apply strict_ex; intros r.
      destruct (fst r); apply strict_enc; intros; apply strict_ex; intros; simpl; auto.
  - unfold p_getAssociation. destruct h as [h|].
    + apply strict_enc; intros. apply strict_enc; intros. apply strict_ex; intros. apply strict_found.
    + apply strict_enc; intros. apply strict_ex; intros. apply strict_found.
  - apply strict_enc; intros. apply strict_enc; intros. apply strict_ex; intros; simpl; auto.
  - unfold p_useNonce. destruct (skewed ts now); [simpl; auto|].
    apply strict_enc; intros. apply strict_enc; intros. cbn [strict]. split.
    + intros e (why & ->). reflexivity.
    + intros [[| |]|r]; simpl; auto.
  - apply strict_ex; intros; simpl; auto.
  - apply strict_ex; intros; simpl; auto.
Qed.
Lemma run_strict {A} d f (p : prog A) : strict p -> other_failures d f -> forall n w,
  let '(n', w', r) := run d f n w p in
  (w', r) = ev d w p \/ (exists m why, f_err f m = Some (Operational why) /\ r = inl (Operational why)).
Proof.
  intros S H. induction p as [a|e|st k IH]; intros n w; simpl; auto.
  destruct S as (S1 & S2). destruct (f_err f n) as [e|] eqn:E.
  - destruct (H _ _ E) as (why & -> & _). rewrite S1 by (eexists; eauto). simpl. right. eauto.
  - destruct (exec d w st) as [e|[w' r]]; apply IH; auto.
Qed.

(** ** Without failures the programs do what Store.v says *)
Lemma existsb_filter {A} (p : A -> bool) l : existsb p l = match filter p l with [] => false | _ => true end.
Proof. induction l as [|x l IH]; simpl; auto. destruct (p x); auto. Qed.
Lemma filter_none {A} (p : A -> bool) l : filter p l = [] -> filter (fun x => negb (p x)) l = l.
Proof. induction l as [|x l IH]; simpl; auto. destruct (p x); simpl; [discriminate|]. intros H. rewrite IH; auto. Qed.
(** UPDATE in place, and REPLACE. *)
Lemma update_replace d (l : list arow) (r y : arow) : d_pk d = whole_key -> NoDup (map rkey l) ->
  In y l -> rkey y = rkey r ->
  Permutation
    (map (fun x => if text_eqb (r_url x) (r_url r) && text_eqb (r_handle x) (r_handle r)
                   then mkRow (r_url x) (r_handle x) (r_secret r) (r_issued r) (r_lifetime r) (r_type r) else x) l)
    (db_set_assoc (d_pk d) l r).
Proof.
  intros PK. unfold db_set_assoc. rewrite PK. unfold whole_key. unfold rkey.
  induction l as [|x l IH]; intros N Hin E; [destruct Hin|]. cbn [map filter]. inv N.
  destruct (text_eqb (r_url x) (r_url r) && text_eqb (r_handle x) (r_handle r)) eqn:Q; cbn [negb].
  - rewrite andb_true_iff, !text_eqb_eq in Q. destruct Q as (Q1 & Q2).
    assert (forall z, In z l -> text_eqb (r_url z) (r_url r) && text_eqb (r_handle z) (r_handle r) = false) as K.
    { intros z Hz. destruct (_ && _) eqn:K; auto. exfalso. rewrite andb_true_iff, !text_eqb_eq in K. destruct K as (K1 & K2).
      apply H1. apply in_map_iff. exists z. split; auto. congruence. }
    replace (map (fun x0 => if text_eqb (r_url x0) (r_url r) && text_eqb (r_handle x0) (r_handle r)
               then mkRow (r_url x0) (r_handle x0) (r_secret r) (r_issued r) (r_lifetime r) (r_type r) else x0) l) with l.
    2:{ rewrite <- (map_id l) at 1. apply map_ext_in. intros z Hz. rewrite (K z Hz). auto. }
    replace (filter (fun x0 => negb (text_eqb (r_url x0) (r_url r) && text_eqb (r_handle x0) (r_handle r))) l) with l.
    2:{ clear - K. induction l as [|z l IH]; simpl; auto. rewrite (K z (or_introl eq_refl)). simpl. f_equal. apply IH. intros; apply K; right; auto. }
    rewrite Q1, Q2. destruct r as [a b c e f g]; simpl. apply Permutation_cons_append.
  - destruct Hin as [->|Hin].
    + exfalso. inv E. rewrite H0, H3, !text_eqb_refl in Q. discriminate.
    + simpl. constructor. apply IH; auto.
Qed.

Lemma ev_remove d w url h :
  ev d w (p_removeAssociation url h) =
  match txn_removeAssociation w url h with Ok (w', b) => (w', inr b) | Raise x => (w, inl (Python x)) end.
Proof.
  unfold p_removeAssociation, txn_removeAssociation. rewrite ev_enc. destruct (encode url) as [bu|x]; cbn [bind]; auto.
  rewrite ev_enc. destruct (encode h) as [bh|x]; cbn [bind]; auto.
  rewrite ev_ex. cbn [exec ev snd]. f_equal. f_equal.
  destruct (length (q_assocs w) - length (db_remove_assoc (q_assocs w) bu bh) =? 0)%nat eqn:E; cbn [negb]; lia.
Qed.
Lemma ev_rows d now url rows : forall w acc,
  match foldM (get_row now url) (w, acc) rows with
  | Ok (w', l) => ev d w (p_rows now url acc rows) = (w', inr l)
  | Raise x => exists w', ev d w (p_rows now url acc rows) = (w', inl (Python x))
  end.
Proof.
  induction rows as [|r rows IH]; intros w acc; cbn [foldM p_rows ev]; auto.
  unfold get_row at 1. destruct (row_assoc r) as [a|x]; cbn [bind ev]; [|eauto].
  destruct (expired a now); cbn [fst snd].
  - rewrite ev_bind, ev_remove. destruct (txn_removeAssociation w url (a_handle a)) as [[w' b]|x]; cbn [bind fst]; [apply IH|eauto].
  - cbn [bind]. apply IH.
Qed.
Lemma ev_get d w now url h :
  match txn_getAssociation w now url h with
  | Ok (w', a) => ev d w (p_getAssociation now url h) = (w', inr a)
  | Raise x => exists w', ev d w (p_getAssociation now url h) = (w', inl (Python x))
  end.
Proof.
  assert (forall rows,
    match (match rows with
           | [] => Ok (w, None)
           | _ => st <- foldM (get_row now url) (w, []) rows ;; a <- sorted_last (snd st) ;; Ok (fst st, a)
           end) with
    | Ok (w', a) => ev d w (match rows with
         | [] => Ret None
         | _ => pbind (p_rows now url [] rows) (fun l => match sorted_last l with Ok a => Ret a | Raise x => Throw (Python x) end)
         end) = (w', inr a)
    | Raise x => exists w', ev d w (match rows with
         | [] => Ret None
         | _ => pbind (p_rows now url [] rows) (fun l => match sorted_last l with Ok a => Ret a | Raise x => Throw (Python x) end)
         end) = (w', inl (Python x))
    end) as K.
  { intros rows. destruct rows as [|r rows]; [reflexivity|]. rewrite ev_bind. pose proof (ev_rows d now url (r :: rows) w []) as R.
    destruct (foldM (get_row now url) (w, []) (r :: rows)) as [[w' l]|x]; cbn [bind fst snd].
    - rewrite R. destruct (sorted_last l) as [a|x]; cbn [bind ev]; eauto.
    - destruct R as (w' & ->). eauto. }
  unfold txn_getAssociation, p_getAssociation. destruct h as [h|].
  - rewrite ev_enc. destruct (encode url) as [bu|x]; cbn [bind]; [|eauto].
    rewrite ev_enc. destruct (encode h) as [bh|x]; cbn [bind]; [|eauto]. rewrite ev_ex. cbn [exec fst].
    specialize (K (db_get_assoc (q_assocs w) bu bh)). destruct (db_get_assoc (q_assocs w) bu bh); exact K.
  - rewrite ev_enc. destruct (encode url) as [bu|x]; cbn [bind]; [|eauto]. rewrite ev_ex. cbn [exec fst].
    specialize (K (db_get_assocs (q_assocs w) bu)). destruct (db_get_assocs (q_assocs w) bu); exact K.
Qed.

Lemma ev_agrees d s now o : refuses d -> keyed d s ->
  match ev d s (prog_of d now o) with
  | (s', inr a) => alike d s' (fst (sql_step (d_pk d) s now o)) /\ a = snd (sql_step (d_pk d) s now o)
  | (_, inl (Python x)) => sql_step (d_pk d) s now o = (s, Err x)
  | (_, inl Integrity) => False
  | (_, inl (Operational why)) =>
      d_reads d = true /\ not_unique why = true /\ (exists url ts salt, o = UseN url ts salt) /\
      sql_step (d_pk d) s now o = (s, Flag false)
  end.
Proof.
  intros RF KD.
  assert (forall s, alike d s s) as AR by (intros; unfold alike; destruct (d_replace d); [|split]; auto).
  destruct o as [url a|url h|url h|url ts salt| |]; cbn [prog_of sql_step]; rewrite ev_bind.
  - unfold p_storeAssociation, p_set_assoc, txn_storeAssociation. destruct (d_replace d) eqn:RP.
    + rewrite ev_enc. destruct (encode url) as [bu|x]; cbn [bind inTxn]; auto.
      rewrite ev_enc. destruct (encode (a_handle a)) as [bh|x]; cbn [bind inTxn]; auto.
      rewrite ev_enc. destruct (encode (a_type a)) as [bt|x]; cbn [bind inTxn]; auto.
      rewrite ev_ex. cbn [exec ev fst snd]. auto.
    + destruct (KD RP) as (PK & N).
      rewrite ev_enc. destruct (encode url) as [bu|x]; cbn [bind inTxn]; auto.
      rewrite ev_enc. destruct (encode (a_handle a)) as [bh|x]; cbn [bind inTxn]; auto.
      rewrite ev_ex. cbn [exec fst]. destruct (db_get_assoc (q_assocs s) bu bh) as [|y l] eqn:G.
      * rewrite ev_enc. destruct (encode (a_type a)) as [bt|x]; cbn [bind inTxn]; auto.
        rewrite ev_ex. cbn [exec].
        assert (existsb (same_key d (mkRow bu bh (a_secret a) (a_issued a) (a_lifetime a) bt)) (q_assocs s) = false) as ->.
        { rewrite existsb_filter. unfold same_key. rewrite PK. unfold whole_key. cbn [r_url r_handle]. unfold db_get_assoc in G. rewrite G. auto. }
        cbn [ev fst snd]. split; auto. unfold alike. rewrite RP. split; auto. cbn [q_assocs].
        unfold db_set_assoc. rewrite PK. unfold whole_key. cbn [r_url r_handle]. unfold db_get_assoc in G. rewrite (filter_none _ _ G). auto.
      * assert (In y (db_get_assoc (q_assocs s) bu bh)) as Hy by (rewrite G; left; auto).
        unfold db_get_assoc in Hy. apply filter_In in Hy as (Hy & Ky). rewrite andb_true_iff, !text_eqb_eq in Ky. destruct Ky as (K1 & K2).
        rewrite ev_enc. destruct (encode (a_type a)) as [bt|x]; cbn [bind inTxn]; auto.
        rewrite ev_ex. cbn [exec ev fst snd]. split; auto. unfold alike. rewrite RP. split; auto. cbn [q_assocs].
        set (r := mkRow bu bh (a_secret a) (a_issued a) (a_lifetime a) bt).
        apply (update_replace d (q_assocs s) r y PK N Hy). unfold rkey, r. simpl. congruence.
  - pose proof (ev_get d s now url h) as G. destruct (txn_getAssociation s now url h) as [[w' a]|x]; cbn [inTxn].
    + rewrite G. cbn [ev fst snd]. auto.
    + destruct G as (w' & ->). auto.
  - rewrite ev_remove. destruct (txn_removeAssociation s url h) as [[w' b]|x]; cbn [inTxn ev fst snd]; auto.
  - unfold p_useNonce, txn_useNonce. destruct (skewed ts now); [cbn [ev inTxn fst snd]; auto|].
    rewrite ev_enc. destruct (encode url) as [bu|x]; cbn [bind inTxn]; auto.
    rewrite ev_enc. destruct (encode salt) as [bs|x]; cbn [bind inTxn]; auto.
    cbn [ev exec]. destruct (db_add_nonce (d_pk d) (q_nonces s) (bu, ts, bs)) as [t|]; cbn [ev inTxn fst snd]; auto.
    destruct RF as [->|(why & -> & R1 & R2)]; cbn [ev fst snd]; auto. repeat split; auto. eauto.
  - cbn [p_cleanupNonces ex ev exec txn_cleanupNonces inTxn fst snd]. auto.
  - cbn [p_cleanupAssociations ex ev exec txn_cleanupAssociations inTxn fst snd]. auto.
Qed.

(** ** C140: one call

    Either the method answers what Store.v says for the committed tables, whatever was left
    uncommitted on the connection, and its changes are committed; or it raises an error that a
    call on the connection raised, and then nothing has changed, except that a failing commit
    may have committed everything. *)
Theorem C140_atomic :
  forall d f c now o, refuses d -> other_failures d f -> keyed d (committed c) ->
    let next := sql_step (d_pk d) (committed c) now o in
    let c' := fst (sql_call d f c now o) in
    let r := snd (sql_call d f c now o) in
    (r = Out (snd next) /\ alike d (committed c') (fst next)) \/
    (exists n why, f_err f n = Some (Operational why) /\ r = DbError (Operational why) /\
       (committed c' = committed c \/ f_applied f = true /\ alike d (committed c') (fst next))).
Proof.
  intros d f c now o RF OF KD. cbn zeta. unfold sql_call.
  assert (forall s, alike d s s) as AR by (intros; unfold alike; destruct (d_replace d); [|split]; auto).
  assert (forall n e, f_err f n = Some e -> exists why, f_err f n = Some (Operational why) /\
            e = Operational why /\
            reported d o (inl e) = DbError (Operational why)) as FE.
  { intros n e E. destruct (OF _ _ E) as (why & -> & W). exists why. split; auto. split; auto.
    unfold reported. destruct o; auto. destruct (d_reads d); auto. rewrite W; auto. }
  unfold callInTransaction.
  destruct (f_err f 0%nat) as [e|] eqn:E0.
  { destruct (FE _ _ E0) as (why & F1 & _ & F2). right. exists 0%nat, why. rewrite F2. cbn [fst snd]. auto. }
  destruct (f_err f 1%nat) as [e|] eqn:E1.
  { destruct (f_err f 2%nat) as [e2|] eqn:E2.
    - destruct (FE _ _ E2) as (why & F1 & _ & F2). right. exists 2%nat, why. rewrite F2. cbn [fst snd committed]. auto.
    - destruct (FE _ _ E1) as (why & F1 & _ & F2). right. exists 1%nat, why. rewrite F2. cbn [fst snd committed]. auto. }
  pose proof (run_strict d f (prog_of d now o) (strict_prog d now o) OF 2%nat (committed c)) as RS.
  destruct (run d f 2 (committed c) (prog_of d now o)) as [[n w] r].
  destruct (f_err f n) as [e|] eqn:En.
  { destruct (f_err f (S n)) as [e2|] eqn:E2.
    - destruct (FE _ _ E2) as (why & F1 & _ & F2). right. exists (S n), why. rewrite F2. cbn [fst snd committed]. auto.
    - destruct (FE _ _ En) as (why & F1 & _ & F2). right. exists n, why. rewrite F2. cbn [fst snd committed]. auto. }
  destruct RS as [RS|(m & why & RS & ->)].
  2:{ destruct (f_err f (S n)) as [e2|] eqn:E2.
    - destruct (FE _ _ E2) as (why2 & F1 & _ & F2). right. exists (S n), why2. rewrite F2. cbn [fst snd committed]. auto.
    - destruct (FE _ _ RS) as (why2 & F1 & F3 & F2). right. exists m, why. rewrite F2, F3. cbn [fst snd committed]. auto. }
  pose proof (ev_agrees d (committed c) now o RF KD) as EA. rewrite <- RS in EA.
  destruct r as [e|a].
  - destruct (f_err f (S n)) as [e2|] eqn:E2.
    + destruct (FE _ _ E2) as (why2 & F1 & _ & F2). right. exists (S n), why2. rewrite F2. cbn [fst snd committed]. auto.
    + left. cbn [fst snd committed]. destruct e as [|why|x]; [destruct EA| |].
      * destruct EA as (R1 & R2 & (url & ts & salt & ->) & ->). unfold reported. rewrite R1, R2. cbn [andb fst snd]. auto.
      * rewrite EA. cbn [fst snd]. split; auto. destruct o; auto.
  - destruct EA as (EA & ->). destruct (f_err f (S n)) as [e2|] eqn:E2.
    + destruct (FE _ _ E2) as (why2 & F1 & _ & F2). right. exists (S n), why2. rewrite F2. cbn [fst snd committed].
      split; auto. split; auto. destruct (f_applied f); auto.
    + left. cbn [fst snd committed]. split; auto. destruct o; auto.
Qed.
Print Assumptions C140_atomic.

(** Failing at one call only. *)
Definition fails_at (k : nat) (applied : bool) : faults :=
  mkFaults (fun n => if (n =? k)%nat then Some (Operational (u "server closed the connection")) else None) applied.
Definition fine : faults := mkFaults (fun _ => None) false.
Definition a1 : assoc := mkAssoc (u "h1") [1; 2; 3]%N 100 1000 (u "HMAC-SHA1").
(** Storing where the row exists already, on PostgreSQL: SELECT, UPDATE, and the commit fails. *)
Example C140_example :
  let c := fst (sql_call postgresql fine (mkConn sql_init sql_init) 100 (StoreA (u "http://p/") (mkAssoc (u "h1") [9]%N 50 1000 (u "HMAC-SHA1")))) in
  length (q_assocs (committed c)) = 1%nat /\
  map (fun k => snd (sql_call postgresql (fails_at k false) c 100 (StoreA (u "http://p/") a1))) [0; 1; 2; 3; 4; 5; 6]%nat =
    repeat (DbError (Operational (u "server closed the connection"))) 6 ++ [Out Done] /\
  map (fun k => map r_issued (q_assocs (committed (fst (sql_call postgresql (fails_at k false) c 100 (StoreA (u "http://p/") a1))))))
      [0; 1; 2; 3; 4; 5; 6]%nat = repeat [50] 6 ++ [[100]] /\
  map r_issued (q_assocs (committed (fst (sql_call postgresql (fails_at 5 true) c 100 (StoreA (u "http://p/") a1))))) = [100].
Proof. repeat split; vm_compute; reflexivity. Qed.
(** Which messages of an OperationalError are recognized: on one line, a line end after it or
    not. *)
Lemma one_line line : startswith line (u "columns ") && endswith line (u " are not unique") && (23 <=? length line)%nat && negb (memc 10%N line) = true <->
  exists columns, line = u "columns " ++ columns ++ u " are not unique" /\ ~ In 10%N columns.
Proof.
  rewrite !andb_true_iff, negb_true_iff, startswith_spec, endswith_spec. split.
  - intros (((( r & H1) & (q & H2)) & H3) & H4). apply Nat.leb_le in H3.
    assert (length (u "columns ") = 8%nat) as L1 by reflexivity. assert (length (u " are not unique") = 15%nat) as L2 by reflexivity.
    assert (exists columns, q = u "columns " ++ columns) as (columns & ->).
    { exists (skipn 8 q). rewrite <- (firstn_skipn 8 q) at 1. f_equal.
      assert (firstn 8 line = u "columns ") as E by (rewrite H1, <- L1, firstn_app, firstn_all, Nat.sub_diag, firstn_O, app_nil_r; reflexivity).
      rewrite <- E, H2, firstn_app. assert (8 <= length q)%nat as Hq by (rewrite H2, app_length, L2 in H3; clear - H3; lia).
      replace (8 - length q)%nat with 0%nat by (clear - Hq; lia). rewrite firstn_O, app_nil_r. reflexivity. }
    exists columns. rewrite <- app_assoc in H2. split; auto. intros I.
    assert (memc 10%N line = true) as M; [|congruence]. apply memc_In. rewrite H2. apply in_or_app. right. apply in_or_app. auto.
  - intros (columns & -> & H). split; [split; [split|]|].
    + eauto.
    + exists (u "columns " ++ columns). rewrite <- app_assoc. reflexivity.
    + rewrite !app_length. apply Nat.leb_le. change (length (u "columns ")) with 8%nat. change (length (u " are not unique")) with 15%nat. lia.
    + destruct (memc 10%N _) eqn:M; auto. apply memc_In in M. apply in_app_or in M as [M|M]; [|apply in_app_or in M as [M|M]; [contradiction|]];
        exfalso; vm_compute in M; repeat (destruct M as [M|M]; [discriminate|]); destruct M.
Qed.
Theorem C140_pattern : forall why,
  not_unique why = true <->
  exists columns nl, why = u "columns " ++ columns ++ u " are not unique" ++ nl /\ ~ In 10%N columns /\ (nl = [] \/ nl = [10%N]).
Proof.
  intros why. unfold not_unique. cbv zeta. rewrite one_line. split.
  - intros (columns & H & N). destruct (rev why) as [|c r] eqn:E.
    { exists columns, []. rewrite app_nil_r. auto. }
    destruct (N.eqb_spec c 10) as [->|D]; [|exists columns, []; rewrite app_nil_r; auto].
    exists columns, [10%N]. split; [|auto]. rewrite <- (rev_involutive why), E. cbn [rev]. rewrite H, <- !app_assoc. reflexivity.
  - intros (columns & nl & -> & N & [->| ->]); exists columns; (split; [|exact N]).
    + rewrite app_nil_r, app_assoc, rev_app_distr. change (rev (u " are not unique")) with (101%N :: rev (u " are not uniqu")). cbn [app].
      change (101 =? 10)%N with false. cbn iota. reflexivity.
    + rewrite !app_assoc, rev_app_distr. cbn [rev app]. change (10 =? 10)%N with true. cbn iota. rewrite rev_involutive. rewrite <- app_assoc. reflexivity.
Qed.
Print Assumptions C140_pattern.
(** Both ways of refusing a duplicate are recognized; another message is not. *)
Example C140_old_sqlite :
  let c := fst (sql_call old_sqlite fine (mkConn sql_init sql_init) 100 (UseN (u "http://p/") 90 (u "x"))) in
  refuses old_sqlite /\ snd (sql_call old_sqlite fine c 101 (UseN (u "http://p/") 90 (u "x"))) = Out (Flag false) /\
  snd (sql_call (mkDialect whole_key true (d_dup old_sqlite) false) fine c 101 (UseN (u "http://p/") 90 (u "x"))) = DbError (d_dup old_sqlite) /\
  not_unique (u "columns are not unique") = false /\ not_unique (u "columns a, b are not unique" ++ [10%N]) = true.
Proof. repeat split; try (vm_compute; reflexivity). right. eexists. repeat split; vm_compute; reflexivity. Qed.

(** ** C141: sequences of calls *)
Definition call : Type := (faults * Z * op)%type.
(** Calls, newest first, on a new database. *)
Fixpoint conn_after (d : dialect) (l : list call) : conn :=
  match l with
  | [] => mkConn sql_init sql_init
  | (f, t, o) :: r => fst (sql_call d f (conn_after d r) t o)
  end.
Definition answered (d : dialect) (l : list call) (f : faults) (t : Z) (o : op) : ans :=
  snd (sql_call d f (conn_after d l) t o).
(** Which calls took effect: those that answered, and none of those that raised a database
    error, but perhaps some whose failing commit was carried out. *)
Inductive took (d : dialect) : list call -> history -> Prop :=
| took_nil : took d [] []
| took_answered f t o l h a : took d l h -> answered d l f t o = Out a -> took d ((f, t, o) :: l) ((t, o) :: h)
| took_failed f t o l h e : took d l h -> answered d l f t o = DbError e -> took d ((f, t, o) :: l) h
| took_unknown f t o l h e : took d l h -> answered d l f t o = DbError e -> f_applied f = true ->
    took d ((f, t, o) :: l) ((t, o) :: h).
Definition calls_ok (d : dialect) (l : list call) : Prop := Forall (fun c => other_failures d (fst (fst c))) l.

Theorem C141_history :
  forall d l, refuses d -> d_replace d = true -> calls_ok d l ->
    exists h, took d l h /\ committed (conn_after d l) = after (sql_step (d_pk d)) sql_init h.
Proof.
  intros d l RF RP. induction l as [|[[f t] o] l IH]; intros OK; [exists []; split; [constructor|auto]|].
  inv OK. destruct (IH H2) as (h & T & E). cbn [fst] in H1.
  destruct (C140_atomic d f (conn_after d l) t o RF H1) as [(A1 & A2)|(n & why & _ & A1 & [A2|(A2 & A3)])].
  { intros K. congruence. }
  - exists ((t, o) :: h). split; [eapply took_answered; eauto|]. cbn [conn_after after]. unfold alike in A2. rewrite RP, E in A2. exact A2.
  - exists h. split; [eapply took_failed; eauto|]. cbn [conn_after]. rewrite A2. exact E.
  - exists ((t, o) :: h). split; [eapply took_unknown; eauto|]. cbn [conn_after after]. unfold alike in A3. rewrite RP, E in A3. exact A3.
Qed.
Print Assumptions C141_history.

(** The clock over calls, and how often useNonce has answered True for a triple. *)
Fixpoint calls_clock (t : Z) (l : list call) : Prop :=
  match l with
  | [] => True
  | (_, t', _) :: r => t' <= t /\ calls_clock t' r
  end.
Fixpoint granted (d : dialect) (url : text) (ts : Z) (salt : text) (l : list call) : nat :=
  match l with
  | [] => 0
  | (f, t, o) :: r =>
      (granted d url ts salt r +
       match o with
       | UseN url' ts' salt' =>
           if (text_eqb url url' && (ts =? ts')%Z && text_eqb salt salt')%bool
           then match answered d r f t o with Out (Flag true) => 1 | _ => 0 end
           else 0
       | _ => 0
       end)%nat
  end.
Definition nonce_op (o : op) : Prop :=
  match o with UseN url _ salt => sendable url /\ sendable salt | _ => True end.
Definition ops_ok (l : list call) : Prop := Forall (fun c => sql_op (snd c) /\ nonce_op (snd c)) l.

Lemma sql_inv_perm q q' h t : Permutation q q' -> sql_inv q h t -> sql_inv q' h t.
Proof.
  intros P (I1 & I2 & I3). split; [|split].
  - eapply Permutation_NoDup; [apply Permutation_map; exact P|auto].
  - intros r Hin. apply I2. eapply Permutation_in; [apply Permutation_sym; exact P|auto].
  - intros url handle a S X. destruct (I3 _ _ _ S X) as (r & Hin & R). exists r. split; auto. eapply Permutation_in; eauto.
Qed.
Lemma alike_inv d s s' h t : alike d s s' -> sql_inv (q_assocs s') h t -> nonce_inv (q_nonces s') h t ->
  sql_inv (q_assocs s) h t /\ nonce_inv (q_nonces s) h t.
Proof.
  unfold alike. destruct (d_replace d); [intros ->; auto|]. intros (P & E) I N. rewrite E. split; auto.
  eapply sql_inv_perm; [apply Permutation_sym; exact P|auto].
Qed.
Lemma used_flag d url ts salt s h t f : refuses d -> d_pk d = whole_key -> other_failures d f ->
  keyed d (committed s) -> sendable url -> sendable salt -> nonce_inv (q_nonces (committed s)) h t ->
  snd (sql_call d f s t (UseN url ts salt)) = Out (Flag (in_window t ts && negb (used url ts salt h))) \/
  exists e, snd (sql_call d f s t (UseN url ts salt)) = DbError e.
Proof.
  intros RF PK OF KD Su Ss N.
  destruct (C140_atomic d f s t (UseN url ts salt) RF OF KD) as [(A1 & A2)|(n & why & _ & A1 & _)]; [left|right; eauto].
  rewrite A1, PK. destruct (sql_useNonce_spec (committed s) h t url ts salt Su Ss N) as (s' & E & _).
  cbn [sql_step]. change whole_key with whole. rewrite E. auto.
Qed.

Lemma calls_inv d l : refuses d -> d_pk d = whole_key -> calls_ok d l -> ops_ok l ->
  forall t, calls_clock t l -> exists h, took d l h /\ clock t h /\
    sql_inv (q_assocs (committed (conn_after d l))) h t /\ nonce_inv (q_nonces (committed (conn_after d l))) h t /\
    forall url ts salt, (granted d url ts salt l <= if used url ts salt h then 1 else 0)%nat.
Proof.
  intros RF PK. induction l as [|[[f t0] o] l IH]; intros OK OP t CL.
  - exists []. split; [constructor|]. split; [simpl; auto|].
    assert (clock t [] /\ sql_history []) as (C & K) by (split; [simpl; auto|constructor]).
    destruct (sql_after_inv [] t C K) as (I & N). split; auto.
  - inv OK. inv OP. destruct CL as (L & CL). cbn [fst snd] in *. destruct (IH H2 H4 _ CL) as (h & T & C & I & N & G).
    destruct H3 as (O1 & O2).
    assert (keyed d (committed (conn_after d l))) as KD by (intros _; split; [auto|apply I]).
    destruct (sql_step_inv (committed (conn_after d l)) h t0 t0 o C (Z.le_refl _) O1 I N) as (I' & N').
    assert (sql_step (d_pk d) (committed (conn_after d l)) t0 o = lite (committed (conn_after d l)) t0 o) as EL by (rewrite PK; auto).
    assert (clock t0 ((t0, o) :: h)) as C' by (simpl; split; [lia|auto]).
    assert (clock t ((t0, o) :: h)) as C'' by (simpl; split; auto).
    assert (forall url ts salt, (if used url ts salt h then 1 else 0) <= (if used url ts salt ((t0, o) :: h) then 1 else 0))%nat as UM.
    { intros. rewrite used_cons. destruct (used url ts salt h); [rewrite orb_true_r; lia|lia]. }
    destruct (C140_atomic d f (conn_after d l) t0 o RF H1 KD) as [(A1 & A2)|(n & why & _ & A1 & [A2|(A2 & A3)])].
    + exists ((t0, o) :: h). split; [eapply took_answered; eauto|]. split; auto. rewrite EL in A2.
      destruct (alike_inv _ _ _ _ _ A2 I' N') as (I2 & N2). cbn [conn_after].
      split; [apply (sql_inv_later _ _ t0 t); auto|]. split; [apply (nonce_inv_later _ _ t0 t); auto|].
      intros url ts salt. cbn [granted]. specialize (G url ts salt). specialize (UM url ts salt).
      destruct o as [ur a|ur x|ur x|url' ts' salt'| |]; try lia.
      destruct (text_eqb url url' && (ts =? ts') && text_eqb salt salt') eqn:Q; [|lia].
      rewrite !andb_true_iff, !text_eqb_eq, Z.eqb_eq in Q. destruct Q as ((-> & ->) & ->).
      unfold answered. destruct O2 as (S1 & S2).
      destruct (used_flag d url' ts' salt' (conn_after d l) h t0 f RF PK H1 KD S1 S2 N) as [E|(e & E)]; [|rewrite E; lia].
      rewrite E. rewrite used_cons, !text_eqb_refl, Z.eqb_refl. destruct (in_window t0 ts'); cbn [andb orb].
      * destruct (used url' ts' salt' h); cbn [negb]; lia.
      * rewrite used_cons in UM. destruct (used url' ts' salt' h); lia.
    + exists h. split; [eapply took_failed; eauto|]. split; [eapply clock_le; eauto|]. cbn [conn_after]. rewrite A2.
      split; [apply (sql_inv_later _ _ t0 t); auto|]. split; [apply (nonce_inv_later _ _ t0 t); auto|].
      intros url ts salt. cbn [granted]. specialize (G url ts salt). unfold answered. rewrite A1. destruct o; try lia.
      destruct (_ && _); lia.
    + exists ((t0, o) :: h). split; [eapply took_unknown; eauto|]. split; auto. rewrite EL in A3.
      destruct (alike_inv _ _ _ _ _ A3 I' N') as (I2 & N2). cbn [conn_after].
      split; [apply (sql_inv_later _ _ t0 t); auto|]. split; [apply (nonce_inv_later _ _ t0 t); auto|].
      intros url ts salt. cbn [granted]. specialize (G url ts salt). specialize (UM url ts salt). unfold answered. rewrite A1. destruct o; try lia.
      destruct (_ && _); lia.
Qed.

(** Whatever fails, a nonce is granted at most once. *)
Theorem C141_once :
  forall d l t url ts salt, refuses d -> d_pk d = whole_key -> calls_ok d l -> ops_ok l -> calls_clock t l ->
    (granted d url ts salt l <= 1)%nat.
Proof.
  intros d l t url ts salt RF PK OK OP CL. destruct (calls_inv d l RF PK OK OP t CL) as (h & _ & _ & _ & _ & G).
  specialize (G url ts salt). destruct (used url ts salt h); lia.
Qed.
(** The answers are those for the calls that took effect. *)
Theorem C141_answers :
  forall d l t, refuses d -> d_pk d = whole_key -> calls_ok d l -> ops_ok l -> calls_clock t l ->
    exists h, took d l h /\
      (forall f url ts salt, other_failures d f -> sendable url -> sendable salt ->
         answered d l f t (UseN url ts salt) = Out (Flag (in_window t ts && negb (used url ts salt h))) \/
         exists e, answered d l f t (UseN url ts salt) = DbError e) /\
      (forall f url handle, other_failures d f -> sendable url -> sendable handle ->
         answered d l f t (GetA url (Some handle)) = Out (Got (good_at t (stored url handle h))) \/
         exists e, answered d l f t (GetA url (Some handle)) = DbError e).
Proof.
  intros d l t RF PK OK OP CL. destruct (calls_inv d l RF PK OK OP t CL) as (h & T & C & I & N & _). exists h. split; auto.
  assert (keyed d (committed (conn_after d l))) as KD by (intros _; split; [auto|apply I]). split.
  - intros f url ts salt OF Su Ss. apply used_flag; auto.
  - intros f url handle OF Su Sh. unfold answered.
    destruct (C140_atomic d f (conn_after d l) t (GetA url (Some handle)) RF OF KD) as [(A1 & _)|(n & why & _ & A1 & _)]; [left|right; eauto].
    rewrite A1. cbn [sql_step]. f_equal.
    destruct (sql_get_spec (committed (conn_after d l)) h t t url (Some handle) Su) as (q & M & G); [intros x E; inv E; auto|eauto|lia|].
    assert (forall a, In a q <-> stored url handle h = Some a /\ expired a t = false) as M'.
    { intros a. rewrite M. split.
      - intros (S & X & E). rewrite (E _ eq_refl) in S. auto.
      - intros (S & X). pose proof (stored_handle _ _ _ _ S) as E. rewrite E. repeat split; auto. intros x Q; inv Q. auto. }
    pose proof (sorted_last_spec q) as SL. destruct (sorted_last q) as [[a|]|e].
    + destruct G as (s' & -> & _). simpl. destruct SL as (SL & _). apply M' in SL as (S & X). rewrite good_at_expired, S, X. auto.
    + destruct G as (s' & -> & _). simpl. rewrite good_at_expired. destruct (stored url handle h) as [a|] eqn:S; auto.
      destruct (expired a t) eqn:X; auto. assert (In a q) as Z by (apply M'; auto). rewrite SL in Z. destruct Z.
    + exfalso. destruct SL as (_ & a & b & Ha & Hb & NE & _). apply M' in Ha as (Ha & _). apply M' in Hb as (Hb & _). congruence.
Qed.
Print Assumptions C141_once.
Print Assumptions C141_answers.
(** The insert is rolled back when closing the cursor fails, so the nonce is still good; the
    next attempt is granted, the one after refused. *)
Example C141_example :
  let use (f : faults) : call := (f, 100, UseN (u "http://p/") 90 (u "x")) in
  calls_ok postgresql [use fine; use (fails_at 3 false)] /\ ops_ok [use fine; use (fails_at 3 false)] /\
  snd (sql_call postgresql (fails_at 3 false) (conn_after postgresql []) 100 (UseN (u "http://p/") 90 (u "x")))
    = DbError (Operational (u "server closed the connection")) /\
  answered postgresql [use (fails_at 3 false)] fine 100 (UseN (u "http://p/") 90 (u "x")) = Out (Flag true) /\
  answered postgresql [use fine; use (fails_at 3 false)] fine 100 (UseN (u "http://p/") 90 (u "x")) = Out (Flag false).
Proof.
  assert (sendable (u "http://p/") /\ sendable (u "x")) by (split; eexists; vm_compute; reflexivity).
  split; [|split; [|repeat split; vm_compute; reflexivity]].
  - repeat constructor; intros n e; simpl; [discriminate|]. destruct (n =? 3)%nat; [|discriminate]. intros E; inv E. eexists. split; [reflexivity|discriminate].
  - repeat constructor; tauto.
Qed.

(** ** C142: "a nonce for which useNonce raised has not been used up" is false: the commit may
    fail after the database has carried it out, and the response is then refused for good. *)
Theorem C142_raise_keeps_nonce_refuted :
  exists f e, other_failures postgresql f /\
    answered postgresql [] f 100 (UseN (u "http://p/") 90 (u "x")) = DbError e /\
    answered postgresql [(f, 100, UseN (u "http://p/") 90 (u "x"))] fine 100 (UseN (u "http://p/") 90 (u "x")) = Out (Flag false).
Proof.
  exists (fails_at 4 true), (Operational (u "server closed the connection")). split; [|split; vm_compute; reflexivity].
  intros n e. simpl. destruct (n =? 4)%nat; [|discriminate]. intros E; inv E. eexists. split; [reflexivity|discriminate].
Qed.
Print Assumptions C142_raise_keeps_nonce_refuted.
