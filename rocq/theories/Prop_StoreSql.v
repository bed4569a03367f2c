(** C21, and C22, C23, C26 for the SQL stores. *)
From Coq Require Import Lia ZifyBool ZifyN ZifyNat Permutation.
From Verif Require Import Py PyFacts Utf8 Utf8Facts Association AssociationFacts Prop_Association.
From Verif Require Import Nonce Store StoreSpec StoreFacts Prop_StoreMem.
Open Scope Z_scope.
Local Arguments u : simpl never.

(** SQLite and PostgreSQL: the primary key covers the whole server_url. *)
Definition whole (b : bytes) : bytes := b.
Notation lite := (sql_step whole).

(** What can be sent to the database: text without lone surrogates. *)
Definition sendable (s : text) : Prop := exists b, encode s = Ok b.
Definition sql_op (o : op) : Prop :=
  match o with
  | StoreA url a => sendable url /\ sendable (a_handle a) /\ known_type (a_type a)
  | _ => True
  end.
Definition sql_history (h : history) : Prop := Forall (fun e => sql_op (snd e)) h.

Definition row_of (url : text) (a : assoc) (r : arow) : Prop :=
  encode url = Ok (r_url r) /\ encode (a_handle a) = Ok (r_handle r) /\ encode (a_type a) = Ok (r_type r) /\
  known_type (a_type a) /\ r_secret r = a_secret a /\ r_issued r = a_issued a /\ r_lifetime r = a_lifetime a.
Definition rkey (r : arow) : bytes * bytes := (r_url r, r_handle r).
Definition rexp (r : arow) (t : Z) : bool := r_issued r + r_lifetime r <=? t.

Lemma row_assoc_of url a r : row_of url a r -> row_assoc r = Ok a.
Proof.
  intros (H1 & H2 & H3 & H4 & H5 & H6 & H7). unfold row_assoc. rewrite (decode_encode _ _ H3). cbn [bind].
  apply known_type_mem in H4. rewrite H4. simpl. rewrite (decode_encode _ _ H2). simpl. rewrite H5, H6, H7. destruct a; auto.
Qed.

Definition sql_inv (q : list arow) (h : history) (t : Z) : Prop :=
  NoDup (map rkey q) /\
  (forall r, In r q -> exists url a, row_of url a r /\ stored url (a_handle a) h = Some a) /\
  (forall url handle a, stored url handle h = Some a -> expired a t = false ->
     exists r, In r q /\ row_of url a r /\ a_handle a = handle).

Lemma NoDup_map_filter {A B} (f : A -> B) p l : NoDup (map f l) -> NoDup (map f (filter p l)).
Proof.
  induction l as [|x l IH]; simpl; intros H; auto. inv H. destruct (p x); simpl; auto. constructor; auto.
  intros Hin. apply H2. apply in_map_iff in Hin as (y & E & Hin). apply filter_In in Hin as (Hin & _). apply in_map_iff. eauto.
Qed.
Lemma NoDup_map_eq {A B} (f : A -> B) l x y : NoDup (map f l) -> In x l -> In y l -> f x = f y -> x = y.
Proof.
  induction l as [|z l IH]; simpl; intros H; [tauto|]. inv H. intros [->|Hx] [->|Hy] E; auto.
  - exfalso. apply H2. rewrite E. apply in_map. auto.
  - exfalso. apply H2. rewrite <- E. apply in_map. auto.
Qed.

(** Dropping expired rows keeps the invariant. *)
Lemma sql_inv_drop q h t p : sql_inv q h t ->
  (forall r, In r q -> p r = false -> rexp r t = true) -> sql_inv (filter p q) h t.
Proof.
  intros (I1 & I2 & I3) D. split; [apply NoDup_map_filter; auto|split].
  - intros r H. apply filter_In in H as (H & _). auto.
  - intros url handle a S X. destruct (I3 _ _ _ S X) as (r & Hin & R & E). exists r. split; auto. apply filter_In. split; auto.
    destruct (p r) eqn:P; auto. specialize (D _ Hin P). unfold rexp in D. rewrite expired_spec in X.
    destruct R as (_ & _ & _ & _ & _ & R6 & R7). lia.
Qed.
Lemma sql_inv_later q h t t' : t <= t' -> sql_inv q h t -> sql_inv q h t'.
Proof.
  intros L (I1 & I2 & I3). split; [|split]; auto. intros url handle a S X. apply I3; auto.
  destruct (expired a t) eqn:E; auto. rewrite (expired_mono _ _ _ L E) in X. discriminate.
Qed.

(** The loop over the rows found: expired ones are deleted, the others collected. *)
Lemma filter_filter {A} (p q : A -> bool) l : filter p (filter q l) = filter (fun x => q x && p x) l.
Proof. induction l as [|x l IH]; simpl; auto. destruct (q x); simpl; rewrite IH; auto. Qed.
Lemma row_of_inj url a b r : row_of url a r -> row_of url b r -> a = b.
Proof. intros H1 H2. apply row_assoc_of in H1. apply row_assoc_of in H2. congruence. Qed.
Lemma get_rows now url rows : forall s acc,
  (forall r, In r rows -> exists a, row_of url a r) ->
  exists s' l, foldM (get_row now url) (s, acc) rows = Ok (s', acc ++ l) /\ q_nonces s' = q_nonces s /\
    q_assocs s' = filter (fun x => negb (existsb (fun r => rexp r now && (text_eqb (r_url x) (r_url r) && text_eqb (r_handle x) (r_handle r))) rows)) (q_assocs s) /\
    (forall a, In a l <-> exists r, In r rows /\ row_of url a r /\ rexp r now = false).
Proof.
  induction rows as [|r rows IH]; intros s acc U.
  - exists s, []. simpl. rewrite app_nil_r. split; auto. split; auto. split.
    + clear. induction (q_assocs s) as [|x l IH]; simpl; auto. rewrite <- IH. auto.
    + intros a. split; [tauto|]. intros (r & [] & _).
  - destruct (U r (or_introl eq_refl)) as (a & R). cbn [foldM]. unfold get_row at 1.
    rewrite (row_assoc_of _ _ _ R). cbn [bind fst snd]. pose proof R as (R1 & R2 & R3 & R4 & R5 & R6 & R7).
    assert (expired a now = rexp r now) as -> by (rewrite expired_spec; unfold rexp; rewrite R6, R7; auto).
    destruct (rexp r now) eqn:X.
    + unfold txn_removeAssociation. rewrite R1, R2. cbn [bind fst snd].
      set (s1 := mkSql (db_remove_assoc (q_assocs s) (r_url r) (r_handle r)) (q_nonces s)).
      destruct (IH s1 acc) as (s' & l & F & Q & P & M); [intros; apply U; right; auto|].
      exists s', l. split; auto. split; auto. split.
      * rewrite P. unfold s1. cbn [q_assocs]. unfold db_remove_assoc. rewrite filter_filter. apply filter_ext. intros x.
        cbn [existsb]. rewrite X, andb_true_l, negb_orb. auto.
      * intros b. rewrite M. split; intros (r' & H1 & H2 & H3); exists r'; [simpl; auto|].
        destruct H1 as [<-|H1]; [congruence|auto].
    + cbn [bind fst snd]. destruct (IH s (acc ++ [a])) as (s' & l & F & Q & P & M); [intros; apply U; right; auto|].
      exists s', (a :: l). rewrite F, <- app_assoc. split; auto. split; auto. split.
      * rewrite P. apply filter_ext. intros x. cbn [existsb]. rewrite X. auto.
      * intros b. simpl. rewrite M. split.
        -- intros [<-|(r' & H1 & H2 & H3)]; [exists r; auto|exists r'; auto].
        -- intros (r' & [<-|H1] & H2 & H3); [left; eapply row_of_inj; eauto|right; eauto].
Qed.

Lemma stored_handle url handle h a : stored url handle h = Some a -> a_handle a = handle.
Proof.
  induction h as [|[t o] h IH]; simpl; [discriminate|]. destruct o; auto.
  - destruct (_ && _) eqn:E; auto. rewrite andb_true_iff, !text_eqb_eq in E. destruct E as (_ & E). intros H; inv H. auto.
  - destruct (_ && _); auto. discriminate.
Qed.

Lemma rows_of_url q h t url burl : encode url = Ok burl -> sql_inv q h t ->
  forall r, In r q -> r_url r = burl -> exists a, row_of url a r /\ stored url (a_handle a) h = Some a.
Proof.
  intros E (_ & I2 & _) r Hin Er. destruct (I2 _ Hin) as (url' & a & R & S). exists a.
  assert (url' = url) as -> by (eapply encode_inj; [apply R|rewrite Er; auto]). auto.
Qed.

(** getAssociation, on a state related to the history. *)
Lemma sql_get_spec s h t0 now url (handle : option text) :
  sendable url -> (forall x, handle = Some x -> sendable x) -> sql_inv (q_assocs s) h t0 -> t0 <= now ->
  exists l, 
    (forall a, In a l <-> stored url (a_handle a) h = Some a /\ expired a now = false /\ (forall x, handle = Some x -> a_handle a = x)) /\
    match sorted_last l with
    | Ok o => exists s', txn_getAssociation s now url handle = Ok (s', o) /\ q_nonces s' = q_nonces s /\ sql_inv (q_assocs s') h now
    | Raise e => txn_getAssociation s now url handle = Raise e
    end.
Proof.
  intros (burl & Eu) Hh I L. unfold txn_getAssociation. rewrite Eu. cbn [bind].
  set (rows := match handle with
               | Some x => match encode x with Ok bh => db_get_assoc (q_assocs s) burl bh | Raise _ => [] end
               | None => db_get_assocs (q_assocs s) burl end).
  assert ((match handle with
           | Some h0 => bh <- encode h0 ;; Ok (db_get_assoc (q_assocs s) burl bh)
           | None => Ok (db_get_assocs (q_assocs s) burl)
           end) = Ok rows) as ->.
  { unfold rows. destruct handle as [x|]; auto. destruct (Hh x eq_refl) as (bx & ->). auto. }
  cbn [bind].
  assert (forall r, In r rows <-> In r (q_assocs s) /\ r_url r = burl /\ (forall x, handle = Some x -> encode x = Ok (r_handle r))) as RI.
  { intros r. unfold rows. destruct handle as [x|].
    - destruct (Hh x eq_refl) as (bx & Ex). rewrite Ex. unfold db_get_assoc. rewrite filter_In, andb_true_iff, !text_eqb_eq.
      split; intros (H1 & H2 & H3); (split; [auto|split; [auto|]]).
      + intros y E. inv E. congruence.
      + specialize (H3 _ eq_refl). congruence.
    - unfold db_get_assocs. rewrite filter_In, text_eqb_eq. split; [|tauto]. intros (H1 & H2). split; auto. split; auto. discriminate. }
  assert (forall r, In r rows -> exists a, row_of url a r) as RO.
  { intros r H. apply RI in H as (H1 & H2 & _). destruct (rows_of_url _ _ _ _ _ Eu I r H1 H2) as (a & R & _). eauto. }
  destruct (get_rows now url rows s [] RO) as (s' & l & F & Q & P & M). exists l.
  assert (forall a, In a l <-> stored url (a_handle a) h = Some a /\ expired a now = false /\ (forall x, handle = Some x -> a_handle a = x)) as ML.
  { intros a. rewrite M. split.
    - intros (r & H1 & H2 & H3). apply RI in H1 as (H4 & H5 & H6). destruct (rows_of_url _ _ _ _ _ Eu I r H4 H5) as (b & R & S).
      assert (b = a) as -> by (eapply row_of_inj; eauto). split; auto.
      pose proof H2 as (_ & Q2 & _ & _ & _ & Q6 & Q7). split.
      + rewrite expired_spec. unfold rexp in H3. rewrite <- Q6, <- Q7. auto.
      + intros x E. eapply encode_inj; [apply Q2|apply H6; auto].
    - intros (S & X & HX). destruct I as (_ & _ & I3).
      assert (expired a t0 = false) as X0. { destruct (expired a t0) eqn:E; auto. rewrite (expired_mono _ _ _ L E) in X. discriminate. }
      destruct (I3 _ _ _ S X0) as (r & H1 & H2 & _). pose proof H2 as (Q1 & Q2 & _ & _ & _ & Q6 & Q7). exists r. split; [|split; auto].
      + apply RI. split; auto. split; [congruence|]. intros x E. rewrite <- (HX _ E). auto.
      + unfold rexp. rewrite Q6, Q7, <- expired_spec. auto. }
  split; auto.
  assert (sql_inv (q_assocs s') h now) as I'.
  { rewrite P. apply sql_inv_drop; [eapply sql_inv_later; eauto|]. intros r Hin E. apply negb_false_iff, existsb_exists in E as (r' & H1 & H2).
    rewrite !andb_true_iff, !text_eqb_eq in H2. destruct H2 as (X & E1 & E2). apply RI in H1 as (H1 & _).
    destruct I as (I1 & _). assert (r = r') as -> by (eapply (NoDup_map_eq rkey); eauto; unfold rkey; congruence). auto. }
  destruct rows as [|r0 rows'] eqn:ER.
  - simpl in F. assert (l = []) as ->. { destruct l as [|a l]; auto. destruct (M a) as (Ma & _). destruct (Ma (or_introl eq_refl)) as (? & [] & _). }
    cbn [sorted_last ties sort rev]. exists s. split; auto. split; auto. eapply sql_inv_later; eauto.
  - rewrite <- ER in *. rewrite F. cbn [bind fst snd app]. destruct (sorted_last l); cbn [bind]; auto. exists s'. auto.
Qed.

(** The nonce table. *)
Definition nonce_inv (q : list nrow) (h : history) (t : Z) : Prop :=
  (forall x, In x q -> exists url ts salt, encode url = Ok (fst (fst x)) /\ snd (fst x) = ts /\ encode salt = Ok (snd x) /\
                                           used url ts salt h = true) /\
  (forall url ts salt burl bsalt, used url ts salt h = true -> in_window t ts = true ->
     encode url = Ok burl -> encode salt = Ok bsalt -> In (burl, ts, bsalt) q).

Lemma used_cons url ts salt t o (h : history) :
  used url ts salt ((t, o) :: h) =
  (match o with UseN url' ts' salt' => text_eqb url url' && (ts =? ts') && text_eqb salt salt' && in_window t ts | _ => false end
   || used url ts salt h)%bool.
Proof. reflexivity. Qed.

(** Nothing is forgotten while fresh; time passing only makes things stale. *)
Lemma window_later t t' ts url salt h : clock t h -> t <= t' -> used url ts salt h = true -> in_window t' ts = true -> in_window t ts = true.
Proof.
  intros C L U W. apply used_spec in U as (t1 & Hin & W1). pose proof (clock_In _ _ _ C Hin) as L1. simpl in L1. unfold in_window in *. lia.
Qed.
Lemma nonce_inv_later q h t t' : clock t h -> t <= t' -> nonce_inv q h t -> nonce_inv q h t'.
Proof.
  intros C L (I1 & I2). split; auto. intros url ts salt bu bs U W E1 E2. eapply I2; eauto. eapply window_later; eauto.
Qed.
Lemma nonce_inv_other q h t o : (forall url ts salt, o <> UseN url ts salt) -> nonce_inv q h t -> nonce_inv q ((t, o) :: h) t.
Proof.
  intros N (I1 & I2). assert (forall url ts salt, used url ts salt ((t, o) :: h) = used url ts salt h) as K.
  { intros. rewrite used_cons. destruct o; auto. exfalso. eapply N; eauto. }
  split.
  - intros x H. destruct (I1 x H) as (a & b & c & H1 & H2 & H3 & H4). exists a, b, c. rewrite K. auto.
  - intros url ts salt bu bs. rewrite K. apply I2.
Qed.

Lemma sql_useNonce_spec s h t url ts salt : sendable url -> sendable salt -> nonce_inv (q_nonces s) h t ->
  exists s', txn_useNonce whole s t url ts salt = Ok (s', (in_window t ts && negb (used url ts salt h))%bool) /\
    q_assocs s' = q_assocs s /\ nonce_inv (q_nonces s') ((t, UseN url ts salt) :: h) t.
Proof.
  intros (bu & Eu) (bs & Es) (I1 & I2). unfold txn_useNonce. rewrite skewed_window. destruct (in_window t ts) eqn:W; cbn [negb andb].
  - rewrite Eu, Es. cbn [bind]. unfold db_add_nonce.
    match goal with |- context [existsb ?f (q_nonces s)] => set (fe := f); assert (existsb fe (q_nonces s) = used url ts salt h) as X end.
    { destruct (used url ts salt h) eqn:U.
      - apply existsb_exists. exists (bu, ts, bs). split; [eapply I2; eauto|]. unfold fe. simpl. rewrite !text_eqb_refl, Z.eqb_refl. auto.
      - destruct (existsb fe (q_nonces s)) eqn:X; auto. apply existsb_exists in X as ([[b1 t1] b2] & Hin & E). unfold fe, whole in E. simpl in E.
        rewrite !andb_true_iff, !text_eqb_eq, Z.eqb_eq in E. destruct E as [[-> ->] ->].
        destruct (I1 _ Hin) as (a & b & c & H1 & H2 & H3 & H4). simpl in *. subst b.
        rewrite (encode_inj _ _ _ H1 Eu), (encode_inj _ _ _ H3 Es) in H4. congruence. }
    rewrite X. destruct (used url ts salt h) eqn:U.
    + exists s. split; auto. split; auto. split.
      * intros x H. destruct (I1 x H) as (a & b & c & H1 & H2 & H3 & H4). exists a, b, c. rewrite used_cons, H4, orb_true_r. auto.
      * intros url' ts' salt' b1 b2. rewrite used_cons. intros H W' E1 E2. apply orb_prop in H as [H|H]; [|eapply I2; eauto].
        rewrite !andb_true_iff, !text_eqb_eq, Z.eqb_eq in H. destruct H as [[[-> ->] ->] _]. eapply I2; eauto.
    + eexists. split; [reflexivity|]. cbn [q_assocs q_nonces]. split; auto. split.
      * intros x H. apply in_app_iff in H as [H|[<-|[]]].
        -- destruct (I1 x H) as (a & b & c & H1 & H2 & H3 & H4). exists a, b, c. rewrite used_cons, H4, orb_true_r. auto.
        -- exists url, ts, salt. simpl. rewrite !text_eqb_refl, Z.eqb_refl, W. auto.
      * intros url' ts' salt' b1 b2. rewrite used_cons. intros H W' E1 E2. rewrite in_app_iff. apply orb_prop in H as [H|H]; [|left; eapply I2; eauto].
        rewrite !andb_true_iff, !text_eqb_eq, Z.eqb_eq in H. destruct H as [[[-> ->] ->] _]. right. left. congruence.
  - exists s. split; auto. split; auto. split.
    + intros x H. destruct (I1 x H) as (a & b & c & H1 & H2 & H3 & H4). exists a, b, c. rewrite used_cons, H4, orb_true_r. auto.
    + intros url' ts' salt' b1 b2. rewrite used_cons. intros H W' E1 E2. apply orb_prop in H as [H|H]; [|eapply I2; eauto].
      rewrite !andb_true_iff, !text_eqb_eq, Z.eqb_eq in H. destruct H as [[[-> ->] ->] H]. congruence.
Qed.

(** One step keeps the relation between tables and history. *)
Lemma sql_step_inv s h t0 t o : clock t0 h -> t0 <= t -> sql_op o ->
  sql_inv (q_assocs s) h t0 -> nonce_inv (q_nonces s) h t0 ->
  sql_inv (q_assocs (fst (lite s t o))) ((t, o) :: h) t /\ nonce_inv (q_nonces (fst (lite s t o))) ((t, o) :: h) t.
Proof.
  intros C L K I N. pose proof (sql_inv_later _ _ _ _ L I) as I'. pose proof (nonce_inv_later _ _ _ _ C L N) as N'.
  destruct o as [url a|url x|url x|url ts salt| |]; cbn [sql_step].
  - destruct K as ((bu & Eu) & (bh & Eh) & Kt). unfold txn_storeAssociation. rewrite Eu, Eh. cbn [bind].
    assert (exists bt, encode (a_type a) = Ok bt) as (bt & Et). { destruct Kt as [-> | ->]; eexists; vm_compute; reflexivity. }
    rewrite Et. cbn [bind inTxn fst q_assocs q_nonces]. split; [|apply nonce_inv_other; auto; discriminate].
    set (r := mkRow bu bh (a_secret a) (a_issued a) (a_lifetime a) bt). unfold db_set_assoc, whole.
    assert (row_of url a r) as R by (repeat split; auto).
    destruct I' as (I1 & I2 & I3). split; [|split].
    + rewrite map_app. apply NoDup_app_snoc; [apply NoDup_map_filter; auto|]. intros H. apply in_map_iff in H as (y & E & H).
      apply filter_In in H as (_ & H). unfold rkey in E. simpl in E. inv E. simpl in H. rewrite !text_eqb_refl in H. discriminate.
    + intros y H. apply in_app_iff in H as [H|[<-|[]]].
      * apply filter_In in H as (H & X). destruct (I2 _ H) as (url' & a' & R' & S). exists url', a'. split; auto. cbn [stored].
        destruct (text_eqb url' url && text_eqb (a_handle a') (a_handle a)) eqn:E; auto. exfalso.
        rewrite andb_true_iff, !text_eqb_eq in E. destruct E as (-> & E). destruct R' as (Q1 & Q2 & _). simpl in X.
        assert (r_url y = bu) as Z1 by congruence. assert (r_handle y = bh) as Z2 by congruence. rewrite Z1, Z2, !text_eqb_refl in X. discriminate.
      * exists url, a. split; auto. cbn [stored]. rewrite !text_eqb_refl. auto.
    + intros url' handle b. cbn [stored]. destruct (text_eqb url' url && text_eqb handle (a_handle a)) eqn:E.
      * intros H X. inv H. rewrite andb_true_iff, !text_eqb_eq in E. destruct E as (-> & ->). exists r. rewrite in_app_iff. simpl. auto.
      * intros H X. destruct (I3 _ _ _ H X) as (y & Y1 & Y2 & Y3). exists y. split; [|auto]. apply in_app_iff. left. apply filter_In. split; auto.
        apply negb_true_iff. destruct (text_eqb (r_url y) (r_url r) && text_eqb (r_handle y) (r_handle r)) eqn:Q; auto. exfalso.
        rewrite andb_true_iff, !text_eqb_eq in Q. destruct Q as (Q1 & Q2). simpl in Q1, Q2. pose proof Y2 as (Z1 & Z2 & _).
        rewrite Q1 in Z1. rewrite Q2 in Z2. rewrite (encode_inj _ _ _ Z1 Eu) in E. rewrite (encode_inj _ _ _ Z2 Eh) in Y3. subst handle.
        rewrite !text_eqb_refl in E. discriminate.
  - assert (sql_inv (q_assocs (fst (inTxn s (txn_getAssociation s t url x) Got))) h t /\
            q_nonces (fst (inTxn s (txn_getAssociation s t url x) Got)) = q_nonces s) as (G1 & G2).
    { destruct (encode url) as [bu|e] eqn:Eu; [|unfold txn_getAssociation; rewrite Eu; auto].
      assert (sendable url) as Su by (exists bu; auto).
      destruct x as [x|].
      - destruct (encode x) as [bx|e] eqn:Ex; [|unfold txn_getAssociation; rewrite Eu, Ex; simpl; auto].
        destruct (sql_get_spec s h t0 t url (Some x) Su) as (l & _ & G); auto. { intros y E; inv E. exists bx; auto. }
        destruct (sorted_last l); [destruct G as (s' & -> & G1 & G2); simpl; auto|rewrite G; simpl; auto].
      - destruct (sql_get_spec s h t0 t url None Su) as (l & _ & G); auto; [discriminate|].
        destruct (sorted_last l); [destruct G as (s' & -> & G1 & G2); simpl; auto|rewrite G; simpl; auto]. }
    rewrite G2. split; [|apply nonce_inv_other; auto; discriminate]. exact G1.
  - unfold txn_removeAssociation. destruct I' as (I1 & I2 & I3).
    destruct (encode url) as [bu|e] eqn:Eu; [destruct (encode x) as [bx|e] eqn:Ex|]; cbn [bind inTxn fst q_assocs q_nonces].
    + split; [|apply nonce_inv_other; auto; discriminate]. split; [apply NoDup_map_filter; auto|split].
      * intros r H. apply filter_In in H as (H & X). destruct (I2 _ H) as (url' & a' & R' & S). exists url', a'. split; auto. cbn [stored].
        destruct (text_eqb url' url && text_eqb (a_handle a') x) eqn:E; auto. exfalso.
        rewrite andb_true_iff, !text_eqb_eq in E. destruct E as (-> & E). destruct R' as (Q1 & Q2 & _).
        assert (r_url r = bu) as Z1 by congruence. assert (r_handle r = bx) as Z2 by congruence. rewrite Z1, Z2, !text_eqb_refl in X. discriminate.
      * intros url' handle b. cbn [stored]. destruct (text_eqb url' url && text_eqb handle x) eqn:E; [discriminate|].
        intros H X. destruct (I3 _ _ _ H X) as (y & Y1 & Y2 & Y3). exists y. split; [|auto]. apply filter_In. split; auto.
        apply negb_true_iff. destruct (text_eqb (r_url y) bu && text_eqb (r_handle y) bx) eqn:Q; auto. exfalso.
        rewrite andb_true_iff, !text_eqb_eq in Q. destruct Q as (Q1 & Q2). pose proof Y2 as (Z1 & Z2 & _).
        rewrite Q1 in Z1. rewrite Q2 in Z2. rewrite (encode_inj _ _ _ Z1 Eu) in E. rewrite (encode_inj _ _ _ Z2 Ex) in Y3. subst handle.
        rewrite !text_eqb_refl in E. discriminate.
    + split; [|apply nonce_inv_other; auto; discriminate]. split; [auto|split].
      * intros r H. destruct (I2 _ H) as (url' & a' & R' & S). exists url', a'. split; auto. cbn [stored].
        destruct (text_eqb url' url && text_eqb (a_handle a') x) eqn:E; auto. exfalso.
        rewrite andb_true_iff, !text_eqb_eq in E. destruct E as (-> & E). destruct R' as (Q1 & Q2 & _). congruence.
      * intros url' handle b. cbn [stored]. destruct (text_eqb url' url && text_eqb handle x) eqn:E; [discriminate|apply I3].
    + split; [|apply nonce_inv_other; auto; discriminate]. split; [auto|split].
      * intros r H. destruct (I2 _ H) as (url' & a' & R' & S). exists url', a'. split; auto. cbn [stored].
        destruct (text_eqb url' url && text_eqb (a_handle a') x) eqn:E; auto. exfalso.
        rewrite andb_true_iff, !text_eqb_eq in E. destruct E as (-> & E). destruct R' as (Q1 & Q2 & _). congruence.
      * intros url' handle b. cbn [stored]. destruct (text_eqb url' url && text_eqb handle x) eqn:E; [discriminate|apply I3].
  - destruct (skewed ts t) eqn:SK; [|destruct (encode url) as [bu|e] eqn:Eu; [destruct (encode salt) as [bs|e] eqn:Es|]].
    + unfold txn_useNonce. rewrite SK. simpl. split; [exact I'|]. destruct N' as (N1 & N2). rewrite skewed_window in SK. apply negb_true_iff in SK. split.
      * intros x H. destruct (N1 x H) as (a & b & c & H1 & H2 & H3 & H4). exists a, b, c. rewrite used_cons, H4, orb_true_r. auto.
      * intros url' ts' salt' b1 b2. rewrite used_cons. intros H W' E1 E2. apply orb_prop in H as [H|H]; [|eapply N2; eauto].
        rewrite !andb_true_iff, !text_eqb_eq, Z.eqb_eq in H. destruct H as [[[-> ->] ->] H]. congruence.
    + destruct (sql_useNonce_spec s h t url ts salt) as (s' & U1 & U2 & U3); auto; [exists bu; auto|exists bs; auto|].
      rewrite U1. cbn [inTxn fst]. rewrite U2. split; auto.
    + unfold txn_useNonce. rewrite SK, Eu, Es. simpl. split; [exact I'|]. destruct N' as (N1 & N2). split.
      * intros x H. destruct (N1 x H) as (a & b & c & H1 & H2 & H3 & H4). exists a, b, c. rewrite used_cons, H4, orb_true_r. auto.
      * intros url' ts' salt' b1 b2. rewrite used_cons. intros H W' E1 E2. apply orb_prop in H as [H|H]; [|eapply N2; eauto].
        rewrite !andb_true_iff, !text_eqb_eq, Z.eqb_eq in H. destruct H as [[[-> ->] ->] H]. congruence.
    + unfold txn_useNonce. rewrite SK, Eu. simpl. split; [exact I'|]. destruct N' as (N1 & N2). split.
      * intros x H. destruct (N1 x H) as (a & b & c & H1 & H2 & H3 & H4). exists a, b, c. rewrite used_cons, H4, orb_true_r. auto.
      * intros url' ts' salt' b1 b2. rewrite used_cons. intros H W' E1 E2. apply orb_prop in H as [H|H]; [|eapply N2; eauto].
        rewrite !andb_true_iff, !text_eqb_eq, Z.eqb_eq in H. destruct H as [[[-> ->] ->] H]. congruence.
  - cbn [txn_cleanupNonces inTxn fst q_assocs q_nonces]. split; [exact I'|]. apply nonce_inv_other; [discriminate|].
    destruct N' as (N1 & N2). split.
    + intros x H. apply filter_In in H as (H & _). auto.
    + intros url ts salt b1 b2 U W E1 E2. apply filter_In. split; [eapply N2; eauto|]. simpl. unfold in_window in W. unfold SKEW. lia.
  - cbn [txn_cleanupAssociations inTxn fst q_assocs q_nonces]. split; [|apply nonce_inv_other; auto; discriminate].
    change (sql_inv (db_clean_assoc (q_assocs s) t) h t). unfold db_clean_assoc. apply sql_inv_drop; auto.
    intros r _ H. unfold rexp. lia.
Qed.

Lemma sql_after_inv h : forall t, clock t h -> sql_history h ->
  sql_inv (q_assocs (after lite sql_init h)) h t /\ nonce_inv (q_nonces (after lite sql_init h)) h t.
Proof.
  induction h as [|[t0 o] h IH]; intros t C K.
  - split.
    + split; [constructor|split; [intros r []|discriminate]].
    + split; [intros r []|discriminate].
  - cbn [clock] in C. destruct C as (C1 & C2). inv K. cbn [after].
    destruct (IH _ C2 H2) as (I & N). destruct (sql_step_inv _ _ t0 t0 o C2 (Z.le_refl _) H1 I N) as (I' & N').
    split; [eapply sql_inv_later; eauto|eapply nonce_inv_later; eauto]. simpl. split; auto. lia.
Qed.

(** ** C21 *)
Theorem C21_useNonce_sql :
  forall h t url ts salt, clock t h -> sql_history h -> sendable url -> sendable salt ->
    answer lite sql_init h t (UseN url ts salt) = Flag (in_window t ts && negb (used url ts salt h)).
Proof.
  intros h t url ts salt C K Su Ss. destruct (sql_after_inv h t C K) as (_ & N). unfold answer. cbn [sql_step].
  destruct (sql_useNonce_spec _ h t url ts salt Su Ss N) as (s' & -> & _). auto.
Qed.
Definition sql_nonces_ok (h : history) : Prop :=
  sql_history h /\ Forall (fun e => match snd e with UseN url _ salt => sendable url /\ sendable salt | _ => True end) h.
Theorem C21_once_sql :
  forall h t url ts salt, clock t h -> sql_nonces_ok h -> (accepted lite sql_init url ts salt h <= 1)%nat.
Proof.
  intros h t url ts salt C K.
  rewrite (accepted_once lite sql_init sql_nonces_ok) with (t := t); auto.
  - destruct (used url ts salt h); lia.
  - intros e h' (H1 & H2). inv H1. inv H2. split; auto.
  - intros h' t' url' ts' salt' C' (H1 & H2). inv H1. inv H2. simpl in *. apply C21_useNonce_sql; tauto.
Qed.
Print Assumptions C21_useNonce_sql.
Print Assumptions C21_once_sql.
Example C21_example :
  answer lite sql_init [(18010, CleanN); (10, UseN (u "http://a/") 17 (u "x"))] 18017
    (UseN (u "http://a/") 17 (u "x")) = Flag false /\
  answer lite sql_init [(18010, CleanN); (10, UseN (u "http://a/") 17 (u "x"))] 18017
    (UseN (u "http://a/") 17 (u "y")) = Flag true.
Proof. split; vm_compute; reflexivity. Qed.

(** ** C22, C23 *)
Theorem C22_get_sql :
  forall h t url handle, clock t h -> sql_history h -> sendable url -> sendable handle ->
    answer lite sql_init h t (GetA url (Some handle)) = Got (good_at t (stored url handle h)).
Proof.
  intros h t url handle C K Su Sh. destruct (sql_after_inv h t C K) as (I & _). unfold answer. cbn [sql_step].
  destruct (sql_get_spec (after lite sql_init h) h t t url (Some handle) Su) as (l & M & G); [intros x E; inv E; auto|eauto|lia|].
  assert (forall a, In a l <-> stored url handle h = Some a /\ expired a t = false) as M'.
  { intros a. rewrite M. split.
    - intros (S & X & E). rewrite (E _ eq_refl) in S. auto.
    - intros (S & X). pose proof (stored_handle _ _ _ _ S) as E. rewrite E. repeat split; auto. intros x Q; inv Q. auto. }
  pose proof (sorted_last_spec l) as L. destruct (sorted_last l) as [[a|]|e].
  - destruct G as (s' & -> & _). simpl. destruct L as (L & _). apply M' in L as (S & X). rewrite good_at_expired, S, X. auto.
  - destruct G as (s' & -> & _). simpl. rewrite good_at_expired. destruct (stored url handle h) as [a|] eqn:S; auto.
    destruct (expired a t) eqn:X; auto. assert (In a l) as Z by (apply M'; auto). rewrite L in Z. destruct Z.
  - exfalso. destruct L as (_ & a & b & Ha & Hb & N & _). apply M' in Ha as (Ha & _). apply M' in Hb as (Hb & _). congruence.
Qed.
Theorem C22_newest_sql :
  forall h t url, clock t h -> sql_history h -> sendable url ->
    let view := fun handle => good_at t (stored url handle h) in
    (exists o, answer lite sql_init h t (GetA url None) = Got o /\ newest view o /\ ~ same_second view) \/
    (answer lite sql_init h t (GetA url None) = Err TypeError /\ same_second view).
Proof.
  intros h t url C K Su view. destruct (sql_after_inv h t C K) as (I & _). unfold answer. cbn [sql_step].
  destruct (sql_get_spec (after lite sql_init h) h t t url None Su) as (l & M & G); [discriminate|eauto|lia|].
  assert (forall handle a, view handle = Some a <-> In a l /\ a_handle a = handle) as V.
  { intros handle a. unfold view. rewrite good_at_expired, M. split.
    - destruct (stored url handle h) as [b|] eqn:S; [|discriminate]. destruct (expired b t) eqn:X; [discriminate|].
      intros E; inv E. rewrite (stored_handle _ _ _ _ S). repeat split; auto. discriminate.
    - intros ((S & X & _) & <-). rewrite S, X. auto. }
  pose proof (sorted_last_spec l) as L. destruct (sorted_last l) as [[a|]|e].
  - left. destruct G as (s' & -> & _). exists (Some a). split; auto. destruct L as (L1 & L2 & L3). split.
    + split; [exists (a_handle a); apply V; auto|]. intros handle b Hb. apply V in Hb as (Hb & _). auto.
    + intros (h1 & h2 & x & y & H1 & H2 & N & E). apply V in H1 as (H1 & <-). apply V in H2 as (H2 & <-).
      apply N. rewrite (L3 _ _ H1 H2 E). auto.
  - left. destruct G as (s' & -> & _). exists None. split; auto. subst l. split.
    + intros handle. destruct (view handle) eqn:Q; auto. apply V in Q as ([] & _).
    + intros (h1 & _ & x & _ & H1 & _). apply V in H1 as ([] & _).
  - right. rewrite G. destruct L as (-> & a & b & Ha & Hb & N & E). split; auto.
    exists (a_handle a), (a_handle b), a, b. split; [apply V; auto|]. split; [apply V; auto|]. split; auto.
    intros Q. apply N. apply M in Ha as (Ha & _). apply M in Hb as (Hb & _). congruence.
Qed.
Theorem C22_remove_sql :
  forall h t url handle, clock t h -> sql_history h -> sendable url -> sendable handle -> exists b,
    answer lite sql_init h t (RemoveA url handle) = Flag b /\
    (b = true -> stored url handle h <> None) /\
    (good_at t (stored url handle h) <> None -> b = true).
Proof.
  intros h t url handle C K (bu & Eu) (bh & Eh). destruct (sql_after_inv h t C K) as (I & _). unfold answer. cbn [sql_step].
  unfold txn_removeAssociation. rewrite Eu, Eh. cbn [bind inTxn snd]. set (q := q_assocs (after lite sql_init h)) in *.
  eexists. split; [reflexivity|]. unfold db_remove_assoc.
  assert (forall p, negb (length q - length (filter (fun x => negb (p x)) q) =? 0)%nat = existsb p q) as X.
  { intros p. clear. assert (length (filter (fun x => negb (p x)) q) <= length q)%nat as LE.
    { induction q as [|x l IH]; simpl; auto. destruct (p x); simpl; lia. }
    assert (existsb p q = true <-> (length (filter (fun x => negb (p x)) q) < length q)%nat) as Q.
    { clear LE. induction q as [|x l IH]; simpl; [split; [discriminate|lia]|].
      assert (length (filter (fun x => negb (p x)) l) <= length l)%nat. { clear. induction l as [|x l IH]; simpl; auto. destruct (p x); simpl; lia. }
      destruct (p x); simpl; [split; auto; lia|]. rewrite IH. lia. }
    destruct (existsb p q); [assert (length (filter (fun x => negb (p x)) q) < length q)%nat by (apply Q; auto); lia|].
    destruct (length (filter (fun x => negb (p x)) q) <? length q)%nat eqn:Z; [|lia].
    assert (false = true) by (apply Q; lia). discriminate. }
  rewrite (X (fun x => text_eqb (r_url x) bu && text_eqb (r_handle x) bh)). split.
  - intros H. apply existsb_exists in H as (r & Hin & E). rewrite andb_true_iff, !text_eqb_eq in E. destruct E as (E1 & E2).
    destruct (rows_of_url _ _ _ _ _ Eu I r Hin E1) as (a & R & S). destruct R as (_ & R2 & _).
    rewrite (encode_inj handle (a_handle a) bh); congruence.
  - rewrite good_at_expired. destruct (stored url handle h) as [a|] eqn:S; [|congruence]. destruct (expired a t) eqn:Q; [congruence|]. intros _.
    destruct I as (_ & _ & I3). destruct (I3 _ _ _ S Q) as (r & Hin & R & E). apply existsb_exists. exists r. split; auto.
    destruct R as (R1 & R2 & _). rewrite E in R2. rewrite andb_true_iff, !text_eqb_eq. split; congruence.
Qed.
Theorem C23_sql :
  forall h t url handle a, clock t h -> sql_history h -> sendable url -> (forall x, handle = Some x -> sendable x) ->
    answer lite sql_init h t (GetA url handle) = Got (Some a) -> t < a_issued a + a_lifetime a.
Proof.
  intros h t url handle a C K Su Sh. destruct handle as [x|].
  - rewrite C22_get_sql; auto. intros H. inv H. destruct (stored url x h) as [b|]; [|discriminate]. simpl in H1.
    destruct (t <? _) eqn:E; inv H1. lia.
  - intros H. destruct (C22_newest_sql h t url C K Su) as [(o & E & N & _)|(E & _)]; rewrite E in H; inv H.
    destruct N as ((x & N) & _). destruct (stored url x h) as [b|]; [|discriminate]. simpl in N. destruct (t <? _) eqn:Q; inv N. lia.
Qed.
Print Assumptions C22_get_sql.
Print Assumptions C22_newest_sql.
Print Assumptions C22_remove_sql.
Print Assumptions C23_sql.
Example C22_example_sql :
  answer lite sql_init ex_history 50 (GetA (u "http://a/") None) = Got (Some (ex_assoc (u "h3") 11 100)) /\
  answer lite sql_init ex_history 50 (GetA (u "http://b/") (Some (u "h1"))) = Got (Some (ex_assoc (u "h1") 30 100)) /\
  answer lite sql_init ex_history 130 (GetA (u "http://b/") (Some (u "h1"))) = Got None.
Proof. split; [vm_compute; reflexivity|split; vm_compute; reflexivity]. Qed.

(** Two associations issued in the same second: getAssociation without a handle raises TypeError. *)
Theorem C76_same_second_refuted :
  exists h t url, clock t h /\ sql_history h /\ sendable url /\
    (exists handle a, good_at t (stored url handle h) = Some a) /\
    answer lite sql_init h t (GetA url None) = Err TypeError.
Proof.
  exists [(10, StoreA (u "http://a/") (ex_assoc (u "h2") 10 100)); (10, StoreA (u "http://a/") (ex_assoc (u "h1") 10 100))], 11, (u "http://a/").
  split; [simpl; repeat split; lia|]. split.
  { repeat (apply Forall_cons || apply Forall_nil); (split; [eexists; vm_compute; reflexivity|split; [eexists; vm_compute; reflexivity|left; reflexivity]]). }
  split; [eexists; vm_compute; reflexivity|]. split; [|vm_compute; reflexivity].
  exists (u "h1"), (ex_assoc (u "h1") 10 100). vm_compute. reflexivity.
Qed.
Print Assumptions C76_same_second_refuted.

(** ** C26 *)
(** cleanupAssociations: what expired before [t] is gone (removing it finds nothing), and by
    [C22_get_sql] everything still good is still there. *)
Theorem C26_cleanup_associations_sql :
  forall h t t' url handle a, clock t h -> sql_history h -> sendable url -> sendable handle ->
    stored url handle h = Some a -> a_issued a + a_lifetime a < t ->
    answer lite sql_init ((t, CleanA) :: h) t' (RemoveA url handle) = Flag false.
Proof.
  intros h t t' url handle a C K (bu & Eu) (bh & Eh) S X. destruct (sql_after_inv h t C K) as (I & _).
  unfold answer. cbn [sql_step after txn_cleanupAssociations inTxn fst]. unfold txn_removeAssociation. rewrite Eu, Eh. cbn [bind inTxn snd q_assocs].
  set (q := q_assocs (after lite sql_init h)) in *.
  assert (db_remove_assoc (db_clean_assoc q t) bu bh = db_clean_assoc q t) as ->.
  { assert (forall r, In r (db_clean_assoc q t) -> negb (text_eqb (r_url r) bu && text_eqb (r_handle r) bh) = true) as P.
    { intros r H. apply filter_In in H as (H & L). apply negb_true_iff. destruct (_ && _) eqn:E; auto. exfalso.
      rewrite andb_true_iff, !text_eqb_eq in E. destruct E as (E1 & E2). destruct (rows_of_url _ _ _ _ _ Eu I r H E1) as (b & R & S').
      destruct R as (_ & R2 & _ & _ & _ & R6 & R7). rewrite E2 in R2. rewrite (encode_inj _ _ _ R2 Eh) in S'.
      assert (b = a) as -> by congruence. lia. }
    unfold db_remove_assoc. revert P. generalize (db_clean_assoc q t). intros l P. induction l as [|r l IH]; simpl; auto.
    rewrite (P r (or_introl eq_refl)). rewrite IH; auto. intros; apply P; right; auto. }
  rewrite Nat.sub_diag. auto.
Qed.
(** It reports how many rows went, and rows that expire exactly now stay: the boundary is
    on the other side than in getExpiresIn. *)
Theorem C79_boundary_refuted :
  exists h t url a, clock t h /\ stored url (a_handle a) h = Some a /\ getExpiresIn a t = 0 /\
    answer lite sql_init h t CleanA = Count 0 /\
    answer lite sql_init ((t, CleanA) :: h) t (RemoveA url (a_handle a)) = Flag true.
Proof.
  exists [(10, StoreA (u "http://a/") (ex_assoc (u "h") 10 5))], 15, (u "http://a/"), (ex_assoc (u "h") 10 5).
  split; [simpl; split; [discriminate|exact I]|]. split; [vm_compute; reflexivity|]. split; [vm_compute; reflexivity|].
  split; vm_compute; reflexivity.
Qed.
Theorem C26_cleanup_nonces_sql :
  forall h t, clock t h -> sql_nonces_ok h -> 
    (forall t' url ts salt, sendable url -> sendable salt -> t <= t' ->
       answer lite sql_init ((t, CleanN) :: h) t' (UseN url ts salt) = answer lite sql_init h t' (UseN url ts salt)) /\
    (forall x, In x (q_nonces (after lite sql_init ((t, CleanN) :: h))) <->
       In x (q_nonces (after lite sql_init h)) /\ in_window t (snd (fst x)) = true).
Proof.
  intros h t C (K & _). split.
  - intros t' url ts salt Su Ss L. assert (clock t' ((t, CleanN) :: h)) as C' by (simpl; auto).
    rewrite !C21_useNonce_sql; auto. { eapply clock_le; eauto. } constructor; simpl; auto.
  - intros x. destruct (sql_after_inv h t C K) as (_ & (N1 & _)). cbn [after sql_step txn_cleanupNonces inTxn fst q_nonces].
    unfold db_clean_nonce. rewrite filter_In. split; intros (H & W); split; auto.
    + destruct (N1 _ H) as (url & ts & salt & _ & E & _ & U). subst ts. apply used_spec in U as (t1 & Hin & W1).
      pose proof (clock_In _ _ _ C Hin) as L. simpl in L. unfold in_window, SKEW in *. lia.
    + unfold in_window, SKEW in *. lia.
Qed.
(** The number reported is the number of rows removed. *)
Lemma filter_count {A} (f : A -> bool) l : Permutation l (filter (fun x => negb (f x)) l ++ filter f l) /\
  (length l - length (filter f l) = length (filter (fun x => negb (f x)) l))%nat.
Proof.
  assert (Permutation l (filter (fun x => negb (f x)) l ++ filter f l)) as P.
  { induction l as [|x l IH]; simpl; auto. destruct (f x); simpl; [rewrite IH at 1; apply Permutation_middle|rewrite IH at 1; auto]. }
  split; auto. apply Permutation_length in P. rewrite app_length in P. lia.
Qed.
Theorem C26_counts_sql :
  forall h t, let q := after lite sql_init h in
    (exists gone, answer lite sql_init h t CleanN = Count (length gone) /\
       Permutation (q_nonces q) (gone ++ q_nonces (after lite sql_init ((t, CleanN) :: h))) /\
       Forall (fun x => snd (fst x) < t - 18000) gone) /\
    (exists gone, answer lite sql_init h t CleanA = Count (length gone) /\
       Permutation (q_assocs q) (gone ++ q_assocs (after lite sql_init ((t, CleanA) :: h))) /\
       Forall (fun r => r_issued r + r_lifetime r < t) gone).
Proof.
  intros h t q. split.
  - exists (filter (fun x => negb (negb (snd (fst x) <? t - SKEW))) (q_nonces q)).
    destruct (filter_count (fun x => negb (snd (fst x) <? t - SKEW)) (q_nonces q)) as (P & L).
    unfold answer. cbn [sql_step after txn_cleanupNonces inTxn fst snd q_nonces]. fold q. unfold db_clean_nonce. split; [f_equal; exact L|]. split; auto.
    apply Forall_forall. intros x Hx. apply filter_In in Hx as (_ & Hx). unfold SKEW in Hx. lia.
  - exists (filter (fun r => negb (negb (r_issued r + r_lifetime r <? t))) (q_assocs q)).
    destruct (filter_count (fun r => negb (r_issued r + r_lifetime r <? t)) (q_assocs q)) as (P & L).
    unfold answer. cbn [sql_step after txn_cleanupAssociations inTxn fst snd q_assocs]. fold q. unfold db_clean_assoc. split; [f_equal; exact L|]. split; auto.
    apply Forall_forall. intros x Hx. apply filter_In in Hx as (_ & Hx). lia.
Qed.
Print Assumptions C26_counts_sql.
Print Assumptions C26_cleanup_associations_sql.
Print Assumptions C79_boundary_refuted.
Print Assumptions C26_cleanup_nonces_sql.
Example C26_example_sql :
  answer lite sql_init ex_history 116 CleanA = Count 1 /\
  answer lite sql_init [(10, UseN (u "http://a/") 17 (u "x")); (9, UseN (u "http://a/") 18 (u "x"))] 18018 CleanN = Count 1.
Proof. split; vm_compute; reflexivity. Qed.

(** ** MySQL: the key sees only the first 255 bytes of the server URL, so two servers with a
    long common prefix overwrite each other's associations and nonces. *)
Definition long_url (last : string) : text := u "http://a/" ++ repeat 120%N 250 ++ u last.
Theorem C80_mysql_associations_refuted :
  exists h t url1 url2 handle a, clock t h /\ sql_history h /\ url1 <> url2 /\
    good_at t (stored url1 handle h) = Some a /\
    answer (sql_step mysql_pk) sql_init h t (GetA url1 (Some handle)) = Got None.
Proof.
  exists [(11, StoreA (long_url "2") (ex_assoc (u "h") 11 100)); (10, StoreA (long_url "1") (ex_assoc (u "h") 10 100))], 12,
         (long_url "1"), (long_url "2"), (u "h"), (ex_assoc (u "h") 10 100).
  split; [simpl; repeat split; lia|]. split.
  { repeat (apply Forall_cons || apply Forall_nil); (split; [eexists; vm_compute; reflexivity|split; [eexists; vm_compute; reflexivity|left; reflexivity]]). }
  split; [vm_compute; congruence|]. split; vm_compute; reflexivity.
Qed.
Theorem C80_mysql_nonces_refuted :
  exists h t url ts salt, clock t h /\ in_window t ts = true /\ used url ts salt h = false /\
    answer (sql_step mysql_pk) sql_init h t (UseN url ts salt) = Flag false.
Proof.
  exists [(11, UseN (long_url "2") 11 (u "salt"))], 12, (long_url "1"), 11, (u "salt").
  split; [simpl; repeat split; lia|]. split; [vm_compute; reflexivity|]. split; vm_compute; reflexivity.
Qed.
Print Assumptions C80_mysql_associations_refuted.
Print Assumptions C80_mysql_nonces_refuted.
