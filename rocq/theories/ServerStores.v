(** The three stores as a signatory sees them: one specification, met by each of them. *)
From Coq Require Import Lia ZifyBool ZifyN ZifyNat.
From Verif Require Import Py PyFacts Utf8 Utf8Facts KVForm CryptUtil Association Nonce Store StoreSpec StoreFacts FileStore.
From Verif Require Import Prop_StoreMem Prop_StoreSql Prop_FileNames Prop_StoreFile.
Open Scope Z_scope.

(** A store keeps associations: up to expiry it answers what was stored last and not
    removed since, over every history of [fine] calls with a clock that does not go back. *)
Record keeps {S : Type} (step : S -> Z -> op -> S * out) (s0 : S) (fine : op -> Prop) : Prop := {
  ks_get : forall h t key handle, clock t h -> Forall (fun e => fine (snd e)) h -> fine (GetA key (Some handle)) ->
    exists o, answer step s0 h t (GetA key (Some handle)) = Got o /\
      good_at t o = good_at t (stored key handle h) /\ (forall a, o = Some a -> stored key handle h = Some a);
  ks_remove : forall h t key handle, clock t h -> Forall (fun e => fine (snd e)) h -> fine (RemoveA key handle) ->
    exists b, answer step s0 h t (RemoveA key handle) = Flag b;
  ks_store : forall h t key a, clock t h -> Forall (fun e => fine (snd e)) h -> fine (StoreA key a) ->
    answer step s0 h t (StoreA key a) = Done
}.

Lemma good_at_idem t o : good_at t (good_at t o) = good_at t o.
Proof. destruct o as [a|]; simpl; auto. destruct (t <? _) eqn:E; simpl; auto. rewrite E. auto. Qed.
Lemma good_at_Some t o a : good_at t o = Some a -> o = Some a.
Proof. destruct o as [b|]; simpl; [|discriminate]. destruct (t <? _); congruence. Qed.
Lemma good_at_mono t t' o : t <= t' -> good_at t o = None -> good_at t' o = None.
Proof. destruct o as [b|]; simpl; auto. destruct (t <? _) eqn:E; [discriminate|]. destruct (t' <? _) eqn:E'; [lia|auto]. Qed.

Lemma kept_stored h : forall t url handle, clock t h ->
  (forall a, kept url handle h = Some a -> stored url handle h = Some a) /\
  good_at t (kept url handle h) = good_at t (stored url handle h).
Proof.
  induction h as [|[t0 o] h IH]; intros t url handle C; cbn [kept stored]; auto. destruct C as (C1 & C2).
  assert ((forall a, kept url handle h = Some a -> stored url handle h = Some a) /\
          good_at t (kept url handle h) = good_at t (stored url handle h)) as (I1 & I2).
  { destruct (IH t0 url handle C2) as (I1 & I2). split; auto.
    destruct (kept url handle h) as [a|] eqn:K. { rewrite (I1 _ eq_refl). auto. }
    simpl. symmetry. apply (good_at_mono t0); auto. }
  destruct o as [url' a'|url' h'|url' h'|url' ts salt| |]; auto.
  - destruct (_ && _); auto.
  - destruct (_ && _); auto.
  - destruct (kept url handle h) as [a|] eqn:K; auto. destruct (_ <=? t0) eqn:L; auto. split; [discriminate|].
    rewrite <- I2. simpl. destruct (t <? _) eqn:E; auto. lia.
Qed.

Theorem keeps_memory : keeps mem_step mem_init (fun _ => True).
Proof.
  split.
  - intros h t key handle C _ _. destruct (kept_stored h t key handle C) as (K1 & K2).
    exists (kept key handle h). rewrite C22_get_memory. auto.
  - intros h t key handle _ _ _. destruct (C22_remove_memory h t key handle) as (b & E & _). eauto.
  - reflexivity.
Qed.

Definition sql_fine (o : op) : Prop :=
  sql_op o /\ match o with GetA k (Some x) | RemoveA k x => Prop_StoreSql.sendable k /\ Prop_StoreSql.sendable x | _ => True end.
Theorem keeps_sql : keeps Prop_StoreSql.lite sql_init sql_fine.
Proof.
  assert (forall h, Forall (fun e : Z * op => sql_fine (snd e)) h -> sql_history h) as H0.
  { intros h. apply Forall_impl. intros e (X & _). exact X. }
  split.
  - intros h t key handle C F (_ & Sk & Sh). exists (good_at t (stored key handle h)).
    rewrite C22_get_sql; auto. split; auto. split; [apply good_at_idem|]. intros a. apply good_at_Some.
  - intros h t key handle C F (_ & Sk & Sh). destruct (C22_remove_sql h t key handle) as (b & E & _); eauto.
  - intros h t key a C F ((Su & Sh & Kt) & _). unfold answer. cbn [sql_step]. unfold txn_storeAssociation.
    destruct Su as (bu & ->), Sh as (bh & ->). destruct Kt as [Kt|Kt]; rewrite Kt; reflexivity.
Qed.

(** For the file store the texts used come from a list that sha1 keeps apart, and handles are not empty. *)
Definition file_fine (T : list text) (o : op) : Prop :=
  file_op o /\ incl (op_texts o) T /\ match o with GetA _ (Some x) | RemoveA _ x => x <> [] | _ => True end.
Lemma file_fine_texts T h : Forall (fun e : Z * op => file_fine T (snd e)) h -> file_history h /\ incl (texts h) T.
Proof.
  induction 1 as [|e h (H1 & H2 & _) _ (I1 & I2)]; [split; [constructor|intros x []]|]. split; [constructor; auto|].
  intros x Hx. apply in_app_or in Hx as [Hx|Hx]; auto.
Qed.
Lemma distinct_incl sha1 T T' : incl T' T -> distinct_on sha1 T -> distinct_on sha1 T'.
Proof. intros I D a b x y Ha Hb. apply D; auto. Qed.
Theorem keeps_file : forall sha1 T, digest20 sha1 -> distinct_on sha1 T -> keeps (file_step sha1) fs_init (file_fine T).
Proof.
  intros sha1 T D X.
  assert (forall h (t : Z) o, Forall (fun e : Z * op => file_fine T (snd e)) h -> file_fine T o -> distinct_on sha1 (texts ((t, o) :: h))) as X'.
  { intros h t o F (_ & I & _). apply file_fine_texts in F as (_ & F). apply (distinct_incl sha1 T); auto.
    intros x Hx. apply in_app_or in Hx as [Hx|Hx]; auto. }
  split.
  - intros h t key handle C F Fo. pose proof (X' h t _ F Fo) as Xo. destruct Fo as (Fo & _ & Ne). apply file_fine_texts in F as (F & _).
    exists (good_at t (stored key handle h)). rewrite C22_get_file; auto. split; auto. split; [apply good_at_idem|]. intros a. apply good_at_Some.
  - intros h t key handle C F Fo. pose proof (X' h t _ F Fo) as Xo. destruct Fo as (Fo & _ & Ne). apply file_fine_texts in F as (F & _).
    destruct (C22_remove_file sha1 D h t key handle) as (b & E & _); eauto.
  - intros h t key a C F ((Hu & Ha) & I & _). unfold answer. cbn [file_step].
    destruct (store_plan_ok sha1 D T key a Hu Ha) as ([name data] & SP & P & _); [apply I; simpl; auto|apply I; simpl; auto|].
    unfold file_store. rewrite SP. cbn [bind fst snd]. cbn [fst] in P. rewrite P. reflexivity.
Qed.
