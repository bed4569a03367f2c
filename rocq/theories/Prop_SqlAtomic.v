(** C172-C176: overlapping calls of the SQL stores. *)
From Coq Require Import Lia ZifyBool ZifyN ZifyNat Permutation.
From Verif Require Import Py PyFacts Utf8 Utf8Facts Association AssociationFacts Prop_Association Nonce Store StoreSpec StoreFacts FileStore FileSys FileAtomic Prop_FileAtomic.
From Verif Require Import Prop_StoreMem Prop_StoreSql SqlTxn Prop_SqlTxn SqlConc Prop_SqlConc SqlAtomicFacts.
Import Py Store SqlTxn SqlConc.
Open Scope Z_scope.
Local Arguments u : simpl never.

(** The stores that have a REPLACE statement and whose keys hold the whole URL: SQLite. *)
Definition keyed_replace (d : dialect) : Prop :=
  d_replace d = true /\ (forall x y, d_pk d x = d_pk d y -> x = y) /\ refuses d.
Lemma sqlite_keyed : keyed_replace sqlite /\ keyed_replace old_sqlite.
Proof.
  split; (split; [reflexivity|]); (split; [intros x y H; exact H|]); [left; reflexivity|right]. eexists. split; [reflexivity|]. split; vm_compute; reflexivity.
Qed.

(** C172: the calls could have had their effects one at a time: for every run, with failing calls
    and dying processes, the machine of FileAtomic.v has a run with the same calls, times and
    answers in the same order. *)
Theorem C172_atomic :
  forall d procs now ls, keyed_replace d -> Forall (label_ok d) ls ->
    exists A, asteps (a_init now) A /\ a_log A = trace d procs (sys_init now) ls [].
Proof.
  intros d procs now ls (R & W & Rf) Ok. destruct (run_sim d procs R W Rf ls Ok (sys_init now) (a_init now) (init_sim d procs now)) as (A & S & L & _). eauto.
Qed.
Print Assumptions C172_atomic.

(** C173: a change is visible to every lookup after it, as C167 says of the file store. *)
Theorem C173_visible :
  forall d procs now ls, keyed_replace d -> Forall (label_ok d) ls ->
    forall url h i t0 o0 t r0 j t1 t2 r l4 l3 l2 m2 m1,
      trace d procs (sys_init now) ls [] =
        l4 ++ Ended j t2 (GetA url (Some h)) r :: l3 ++ Began j t1 (GetA url (Some h)) :: l2 ++ Ended i t o0 r0 :: m2 ++ Began i t0 o0 :: m1 ->
      h <> [] -> touches url h o0 = true -> r0 <> Err OSError ->
      (forall k o, k <> i -> running m1 k = Some o -> touches url h o = false) ->
      (forall k t' o, In (Began k t' o) (l3 ++ l2 ++ m2) -> touches url h o = false) -> (forall t' o, ~ In (Began j t' o) l3) ->
      unexpired url h t2 (l3 ++ Began j t1 (GetA url (Some h)) :: l2 ++ Ended i t o0 r0 :: m2 ++ Began i t0 o0 :: m1) ->
      r = Got (leaves o0) \/ r = Err OSError.
Proof.
  intros d procs now ls K Ok url h i t0 o0 t r0 j t1 t2 r l4 l3 l2 m2 m1 L Ne To Nf Al St Nj Un.
  destruct (C172_atomic d procs now ls K Ok) as (A & S & La). rewrite L in La.
  apply (rlog_all url h i t0 o0 m1 Ne To Al now A S l4 j t2 r (l3 ++ Began j t1 (GetA url (Some h)) :: l2 ++ Ended i t o0 r0 :: m2)).
  - rewrite La. rewrite <- !app_assoc. cbn. rewrite <- !app_assoc. auto.
  - intros k t' o H. rewrite !in_app_iff in H. cbn in H. rewrite in_app_iff in H. cbn in H.
    destruct H as [H|[H|[H|[H|H]]]]; try discriminate; [|inv H; auto| |]; apply (St k t' o); rewrite !in_app_iff; auto.
  - exists l3, t1, (l2 ++ Ended i t o0 r0 :: m2), t, r0. split; auto. split; auto. split; auto. apply in_or_app. right. left. auto.
  - rewrite <- !app_assoc. cbn. rewrite <- !app_assoc. exact Un.
Qed.
Print Assumptions C173_visible.

(** C174: nonces, as C168 says of the file store. *)
Theorem C174_nonce_once :
  forall d procs now ls, keyed_replace d -> Forall (label_ok d) ls ->
    forall l3 i t url ts salt l2, trace d procs (sys_init now) ls [] = l3 ++ Ended i t (UseN url ts salt) (Flag true) :: l2 ->
      forall i' t', In (Ended i' t' (UseN url ts salt) (Flag true)) l2 -> ts + 18000 < t /\ exists k t'', In (Began k t'' CleanN) l2.
Proof.
  intros d procs now ls K Ok l3 i t url ts salt l2 L i' t' H. destruct (C172_atomic d procs now ls K Ok) as (A & S & La). rewrite L in La. apply in_split in H as (l2' & l1 & ->).
  destruct (ninv_all url ts salt now A S) as (_ & _ & I). apply (I l3 i t l2' i' t' l1 La).
Qed.
Print Assumptions C174_nonce_once.

(** ** Examples and limits *)
Definition whole_call (i : nat) : list label := [Step i; Step i; Step i].
Definition sql_url : text := u "http://a/".
Definition sql_h : text := u "h1".
Lemma sql_sent issued lifetime : sent_op (StoreA sql_url (ex_assoc sql_h issued lifetime)).
Proof. split; [exists sql_url; reflexivity|]. split; [exists sql_h; reflexivity|left; reflexivity]. Qed.
Lemma sql_sent_get : sent_op (GetA sql_url (Some sql_h)).
Proof. split; [exists sql_url; reflexivity|]. intros x E. injection E as <-. exists sql_h. reflexivity. Qed.
Lemma sql_sent_rem : sent_op (RemoveA sql_url sql_h).
Proof. split; eexists; reflexivity. Qed.
(** Two processes remove the same association: the second waits until the first has committed;
    a third process, storing meanwhile, waits as well. *)
Definition sql_example_run : list label :=
  Call 1 (StoreA sql_url (ex_assoc sql_h 0 100)) :: whole_call 1 ++
  [Call 1 (RemoveA sql_url sql_h); Call 2 (RemoveA sql_url sql_h); Call 3 (StoreA sql_url (ex_assoc sql_h 1 100)); Step 1; Step 2; Step 3; Step 1; Step 2; Step 3; Step 1; Step 2; Step 3; Step 2; Step 3;
   Call 1 (GetA sql_url (Some sql_h)); Step 1; Step 1; Fail 1 (u "disk I/O error")].
Example C172_example :
  Forall (label_ok sqlite) sql_example_run /\
  map (fun e => match e with Ended i _ _ r => Some (i, r) | _ => None end) (trace sqlite [1; 2; 3]%nat (sys_init 0) sql_example_run []) =
    [Some (1%nat, Err OSError); None; Some (3%nat, Done); Some (2%nat, Flag false); Some (1%nat, Flag true); None; None; None; Some (1%nat, Done); None].
Proof.
  split; [|vm_compute; reflexivity]. repeat (apply Forall_cons || apply Forall_nil); cbn [label_ok]; auto using sql_sent, sql_sent_get, sql_sent_rem. intros _. vm_compute. reflexivity.
Qed.

Definition sql_calm (l : label) : Prop := match l with Fail _ _ | Lose _ _ | Crash _ | Call _ (RemoveA _ _) => False | _ => True end.
(** C175: a stored association can be lost although nothing removes it and it has not expired:
    process 2 finds that the predecessor has expired, process 3 stores the new one, and process 2
    deletes what is stored under the handle. *)
Definition sql_lost_run : list label :=
  Call 1 (StoreA sql_url (ex_assoc sql_h 0 10)) :: whole_call 1 ++ [Tick 20; Call 2 (GetA sql_url (Some sql_h)); Step 2; Step 2; Call 3 (StoreA sql_url (ex_assoc sql_h 20 100))] ++ whole_call 3 ++
  [Step 2; Step 2; Call 1 (GetA sql_url (Some sql_h))] ++ whole_call 1.
Theorem C175_lost_refuted :
  exists d procs ls url a, keyed_replace d /\ Forall (label_ok d) ls /\ Forall sql_calm ls /\
    exists i t j t1 t2 before, trace d procs (sys_init 0) ls [] = Ended j t2 (GetA url (Some (a_handle a))) (Got None) :: Began j t1 (GetA url (Some (a_handle a))) :: before /\
      In (Ended i t (StoreA url a) Done) before /\ a_handle a <> [] /\ t2 < a_issued a + a_lifetime a.
Proof.
  exists sqlite, [1; 2; 3]%nat, sql_lost_run, sql_url, (ex_assoc sql_h 20 100). split; [apply sqlite_keyed|]. split; [|split].
  - repeat (apply Forall_cons || apply Forall_nil); cbn [label_ok]; auto using sql_sent, sql_sent_get.
  - repeat (apply Forall_cons || apply Forall_nil); cbn; auto.
  - exists 3%nat, 20, 1%nat, 20, 20, (tl (tl (trace sqlite [1; 2; 3]%nat (sys_init 0) sql_lost_run []))). split; [vm_compute; reflexivity|]. split; [|split; [discriminate|reflexivity]].
    vm_compute. right. left. reflexivity.
Qed.
Print Assumptions C175_lost_refuted.
(** C176: on PostgreSQL storeAssociation can return without having stored anything: it finds
    the expired predecessor, process 3 cleans up, and then there is no row to update. *)
Definition pg_lost_run : list label :=
  Call 1 (StoreA sql_url (ex_assoc sql_h 0 10)) :: Step 1 :: whole_call 1 ++ [Tick 20; Call 2 (StoreA sql_url (ex_assoc sql_h 20 100)); Step 2; Step 2; Call 3 CleanA] ++ whole_call 3 ++
  [Step 2; Step 2; Call 1 (GetA sql_url (Some sql_h))] ++ whole_call 1.
Theorem C176_postgresql_lost_refuted :
  exists procs ls url a, Forall (label_ok postgresql) ls /\ Forall sql_calm ls /\
    exists i t j t1 t2 before, trace postgresql procs (sys_init 0) ls [] =
      Ended j t2 (GetA url (Some (a_handle a))) (Got None) :: Began j t1 (GetA url (Some (a_handle a))) :: Ended i t (StoreA url a) Done :: before /\
      a_handle a <> [] /\ t2 < a_issued a + a_lifetime a.
Proof.
  exists [1; 2; 3]%nat, pg_lost_run, sql_url, (ex_assoc sql_h 20 100). split; [|split].
  - repeat (apply Forall_cons || apply Forall_nil); cbn [label_ok]; auto using sql_sent, sql_sent_get. exact I.
  - repeat (apply Forall_cons || apply Forall_nil); cbn; auto.
  - exists 2%nat, 20, 1%nat, 20, 20, (skipn 3 (trace postgresql [1; 2; 3]%nat (sys_init 0) pg_lost_run [])). split; [vm_compute; reflexivity|]. split; [discriminate|reflexivity].
Qed.
Print Assumptions C176_postgresql_lost_refuted.
