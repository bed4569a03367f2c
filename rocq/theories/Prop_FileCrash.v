(** C24: storeAssociation interrupted. *)
From Coq Require Import Lia ZifyBool ZifyN ZifyNat.
From Verif Require Import Py PyFacts Utf8 Utf8Facts CryptUtil CryptUtilFacts KVForm Prop_KVForm Association AssociationFacts Prop_Association.
From Verif Require Import Nonce Store StoreSpec StoreFacts FileStore FileStoreFacts Prop_StoreMem Prop_StoreSql Prop_FileNames Prop_StoreFile FileCrash.
Open Scope Z_scope.
Local Arguments u : simpl never.

Definition clean (s : fstore) : disk := mkDisk (f_assocs s) None None.

Lemma exec_writes name bs : forall d k p, d_temp d = Some (k, p) ->
  fold_left (sys_exec name) (map SWrite bs) d = mkDisk (d_assocs d) (Some (k ++ concat bs, p)) (d_synced d).
Proof.
  induction bs as [|b bs IH]; intros d k p H; simpl.
  - rewrite app_nil_r. destruct d; simpl in *; subst; auto.
  - rewrite H. rewrite (IH _ (k ++ b) p) by auto. simpl. rewrite app_assoc. auto.
Qed.
(** Before the rename the directory is untouched. *)
Lemma exec_before name cs : Forall (fun c => match c with SRename | SUnlinkTarget => False | _ => True end) cs ->
  forall d, d_assocs (fold_left (sys_exec name) cs d) = d_assocs d.
Proof.
  induction 1 as [|c cs H F IH]; intros d; auto. simpl. rewrite IH. destruct c; simpl; auto; try contradiction; destruct (d_temp d) as [[]|]; auto.
Qed.
Lemma exec_synced name cs : Forall (fun c => match c with SRename => False | _ => True end) cs ->
  forall d, d_synced (fold_left (sys_exec name) cs d) = d_synced d.
Proof.
  induction 1 as [|c cs H F IH]; intros d; auto. simpl. rewrite IH. destruct c; simpl; auto; try contradiction; destruct (d_temp d) as [[]|]; auto.
Qed.
Definition body (early late : list bytes) := [SCreate] ++ map SWrite early ++ [SFsync] ++ map SWrite late ++ [SClose].
Lemma body_quiet early late : Forall (fun c => match c with SRename | SUnlinkTarget => False | _ => True end) (body early late).
Proof.
  assert (forall bs, Forall (fun c => match c with SRename | SUnlinkTarget => False | _ => True end) (map SWrite bs)) as W.
  { induction bs; simpl; constructor; auto. }
  unfold body. repeat (apply Forall_app; split); auto; repeat constructor.
Qed.
Lemma body_temp name early late d : 
  fold_left (sys_exec name) (body early late) d = mkDisk (d_assocs d) (Some (concat (early ++ late), concat early)) (d_synced d).
Proof.
  unfold body. rewrite !fold_left_app. cbn [fold_left sys_exec]. erewrite (exec_writes name early) by (simpl; eauto). cbn [d_assocs d_temp d_synced app].
  erewrite (exec_writes name late) by (simpl; eauto). cbn [d_assocs d_temp d_synced]. rewrite concat_app. auto.
Qed.
Lemma Forall_firstn {A} (P : A -> Prop) n l : Forall P l -> Forall P (firstn n l).
Proof. intros H. revert n. induction H; intros [|n]; simpl; constructor; auto. Qed.

(** All outcomes when os.rename replaces the target. *)
Lemma posix_outcomes name target early late s stop :
  let d := interrupted name (clean s) (store_calls true target early late) stop in
  (d_assocs d = f_assocs s /\ d_synced d = None) \/
  (d_assocs d = dset text_eqb name (concat (early ++ late)) (f_assocs s) /\ d_synced d = Some (concat early)).
Proof.
  assert (store_calls true target early late = body early late ++ [SRename]) as E by (unfold store_calls, body; rewrite <- !app_assoc; auto).
  assert (forall n, (let d := fold_left (sys_exec name) (firstn n (store_calls true target early late)) (clean s) in
    (d_assocs d = f_assocs s /\ d_synced d = None) \/
    (d_assocs d = dset text_eqb name (concat (early ++ late)) (f_assocs s) /\ d_synced d = Some (concat early)))) as K.
  { intros n d. unfold d. rewrite E, firstn_app, fold_left_app. destruct (n - length (body early late))%nat as [|m] eqn:L; cbn [firstn fold_left].
    - left. split; [rewrite exec_before; auto; apply Forall_firstn, body_quiet|]. rewrite exec_synced; auto.
      eapply Forall_impl; [|apply Forall_firstn, body_quiet]. intros []; auto.
    - right. replace (firstn m (@nil syscall)) with (@nil syscall) by (destruct m; auto). rewrite firstn_all2 by lia.
      cbn [fold_left]. rewrite body_temp. simpl. auto. }
  intros d. unfold d. destruct stop as [n|n]; simpl; apply K.
Qed.

(** Killed or failing at any point, whatever the buffering: the directory is as before or as
    after the complete call, and so is every later answer. *)
Theorem C24_atomic :
  forall sha1 s url a name data early late stop,
    store_plan sha1 url a = Ok (name, data) -> path_ok name = true -> concat (early ++ late) = data ->
    let d := interrupted name (clean s) (store_calls true (dhas text_eqb name (f_assocs s)) early late) stop in
    exists s', (s' = s \/ file_store sha1 s url a = Ok s') /\ d_assocs d = f_assocs s' /\
      forall t o, file_step sha1 (mkFs (d_assocs d) (f_nonces s)) t o = file_step sha1 s' t o.
Proof.
  intros sha1 s url a name data early late stop SP P C d.
  destruct (posix_outcomes name (dhas text_eqb name (f_assocs s)) early late s stop) as [(E & _)|(E & _)]; fold d in E.
  - exists s. split; auto. split; auto. rewrite E. destruct s. auto.
  - exists (mkFs (d_assocs d) (f_nonces s)). split; [right|auto]. unfold file_store. rewrite SP. cbn [bind fst snd]. subst data. rewrite P, E. auto.
Qed.
(** So for a history of calls, the last of them a storeAssociation that was interrupted: the
    stored association is there completely or the call never happened. *)
Theorem C24_history :
  forall sha1, digest20 sha1 -> forall h t url a early late stop t' url' handle',
    distinct_on sha1 (texts ((t', GetA url' (Some handle')) :: (t, StoreA url a) :: h)) -> clock t' ((t, StoreA url a) :: h) ->
    file_history h -> file_op (StoreA url a) -> file_op (GetA url' (Some handle')) -> handle' <> [] ->
    forall name data, store_plan sha1 url a = Ok (name, data) -> concat (early ++ late) = data ->
    let s := after (file_step sha1) fs_init h in
    let d := interrupted name (clean s) (store_calls true (dhas text_eqb name (f_assocs s)) early late) stop in
    let r := snd (file_step sha1 (mkFs (d_assocs d) (f_nonces s)) t' (GetA url' (Some handle'))) in
    r = Got (good_at t' (stored url' handle' h)) \/ r = Got (good_at t' (stored url' handle' ((t, StoreA url a) :: h))).
Proof.
  intros sha1 D h t url a early late stop t' url' handle' X C K O1 O2 Ne name data SP Cc s d r.
  assert (path_ok name = true) as P.
  { destruct O1 as (Hu & Ha). destruct (fname_ok sha1 D url (a_handle a) Hu) as (name' & N & P); [apply Ha|].
    unfold store_plan in SP. binv SP. binv SP. binv SP. inv SP. congruence. }
  destruct (C24_atomic sha1 s url a name data early late stop SP P Cc) as (s' & S & E & F). unfold r, d. rewrite F.
  assert (distinct_on sha1 (texts ((t', GetA url' (Some handle')) :: h))) as X'.
  { intros x y bx b Hx Hy. apply X; unfold texts in *; simpl in *; tauto. }
  destruct S as [->|S].
  - left. apply C22_get_file; auto. eapply clock_le; [|apply C]. apply C.
  - right. assert (s' = after (file_step sha1) fs_init ((t, StoreA url a) :: h)) as ->.
    { cbn [after file_step]. fold s. rewrite S. auto. }
    apply C22_get_file; auto. constructor; auto.
Qed.
(** What cannot be read is dropped, not returned. *)
Theorem C24_unreadable :
  forall d t name data, dget text_eqb name d = Some data -> path_ok name = true ->
    (forall a, read_assoc data <> Ok (Some a)) ->
    forall d' o, get_file d t name = Ok (d', o) -> o = None /\ d' = ddel text_eqb name d.
Proof.
  intros d t name data G P R d' o H. unfold get_file in H. rewrite P, G in H. cbn [negb] in H. binv H.
  destruct a as [a|]; [destruct (R a); auto|]. inv H. auto.
Qed.
(** If the whole record had reached the kernel before os.fsync, a power cut would not tear it either. *)
Theorem C24_power_flushed :
  forall name target early s stop, NoDup (dkeys (f_assocs s)) ->
    let d := interrupted name (clean s) (store_calls true target early []) stop in
    power_cut name d = f_assocs s \/ power_cut name d = dset text_eqb name (concat early) (f_assocs s).
Proof.
  intros name target early s stop N d.
  destruct (posix_outcomes name target early [] s stop) as [(E1 & E2)|(E1 & E2)]; fold d in E1, E2; unfold power_cut; rewrite E1, E2; auto.
  right. rewrite app_nil_r. clear. induction (f_assocs s) as [|[k v] l IH]; simpl.
  - rewrite text_eqb_refl. auto.
  - destruct (text_eqb name k) eqn:Q; simpl; rewrite Q; auto. f_equal. auto.
Qed.
Print Assumptions C24_atomic.
Print Assumptions C24_history.
Print Assumptions C24_unreadable.
Print Assumptions C24_power_flushed.

(** But Python's writer still holds the record when os.fsync runs, so a power cut after the
    rename leaves an empty file: the new association is lost and so is the one it replaced. *)
Theorem C81_power_refuted :
  exists h url a, file_history h /\ file_op (StoreA url a) /\ forall sha1, digest20 sha1 -> exists name data early late,
    store_plan sha1 url a = Ok (name, data) /\ concat (early ++ late) = data /\ (N.of_nat (length data) <= 8192)%N /\ early = [] /\
    let s := after (file_step sha1) fs_init h in
    let d := interrupted name (clean s) (store_calls true (dhas text_eqb name (f_assocs s)) early late) (Killed 100) in
    good_at 12 (stored url (a_handle a) h) <> None /\
    snd (file_step sha1 (mkFs (power_cut name d) (f_nonces s)) 12 (GetA url (Some (a_handle a)))) = Got None.
Proof.
  exists [(10, StoreA (u "http://a/") (ex_assoc (u "h") 10 100))], (u "http://a/"), (ex_assoc (u "h") 11 100).
  assert (forall i, file_op (StoreA (u "http://a/") (ex_assoc (u "h") i 100))) as O.
  { intros i. split.
    - split; [exists (u "http://a/"); reflexivity|]. exists (u "http"), (u "a/"). split; [vm_compute; reflexivity|].
      split; [|split]; intros H; vm_compute in H; intuition discriminate.
    - split; [exists (u "h"); reflexivity|]. split; [discriminate|]. split; [repeat constructor|]. split; [left; reflexivity|].
      split; [|intros H; vm_compute in H; intuition discriminate].
      change (a_handle (ex_assoc (u "h") i 100)) with [104%N].
      intros [(c & r & H & W)|(c & r & H & W)].
      + inv H. apply C02_white in W. discriminate.
      + destruct r as [|x [|y r]]; inv H. apply C02_white in W. discriminate. }
  split; [apply Forall_cons; [apply O|apply Forall_nil]|]. split; auto. intros sha1 D.
  destruct (fname_ok sha1 D (u "http://a/") (u "h")) as (name & N & P); [apply (O 0)|exists (u "h"); reflexivity|].
  assert (forall i data, (s <- serialize (ex_assoc (u "h") i 100) ;; encode s) = Ok data -> store_plan sha1 (u "http://a/") (ex_assoc (u "h") i 100) = Ok (name, data)) as SP.
  { intros i data H. binv H. unfold store_plan. rewrite E. cbn [bind]. change (a_handle (ex_assoc (u "h") i 100)) with (u "h"). rewrite N. cbn [bind]. rewrite H. auto. }
  assert (exists d10, (s <- serialize (ex_assoc (u "h") 10 100) ;; encode s) = Ok d10) as (d10 & E10) by (eexists; vm_compute; reflexivity).
  assert (exists d11, (s <- serialize (ex_assoc (u "h") 11 100) ;; encode s) = Ok d11 /\ (N.of_nat (length d11) <= 8192)%N) as (d11 & E11 & L11).
  { eexists. split; [vm_compute; reflexivity|]. vm_compute. discriminate. }
  exists name, d11, [], [d11]. split; [apply SP; auto|]. split; [simpl; apply app_nil_r|]. split; auto. split; auto. intros s d.
  split; [vm_compute; discriminate|]. change (a_handle (ex_assoc (u "h") 11 100)) with (u "h").
  assert (s = mkFs [(name, d10)] []) as S.
  { unfold s. cbn [after file_step]. unfold file_store. rewrite (SP _ _ E10). cbn [bind fst snd]. rewrite P. reflexivity. }
  unfold d. rewrite S. unfold store_calls, interrupted, clean. cbn [f_assocs f_nonces].
  cbn [negb andb app map firstn fold_left sys_exec d_assocs d_temp d_synced dset]. rewrite text_eqb_refl. unfold power_cut. cbn [d_synced d_assocs dset].
  rewrite text_eqb_refl. cbn [file_step]. unfold file_get. rewrite N. change (truthy (u "h")) with true. cbn iota.
  unfold get_file. rewrite P. cbn [negb f_assocs dget]. rewrite text_eqb_refl. reflexivity.
Qed.
Print Assumptions C81_power_refuted.
(** On systems where os.rename does not replace, a crash can lose both. *)
Theorem C81_windows_refuted :
  exists s name early late stop old,
    dget text_eqb name (f_assocs s) = Some old /\
    d_assocs (interrupted name (clean s) (store_calls false true early late) stop) = [].
Proof. exists (mkFs [(u "n", u "old")] []), (u "n"), [], [u "new"], (Killed 5), (u "old"). split; vm_compute; reflexivity. Qed.
Print Assumptions C81_windows_refuted.
Example C24_example :
  let calls := store_calls true true [u "sec"] [u "ret"; u ":x"] in
  let s := mkFs [(u "n", u "old"); (u "m", u "other")] [] in
  d_assocs (interrupted (u "n") (clean s) calls (Killed 6)) = f_assocs s /\
  d_assocs (interrupted (u "n") (clean s) calls (Failed 4)) = f_assocs s /\
  d_assocs (interrupted (u "n") (clean s) calls (Killed 7)) = [(u "n", u "secret:x"); (u "m", u "other")].
Proof. split; [vm_compute; reflexivity|split; [vm_compute; reflexivity|vm_compute; reflexivity]]. Qed.
