(** C19, and C22, C23, C26 for the memory store. *)
From Coq Require Import Lia ZifyBool ZifyN ZifyNat.
From Verif Require Import Py PyFacts Association Nonce Store StoreSpec StoreFacts.
Open Scope Z_scope.
Local Arguments u : simpl never.

Definition mem_view (s : mem) (url h : text) : option assoc :=
  match dget text_eqb url (m_assocs s) with
  | Some d => dget text_eqb h d
  | None => None
  end.
Definition sa_wf (d : sassocs) : Prop :=
  NoDup (dkeys d) /\ forall h a, dget text_eqb h d = Some a -> a_handle a = h.
Definition mem_wf (s : mem) : Prop :=
  NoDup (dkeys (m_assocs s)) /\ (forall url d, dget text_eqb url (m_assocs s) = Some d -> sa_wf d) /\ NoDup (m_nonces s).

Lemma sa_nil : sa_wf [].
Proof. split; [constructor|discriminate]. Qed.

(** The entry of a server, created when missing. *)
Lemma getServer_spec s url : mem_wf s ->
  let '(s1, d) := getServerAssocs s url in
  mem_wf s1 /\ sa_wf d /\ m_nonces s1 = m_nonces s /\
  (forall h, mem_view s url h = dget text_eqb h d) /\
  (forall url' h, mem_view s1 url' h = mem_view s url' h) /\
  dget text_eqb url (m_assocs s1) = Some d.
Proof.
  intros (W1 & W2 & W3). unfold getServerAssocs. destruct (dget text_eqb url (m_assocs s)) as [d|] eqn:E.
  - repeat split; auto; try (eapply W2; eauto); try apply (W2 _ _ H). intros h. unfold mem_view. rewrite E. auto.
  - assert (forall url', dget text_eqb url' (dset text_eqb url [] (m_assocs s)) =
                         if text_eqb url' url then Some [] else dget text_eqb url' (m_assocs s)) as D.
    { intros. rewrite (dget_dset text_eqb text_eqb_eq). destruct (text_eqb url' url); auto. }
    split; [|split; [apply sa_nil|split; [auto|split; [|split]]]].
    + split; [apply (NoDup_dset text_eqb text_eqb_eq); auto|split; auto]. simpl. intros url' d. rewrite D.
      destruct (text_eqb url' url); [|apply W2]. intros H. inv H. apply sa_nil.
    + intros h. unfold mem_view. rewrite E. auto.
    + intros url' h. unfold mem_view. simpl. rewrite D. destruct (text_eqb url' url) eqn:Q; auto.
      apply text_eqb_eq in Q. subst. rewrite E. auto.
    + simpl. rewrite D, text_eqb_refl. auto.
Qed.
Lemma putServer_wf s url d : mem_wf s -> sa_wf d -> mem_wf (putServerAssocs s url d).
Proof.
  intros (W1 & W2 & W3) Wd. unfold putServerAssocs. split; [apply (NoDup_dset text_eqb text_eqb_eq); auto|split; auto].
  simpl. intros url' d'. rewrite (dget_dset text_eqb text_eqb_eq). destruct (text_eqb url' url); [|apply W2].
  intros H; inv H; auto.
Qed.
Lemma putServer_view s url d url' h :
  mem_view (putServerAssocs s url d) url' h = if text_eqb url' url then dget text_eqb h d else mem_view s url' h.
Proof.
  unfold mem_view, putServerAssocs. simpl. rewrite (dget_dset text_eqb text_eqb_eq). destruct (text_eqb url' url); auto.
Qed.

Lemma sa_set_wf d a : sa_wf d -> sa_wf (sa_set d a).
Proof.
  intros (W1 & W2). split; [apply (NoDup_dset text_eqb text_eqb_eq); auto|]. intros h b. unfold sa_set.
  rewrite (dget_dset text_eqb text_eqb_eq). destruct (text_eqb h (a_handle a)) eqn:E; [|apply W2].
  apply text_eqb_eq in E. intros H; inv H; auto.
Qed.
Lemma sa_remove_spec d h : sa_wf d ->
  let '(d', b) := sa_remove d h in
  sa_wf d' /\ (b = true <-> dget text_eqb h d <> None) /\
  (forall h', dget text_eqb h' d' = if text_eqb h' h then None else dget text_eqb h' d).
Proof.
  intros (W1 & W2). unfold sa_remove, dhas. destruct (dget text_eqb h d) as [a|] eqn:E.
  - repeat split; try congruence.
    + apply NoDup_ddel; auto.
    + intros h' b. rewrite (dget_ddel text_eqb text_eqb_eq) by auto. destruct (text_eqb h' h); [discriminate|apply W2].
    + intros h'. apply (dget_ddel text_eqb text_eqb_eq); auto.
  - repeat split; auto; try congruence. intros h'. destruct (text_eqb h' h) eqn:Q; auto. apply text_eqb_eq in Q. congruence.
Qed.
Lemma sa_cleanup_spec now d : sa_wf d ->
  sa_wf (fst (sa_cleanup now d)) /\
  snd (sa_cleanup now d) = length (filter (fun p => expired (snd p) now) d) /\
  (forall h, dget text_eqb h (fst (sa_cleanup now d)) =
     match dget text_eqb h d with Some a => if expired a now then None else Some a | None => None end).
Proof.
  intros (W1 & W2). unfold sa_cleanup. cbn [fst snd]. rewrite map_length.
  assert (forall h, dget text_eqb h (fold_left (fun d k => ddel text_eqb k d) (map fst (filter (fun p => expired (snd p) now) d)) d) =
     match dget text_eqb h d with Some a => if expired a now then None else Some a | None => None end) as G.
  { intros h. rewrite dget_dels by auto.
    destruct (mem_text h (map fst (filter (fun p => expired (snd p) now) d))) eqn:M.
    - apply mem_text_In, in_map_iff in M as ([h' a] & E & Hin). simpl in E. subst h'.
      apply filter_In in Hin as (Hin & X). simpl in X. rewrite (In_dget text_eqb text_eqb_eq _ _ _ W1 Hin), X. auto.
    - destruct (dget text_eqb h d) as [a|] eqn:E; auto. destruct (expired a now) eqn:X; auto.
      exfalso. apply mem_text_false in M. apply M. apply in_map_iff. exists (h, a). split; auto.
      apply filter_In. split; auto. apply (dget_In text_eqb text_eqb_eq); auto. }
  split; [|split; auto]. split; [apply NoDup_dels; auto|]. intros h a H. rewrite G in H.
  destruct (dget text_eqb h d) as [b|] eqn:E; [|discriminate]. destruct (expired b now); inv H. eapply W2; eauto.
Qed.

Lemma dget_map {V W} (f : V -> W) k (d : dict text V) :
  dget text_eqb k (map (fun p => (fst p, f (snd p))) d) = match dget text_eqb k d with Some v => Some (f v) | None => None end.
Proof. induction d as [|[k' v] d IH]; simpl; auto. destruct (text_eqb k k'); auto. Qed.
Lemma dkeys_map {V W} (f : V -> W) (d : dict text V) : dkeys (map (fun p => (fst p, f (snd p))) d) = dkeys d.
Proof. unfold dkeys. rewrite map_map. reflexivity. Qed.

Lemma mem_cleanup_spec s now : mem_wf s ->
  let s' := fst (mem_cleanupAssociations s now) in
  mem_wf s' /\ m_nonces s' = m_nonces s /\
  (forall url h, mem_view s' url h =
     match mem_view s url h with Some a => if expired a now then None else Some a | None => None end) /\
  snd (mem_cleanupAssociations s now) =
    length (flat_map (fun p => map (fun q => (fst p, fst q)) (filter (fun q => expired (snd q) now) (snd p))) (m_assocs s)).
Proof.
  intros (W1 & W2 & W3). cbn zeta. unfold mem_cleanupAssociations. cbn [fst snd m_nonces m_assocs].
  set (cl := map (fun p => (fst p, sa_cleanup now (snd p))) (m_assocs s)).
  set (urls := map fst (filter (fun p => (length (fst (snd p)) =? 0)%nat) cl)).
  set (new := map (fun p => (fst p, fst (snd p))) cl).
  assert (NoDup (dkeys cl)) as Ncl by (unfold cl; rewrite dkeys_map; auto).
  assert (NoDup (dkeys new)) as Nnew by (unfold new; rewrite (dkeys_map fst cl); auto).
  assert (forall url, dget text_eqb url new = match dget text_eqb url (m_assocs s) with
                                              | Some d => Some (fst (sa_cleanup now d)) | None => None end) as G.
  { intros url. unfold new. rewrite (dget_map fst). unfold cl. rewrite dget_map. destruct (dget text_eqb url (m_assocs s)); auto. }
  assert (forall url, mem_text url urls = true -> exists d, dget text_eqb url (m_assocs s) = Some d /\ fst (sa_cleanup now d) = []) as U.
  { intros url H. unfold urls in H. apply mem_text_In, in_map_iff in H as ([url' p] & E & Hin). simpl in E. subst url'.
    apply filter_In in Hin as (Hin & L). simpl in L. apply (In_dget text_eqb text_eqb_eq _ _ _ Ncl) in Hin.
    unfold cl in Hin. rewrite dget_map in Hin. destruct (dget text_eqb url (m_assocs s)) as [d|]; [|discriminate].
    inv Hin. exists d. split; auto. apply Nat.eqb_eq, length_zero_iff_nil in L. auto. }
  split; [|split; [auto|split]].
  - split; [apply NoDup_dels; auto|split; auto]. simpl. intros url d. rewrite dget_dels by auto.
    destruct (mem_text url urls); [discriminate|]. rewrite G. destruct (dget text_eqb url (m_assocs s)) as [d0|] eqn:E; [|discriminate].
    intros H. inv H. apply sa_cleanup_spec. eauto.
  - intros url h. unfold mem_view. simpl. rewrite dget_dels by auto.
    destruct (mem_text url urls) eqn:M.
    + destruct (U _ M) as (d & E & N). rewrite E. destruct (sa_cleanup_spec now d (W2 _ _ E)) as (_ & _ & Gd).
      rewrite N in Gd. rewrite <- Gd. auto.
    + rewrite G. destruct (dget text_eqb url (m_assocs s)) as [d|] eqn:E; auto. apply sa_cleanup_spec. eauto.
  - unfold cl. clear - W1 W2.
    assert (forall url d, In (url, d) (m_assocs s) -> sa_wf d) as W.
    { intros url d Hin. eapply W2. apply (In_dget text_eqb text_eqb_eq); eauto. }
    clear W1 W2. revert W. generalize (m_assocs s). intros l W.
    assert (forall n, fold_left (fun n p => (n + snd (snd p))%nat) (map (fun p => (fst p, sa_cleanup now (snd p))) l) n =
      (n + length (flat_map (fun p : text * sassocs => map (fun q => (fst p, fst q)) (filter (fun q => expired (snd q) now) (snd p))) l))%nat) as K.
    { induction l as [|[url d] l IH]; intros n; simpl; [lia|]. rewrite IH by (intros; eapply W; right; eauto).
      rewrite app_length, map_length, map_length. lia. }
    rewrite K. reflexivity.
Qed.

Lemma mem_step_wf s t o : mem_wf s -> mem_wf (fst (mem_step s t o)).
Proof.
  intros W. destruct o as [url a|url h|url h|url ts salt| |]; cbn [mem_step].
  - unfold mem_store. pose proof (getServer_spec s url W) as G. destruct (getServerAssocs s url) as [s1 d].
    destruct G as (G1 & G2 & _). apply putServer_wf; auto. apply sa_set_wf; auto.
  - unfold mem_get. pose proof (getServer_spec s url W) as G. destruct (getServerAssocs s url) as [s1 d].
    destruct h; simpl; apply G.
  - unfold mem_remove. pose proof (getServer_spec s url W) as G. destruct (getServerAssocs s url) as [s1 d].
    destruct G as (G1 & G2 & _). pose proof (sa_remove_spec d h G2) as R. destruct (sa_remove d h) as [d' b]. simpl.
    apply putServer_wf; auto. apply R.
  - unfold mem_useNonce. destruct (skewed ts t); auto. destruct (existsb _ _) eqn:E; auto. simpl.
    destruct W as (W1 & W2 & W3). split; auto. split; auto. simpl.
    apply NoDup_app_snoc; auto. intros H. apply existsb_triple in H. congruence.
  - destruct W as (W1 & W2 & W3). split; auto. split; auto. simpl. apply NoDup_filter; auto.
  - pose proof (mem_cleanup_spec s t W) as C. destruct (mem_cleanupAssociations s t). apply C.
Qed.

Lemma mem_after_wf h : mem_wf (after mem_step mem_init h).
Proof.
  induction h as [|[t o] h IH]; simpl; [|apply mem_step_wf; auto].
  split; [constructor|split; [discriminate|constructor]].
Qed.

(** The store holds exactly what the history says. *)
Lemma mem_view_kept h : forall url handle, mem_view (after mem_step mem_init h) url handle = kept url handle h.
Proof.
  induction h as [|[t o] h IH]; intros url handle; [reflexivity|]. cbn [after].
  pose proof (mem_after_wf h) as W. set (s := after mem_step mem_init h) in *. clearbody s.
  destruct o as [url' a|url' h'|url' h'|url' ts salt| |]; cbn [kept].
  - cbn [mem_step fst]. unfold mem_store. pose proof (getServer_spec s url' W) as G. destruct (getServerAssocs s url') as [s1 d].
    destruct G as (G1 & G2 & G3 & G4 & G5 & G6). rewrite putServer_view, <- IH, <- G5.
    destruct (text_eqb url url') eqn:E; simpl; auto. unfold sa_set. rewrite (dget_dset text_eqb text_eqb_eq).
    destruct (text_eqb handle (a_handle a)); auto. apply text_eqb_eq in E. subst. rewrite G5, G4. auto.
  - cbn [mem_step fst]. unfold mem_get. pose proof (getServer_spec s url' W) as G. destruct (getServerAssocs s url') as [s1 d].
    destruct G as (G1 & G2 & G3 & G4 & G5 & G6). destruct h'; cbn [fst]; rewrite G5; auto.
  - cbn [mem_step fst]. unfold mem_remove. pose proof (getServer_spec s url' W) as G. destruct (getServerAssocs s url') as [s1 d].
    destruct G as (G1 & G2 & G3 & G4 & G5 & G6). pose proof (sa_remove_spec d h' G2) as R. destruct (sa_remove d h') as [d' b].
    cbn [fst]. destruct R as (R1 & R2 & R3). rewrite putServer_view, <- IH, <- G5.
    destruct (text_eqb url url') eqn:E; simpl; auto. rewrite R3. destruct (text_eqb handle h'); auto.
    apply text_eqb_eq in E. subst. rewrite G5, G4. auto.
  - rewrite <- IH. simpl. unfold mem_useNonce. destruct (skewed ts t); auto. destruct (existsb _ _); auto.
  - rewrite <- IH. auto.
  - cbn [mem_step]. pose proof (mem_cleanup_spec s t W) as C. cbn zeta in C. destruct (mem_cleanupAssociations s t) as [s' n].
    cbn [fst] in *. destruct C as (_ & _ & C & _). rewrite C, IH. destruct (kept url handle h) as [b|]; auto. rewrite expired_spec. auto.
Qed.

Lemma mem_nonces_remembered h : forall t, clock t h -> forall url ts salt,
  In (url, ts, salt) (m_nonces (after mem_step mem_init h)) <-> remembered url ts salt h = true.
Proof.
  induction h as [|[t0 o] h IH]; intros t C url ts salt; [simpl; intuition discriminate|].
  cbn [clock] in C. destruct C as (C1 & C2). specialize (IH _ C2). cbn [after].
  pose proof (mem_after_wf h) as W. set (s := after mem_step mem_init h) in *. clearbody s.
  destruct o as [url' a|url' h'|url' h'|url' ts' salt'| |]; cbn [remembered].
  - cbn [mem_step fst]. unfold mem_store. pose proof (getServer_spec s url' W) as G. destruct (getServerAssocs s url') as [s1 d].
    cbn [putServerAssocs m_nonces]. destruct G as (_ & _ & -> & _). auto.
  - cbn [mem_step fst]. unfold mem_get. pose proof (getServer_spec s url' W) as G. destruct (getServerAssocs s url') as [s1 d].
    destruct h'; cbn [fst]; destruct G as (_ & _ & -> & _); auto.
  - cbn [mem_step fst]. unfold mem_remove. pose proof (getServer_spec s url' W) as G. destruct (getServerAssocs s url') as [s1 d].
    destruct (sa_remove d h'). cbn [fst putServerAssocs m_nonces]. destruct G as (_ & _ & -> & _). auto.
  - cbn [mem_step]. unfold mem_useNonce. rewrite skewed_window. rewrite orb_true_iff, !andb_true_iff, !text_eqb_eq, Z.eqb_eq, <- IH.
    destruct (in_window t0 ts') eqn:E; simpl.
    + destruct (existsb _ _) eqn:X; cbn [fst m_nonces].
      * apply existsb_triple in X. split; auto. intros [H|H]; auto. destruct H as [[[-> ->] ->] _]. auto.
      * rewrite in_app_iff. simpl. split.
        -- intros [H|[H|[]]]; auto. inv H. auto.
        -- intros [[[[-> ->] ->] _]|H]; auto.
    + split; auto. intros [[[[-> ->] ->] H]|H]; auto. congruence.
  - cbn [mem_step mem_cleanupNonces fst m_nonces]. rewrite andb_true_iff, <- IH. rewrite filter_In, negb_true_iff.
    destruct (existsb _ _) eqn:X.
    + apply existsb_triple in X. apply filter_In in X as (_ & X). simpl in X. rewrite skewed_window in X.
      destruct (in_window t0 ts); intuition discriminate.
    + split; [|tauto]. intros (H & _). split; auto. destruct (in_window t0 ts) eqn:E; auto. exfalso.
      assert (existsb (ntriple_eqb (url, ts, salt)) (filter (fun n => skewed (snd (fst n)) t0) (m_nonces s)) = true); [|congruence].
      apply existsb_triple, filter_In. split; auto. simpl. rewrite skewed_window, E. auto.
  - cbn [mem_step]. pose proof (mem_cleanup_spec s t0 W) as K. destruct (mem_cleanupAssociations s t0) as [s' n]. simpl in *.
    destruct K as (_ & -> & _). auto.
Qed.

(** ** C19 *)
Theorem C19_useNonce_memory :
  forall h t url ts salt, clock t h ->
    answer mem_step mem_init h t (UseN url ts salt) = Flag (in_window t ts && negb (used url ts salt h)).
Proof.
  intros h t url ts salt C. unfold answer. cbn [mem_step]. unfold mem_useNonce. rewrite skewed_window.
  destruct (in_window t ts) eqn:W; simpl; auto.
  pose proof (mem_nonces_remembered h t C url ts salt) as R.
  destruct (existsb (ntriple_eqb (url, ts, salt)) (m_nonces (after mem_step mem_init h))) eqn:X; simpl.
  - apply existsb_triple in X. apply R, remembered_used in X. rewrite X. auto.
  - destruct (used url ts salt h) eqn:U; auto. exfalso. apply (used_remembered _ _ _ _ _ C W) in U. apply R in U.
    apply existsb_triple in U. congruence.
Qed.
Theorem C19_once_memory :
  forall h t url ts salt, clock t h -> (accepted mem_step mem_init url ts salt h <= 1)%nat.
Proof.
  intros h t url ts salt C.
  rewrite (accepted_once mem_step mem_init (fun _ => True) (fun _ _ _ => I) (fun h t url ts salt C _ => C19_useNonce_memory h t url ts salt C) _ _ _ _ t C I).
  destruct (used url ts salt h); lia.
Qed.
Print Assumptions C19_useNonce_memory.
Print Assumptions C19_once_memory.
(** A nonce is used, everything is cleaned up, and it comes back while still fresh. *)
Example C19_example :
  answer mem_step mem_init [(20, CleanN); (15, UseN (u "http://b/") 17 (u "x")); (10, UseN (u "http://a/") 17 (u "x"))] 30
    (UseN (u "http://a/") 17 (u "x")) = Flag false /\
  accepted mem_step mem_init (u "http://a/") 17 (u "x")
    [(30, UseN (u "http://a/") 17 (u "x")); (20, CleanN); (10, UseN (u "http://a/") 17 (u "x"))] = 1%nat.
Proof. split; vm_compute; reflexivity. Qed.
(** Without the assumption on the clock the triple is accepted again. *)
Example C19_clock_needed :
  accepted mem_step mem_init (u "http://a/") 17 (u "x")
    [(30, UseN (u "http://a/") 17 (u "x")); (40000, CleanN); (10, UseN (u "http://a/") 17 (u "x"))] = 2%nat.
Proof. vm_compute. reflexivity. Qed.

(** ** C22 *)
Theorem C22_get_memory :
  forall h t url handle, answer mem_step mem_init h t (GetA url (Some handle)) = Got (kept url handle h).
Proof.
  intros h t url handle. unfold answer. cbn [mem_step]. unfold mem_get. rewrite <- mem_view_kept.
  pose proof (getServer_spec _ url (mem_after_wf h)) as G. destruct (getServerAssocs (after mem_step mem_init h) url) as [s1 d].
  cbn [snd]. destruct G as (_ & _ & _ & -> & _). auto.
Qed.
Lemma best_spec (d : list (text * assoc)) : forall acc,
  let r := fold_left (fun best p => match best with None => Some (snd p)
             | Some b => if a_issued b <? a_issued (snd p) then Some (snd p) else Some b end) d acc in
  match r with
  | None => acc = None /\ d = []
  | Some a => (acc = Some a \/ exists h, In (h, a) d) /\
              (forall b, acc = Some b -> a_issued b <= a_issued a) /\
              (forall h b, In (h, b) d -> a_issued b <= a_issued a)
  end.
Proof.
  induction d as [|[h a] d IH]; intros acc; simpl.
  - destruct acc as [a|]; auto. split; auto. split; [|tauto]. intros b E; inv E. lia.
  - match goal with |- context [fold_left ?f d ?x] => specialize (IH x) end. cbn zeta in IH.
    destruct (fold_left _ d _) as [r|].
    + destruct IH as (I1 & I2 & I3). split; [|split].
      * destruct I1 as [I1|(h' & I1)]; [|eauto]. destruct acc as [b|]; [|inv I1; eauto].
        destruct (a_issued b <? a_issued a) eqn:L; inv I1; eauto.
      * intros b ->. destruct (a_issued b <? a_issued a) eqn:L; [|apply I2; auto]. specialize (I2 _ eq_refl). lia.
      * intros h' b [H|H]; eauto. inv H. destruct acc as [c|]; [|apply I2; auto].
        destruct (a_issued c <? a_issued b) eqn:L; specialize (I2 _ eq_refl); lia.
    + destruct IH as (I1 & _). destruct acc as [b|]; [|discriminate]. destruct (a_issued b <? a_issued a); discriminate.
Qed.
Theorem C22_newest_memory :
  forall h t url, exists o,
    answer mem_step mem_init h t (GetA url None) = Got o /\ newest (fun handle => kept url handle h) o.
Proof.
  intros h t url. unfold answer. cbn [mem_step]. unfold mem_get.
  pose proof (getServer_spec _ url (mem_after_wf h)) as G. pose proof (mem_view_kept h url) as V.
  destruct (getServerAssocs (after mem_step mem_init h) url) as [s1 d]. cbn [snd]. exists (sa_best d). split; auto.
  destruct G as (_ & (W1 & W2) & _ & G & _). pose proof (best_spec d None) as B. cbn zeta in B.
  fold (sa_best d) in B. destruct (sa_best d) as [a|]; unfold newest.
  - destruct B as ([B1|(h' & B1)] & _ & B3); [discriminate|]. split.
    + exists h'. rewrite <- V, G. apply (In_dget text_eqb text_eqb_eq); auto.
    + intros h2 b E. rewrite <- V, G in E. apply (dget_In text_eqb text_eqb_eq) in E. eauto.
  - destruct B as (_ & ->). intros h'. rewrite <- V, G. auto.
Qed.
Theorem C22_remove_memory :
  forall h t url handle, exists b,
    answer mem_step mem_init h t (RemoveA url handle) = Flag b /\ (b = true <-> kept url handle h <> None).
Proof.
  intros h t url handle. unfold answer. cbn [mem_step]. unfold mem_remove. rewrite <- mem_view_kept.
  pose proof (getServer_spec _ url (mem_after_wf h)) as G. destruct (getServerAssocs (after mem_step mem_init h) url) as [s1 d].
  destruct G as (_ & G2 & _ & -> & _). pose proof (sa_remove_spec d handle G2) as R. destruct (sa_remove d handle) as [d' b].
  exists b. split; auto. apply R.
Qed.
Print Assumptions C22_get_memory.
Print Assumptions C22_newest_memory.
Print Assumptions C22_remove_memory.
Definition ex_assoc (handle : text) (issued lifetime : Z) : assoc :=
  mkAssoc handle (u "01234567890123456789") issued lifetime (u "HMAC-SHA1").
Definition ex_history : history :=
  [(40, RemoveA (u "http://a/") (u "h2")); (31, CleanA);
   (30, StoreA (u "http://b/") (ex_assoc (u "h1") 30 100));
   (25, StoreA (u "http://a/") (ex_assoc (u "h1") 25 5));
   (20, StoreA (u "http://a/") (ex_assoc (u "h2") 20 100));
   (11, StoreA (u "http://a/") (ex_assoc (u "h3") 11 100));
   (10, StoreA (u "http://a/") (ex_assoc (u "h1") 10 100))].
Example C22_example_memory :
  answer mem_step mem_init ex_history 50 (GetA (u "http://a/") None) = Got (Some (ex_assoc (u "h3") 11 100)) /\
  answer mem_step mem_init ex_history 50 (GetA (u "http://a/") (Some (u "h1"))) = Got None /\
  answer mem_step mem_init ex_history 50 (GetA (u "http://b/") (Some (u "h1"))) = Got (Some (ex_assoc (u "h1") 30 100)).
Proof. split; [vm_compute; reflexivity|split; vm_compute; reflexivity]. Qed.

(** ** C26 *)
Theorem C26_cleanup_associations_memory :
  forall h t, exists gone n,
    answer mem_step mem_init h t CleanA = Count n /\ n = length gone /\ NoDup gone /\
    (forall url handle, In (url, handle) gone <->
       exists a, kept url handle h = Some a /\ a_issued a + a_lifetime a <= t) /\
    (forall t' url handle, answer mem_step mem_init ((t, CleanA) :: h) t' (GetA url (Some handle)) =
       if existsb (fun p => text_eqb url (fst p) && text_eqb handle (snd p)) gone then Got None
       else answer mem_step mem_init h t' (GetA url (Some handle))).
Proof.
  intros h t. pose proof (mem_cleanup_spec _ t (mem_after_wf h)) as C. cbn zeta in C.
  pose proof (mem_after_wf h) as (W1 & W2 & _).
  assert (answer mem_step mem_init h t CleanA = Count (snd (mem_cleanupAssociations (after mem_step mem_init h) t))) as A.
  { unfold answer. cbn [mem_step]. destruct (mem_cleanupAssociations _ t). auto. }
  destruct C as (_ & _ & _ & C). pose proof (mem_view_kept h) as V. set (s := after mem_step mem_init h) in *.
  set (gone := flat_map (fun p => map (fun q => (fst p, fst q)) (filter (fun q => expired (snd q) t) (snd p))) (m_assocs s)) in C.
  exists gone, (length gone). rewrite A, C.
  assert (forall url handle, In (url, handle) gone <-> exists a, kept url handle h = Some a /\ a_issued a + a_lifetime a <= t) as M.
  { intros url handle. unfold gone. rewrite in_flat_map. split.
    - intros ([url' d] & Hin & H). apply in_map_iff in H as ([h' a] & E & H). simpl in E. inv E.
      apply filter_In in H as (H & X). simpl in X, H. exists a. rewrite <- V. unfold mem_view.
      pose proof (In_dget text_eqb text_eqb_eq _ _ _ W1 Hin) as Q. rewrite Q. split; [|rewrite expired_spec in X; lia].
      apply (In_dget text_eqb text_eqb_eq); auto. apply (W2 _ _ Q).
    - intros (a & E & X). rewrite <- V in E. unfold mem_view in E. destruct (dget text_eqb url (m_assocs s)) as [d|] eqn:Q; [|discriminate].
      exists (url, d). split; [apply (dget_In text_eqb text_eqb_eq); auto|]. apply in_map_iff. exists (handle, a). split; auto.
      apply filter_In. split; [apply (dget_In text_eqb text_eqb_eq); auto|]. simpl. rewrite expired_spec. lia. }
  repeat (split; [auto; fail|]). split; [|split; auto].
  - unfold gone. clear - W1 W2.
    assert (forall url d, In (url, d) (m_assocs s) -> NoDup (dkeys d)) as W.
    { intros url d Hin. apply (W2 url). apply (In_dget text_eqb text_eqb_eq); auto. }
    revert W1 W. clear W2. generalize (m_assocs s). intros l W1 W. induction l as [|[url d] l IH]; simpl; [constructor|].
    unfold dkeys in W1. simpl in W1. inv W1. apply NoDup_app_disjoint.
    + specialize (W url d (or_introl eq_refl)). clear - W. unfold dkeys in W. induction d as [|[k a] d IH]; simpl; [constructor|].
      simpl in W. inv W. destruct (expired a t); simpl; auto. constructor; auto. intros Hin.
      apply in_map_iff in Hin as ([k' a'] & E & Hin). simpl in E. inv E. apply filter_In in Hin as (Hin & _).
      apply H1. apply in_map_iff. exists (k, a'). auto.
    + apply IH; auto. intros; eapply W; right; eauto.
    + intros [x y] H1' H2'. apply in_map_iff in H1' as (q & E & _). inv E. apply in_flat_map in H2' as ([u2 d2] & Hin & E2).
      apply in_map_iff in E2 as (q2 & E2 & _). simpl in E2. inv E2. apply H1. apply in_map_iff. exists (x, d2). auto.
  - intros t' url handle. rewrite !C22_get_memory. cbn [kept].
    destruct (existsb _ gone) eqn:X.
    + apply existsb_exists in X as ([u2 h2] & Hin & E). simpl in E. rewrite andb_true_iff, !text_eqb_eq in E. destruct E as (-> & ->).
      apply M in Hin as (a & E & L). rewrite E. destruct (_ <=? t) eqn:Q; auto; lia.
    + destruct (kept url handle h) as [a|] eqn:K; auto. destruct (_ <=? t) eqn:Q; auto. exfalso.
      assert (In (url, handle) gone) as I by (apply M; exists a; split; auto; lia).
      assert (existsb (fun p => text_eqb url (fst p) && text_eqb handle (snd p)) gone = true); [|congruence].
      apply existsb_exists. exists (url, handle). split; auto. simpl. rewrite !text_eqb_refl. auto.
Qed.
Theorem C26_cleanup_nonces_memory :
  forall h t, clock t h -> exists gone n,
    answer mem_step mem_init h t CleanN = Count n /\ n = length gone /\ NoDup gone /\
    (forall url ts salt, In (url, ts, salt) gone <-> remembered url ts salt h = true /\ in_window t ts = false) /\
    (forall url ts salt t', In (url, ts, salt) gone -> t <= t' ->
       answer mem_step mem_init ((t, CleanN) :: h) t' (UseN url ts salt) = Flag false).
Proof.
  intros h t C. pose proof (mem_nonces_remembered h t C) as R. pose proof (mem_after_wf h) as (_ & _ & W).
  exists (filter (fun n => skewed (snd (fst n)) t) (m_nonces (after mem_step mem_init h))).
  eexists. split; [reflexivity|]. split; [reflexivity|]. split; [apply NoDup_filter; auto|].
  assert (forall url ts salt, In (url, ts, salt) (filter (fun n => skewed (snd (fst n)) t) (m_nonces (after mem_step mem_init h))) <->
            remembered url ts salt h = true /\ in_window t ts = false) as M.
  { intros. rewrite filter_In, R. simpl. rewrite skewed_window, negb_true_iff. tauto. }
  split; auto. intros url ts salt t' Hin L. rewrite C19_useNonce_memory by (simpl; split; auto).
  apply M in Hin as (U & X). apply remembered_used, used_spec in U as (t1 & Hin & W1).
  pose proof (clock_In _ _ _ C Hin) as L1. simpl in L1.
  assert (in_window t' ts = false) as -> by (unfold in_window in *; lia). auto.
Qed.
Print Assumptions C26_cleanup_associations_memory.
Print Assumptions C26_cleanup_nonces_memory.
Example C26_example_memory :
  answer mem_step mem_init ex_history 115 CleanA = Count 1 /\
  answer mem_step mem_init [(10, UseN (u "http://a/") 17 (u "x")); (9, UseN (u "http://a/") 18 (u "x"))] 18018 CleanN = Count 1.
Proof. split; vm_compute; reflexivity. Qed.

(** ** C23 fails for the memory store: getAssociation hands out what has run out. *)
Theorem C77_memory_refuted :
  exists h t url handle a, clock t h /\
    answer mem_step mem_init h t (GetA url (Some handle)) = Got (Some a) /\ getExpiresIn a t = 0.
Proof.
  exists [(10, StoreA (u "http://a/") (ex_assoc (u "h") 10 5))], 1000, (u "http://a/"), (u "h"), (ex_assoc (u "h") 10 5).
  split; [simpl; split; [discriminate|exact I]|]. split; vm_compute; reflexivity.
Qed.
Print Assumptions C77_memory_refuted.
