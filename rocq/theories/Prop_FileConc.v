(** C20 for processes running at the same time. *)
From Coq Require Import Lia ZifyBool ZifyN ZifyNat.
From Verif Require Import Py PyFacts Utf8 Utf8Facts CryptUtil CryptUtilFacts Association Nonce Store StoreSpec StoreFacts FileStore FileStoreFacts.
From Verif Require Import Prop_KVForm Prop_StoreMem Prop_StoreSql Prop_FileNames Prop_StoreFile FileConc.
Open Scope Z_scope.
Local Arguments u : simpl never.

Definition conc_texts (ls : list label) : list text :=
  flat_map (fun l => match l with CallUse _ url ts salt => [url; salt] | _ => [] end) ls.
Definition conc_ok (ls : list label) : Prop :=
  Forall (fun l => match l with CallUse _ url ts salt => file_op (UseN url ts salt) | _ => True end) ls.
(** Nobody cleans up. *)
Definition no_cleanup (ls : list label) : Prop := Forall (fun l => match l with CallClean _ => False | _ => True end) ls.
(** Whoever creates a nonce file does so while the timestamp is still fresh, i.e. no process is
    held up between looking at the clock and opening the file until the nonce has gone stale. *)
Fixpoint prompt (sha1 : bytes -> bytes) (s : sys) (ls : list label) : Prop :=
  match ls with
  | [] => True
  | l :: r =>
      match l with
      | Step i => match s_proc s i with UOpen _ ts _ _ => s_clock s - 18000 <= ts | _ => True end
      | _ => True
      end /\ prompt sha1 (exec sha1 s l) r
  end.
Definition times (x : text * Z * text) (l : list (text * Z * text)) : nat :=
  length (filter (fun y => text_eqb (fst (fst x)) (fst (fst y)) && (snd (fst x) =? snd (fst y)) && text_eqb (snd x) (snd y)) l).

Lemma times_NoDup x l : NoDup l -> (times x l <= 1)%nat.
Proof.
  unfold times. induction 1 as [|y l H N IH]; simpl; [lia|].
  destruct (text_eqb (fst (fst x)) (fst (fst y)) && (snd (fst x) =? snd (fst y)) && text_eqb (snd x) (snd y)) eqn:E; auto.
  simpl. assert (filter (fun y => text_eqb (fst (fst x)) (fst (fst y)) && (snd (fst x) =? snd (fst y)) && text_eqb (snd x) (snd y)) l = []) as ->; [|simpl; lia].
  destruct (filter _ l) as [|z r] eqn:F; auto. exfalso. assert (In z (z :: r)) as Hz by (left; auto). rewrite <- F in Hz.
  apply filter_In in Hz as (Hz & E'). rewrite !andb_true_iff, !text_eqb_eq, Z.eqb_eq in E, E'.
  destruct x as [[a b] c], y as [[a' b'] c'], z as [[a'' b''] c'']. simpl in *. destruct E as [[-> ->] ->], E' as [[-> ->] ->]. auto.
Qed.

Section Conc.
  Variable sha1 : bytes -> bytes.
  Hypothesis digest : digest20 sha1.
  Variable T : list text.
  Hypothesis distinct : distinct_on sha1 T.
  Variable quiet : Prop.   (* quiet: there is no cleanup *)

  Definition made (s : sys) (bound : Z) (name : text) : Prop :=
    exists url ts salt, In (url, ts, salt) (s_answers s) /\ nonce_of sha1 T url ts salt name /\ ts <= bound + 18000.
  Definition proc_ok (s : sys) (p : proc) : Prop :=
    match p with
    | Idle => True
    | UCheck url ts salt => fop T (UseN url ts salt)
    | UOpen url ts salt name => nonce_of sha1 T url ts salt name /\ ts <= s_clock s + 18000
    | CList names => ~ quiet /\ Forall (made s (s_clock s)) names
    | CDel now names => ~ quiet /\ now <= s_clock s /\ Forall (made s now) names
    end.
  Definition conc_inv (s : sys) : Prop :=
    (forall i, proc_ok s (s_proc s i)) /\ NoDup (s_answers s) /\
    (forall n, In n (s_files s) -> made s (s_clock s) n) /\
    (forall url ts salt name, In (url, ts, salt) (s_answers s) -> nonce_of sha1 T url ts salt name ->
       quiet \/ s_clock s - 18000 <= ts -> In name (s_files s)).

  Lemma made_mono s s' b b' n : (forall x, In x (s_answers s) -> In x (s_answers s')) -> b <= b' -> made s b n -> made s' b' n.
  Proof using. intros H L (url & ts & salt & A & B & C). exists url, ts, salt. split; auto. split; auto. lia. Qed.
  Lemma proc_ok_mono s s' p : (forall x, In x (s_answers s) -> In x (s_answers s')) -> s_clock s <= s_clock s' -> proc_ok s p -> proc_ok s' p.
  Proof using.
    intros H L. destruct p; simpl; auto.
    - intros (A & B). split; auto. lia.
    - intros (Q & A). split; auto. eapply Forall_impl; [|exact A]. intros n. apply made_mono; auto.
    - intros (Q & B & A). split; auto. split; [lia|]. eapply Forall_impl; [|exact A]. intros n. apply made_mono; auto. lia.
  Qed.
  Lemma procs_set s s' i p : (forall x, In x (s_answers s) -> In x (s_answers s')) -> s_clock s <= s_clock s' ->
    s_proc s' = set_proc (s_proc s) i p -> (forall i, proc_ok s (s_proc s i)) -> proc_ok s' p -> forall j, proc_ok s' (s_proc s' j).
  Proof using.
    intros H L E A B j. rewrite E. unfold set_proc. destruct (Nat.eqb j i); auto. eapply proc_ok_mono; eauto.
  Qed.
  Lemma same_set s i p : conc_inv s -> proc_ok s p -> conc_inv (mkSys (s_clock s) (s_files s) (set_proc (s_proc s) i p) (s_answers s)).
  Proof using.
    intros (I1 & I2 & I3 & I4) P. set (s' := mkSys _ _ _ _). split; [|split; [|split]]; auto.
    eapply (procs_set s s' i p); auto; simpl; auto; try lia.
  Qed.

  Lemma exec_inv s l : conc_inv s ->
    match l with CallUse _ url ts salt => fop T (UseN url ts salt) | CallClean _ => ~ quiet | _ => True end ->
    match l with
    | Step i => match s_proc s i with UOpen _ ts _ _ => quiet \/ s_clock s - 18000 <= ts | _ => True end
    | _ => True
    end -> conc_inv (exec sha1 s l).
  Proof using digest distinct.
    intros I O P. pose proof I as (I1 & I2 & I3 & I4). destruct l as [i url ts salt|i|i name|i|i|d]; cbn [exec].
    - destruct (s_proc s i); auto. apply same_set; auto.
    - destruct (s_proc s i); auto. apply same_set; auto. split; auto.
    - destruct (s_proc s i) as [| | |names|] eqn:E; auto. destruct (mem_text name (s_files s)) eqn:M; auto.
      apply same_set; auto. pose proof (I1 i) as Q. rewrite E in Q. destruct Q as (Q1 & Q2). split; auto.
      apply Forall_app. split; auto. constructor; auto. apply I3, mem_text_In; auto.
    - unfold exec_step. pose proof (I1 i) as Q. destruct (s_proc s i) as [|url ts salt|url ts salt name|names|now names] eqn:E; auto.
      + destruct (skewed ts (s_clock s)) eqn:W; [apply same_set; simpl; auto|].
        destruct Q as ((Q1 & Q2 & Q3) & Q4). destruct (nonce_of_ok sha1 digest T url ts salt Q1 Q2 Q3) as (name & N & _); [apply Q4; simpl; auto|apply Q4; simpl; auto|].
        pose proof N as (_ & _ & _ & _ & _ & Nm). rewrite Nm. apply same_set; auto. split; auto.
        rewrite skewed_window in W. apply negb_false_iff in W. unfold in_window in W. lia.
      + destruct (negb (path_ok name)); [apply same_set; simpl; auto|]. destruct (mem_text name (s_files s)) eqn:M; [apply same_set; simpl; auto|].
        destruct Q as (Q1 & Q2). apply mem_text_false in M.
        set (s' := mkSys _ _ _ _).
        assert (forall x, In x (s_answers s) -> In x (s_answers s')) as Sub by (intros; simpl; auto).
        split; [|split; [|split]].
        * eapply (procs_set s s' i Idle); simpl; auto. lia.
        * simpl. constructor; auto. intros H. apply M. eapply I4; eauto.
        * intros n. simpl. intros [<-|H]; [exists url, ts, salt; simpl; auto|]. eapply made_mono; eauto. simpl. lia.
        * intros url' ts' salt' name'. simpl. intros [H|H] N' W'.
          -- inv H. left. destruct Q1 as (_ & _ & _ & _ & _ & Q1), N' as (_ & _ & _ & _ & _ & N'). congruence.
          -- right. eapply I4; eauto.
      + apply same_set; auto. destruct Q. split; auto. split; auto. lia.
      + destruct Q as (Q1 & Q2 & Q3). destruct names as [|n r]; [apply same_set; simpl; auto|]. inv Q3.
        destruct (nonce_file_ts n) as [ts|] eqn:E'; [|apply same_set; simpl; auto]. destruct (skewed ts now) eqn:W; [|apply same_set; simpl; auto].
        set (s' := mkSys _ _ _ _). split; [|split; [|split]]; auto.
        * eapply (procs_set s s' i (CDel now r)); simpl; auto; lia.
        * intros x Hx. simpl in Hx. apply filter_In in Hx as (Hx & _). eapply made_mono; [| |apply I3]; simpl; auto. lia.
        * simpl. intros url' ts' salt' name' A N' [W'|W']; [contradiction|]. apply filter_In. split; [eapply I4; eauto|].
          apply negb_true_iff, text_eqb_neq. intros ->. destruct H1 as (url & ts0 & salt & A0 & N0 & L0).
          destruct (nonce_of_inj sha1 digest T distinct _ _ _ _ _ _ _ N' N0) as (-> & -> & ->).
          pose proof (nonce_of_ts sha1 digest T _ _ _ _ N0) as Ts. assert (ts = ts0) as -> by congruence.
          rewrite skewed_window in W. unfold in_window in W. lia.
    - apply same_set; simpl; auto.
    - set (s' := mkSys _ _ _ _). split; [|split; [|split]]; auto.
      + intros j. simpl. apply (proc_ok_mono s s'); simpl; auto. lia.
      + simpl. intros n H. eapply made_mono; [| |apply I3]; simpl; auto. lia.
      + simpl. intros url' ts' salt' name' A N' W'. eapply I4; eauto. destruct W'; auto. right. lia.
  Qed.
  Lemma init_inv now : conc_inv (sys_init now).
  Proof using. split; [intros; exact I|]. split; [constructor|]. split; [intros n []|intros ? ? ? ? []]. Qed.
End Conc.

Lemma run_inv sha1 T quiet ls : digest20 sha1 -> distinct_on sha1 T -> forall s,
  conc_inv sha1 T quiet s -> conc_ok ls -> incl (conc_texts ls) T ->
  (quiet -> no_cleanup ls) -> (~ quiet -> prompt sha1 s ls) -> quiet \/ ~ quiet -> conc_inv sha1 T quiet (run sha1 s ls).
Proof.
  intros D X. induction ls as [|l ls IH]; intros s I O C Q P EM; auto. cbn [run fold_left]. inv O.
  assert (forall x, In x (conc_texts ls) -> In x T) as C' by (intros x Hx; apply C; unfold conc_texts; simpl; apply in_or_app; auto).
  apply IH; auto.
  - apply exec_inv; auto.
    + destruct l as [i url ts salt|i| | | |]; auto.
      * split; auto. intros x Hx. apply C. simpl in *. destruct Hx as [<-|[<-|[]]]; auto.
      * destruct EM as [EM|EM]; auto. specialize (Q EM). inv Q. contradiction.
    + destruct l as [| | |i| |]; auto. destruct EM as [EM|EM].
      * destruct (s_proc s i); auto.
      * specialize (P EM). cbn [prompt] in P. destruct P as (P & _). destruct (s_proc s i); auto.
  - intros H. specialize (Q H). inv Q. auto.
  - intros H. specialize (P H). apply P.
Qed.

(** Any schedule of any number of processes, with crashes, in which nobody cleans up. *)
Theorem C20_concurrent :
  forall sha1, digest20 sha1 -> forall now ls, conc_ok ls -> distinct_on sha1 (conc_texts ls) -> no_cleanup ls ->
    forall triple, (times triple (s_answers (run sha1 (sys_init now) ls)) <= 1)%nat.
Proof.
  intros sha1 D now ls O X Q triple. apply times_NoDup.
  destruct (run_inv sha1 (conc_texts ls) True ls D X (sys_init now)) as (_ & N & _); auto.
  - apply init_inv. - intros x; auto. - tauto.
Qed.
(** With cleanup running at the same time, if files are opened while the nonce is still fresh. *)
Theorem C20_concurrent_cleanup :
  forall sha1, digest20 sha1 -> forall now ls, conc_ok ls -> distinct_on sha1 (conc_texts ls) -> prompt sha1 (sys_init now) ls ->
    forall triple, (times triple (s_answers (run sha1 (sys_init now) ls)) <= 1)%nat.
Proof.
  intros sha1 D now ls O X P triple. apply times_NoDup.
  destruct (run_inv sha1 (conc_texts ls) False ls D X (sys_init now)) as (_ & N & _); auto.
  - apply init_inv. - intros x; auto. - tauto.
Qed.
(** Somebody wins: once a process has tried to create the file, the nonce has been accepted. *)
Theorem C20_concurrent_winner :
  forall sha1, digest20 sha1 -> forall now ls, conc_ok ls -> distinct_on sha1 (conc_texts ls) -> prompt sha1 (sys_init now) ls ->
    let s := run sha1 (sys_init now) ls in
    forall i url ts salt name, s_proc s i = UOpen url ts salt name ->
      In (url, ts, salt) (s_answers (exec sha1 s (Step i))).
Proof.
  intros sha1 D now ls O X P s i url ts salt name E.
  destruct (run_inv sha1 (conc_texts ls) False ls D X (sys_init now)) as (I1 & _ & I3 & _); auto.
  { apply init_inv. } { intros x; auto. } { tauto. }
  fold s in I1, I3. pose proof (I1 i) as Q. rewrite E in Q. destruct Q as (Q & _). cbn [exec]. unfold exec_step. rewrite E.
  assert (path_ok name = true) as ->.
  { destruct Q as (Q1 & Q2 & Q3 & _ & _ & Q4). destruct (nname_ok sha1 D _ _ _ Q1 Q2 Q3) as (name' & N & Pk & _). congruence. }
  cbn [negb]. destruct (mem_text name (s_files s)) eqn:M; [|simpl; auto]. cbn [s_answers].
  apply mem_text_In, I3 in M as (url' & ts' & salt' & A & B & _). destruct (nonce_of_inj sha1 D _ X _ _ _ _ _ _ _ Q B) as (-> & -> & ->). auto.
Qed.
Print Assumptions C20_concurrent_winner.
Print Assumptions C20_concurrent.
Print Assumptions C20_concurrent_cleanup.
(** Two processes race for a nonce, a third cleans up meanwhile. *)
Example C20_example_concurrent :
  let n := (u "http://a/", 5, u "x") in
  let ls := [CallUse 1 (u "http://a/") 5 (u "x"); CallUse 2 (u "http://a/") 5 (u "x"); Step 2; Step 1; CallClean 3; Step 2;
             Pick 3 (u "00000005-http-a-TKpMTJkTLy.bAAAAAAAAAAAAAAA-SwAAAAAAAAAAAAAAAAAAAAAAAAA"); Tick 7; Step 1; Step 3; Step 3; Step 3] in
  s_answers (run toy_sha1 (sys_init 0) ls) = [n] /\ prompt toy_sha1 (sys_init 0) ls /\
  s_proc (run toy_sha1 (sys_init 0) (firstn 10 ls)) 3 = CDel 7 [u "00000005-http-a-TKpMTJkTLy.bAAAAAAAAAAAAAAA-SwAAAAAAAAAAAAAAAAAAAAAAAAA"].
Proof.
  intros n ls. split; [vm_compute; reflexivity|]. split.
  - vm_compute. repeat (split; [first [exact I|discriminate]|]). exact I.
  - vm_compute. reflexivity.
Qed.
(** Without that proviso the claim fails: process 1 checks the clock and is held up; process 2
    uses the nonce; it goes stale and process 3 removes the file; process 1 then creates it again. *)
Theorem C82_stalled_refuted :
  exists ls triple, conc_ok ls /\ forall sha1, digest20 sha1 -> exists name,
    let ls' := map (fun l => match l with Pick i _ => Pick i name | _ => l end) ls in
    conc_ok ls' /\ times triple (s_answers (run sha1 (sys_init 0) ls')) = 2%nat.
Proof.
  exists [CallUse 1 (u "http://a/") 5 (u "x"); Step 1; CallUse 2 (u "http://a/") 5 (u "x"); Step 2; Step 2;
          Tick 20000; CallClean 3; Pick 3 []; Step 3; Step 3; Step 1], (u "http://a/", 5, u "x").
  assert (file_op (UseN (u "http://a/") 5 (u "x"))) as O.
  { split; [right|split; [lia|exists (u "x"); reflexivity]]. split; [exists (u "http://a/"); reflexivity|].
    exists (u "http"), (u "a/"). split; [vm_compute; reflexivity|]. split; [|split]; intros H; vm_compute in H; intuition discriminate. }
  split. { repeat (apply Forall_cons || apply Forall_nil); auto. }
  intros sha1 D. destruct O as (O1 & O2 & O3). destruct (nname_ok sha1 D _ _ _ O1 O2 O3) as (name & N & P & R). exists name. intros ls'. split.
  { unfold ls'. cbn [map]. repeat (apply Forall_cons || apply Forall_nil); auto; repeat split; auto. }
  unfold ls'. cbn [map run fold_left]. 
  cbn [exec exec_step s_proc s_clock s_files s_answers sys_init set_proc Nat.eqb].
  replace (skewed 5 0) with false by reflexivity. rewrite N.
  cbn [exec exec_step s_proc s_clock s_files s_answers sys_init set_proc Nat.eqb].
  replace (skewed 5 0) with false by reflexivity. rewrite N.
  cbn [exec exec_step s_proc s_clock s_files s_answers sys_init set_proc Nat.eqb]. rewrite P. cbn [negb mem_text existsb].
  cbn [exec exec_step s_proc s_clock s_files s_answers sys_init set_proc Nat.eqb mem_text existsb]. rewrite text_eqb_refl. cbn [orb].
  cbn [exec exec_step s_proc s_clock s_files s_answers sys_init set_proc Nat.eqb mem_text existsb app]. rewrite R.
  replace (skewed 5 (0 + Z.of_N 20000)) with true by reflexivity. cbn [filter]. rewrite text_eqb_refl. cbn [negb].
  cbn [exec exec_step s_proc s_clock s_files s_answers sys_init set_proc Nat.eqb mem_text existsb]. rewrite P. cbn [negb].
  cbn [s_answers]. vm_compute. reflexivity.
Qed.
Print Assumptions C82_stalled_refuted.
