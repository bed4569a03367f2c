(** C50: services are tried in order, once each.  C96, C97: the session of a consumer. *)
From Coq Require Import Lia ZifyBool ZifyN ZifyNat.
From Verif Require Import Py PyFacts KVForm CryptUtil DH Message Association UrlLib Nonce Store StoreSpec Endpoint Consumer ConsumerFacts Manager.
From Verif Require Import Prop_Association2 ServerFacts Prop_ServerDecode Prop_Consumer.
Open Scope N_scope.
Local Arguments u : simpl never.

Section Services.
  Context {Sv : Type}.
  Variable key : text.

  (** What happens to the services of one session key: a service is asked for, or the
      session is cleaned up.  [Next] carries what discovery would find if it were done. *)
  Inductive event := Next (url : text) (found : res (text * list Sv)) | Clean (url : text) (force : bool).
  Inductive result := Served (r : res (option Sv)) | Cleaned (r : option Sv).
  Definition do_event (s : session Sv) (ev : event) : session Sv * result :=
    match ev with
    | Next url found => let (s', r) := getNextService key url (fun _ => found) s in (s', Served r)
    | Clean url force => let (s', r) := cleanup key url force s in (s', Cleaned r)
    end.
  Fixpoint run (s : session Sv) (evs : list event) : session Sv * list result :=
    match evs with
    | [] => (s, [])
    | ev :: evs => let (s1, r) := do_event s ev in let (s2, rs) := run s1 evs in (s2, r :: rs)
    end.

  (** The specification: the last useful discovery, for which two URLs, with what result,
      and how many of the services found have been handed out. *)
  Record progress := mkProgress { pg_url : text; pg_yadis : text; pg_found : list Sv; pg_done : nat }.
  Definition concerns (p : progress) (url : text) : Prop := url = pg_url p \/ url = pg_yadis p.

  Inductive spec_step : option progress -> event -> result -> option progress -> Prop :=
  (* a service is left for this URL: it is handed out, and discovery plays no part *)
  | sp_more p url found s : concerns p url -> nth_error (pg_found p) (pg_done p) = Some s ->
      spec_step (Some p) (Next url found) (Served (Ok (Some s))) (Some (mkProgress (pg_url p) (pg_yadis p) (pg_found p) (S (pg_done p))))
  (* otherwise discovery is done; it may fail, find nothing, or start over *)
  | sp_fail o o' url x : dropped o url o' -> spec_step o (Next url (Raise x)) (Served (Raise x)) o'
  | sp_none o o' url yadis : dropped o url o' -> spec_step o (Next url (Ok (yadis, []))) (Served (Ok None)) o'
  | sp_new o o' url yadis s l : dropped o url o' ->
      spec_step o (Next url (Ok (yadis, s :: l))) (Served (Ok (Some s))) (Some (mkProgress url yadis (s :: l) 1))
  (* cleaning up returns what was handed out last *)
  | sp_clean p url force s : (concerns p url \/ force = true) -> nth_error (pg_found p) (pred (pg_done p)) = Some s ->
      spec_step (Some p) (Clean url force) (Cleaned (Some s)) None
  | sp_keep o url force : (forall p, o = Some p -> ~ concerns p url /\ force = false) -> spec_step o (Clean url force) (Cleaned None) o
  (* an exhausted discovery for this URL is forgotten, one for another URL is kept *)
  with dropped : option progress -> text -> option progress -> Prop :=
  | dr_none url : dropped None url None
  | dr_same p url : concerns p url -> pg_done p = length (pg_found p) -> dropped (Some p) url None
  | dr_other p url : ~ concerns p url -> dropped (Some p) url (Some p).

  Inductive spec_run : option progress -> list event -> list result -> option progress -> Prop :=
  | sr_nil o : spec_run o [] [] o
  | sr_cons o ev r o1 evs rs o2 : spec_step o ev r o1 -> spec_run o1 evs rs o2 -> spec_run o (ev :: evs) (r :: rs) o2.

  (** How the session represents this. *)
  Definition rep (s : session Sv) (o : option progress) : Prop :=
    match o with
    | None => dget text_eqb key s = None
    | Some p => (1 <= pg_done p)%nat /\ exists c, nth_error (pg_found p) (pred (pg_done p)) = Some c /\
        dget text_eqb key s = Some (mkManager (pg_url p) (Some (pg_yadis p)) (skipn (pg_done p) (pg_found p)) key (Some c))
    end.

  Lemma concerns_spec (p : progress) (l : list Sv) (c : option Sv) url : mg_forURL (mkManager (pg_url p) (Some (pg_yadis p)) l key c) url = true <-> concerns p url.
  Proof. unfold mg_forURL, concerns. cbn. rewrite orb_true_iff, !text_eqb_eq. reflexivity. Qed.
  Lemma skipn_nth {A} (l : list A) n x r : skipn n l = x :: r -> nth_error l n = Some x /\ skipn (S n) l = r.
  Proof. revert n. induction l as [|y l IH]; intros [|n] H; cbn in *; try discriminate; [inv H; auto|]. apply IH in H. exact H. Qed.
  Lemma skipn_nil {A} (l : list A) n : (n <= length l)%nat -> skipn n l = [] -> n = length l.
  Proof. revert n. induction l as [|y l IH]; intros [|n] L H; cbn in *; try lia; try discriminate. f_equal. apply IH; auto; lia. Qed.

  Lemma served_inv (X : session Sv * res (option Sv)) s' r : (let (a, b) := X in (a, Served b)) = (s', r) ->
    X = (s', match r with Served r => r | Cleaned _ => Raise TypeError end) /\ exists r0, r = Served r0.
  Proof. destruct X. intros H. inv H. eauto. Qed.
  Lemma step_refines s o ev s' r : rep s o -> NoDup (dkeys s) -> do_event s ev = (s', r) ->
    exists o', spec_step o ev r o' /\ rep s' o' /\ NoDup (dkeys s') /\ forall k, k <> key -> dget text_eqb k s' = dget text_eqb k s.
  Proof.
    intros R N H.
    assert (forall k m, k <> key -> dget text_eqb k (dset text_eqb key m s) = dget text_eqb k s) as Keep
      by (intros; apply (dget_dset_other text_eqb text_eqb_eq); auto).
    destruct ev as [url found|url force]; cbn [do_event] in H.
    - (* a discovery is done in a session [s1] without a manager of this URL *)
      assert (forall s1 o1, rep s1 o1 -> NoDup (dkeys s1) -> (forall p, o1 = Some p -> ~ concerns p url) -> dropped o url o1 ->
              (forall k, k <> key -> dget text_eqb k s1 = dget text_eqb k s) ->
              (let '(s, m) := match found with
                              | Raise e => (s1, Raise e)
                              | Ok (yadis_url, services) => createManager key url services (Some yadis_url) s1
                              end in
               match m with
               | Raise e => (s, Raise e)
               | Ok (Some x) => if mg_true x then match mg_next x with
                                                  | (x', Ok service) => (mg_store x' s, Ok (Some service))
                                                  | (_, Raise e) => (s, Raise e)
                                                  end else (s, Ok None)
               | Ok None => (s, Ok None)
               end) = (s', match r with Served r => r | Cleaned _ => Raise TypeError end) ->
              (exists r0, r = Served r0) ->
              exists o', spec_step o (Next url found) r o' /\ rep s' o' /\ NoDup (dkeys s') /\ forall k, k <> key -> dget text_eqb k s' = dget text_eqb k s) as Disc.
      { clear H R N Keep. intros s1 o1 R N No Dr Keep H (r0 & ->). destruct found as [[yadis services]|x].
        - unfold createManager in H.
          assert (getManager key url false s1 = None) as G.
          { unfold getManager. destruct o1 as [p|]; cbn [rep] in R.
            - destruct R as (_ & c & _ & ->). rewrite orb_false_r. destruct (mg_forURL (Sv:=Sv) _ url) eqn:F; auto. apply concerns_spec in F. exfalso. apply (No p); auto.
            - rewrite R. auto. }
          rewrite G in H. destruct services as [|sv l].
          + inv H. exists o1. split; [constructor; auto|]. auto.
          + cbn [mg_true mg_services mg_next] in H. unfold mg_store in H. cbn [mg_session_key] in H. injection H as <- <-.
            exists (Some (mkProgress url yadis (sv :: l) 1)). split; [econstructor; eauto|]. split.
            * cbn [rep pg_done]. split; auto. exists sv. split; auto. rewrite (dget_dset_same text_eqb text_eqb_eq). reflexivity.
            * split. { apply (NoDup_dset text_eqb text_eqb_eq), (NoDup_dset text_eqb text_eqb_eq); auto. }
              intros k Hk. rewrite !(dget_dset_other text_eqb text_eqb_eq) by auto. auto.
        - inv H. exists o1. split; [constructor; auto|]. auto. }
      apply served_inv in H as (H & Sr). unfold getNextService, getManager in H. destruct o as [p|]; cbn [rep] in R.
      + destruct R as (R1 & c & R2 & R3). rewrite R3 in H. rewrite orb_false_r in H. destruct (mg_forURL (Sv:=Sv) _ url) eqn:F.
        * apply concerns_spec in F. cbn [mg_true mg_services] in H. destruct (skipn (pg_done p) (pg_found p)) as [|sv l] eqn:Sk.
          -- assert (pg_done p = length (pg_found p)) as Dn.
             { apply skipn_nil; auto. assert (pred (pg_done p) < length (pg_found p))%nat by (apply nth_error_Some; congruence). lia. }
             unfold destroyManager, getManager in H. rewrite R3, orb_false_r in H.
             assert (mg_forURL (mkManager (pg_url p) (Some (pg_yadis p)) [] key (Some c)) url = true) as Fu by (apply concerns_spec; auto). rewrite Fu in H.
             apply (Disc (ddel text_eqb key s) None).
             ++ cbn. apply (dget_ddel_same text_eqb text_eqb_eq); auto.
             ++ apply (NoDup_ddel text_eqb); auto.
             ++ discriminate.
             ++ constructor; auto.
             ++ intros k Hk. apply (dget_ddel_other text_eqb text_eqb_eq); auto.
             ++ exact H.
             ++ exact Sr.
          -- cbn [mg_next mg_services mg_starting_url mg_yadis_url mg_session_key] in H. unfold mg_store in H. cbn [mg_session_key mg_true mg_services] in H. destruct Sr as (r0 & ->). injection H as <- <-.
             destruct (skipn_nth _ _ _ _ Sk) as (E1 & E2).
             eexists. split; [apply sp_more; eauto|]. split.
             ++ cbn [rep pg_done pg_url pg_yadis pg_found]. split; [lia|]. exists sv. split; auto. rewrite (dget_dset_same text_eqb text_eqb_eq). rewrite E2. reflexivity.
             ++ split; [apply (NoDup_dset text_eqb text_eqb_eq); auto|]. intros k Hk. apply Keep; auto.
        * assert (~ concerns p url) as NC by (rewrite <- (concerns_spec p (skipn (pg_done p) (pg_found p)) (Some c)); rewrite F; discriminate).
          apply (Disc s (Some p)).
          -- cbn. eauto.
          -- auto.
          -- intros q Q. inv Q. auto.
          -- constructor; auto.
          -- auto.
          -- exact H.
          -- exact Sr.
      + rewrite R in H. apply (Disc s None); auto.
        -- discriminate.
        -- constructor.
    - unfold cleanup, destroyManager, getManager in H. destruct o as [p|]; cbn [rep] in R.
      + destruct R as (R1 & c & R2 & R3). rewrite R3 in H. destruct (mg_forURL _ url || force) eqn:F.
        * cbn [mg_current] in H. inv H. exists None. split.
          { apply sp_clean; auto. apply orb_true_iff in F as [F|F]; auto. apply concerns_spec in F. auto. }
          split; [cbn; apply (dget_ddel_same text_eqb text_eqb_eq); auto|]. split; [apply (NoDup_ddel text_eqb); auto|].
          intros k Hk. apply (dget_ddel_other text_eqb text_eqb_eq); auto.
        * inv H. exists (Some p). apply orb_false_iff in F as [F1 F2]. split.
          { apply sp_keep. intros q Q. inv Q. split; auto. rewrite <- (concerns_spec q (skipn (pg_done q) (pg_found q)) (Some c)). rewrite F1. discriminate. }
          split; [cbn; eauto|]. auto.
      + rewrite R in H. inv H. exists None. split; [apply sp_keep; discriminate|]. auto.
  Qed.

  Lemma run_refines evs s o s' rs : rep s o -> NoDup (dkeys s) -> run s evs = (s', rs) ->
    exists o', spec_run o evs rs o' /\ rep s' o' /\ NoDup (dkeys s') /\ forall k, k <> key -> dget text_eqb k s' = dget text_eqb k s.
  Proof.
    revert s o rs. induction evs as [|ev evs IH]; intros s o rs R N H; cbn [run] in H.
    - inv H. exists o. split; [constructor|]. auto.
    - destruct (do_event s ev) as [s1 r] eqn:D. destruct (run s1 evs) as [s2 rs2] eqn:Rn. inv H.
      destruct (step_refines _ _ _ _ _ R N D) as (o1 & S1 & R1 & N1 & K1). destruct (IH _ _ _ R1 N1 Rn) as (o2 & S2 & R2 & N2 & K2).
      exists o2. split; [econstructor; eauto|]. split; auto. split; auto. intros k Hk. rewrite K2 by auto. auto.
  Qed.

  (** Every sequence of calls behaves like the specification, and touches no other key. *)
  Theorem C50_refines : forall evs s s' rs, NoDup (dkeys s) -> dget text_eqb key s = None -> run s evs = (s', rs) ->
    (exists o', spec_run None evs rs o') /\ forall k, k <> key -> dget text_eqb k s' = dget text_eqb k s.
  Proof.
    intros evs s s' rs N E H. destruct (run_refines evs s None s' rs E N H) as (o & S1 & _ & _ & K). eauto.
  Qed.

  Definition asks_for (urls : list text) (ev : event) : Prop := exists url found, ev = Next url found /\ In url urls.
  Lemma more_calls p evs s s' rs : rep s (Some p) -> NoDup (dkeys s) -> run s evs = (s', rs) ->
    Forall (asks_for [pg_url p; pg_yadis p]) evs -> (pg_done p + length evs <= length (pg_found p))%nat ->
    rs = map (fun sv => Served (Ok (Some sv))) (firstn (length evs) (skipn (pg_done p) (pg_found p))) /\
    rep s' (Some (mkProgress (pg_url p) (pg_yadis p) (pg_found p) (pg_done p + length evs))) /\ NoDup (dkeys s').
  Proof.
    revert p s rs. induction evs as [|ev evs IH]; intros p s rs R N H F L; cbn [run] in H.
    - inv H. cbn. rewrite Nat.add_0_r. destruct p; auto.
    - destruct (do_event s ev) as [s1 r] eqn:D. destruct (run s1 evs) as [s2 rs2] eqn:Rn. inv H. inv F. destruct H1 as (url & found & -> & Hu).
      cbn [length] in *. destruct (step_refines _ _ _ _ _ R N D) as (o1 & S1 & R1 & N1 & _).
      assert (concerns p url) as C by (destruct Hu as [<-|[<-|[]]]; [left|right]; auto).
      assert (exists sv, nth_error (pg_found p) (pg_done p) = Some sv) as (sv & Hs).
      { destruct (nth_error (pg_found p) (pg_done p)) eqn:X; eauto. apply nth_error_None in X. lia. }
      assert (r = Served (Ok (Some sv)) /\ o1 = Some (mkProgress (pg_url p) (pg_yadis p) (pg_found p) (S (pg_done p)))) as (-> & ->).
      { clear - S1 C Hs. assert (forall o, dropped (Some p) url o -> False) as X.
        { intros o X. inversion X; subst; [|contradiction]. assert (nth_error (pg_found p) (pg_done p) = None) by (apply nth_error_None; lia). congruence. }
        inversion S1; subst; try (exfalso; eapply X; eauto; fail). split; congruence. }
      destruct (IH (mkProgress (pg_url p) (pg_yadis p) (pg_found p) (S (pg_done p))) _ _ R1 N1 Rn H2) as (-> & R2 & N2); [cbn; lia|]. cbn [pg_url pg_yadis pg_found pg_done] in *.
      replace (pg_done p + S (length evs))%nat with (S (pg_done p) + length evs)%nat by lia. split; auto.
      assert (skipn (pg_done p) (pg_found p) = sv :: skipn (S (pg_done p)) (pg_found p)) as ->; [|reflexivity].
      clear - Hs. revert Hs. generalize (pg_done p). induction (pg_found p) as [|x l IH]; intros [|n] Hs; cbn in *; try discriminate; [congruence|]. auto.
  Qed.

  (** Once discovery has found services they are handed out in order, once each, without
      looking at later discoveries; then the session is as good as new. *)
  Theorem C50_in_order_once_each : forall s url yadis sv services evs s' rs,
    NoDup (dkeys s) -> dget text_eqb key s = None ->
    Forall (asks_for [url; yadis]) evs -> length evs = length services ->
    run s (Next url (Ok (yadis, sv :: services)) :: evs) = (s', rs) ->
    rs = map (fun x => Served (Ok (Some x))) (sv :: services) /\
    forall url' found, In url' [url; yadis] -> snd (do_event s' (Next url' found)) = snd (do_event [] (Next url' found)).
  Proof.
    intros s url yadis sv services evs s' rs N E F L H. cbn [run] in H.
    destruct (do_event s (Next url (Ok (yadis, sv :: services)))) as [s1 r] eqn:D. destruct (run s1 evs) as [s2 rs2] eqn:Rn. inv H.
    destruct (step_refines s None _ _ _ E N D) as (o1 & S1 & R1 & N1 & _).
    assert (r = Served (Ok (Some sv)) /\ o1 = Some (mkProgress url yadis (sv :: services) 1)) as (-> & ->).
    { inversion S1; subst; split; reflexivity. }
    destruct (more_calls _ _ _ _ _ R1 N1 Rn) as (-> & R2 & N2); auto. { cbn. lia. }
    cbn [pg_url pg_yadis pg_found pg_done skipn] in *. rewrite L, firstn_all. split; auto.
    intros url' found Hu. cbn [do_event]. cbn [rep pg_done pg_found pg_url pg_yadis] in R2. destruct R2 as (_ & c & _ & G).
    assert (skipn (1 + length services) (sv :: services) = []) as Sk by (cbn [Nat.add skipn]; apply skipn_all).
    rewrite L, Sk in G. unfold getNextService, destroyManager, createManager, getManager. rewrite G.
    assert (mg_forURL (mkManager url (Some yadis) ([] : list Sv) key (Some c)) url' = true) as Fu.
    { unfold mg_forURL. cbn. apply orb_true_iff. rewrite !text_eqb_eq. destruct Hu as [<-|[<-|[]]]; auto. }
    rewrite Fu. cbn [orb mg_true mg_services]. rewrite (dget_ddel_same text_eqb text_eqb_eq) by auto. cbn [dget].
    destruct found as [[y l]|x]; [|reflexivity]. destruct l as [|z l]; reflexivity.
  Qed.

  (** What is handed out for a URL was found by discovery that started or ended at that URL. *)
  Lemma spec_origin o evs rs o' : spec_run o evs rs o' -> forall i url found sv,
    nth_error evs i = Some (Next url found) -> nth_error rs i = Some (Served (Ok (Some sv))) ->
    (exists p, o = Some p /\ concerns p url /\ In sv (pg_found p)) \/
    exists j url' yadis l, (j <= i)%nat /\ nth_error evs j = Some (Next url' (Ok (yadis, l))) /\ In sv l /\ (url = url' \/ url = yadis).
  Proof.
    induction 1 as [o|o ev r o1 evs rs o2 Hs Hr IH]; intros i url found sv E1 E2; [destruct i; discriminate|]. destruct i as [|i].
    - cbn in E1, E2. inv E1. inv E2. inversion Hs; subst.
      + left. exists p. split; auto. split; auto. eapply nth_error_In; eauto.
      + right. exists 0%nat, url, yadis, (sv :: l). split; auto. split; auto. split; [left|]; auto.
    - destruct (IH i url found sv E1 E2) as [(p & -> & C & I)|(j & url' & y & l & L & X)].
      + clear - Hs C I. inversion Hs; subst; cbn in *.
        * left. exists p0. auto.
        * inversion H; subst. left. eauto.
        * inversion H; subst. left. eauto.
        * right. exists 0%nat, url0, yadis, (s :: l). split; [lia|]. split; auto.
        * left. eauto.
      + right. exists (S j), url', y, l. split; [lia|]. exact X.
  Qed.
  Theorem C50_never_another_url : forall evs s s' rs i url found sv, NoDup (dkeys s) -> dget text_eqb key s = None -> run s evs = (s', rs) ->
    nth_error evs i = Some (Next url found) -> nth_error rs i = Some (Served (Ok (Some sv))) ->
    exists j url' yadis l, (j <= i)%nat /\ nth_error evs j = Some (Next url' (Ok (yadis, l))) /\ In sv l /\ (url = url' \/ url = yadis).
  Proof.
    intros evs s s' rs i url found sv N E H E1 E2. destruct (C50_refines _ _ _ _ N E H) as ((o & Sp) & _).
    destruct (spec_origin _ _ _ _ Sp _ _ _ _ E1 E2) as [(p & X & _)|X]; [discriminate|exact X].
  Qed.

  (** Cleaning up returns the service handed out last, and nothing if it was cleaned up already. *)
  Definition quiet (r : result) : Prop := (forall sv, r <> Served (Ok (Some sv))) /\ (forall sv, r <> Cleaned (Some sv)).
  Definition last_served (rs : list result) (sv : Sv) : Prop := exists before after, rs = before ++ Served (Ok (Some sv)) :: after /\ Forall quiet after.
  Lemma spec_last o evs rs o' : spec_run o evs rs o' -> forall done,
    (forall p, o = Some p -> exists c, nth_error (pg_found p) (pred (pg_done p)) = Some c /\ last_served done c) ->
    forall i sv, nth_error rs i = Some (Cleaned (Some sv)) -> last_served (done ++ firstn i rs) sv.
  Proof.
    induction 1 as [o|o ev r o1 evs rs o2 Hs Hr IH]; intros done Hd i sv E; [destruct i; discriminate|]. destruct i as [|i].
    - cbn in E. inv E. inversion Hs; subst. cbn [firstn]. rewrite app_nil_r. destruct (Hd p eq_refl) as (c & X & Y). congruence.
    - cbn [firstn]. replace (done ++ r :: firstn i rs) with ((done ++ [r]) ++ firstn i rs) by (rewrite <- app_assoc; reflexivity).
      apply IH; auto. intros p ->. clear - Hs Hd.
      assert (forall q c, o = Some q -> nth_error (pg_found q) (pred (pg_done q)) = Some c -> quiet r -> last_served (done ++ [r]) c) as K.
      { intros q c -> Hc Q. destruct (Hd q eq_refl) as (c' & X & (b & a & -> & F)). assert (c' = c) as -> by congruence.
        exists b, (a ++ [r]). rewrite <- app_assoc. split; auto. apply Forall_app. auto. }
      assert (forall c, last_served (done ++ [Served (Ok (Some c))]) c) as K2 by (intros c; exists done, []; auto).
      assert (forall q, o = Some q -> exists c, nth_error (pg_found q) (pred (pg_done q)) = Some c) as K3 by (intros q Hq; destruct (Hd q Hq) as (c & X & _); eauto).
      inversion Hs; subst; cbn [pg_found pg_done pred] in *.
      + eauto.
      + inversion H; subst. destruct (K3 p eq_refl) as (c & X). exists c. split; auto. apply (K p); auto. split; congruence.
      + inversion H; subst. destruct (K3 p eq_refl) as (c & X). exists c. split; auto. apply (K p); auto. split; congruence.
      + exists s. split; auto.
      + destruct (K3 p eq_refl) as (c & X). exists c. split; auto. apply (K p); auto. split; congruence.
  Qed.
  Theorem C50_cleanup_returns_last : forall evs s s' rs i sv, NoDup (dkeys s) -> dget text_eqb key s = None -> run s evs = (s', rs) ->
    nth_error rs i = Some (Cleaned (Some sv)) -> last_served (firstn i rs) sv.
  Proof.
    intros evs s s' rs i sv N E H Hi. destruct (C50_refines _ _ _ _ N E H) as ((o & Sp) & _).
    apply (spec_last _ _ _ _ Sp [] ltac:(discriminate) _ _ Hi).
  Qed.
End Services.
Print Assumptions C50_refines.
Print Assumptions C50_in_order_once_each.
Print Assumptions C50_never_another_url.
Print Assumptions C50_cleanup_returns_last.

Example C50_example :
  snd (run (u "k") [] [Next (u "a") (Ok (u "b", [1; 2])); Next (u "b") (Raise DiscoveryFailure); Clean (u "z") false;
                       Next (u "a") (Ok (u "c", [3])); Next (u "z") (Ok (u "z", [])); Clean (u "z") false; Clean (u "z") true]) =
  [Served (Ok (Some 1)); Served (Ok (Some 2)); Cleaned None; Served (Ok (Some 3)); Served (Ok None); Cleaned None; Cleaned (Some 3)].
Proof. vm_compute. reflexivity. Qed.

(** ** C96: the session of a consumer *)
Section Consumer.
  Variable e : uenv.
  Variable reg : dict text text.
  Variable hmac : text -> bytes -> bytes -> bytes.
  Variable params_ok : Z -> Z -> bool.
  Variable pub_ok : Z -> Z -> Z -> bool.
  Variable hash : hash_alg -> bytes -> bytes.
  Variable udigit : N -> option Z.
  Variable net : list post -> option (N * bytes).
  Variable discover : text -> res (text * list endpoint).
  Context {S : Type} (step : S -> Z -> Store.op -> S * out).

  (** The calls an application makes, each at its own time and with its own randomness. *)
  Inductive call :=
  | Begin (now : Z) (neg : negotiator) (user_url : text) (anonymous : bool) (x1 x2 : Z) (salt : text)
  | BeginWith (now : Z) (neg : negotiator) (service : endpoint) (anonymous : bool) (x1 x2 : Z) (salt : text)
  | Complete (now : Z) (query : dict text text) (current_url : text).
  Inductive outcome := Request (r : res authreq) | Response (r : res response).
  Definition do_call (s : @usession S) (c : call) : usession * outcome :=
    match c with
    | Begin now neg url an x1 x2 salt =>
        let (s', r) := cbegin reg params_ok pub_ok hash net discover step now neg url an x1 x2 salt s in (s', Request r)
    | BeginWith now neg sv an x1 x2 salt =>
        let (s', r) := beginWithoutDiscovery reg params_ok pub_ok hash net step now neg sv an x1 x2 salt s in (s', Request r)
    | Complete now query url =>
        let (s', r) := ccomplete e reg hmac udigit net discover step now query url s in (s', Response r)
    end.
  (** The calls with the session before each and their outcomes. *)
  Fixpoint history (s : @usession S) (cs : list call) : list (@usession S * call * outcome) :=
    match cs with
    | [] => []
    | c :: cs => let (s', o) := do_call s c in (s, c, o) :: history s' cs
    end.

  (** Endpoints waiting for a response, told from the history alone: the one of the last
      request made, unless a response has been delivered since; a call that raises may
      change nothing or leave the endpoint of the request it was preparing. *)
  Inductive waiting : list (@usession S * call * outcome) -> option endpoint -> Prop :=
  | w_start : waiting [] None
  | w_request h s c r o : waiting h o -> waiting (h ++ [(s, c, Request (Ok r))]) (Some (ar_endpoint r))
  | w_response h s c r o : waiting h o -> waiting (h ++ [(s, c, Response (Ok r))]) None
  | w_failed_response h s c x o : waiting h o -> waiting (h ++ [(s, c, Response (Raise x))]) o
  | w_failed_request h s c x o : waiting h o -> waiting (h ++ [(s, c, Request (Raise x))]) o
  | w_anonymous h s c ep o : waiting h o -> compatibilityMode ep = true ->   (* an anonymous OpenID 1 request is refused late *)
      waiting (h ++ [(s, c, Request (Raise ConsumerProtocolError))]) (Some ep).

  Lemma begin_endpoint now neg ep x1 x2 salt s s' r :
    begin reg params_ok pub_ok hash net step now neg ep x1 x2 salt s = (s', Ok r) ->
    ar_endpoint r = ep /\ isOpenID1 (ar_message r) = compatibilityMode ep.
  Proof.
    intros H. unfold begin in H. apply cbind_Ok in H as (s1 & st & _ & H). apply cbind_Ok in H as (s2 & a & _ & H).
    apply cbind_Ok in H as (s3 & r0 & H3 & H). apply cret_Ok in H3 as (-> & H3). apply cret_Ok in H as (_ & H). injection H as <-.
    unfold AuthRequest in H3. binv H3. injection H3 as <-. cbn. split; auto. unfold compatibilityMode.
    unfold preferredNamespace in *. destruct (_ || _); vm_compute in E; injection E as <-; reflexivity.
  Qed.
  Lemma with_discovery_token now neg ep an x1 x2 salt s s' r : beginWithoutDiscovery reg params_ok pub_ok hash net step now neg ep an x1 x2 salt s = (s', r) ->
    us_managers s' = us_managers s /\
    match r with
    | Ok q => us_token s' = Some (ar_endpoint q) /\ ar_endpoint q = ep
    | Raise x => us_token s' = us_token s \/ (us_token s' = Some ep /\ compatibilityMode ep = true /\ an = true /\ x = ConsumerProtocolError)
    end.
  Proof.
    intros H. unfold beginWithoutDiscovery in H. destruct (begin _ _ _ _ _ _ _ _ _ _ _ _ _) as [c [q|x]] eqn:B.
    - destruct (begin_endpoint _ _ _ _ _ _ _ _ _ B) as (Ee & Ec). destruct (setAnonymous q an) as [q'|x] eqn:A; inv H; cbn.
      + unfold setAnonymous in A. destruct (an && _); inv A. auto.
      + split; auto. right. unfold setAnonymous in A. destruct (an && isOpenID1 (ar_message q)) eqn:B2; inv A. apply andb_prop in B2 as (-> & B2).
        rewrite Ec in B2. auto.
    - inv H. cbn. auto.
  Qed.
  Lemma begin_token now neg url an x1 x2 salt s s' r : cbegin reg params_ok pub_ok hash net discover step now neg url an x1 x2 salt s = (s', r) ->
    us_managers s' = fst (getNextService yadis_key url discover (us_managers s)) /\
    match r with
    | Ok q => us_token s' = Some (ar_endpoint q) /\ snd (getNextService yadis_key url discover (us_managers s)) = Ok (Some (ar_endpoint q))
    | Raise x => us_token s' = us_token s \/ exists ep, us_token s' = Some ep /\ compatibilityMode ep = true /\ an = true /\ x = ConsumerProtocolError
    end.
  Proof.
    intros H. unfold cbegin in H. destruct (getNextService yadis_key url discover (us_managers s)) as [m [[sv|]|x]]; cbn [fst snd].
    - apply with_discovery_token in H as (H1 & H2). split; auto. destruct r as [q|x]; [destruct H2 as (H2 & <-); auto|].
      destruct H2 as [H2|H2]; eauto.
    - inv H. auto.
    - destruct x; inv H; auto.
  Qed.
  Lemma complete_token now query url s s' r : ccomplete e reg hmac udigit net discover step now query url s = (s', r) ->
    us_token s' = match r with Ok _ => None | Raise _ => us_token s end.
  Proof.
    intros H. unfold ccomplete in H. destruct (fromPostArgs reg query) as [m|x]; [|inv H; auto].
    destruct (complete _ _ _ _ _ _ _ _ _ _ _ _) as [c [rs|x]]; inv H; auto.
  Qed.

  Lemma waiting_run cs : forall h0 s, waiting h0 (us_token s) ->
    forall h1 s1 c o h2, history s cs = h1 ++ (s1, c, o) :: h2 -> waiting (h0 ++ h1) (us_token s1).
  Proof.
    induction cs as [|c0 cs IH]; intros h0 s W h1 s1 c o h2 H; [destruct h1; discriminate|]. cbn [history] in H.
    destruct (do_call s c0) as [s' o0] eqn:D. destruct h1 as [|x h1].
    - cbn in H. injection H as <- <- <- <-. rewrite app_nil_r. auto.
    - cbn in H. injection H as <- H. rewrite (app_assoc h0 [(s, c0, o0)] h1 : h0 ++ (s, c0, o0) :: h1 = _). apply (IH (h0 ++ [(s, c0, o0)]) s') with (c := c) (o := o) (h2 := h2); auto.
      destruct c0; cbn [do_call] in D.
      + destruct (cbegin _ _ _ _ _ _ _ _ _ _ _ _ _ _ _) as [s2 r] eqn:B. inv D. apply begin_token in B as (_ & B). destruct r as [q|y].
        * destruct B as (-> & _). eapply w_request; eauto.
        * destruct B as [-> | (ep & -> & C & _ & ->)]; [eapply w_failed_request; eauto|eapply w_anonymous; eauto].
      + destruct (beginWithoutDiscovery _ _ _ _ _ _ _ _ _ _ _ _ _ _) as [s2 r] eqn:B. inv D. apply with_discovery_token in B as (_ & B). destruct r as [q|y].
        * destruct B as (-> & _). eapply w_request; eauto.
        * destruct B as [-> | (-> & C & _ & ->)]; [eapply w_failed_request; eauto|eapply w_anonymous; eauto].
      + destruct (ccomplete _ _ _ _ _ _ _ _ _ _ _) as [s2 r] eqn:B. inv D. apply complete_token in B as ->. destruct r; [eapply w_response|eapply w_failed_response]; eauto.
  Qed.

  (** A response is always checked against the endpoint waiting for one. *)
  Theorem C96_endpoint_of_last_request : forall st cs h1 s now query url r h2,
    history (mkSession [] None st) cs = h1 ++ (s, Complete now query url, Response r) :: h2 ->
    exists ep, waiting h1 ep /\
      r = (m <- fromPostArgs reg query ;;
           snd (complete e reg hmac udigit net (fun t => r <- discover t ;; Ok (snd r)) step now m ep url (us_state s))).
  Proof.
    intros st cs h1 s now query url r h2 H. exists (us_token s). split.
    - apply (waiting_run cs [] (mkSession [] None st)) with (c := Complete now query url) (o := Response r) (h2 := h2); auto. constructor.
    - assert (exists s', ccomplete e reg hmac udigit net discover step now query url s = (s', r)) as (s' & C).
      { clear - H. revert H. generalize (mkSession [] None st) as s0. revert h1. induction cs as [|c cs IH]; intros h1 s0 H; [destruct h1; discriminate|].
        cbn [history] in H. destruct (do_call s0 c) as [s1 o] eqn:D. destruct h1 as [|x h1]; cbn in H.
        - injection H as -> -> -> _. cbn [do_call] in D. destruct (ccomplete _ _ _ _ _ _ _ _ _ _ s) as [s2 r2]. inv D. eauto.
        - injection H as _ H. eapply IH; eauto. }
      unfold ccomplete in C. destruct (fromPostArgs reg query) as [m|x]; [|inv C; auto]. cbn [bind].
      destruct (complete _ _ _ _ _ _ _ _ _ _ _ _) as [c [rs|x]]; inv C; auto.
  Qed.

  (** A new request is for the next service of the session; when authentication succeeded or
      was cancelled for an identifier, the remaining services are forgotten, and otherwise
      they are kept for the next attempt. *)
  Theorem C96_next_service : forall now neg url an x1 x2 salt s s' q,
    cbegin reg params_ok pub_ok hash net discover step now neg url an x1 x2 salt s = (s', Ok q) ->
    getNextService yadis_key url discover (us_managers s) = (us_managers s', Ok (Some (ar_endpoint q))).
  Proof.
    intros now neg url an x1 x2 salt s s' q H. apply begin_token in H as (H1 & _ & H2).
    destruct (getNextService _ _ _ _) as [m r]. cbn in *. subst. auto.
  Qed.
  Theorem C96_services_after_response : forall now query url s s' r,
    NoDup (dkeys (us_managers s)) -> ccomplete e reg hmac udigit net discover step now query url s = (s', Ok r) ->
    match r with
    | Success ep _ _ => ep_claimed_id ep <> None -> dget text_eqb yadis_key (us_managers s') = None
    | Cancel (Some ep) => ep_claimed_id ep <> None -> dget text_eqb yadis_key (us_managers s') = None
    | Cancel None | Failure _ _ | SetupNeeded _ _ => us_managers s' = us_managers s
    end /\ forall k, k <> yadis_key -> dget text_eqb k (us_managers s') = dget text_eqb k (us_managers s).
  Proof.
    intros now query url s s' r N H. unfold ccomplete in H. destruct (fromPostArgs reg query) as [m|x]; [|discriminate].
    destruct (complete _ _ _ _ _ _ _ _ _ _ _ _) as [c [rs|x]]; inv H. cbn [us_managers].
    assert (forall u0, dget text_eqb yadis_key (fst (cleanup yadis_key u0 true (us_managers s))) = None) as G.
    { intros u0. unfold cleanup, destroyManager, getManager. destruct (dget text_eqb yadis_key (us_managers s)) as [mg|] eqn:D; [|exact D].
      rewrite orb_true_r. cbn [fst]. apply (dget_ddel_same text_eqb text_eqb_eq); auto. }
    assert (forall u0 k, k <> yadis_key -> dget text_eqb k (fst (cleanup yadis_key u0 true (us_managers s))) = dget text_eqb k (us_managers s)) as K.
    { intros u0 k Hk. unfold cleanup, destroyManager, getManager. destruct (dget text_eqb yadis_key (us_managers s)) as [mg|]; auto.
      rewrite orb_true_r. cbn [fst]. apply (dget_ddel_other text_eqb text_eqb_eq); auto. }
    destruct r as [ep m' f|ep d|[ep|]|ep t]; unfold identity_url; cbn [response_endpoint]; auto.
    - destruct (ep_claimed_id ep); [split; auto|]. split; auto. intros X. congruence.
    - destruct (ep_claimed_id ep); [split; auto|]. split; auto. intros X. congruence.
  Qed.
End Consumer.
Print Assumptions C96_endpoint_of_last_request.
Print Assumptions C96_next_service.
Print Assumptions C96_services_after_response.

(** A user is sent to the first service, fails, is sent to the second, and succeeds with it. *)
Definition ep_bad : endpoint := mkEndpoint (Some (u "http://a/b")) (Some (u "http://op/other")) [OPENID_2_0_TYPE] None None true None.
Definition ex_services (t : text) : res (text * list endpoint) := if text_eqb t (u "http://a/b") then Ok (t, [ep_bad; ex_ep]) else Raise DiscoveryFailure.
Definition ex_calls : list call :=
  [Begin 1000 (neg_history [NSet default_association_order]) (u "http://a/b") false 5 7 (u "s1"); Complete 1001 [(u "openid.mode", u "error")] (u "http://rp/back");
   Begin 1000 (neg_history [NSet default_association_order]) (u "http://a/b") false 5 7 (u "s1"); Complete 1001 (ex_query (u "http://a/b") (u "http://rp/back") []) (u "http://rp/back");
   Complete 1001 [(u "openid.mode", u "cancel")] (u "http://rp/back")].
Definition ex_history := history plain_env [] toy_hmac (fun _ _ => true) (fun _ _ _ => true) (fun _ b => b) (fun _ => None) (fun _ => None) ex_services mem_step
  (mkSession [] None (mkCst (Some ex_store) [])) ex_calls.
Example C96_example :
  match map (fun x => snd x) ex_history with
  | [Request (Ok q0); Response (Ok (Failure (Some ep0) _)); Request (Ok q); Response (Ok (Success ep _ _)); Response (Ok (Cancel None))] =>
      ar_endpoint q0 = ep_bad /\ ep0 = ep_bad /\ ar_endpoint q = ex_ep /\ ep = ex_ep
  | _ => False
  end.
Proof. vm_compute. auto. Qed.

(** C97: a cancelled login at a provider that chooses the identity leaves the other
    services in the session, and the user who starts again is sent to the next of them. *)
Theorem C97_cancel_forgets_services_refuted :
  exists discover begin_call cancel_call h1 s2 ep s3 q,
    history plain_env [] toy_hmac (fun _ _ => true) (fun _ _ _ => true) (fun _ b => b) (fun _ => None) (fun _ => None) discover mem_step
      (mkSession [] None (mkCst None [])) [begin_call; cancel_call; begin_call] =
    [h1; (s2, cancel_call, Response (Ok (Cancel (Some ep)))); (s3, begin_call, Request (Ok q))] /\
    dget text_eqb yadis_key (us_managers s3) <> None /\
    ep_server_url ep = Some (u "http://op/1") /\ ep_server_url (ar_endpoint q) = Some (u "http://op/2").
Proof.
  exists (fun t => Ok (t, [fromOPEndpointURL (u "http://op/1"); fromOPEndpointURL (u "http://op/2")])).
  exists (Begin 1000 (neg_history []) (u "http://op/") false 5 7 (u "s1")), (Complete 1001 [(u "openid.mode", u "cancel")] (u "http://rp/back")).
  do 5 eexists. split; [vm_compute; reflexivity|]. split; [vm_compute; discriminate|].
  split; vm_compute; reflexivity.
Qed.
Print Assumptions C97_cancel_forgets_services_refuted.
