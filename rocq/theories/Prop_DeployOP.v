(** C184, C185: processes of a provider on the file or the SQLite store, with the inside of the store. *)
From Coq Require Import Lia ZifyBool ZifyN ZifyNat.
From Verif Require Import Py PyFacts Utf8 KVForm CryptUtil DH Message MessageFacts MessageWire MessageParse MessageSpec MessageRound Prop_Message.
From Verif Require Import FileStore FileSys FileAtomic Prop_FileNames Prop_StoreFile FileSysFacts Prop_FileSys Prop_FileAtomic SqlTxn SqlConc DeployStores Deploy DeployFacts.
From Verif Require Import Association AssociationFacts Prop_Association Nonce Store StoreSpec StoreFacts Server ServerFacts SignatoryFacts Prop_ServerDecode ServerStores Prop_Signatory Prop_EndToEnd Conc ConcFacts ServerConc ServerConcFacts Prop_ServerConc.
Import Py Store Server ServerConc.
Open Scope Z_scope.
Local Arguments u : simpl never.

(** ** A job that has finished well has had no exception from its store *)
Definition clean {A} (m : script -> script * res A) : Prop :=
  forall outs acc s a, m (mkScript outs acc) = (s, Ok a) ->
    exists used rest more, outs = used ++ rest /\ s = mkScript rest (acc ++ more) /\ List.length used = List.length more /\ Forall (fun r => forall x, r <> Err x) used.
Lemma cl_ret {A} (r : res A) : clean (sret r).
Proof. intros outs acc s a H. apply sret_Ok in H as (-> & _). exists [], outs, []. rewrite app_nil_r. auto. Qed.
Lemma cl_bind {A B} (m : script -> script * res A) (k : A -> script -> script * res B) : clean m -> (forall a, clean (k a)) -> clean (sbind m k).
Proof.
  intros M K outs acc s b H. apply sbind_Ok in H as (a & s1 & H1 & H2). destruct (M _ _ _ _ H1) as (u1 & r1 & m1 & -> & -> & L1 & F1).
  destruct (K a _ _ _ _ H2) as (u2 & r2 & m2 & -> & -> & L2 & F2). exists (u1 ++ u2), r2, (m1 ++ m2). rewrite <- !app_assoc. split; auto. split; auto. split; [rewrite !app_length; lia|]. apply Forall_app. auto.
Qed.
Lemma cl_get now key handle : clean (store_get script_step now key handle).
Proof.
  intros outs acc s o H. apply get_script in H as (rest & -> & ->). exists [Got o], rest, [GetA key (Some handle)]. split; auto. split; auto. split; auto. constructor; [discriminate|constructor].
Qed.
Lemma cl_unit now o : clean (store_unit script_step now o).
Proof.
  intros outs acc s a H. pose proof H as H'. apply unit_script in H' as (x & rest & -> & ->). exists [x], rest, [o]. split; auto. split; auto. split; auto. constructor; [|constructor].
  intros e ->. unfold store_unit in H. change (script_step _ now o) with (mkScript rest (acc ++ [o]), Err e) in H. discriminate.
Qed.
Lemma cl_getAssociation now h dumb chk : clean (getAssociation script_step now h dumb chk).
Proof.
  unfold getAssociation. apply cl_bind; [apply cl_get|]. intros [a|]; [|apply cl_ret]. destruct (_ && _); [|apply cl_ret]. apply cl_bind; [apply cl_unit|]. intros _. apply cl_ret.
Qed.
Lemma cl_create now secret uniq dumb ty : clean (createAssociation script_step now secret uniq dumb ty).
Proof.
  unfold createAssociation. apply cl_bind; [apply cl_ret|]. intros n. apply cl_bind; [apply cl_ret|]. intros a. apply cl_bind; [apply cl_unit|]. intros _. apply cl_ret.
Qed.
Lemma cl_map {A B} (m : script -> script * res A) (f : A -> B) : clean m -> clean (fun s => let '(s', r) := m s in (s', rmap f r)).
Proof. intros M outs acc s b H. destruct (m (mkScript outs acc)) as (s' & [a|x]) eqn:E; cbn in H; inv H. eapply M; eauto. Qed.
Lemma job_clean hmac pub_ok hash j : clean (run_job hmac pub_ok hash script_step j).
Proof.
  destruct j as [now c|now secret uniq r|neg now secret uniq c]; unfold run_job.
  - apply (cl_map (CheckAuth_answer hmac script_step now c)). unfold CheckAuth_answer, verify. apply cl_bind.
    { apply cl_bind; [apply cl_getAssociation|]. intros [a|]; apply cl_ret. }
    intros v. apply cl_bind; [apply cl_unit|]. intros _. apply cl_bind; [apply cl_ret|]. intros r. apply cl_bind; [apply cl_ret|]. intros r'.
    destruct (ca_invalidate_handle c) as [i|]; [|apply cl_ret]. destruct (truthy i); [|apply cl_ret]. apply cl_bind; [apply cl_getAssociation|]. intros [a|]; apply cl_ret.
  - apply (cl_map (encodeResponse hmac script_step now secret uniq r)). unfold encodeResponse. apply cl_bind; [apply cl_ret|]. intros needs. apply cl_bind; [|intros; apply cl_ret]. destruct needs; [|apply cl_ret].
    apply cl_bind; [apply cl_ret|]. intros [|]; [apply cl_ret|]. unfold sign_response. apply cl_bind; [apply cl_ret|]. intros h. apply cl_bind; [|intros; apply cl_ret].
    destruct h as [h|]; [|apply cl_bind; [apply cl_create|intros; apply cl_ret]]. destruct (truthy h); [|apply cl_bind; [apply cl_create|intros; apply cl_ret]].
    apply cl_bind; [apply cl_getAssociation|]. intros o. destruct (match o with Some a => run_out a now | None => true end).
    + apply cl_bind; [apply cl_ret|]. intros r'. apply cl_bind. { destruct o; [apply cl_unit|apply cl_ret]. } intros _. apply cl_bind; [apply cl_create|intros; apply cl_ret].
    + destruct o; apply cl_ret.
  - apply (cl_map (openid_associate pub_ok hash script_step neg now secret uniq c)). unfold openid_associate. cbv zeta. destruct (isAllowed _ _ _); [|apply cl_ret]. apply cl_bind; [apply cl_create|intros; apply cl_ret].
Qed.

Section OP.
  Variable hmac : text -> bytes -> bytes -> bytes.
  Variable pub_ok : Z -> Z -> Z -> bool.
  Variable hash : hash_alg -> bytes -> bytes.
  Notation with_answers := (with_answers hmac pub_ok hash).
  Notation next_call := (next_call hmac pub_ok hash).
  Notation finished := (finished hmac pub_ok hash).
  Variable jobs : list job.

  Lemma finished_result j outs r : finished j outs = Some r -> snd (with_answers j outs) = r.
  Proof using. unfold ServerConc.finished. destruct (next_call j outs); [discriminate|]. intros X. inv X. auto. Qed.
  Lemma finished_no_err j outs r k o : finished j outs = Some (Ok r) -> nth_error (asked (fst (with_answers j outs))) k = Some o ->
    exists a, nth_error outs k = Some a /\ forall x, a <> Err x.
  Proof using.
    intros F K. apply finished_result in F. unfold ServerConc.with_answers in *. destruct (run_job hmac pub_ok hash script_step j (mkScript outs [])) as (s & x) eqn:E. cbn [fst snd] in *. subst x.
    destruct (job_clean hmac pub_ok hash j _ _ _ _ E) as (used & rest & more & -> & -> & L & F). cbn [asked app] in K.
    assert (k < List.length used)%nat as Lk by (rewrite L; apply nth_error_Some; congruence). rewrite nth_error_app1 by auto.
    destruct (nth_error used k) as [a|] eqn:N; [|apply nth_error_None in N; lia]. exists a. split; auto. rewrite Forall_forall in F. apply F. eapply nth_error_In; eauto.
  Qed.
  (** The k-th call of a finished job, in the log. *)
  Lemma job_kth log i j k r o : ends_ok log -> obeys next_call jobs log -> nth_error jobs i = Some j -> finished j (answers_in i log) = Some (Ok r) ->
    nth_error (asked (fst (with_answers j (answers_in i log)))) k = Some o ->
    exists l2 t a l1, log = l2 ++ Ended i t o a :: l1 /\ answers_in i l1 = firstn k (answers_in i log) /\ running l1 i = Some o /\
      nth_error (answers_in i log) k = Some a /\ forall x, a <> Err x.
  Proof using.
    intros E O N F K. destruct (finished_no_err _ _ _ _ _ F K) as (a & A & Ne). assert (k < List.length (answers_in i log))%nat as L by (apply nth_error_Some; congruence).
    destruct (nth_ended _ jobs i j N log k E O L) as (l2 & t & o' & a' & l1 & El & An & B & C & D). rewrite (asked_stable hmac pub_ok hash) in K by lia.
    assert (o' = o) as -> by congruence. assert (a' = a) as -> by congruence. exists l2, t, a, l1. auto.
  Qed.
  (** Who stores an association. *)
  Lemma who_stores log k t key a : obeys next_call jobs log -> In (Began k t (StoreA key a)) log ->
    nth_error jobs k = None \/
    (exists now secret uniq r ty, nth_error jobs k = Some (JSign now secret uniq r) /\ key = dumb_key /\ known_type ty /\ a = fresh_assoc now secret uniq ty) \/
    (exists neg now secret uniq c ty, nth_error jobs k = Some (JAssociate neg now secret uniq c) /\ key = normal_key /\ known_type ty /\ a = fresh_assoc now secret uniq ty).
  Proof using.
    intros O H. destruct (began_next _ _ _ _ _ _ O H) as [N|(j & outs & N & X)]; auto. right. apply (next_may hmac pub_ok hash) in X. destruct j as [now c|now secret uniq r|neg now secret uniq c]; cbn in X; [contradiction| |].
    - destruct X as (-> & ty & T & ->). left. exists now, secret, uniq, r, ty. auto.
    - destruct X as (-> & ty & T & ->). right. exists neg, now, secret, uniq, c, ty. auto.
  Qed.

  (** C184: a check_authentication that is answered has looked up the private association of the
      assertion's handle as its first call; it says yes exactly if it found one that has not run out and verifies the assertion; and
      what it found was made and handed to storeAssociation by a signing job before, or by others. *)
  Theorem C184_confirmed : forall log i now c r, store_log log -> obeys next_call jobs log -> nth_error jobs i = Some (JCheck now c) ->
    finished (JCheck now c) (answers_in i log) = Some (Ok (AResponse r)) ->
    exists (v : bool) l2 t o l1, field_is r (u "is_valid") (Some (if v then u "true" else u "false")) /\
      log = l2 ++ Ended i t (GetA dumb_key (Some (ca_assoc_handle c))) (Got o) :: l1 /\ answers_in i l1 = [] /\ running l1 i = Some (GetA dumb_key (Some (ca_assoc_handle c))) /\
      (v = true <-> exists a, o = Some a /\ now < a_issued a + a_lifetime a /\ checkMessageSignature hmac a (ca_signed c) = Ok true) /\
      (forall a, o = Some a -> ca_assoc_handle c <> [] -> a_handle a = ca_assoc_handle c /\
         exists k t', In (Began k t' (StoreA dumb_key a)) l1 /\
           (nth_error jobs k = None \/
            exists now' secret uniq r' ty, nth_error jobs k = Some (JSign now' secret uniq r') /\ known_type ty /\ a = fresh_assoc now' secret uniq ty)).
  Proof using.
    intros log i now c r SL O N F. destruct (store_log_atomic log SL) as (now0 & A & S & La). destruct (ends_ok_all now0 A S) as (_ & E). rewrite La in E.
    destruct (check_script hmac pub_ok hash now c _ r (finished_result _ _ _ F)) as (o & rest & more & v & Ou & As & _ & V & W).
    destruct (job_kth log i _ 0 _ (GetA dumb_key (Some (ca_assoc_handle c))) E O N F) as (l2 & t & x & l1 & El & An & Ru & Ax & _); [rewrite As; auto|].
    rewrite Ou in Ax. cbn in Ax. injection Ax as <-. exists v, l2, t, o, l1. split; auto. split; auto. split; auto. split; auto. split.
    - rewrite W. split; intros (a & X1 & X2 & X3); exists a; (split; [auto|]; split; [|auto]).
      + apply run_out_false in X2. cbn in X2. destruct (_ <? _) eqn:Y; [lia|discriminate].
      + apply run_out_false. cbn. destruct (now <? _) eqn:Y; [auto|lia].
    - intros a -> Ne. pose proof El as El'. rewrite <- La in El'. destruct (found_stored now0 A S _ _ _ _ _ _ _ Ne El') as (Ha & k & t' & B). split; auto. exists k, t'. split; auto.
      assert (In (Began k t' (StoreA dumb_key a)) log) as Z. { rewrite El. apply in_or_app. right. right. auto. }
      destruct (who_stores _ _ _ _ _ O Z) as [X|[(now' & secret & uniq & r' & ty & X1 & _ & X2)|(neg & now' & secret & uniq & c' & ty & _ & X & _)]]; auto; [|discriminate].
      right. exists now', secret, uniq, r', ty. auto.
  Qed.

  (** C184: a signed answer names the association that it is signed with: the shared one that was
      asked for, which the signing process found, unexpired, and which an associate job, or somebody else, had begun to store;
      or a private one that the job has made, and put into the store before it answers. *)
  Theorem C184_signed : forall reg log i now secret uniq r c w, store_log log -> obeys next_call jobs log -> nth_error jobs i = Some (JSign now secret uniq r) ->
    mac_bytes hmac -> built reg (rs_fields r) -> rs_request r = RCheckID c -> field_is r (u "mode") (Some (u "id_res")) ->
    (forall f, wire_value (toPostArgs (rs_fields r)) f <> None -> ~ In (u "sig") (splitc 44 f)) ->
    finished (JSign now secret uniq r) (answers_in i log) = Some (Ok (AWeb w)) ->
    exists a m, encode_response (mkResponse (RCheckID c) m) = Ok w /\ checkMessageSignature hmac a m = Ok true /\
      getArg m OPENID_NS (u "assoc_handle") = Ok (Some (a_handle a)) /\
      ((exists h l2 t l1, ci_assoc_handle c = Some h /\ h <> [] /\ a_handle a = h /\ now < a_issued a + a_lifetime a /\
          getArg m OPENID_NS (u "invalidate_handle") = getArg (rs_fields r) OPENID_NS (u "invalidate_handle") /\
          log = l2 ++ Ended i t (GetA normal_key (Some h)) (Got (Some a)) :: l1 /\
          exists k t', In (Began k t' (StoreA normal_key a)) l1 /\
            (nth_error jobs k = None \/ exists neg now' secret' uniq' c' ty, nth_error jobs k = Some (JAssociate neg now' secret' uniq' c') /\ known_type ty /\ a = fresh_assoc now' secret' uniq' ty)) \/
       (exists ty t x, known_type ty /\ a = fresh_assoc now secret uniq ty /\ In (Ended i t (StoreA dumb_key a) x) log /\ (forall e, x <> Err e) /\
          forall h, ci_assoc_handle c = Some h -> h <> [] -> getArg m OPENID_NS (u "invalidate_handle") = Ok (Some h))).
  Proof using.
    intros reg log i now secret uniq r c w SL O N Mb B Q M Ns Fi. destruct (store_log_atomic log SL) as (now0 & A & S & La). destruct (ends_ok_all now0 A S) as (_ & E). rewrite La in E.
    assert (needsSigning r = Ok true) as Nd. { unfold needsSigning. rewrite M. cbn [bind opt_eqb]. rewrite text_eqb_refl. auto. }
    destruct (sign_script hmac pub_ok hash now secret uniq r _ w (finished_result _ _ _ Fi) Nd) as (a & r1 & m & hd & more & Sm & En & Hd & Cases). cbv zeta in Cases.
    rewrite Q in Hd. cbn in Hd. injection Hd as Hd.
    assert (exists oid, core (rs_fields r) oid) as (oid & C).
    { unfold field_is, getArg, fixNS in M. destruct (getOpenIDNamespace (rs_fields r)) as [v|] eqn:Ev; [|discriminate]. exists v. eapply built_core; eauto. }
    assert (forall r1, (r1 = r \/ exists h, setField r (u "invalidate_handle") h = Ok r1) -> signMessage hmac a (rs_fields r1) = Ok m -> 
      rs_request r1 = RCheckID c /\ checkMessageSignature hmac a m = Ok true /\ getArg m OPENID_NS (u "assoc_handle") = Ok (Some (a_handle a)) /\
      getArg m OPENID_NS (u "invalidate_handle") = getArg (rs_fields r1) OPENID_NS (u "invalidate_handle")) as Z.
    { clear r1 Sm En Cases. intros r1 H Sm.
      assert (rs_request r1 = RCheckID c /\ core (rs_fields r1) oid /\ built reg (rs_fields r1) /\
              (forall f, wire_value (toPostArgs (rs_fields r1)) f <> None -> ~ In (u "sig") (splitc 44 f))) as (Q1 & C1 & B1 & Ns1).
      { destruct H as [->|(h & H)]; auto. destruct (setField_core reg r oid (u "invalidate_handle") h C B) as (r2 & E2 & Q2 & C2 & B2 & M2 & N2). rewrite H in E2. inv E2.
        split; [congruence|]. split; auto. split; auto. intros f Hf. destruct (list_eq_dec N.eq_dec f (u "invalidate_handle")) as [->|Ne].
        - vm_compute. intuition discriminate.
        - apply Ns. intros X. apply Hf. unfold wire_value in *. rewrite <- X. apply (post_set_other (rs_fields r) oid (u "invalidate_handle") h); auto; [apply C2|].
          intros Y. apply app_inv_head in Y. auto. }
      pose proof (signMessage_Ok hmac a _ oid m C1 Sm) as SA. destruct SA as [_ C' N' _ _ (m1 & b & C1' & N1' & A1 & _ & A3 & _) _ _]. cbv zeta in A3.
      split; auto. split; [eapply C07_signed_message_verifies; eauto|]. rewrite !(core_get _ _ _ C'), (core_get _ _ _ C1), A3.
      rewrite !(dget_dset_other akey_eqb akey_eqb_eq) by (apply akey_ne; discriminate). rewrite A1, (dget_dset_same akey_eqb akey_eqb_eq).
      rewrite (dget_dset_other akey_eqb akey_eqb_eq) by (apply akey_ne; discriminate). auto. }
    destruct Cases as [(h & rest & Eh & Ne & As & Ou & RO & ->)|[(h & o & rest & ty & Eh & Ne & As & Ou & RO & Sf & I & T & Ea)|(ty & Eh & As & -> & T & Ea)]].
    - destruct (Z r (or_introl eq_refl) Sm) as (Z1 & Z2 & Z3 & Z4). rewrite Z1 in En. exists a, m. split; auto. split; auto. split; auto. left.
      destruct (job_kth log i _ 0 _ (GetA normal_key (Some h)) E O N Fi) as (l2 & t & x & l1 & El & An & Ru & Ax & _); [rewrite As; auto|]. rewrite Ou in Ax. cbn in Ax. injection Ax as <-.
      exists h, l2, t, l1. pose proof El as El'. rewrite <- La in El'. destruct (found_stored now0 A S _ _ _ _ _ _ _ Ne El') as (Ha & k & t' & Bg).
      split; [congruence|]. split; auto. split; auto. split. { apply run_out_false in RO. cbn in RO. destruct (_ <? _) eqn:X; [lia|discriminate]. }
      split; auto. split; auto. exists k, t'. split; auto. assert (In (Began k t' (StoreA normal_key a)) log) as Y. { rewrite El. apply in_or_app. right. right. auto. }
      destruct (who_stores _ _ _ _ _ O Y) as [X|[(now' & secret' & uniq' & r' & ty & _ & X & _)|(neg & now' & secret' & uniq' & c' & ty & X1 & _ & X2)]]; auto; [discriminate|].
      right. exists neg, now', secret', uniq', c', ty. auto.
    - destruct (Z r1 (or_intror (ex_intro _ h Sf)) Sm) as (Z1 & Z2 & Z3 & Z4). rewrite Z1 in En. exists a, m. split; auto. split; auto. split; auto. right.
      apply In_nth_error in I as (k & I). destruct (job_kth log i _ (Datatypes.S k) _ (StoreA dumb_key a) E O N Fi) as (l2 & t & x & l1 & El & _ & _ & _ & Nx); [rewrite As; exact I|].
      exists ty, t, x. split; auto. split; auto. split; [rewrite El; apply in_or_app; right; left; auto|]. split; auto.
      intros h' H' _. assert (h' = h) as -> by congruence. rewrite Z4.
      destruct (setField_core reg r oid (u "invalidate_handle") h C B) as (r2 & E2 & Q2 & C2 & B2 & M2 & N2). rewrite Sf in E2. inv E2.
      rewrite (core_get _ _ _ C2), M2, (dget_dset_same akey_eqb akey_eqb_eq). auto.
    - destruct (Z r (or_introl eq_refl) Sm) as (Z1 & Z2 & Z3 & Z4). rewrite Z1 in En. exists a, m. split; auto. split; auto. split; auto. right.
      destruct (job_kth log i _ 0 _ (StoreA dumb_key a) E O N Fi) as (l2 & t & x & l1 & El & _ & _ & _ & Nx); [rewrite As; auto|].
      exists ty, t, x. split; auto. split; auto. split; [rewrite El; apply in_or_app; right; left; auto|]. split; auto. intros h' H' Ne. destruct Eh as [Eh|Eh]; congruence.
  Qed.

  (** C185: if a check has been answered, and then another process begins to check an assertion
      with the same handle, the second says no: provided that no private association is stored under the handle
      from the beginning of the first check on, that those stored before are the same, and that the second
      process reads the clock after its lookup. *)
  Theorem C185_confirmed_once : forall l3 l2 l1 i now c r j now' c' r',
    let log := l3 ++ l2 ++ l1 in let h := ca_assoc_handle c in
    store_log log -> obeys next_call jobs log ->
    nth_error jobs i = Some (JCheck now c) -> nth_error jobs j = Some (JCheck now' c') -> ca_assoc_handle c' = h -> h <> [] ->
    (* the one runs within l2, the other begins in l3 *)
    answers_in i l1 = [] -> finished (JCheck now c) (answers_in i (l2 ++ l1)) = Some (Ok (AResponse r)) ->
    answers_in j (l2 ++ l1) = [] -> running (l2 ++ l1) j = None ->
    (* nobody is storing under the handle when the one begins, nor afterwards *)
    (forall k a, running l1 k = Some (StoreA dumb_key a) -> a_handle a <> h) ->
    (forall k t a, In (Began k t (StoreA dumb_key a)) (l3 ++ l2) -> a_handle a <> h) ->
    (forall k t a k' t' a', In (Began k t (StoreA dumb_key a)) l1 -> In (Began k' t' (StoreA dumb_key a')) l1 -> a_handle a = h -> a_handle a' = h -> a = a') ->
    (forall t o, In (Ended j t (GetA dumb_key (Some h)) o) log -> t <= now') ->
    finished (JCheck now' c') (answers_in j log) = Some (Ok (AResponse r')) ->
    field_is r' (u "is_valid") (Some (u "false")).
  Proof using.
    intros l3 l2 l1 i now c r j now' c' r' log h SL O Ni Nj Eh Ne N1 Fi N2 N3 Q Ns Same Cl Fj.
    destruct (C184_confirmed log j now' c' r' SL O Nj Fj) as (v & p2 & t & o & p1 & V & El & _ & Ru & W & St). destruct v; auto. exfalso.
    destruct (proj1 W eq_refl) as (a & -> & Fr & _). rewrite Eh in *. destruct (St a eq_refl Ne) as (Ha & k & t' & B & _).
    assert (t <= now') as Tn. { apply (Cl t (Got (Some a))). rewrite El. apply in_or_app. right. left. auto. }
    (* the lookup lies in l3 *)
    destruct (ended_after j l3 (l2 ++ l1) p2 t _ _ p1 El N2) as (q & -> & E3).
    apply running_app2 in Ru as [Ru|(Ru & _)]; [|congruence].
    (* the removal lies in l2 *)
    destruct (store_log_atomic log SL) as (now0 & A & S & La). destruct (ends_ok_all now0 A S) as (_ & E2). rewrite La in E2. apply ends_ok_app in E2.
    destruct (check_script hmac pub_ok hash now c _ r (finished_result _ _ _ Fi)) as (o1 & rest & more & v1 & Ou & As & Rm & _). apply In_nth_error in Rm as (n & Rm).
    destruct (job_kth (l2 ++ l1) i _ (Datatypes.S n) _ (RemoveA dumb_key h) E2 (obeys_app _ _ _ _ O) Ni Fi) as (s2 & ts & x & s1 & Es & An & Rs & Ax & Nx); [rewrite As; exact Rm|].
    destruct (ended_after i l2 l1 s2 ts _ _ s1 Es N1) as (s & -> & E4).
    assert (running s i = Some (RemoveA dumb_key h)) as Rs'.
    { apply running_app2 in Rs as [Rs|(_ & Z)]; auto. exfalso. rewrite DeployFacts.answers_app, N1, Z in An. rewrite Ou in An. discriminate. }
    (* so what it finds has expired *)
    assert (stale dumb_key h t ((q ++ l2) ++ l1)) as (b & (k2 & t2 & B2) & Hb & X).
    { apply (removed_not_found dumb_key h l1 Ne) with (now := now0) (A := A) (l2 := p2) (j := j) (a := a); auto.
      - intros k' o' R' X'. destruct o' as [url a'| | | | |]; try contradiction. destruct X' as (-> & X'). eapply Q; eauto.
      - rewrite La, El, <- app_assoc. auto.
      - intros k' tt o' I' X'. destruct o' as [url a'| | | | |]; try contradiction. destruct X' as (-> & X'). apply (Ns k' tt a'); auto. rewrite E3. apply in_app_or in I' as [I'|I']; apply in_or_app; auto. left. apply in_or_app. right. right. auto.
      - exists q, l2. split; auto. split; auto. exists s2, i, ts, x, s. split; auto. }
    assert (forall k t a, In (Began k t (StoreA dumb_key a)) ((q ++ l2) ++ l1) -> a_handle a = h -> In (Began k t (StoreA dumb_key a)) l1) as Old.
    { intros k' tt a' I' H'. apply in_app_or in I' as [I'|I']; auto. exfalso. apply (Ns k' tt a'); auto. rewrite E3. apply in_app_or in I' as [I'|I']; apply in_or_app; auto. left. apply in_or_app. right. right. auto. }
    rewrite app_assoc in B. assert (b = a) as ->. { eapply (Same k2 t2 b k t' a); eauto. }
    clear - X Fr Tn. lia.
  Qed.
End OP.
Print Assumptions C184_confirmed.
Print Assumptions C184_signed.
Print Assumptions C185_confirmed_once.

(** The three jobs of C158_example on the file store: the association that the answer is signed with is
    written to a file; then two processes check the assertion, one after the other's removal; the
    second says no. *)
Definition op_assoc : assoc := fresh_assoc 1700000000 secret0 [9; 8; 7; 6]%N (u "HMAC-SHA1").
Definition op_get : op := GetA dumb_key (Some (a_handle op_assoc)).
Definition op_rem : op := RemoveA dumb_key (a_handle op_assoc).
Definition steps (i n : nat) : list FileSys.label := repeat (FileSys.Step i) n.
Definition op_run : list FileSys.label :=
  [FileSys.Start 0 (GetA normal_key (Some (u "h1")))] ++ steps 0 1 ++ [FileSys.Start 0 (StoreA dumb_key op_assoc)] ++ store_steps 0 ++
  [FileSys.Tick 1; FileSys.Start 1 op_get] ++ read_steps 1 ++ [FileSys.Start 1 op_rem] ++ read_steps 1 ++ steps 1 1 ++
  [FileSys.Start 2 op_get; FileSys.Start 1 (GetA normal_key (Some (u "h1")))] ++ steps 2 1 ++ [FileSys.Start 2 op_rem] ++ steps 1 1 ++ steps 2 1 ++
  [FileSys.Start 2 (GetA normal_key (Some (u "h1")))] ++ steps 2 1.
Definition op_log : list FileSys.event := s_log (FileSys.run toy_sha1 true (FileSys.sys_init 1700000000) op_run).
Definition op_says (i : nat) : option (option text) :=
  match nth_error three i with
  | Some j => match finished long_mac no_keys no_hash j (answers_in i op_log) with
              | Some (Ok (AResponse r)) => match getArg (rs_fields r) OPENID_NS (u "is_valid") with Ok v => Some v | _ => None end
              | _ => None end
  | None => None end.
Lemma op_key_ok k : k = dumb_key \/ k = normal_key -> file_url k.
Proof.
  intros [E|E]; subst k; (split; [eexists; reflexivity|]); exists (u "http"); eexists; (split; [vm_compute; reflexivity|]); (split; [|split]); intros H; vm_compute in H; intuition discriminate.
Qed.
Lemma op_assoc_ok : file_assoc op_assoc.
Proof.
  split; [exists (a_handle op_assoc); reflexivity|]. split; [discriminate|]. split; [vm_compute; repeat (apply Forall_cons || apply Forall_nil); reflexivity|]. split; [left; reflexivity|].
  split; [|intros H; vm_compute in H; intuition discriminate]. rewrite <- Prop_KVForm.sp_ws_clean. split; vm_compute; reflexivity.
Qed.
Lemma op_distinct l : incl l [dumb_key; normal_key; a_handle op_assoc; u "h1"] -> distinct_on toy_sha1 l.
Proof.
  intros I a b x y A B. apply I in A, B. cbn [In] in A, B. destruct A as [<-|[<-|[<-|[<-|[]]]]], B as [<-|[<-|[<-|[<-|[]]]]]; auto; intros H1 H2; vm_compute in H1, H2; injection H1 as <-; injection H2 as <-; intros H; vm_compute in H; discriminate.
Qed.
Example C184_example :
  store_log op_log /\ obeys (next_call long_mac no_keys no_hash) three op_log /\
  map (fun e => match e with FileSys.Ended i _ _ r => Some (i, r) | _ => None end) op_log =
    [Some (2%nat, Got None); None; Some (2%nat, Flag false); Some (1%nat, Got None); None; Some (2%nat, Got None); None; None; Some (1%nat, Flag true); None;
     Some (1%nat, Got (Some op_assoc)); None; Some (0%nat, Done); None; Some (0%nat, Got None); None] /\
  op_says 1 = Some (Some (u "true")) /\ op_says 2 = Some (Some (u "false")).
Proof.
  split; [|split; [|split; [vm_compute; reflexivity|split; vm_compute; reflexivity]]].
  - apply by_files; [apply toy_digest| |].
    + repeat (apply Forall_cons || apply Forall_nil); cbn [file_op]; auto.
      all: try (split; [apply op_key_ok; auto|intros x X; injection X as <-; eexists; reflexivity]).
      * split; [apply op_key_ok; auto|apply op_assoc_ok].
      * split; [apply op_key_ok; auto|eexists; reflexivity].
      * split; [apply op_key_ok; auto|eexists; reflexivity].
    + apply op_distinct. intros x H. vm_compute in H. vm_compute. intuition.
  - let l := eval vm_compute in op_log in change (obeys (next_call long_mac no_keys no_hash) three l).
    cbn [obeys]. repeat match goal with |- _ /\ _ => split end; try exact I; intros v E; cbn [nth_error three] in E; first [discriminate E|injection E as <-; vm_compute; reflexivity].
Qed.
(** The same with the second check after the first: the premises of C185. *)
Definition op_run2 : list FileSys.label :=
  [FileSys.Start 0 (GetA normal_key (Some (u "h1")))] ++ steps 0 1 ++ [FileSys.Start 0 (StoreA dumb_key op_assoc)] ++ store_steps 0 ++
  [FileSys.Tick 1; FileSys.Start 1 op_get] ++ read_steps 1 ++ [FileSys.Start 1 op_rem] ++ read_steps 1 ++ steps 1 1 ++ [FileSys.Start 1 (GetA normal_key (Some (u "h1")))] ++ steps 1 1 ++
  [FileSys.Start 2 op_get] ++ steps 2 1 ++ [FileSys.Start 2 op_rem] ++ steps 2 1 ++ [FileSys.Start 2 (GetA normal_key (Some (u "h1")))] ++ steps 2 1.
Definition op_log2 : list FileSys.event := s_log (FileSys.run toy_sha1 true (FileSys.sys_init 1700000000) op_run2).
Example C185_example :
  let l3 := firstn 6 op_log2 in let l2 := firstn 6 (skipn 6 op_log2) in let l1 := skipn 12 op_log2 in
  op_log2 = l3 ++ l2 ++ l1 /\ store_log op_log2 /\ obeys (next_call long_mac no_keys no_hash) three op_log2 /\
  (exists now c r, nth_error three 1 = Some (JCheck now c) /\ ca_assoc_handle c = a_handle op_assoc /\ answers_in 1 l1 = [] /\
     finished long_mac no_keys no_hash (JCheck now c) (answers_in 1 (l2 ++ l1)) = Some (Ok (AResponse r)) /\ field_is r (u "is_valid") (Some (u "true"))) /\
  (exists now c r, nth_error three 2 = Some (JCheck now c) /\ ca_assoc_handle c = a_handle op_assoc /\ answers_in 2 (l2 ++ l1) = [] /\ running (l2 ++ l1) 2 = None /\
     finished long_mac no_keys no_hash (JCheck now c) (answers_in 2 op_log2) = Some (Ok (AResponse r)) /\ field_is r (u "is_valid") (Some (u "false"))) /\
  (forall k t a, ~ In (FileSys.Began k t (StoreA dumb_key a)) (l3 ++ l2)).
Proof.
  cbv zeta. split; [vm_compute; reflexivity|]. split; [|split; [|split; [|split]]].
  - apply by_files; [apply toy_digest| |].
    + repeat (apply Forall_cons || apply Forall_nil); cbn [file_op]; auto.
      all: try (split; [apply op_key_ok; auto|intros x X; injection X as <-; eexists; reflexivity]).
      * split; [apply op_key_ok; auto|apply op_assoc_ok].
      * split; [apply op_key_ok; auto|eexists; reflexivity].
      * split; [apply op_key_ok; auto|eexists; reflexivity].
    + apply op_distinct. intros x H. vm_compute in H. vm_compute. intuition.
  - let l := eval vm_compute in op_log2 in change (obeys (next_call long_mac no_keys no_hash) three l).
    cbn [obeys]. repeat match goal with |- _ /\ _ => split end; try exact I; intros v E; cbn [nth_error three] in E; first [discriminate E|injection E as <-; vm_compute; reflexivity].
  - destruct (nth_error three 1) as [[now c|? ? ? ?|? ? ? ? ?]|] eqn:E1; try (exfalso; vm_compute in E1; discriminate E1). exists now, c.
    assert (match nth_error three 1 with Some (JCheck now c) =>
              match finished long_mac no_keys no_hash (JCheck now c) (answers_in 1 (firstn 6 (skipn 6 op_log2) ++ skipn 12 op_log2)) with
              | Some (Ok (AResponse r)) => match getArg (rs_fields r) OPENID_NS (u "is_valid") with Ok v => Some (ca_assoc_handle c, v) | _ => None end | _ => None end
            | _ => None end = Some (a_handle op_assoc, Some (u "true"))) as H by (vm_compute; reflexivity).
    rewrite E1 in H. destruct (finished _ _ _ _ _) as [[[r|?]|?]|] eqn:F; try discriminate H. exists r.
    split; [reflexivity|]. unfold field_is. destruct (getArg (rs_fields r) OPENID_NS (u "is_valid")) as [w|?]; [|discriminate H].
    split; [congruence|]. split; [vm_compute; reflexivity|]. split; [reflexivity|]. congruence.
  - destruct (nth_error three 2) as [[now c|? ? ? ?|? ? ? ? ?]|] eqn:E1; try (exfalso; vm_compute in E1; discriminate E1). exists now, c.
    assert (match nth_error three 2 with Some (JCheck now c) =>
              match finished long_mac no_keys no_hash (JCheck now c) (answers_in 2 op_log2) with
              | Some (Ok (AResponse r)) => match getArg (rs_fields r) OPENID_NS (u "is_valid") with Ok v => Some (ca_assoc_handle c, v) | _ => None end | _ => None end
            | _ => None end = Some (a_handle op_assoc, Some (u "false"))) as H by (vm_compute; reflexivity).
    rewrite E1 in H. destruct (finished _ _ _ _ _) as [[[r|?]|?]|] eqn:F; try discriminate H. exists r.
    split; [reflexivity|]. unfold field_is. destruct (getArg (rs_fields r) OPENID_NS (u "is_valid")) as [w|?]; [|discriminate H].
    split; [congruence|]. split; [vm_compute; reflexivity|]. split; [vm_compute; reflexivity|]. split; [reflexivity|]. congruence.
  - intros k t a I.
    assert (forallb (fun ev => match ev with FileSys.Began _ _ (StoreA _ _) => false | _ => true end) (firstn 6 op_log2 ++ firstn 6 (skipn 6 op_log2)) = true) as D by (vm_compute; reflexivity).
    rewrite forallb_forall in D. apply D in I. discriminate I.
Qed.
