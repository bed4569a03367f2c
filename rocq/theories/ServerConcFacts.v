(** Facts about the interleaved jobs of a provider (ServerConc.v). *)
From Coq Require Import Lia ZifyBool ZifyN ZifyNat.
From Verif Require Import Py PyFacts CryptUtil DH Message Association Nonce Store StoreSpec Server Conc ConcFacts ServerConc.
From Verif Require Import MessageFacts MessageParse MessageSpec MessageRound AssociationFacts Prop_Association ServerStores SignatoryFacts Prop_Signatory.
Open Scope Z_scope.
Local Arguments u : simpl never.

Lemma it_ret {A} P (r : res A) : is_tree P (sret r).
Proof. exists (Leaf r). split; [exact I|]. reflexivity. Qed.
Lemma it_bind {A B} P (m : script -> script * res A) (k : A -> script -> script * res B) :
  is_tree P m -> (forall a, is_tree P (k a)) -> is_tree P (sbind m k).
Proof.
  intros (t & E & H) K. exists (graft t (fun a => proj1_sig (K a))). split.
  - apply every_graft; auto. intros a. apply (proj2_sig (K a)).
  - intros s. rewrite climb_graft. unfold sbind. rewrite H. destruct (climb t s) as (s' & [a|x]); auto. apply (proj2_sig (K a)).
Qed.
Lemma it_get (P : op -> Prop) now key handle : P (GetA key (Some handle)) -> is_tree P (store_get script_step now key handle).
Proof.
  intros H. exists (Node (GetA key (Some handle)) (fun a => Leaf (match a with Got o => Ok o | Err x => Raise x | _ => Raise TypeError end))).
  split; [split; [auto|intros; exact I]|]. intros s. unfold store_get. cbn [climb]. unfold script_step. destruct (to_come s) as [|[] ?]; reflexivity.
Qed.
Lemma it_unit (P : op -> Prop) now o : P o -> is_tree P (store_unit script_step now o).
Proof.
  intros H. exists (Node o (fun a => Leaf (match a with Err x => Raise x | _ => Ok tt end))).
  split; [split; [auto|intros; exact I]|]. intros s. unfold store_unit. cbn [climb]. unfold script_step. destruct (to_come s) as [|[] ?]; reflexivity.
Qed.
Lemma it_map {A B} P (m : script -> script * res A) (f : A -> B) : is_tree P m -> is_tree P (fun s => let '(s', r) := m s in (s', rmap f r)).
Proof.
  intros (t & E & H). exists (graft t (fun a => Leaf (Ok (f a)))). split.
  - apply every_graft; cbn; auto.
  - intros s. rewrite climb_graft, H. destruct (climb t s) as (s' & [a|x]); auto.
Qed.

(** What a job may ask: nothing is stored but fresh associations, by those who create them. *)
Definition job_may (j : job) (o : op) : Prop :=
  match o, j with
  | StoreA k a, JSign now secret uniq _ => k = dumb_key /\ exists ty, known_type ty /\ a = fresh_assoc now secret uniq ty
  | StoreA k a, JAssociate _ now secret uniq _ => k = normal_key /\ exists ty, known_type ty /\ a = fresh_assoc now secret uniq ty
  | StoreA _ _, JCheck _ _ => False
  | _, _ => True
  end.
Definition creates now secret uniq (dumb : bool) (o : op) : Prop :=
  match o with StoreA k a => k = key_of dumb /\ exists ty, known_type ty /\ a = fresh_assoc now secret uniq ty | _ => True end.
Lemma fresh_from now secret uniq ty n a : getSecretSize ty = Ok n -> fromExpiresIn now SECRET_LIFETIME (new_handle ty now uniq) (secret n) ty = Ok a ->
  known_type ty /\ a = fresh_assoc now secret uniq ty.
Proof.
  unfold getSecretSize. destruct (text_eqb ty (u "HMAC-SHA1")) eqn:E1.
  - apply text_eqb_eq in E1 as ->. intros X Y. inv X. inv Y. split; [left|]; reflexivity.
  - destruct (text_eqb ty (u "HMAC-SHA256")) eqn:E2; [|discriminate]. apply text_eqb_eq in E2 as ->. intros X Y. inv X. inv Y. split; [right|]; reflexivity.
Qed.
Lemma it_create now secret uniq dumb ty : is_tree (creates now secret uniq dumb) (createAssociation script_step now secret uniq dumb ty).
Proof.
  unfold createAssociation. destruct (getSecretSize ty) as [n|x] eqn:E1.
  - destruct (fromExpiresIn now SECRET_LIFETIME (new_handle ty now uniq) (secret n) ty) as [a|x] eqn:E2.
    + destruct (fresh_from _ _ _ _ _ _ E1 E2) as (T & Ea).
      destruct (it_bind (creates now secret uniq dumb) (store_unit script_step now (StoreA (key_of dumb) a)) (fun _ => sret (Ok a))) as (t & E & H).
      * apply it_unit. split; eauto.
      * intros. apply it_ret.
      * exists t. split; auto. intros s. unfold sbind at 1 2, sret at 1 2. rewrite E2. apply H.
    + exists (Leaf (Raise x)). split; [exact I|]. intros s. unfold sbind, sret. rewrite E2. auto.
  - exists (Leaf (Raise x)). split; [exact I|]. reflexivity.
Qed.
Lemma it_getAssociation now secret uniq d handle dumb chk : is_tree (creates now secret uniq d) (getAssociation script_step now handle dumb chk).
Proof.
  apply it_bind; [apply it_get; exact I|]. intros [a|]; [|apply it_ret]. destruct (_ && _); [|apply it_ret].
  apply it_bind; [apply it_unit; exact I|]. intros; apply it_ret.
Qed.

Section Jobs.
  Variable hmac : text -> bytes -> bytes -> bytes.
  Variable pub_ok : Z -> Z -> Z -> bool.
  Variable hash : hash_alg -> bytes -> bytes.
  Notation run_job := (run_job hmac pub_ok hash).
  Notation with_answers := (with_answers hmac pub_ok hash).
  Notation next_call := (next_call hmac pub_ok hash).
  Notation finished := (finished hmac pub_ok hash).

  Definition reads (o : op) : Prop := match o with StoreA _ _ => False | _ => True end.
  Lemma it_reads handle now dumb chk : is_tree reads (getAssociation script_step now handle dumb chk).
  Proof using.
    apply it_bind; [apply it_get; exact I|]. intros [a|]; [|apply it_ret]. destruct (_ && _); [|apply it_ret].
    apply it_bind; [apply it_unit; exact I|]. intros; apply it_ret.
  Qed.
  Lemma job_tree j : is_tree (job_may j) (run_job script_step j).
  Proof using.
    destruct j as [now c|now secret uniq r|neg now secret uniq c]; unfold ServerConc.run_job.
    - apply it_map. apply (it_weaken reads). { intros []; cbn; auto. }
      unfold CheckAuth_answer, verify. apply it_bind.
      { apply it_bind; [apply it_reads|]. intros [a|]; apply it_ret. }
      intros v. apply it_bind; [apply it_unit; exact I|]. intros _. apply it_bind; [apply it_ret|]. intros r. apply it_bind; [apply it_ret|]. intros r'.
      destruct (ca_invalidate_handle c) as [i|]; [|apply it_ret]. destruct (truthy i); [|apply it_ret].
      apply it_bind; [apply it_reads|]. intros [a|]; apply it_ret.
    - apply it_map. apply (it_weaken (creates now secret uniq true)). { intros []; cbn; auto. }
      unfold encodeResponse. apply it_bind; [apply it_ret|]. intros needs. apply it_bind; [|intros; apply it_ret]. destruct needs; [|apply it_ret].
      apply it_bind; [apply it_ret|]. intros [|]; [apply it_ret|]. unfold sign_response. apply it_bind; [apply it_ret|]. intros h.
      apply it_bind; [|intros; apply it_ret].
      assert (is_tree (creates now secret uniq true) (sbind (createAssociation script_step now secret uniq true (u "HMAC-SHA1")) (fun a => sret (Ok (r, a))))) as D
        by (apply it_bind; [apply it_create|intros; apply it_ret]).
      destruct h as [h|]; [|exact D]. destruct (truthy h); [|exact D].
      apply it_bind; [apply it_getAssociation|]. intros o.
      destruct (match o with Some a => run_out a now | None => true end).
      + apply it_bind; [apply it_ret|]. intros r'. apply it_bind. { destruct o; [apply it_unit; exact I|apply it_ret]. }
        intros _. apply it_bind; [apply it_create|intros; apply it_ret].
      + destruct o; apply it_ret.
    - apply it_map. apply (it_weaken (creates now secret uniq false)). { intros []; cbn; auto. }
      unfold openid_associate. cbv zeta. destruct (isAllowed _ _ _); [|apply it_ret]. apply it_bind; [apply it_create|intros; apply it_ret].
  Qed.

  Lemma asked_stable j outs k : (k <= List.length outs)%nat ->
    nth_error (asked (fst (with_answers j outs))) k = next_call j (firstn k outs).
  Proof using. intros L. apply (tree_stable _ _ (job_tree j)). auto. Qed.
  Lemma next_may j outs o : next_call j outs = Some o -> job_may j o.
  Proof using. apply (tree_may _ _ (job_tree j)). Qed.
  (** Finished jobs have had an answer to all they asked. *)
  Lemma finished_asked j outs r k o : finished j outs = Some r -> nth_error (asked (fst (with_answers j outs))) k = Some o -> (k < List.length outs)%nat.
  Proof using.
    unfold ServerConc.finished, ServerConc.next_call. destruct (nth_error _ (List.length outs)) eqn:N; [discriminate|]. intros _ E.
    apply nth_error_None in N. assert (nth_error (asked (fst (with_answers j outs))) k <> None) as X by congruence. apply nth_error_Some in X. lia.
  Qed.
  (** ** Runs *)
  Section Run.
    Context {S : Type} (step : S -> Z -> op -> S * out) (s0 : S).
    Variable h0 : history.
    Variable others : op -> Prop.
    Variable jobs : list job.
    Notation runs := (runs next_call step s0 h0 others jobs).
    Lemma nth_call tr i j k : runs tr -> nth_error jobs i = Some j -> (k < List.length (answers_to i tr))%nat ->
      exists tr2 ev tr1, tr = tr2 ++ ev :: tr1 /\ by_job ev = i /\ List.length (answers_to i tr1) = k /\
        nth_error (answers_to i tr) k = Some (the_out ev) /\
        nth_error (asked (fst (with_answers j (answers_to i tr)))) k = Some (the_op ev) /\
        clock (at_time ev) (calls_of tr1 ++ h0) /\ the_out ev = answer step s0 (calls_of tr1 ++ h0) (at_time ev) (the_op ev).
    Proof using. intros R J L. rewrite asked_stable by lia. eapply nth_next; eauto. Qed.
    Lemma every_call tr tr2 ev tr1 : runs tr -> tr = tr2 ++ ev :: tr1 ->
      (nth_error jobs (by_job ev) = None /\ others (the_op ev)) \/ exists j, nth_error jobs (by_job ev) = Some j /\ job_may j (the_op ev).
    Proof using.
      intros R ->. apply runs_app in R. apply runs_cons in R as (_ & _ & _ & [W|(j & W1 & W2)]); auto. right. exists j. split; auto. eapply next_may; eauto.
    Qed.
  End Run.

  (** ** What a finished check has asked and heard *)
  Lemma get_script now key handle outs acc s o : store_get script_step now key handle (mkScript outs acc) = (s, Ok o) ->
    exists rest, outs = Got o :: rest /\ s = mkScript rest (acc ++ [GetA key (Some handle)]).
  Proof using.
    unfold store_get. destruct outs as [|a outs].
    - change (script_step _ now _) with (mkScript [] (acc ++ [GetA key (Some handle)]), Err TypeError). discriminate.
    - change (script_step _ now _) with (mkScript outs (acc ++ [GetA key (Some handle)]), a). destruct a; intros X; inv X. eauto.
  Qed.
  Lemma unit_script now o outs acc s x : store_unit script_step now o (mkScript outs acc) = (s, Ok x) ->
    exists a rest, outs = a :: rest /\ s = mkScript rest (acc ++ [o]).
  Proof using.
    unfold store_unit. destruct outs as [|a outs].
    - change (script_step _ now _) with (mkScript [] (acc ++ [o]), Err TypeError). discriminate.
    - change (script_step _ now _) with (mkScript outs (acc ++ [o]), a). destruct a; intros X; inv X; eauto.
  Qed.
  Lemma sbind_Ok {S A B} (m : S -> S * res A) (k : A -> S -> S * res B) s s' b : sbind m k s = (s', Ok b) ->
    exists a s1, m s = (s1, Ok a) /\ k a s1 = (s', Ok b).
  Proof using. unfold sbind. destruct (m s) as (s1 & [a|x]) eqn:E; [eauto|discriminate]. Qed.
  Lemma sret_Ok {S A} (m : res A) (s s' : S) a : sret m s = (s', Ok a) -> s' = s /\ m = Ok a.
  Proof using. unfold sret. intros X. inv X. auto. Qed.
  Lemma getAssociation_script now handle dumb chk outs acc s o :
    getAssociation script_step now handle dumb chk (mkScript outs acc) = (s, Ok o) ->
    exists o0 rest more, outs = Got o0 :: rest /\ asked s = acc ++ GetA (key_of dumb) (Some handle) :: more /\
      s = mkScript (to_come s) (asked s) /\
      (forall a, o = Some a -> o0 = Some a /\ (chk = true -> run_out a now = false)) /\
      (chk = false -> o0 = o) /\ (forall a, o0 = Some a -> run_out a now = false -> o = Some a).
  Proof using.
    intros H. unfold getAssociation in H. apply sbind_Ok in H as (o0 & s1 & H1 & H). apply get_script in H1 as (rest & -> & ->).
    exists o0, rest. destruct o0 as [a|].
    - destruct (run_out a now && chk) eqn:RO.
      + apply andb_true_iff in RO as (RO & ->). apply sbind_Ok in H as (x & s2 & H2 & H). apply unit_script in H2 as (a' & rest' & -> & ->). apply sret_Ok in H as (-> & X). inv X.
        cbn [asked to_come]. eexists. split; auto. split; [rewrite <- app_assoc; reflexivity|]. split; auto. split; [discriminate|]. split; [discriminate|]. intros a0 X. inv X. congruence.
      + apply sret_Ok in H as (-> & X). inv X. cbn [asked to_come]. exists []. split; auto. split; auto. split; auto. split; [|split; auto]. intros a' X. inv X. split; auto.
        intros ->. rewrite andb_true_r in RO. auto.
    - apply sret_Ok in H as (-> & X). inv X. cbn [asked to_come]. exists []. split; auto. split; auto. split; auto. split; [discriminate|]. split; auto.
  Qed.

  Lemma setField_of r0 c k v r : OpenIDResponse (RCheckAuth c) = Ok r0 -> setField r0 k v = Ok r ->
    exists oid, core (rs_fields r) oid /\ built [] (rs_fields r) /\ rs_request r = RCheckAuth c /\ field_is r k (Some v).
  Proof using.
    intros E F. destruct (getOpenIDNamespace (request_message (RCheckAuth c))) as [oid|] eqn:V.
    - pose proof E as E'. unfold OpenIDResponse in E'. rewrite V in E'. destruct (newMessage (Some oid) None) as [m|xx] eqn:N; [clear E'|discriminate].
      assert (In oid allowed_openid_namespaces) as A. { change (newMessage (Some oid) None) with (newMessage (Some oid) (Some (mem_text oid OPENID1_NAMESPACES))) in N. apply newMessage_Some in N as (A & _). auto. }
      destruct (new_response [] (RCheckAuth c) oid V A) as (r1 & E1 & Q1 & C1 & M1 & B1). rewrite E in E1. inv E1.
      destruct (setField_core [] r1 oid k v C1 B1) as (r2 & E2 & Q2 & C2 & B2 & M2 & _). rewrite F in E2. inv E2.
      exists oid. split; auto. split; auto. split; [congruence|]. unfold field_is. rewrite (core_get _ _ _ C2), M2. f_equal. apply (dget_dset_same akey_eqb akey_eqb_eq).
    - unfold OpenIDResponse in E. rewrite V in E. cbn in E. inv E. discriminate.
  Qed.

  Lemma check_script now c outs r : snd (with_answers (JCheck now c) outs) = Ok (AResponse r) ->
    exists o rest more v,
      outs = Got o :: rest /\
      asked (fst (with_answers (JCheck now c) outs)) = GetA dumb_key (Some (ca_assoc_handle c)) :: more /\
      In (RemoveA dumb_key (ca_assoc_handle c)) more /\
      field_is r (u "is_valid") (Some (if (v : bool) then u "true" else u "false")) /\
      (v = true <-> exists a, o = Some a /\ run_out a now = false /\ checkMessageSignature hmac a (ca_signed c) = Ok true).
  Proof using.
    unfold ServerConc.with_answers, ServerConc.run_job. destruct (CheckAuth_answer hmac script_step now c (mkScript outs [])) as (s & [r'|x]) eqn:E; cbn [snd fst rmap bind]; [|discriminate].
    intros X. inv X. unfold CheckAuth_answer in E. apply sbind_Ok in E as (v & s1 & E1 & E). unfold verify in E1. apply sbind_Ok in E1 as (o & s2 & E2 & E1).
    apply getAssociation_script in E2 as (o0 & rest & more & -> & A2 & S2 & P & _ & P'). cbn [app key_of] in A2.
    assert (s1 = s2 /\ (v = true <-> exists a, o0 = Some a /\ run_out a now = false /\ checkMessageSignature hmac a (ca_signed c) = Ok true)) as (-> & V).
    { destruct o as [a|].
      - apply sret_Ok in E1 as (-> & E1). split; auto. split.
        + intros ->. exists a. destruct (P a eq_refl) as (P1 & P2). split; auto. split; auto.
          destruct (checkMessageSignature hmac a (ca_signed c)) as [b|x]; [congruence|]. destruct (isValueError x); congruence.
        + intros (b & B1 & B2 & B3). pose proof (P' b B1 B2) as X. inv X. rewrite B3 in E1. congruence.
      - apply sret_Ok in E1 as (-> & E1). split; auto. split; [congruence|]. intros (b & B1 & B2 & B3). pose proof (P' b B1 B2). discriminate. }
    clear E1. rewrite S2 in E. apply sbind_Ok in E as (x & s3 & E3 & E). unfold invalidate in E3. apply unit_script in E3 as (a3 & rest3 & _ & ->). rewrite A2 in E. cbn [key_of app] in E.
    apply sbind_Ok in E as (r0 & s4 & E4 & E). apply sret_Ok in E4 as (-> & E4). apply sbind_Ok in E as (r1 & s5 & E5 & E). apply sret_Ok in E5 as (-> & E5).
    destruct (setField_of r0 c _ _ _ E4 E5) as (oid & C1 & B1 & Q1 & F1).
    assert (exists more', asked s = GetA dumb_key (Some (ca_assoc_handle c)) :: (more ++ [RemoveA dumb_key (ca_assoc_handle c)]) ++ more' /\
            field_is r (u "is_valid") (Some (if v then u "true" else u "false"))) as (more' & A & F).
    { destruct (ca_invalidate_handle c) as [i|].
      2:{ apply sret_Ok in E as (-> & X). inv X. exists []. cbn [asked]. rewrite app_nil_r. auto. }
      destruct (truthy i).
      2:{ apply sret_Ok in E as (-> & X). inv X. exists []. cbn [asked]. rewrite app_nil_r. auto. }
      apply sbind_Ok in E as (o6 & s6 & E6 & E). apply getAssociation_script in E6 as (o7 & rest7 & more7 & _ & A7 & _).
      assert (s = s6) as ->. { destruct o6; apply sret_Ok in E as (-> & _); auto. }
      eexists. split; [rewrite A7; cbn [app]; reflexivity|].
      destruct o6.
      - apply sret_Ok in E as (_ & X). inv X. auto.
      - apply sret_Ok in E as (_ & X). destruct (setField_core [] r1 oid (u "invalidate_handle") i C1 B1) as (r2 & E2 & _ & C2 & _ & M2 & _). rewrite X in E2. inv E2.
        unfold field_is in *. rewrite (core_get _ _ _ C2), M2, (dget_dset_other akey_eqb akey_eqb_eq) by (apply akey_ne; discriminate).
        rewrite (core_get _ _ _ C1) in F1. auto. }
    exists o0, rest, ((more ++ [RemoveA dumb_key (ca_assoc_handle c)]) ++ more'), v. split; auto. split; auto.
    split; [apply in_or_app; left; apply in_or_app; right; left; auto|]. auto.
  Qed.

  (** ** What a finished signature has asked and heard *)
  Lemma create_script now secret uniq dumb ty s s' a : s = mkScript (to_come s) (asked s) ->
    createAssociation script_step now secret uniq dumb ty s = (s', Ok a) ->
    known_type ty /\ a = fresh_assoc now secret uniq ty /\ asked s' = asked s ++ [StoreA (key_of dumb) a].
  Proof using.
    intros Es H. unfold createAssociation in H. apply sbind_Ok in H as (n & s1 & H1 & H). apply sret_Ok in H1 as (-> & H1).
    apply sbind_Ok in H as (a1 & s2 & H2 & H). apply sret_Ok in H2 as (-> & H2). destruct (fresh_from _ _ _ _ _ _ H1 H2) as (T & Ea).
    apply sbind_Ok in H as (x & s3 & H3 & H). rewrite Es in H3. apply unit_script in H3 as (o & rest & _ & ->). apply sret_Ok in H as (-> & X). inv X. auto.
  Qed.
  Lemma sign_script now secret uniq r outs w : snd (with_answers (JSign now secret uniq r) outs) = Ok (AWeb w) -> needsSigning r = Ok true ->
    exists a r1 m hd more, signMessage hmac a (rs_fields r1) = Ok m /\ encode_response (mkResponse (rs_request r1) m) = Ok w /\
      request_assoc_handle (rs_request r) = Ok hd /\
      (let asks := asked (fst (with_answers (JSign now secret uniq r) outs)) in
       (* a shared one, unexpired *)
       (exists h rest, hd = Some h /\ h <> [] /\ asks = GetA normal_key (Some h) :: more /\ outs = Got (Some a) :: rest /\ run_out a now = false /\ r1 = r) \/
       (* a private one, in its place *)
       (exists h o rest ty, hd = Some h /\ h <> [] /\ asks = GetA normal_key (Some h) :: more /\ outs = Got o :: rest /\
          (forall b, o = Some b -> run_out b now = true) /\ setField r (u "invalidate_handle") h = Ok r1 /\
          In (StoreA dumb_key a) more /\ known_type ty /\ a = fresh_assoc now secret uniq ty) \/
       (* a private one, none being asked for *)
       (exists ty, (hd = None \/ hd = Some []) /\ asks = StoreA dumb_key a :: more /\ r1 = r /\ known_type ty /\ a = fresh_assoc now secret uniq ty)).
  Proof using.
    unfold ServerConc.with_answers, ServerConc.run_job. destruct (encodeResponse hmac script_step now secret uniq r (mkScript outs [])) as (s & [w'|x]) eqn:E; cbn [snd fst rmap bind]; [|discriminate].
    intros X Ne. inv X. unfold encodeResponse in E. apply sbind_Ok in E as (n & s1 & E1 & E). apply sret_Ok in E1 as (-> & E1). rewrite Ne in E1. inv E1.
    apply sbind_Ok in E as (r2 & s2 & E2 & E). apply sret_Ok in E as (-> & E).
    apply sbind_Ok in E2 as (hs & s3 & E3 & E2). apply sret_Ok in E3 as (-> & _). destruct hs; [discriminate|].
    unfold sign_response in E2. apply sbind_Ok in E2 as (hd & s4 & E4 & E2). apply sret_Ok in E4 as (-> & E4).
    apply sbind_Ok in E2 as ([r1 a] & s5 & E5 & E2). cbn [fst snd] in E2. apply sret_Ok in E2 as (-> & E2).
    assert (exists m, signMessage hmac a (rs_fields r1) = Ok m /\ r2 = mkResponse (rs_request r1) m) as (m & Sm & ->).
    { destruct (signMessage hmac a (rs_fields r1)) as [m|x] eqn:Sm; [inv E2; eauto|]. destruct x; discriminate. }
    assert (sbind (createAssociation script_step now secret uniq true (u "HMAC-SHA1")) (fun a => sret (Ok (r, a))) (mkScript outs []) = (s5, Ok (r1, a)) ->
      r1 = r /\ exists ty, known_type ty /\ a = fresh_assoc now secret uniq ty /\ asked s5 = [StoreA dumb_key a]) as D.
    { intros H. apply sbind_Ok in H as (a' & s6 & H6 & H). apply sret_Ok in H as (-> & X). inv X. apply create_script in H6 as (T & Ea & As); auto. split; auto. eauto. }
    destruct hd as [h|].
    - destruct (truthy h) eqn:T.
      + apply truthy_true in T. apply sbind_Ok in E5 as (o & s6 & E6 & E5). apply getAssociation_script in E6 as (o0 & rest & more & -> & A6 & S6 & _ & O6 & _).
        specialize (O6 eq_refl). subst o0. cbn [app key_of] in A6.
        destruct (match o with Some a => run_out a now | None => true end) eqn:RO.
        * apply sbind_Ok in E5 as (r' & s7 & E7 & E5). apply sret_Ok in E7 as (-> & E7). apply sbind_Ok in E5 as (x & s8 & E8 & E5).
          assert (s8 = mkScript (to_come s8) (asked s8) /\ exists more', asked s8 = asked s6 ++ more') as (S8 & more' & A8).
          { destruct o as [b|].
            - rewrite S6 in E8. apply unit_script in E8 as (a' & rest' & _ & ->). cbn. eauto.
            - apply sret_Ok in E8 as (-> & _). split; auto. exists []. rewrite app_nil_r. auto. }
          apply sbind_Ok in E5 as (a' & s9 & E9 & E5). apply sret_Ok in E5 as (-> & X). inv X.
          apply create_script in E9 as (Ty & Ea & A9); auto. rewrite A8, A6 in A9. cbn [app key_of] in A9.
          do 3 eexists. exists (Some h). eexists. split; eauto. split; eauto. split; auto. cbv zeta. right. left.
          do 4 eexists. split; [reflexivity|]. split; auto. split; [exact A9|]. split; [reflexivity|]. split.
          { intros b ->. auto. } split; auto. split; [apply in_or_app; right; left; reflexivity|]. eauto.
        * destruct o as [b|]; [|discriminate]. apply sret_Ok in E5 as (-> & X). inv X.
          do 3 eexists. exists (Some h). eexists. split; eauto. split; eauto. split; auto. cbv zeta. left.
          do 2 eexists. split; [reflexivity|]. split; auto. split; [exact A6|]. split; [reflexivity|]. auto.
      + apply D in E5 as (-> & ty & Ty & Ea & A5). do 3 eexists. exists (Some h). exists []. split; eauto. split; eauto. split; auto. cbv zeta. right. right.
        exists ty. split; auto. right. destruct h; [auto|discriminate].
    - apply D in E5 as (-> & ty & Ty & Ea & A5). do 3 eexists. exists None. exists []. split; eauto. split; eauto. split; auto. cbv zeta. right. right.
      exists ty. auto.
  Qed.
End Jobs.
