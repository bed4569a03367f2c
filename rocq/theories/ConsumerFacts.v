(** Lemmas about the consumer: taking its operations apart, and the store calls they make. *)
From Coq Require Import Lia ZifyBool ZifyN ZifyNat.
From Verif Require Import Py PyFacts Utf8 KVForm CryptUtil DH Message MessageFacts MessageWire MessageParse MessageSpec MessageRound Association AssociationFacts Prop_Association ServerFacts UrlLib UriNorm OidUtil Nonce Store StoreSpec Endpoint Consumer.
Open Scope N_scope.
Local Arguments u : simpl never.

Lemma cbind_Ok {S A B} (m : @cm S A) (k : A -> @cm S B) s s' b : cbind m k s = (s', Ok b) ->
  exists s1 a, m s = (s1, Ok a) /\ k a s1 = (s', Ok b).
Proof. unfold cbind. destruct (m s) as [s1 [a|x]]; [eauto|discriminate]. Qed.
Lemma cret_Ok {S A} (m : res A) (s s' : @cst S) a : cret m s = (s', Ok a) -> s' = s /\ m = Ok a.
Proof. unfold cret. intros H. inv H. auto. Qed.
Lemma ctry_Ok {S A} (m : @cm S A) h s s' a : ctry m h s = (s', Ok a) ->
  m s = (s', Ok a) \/ exists s1 x k, m s = (s1, Raise x) /\ h x = Some k /\ k s1 = (s', Ok a).
Proof.
  unfold ctry. destruct (m s) as [s1 [b|x]] eqn:M; [intros H; inv H; auto|].
  destruct (h x) as [k|] eqn:K; [|discriminate]. intros H. right. eauto 6.
Qed.
Lemma catch_Ok {A} (m : res A) h a : catch m h = Ok a -> m = Ok a \/ exists x, m = Raise x /\ h x = Some (Ok a).
Proof.
  unfold catch. destruct m as [b|x]; [intros H; inv H; auto|]. destruct (h x) as [r|] eqn:K; [|discriminate]. intros ->. right. eauto.
Qed.
Lemma cret_bind {S A B} (m : res A) (k : A -> @cm S B) s :
  cbind (cret m) k s = match m with Ok a => k a s | Raise x => (s, Raise x) end.
Proof. unfold cbind, cret. destruct m; auto. Qed.
(** Take apart [cbind m k s = (s', Ok b)]. *)
Tactic Notation "cinv" hyp(H) :=
  let s1 := fresh "s" in let a := fresh "a" in let H1 := fresh "R" in
  apply cbind_Ok in H as (s1 & a & H1 & H);
  try (apply cret_Ok in H1 as (? & H1); subst s1).

Tactic Notation "cinv" hyp(H) "as" ident(a) ident(R) :=
  let s1 := fresh "s" in apply cbind_Ok in H as (s1 & a & R & H); try (apply cret_Ok in R as (? & R); subst s1).

(** The exceptions of [mapM] over checks. *)
Lemma mapM_unit_Ok {A} (f : A -> res unit) l r : mapM f l = Ok r -> forall x, In x l -> f x = Ok tt.
Proof.
  revert r. induction l as [|y l IH]; intros r H x Hx; [destruct Hx|]. cbn [mapM] in H. binv H. binv H. destruct Hx as [->|Hx]; [destruct a; auto|eauto].
Qed.
Lemma mapM_Raise {A B} (f : A -> res B) l x : mapM f l = Raise x -> exists a, In a l /\ f a = Raise x.
Proof.
  induction l as [|y l IH]; cbn [mapM]; [discriminate|]. destruct (f y) as [b|z] eqn:F; cbn [bind].
  - destruct (mapM f l) as [c|z] eqn:M; cbn [bind]; [discriminate|]. intros H. inv H. destruct (IH eq_refl) as (a & I & E). exists a. simpl. auto.
  - intros H. inv H. exists y. simpl. auto.
Qed.

(** ** Store calls *)
(** A store that records the calls made. *)
Definition logged {S} (step : S -> Z -> op -> S * out) (sh : S * history) (t : Z) (o : op) : (S * history) * out :=
  let (s', r) := step (fst sh) t o in ((s', (t, o) :: snd sh), r).
Definition erase {S} (c : @cst (S * history)) : @cst S := mkCst (option_map fst (c_store c)) (c_posts c).

(** A field of a parsed direct reply. *)
Lemma openid_field reg args m k : NoDup (dkeys args) -> fromOpenIDArgs reg args = Ok m -> ~ In 46 k -> k <> u "ns" ->
  getArg m OPENID_NS k = Ok (dget text_eqb k args).
Proof.
  intros Hn F Hd Hk. assert (built reg m) as B by (eapply b_parse_oid; eauto).
  pose proof (fromOpenIDArgs_ver reg args Hn) as VA. rewrite F in VA. destruct VA as (V & A).
  pose proof (built_core _ _ _ B V) as C. rewrite (core_get _ _ _ C). f_equal. set (oid := oid_of args) in *.
  rewrite fromOpenIDArgs_unfold in F by auto. fold oid in F. binv F. rename a into m1. binv F. rename a into m2.
  apply newMessage_Some in E as (_ & W1 & M1 & N1 & _).
  assert (NoDup (dkeys (decls_of args))) as ND by (apply NoDup_decls; auto).
  destruct (add_decls_sound _ _ _ W1 ND E0) as (W2 & M2 & _ & N2).
  assert (getOpenIDNamespace m2 = Some oid) as V2. { apply N2. left. apply N1. auto. }
  destruct (put_args_core reg oid k A Hd _ _ _ W2 V2 F (NoDup_args _ Hn)) as (P1 & P2).
  assert (entry_ok Null k) as EO by (split; auto).
  assert (forall v, In (Null, k, v) (args_of args) <-> In (k, v) args) as I.
  { intros v. rewrite In_args_of. cbn [untag]. tauto. }
  destruct (dget text_eqb k args) as [v|] eqn:D.
  - apply (dget_In text_eqb text_eqb_eq) in D. apply P1. apply I. auto.
  - etransitivity; [apply P2|rewrite M2, M1; auto]. intros v K. apply I in K. apply (In_dget text_eqb text_eqb_eq) in K; auto. congruence.
Qed.
Lemma kv_field reg t m k : fromKVForm reg t = Ok m -> ~ In 46 k -> k <> u "ns" ->
  exists d, kvToDict t = Ok d /\ getArg m OPENID_NS k = Ok (dget text_eqb k d).
Proof.
  unfold fromKVForm. intros H Hd Hk. binv H. exists a. split; auto. eapply openid_field; eauto.
  unfold kvToDict in E. binv E. inv E. apply NoDup_dict_of; auto using text_eqb_eq.
Qed.

Section Tracked.
  Context {S : Type} (step : S -> Z -> op -> S * out) (s0 : S) (now : Z).
  Definition recorded (c : @cst (S * history)) : Prop :=
    match c_store c with Some sh => fst sh = after step s0 (snd sh) | None => True end.
  Definition grows (c c' : @cst (S * history)) : Prop :=
    match c_store c, c_store c' with
    | Some sh, Some sh' => exists calls, snd sh' = calls ++ snd sh /\ Forall (fun ev => fst ev = now) calls
    | None, None => True
    | _, _ => False
    end.
  (** The recording changes nothing, and the record is faithful. *)
  Definition tracked {A} (m : @cm S A) (ml : @cm (S * history) A) : Prop :=
    forall c, recorded c -> m (erase c) = (erase (fst (ml c)), snd (ml c)) /\ recorded (fst (ml c)) /\ grows c (fst (ml c)).

  Lemma grows_refl c : grows c c.
  Proof. unfold grows. destruct (c_store c); auto. exists []. auto. Qed.
  Lemma grows_trans a b c : grows a b -> grows b c -> grows a c.
  Proof.
    unfold grows. destruct (c_store a) as [x|], (c_store b) as [y|], (c_store c) as [z|]; try tauto.
    intros (k1 & E1 & F1) (k2 & E2 & F2). exists (k2 ++ k1). rewrite E2, E1, app_assoc. split; auto. apply Forall_app; auto.
  Qed.
  Lemma tracked_ret {A} (m : res A) : tracked (cret m) (cret m).
  Proof. intros c R. cbn. split; auto. split; auto. apply grows_refl. Qed.
  Lemma tracked_bind {A B} m ml (k : A -> @cm S B) kl : tracked m ml -> (forall a, tracked (k a) (kl a)) -> tracked (cbind m k) (cbind ml kl).
  Proof.
    intros M K c R. destruct (M c R) as (E & R1 & G). unfold cbind. rewrite E. destruct (ml c) as [c1 [a|x]]; cbn [fst snd] in *; auto.
    destruct (K a c1 R1) as (E2 & R2 & G2). split; auto. split; auto. eapply grows_trans; eauto.
  Qed.
  Lemma tracked_try {A} m ml (h : exn -> option (@cm S A)) hl : tracked m ml ->
    (forall x, match h x, hl x with Some k, Some kl => tracked k kl | None, None => True | _, _ => False end) ->
    tracked (ctry m h) (ctry ml hl).
  Proof.
    intros M K c R. destruct (M c R) as (E & R1 & G). unfold ctry. rewrite E. destruct (ml c) as [c1 [a|x]]; cbn [fst snd] in *; auto.
    specialize (K x). destruct (h x) as [k|], (hl x) as [kl|]; try tauto.
    destruct (K c1 R1) as (E2 & R2 & G2). split; auto. split; auto. eapply grows_trans; eauto.
  Qed.
  Lemma tracked_has : tracked has_store has_store.
  Proof. intros c R. unfold has_store, erase. cbn [fst snd c_store c_posts]. split; [destruct (c_store c); auto|]. split; auto. apply grows_refl. Qed.
  Lemma tracked_call o : tracked (call step now o) (call (logged step) now o).
  Proof.
    intros c R. unfold call, recorded, grows, erase in *. destruct (c_store c) as [[s h]|] eqn:C; cbn [option_map c_store c_posts fst snd] in *.
    - unfold logged. cbn [fst snd]. subst s. destruct (step (after step s0 h) now o) as [s' r] eqn:E.
      cbn [fst snd option_map c_store c_posts]. split; auto. split; [cbn [after]; rewrite E; auto|]. exists [(now, o)]. split; auto.
    - split; [rewrite C; auto|]. rewrite C. auto.
  Qed.
  Lemma tracked_post reg net m url : tracked (makeKVPost reg net m url) (makeKVPost reg net m url).
  Proof.
    unfold makeKVPost. apply tracked_bind; [apply tracked_ret|]. intros body c R. unfold recorded, grows, erase in *. cbn [fst snd c_store c_posts].
    split; auto. split; auto. destruct (c_store c); auto. exists []. auto.
  Qed.
End Tracked.

Ltac track :=
  repeat match goal with
  | |- tracked _ _ _ (cret _) (cret _) => apply tracked_ret
  | |- tracked _ _ _ (cbind _ _) (cbind _ _) => apply tracked_bind; [|intros]
  | |- tracked _ _ _ has_store has_store => apply tracked_has
  | |- tracked _ _ _ (call _ _ _) (call _ _ _) => apply tracked_call
  | |- tracked _ _ _ (makeKVPost _ _ _ _) (makeKVPost _ _ _ _) => apply tracked_post
  | |- tracked _ _ _ (ctry _ _) (ctry _ _) => apply tracked_try; [|intros]
  | |- tracked _ _ _ ?m ?ml => match m with context [match ?x with _ => _ end] => destruct x end
  end.

(** A goal about two equal exception handlers. *)
Ltac handlers :=
  match goal with x : exn |- _ => destruct x end; cbn; try exact I; track.

Section Complete.
  Variable e : uenv.
  Variable reg : dict text text.
  Variable hmac : text -> bytes -> bytes -> bytes.
  Variable udigit : N -> option Z.
  Variable net : list post -> option (N * bytes).
  Variable discover : text -> res (list endpoint).

  Lemma complete_tracked {S} (step : S -> Z -> op -> S * out) s0 now m ep rt :
    tracked step s0 now (complete e reg hmac udigit net discover step now m ep rt)
                        (complete e reg hmac udigit net discover (logged step) now m ep rt).
  Proof.
    assert (forall url, tracked step s0 now (idResCheckSignature reg hmac net step now m url) (idResCheckSignature reg hmac net (logged step) now m url)) as T1.
    { intros url. unfold idResCheckSignature, checkAuth, processCheckAuthResponse. track.
      all: handlers. }
    assert (forall ep, tracked step s0 now (idResCheckNonce udigit step now m ep) (idResCheckNonce udigit (logged step) now m ep)) as T2.
    { intros ep'. unfold idResCheckNonce. track. }
    unfold complete, complete_id_res, doIdRes. track; auto.
    all: try handlers; auto.
  Qed.

  Context {S : Type} (step : S -> Z -> op -> S * out).
  Variable now : Z.
  Notation complete' := (complete e reg hmac udigit net discover step now).

  Lemma complete_Success m ep rt s s' ep' m' fields : complete' m ep rt s = (s', Ok (Success ep' m' fields)) ->
    m' = m /\ getArgDef m OPENID_NS (u "mode") (u "<No mode set>") = Ok (u "id_res") /\
    checkSetupNeeded m = Ok None /\ idResCheckForFields m = Ok tt /\ checkReturnTo e reg m rt = Ok true /\
    verifyDiscoveryResults e discover m ep = Ok ep' /\
    (exists s1, idResCheckSignature reg hmac net step now m (ep_server_url ep') s = (s1, Ok tt) /\
                idResCheckNonce udigit step now m ep' s1 = (s', Ok tt)) /\
    exists signed, getArgReq m OPENID_NS (u "signed") = Ok signed /\ fields = map (fun x => u "openid." ++ x) (splitc 44 signed).
  Proof using.
    unfold complete. intros H. cinv H. rename a into mode, R into M.
    destruct (text_eqb mode (u "cancel")); [apply cret_Ok in H as (_ & H); discriminate|].
    destruct (text_eqb mode (u "error")).
    { apply cret_Ok in H as (_ & H). unfold complete_error in H. repeat binv H. discriminate. }
    destruct (text_eqb mode (u "setup_needed")).
    { apply cret_Ok in H as (_ & H). unfold complete_setup_needed, completeInvalid in H. destruct (negb _); repeat binv H; discriminate. }
    destruct (text_eqb mode (u "id_res")) eqn:Q.
    2:{ apply cret_Ok in H as (_ & H). unfold completeInvalid in H. repeat binv H. discriminate. }
    apply text_eqb_eq in Q. subst mode. unfold complete_id_res in H. cinv H. destruct a as [url|]; [apply cret_Ok in H as (_ & H); discriminate|].
    apply ctry_Ok in H as [H|(s1 & x & k & _ & K & H)].
    2:{ destruct (isProtocolError x || _); [|discriminate]. inv K. apply cret_Ok in H as (_ & H). discriminate. }
    unfold doIdRes in H. cinv H. cinv H. destruct a0; cbn [negb] in H; [|apply cret_Ok in H as (_ & H); discriminate].
    cinv H. cinv H. cinv H. cinv H. apply cret_Ok in H as (-> & H). inv H. destruct a, a1, a2.
    split; auto. split; auto. split; auto. split; auto. split; auto. split; auto. split; [exists s0; auto|]. exists a3. auto.
  Qed.
End Complete.
