(** C161, C162: overlapping processes of a consumer accept a response at most once, and only
    one that the store or the server vouches for. *)
From Coq Require Import Lia ZifyBool ZifyN ZifyNat.
From Verif Require Import Py PyFacts Utf8 KVForm CryptUtil DH Message MessageFacts MessageWire MessageParse MessageSpec MessageRound Prop_Message.
From Verif Require Import Association AssociationFacts Prop_Association UrlLib UriNorm OidUtil Nonce NonceFacts Store StoreSpec StoreFacts.
From Verif Require Import FileStore FileStoreFacts Prop_FileNames Prop_StoreMem Prop_StoreSql Prop_StoreFile ServerFacts Prop_ServerDecode ServerStores.
From Verif Require Import Endpoint Consumer ConsumerFacts Prop_Consumer Prop_ConsumerOnce Conc ConcFacts ConsumerConc.
Open Scope Z_scope.
Local Arguments u : simpl never.

(** ** A visit is a tree of store calls *)
(** What a visit may ask of its store: it stores no association, and cleans nothing up. *)
Definition visit_may (o : op) : Prop := match o with GetA _ _ | RemoveA _ _ | UseN _ _ _ => True | _ => False end.
Definition ctree {A} (m : @cm script A) : Type :=
  forall p, { t : tree (list post * res A) | every visit_may t /\
    forall s, exists s' p' r, climb t s = (s', Ok (p', r)) /\ m (mkCst (Some s) p) = (mkCst (Some s') p', r) }.
Lemma ct_ret {A} (r : res A) : ctree (cret r).
Proof. intros p. exists (Leaf (Ok (p, r))). split; [exact I|]. intros s. exists s, p, r. auto. Qed.
Lemma ct_bind {A B} (m : cm A) (k : A -> @cm script B) : ctree m -> (forall a, ctree (k a)) -> ctree (cbind m k).
Proof.
  intros M K p. destruct (M p) as (t & V & H).
  exists (graft t (fun x => match snd x with Ok a => proj1_sig (K a (fst x)) | Raise e => Leaf (Ok (fst x, Raise e)) end)). split.
  { apply every_graft; auto. intros (p' & [a|x]); cbn [fst snd]; [apply (proj1 (proj2_sig (K a p')))|exact I]. }
  intros s. destruct (H s) as (s' & p' & r & C & E). rewrite climb_graft, C. cbn [fst snd]. unfold cbind. rewrite E. destruct r as [a|x].
  - apply (proj2 (proj2_sig (K a p'))).
  - cbn. eauto.
Qed.
Lemma ct_try {A} (m : cm A) (h : exn -> option (@cm script A)) : ctree m ->
  (forall x, match h x with Some k => ctree k | None => unit end) -> ctree (ctry m h).
Proof.
  intros M K p. destruct (M p) as (t & V & H).
  exists (graft t (fun x => match snd x with
                            | Ok a => Leaf (Ok (fst x, Ok a))
                            | Raise e => match h e as o return match o with Some k => ctree k | None => unit end -> _ with
                                         | Some k => fun T => proj1_sig (T (fst x))
                                         | None => fun _ => Leaf (Ok (fst x, Raise e)) end (K e) end)).
  split.
  { apply every_graft; auto. intros (p' & [a|x]); cbn [fst snd]; [exact I|]. generalize (K x). destruct (h x) as [k|]; intros T; [apply (proj1 (proj2_sig (T p')))|exact I]. }
  intros s. destruct (H s) as (s' & p' & r & C & E). rewrite climb_graft, C. cbn [fst snd]. unfold ctry. rewrite E. destruct r as [a|x].
  - cbn. eauto.
  - specialize (K x) as Kx. revert Kx. generalize (K x). destruct (h x) as [k|]; intros T _.
    + apply (proj2 (proj2_sig (T p'))).
    + cbn. eauto.
Qed.
Lemma ct_has : ctree has_store.
Proof. intros p. exists (Leaf (Ok (p, Ok true))). split; [exact I|]. intros s. exists s, p, (Ok true). auto. Qed.
Lemma ct_call now o : visit_may o -> ctree (Consumer.call script_step now o).
Proof.
  intros V p. exists (Node o (fun a => Leaf (Ok (p, match a with Err x => Raise x | _ => Ok a end)))). split; [cbn; auto|]. intros s. unfold Consumer.call. cbn [c_store c_posts climb].
  unfold script_step. destruct (to_come s) as [|a r]; [|destruct a]; do 3 eexists; split; reflexivity.
Qed.
Lemma ct_post reg net m url : ctree (makeKVPost reg net m url).
Proof.
  unfold makeKVPost. apply ct_bind; [apply ct_ret|]. intros body p.
  exists (Leaf (Ok ((url, body) :: p, match net ((url, body) :: p) with None => Raise HTTPFetchingError | Some (status, b) => httpResponseToMessage reg status b end))).
  split; [exact I|]. intros s. do 3 eexists. split; reflexivity.
Qed.
Ltac ctrees :=
  repeat match goal with
  | |- ctree (cret _) => apply ct_ret
  | |- ctree (cbind _ _) => apply ct_bind; [|intros]
  | |- ctree has_store => apply ct_has
  | |- ctree (Consumer.call _ _ _) => apply ct_call; exact I
  | |- ctree (makeKVPost _ _ _ _) => apply ct_post
  | |- ctree (ctry _ _) => apply ct_try; [|intros]
  | |- ctree ?m => match m with context [match ?x with _ => _ end] => destruct x end
  end.
Ltac chandlers := match goal with x : exn |- _ => destruct x end; cbn; try exact tt; ctrees.

Section Visits.
  Variable e : uenv.
  Variable reg : dict text text.
  Variable hmac : text -> bytes -> bytes -> bytes.
  Variable udigit : N -> option Z.
  Notation visit_with := (visit_with e reg hmac udigit).
  Notation visit_next := (visit_next e reg hmac udigit).
  Notation visit_done := (visit_done e reg hmac udigit).

  Lemma ct_signature net now m url : ctree (idResCheckSignature reg hmac net script_step now m url).
  Proof using. unfold idResCheckSignature, checkAuth, processCheckAuthResponse. ctrees. all: chandlers. Qed.
  Lemma ct_nonce now m ep : ctree (idResCheckNonce udigit script_step now m ep).
  Proof using. unfold idResCheckNonce. ctrees. Qed.
  Lemma ct_complete net discover now m ep url : ctree (complete e reg hmac udigit net discover script_step now m ep url).
  Proof using.
    pose proof (ct_signature net now m) as T1. pose proof (ct_nonce now m) as T2.
    unfold complete, complete_id_res, doIdRes. ctrees; auto. all: try chandlers; auto.
  Qed.
  Lemma visit_tree v : is_tree visit_may (respond e reg hmac udigit script_step v).
  Proof using.
    unfold respond. destruct (fromPostArgs reg (v_query v)) as [m|x].
    - destruct (ct_complete (v_net v) (v_discover v) (v_now v) m (v_session v) (v_url v) []) as (t & V & H).
      exists (graft t (fun x => Leaf (snd x))). split.
      + apply every_graft; [exact V|cbn; auto].
      + intros s. destruct (H s) as (s' & p' & r & C & E). rewrite climb_graft, C, E. auto.
    - exists (Leaf (Raise x)). split; [exact I|auto].
  Qed.

  (** ** A success has used its nonce *)
  Lemma script_after outs h : let s := after script_step (mkScript outs []) h in
    asked s = rev (map snd h) /\ to_come s = skipn (List.length h) outs.
  Proof using.
    cbv zeta. induction h as [|[t o] h (I1 & I2)]; [auto|]. cbn [after map rev List.length snd]. set (s := after script_step (mkScript outs []) h) in *. clearbody s.
    unfold script_step. rewrite I1, I2.
    assert (forall (A : Type) n (l : list A), skipn (Datatypes.S n) l = skipn 1 (skipn n l)) as Sk.
    { clear. induction n as [|n IH]; intros [|x l]; auto. apply (IH l). }
    rewrite (Sk _ (List.length h) outs). destruct (skipn (List.length h) outs) as [|a r]; auto.
  Qed.
  Lemma accepted_nth outs server ts salt h : (0 < accepted script_step (mkScript outs []) server ts salt h)%nat ->
    exists k, nth_error (asked (after script_step (mkScript outs []) h)) k = Some (UseN server ts salt) /\ nth_error outs k = Some (Flag true).
  Proof using.
    clear e reg hmac udigit. induction h as [|[t o] h IH]; cbn [accepted]; [lia|]. intros H.
    destruct (script_after outs ((t, o) :: h)) as (A & _). destruct (script_after outs h) as (A' & T'). setoid_rewrite A. setoid_rewrite A' in IH.
    assert ((0 < accepted script_step (mkScript outs []) server ts salt h)%nat \/
            o = UseN server ts salt /\ answer script_step (mkScript outs []) h t o = Flag true) as [X|(-> & X)].
    { destruct o; try (left; lia). destruct (text_eqb server url && _ && _) eqn:Q; [|left; lia].
      rewrite !andb_true_iff, !text_eqb_eq, Z.eqb_eq in Q. destruct Q as ((-> & ->) & ->).
      destruct (answer _ _ _ _ _) as [ | | b | | ] eqn:Ea; try (left; lia). destruct b; [right; auto|left; lia]. }
    - destruct (IH X) as (k & K1 & K2). exists k. split; auto. cbn [map rev]. rewrite nth_error_app1; auto. apply nth_error_Some. congruence.
    - exists (List.length h). cbn [map rev snd]. rewrite nth_error_app2 by (rewrite rev_length, map_length; apply le_n).
      rewrite rev_length, map_length, Nat.sub_diag. split; auto. unfold answer in X. set (s := after script_step (mkScript outs []) h) in *. clearbody s. unfold script_step in X. rewrite T' in X.
      destruct (skipn (List.length h) outs) as [|a r] eqn:Sk; cbn in X; [discriminate|]. subst a.
      rewrite <- (firstn_skipn (List.length h) outs), Sk. assert (List.length (firstn (List.length h) outs) = List.length h) as L.
      { apply firstn_length_le. destruct (Nat.le_gt_cases (List.length h) (List.length outs)) as [Z|Z]; auto. rewrite skipn_all2 in Sk by lia. discriminate. }
      rewrite nth_error_app2 by lia. rewrite L, Nat.sub_diag. auto.
  Qed.
  Lemma success_script v outs ep m fields : fair_query reg (v_query v) -> snd (visit_with v outs) = Ok (Success ep m fields) ->
    exists server nonce ts salt k, nonce_of (v_query v) = Some (server, nonce) /\ split udigit nonce = Ok (ts, salt) /\
      nth_error (asked (fst (visit_with v outs))) k = Some (UseN server ts salt) /\ nth_error outs k = Some (Flag true).
  Proof using.
    intros Q H. unfold ConsumerConc.visit_with in *.
    pose proof (respond_logged e reg hmac udigit script_step (mkScript outs []) v (mkScript outs [], []) eq_refl) as L.
    destruct (respond e reg hmac udigit (logged script_step) v (mkScript outs [], [])) as [sh' r] eqn:E. cbn [fst snd] in L. destruct L as (L1 & L2 & _).
    rewrite L1 in H |- *. cbn [fst snd] in *. subst r.
    assert (exists m0, fromPostArgs reg (v_query v) = Ok m0) as (m0 & F). { unfold respond in E. destruct (fromPostArgs reg (v_query v)); [eauto|discriminate]. }
    destruct (success_uses e reg hmac udigit script_step (mkScript outs []) (v_query v) m0 v (mkScript outs [], []) sh' ep m fields Q F eq_refl eq_refl E) as (server & nonce & ts & salt & N1 & N2 & N3).
    cbn [snd accepted] in N3. rewrite L2. destruct (accepted_nth outs server ts salt (snd sh') N3) as (k & K1 & K2). exists server, nonce, ts, salt, k. auto.
  Qed.

  (** ** Runs *)
  Section Run.
    Context {S : Type} (step : S -> Z -> op -> S * out) (s0 : S).
    Variable h0 : history.
    Variable others : op -> Prop.
    Variable visits : list visit.
    Notation runs := (runs visit_next step s0 h0 others visits).
    Notation store tr := (calls_of tr ++ h0).
    Definition succeeded (tr : list call) (i : nat) (v : visit) : Prop :=
      nth_error visits i = Some v /\ exists ep m fields, visit_done v (answers_to i tr) = Some (Ok (Success ep m fields)).

    Lemma success_event tr i v : runs tr -> fair_query reg (v_query v) -> succeeded tr i v ->
      exists server nonce ts salt tr2 ev tr1, nonce_of (v_query v) = Some (server, nonce) /\ split udigit nonce = Ok (ts, salt) /\
        tr = tr2 ++ ev :: tr1 /\ by_job ev = i /\ the_op ev = UseN server ts salt /\ the_out ev = Flag true.
    Proof using.
      intros R Q (J & ep & m & fields & Fi). unfold ConsumerConc.visit_done in Fi. destruct (visit_next v (answers_to i tr)) eqn:N; [discriminate|]. injection Fi as Fi.
      destruct (success_script v _ ep m fields Q Fi) as (server & nonce & ts & salt & k & N1 & N2 & K1 & K2).
      assert (k < List.length (answers_to i tr))%nat as L. { apply nth_error_Some. congruence. }
      destruct (nth_next visit_next step s0 h0 others visits tr i v k R J L) as (tr2 & ev & tr1 & E & B & _ & O & A & _).
      exists server, nonce, ts, salt, tr2, ev, tr1. split; auto. split; auto. split; auto. split; auto. split; [|congruence].
      assert (visit_next v (firstn k (answers_to i tr)) = nth_error (asked (fst (visit_with v (answers_to i tr)))) k) as X.
      { symmetry. apply (tree_stable _ _ (visit_tree v)). apply Nat.lt_le_incl. auto. }
      rewrite X, K1 in A. congruence.
    Qed.
    Lemma counted_one tr ev server ts salt : runs tr -> In ev tr -> the_op ev = UseN server ts salt -> the_out ev = Flag true ->
      (1 <= accepted step s0 server ts salt (store tr))%nat.
    Proof using.
      intros R I O T. induction tr as [|e' tr IH]; [destruct I|]. apply runs_cons in R as (R & _ & A & _).
      change (store (e' :: tr)) with ((at_time e', the_op e') :: store tr). cbn [accepted]. destruct I as [->|I]; [|specialize (IH R I); lia].
      rewrite O in *. rewrite <- A, T, !text_eqb_refl, Z.eqb_refl. cbn. lia.
    Qed.
    Lemma counted_two tr ev ev' server ts salt : runs tr -> In ev tr -> In ev' tr -> by_job ev <> by_job ev' ->
      the_op ev = UseN server ts salt -> the_out ev = Flag true -> the_op ev' = UseN server ts salt -> the_out ev' = Flag true ->
      (2 <= accepted step s0 server ts salt (store tr))%nat.
    Proof using.
      intros R I I' Ne O T O' T'. induction tr as [|e' tr IH]; [destruct I|]. pose proof R as R0. apply runs_cons in R as (R & _ & A & _).
      change (store (e' :: tr)) with ((at_time e', the_op e') :: store tr). cbn [accepted].
      destruct I as [->|I], I' as [->|I']; [congruence| | |specialize (IH R I I'); lia].
      - pose proof (counted_one tr ev' server ts salt R I' O' T'). rewrite O in *. rewrite <- A, T, !text_eqb_refl, Z.eqb_refl. cbn. lia.
      - pose proof (counted_one tr ev server ts salt R I O T). rewrite O' in *. rewrite <- A, T', !text_eqb_refl, Z.eqb_refl. cbn. lia.
    Qed.

    Lemma once_conc tr i j vi vj server nonce : runs tr -> fair_query reg (v_query vi) -> fair_query reg (v_query vj) ->
      (forall ts salt, (accepted step s0 server ts salt (store tr) <= 1)%nat) ->
      succeeded tr i vi -> succeeded tr j vj -> uses server nonce vi = true -> uses server nonce vj = true -> i = j.
    Proof using.
      intros R Qi Qj A Si Sj Ui Uj. destruct (Nat.eq_dec i j) as [|Ne]; auto. exfalso.
      destruct (success_event tr i vi R Qi Si) as (s1 & n1 & ts & salt & tr2 & ev & tr1 & N1 & P1 & E1 & B1 & O1 & T1).
      destruct (success_event tr j vj R Qj Sj) as (s2 & n2 & ts' & salt' & tr2' & ev' & tr1' & N2 & P2 & E2 & B2 & O2 & T2).
      unfold uses in Ui, Uj. rewrite N1 in Ui. rewrite N2 in Uj. rewrite andb_true_iff, !text_eqb_eq in Ui, Uj. destruct Ui as (-> & ->), Uj as (-> & ->).
      rewrite P1 in P2. injection P2 as <- <-.
      assert (2 <= accepted step s0 server ts salt (store tr))%nat.
      { eapply (counted_two tr ev ev'); eauto; [rewrite E1|rewrite E2|congruence]; apply in_or_app; right; left; auto. }
      specialize (A ts salt). lia.
    Qed.
    Lemma runs_clock tr : runs tr -> forall t, clock t h0 -> exists t', clock t' (store tr).
    Proof using. intros R t C. destruct tr as [|ev tr]; [eauto|]. apply runs_cons in R as (_ & C' & _). exists (at_time ev). cbn. split; [lia|auto]. Qed.
  End Run.
End Visits.

(** ** C161 *)
(** However the store calls of the visits, and what others do to the store, interleave: two
    successful visits never have the same nonce of the same server. *)
Theorem C161_once_memory : forall e reg hmac udigit h0 t0 others visits tr i j vi vj server nonce,
  clock t0 h0 -> runs (visit_next e reg hmac udigit) mem_step mem_init h0 others visits tr ->
  fair_query reg (v_query vi) -> fair_query reg (v_query vj) ->
  succeeded e reg hmac udigit visits tr i vi -> succeeded e reg hmac udigit visits tr j vj ->
  uses server nonce vi = true -> uses server nonce vj = true -> i = j.
Proof.
  intros e reg hmac udigit h0 t0 others visits tr i j vi vj server nonce C R Qi Qj Si Sj Ui Uj.
  destruct (runs_clock e reg hmac udigit mem_step mem_init h0 others visits tr R t0 C) as (t' & C').
  apply (once_conc e reg hmac udigit mem_step mem_init h0 others visits tr i j vi vj server nonce); auto. intros ts salt. eapply C19_once_memory. eauto.
Qed.
Print Assumptions C161_once_memory.
Theorem C161_once_sql : forall e reg hmac udigit h0 t0 others visits tr i j vi vj server nonce,
  clock t0 h0 -> runs (visit_next e reg hmac udigit) lite sql_init h0 others visits tr -> sql_nonces_ok (calls_of tr ++ h0) ->
  fair_query reg (v_query vi) -> fair_query reg (v_query vj) ->
  succeeded e reg hmac udigit visits tr i vi -> succeeded e reg hmac udigit visits tr j vj ->
  uses server nonce vi = true -> uses server nonce vj = true -> i = j.
Proof.
  intros e reg hmac udigit h0 t0 others visits tr i j vi vj server nonce C R K Qi Qj Si Sj Ui Uj.
  destruct (runs_clock e reg hmac udigit lite sql_init h0 others visits tr R t0 C) as (t' & C').
  apply (once_conc e reg hmac udigit lite sql_init h0 others visits tr i j vi vj server nonce); auto. intros ts salt. eapply C21_once_sql; eauto.
Qed.
Print Assumptions C161_once_sql.
Theorem C161_once_file : forall sha1, digest20 sha1 -> forall e reg hmac udigit h0 t0 others visits tr i j vi vj server nonce,
  clock t0 h0 -> runs (visit_next e reg hmac udigit) (file_step sha1) fs_init h0 others visits tr ->
  distinct_on sha1 (texts (calls_of tr ++ h0)) -> file_history (calls_of tr ++ h0) ->
  fair_query reg (v_query vi) -> fair_query reg (v_query vj) ->
  succeeded e reg hmac udigit visits tr i vi -> succeeded e reg hmac udigit visits tr j vj ->
  uses server nonce vi = true -> uses server nonce vj = true -> i = j.
Proof.
  intros sha1 D e reg hmac udigit h0 t0 others visits tr i j vi vj server nonce C R K1 K2 Qi Qj Si Sj Ui Uj.
  destruct (runs_clock e reg hmac udigit (file_step sha1) fs_init h0 others visits tr R t0 C) as (t' & C').
  apply (once_conc e reg hmac udigit (file_step sha1) fs_init h0 others visits tr i j vi vj server nonce); auto. intros ts salt. eapply C20_once_file; eauto.
Qed.
Print Assumptions C161_once_file.
(** Every success has such a nonce. *)
Theorem C161_none_escapes : forall e reg hmac udigit (S : Type) (step : S -> Z -> op -> S * out) s0 h0 others visits tr i v,
  runs (visit_next e reg hmac udigit) step s0 h0 others visits tr -> fair_query reg (v_query v) ->
  succeeded e reg hmac udigit visits tr i v -> exists server nonce, uses server nonce v = true.
Proof.
  intros e reg hmac udigit S step s0 h0 others visits tr i v R Q Su.
  destruct (success_event e reg hmac udigit step s0 h0 others visits tr i v R Q Su) as (server & nonce & _ & _ & _ & _ & _ & N & _).
  exists server, nonce. unfold uses. rewrite N, !text_eqb_refl. auto.
Qed.
Print Assumptions C161_none_escapes.

(** ** C162: what a success means in such a run *)
Lemma ct_grows {A} (m : @cm script A) : ctree m -> forall outs acc p c r, m (mkCst (Some (mkScript outs acc)) p) = (c, r) ->
  exists outs' more p', c = mkCst (Some (mkScript outs' (acc ++ more))) p'.
Proof.
  intros M outs acc p c r E. destruct (M p) as (t & _ & H). destruct (H (mkScript outs acc)) as (s' & p' & r' & C & E'). rewrite E in E'. inv E'.
  assert (exists outs' more, s' = mkScript outs' (acc ++ more)) as (outs' & more & ->); [|eauto].
  assert (forall (A : Type) (t : tree A) outs acc s' r, climb t (mkScript outs acc) = (s', r) -> exists outs' more, s' = mkScript outs' (acc ++ more)) as G.
  { clear. induction t as [x|o f IH]; intros outs acc s' r C; cbn [climb] in C.
    - inv C. exists outs, []. rewrite app_nil_r. auto.
    - destruct outs as [|a outs].
      + change (script_step _ 0 o) with (mkScript [] (acc ++ [o]), Err TypeError) in C. cbv beta iota in C. apply IH in C as (o' & m' & ->). rewrite <- app_assoc. eauto.
      + change (script_step _ 0 o) with (mkScript outs (acc ++ [o]), a) in C. cbv beta iota in C. apply IH in C as (o' & m' & ->). rewrite <- app_assoc. eauto. }
  eapply G; eauto.
Qed.
Lemma success_first e reg hmac udigit v outs ep m fields : fair_query reg (v_query v) -> snd (visit_with e reg hmac udigit v outs) = Ok (Success ep m fields) ->
  exists server handle signed sig o rest more, ep_server_url ep = Some server /\ wire_value (v_query v) (u "assoc_handle") = Some handle /\
    wire_value (v_query v) (u "signed") = Some signed /\ wire_value (v_query v) (u "sig") = Some sig /\
    outs = Got o :: rest /\ asked (fst (visit_with e reg hmac udigit v outs)) = GetA server (Some handle) :: more /\
    match o with
    | Some a => v_now v < a_issued a + a_lifetime a /\ mac_valid hmac a (v_query v) signed sig
    | None => exists body status answer, check_body (v_query v) body /\ v_net v [(server, body)] = Some (status, answer) /\
                (status = 200%N \/ status = 206%N) /\ reply_says answer (u "is_valid") (u "true")
    end.
Proof.
  intros Q H. unfold visit_with, respond in *. destruct (fromPostArgs reg (v_query v)) as [m0|x] eqn:F; [|discriminate].
  destruct (complete e reg hmac udigit (v_net v) (v_discover v) script_step (v_now v) m0 (v_session v) (v_url v) (mkCst (Some (mkScript outs [])) [])) as [c r] eqn:E.
  cbn [fst snd] in *. subst r.
  destruct (C41_success_is_justified e reg hmac udigit (v_net v) (v_discover v) script_step (v_now v) (v_query v) m0 _ _ _ _ _ _ _ Q F E)
    as (-> & _ & _ & rto & server & handle & signed & sig & _ & Hh & Hsn & Hsg & Hs & _ & _ & _ & V).
  apply complete_Success in E as (_ & _ & _ & Ck & _ & _ & (s1 & Sg & No) & _).
  (* the first call *)
  assert (exists more, asked (match c_store c with Some s' => s' | None => mkScript outs [] end) = GetA server (Some handle) :: more) as (more & A).
  { unfold idResCheckSignature in Sg. rewrite Hs in Sg. cbn [the_url] in Sg.
    apply cbind_Ok in Sg as (s2 & su & S1 & Sg). apply cret_Ok in S1 as (-> & S1). injection S1 as <-.
    apply cbind_Ok in Sg as (s3 & hh & S2 & Sg). apply cret_Ok in S2 as (-> & S2).
    assert (hh = Some handle) as ->.
    { destruct Q as (_ & Hn & _). rewrite (field_of reg (v_query v) m0 _ Hn F) in S2 by simple_key. congruence. }
    apply cbind_Ok in Sg as (s4 & st & S3 & Sg). unfold has_store in S3. cbn [c_store] in S3. injection S3 as <- <-.
    apply cbind_Ok in Sg as (s5 & o & S4 & Sg). apply cbind_Ok in S4 as (s6 & rr & S5 & S4). apply cret_Ok in S4 as (-> & S4).
    unfold Consumer.call in S5. cbn [c_store c_posts] in S5.
    assert (exists outs', s6 = mkCst (Some (mkScript outs' [GetA server (Some handle)])) []) as (outs' & ->).
    { destruct outs as [|a outs].
      - change (script_step _ _ _) with (mkScript [] [GetA server (Some handle)], Err TypeError) in S5. cbv beta iota in S5. inv S5.
      - change (script_step _ _ _) with (mkScript outs [GetA server (Some handle)], a) in S5. cbv beta iota in S5. inv S5. eauto. }
    assert (exists outs2 more2 p2, s1 = mkCst (Some (mkScript outs2 ([GetA server (Some handle)] ++ more2))) p2) as (outs2 & more2 & p2 & ->).
    { match type of Sg with ?k _ = _ => assert (ctree k) as Ck' end.
      { unfold checkAuth, processCheckAuthResponse. ctrees. all: chandlers. }
      eapply ct_grows; [exact Ck'|exact Sg]. }
    destruct (ct_grows _ (ct_nonce udigit (v_now v) m0 ep) _ _ _ _ _ No) as (outs3 & more3 & p3 & ->). cbn [c_store asked]. rewrite <- app_assoc. cbn [app]. eauto. }
  destruct V as [(st & st' & a & V1 & V2 & V3 & V4 & _)|(V1 & body & status & answer & B1 & B2 & B3 & B4 & B5)].
  - cbn [c_store] in V1. injection V1 as <-. destruct outs as [|a0 outs]; cbn in V2; [discriminate|]. injection V2 as <- ->.
    exists server, handle, signed, sig, (Some a), outs, more. auto 10.
  - destruct V1 as [V1|(st & st' & V1 & V2)]; [discriminate|]. cbn [c_store] in V1. injection V1 as <-. destruct outs as [|a0 outs]; cbn in V2; [discriminate|]. injection V2 as <- ->.
    exists server, handle, signed, sig, None, outs, more. split; auto. split; auto. split; auto. split; auto. split; auto. split; auto.
    exists body, status, answer. cbn [c_posts] in B2. rewrite B2 in B3. auto.
Qed.
(** There was a moment, within the run, at which the store held the association that verifies
    the response; or held none, and the server itself has confirmed the response. *)
Theorem C162_justified : forall (S : Type) (step : S -> Z -> op -> S * out) s0 fine, keeps step s0 fine ->
  forall e reg hmac udigit h0 others visits tr i v ep m fields,
  runs (visit_next e reg hmac udigit) step s0 h0 others visits tr -> Forall (fun ev : Z * op => fine (snd ev)) (calls_of tr ++ h0) ->
  fair_query reg (v_query v) -> nth_error visits i = Some v ->
  visit_done e reg hmac udigit v (answers_to i tr) = Some (Ok (Success ep m fields)) ->
  exists server handle signed sig tr2 ev tr1, ep_server_url ep = Some server /\ wire_value (v_query v) (u "assoc_handle") = Some handle /\
    wire_value (v_query v) (u "signed") = Some signed /\ wire_value (v_query v) (u "sig") = Some sig /\
    tr = tr2 ++ ev :: tr1 /\ by_job ev = i /\
    ((exists a, stored server handle (calls_of tr1 ++ h0) = Some a /\ v_now v < a_issued a + a_lifetime a /\ mac_valid hmac a (v_query v) signed sig) \/
     (good_at (at_time ev) (stored server handle (calls_of tr1 ++ h0)) = None /\
      exists body status answer, check_body (v_query v) body /\ v_net v [(server, body)] = Some (status, answer) /\
        (status = 200%N \/ status = 206%N) /\ reply_says answer (u "is_valid") (u "true"))).
Proof.
  intros S step s0 fine K e reg hmac udigit h0 others visits tr i v ep m fields R Fn Q J D.
  unfold visit_done in D. destruct (visit_next e reg hmac udigit v (answers_to i tr)) eqn:N; [discriminate|]. injection D as D.
  destruct (success_first e reg hmac udigit v _ ep m fields Q D) as (server & handle & signed & sig & o & rest & more & Hs & Hh & Hsn & Hsg & O & A & W).
  assert (0 < List.length (answers_to i tr))%nat as L by (rewrite O; cbn; lia).
  destruct (nth_next _ step s0 h0 others visits tr i v 0 R J L) as (tr2 & ev & tr1 & E & B & _ & O' & A' & C & X).
  assert (the_op ev = GetA server (Some handle)) as Op.
  { pose proof (tree_stable _ _ (visit_tree e reg hmac udigit v) (answers_to i tr) 0 (Nat.le_0_l _)) as T.
    unfold visit_next, visit_with in A'. rewrite A' in T. unfold visit_with in A. rewrite A in T. cbn in T. congruence. }
  rewrite O in O'. cbn in O'. injection O' as O'. rewrite <- O', Op in X.
  assert (fine (GetA server (Some handle)) /\ Forall (fun ev : Z * op => fine (snd ev)) (calls_of tr1 ++ h0)) as (F1 & F2).
  { rewrite E in Fn. unfold calls_of in Fn. rewrite map_app, <- app_assoc in Fn. apply Forall_app in Fn as (_ & Fn). cbn [map app] in Fn. inversion Fn as [|y l F1 F2]. cbn in F1. rewrite Op in F1. auto. }
  destruct (ks_get _ _ _ K (calls_of tr1 ++ h0) (at_time ev) server handle C F2 F1) as (o' & Eo & G1 & G2). rewrite Eo in X. injection X as <-.
  exists server, handle, signed, sig, tr2, ev, tr1. split; auto. split; auto. split; auto. split; auto. split; auto. split; auto.
  destruct o as [a|].
  - left. exists a. destruct W. auto.
  - right. split; auto.
Qed.
Print Assumptions C162_justified.

(** The response of C44_example comes twice, to two processes, and both have found the
    association before either uses the nonce: one succeeds. *)
Definition both : list visit := [ex_visit 1001 (u "http://a/b") (u "http://rp/back"); ex_visit 1001 (u "http://a/b") (u "http://rp/back")].
Definition before : history := [(1000, StoreA ex_server ex_assoc)].
Definition next0 := visit_next plain_env [] toy_hmac (fun _ => None).
Definition overlap : list call :=
  match go next0 mem_step mem_init before both [(0%nat, 1001); (1%nat, 1001); (1%nat, 1001); (0%nat, 1002)] [] with Some tr => tr | None => [] end.
Example C161_example :
  runs next0 mem_step mem_init before (fun _ => False) both overlap /\
  map (fun i => match visit_done plain_env [] toy_hmac (fun _ => None) (nth i both (ex_visit 0 [] [])) (answers_to i overlap) with
                | Some (Ok (Success _ _ _)) => Some true | Some (Ok (Failure _ _)) => Some false | _ => None end) [0%nat; 1%nat] = [Some false; Some true].
Proof.
  split; [|vm_compute; reflexivity].
  assert (exists tr, go next0 mem_step mem_init before both [(0%nat, 1001); (1%nat, 1001); (1%nat, 1001); (0%nat, 1002)] [] = Some tr) as (tr & H).
  { exists overlap. vm_compute. reflexivity. }
  unfold overlap. rewrite H. eapply go_runs; [apply runs_none|exact H].
Qed.
(** And the one that succeeds had found the association that was stored before. *)
Example C162_example :
  match overlap with
  | [_; e3; e2; e1] => by_job e2 = 1%nat /\ the_op e2 = GetA ex_server (Some (a_handle ex_assoc)) /\ the_out e2 = Got (Some ex_assoc) /\
                       the_out e3 = Flag true /\ stored ex_server (a_handle ex_assoc) (calls_of [e1] ++ before) = Some ex_assoc
  | _ => False
  end.
Proof. vm_compute. auto 10. Qed.
