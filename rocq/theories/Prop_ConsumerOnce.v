(** C44: a response is accepted at most once. *)
From Coq Require Import Lia ZifyBool ZifyN ZifyNat.
From Verif Require Import Py PyFacts Utf8 KVForm CryptUtil DH Message MessageFacts MessageWire MessageParse MessageSpec MessageRound Prop_Message.
From Verif Require Import Association AssociationFacts Prop_Association UrlLib UriNorm OidUtil Nonce NonceFacts Store StoreSpec StoreFacts.
From Verif Require Import FileStore FileStoreFacts Prop_FileNames Prop_StoreMem Prop_StoreSql Prop_StoreFile ServerFacts Prop_ServerDecode.
From Verif Require Import Endpoint Consumer ConsumerFacts Prop_Consumer.
Open Scope N_scope.
Local Arguments u : simpl never.

(** ** Runs *)
(** Someone arrives with a query: everything about that moment, including how the network
    and discovery behave then. *)
Record visit := mkVisit {
  v_now : Z; v_query : dict text text; v_session : option endpoint; v_url : text;
  v_net : list post -> option (N * bytes); v_discover : text -> res (list endpoint)
}.
(** Or anything else is done to the shared store, by anyone. *)
Inductive happening := Visit (v : visit) | Other (t : Z) (o : op).

Section Run.
  Variable e : uenv.
  Variable reg : dict text text.
  Variable hmac : text -> bytes -> bytes -> bytes.
  Variable udigit : N -> option Z.
  Context {S : Type} (step : S -> Z -> op -> S * out) (s0 : S).

  Definition respond {T} (step : T -> Z -> op -> T * out) (v : visit) (s : T) : T * res response :=
    match fromPostArgs reg (v_query v) with
    | Raise x => (s, Raise x)
    | Ok m =>
        let (c, r) := complete e reg hmac udigit (v_net v) (v_discover v) step (v_now v) m (v_session v) (v_url v) (mkCst (Some s) []) in
        (match c_store c with Some s' => s' | None => s end, r)
    end.
  (** Newest first: the state of the store, and the successful visits. *)
  Fixpoint run {T} (step : T -> Z -> op -> T * out) (s : T) (hs : list happening) : T * list visit :=
    match hs with
    | [] => (s, [])
    | Other t o :: r => let (s1, w) := run step s r in (fst (step s1 t o), w)
    | Visit v :: r =>
        let (s1, w) := run step s r in
        let (s2, x) := respond step v s1 in
        (s2, match x with Ok (Success _ _ _) => v :: w | _ => w end)
    end.
  (** The calls the store receives in a run. *)
  Definition calls_of (hs : list happening) : history := snd (fst (run (logged step) (s0, []) hs)).

  (** The nonce of a response and the server it is counted for. *)
  Definition nonce_of (query : dict text text) : option (text * text) :=
    if asks_v2 query
    then match wire_value query (u "op_endpoint"), wire_value query (u "response_nonce") with Some s, Some n => Some (s, n) | _, _ => None end
    else match dget text_eqb (u "janrain_nonce") query with Some n => Some ([], n) | None => None end.
  Definition uses (server nonce : text) (v : visit) : bool :=
    match nonce_of (v_query v) with Some (s, n) => text_eqb s server && text_eqb n nonce | None => false end.
  Definition time_of (x : happening) : Z := match x with Visit v => v_now v | Other t _ => t end.
  (** The clock does not go backwards, and the queries are dictionaries. *)
  Fixpoint in_order (t : Z) (hs : list happening) : Prop :=
    match hs with [] => True | x :: r => (time_of x <= t)%Z /\ in_order (time_of x) r end.
  Definition fair (hs : list happening) : Prop := Forall (fun x => match x with Visit v => fair_query reg (v_query v) | _ => True end) hs.

  (** ** Proof *)
  Lemma respond_logged v sh : fst sh = after step s0 (snd sh) ->
    let (sh', r) := respond (logged step) v sh in
    respond step v (fst sh) = (fst sh', r) /\ fst sh' = after step s0 (snd sh') /\
    exists calls, snd sh' = calls ++ snd sh /\ Forall (fun ev => fst ev = v_now v) calls.
  Proof.
    intros H. unfold respond. destruct (fromPostArgs reg (v_query v)) as [m|x].
    2:{ split; auto. split; auto. exists []. auto. }
    destruct (complete_tracked e reg hmac udigit (v_net v) (v_discover v) step s0 (v_now v) m (v_session v) (v_url v) (mkCst (Some sh) [])) as (E & R & G); [exact H|].
    unfold erase in E at 1. cbn [c_store c_posts option_map] in E. rewrite E. clear E. unfold grows in G. cbn [c_store] in G.
    destruct (complete e reg hmac udigit (v_net v) (v_discover v) (logged step) (v_now v) m (v_session v) (v_url v) (mkCst (Some sh) [])) as [c r]. cbn [fst snd] in *.
    unfold recorded in R. unfold erase. cbn [c_store]. destruct (c_store c) as [sh'|]; [|destruct G]. cbn [option_map]. auto.
  Qed.

  Lemma run_logged hs : let (sh, w) := run (logged step) (s0, []) hs in
    run step s0 hs = (fst sh, w) /\ fst sh = after step s0 (snd sh).
  Proof.
    induction hs as [|[v|t o] hs IH]; cbn [run].
    - auto.
    - destruct (run (logged step) (s0, []) hs) as [sh w]. destruct IH as (I1 & I2). rewrite I1.
      pose proof (respond_logged v sh I2) as R. destruct (respond (logged step) v sh) as [sh' x]. destruct R as (R1 & R2 & _). rewrite R1. auto.
    - destruct (run (logged step) (s0, []) hs) as [sh w]. destruct IH as (I1 & I2). rewrite I1. split.
      + unfold logged. destruct (step (fst sh) t o). auto.
      + unfold logged. rewrite I2. cbn [after]. destruct (step (after step s0 (snd sh)) t o) as [s' r] eqn:E. cbn [fst snd after]. rewrite E. auto.
  Qed.
  Lemma clock_app t t' calls h : (forall ev, In ev calls -> fst ev = t') -> (t' <= t)%Z -> clock t' h -> clock t (calls ++ h).
  Proof.
    clear step s0 S. revert t. induction calls as [|[x o] calls IH]; intros t H L C; cbn [app].
    - destruct h as [|[x o] h]; auto. cbn [clock] in *. split; [lia|apply C].
    - cbn [clock]. assert (x = t') as -> by (apply (H (x, o)); left; auto). split; auto. apply IH; auto; [|lia]. intros ev Hev. apply H. right. auto.
  Qed.
  Lemma calls_clock hs t : in_order t hs -> clock t (calls_of hs).
  Proof.
    revert t. induction hs as [|[v|t' o] hs IH]; intros t H; unfold calls_of in *; cbn [run in_order time_of] in *; auto.
    - destruct H as (H1 & H2). specialize (IH _ H2). pose proof (run_logged hs) as L. destruct (run (logged step) (s0, []) hs) as [sh w]. destruct L as (_ & L).
      pose proof (respond_logged v sh L) as R. destruct (respond (logged step) v sh) as [sh' x]. destruct R as (_ & _ & calls & Ec & Fc). cbn [fst snd] in *.
      rewrite Ec. rewrite Forall_forall in Fc. eapply clock_app; eauto.
    - destruct H as (H1 & H2). specialize (IH _ H2). destruct (run (logged step) (s0, []) hs) as [sh w]. cbn [fst snd] in *.
      unfold logged. destruct (step (fst sh) t' o). cbn [fst snd clock]. auto.
  Qed.

  Lemma accepted_app url ts salt calls h : (accepted step s0 url ts salt h <= accepted step s0 url ts salt (calls ++ h))%nat.
  Proof. induction calls as [|[t o] calls IH]; cbn [app accepted]; lia. Qed.

  (** A success uses the nonce up. *)
  Lemma success_uses query m v sh sh' ep' m' fields : fair_query reg query -> fromPostArgs reg query = Ok m -> v_query v = query ->
    fst sh = after step s0 (snd sh) ->
    respond (logged step) v sh = (sh', Ok (Success ep' m' fields)) ->
    exists server nonce ts salt, nonce_of query = Some (server, nonce) /\ split udigit nonce = Ok (ts, salt) /\
      (accepted step s0 server ts salt (snd sh) < accepted step s0 server ts salt (snd sh'))%nat.
  Proof.
    intros Q F Ev Ha H. pose proof Q as (Rg & Hn & Hs). unfold respond in H. rewrite Ev, F in H.
    destruct (complete e reg hmac udigit (v_net v) (v_discover v) (logged step) (v_now v) m (v_session v) (v_url v) (mkCst (Some sh) [])) as [c r] eqn:C.
    injection H as Hc ->. 
    assert (ep_server_url ep' = wire_value query (u "op_endpoint") \/ asks_v2 query = false) as SV.
    { destruct (asks_v2 query) eqn:V; auto. left. destruct (C43_discovered_v2 e reg hmac udigit (v_net v) (v_discover v) (logged step) (v_now v) query m _ _ _ _ _ _ _ Q F V C) as (server & E1 & E2 & _). congruence. }
    apply complete_Success in C as (_ & _ & _ & Ck & _ & _ & (s1 & Sg & No) & _).
    destruct (version_inv reg query m Hn F Ck) as (Vn & _). destruct (query_version reg query m Hn F) as (_ & V1).
    (* the signature check only makes the history longer *)
    assert (exists sh1, c_store s1 = Some sh1 /\ fst sh1 = after step s0 (snd sh1) /\ exists calls, snd sh1 = calls ++ snd sh) as (sh1 & C1 & A1 & calls & E1).
    { assert (tracked step s0 (v_now v) (idResCheckSignature reg hmac (v_net v) step (v_now v) m (ep_server_url ep')) (idResCheckSignature reg hmac (v_net v) (logged step) (v_now v) m (ep_server_url ep'))) as T.
      { unfold idResCheckSignature, checkAuth, processCheckAuthResponse. track. all: handlers. }
      destruct (T (mkCst (Some sh) [])) as (_ & R & G); [exact Ha|]. rewrite Sg in R, G. cbn [fst] in *. unfold recorded in R. unfold grows in G. cbn [c_store] in G.
      destruct (c_store s1) as [sh1|]; [|destruct G]. destruct G as (calls & G & _). eauto 6. }
    unfold idResCheckNonce in No. apply cbind_Ok in No as (s2 & [n url] & N1 & No).
    assert (s2 = s1 /\ exists server nonce, n = Some nonce /\ url = Some server /\ nonce_of query = Some (server, nonce)) as (-> & server & nonce & -> & -> & Nk).
    { unfold nonce_of. rewrite V1 in N1. destruct (asks_v2 query) eqn:V; cbn [negb] in N1.
      - pose proof (field_ns reg query m (u "response_nonce") Hn F Ck) as FN. rewrite V in FN.
        rewrite FN in N1 by simple_key. apply cbind_Ok in N1 as (s3 & nn & N2 & N1). apply cret_Ok in N2 as (-> & N2). apply cret_Ok in N1 as (-> & N1).
        injection N2 as N2. injection N1 as <- <-. split; auto. destruct SV as [SV|SV]; [|discriminate].
        rewrite N2. destruct nn as [nonce|]; cbn [fst] in No; [|apply cret_Ok in No as (_ & No); discriminate].
        destruct (ep_server_url ep') as [server|] eqn:Es.
        2:{ unfold idResCheckSignature in Sg. cinv Sg. discriminate. }
        rewrite <- SV. eauto 6.
      - apply cbind_Ok in N1 as (s3 & nn & N2 & N1). apply cret_Ok in N2 as (-> & N2). apply cret_Ok in N1 as (-> & N1).
        injection N1 as <- <-. split; auto. destruct nn as [nonce|]; cbn [fst] in No; [|apply cret_Ok in No as (_ & No); discriminate].
        rewrite getArg_bare in N2. injection N2 as N2. destruct (fromPostArgs_sound reg query m (proj1 Rg) Hn Hs F) as (_ & m0 & _ & _ & _ & _ & Ba).
        apply Ba in N2 as (N2 & _). apply (In_dget text_eqb text_eqb_eq) in N2; auto. unfold nonce_name in N2. rewrite N2. eauto 6. }
    cbn [fst snd] in No. cinv No as tsalt T1. destruct tsalt as [ts salt]. cinv No as st B. injection B as <-. rewrite C1 in No.
    cinv No as sv U. injection U as <-. cinv No as rr Cl. cinv No as fl Fl. apply cret_Ok in No as (-> & No). destruct fl; [|discriminate].
    apply catch_Ok in T1 as [T1|(x & _ & X)]; [|destruct (isValueError x); discriminate].
    exists server, nonce, ts, salt. split; auto. split; auto. cbn [fst snd] in Cl. unfold call in Cl. rewrite C1 in Cl. unfold logged in Cl.
    destruct (step (fst sh1) (v_now v) (UseN server ts salt)) as [st' rr'] eqn:Es. injection Cl as <- Cl. cbn [c_store] in Hc. subst sh'. cbn [snd accepted].
    rewrite !text_eqb_refl, Z.eqb_refl. cbn [andb]. unfold answer. rewrite <- A1, Es. cbn [snd].
    destruct rr'; try discriminate Cl; injection Cl as <-; cbn [flag] in Fl; try discriminate Fl. injection Fl as ->.
    rewrite E1. pose proof (accepted_app server ts salt calls (snd sh)). lia.
  Qed.

  Lemma successes_accepted hs server nonce ts salt : fair hs -> split udigit nonce = Ok (ts, salt) ->
    (length (filter (uses server nonce) (snd (run step s0 hs))) <= accepted step s0 server ts salt (calls_of hs))%nat.
  Proof.
    intros Hf Hs. unfold calls_of. pose proof (run_logged hs) as L. destruct (run (logged step) (s0, []) hs) as [sh w] eqn:R. destruct L as (L1 & L2). rewrite L1. cbn [fst snd]. clear L1 L2.
    revert sh w R. induction hs as [|[v|t o] hs IH]; intros sh w R; cbn [run] in R.
    - inv R. cbn. lia.
    - inv Hf. specialize (IH H2). pose proof (run_logged hs) as L. destruct (run (logged step) (s0, []) hs) as [sh1 w1]. destruct L as (_ & L). specialize (IH _ _ eq_refl).
      pose proof (respond_logged v sh1 L) as G. destruct (respond (logged step) v sh1) as [sh2 x] eqn:Rp. destruct G as (_ & _ & calls & Ec & _). injection R as -> <-.
      assert (accepted step s0 server ts salt (snd sh1) <= accepted step s0 server ts salt (snd sh))%nat as Mono by (rewrite Ec; apply accepted_app).
      destruct x as [[ep' m' fields| | |]|]; try lia. cbn [filter]. destruct (uses server nonce v) eqn:U; [|lia]. cbn [length].
      assert (exists m, fromPostArgs reg (v_query v) = Ok m) as (m & F). { unfold respond in Rp. destruct (fromPostArgs reg (v_query v)); [eauto|discriminate]. }
      destruct (success_uses (v_query v) m v sh1 sh ep' m' fields H1 F eq_refl L Rp) as (server' & nonce' & ts' & salt' & N1 & N2 & N3).
      unfold uses in U. rewrite N1 in U. apply andb_true_iff in U as [U1 U2]. apply text_eqb_eq in U1, U2. subst server' nonce'. rewrite Hs in N2. inv N2. lia.
    - inv Hf. specialize (IH H2). destruct (run (logged step) (s0, []) hs) as [sh1 w1]. specialize (IH _ _ eq_refl). injection R as <- <-.
      unfold logged. destruct (step (fst sh1) t o). cbn [fst snd accepted]. lia.
  Qed.
  (** A visit that succeeds has a well formed nonce. *)
  Lemma success_nonce hs v : fair hs -> In v (snd (run step s0 hs)) ->
    exists server nonce ts salt, nonce_of (v_query v) = Some (server, nonce) /\ split udigit nonce = Ok (ts, salt).
  Proof.
    intros Hf. pose proof (run_logged hs) as L. destruct (run (logged step) (s0, []) hs) as [sh w] eqn:R. destruct L as (L1 & _). rewrite L1. cbn [snd]. clear L1.
    revert sh w R. induction hs as [|[x|t o] hs IH]; intros sh w R Hin; cbn [run] in R.
    - inv R. destruct Hin.
    - inv Hf. specialize (IH H2). pose proof (run_logged hs) as L. destruct (run (logged step) (s0, []) hs) as [sh1 w1]. destruct L as (_ & L). specialize (IH _ _ eq_refl).
      destruct (respond (logged step) x sh1) as [sh2 y] eqn:Rp. injection R as -> <-. destruct y as [[ep' m' fields| | |]|]; auto.
      destruct Hin as [->|Hin]; auto.
      assert (exists m, fromPostArgs reg (v_query v) = Ok m) as (m & F). { unfold respond in Rp. destruct (fromPostArgs reg (v_query v)); [eauto|discriminate]. }
      destruct (success_uses (v_query v) m v sh1 sh ep' m' fields H1 F eq_refl L Rp) as (server' & nonce' & ts' & salt' & N1 & N2 & N3). eauto 7.
    - inv Hf. specialize (IH H2). destruct (run (logged step) (s0, []) hs) as [sh1 w1]. injection R as <- <-. eauto.
  Qed.

  Lemma once_generic (hs : list happening) t server nonce :
    fair hs -> (forall ts salt, accepted step s0 server ts salt (calls_of hs) <= 1)%nat ->
    in_order t hs -> (length (filter (uses server nonce) (snd (run step s0 hs))) <= 1)%nat.
  Proof.
    intros Hf Ha _. destruct (split udigit nonce) as [[ts salt]|x] eqn:Hs.
    - pose proof (successes_accepted hs server nonce ts salt Hf Hs). specialize (Ha ts salt). lia.
    - destruct (filter (uses server nonce) (snd (run step s0 hs))) as [|v l] eqn:Fl; [cbn; lia|]. exfalso.
      assert (In v (filter (uses server nonce) (snd (run step s0 hs)))) as I by (rewrite Fl; left; auto). apply filter_In in I as (I & U).
      destruct (success_nonce hs v Hf I) as (server' & nonce' & ts & salt & N1 & N2). unfold uses in U. rewrite N1 in U.
      apply andb_true_iff in U as [_ U2]. apply text_eqb_eq in U2. congruence.
  Qed.
End Run.

(** ** C44 *)
(** However the visits and the other uses of the store are mixed, each nonce of each server
    gives at most one success. *)
Theorem C44_once_memory :
  forall e reg hmac udigit hs t server nonce,
    fair reg hs -> in_order t hs ->
    (length (filter (uses server nonce) (snd (run e reg hmac udigit mem_step mem_init hs))) <= 1)%nat.
Proof.
  intros e reg hmac udigit hs t server nonce Hf Ho. eapply once_generic; eauto. intros ts salt. eapply C19_once_memory. eapply calls_clock; eauto.
Qed.
Print Assumptions C44_once_memory.
Theorem C44_once_sql :
  forall e reg hmac udigit hs t server nonce,
    fair reg hs -> in_order t hs -> sql_nonces_ok (calls_of e reg hmac udigit lite sql_init hs) ->
    (length (filter (uses server nonce) (snd (run e reg hmac udigit lite sql_init hs))) <= 1)%nat.
Proof.
  intros e reg hmac udigit hs t server nonce Hf Ho K. eapply once_generic; eauto. intros ts salt. eapply C21_once_sql; eauto. eapply calls_clock; eauto.
Qed.
Print Assumptions C44_once_sql.
Theorem C44_once_file :
  forall sha1, digest20 sha1 -> forall e reg hmac udigit hs t server nonce,
    let h := calls_of e reg hmac udigit (file_step sha1) fs_init hs in
    fair reg hs -> in_order t hs -> distinct_on sha1 (texts h) -> file_history h ->
    (length (filter (uses server nonce) (snd (run e reg hmac udigit (file_step sha1) fs_init hs))) <= 1)%nat.
Proof.
  intros sha1 D e reg hmac udigit hs t server nonce h Hf Ho K1 K2. eapply once_generic; eauto. intros ts salt. eapply C20_once_file; eauto. eapply calls_clock; eauto.
Qed.
Print Assumptions C44_once_file.
(** Every success has such a nonce, so none escapes the count. *)
Theorem C44_none_escapes :
  forall e reg hmac udigit (S : Type) (step : S -> Z -> op -> S * out) s0 hs v,
    fair reg hs -> In v (snd (run e reg hmac udigit step s0 hs)) ->
    exists server nonce, nonce_of (v_query v) = Some (server, nonce) /\ uses server nonce v = true.
Proof.
  intros e reg hmac udigit S step s0 hs v Hf Hin. destruct (success_nonce e reg hmac udigit step s0 hs v Hf Hin) as (server & nonce & _ & _ & N & _).
  exists server, nonce. split; auto. unfold uses. rewrite N, !text_eqb_refl. auto.
Qed.
Print Assumptions C44_none_escapes.

Definition ex_visit (t : Z) (claimed rt : text) : visit :=
  mkVisit t (ex_query claimed rt []) None rt (fun _ => None) (fun c => Ok [mkEndpoint (Some c) (Some ex_server) [OPENID_2_0_TYPE] (Some (u "http://op/me")) None true None]).
(** Two responses carry the same nonce: of five visits, one succeeds, even after the store
    was cleaned up and long after. *)
Example C44_example :
  let hs := [Visit (ex_visit 200000 (u "http://a/b") (u "http://rp/back")); Other 150000 CleanN;
             Visit (ex_visit 1003 (u "http://a/b") (u "http://rp/back")); Visit (ex_visit 1002 (u "http://a/c") (u "http://rp/back"));
             Visit (ex_visit 1001 (u "http://a/b") (u "http://rp/back")); Visit (ex_visit 1001 (u "http://a/b") (u "http://rp/back"));
             Other 1000 (StoreA ex_server ex_assoc)] in
  let w := snd (run plain_env [] toy_hmac (fun _ => None) mem_step mem_init hs) in
  in_order 200000 hs /\ map v_now w = [1001%Z] /\ map (uses ex_server (u "1970-01-01T00:16:41Zsalt")) w = [true].
Proof. split; [|split; vm_compute; reflexivity]. cbn. lia. Qed.
