(** C191: a whole login without a shared association, through the processes of a provider and the processes of a consumer. *)
From Coq Require Import Permutation Lia ZifyBool ZifyN ZifyNat.
From Verif Require Import Py PyFacts Utf8 Utf8Facts KVForm KVFormFacts CryptUtil CryptUtilFacts DH Message MessageFacts MessageWire MessageParse MessageSpec MessageRound MessageSimple Prop_Message.
From Verif Require Import FileStore FileSys FileAtomic Prop_FileNames Prop_FileAtomic SqlTxn SqlConc SqlAtomicFacts Prop_SqlAtomic DeployStores Deploy DeployFacts.
From Verif Require Import Association AssociationFacts Prop_Association UrlLib UrlLibFacts UriNorm OidUtil OidUtilFacts Nonce NonceFacts TrustRoot Store StoreSpec StoreFacts Server ServerFacts SignatoryFacts Prop_ServerDecode Prop_ServerAnswer ServerStores Prop_StoreMem Prop_Signatory Prop_EndToEnd.
From Verif Require Prop_Unforged Prop_Uri.
From Verif Require Import Conc ConcFacts ServerConc ServerConcFacts Prop_ServerConc Endpoint Consumer ConsumerFacts Prop_Consumer Prop_ConsumerTotal Prop_ConsumerOnce Prop_ConsumerAccepts ConsumerConc Prop_DeployOP Prop_DeployRP Prop_DeployBoth Prop_DeployFinds Prop_DeployAccepts.
Import Py Store Server ServerConc.
Local Arguments u : simpl never.

Open Scope N_scope.
Section Asked.
  Variable e : uenv.
  Variable reg : dict text text.
  Variable params_ok : Z -> Z -> bool.
  Variable hmac : text -> bytes -> bytes -> bytes.

  (** What a provider reads in the question about a response: the handle, and what it verifies. *)
  Lemma asked_about query m signed sig hd a ep x body :
    mac_bytes hmac -> fair_query reg query -> fromPostArgs reg query = Ok m ->
    (wire_value query (u "ns") = None \/ wire_value query (u "ns") = Some OPENID2_NS) ->
    (forall k v, In (u "openid." ++ k, v) query -> ~ In 46 k) ->
    wire_value query (u "mode") = Some (u "id_res") -> wire_value query (u "assoc_handle") = Some hd ->
    wire_value query (u "signed") = Some signed -> wire_value query (u "sig") = Some sig -> signed <> [] ->
    mac_valid hmac a query signed sig -> check_body query body ->
    exists ca, Server.decode e reg params_ok (dict_of text_eqb (parse_qsl true body)) ep x = DOk (Some (RCheckAuth ca)) /\
      ca_assoc_handle ca = hd /\ ca_invalidate_handle ca = wire_value query (u "invalidate_handle") /\ checkMessageSignature hmac a (ca_signed ca) = Ok true.
  Proof using.
    intros Mb Q F Ns Nd Hm Hh Hs Hg Ne Mv (args & Ub & Hna & Ag).
    pose proof Q as (Rg & Hn & Hsr).
    assert (parse_qsl true body = args) as Pq. { apply urlencode_Ok in Ub as (db & Fb & ->). apply parse_qsl_enc; auto. }
    assert (forall k, k <> u "mode" -> wire_value args k = wire_value query k) as Wa.
    { intros k Hk. unfold wire_value. rewrite Ag. assert (text_eqb (u "openid." ++ k) (u "openid.mode") = false) as ->; [|reflexivity].
      apply text_eqb_neq. intros X. apply (app_inv_head (u "openid.") k (u "mode")) in X. auto. }
    assert (wire_value args (u "mode") = Some (u "check_authentication")) as Wm. { unfold wire_value. rewrite Ag. reflexivity. }
    assert (forall k v, In (u "openid." ++ k, v) args -> ~ In 46 k) as Nda.
    { intros k v I. apply (In_dget text_eqb text_eqb_eq) in I; auto. fold (wire_value args k) in I. destruct (text_eq_dec k (u "mode")) as [->|Nk].
      - vm_compute. intuition discriminate.
      - rewrite Wa in I by auto. apply (dget_In text_eqb text_eqb_eq) in I. eauto. }
    assert (wire_value args (u "ns") = None \/ wire_value args (u "ns") = Some OPENID2_NS) as Nsa by (rewrite Wa by (vm_compute; discriminate); auto).
    destruct (plain_parses reg args Rg Hna Nda Nsa) as (m2 & F2).
    assert (forall al, ~ In (u "openid.ns." ++ al, u "sreg") args) as Hsra.
    { intros al I. change (u "openid.ns." ++ al) with (u "openid." ++ (u "ns." ++ al)) in I. apply Nda in I. apply I. rewrite in_app_iff. left. vm_compute. auto. }
    assert (fair_query reg args) as Qa by (split; [auto|split; auto]).
    assert (asks_v2 args = asks_v2 query) as Va. { unfold asks_v2. rewrite Wa by (vm_compute; discriminate). auto. }
    assert (forall q, wire_value q (u "ns") = None \/ wire_value q (u "ns") = Some OPENID2_NS -> wire_value q (u "ns") <> Some THE_OTHER_OPENID1_NS) as Oth.
    { intros q [-> | ->]; vm_compute; discriminate. }
    destruct (parsed_version reg query m Hn F (Oth _ Ns)) as (V & C). destruct (parsed_version reg args m2 Hna F2 (Oth _ Nsa)) as (V2 & C2).
    rewrite Va in V2, C2. set (oid := if asks_v2 query then OPENID2_NS else OPENID1_NS) in *.
    destruct (core_set m2 oid (u "mode") (u "id_res") C2) as (m3 & E3 & M3 & N3 & C3).
    set (ca := mkCheckAuth m2 hd m3 (wire_value query (u "invalidate_handle"))).
    assert (Server.decode e reg params_ok args ep x = DOk (Some (RCheckAuth ca))) as D.
    { unfold Server.decode. destruct args as [|kv q] eqn:Eq; [discriminate Wm|]. rewrite <- Eq in *. rewrite F2. cbn [dbind].
      rewrite (field_of reg args m2 (u "mode") Hna F2) by simple_key. rewrite Wm. cbn [dlift dbind].
      assert (CheckAuth_fromMessage m2 = DOk ca) as Ec.
      { unfold CheckAuth_fromMessage. rewrite !(field_of reg args m2 _ Hna F2) by simple_key. rewrite !Wa by (vm_compute; discriminate). rewrite Hh, Hg. cbn [dlift dbind].
        assert (dget akey_eqb (Uri oid, u "mode") (margs m2) = Some (u "check_authentication")) as Gm.
        { pose proof (field_of reg args m2 (u "mode") Hna F2 ltac:(simple_key) ltac:(simple_key)) as Gm. rewrite Wm, (core_get _ _ _ C2) in Gm. congruence. }
        rewrite (core_has _ _ _ C2). unfold dhas. rewrite Gm. cbn [dlift dbind]. rewrite E3. reflexivity. }
      rewrite Ec. reflexivity. }
    assert (In oid allowed_openid_namespaces) as Al by (unfold oid; destruct (asks_v2 query); cbn; auto).
    assert (checkMessageSignature hmac a m3 = Ok true) as Ck.
    { rewrite <- (mac_check reg hmac query m a signed sig Q F C Hs Hg Ne Mv Mb).
      assert (forall k, k <> u "mode" -> ~ In 46 k -> k <> u "ns" -> dget akey_eqb (Uri oid, k) (margs m3) = dget akey_eqb (Uri oid, k) (margs m)) as Same.
      { intros k Hk H46 Hns. rewrite M3, (dget_dset_other akey_eqb akey_eqb_eq) by (apply akey_ne; auto).
        pose proof (field_of reg query m k Hn F H46 Hns) as X. pose proof (field_of reg args m2 k Hna F2 H46 Hns) as Y.
        rewrite (core_get _ _ _ C) in X. rewrite (core_get _ _ _ C2) in Y. rewrite Wa in Y by auto. congruence. }
      eapply check_same; eauto; [apply Same; simple_key|apply Same; simple_key|].
      assert (forall k, dget text_eqb k (toPostArgs m) = dget text_eqb k query) as P1 by (eapply C14_parse_exact; eauto).
      assert (forall k, dget text_eqb k (toPostArgs m2) = dget text_eqb k args) as P2 by (eapply C14_parse_exact; eauto).
      intros k. rewrite P1. destruct (text_eq_dec k (u "mode")) as [->|Nk].
      - fold (wire_value query (u "mode")). rewrite Hm. eapply (post_core_value m3 oid (u "mode")); eauto.
        + intros y w. rewrite M3, (dget_dset_other akey_eqb akey_eqb_eq) by discriminate. intros X.
          destruct (fromPostArgs_sound reg args m2 (proj1 Rg) Hna Hsra F2) as (_ & m0 & _ & _ & _ & _ & Ba). apply Ba in X. apply X.
        + simple_key.
        + rewrite M3. apply (dget_dset_same akey_eqb akey_eqb_eq).
      - rewrite (post_set_other m2 oid (u "mode") (u "id_res") m3) by (auto; try apply C3; intros X; apply app_inv_head in X; auto). rewrite P2. apply Wa. auto. }
    exists ca. split; [|split; [reflexivity|split; [reflexivity|exact Ck]]].
    rewrite Pq, (dict_of_NoDup text_eqb text_eqb_eq) by auto. exact D.
  Qed.
End Asked.
Close Scope N_scope.
Open Scope Z_scope.

Section Stateless.
  Variable e : uenv.
  Variable reg : dict text text.
  Variable hmac : text -> bytes -> bytes -> bytes.
  (* the provider *)
  Variable params_ok : Z -> Z -> bool.
  Variable pub_ok : Z -> Z -> Z -> bool.
  Variable hash : hash_alg -> bytes -> bytes.
  Notation next_call := (next_call hmac pub_ok hash).
  Notation finished := (finished hmac pub_ok hash).
  (* the consumer *)
  Variable udigit : N -> option Z.
  Variable visits : list visit.
  Notation visit_next := (visit_next e reg hmac udigit).
  Notation visit_done := (visit_done e reg hmac udigit).

  (** What is signed with a private association is what a provider in one process signs. *)
  Lemma private_in_memory now secret uniq r c outs w : rs_request r = RCheckID c -> ci_assoc_handle c = None ->
    field_is r (u "mode") (Some (u "id_res")) -> finished (JSign now secret uniq r) outs = Some (Ok (AWeb w)) ->
    encodeResponse hmac mem_step now secret uniq r (after mem_step mem_init []) =
      (after mem_step mem_init [(now, StoreA dumb_key (fresh_assoc now secret uniq (u "HMAC-SHA1")))], Ok w).
  Proof using.
    intros Q Eh M Fi.
    assert (needsSigning r = Ok true) as Nd. { unfold needsSigning. rewrite M. cbn [bind opt_eqb]. rewrite text_eqb_refl. auto. }
    apply finished_result in Fi. unfold ServerConc.with_answers, ServerConc.run_job in Fi. destruct (encodeResponse hmac script_step now secret uniq r (mkScript outs [])) as (s & [w'|y]) eqn:E; [|discriminate].
    cbn [snd rmap bind] in Fi. assert (w' = w) as -> by congruence. clear Fi.
    unfold encodeResponse in E. apply sbind_Ok in E as (n & s1 & E1 & E). apply sret_Ok in E1 as (-> & E1). rewrite Nd in E1. inv E1.
    apply sbind_Ok in E as (r2 & s2 & E2 & E). apply sret_Ok in E as (-> & E).
    apply sbind_Ok in E2 as (hs & s3 & E3 & E2). apply sret_Ok in E3 as (-> & Hk). destruct hs; [discriminate|].
    unfold sign_response in E2. apply sbind_Ok in E2 as (hd & s4 & E4 & E2). apply sret_Ok in E4 as (-> & E4). rewrite Q in E4. cbn [request_assoc_handle] in E4. rewrite Eh in E4. inv E4.
    apply sbind_Ok in E2 as ([r1 a] & s5 & E5 & E2). cbn [fst snd] in E2. apply sret_Ok in E2 as (-> & E2).
    apply sbind_Ok in E5 as (a1 & s6 & E6 & E5). apply sret_Ok in E5 as (-> & E5). assert (r1 = r /\ a1 = a) as (-> & ->) by (split; congruence). clear E5.
    assert (a = fresh_assoc now secret uniq (u "HMAC-SHA1")) as ->.
    { unfold createAssociation in E6. apply sbind_Ok in E6 as (n & s7 & E7 & E6). apply sret_Ok in E7 as (-> & E7).
      apply sbind_Ok in E6 as (a2 & s8 & E8 & E6). apply sret_Ok in E8 as (-> & E8). apply sbind_Ok in E6 as (x & s9 & _ & E6). apply sret_Ok in E6 as (_ & E6).
      assert (n = 20%N) as ->. { vm_compute in E7. congruence. } assert (fromExpiresIn now SECRET_LIFETIME (new_handle (u "HMAC-SHA1") now uniq) (secret 20%N) (u "HMAC-SHA1") = Ok (fresh_assoc now secret uniq (u "HMAC-SHA1"))) as X by reflexivity. congruence. }
    assert (ready (fun _ => True) now []) as R. { split; [exact Logic.I|constructor]. }
    pose proof (createAssociation_spec mem_step mem_init (fun _ => True) keeps_memory now [] secret uniq true (u "HMAC-SHA1") R (or_introl eq_refl) Logic.I) as Ca.
    unfold encodeResponse, sbind, sret. rewrite Nd, Hk. unfold sign_response, sbind, sret. rewrite Q. cbn [request_assoc_handle]. rewrite Eh, Ca. cbn [fst snd].
    rewrite E2, E. reflexivity.
  Qed.

  (** The answer to a question that declares no handle invalid: it depends on the verdict only. *)
  Lemma answer_pure {S} (step : S -> Z -> op -> S * out) now c s s' r : CheckAuth_answer hmac step now c s = (s', Ok r) -> ca_invalidate_handle c = None ->
    exists v : bool, (r0 <- OpenIDResponse (RCheckAuth c) ;; setField r0 (u "is_valid") (if v then u "true" else u "false")) = Ok r /\
      field_is r (u "is_valid") (Some (if v then u "true" else u "false")).
  Proof using.
    intros E Ei. unfold CheckAuth_answer in E. apply sbind_Ok in E as (v & s1 & E1 & E). apply sbind_Ok in E as (x & s3 & E3 & E).
    apply sbind_Ok in E as (r0 & s4 & E4 & E). apply sret_Ok in E4 as (-> & E4). apply sbind_Ok in E as (r1 & s5 & E5 & E). apply sret_Ok in E5 as (-> & E5).
    rewrite Ei in E. apply sret_Ok in E as (-> & E). assert (r1 = r) as -> by congruence.
    destruct (setField_of r0 c _ _ _ E4 E5) as (oid & C1 & B1 & Q1 & F1). exists v. rewrite E4. cbn [bind]. auto.
  Qed.

  (** A question to the provider, taken by one of its processes: the log goes on from [base], where the
      private association [a] has been stored; the process begins after that; nobody else stores or removes
      anything under the handle; [a] has not run out; and the process answers [reply]. *)
  Definition checked_by_process (a : assoc) (base : list FileSys.event) (ep : text) (body : text) (reply : N * bytes) : Prop :=
    exists jobs l j now x ca r t,
      let log := l ++ base in
      Server.decode e reg params_ok (dict_of text_eqb (parse_qsl true body)) ep x = DOk (Some (RCheckAuth ca)) /\
      store_log log /\ obeys next_call jobs log /\ nth_error jobs j = Some (JCheck now ca) /\ running base j = None /\ answers_in j base = [] /\
      (forall k t o, In (Began k t o) l -> touches dumb_key (a_handle a) o = true -> k = j) /\
      (forall t o, In (Ended j t (GetA dumb_key (Some (a_handle a))) o) log -> t < a_issued a + a_lifetime a) /\ now < a_issued a + a_lifetime a /\
      finished (JCheck now ca) (answers_in j log) = Some (Ok (AResponse r)) /\
      encode_response r = Ok (mkWeb (fst reply) None (BText t)) /\ encode t = Ok (snd reply).

  (** C191: somebody asks to log in, naming no association; the provider's application says yes, and one of its
      processes signs the answer with an association of its own and stores that; the browser takes the answer to the consumer, one
      of whose processes has no association of that handle, and asks the provider, one of whose processes looks it up.
      Then the login succeeds, and the whole of the response is signed. *)
  Theorem C191_login_stateless :
    forall request ep x c server_url identity claimed t salt r now secret uniq w outs
           n2 ip tp xp n1
           query rto args ep0 ep' server nserver ts nsalt rplog i v rr,
    let a := fresh_assoc now secret uniq (u "HMAC-SHA1") in
    let base := n2 ++ Ended ip tp (StoreA dumb_key a) xp :: n1 in
      mac_bytes hmac -> good_registry reg -> NoDup (map fst request) ->
      (* the request and the answer *)
      Server.decode e reg params_ok request ep x = DOk (Some (RCheckID c)) ->
      CheckID_answer e c true server_url identity claimed t salt = Ok r -> wire_value request (u "assoc_handle") = None ->
      (* the processes of the provider *)
      finished (JSign now secret uniq r) outs = Some (Ok (AWeb w)) ->
      (forall y, xp <> Err y) ->
      (forall k t o, In (Began k t o) n1 -> touches dumb_key (a_handle a) o = true -> k = ip /\ o = StoreA dumb_key a) ->
      (forall k t o, In (Began k t o) n2 -> touches dumb_key (a_handle a) o = false) ->
      (* the browser *)
      wire_value request (u "return_to") = Some rto -> clean_return e rto args -> received e query w -> NoDup (map fst query) -> OidUtilFacts.sendable query ->
      (* the process of the consumer *)
      v_query v = query -> same_page e (v_url v) rto ->
      expected (v_discover v) e request ep server_url identity claimed args (v_session v) ep0 ep' server ->
      with_nonce (asks_v2 request) t salt args server nserver ts nsalt ->
      store_log rplog -> obeys visit_next visits rplog -> nth_error visits i = Some v ->
      (forall k t b, In (Began k t (StoreA server b)) rplog -> a_handle b <> a_handle a) ->
      single nserver ts nsalt i rplog -> (forall t o, In (Ended i t (UseN nserver ts nsalt) o) rplog -> t <= ts + 18000) ->
      (forall t o y, ~ In (Ended i t o (Err y)) rplog) ->
      (* its question *)
      (forall body, check_body query body -> exists reply, v_net v [(server, body)] = Some reply /\ checked_by_process a base ep body reply) ->
      visit_done v (answers_in i rplog) = Some rr ->
      exists m signed, fromPostArgs reg query = Ok m /\ rr = Ok (Success ep' m (map (fun k => u "openid." ++ k) signed)) /\
        forall k, In k signed <-> wire_value query k <> None /\ k <> u "sig".
  Proof using.
    intros request ep x c server_url identity claimed t salt r now secret uniq w outs n2 ip tp xp n1 query rto args ep0 ep' server nserver ts nsalt rplog i v rr a base
      Mb Rg Hn D A Hh Fi Nx Be Be2 Hr Cl Rc Hq Sd Vq Sp Ex Wn SL O Nv Nb Si Nt Ok1 Net Dn.
    destruct (answer_simple e reg params_ok request ep x c server_url identity claimed t salt r Hn D A) as (oid & kvs & Q & Sm0 & Ov).
    pose proof (decoded_ok e reg params_ok request ep x c Hn D) as De. pose proof (de_handle _ _ _ _ De) as Dh. rewrite Hh in Dh.
    assert (field_is r (u "mode") (Some (u "id_res"))) as M.
    { destruct (proj1 (C36_positive_answer e reg params_ok request ep x c server_url identity claimed t salt Hn D (toPostArgs (rs_fields r)))) as (rt & ids & An & Hr' & Ma & Se).
      { exists r. split; [exact A|]. split; auto. }
      fold (base_params rt (mkNonce t salt) (endpoint_param server_url ep) ids) in Se.
      assert (kvs = base_params rt (mkNonce t salt) (endpoint_param server_url ep) ids) as ->.
      { rewrite (si_post _ _ _ _ Sm0) in Se. unfold ns_param in Se. rewrite Ov in Se. apply app_inv_head in Se. apply on_wire_inj. auto. }
      unfold field_is. rewrite (simple_get _ _ _ _ _ Sm0). reflexivity. }
    pose proof (private_in_memory now secret uniq r c outs w Q Dh M Fi) as Em. fold a in Em.
    assert (ready (fun _ => True) now []) as R. { split; [exact Logic.I|constructor]. }
    destruct (prepared mem_step mem_init (fun _ => True) keeps_memory params_ok udigit (v_discover v) e reg hmac
      request ep x c server_url identity claimed t salt r now secret uniq [] (after mem_step mem_init [(now, StoreA dumb_key a)]) w query rto (v_url v) args (v_session v) ep0 ep' server nserver ts nsalt) as
      (calls & a0 & inval & m & signed & sig & ids & _ & _ & Es & R1 & Ch & Sa & Sn & Mv & Wi & Wns & B1 & B2 & B3 & B4 & B5 & B6 & B7 & B8 & B9 & B10 & B11 & B12 & B13 & B14); eauto.
    { intros k y b X. discriminate X. } { intros hd X _. rewrite Hh in X. discriminate X. }
    rewrite app_nil_r in *.
    destruct Ch as [hd' X Nh Y|inval Kt Ea Sa' _ _ _ X Y]; [rewrite Hh in X; discriminate X|].
    assert (inval = None) as ->. { destruct inval as [j|]; auto. destruct (proj1 (X j) eq_refl) as (Z & _). rewrite Hh in Z. discriminate Z. }
    assert (a0 = a) as E0.
    { assert (ready (fun _ => True) now [(now, StoreA dumb_key a)]) as R2. { split; [cbn; split; [lia|auto]|]. constructor; auto. }
      rewrite app_nil_r in Sa'.
      destruct (store_get_spec mem_step mem_init (fun _ => True) keeps_memory now calls dumb_key (a_handle a0) R1 Logic.I) as (o1 & G1 & H1 & _).
      destruct (store_get_spec mem_step mem_init (fun _ => True) keeps_memory now _ dumb_key (a_handle a0) R2 Logic.I) as (o2 & G2 & H2 & _).
      rewrite Es, G1 in G2. assert (o2 = o1) as -> by congruence. rewrite H1, Sa' in H2.
      assert (good_at now (Some a0) = Some a0) as Ga. { rewrite Ea. cbn [good_at a_issued a_lifetime fresh_assoc]. assert ((now <? now + SECRET_LIFETIME) = true) as ->; [|reflexivity]. unfold SECRET_LIFETIME. lia. }
      rewrite Ga in H2. cbn [stored] in H2. destruct (_ && _) in H2; [|discriminate H2]. cbn [good_at] in H2. destruct (_ <? _) in H2; congruence. }
    subst a0. rename B7 into Wa.
    assert (signed <> []) as Ne.
    { intros ->. assert (In (u "return_to") (splitc 44 [])) as [J|[]]; [|discriminate J]. apply Sn. split; [congruence|vm_compute; discriminate]. }
    assert (forall k v, In (u "openid." ++ k, v) query -> ~ In 46%N k) as Nd.
    { intros k z I. apply (In_dget text_eqb text_eqb_eq) in I; auto. fold (wire_value query k) in I.
      destruct (list_eq_dec N.eq_dec k (u "sig")) as [->|Nk]; [vm_compute; intuition discriminate|].
      assert (In k assertion_names) as J by (apply Sa, Sn; split; congruence).
      unfold assertion_names in J. repeat (destruct J as [<-|J]; [vm_compute; intuition discriminate|]). destruct J. }
    assert (wire_value query (u "ns") = None \/ wire_value query (u "ns") = Some OPENID2_NS) as Ns by (destruct (asks_v2 request); auto).
    exists m, (splitc 44 signed). split; auto. split; auto.
    apply (C190_confirmed e reg hmac udigit visits rplog i v m ep0 ep' rto server (a_handle a) signed sig nserver (mkNonce ts nsalt) ts nsalt rr); rewrite ?Vq; auto.
    - discriminate.
    - intros k Hk. split; [apply Sn; auto|]. destruct (startswith k (u "ns.")) eqn:Sk; auto. exfalso. apply startswith_spec in Sk as (k' & ->).
      apply Sa in Hk. unfold assertion_names in Hk. cbn in Hk. intuition discriminate.
    - intros body Cb. destruct (Net body Cb) as ([code bytes] & Nv' & jobs & l & j & now2 & x2 & ca & r2 & tx & Dd & SLp & Op & Nj & Ru & An & Af & Fr & Fn & Fi2 & En2 & Eb). cbv zeta in *. cbn [fst snd] in *.
      destruct (asked_about e reg params_ok hmac query m signed sig (a_handle a) a ep x2 body) as (ca' & Dd' & Ha & Hi & Ck); auto.
      rewrite Dd in Dd'. assert (ca' = ca) as -> by congruence. rewrite Wi in Hi.
      assert (field_is r2 (u "is_valid") (Some (u "true"))) as Fv.
      { apply (C189_confirmed hmac pub_ok hash jobs l n2 ip tp a xp n1 j now2 ca r2); auto.
        - discriminate.
        - intros k t' o I T. apply in_app_iff in I as [I|I]; [eapply Af; eauto|]. rewrite (Be2 _ _ _ I) in T. discriminate T. }
      destruct (C58_confirmation mem_step mem_init (fun _ => True) keeps_memory params_ok e reg hmac pub_ok hash default_negotiator query m signed sig (a_handle a) a ep x2 now2 secret uniq [(now2, StoreA dumb_key a)] body)
        as (answer & tx2 & d & m' & P1 & P2 & P3 & P4 & P5 & P6); auto.
      { split; [cbn; split; [lia|auto]|]. constructor; auto. }
      { split; exact Logic.I. }
      { cbn [stored]. rewrite !text_eqb_refl. cbn [andb good_at]. assert ((now2 <? a_issued a + a_lifetime a) = true) as -> by (apply Z.ltb_lt; auto). reflexivity. }
      { intros i' Z. rewrite Wi in Z. discriminate Z. }
      exists answer, tx2, d, m'. split; [|auto 6].
      etransitivity; [exact Nv'|]. rewrite <- P1. unfold provider_reply in P1 |- *. rewrite Dd in *. cbn [handleRequest] in *.
      apply finished_result in Fi2. unfold ServerConc.with_answers, ServerConc.run_job in Fi2.
      destruct (CheckAuth_answer hmac script_step now2 ca _) as (s3 & [r3|?]) eqn:E3 in Fi2; [|discriminate Fi2]. cbn [snd rmap bind] in Fi2. assert (r3 = r2) as -> by congruence. clear Fi2.
      destruct (answer_pure script_step now2 ca _ _ _ E3 Hi) as (v1 & V1 & W1).
      assert (v1 = true) as ->. { destruct v1; auto. exfalso. unfold field_is in *. rewrite W1 in Fv. discriminate Fv. }
      destruct (C34_check_authentication mem_step mem_init (fun _ => True) keeps_memory e reg params_ok hmac (dict_of text_eqb (parse_qsl true body)) ep x2 ca [(now2, StoreA dumb_key a)] now2) as
        (calls4 & r4 & valid & stale & E4 & _ & _ & _ & _ & Iv & _ & Oth & Vl & _); auto.
      { apply (NoDup_dict_of text_eqb text_eqb_eq). } { split; [cbn; split; [lia|auto]|]. constructor; auto. } { split; exact Logic.I. } { intros i' _ _. split; exact Logic.I. }
      assert (valid = true) as ->.
      { apply Vl. exists a. split; auto. rewrite Ha. cbn [stored]. rewrite !text_eqb_refl. cbn [andb good_at]. assert ((now2 <? a_issued a + a_lifetime a) = true) as -> by (apply Z.ltb_lt; auto). reflexivity. }
      destruct (answer_pure mem_step now2 ca _ _ _ E4 Hi) as (v2 & V2 & W2).
      assert (v2 = true) as ->. { destruct v2; auto. exfalso. unfold field_is in *. rewrite W2 in Iv. discriminate Iv. }
      assert (r4 = r2) as -> by congruence.
      rewrite E4. unfold encodeResponse, sbind, sret.
      assert (needsSigning r2 = Ok false) as ->. { unfold needsSigning. rewrite (Oth (u "mode")) by (vm_compute; discriminate). reflexivity. }
      cbn [snd]. rewrite En2, Eb. reflexivity.
  Qed.
End Stateless.
Print Assumptions C191_login_stateless.

(** The login of C59_example without a handle in the request; both sides on SQLite.  The visit asks its one question; a process of the provider confirms. *)
Definition bare_query : list (text * text) := removelast login_query.
Definition bare_login : response :=
  match Server.decode Prop_Uri.plain_env [] (fun _ _ => true) bare_query op_url 1 with
  | DOk (Some (RCheckID c)) => match CheckID_answer Prop_Uri.plain_env c true None None None 1700000000 (u "salt42") with Ok r => r | Raise _ => the_login end
  | _ => the_login end.
Definition sign192 : job := JSign 1700000000 secret0 [9; 8; 7; 6]%N bare_login.
Definition base192 : list FileSys.event := [FileSys.Ended 0 1700000000 (StoreA dumb_key op_assoc) Done; FileSys.Began 0 1700000000 (StoreA dumb_key op_assoc)].
Definition query192 : dict text text :=
  match finished long_mac no_keys no_hash sign192 (answers_in 0 base192) with
  | Some (Ok (AWeb w)) => arrived (mem_init, Ok w) | _ => [] end.
Definition asked192 : text :=
  match fromPostArgs [] query192 with
  | Ok m => match c_posts (fst (complete Prop_Uri.plain_env [] long_mac (fun _ => None) (fun _ => None) (fun _ => Raise DiscoveryFailure) script_step 1700000005 m (Some demo_endpoint) back_url (mkCst (Some (mkScript [Got None] [])) []))) with
            | (_, body) :: _ => body | [] => [] end
  | Raise _ => [] end.
Definition check192 : job :=
  match Server.decode Prop_Uri.plain_env [] (fun _ _ => true) (dict_of text_eqb (parse_qsl true asked192)) op_url 1 with
  | DOk (Some (RCheckAuth ca)) => JCheck 1700000004 ca | _ => sign192 end.
Definition op192_run : list SqlConc.label :=
  [SqlConc.Call 0 (StoreA dumb_key op_assoc)] ++ whole_call 0 ++ [SqlConc.Tick 4; SqlConc.Call 1 op_get] ++ whole_call 1 ++ [SqlConc.Call 1 op_rem] ++ whole_call 1.
Definition op192_log : list FileSys.event := trace sqlite [0; 1]%nat (SqlConc.sys_init 1700000000) op192_run [].
Definition reply192 : option (N * bytes) :=
  match finished long_mac no_keys no_hash check192 (answers_in 1 op192_log) with
  | Some (Ok (AResponse r)) => match encode_response r with Ok (mkWeb code None (BText t)) => match encode t with Ok b => Some (code, b) | _ => None end | _ => None end
  | _ => None end.
Definition net192 (posts : list post) : option (N * bytes) :=
  match posts with [(_, body)] => if text_eqb body asked192 then reply192 else None | _ => None end.
Definition visit192 : visit := mkVisit 1700000005 query192 (Some demo_endpoint) back_url net192 (fun _ => Raise DiscoveryFailure).
Definition rp192_run : list SqlConc.label :=
  [SqlConc.Call 0 (GetA op_url (Some (a_handle op_assoc)))] ++ whole_call 0 ++ [SqlConc.Call 0 (UseN op_url 1700000000 (u "salt42"))] ++ whole_call 0.
Definition rp192_log : list FileSys.event := trace sqlite [0]%nat (SqlConc.sys_init 1700000005) rp192_run [].
Example C191_stateless_example :
  (exists w, finished long_mac no_keys no_hash sign192 (answers_in 0 base192) = Some (Ok (AWeb w))) /\
  (exists reply, net192 [(op_url, asked192)] = Some reply /\
     checked_by_process Prop_Uri.plain_env [] long_mac (fun _ _ => true) no_keys no_hash op_assoc base192 op_url asked192 reply) /\
  store_log rp192_log /\ obeys (visit_next Prop_Uri.plain_env [] long_mac (fun _ => None)) [visit192] rp192_log /\ single op_url 1700000000 (u "salt42") 0 rp192_log /\
  match visit_done Prop_Uri.plain_env [] long_mac (fun _ => None) visit192 (answers_in 0 rp192_log) with Some (Ok (Success _ _ _)) => True | _ => False end.
Proof.
  split; [|split; [|split; [|split; [|split]]]].
  - assert (match finished long_mac no_keys no_hash sign192 (answers_in 0 base192) with Some (Ok (AWeb _)) => true | _ => false end = true) as H by (vm_compute; reflexivity).
    destruct (finished _ _ _ _ _) as [[[?|w]|?]|]; try discriminate H. exists w. reflexivity.
  - assert (match Server.decode Prop_Uri.plain_env [] (fun _ _ => true) (dict_of text_eqb (parse_qsl true asked192)) op_url 1 with
            | DOk (Some (RCheckAuth ca)) =>
                match finished long_mac no_keys no_hash (JCheck 1700000004 ca) (answers_in 1 op192_log) with
                | Some (Ok (AResponse r)) => match encode_response r with Ok (mkWeb code None (BText t)) => match encode t with Ok b => net192 [(op_url, asked192)] = Some (code, b) | _ => False end | _ => False end
                | _ => False end
            | _ => False end) as H by (vm_compute; reflexivity).
    destruct (Server.decode Prop_Uri.plain_env [] (fun _ _ => true) (dict_of text_eqb (parse_qsl true asked192)) op_url 1) as [q| |] eqn:De. 2,3: destruct H. destruct q as [[?|ca|?]|]. 1,3,4: destruct H.
    destruct (finished long_mac no_keys no_hash (JCheck 1700000004 ca) (answers_in 1 op192_log)) as [[[r|?]|?]|] eqn:Fi. 2,3,4: destruct H.
    destruct (encode_response r) as [[code [?|] [t|?]]|?] eqn:En. 1,2,4,5: destruct H.
    destruct (encode t) as [b|?] eqn:Eb; [|destruct H].
    exists (code, b). split; [exact H|].
    assert (check192 = JCheck 1700000004 ca) as Ec by (unfold check192; rewrite De; reflexivity).
    set (l := [FileSys.Ended 1 1700000004 op_rem (Flag true); FileSys.Began 1 1700000004 op_rem; FileSys.Ended 1 1700000004 op_get (Got (Some op_assoc)); FileSys.Began 1 1700000004 op_get]).
    assert (op192_log = l ++ base192) as El by (vm_compute; reflexivity).
    exists [sign192; check192], l, 1%nat, 1700000004, 1, ca, r, t. cbv zeta. rewrite <- El. cbn [fst snd].
    split; [exact De|]. split; [|split; [|split; [rewrite Ec; reflexivity|split; [reflexivity|split; [reflexivity|split; [|split; [|split; [reflexivity|split; [exact Fi|split; [exact En|exact Eb]]]]]]]]]].
    + apply by_sql; [apply sqlite_keyed|]. repeat (apply Forall_cons || apply Forall_nil); cbn [SqlAtomicFacts.label_ok sent_op op_get op_rem]; auto.
      * split; [eexists; reflexivity|]. split; [exists (a_handle op_assoc); reflexivity|left; reflexivity].
      * split; [eexists; reflexivity|]. intros y E. injection E as <-. exists (a_handle op_assoc). reflexivity.
      * split; [eexists; reflexivity|exists (a_handle op_assoc); reflexivity].
    + let l := eval vm_compute in op192_log in change (obeys (next_call long_mac no_keys no_hash) [sign192; check192] l).
      cbn [obeys]. repeat match goal with |- _ /\ _ => split end; try exact Logic.I; intros y E; apply (f_equal (fun o => match o with Some z => z | None => y end)) in E; cbn [nth_error] in E; subst y; vm_compute; reflexivity.
    + intros k t' o I _. unfold l in I. cbn [In] in I. destruct I as [I|[I|[I|[I|[]]]]]; first [discriminate I|injection I as <- _ _; reflexivity].
    + intros t' o I. rewrite El in I. unfold l, base192 in I. cbn [app In] in I. destruct I as [I|[I|[I|[I|[I|[I|[]]]]]]]; try discriminate I. injection I as <- _. reflexivity.
  - apply by_sql; [apply sqlite_keyed|]. repeat (apply Forall_cons || apply Forall_nil); cbn [SqlAtomicFacts.label_ok sent_op]; auto.
    + split; [exists op_url; reflexivity|]. intros y E. injection E as <-. exists (a_handle op_assoc). reflexivity.
    + split; [exists op_url; reflexivity|exists (u "salt42"); reflexivity].
  - let l := eval vm_compute in rp192_log in change (obeys (visit_next Prop_Uri.plain_env [] long_mac (fun _ => None)) [visit192] l).
    cbn [obeys]. repeat match goal with |- _ /\ _ => split end; try exact Logic.I; intros y E; apply (f_equal (fun o => match o with Some z => z | None => y end)) in E; cbn [nth_error] in E; subst y; vm_compute; reflexivity.
  - let l := eval vm_compute in rp192_log in change (single op_url 1700000000 (u "salt42") 0 l).
    intros p2 k t p1 E.
    repeat match type of E with
    | [] = _ => exfalso; destruct p2; discriminate E
    | _ => let E1 := fresh "E1" in let y := fresh "y" in let p2' := fresh "p2" in destruct p2 as [|y p2']; cbn [app] in E; apply cons_eq in E as (E1 & E);
           [first [discriminate E1|injection E1 as <- <-; subst p1; split; [reflexivity|]; split; [lia|]; intros k' t' I; cbn [In] in I; intuition discriminate]|clear E1; rename p2' into p2]
    end.
  - vm_compute. exact Logic.I.
Qed.
