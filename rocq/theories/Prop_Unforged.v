(** C59: what the consumer accepts, the provider has said. *)
From Coq Require Import Lia ZifyBool ZifyN ZifyNat Permutation.
From Verif Require Import Py PyFacts Utf8 Utf8Facts KVForm KVFormFacts CryptUtil CryptUtilFacts DH Message MessageFacts MessageWire MessageParse MessageSpec MessageRound MessageSimple Prop_Message.
From Verif Require Import Association AssociationFacts Prop_Association UrlLib UrlLibFacts UriNorm OidUtil OidUtilFacts Nonce NonceFacts Store StoreSpec ServerFacts Prop_ServerDecode.
From Verif Require Import Endpoint Consumer ConsumerFacts Prop_Consumer Prop_ConsumerTotal Prop_ConsumerOnce Prop_ConsumerAccepts AxFacts.
From Verif Require Import TrustRoot Server StoreFacts ServerStores SignatoryFacts Prop_ServerAnswer Prop_Signatory Prop_ServerEncode Prop_Uri.
From Verif Require Import Prop_Nonce Prop_KVForm Prop_ServerAssociate Prop_EndToEnd ExtFacts.
Import Py Store.
Open Scope N_scope.
Local Arguments u : simpl never.

(** The value of a parameter, empty if it is missing. *)
Definition value_of (query : dict text text) (k : text) : text := match wire_value query k with Some v => v | None => [] end.
(** The bytes that a signature over the parameters named in [signed] is made of. *)
Definition authenticated (query : dict text text) (signed : text) (b : bytes) : Prop :=
  exists t, seqToKV false (map (fun k => (k, value_of query k)) (splitc 44 signed)) = Ok t /\ encode t = Ok b.
(** A response to which extensions have been added (server.py:1108-1109). *)
Inductive extended (r : response) : response -> Prop :=
| ext_none : extended r r
| ext_more r1 uri alias args r2 : extended r r1 -> uri <> u "sreg" -> ~ In uri allowed_openid_namespaces -> NoDup (map fst args) ->
    addExtension r1 uri alias args = Ok r2 -> extended r r2.
(** One exchange of the provider: it is asked to authenticate, the application says yes or no
    and may decorate the response; or it is asked directly, and answers by itself. *)
Inductive exchange : Type :=
| Asked (query : dict text text) (ep : text) (x : Z) (allow : bool) (server_url identity claimed : option text) (t : Z) (salt : text)
        (decorate : response -> response) (now : Z) (secret : N -> bytes) (uniq : bytes)
| Direct (query : dict text text) (ep : text) (x : Z) (now : Z) (secret : N -> bytes) (uniq : bytes).
Definition proper (i : exchange) : Prop :=
  match i with
  | Asked query _ _ _ _ _ _ _ _ decorate _ _ _ => NoDup (map fst query) /\ forall r, extended r (decorate r)
  | Direct query _ _ _ _ _ => NoDup (map fst query)
  end.

Lemma In_splitc_join k l : In k l -> ~ In 44 k -> In k (splitc 44 (join [44] l)).
Proof.
  intros I N. induction l as [|a l IH]; [destruct I|]. destruct l as [|b l].
  - destruct I as [<-|[]]. cbn [join]. pose proof (splitc_join 44 [a]) as X. cbn [join] in X. rewrite X; [left; auto|discriminate|constructor; auto].
  - change (join [44] (a :: b :: l)) with (a ++ [44] ++ join [44] (b :: l)).
    assert (forall x y, splitc 44 (x ++ 44 :: y) = splitc 44 x ++ splitc 44 y) as Sp.
    { clear. intros x y. induction x as [|c x IH].
      - cbn [app]. change (44 :: y) with ([] ++ 44 :: y). rewrite splitc_app by auto. reflexivity.
      - cbn [app]. destruct (N.eq_dec c 44) as [->|Ne].
        + change (44 :: x ++ 44 :: y) with ([] ++ 44 :: (x ++ 44 :: y)). rewrite splitc_app by auto. rewrite IH.
          change (44 :: x) with ([] ++ 44 :: x). rewrite (splitc_app 44 [] x) by auto. reflexivity.
        + cbn [splitc]. assert (c =? 44 = false) as -> by (apply N.eqb_neq; auto). rewrite IH.
          destruct (splitc 44 x) eqn:E; [exfalso; eapply splitc_nonempty; eauto|]. reflexivity. }
    cbn [app]. rewrite Sp, in_app_iff. destruct I as [<-|I]; [left|right; auto].
    pose proof (splitc_join 44 [a]) as X. cbn [join] in X. rewrite X; [left; auto|discriminate|constructor; auto].
Qed.

(** Reading key-value form loosely: white space around keys and values goes. *)
Lemma kvToSeq_loose ps : Forall (pair_ok false) ps ->
  kvToSeq false (List.concat (map kv_line ps)) = Ok (map (fun p => (strip (fst p), strip (snd p))) ps).
Proof.
  intros HF. unfold kvToSeq.
  replace (map kv_line ps) with (map (fun l => l ++ [newline]) (map (fun p => fst p ++ colon :: snd p) ps)).
  2:{ rewrite map_map. apply map_ext. intros [k v]. unfold kv_line. simpl. rewrite <- app_assoc. auto. }
  rewrite kvLines_terminated.
  2:{ rewrite Forall_map. eapply Forall_impl; eauto. intros [k v]. unfold pair_ok; simpl.
      intros (H1 & H2 & H3 & _) Hin. apply in_app_or in Hin as [|[Hc|]]; auto.
      unfold colon, newline in Hc. discriminate. }
  cbn [bind].
  assert (mapM (kvToSeq_line false) (map (fun p => fst p ++ colon :: snd p) ps) = Ok (map Some (map (fun p => (strip (fst p), strip (snd p))) ps))) as ->.
  { clear -HF. induction HF as [|[k v] ps (H1 & H2 & H3 & _) HF IH]; cbn [map mapM fst snd]; auto.
    assert (kvToSeq_line false (k ++ colon :: v) = Ok (Some (strip k, strip v))) as ->.
    { unfold kvToSeq_line. assert (truthy (strip (k ++ colon :: v)) = true) as ->.
      { apply truthy_true. unfold strip. rewrite stripf_nil. rewrite forallb_app. simpl. change (isspace colon) with false. rewrite andb_false_r. discriminate. }
      cbn [negb]. rewrite cut_app by auto. reflexivity. }
    cbn [bind]. rewrite IH. reflexivity. }
  cbn [bind]. f_equal. clear. induction ps; simpl; congruence.
Qed.
Lemma kv_loose d t : NoDup (map fst d) -> Forall (fun p => strip (fst p) = fst p) d -> dictToKV d = Ok t ->
  exists d', kvToDict t = Ok d' /\ forall k, dget text_eqb k d' = option_map strip (dget text_eqb k d).
Proof.
  intros Hn Hc H. unfold dictToKV in H. apply seqToKV_Ok in H as (HF & ->). set (ps := sort pair_leb d) in *.
  assert (Permutation d ps) as P by apply sort_perm.
  assert (map (fun p => (strip (fst p), strip (snd p))) ps = map (fun p => (fst p, strip (snd p))) ps) as Eq.
  { apply map_ext_in. intros [k v] I. rewrite Forall_forall in Hc. f_equal. apply Permutation_in with (l' := d) in I; [|symmetry; auto]. apply (Hc _ I). }
  unfold kvToDict. rewrite kvToSeq_loose, Eq by auto. cbn [bind]. eexists. split; [reflexivity|]. intros k.
  rewrite (dict_of_NoDup text_eqb text_eqb_eq).
  2:{ unfold dkeys. rewrite map_map. cbn [fst]. eapply Permutation_NoDup; [apply Permutation_map; exact P|auto]. }
  rewrite (dget_perm d ps k Hn P). clear. induction ps as [|[k' v] ps IH]; auto. cbn [map dget fst snd]. destruct (text_eqb k k'); auto.
Qed.

(** Extensions leave the parameters with simple names alone. *)
Definition plain_message (reg : dict text text) (oid : text) (m : msg) : Prop :=
  built reg m /\ getOpenIDNamespace m = Some oid /\ forall k, getArg m BARE_NS k = Ok None.
Lemma plain_wire reg oid m k : plain_message reg oid m -> ~ In 46 k -> k <> u "ns" ->
  wire_value (toPostArgs m) k = dget akey_eqb (Uri oid, k) (margs m).
Proof.
  intros (B & V & Nb) H46 Hns. pose proof (built_core _ _ _ B V) as C.
  assert (forall x w, dget akey_eqb (Bare, x) (margs m) = Some w -> is_bare x) as Ba.
  { intros x w X. specialize (Nb x). rewrite getArg_bare, X in Nb. discriminate Nb. }
  destruct (dget akey_eqb (Uri oid, k) (margs m)) as [v|] eqn:D; [eapply post_core_value; eauto|].
  unfold wire_value. rewrite toPostArgs_dget by apply C.
  destruct (assoc_last text_eqb (u "openid." ++ k) (post_args m)) as [v|] eqn:L.
  - exfalso. apply assoc_last_In in L. apply In_post_args in L; [|apply C]. destruct L as (n & k' & D' & E). unfold keyname in E. destruct n as [|x].
    + specialize (Nb k'). rewrite getArg_bare, D' in Nb. discriminate Nb.
    + destruct (getAlias (mns m) x) as [[|al]|] eqn:G.
      * apply (app_inv_head (u "openid.")) in E. subst k'. apply (wn_inv _ (wm_ns _ (proj1 C))) in G. unfold getOpenIDNamespace in V. rewrite V in G. inv G. pose proof (eq_trans (eq_sym D) D') as X. discriminate X.
      * apply (app_inv_head (u "openid.")) in E. apply H46. rewrite E. apply in_or_app. right. left. auto.
      * apply (wm_def _ (proj1 C) x k'); auto. apply (dhas_In akey_eqb akey_eqb_eq). unfold dhas. rewrite D'. auto.
  - destruct (assoc_last text_eqb (u "openid." ++ k) (post_ns m)) as [v|] eqn:L2; auto.
    exfalso. apply assoc_last_In in L2. apply In_post_ns in L2; [|apply C]. destruct L2 as (al & _ & E). destruct al as [|al]; unfold ns_field in E.
    + apply (app_inv_head (u "openid.") k (u "ns")) in E. auto.
    + apply (app_inv_head (u "openid.") k (u "ns." ++ al)) in E. apply H46. rewrite E. apply in_or_app. left. vm_compute. auto.
Qed.
Lemma extended_plain reg oid r r' : extended r r' -> plain_message reg oid (rs_fields r) ->
  plain_message reg oid (rs_fields r') /\ rs_request r' = rs_request r /\
  forall k, dget akey_eqb (Uri oid, k) (margs (rs_fields r')) = dget akey_eqb (Uri oid, k) (margs (rs_fields r)).
Proof.
  intros X P. induction X as [|r1 uri al args r2 X IH Hs Ha Hn A]; [auto|]. destruct IH as ((B & V & Nb) & R & G).
  unfold addExtension in A. binv A. injection A as <-. cbn [rs_fields rs_request].
  destruct (ext_delivers reg (rs_fields r1) uri al args a B Hs Hn E) as (B' & V' & _ & _ & _ & _ & O).
  assert (In oid allowed_openid_namespaces) as Al. { pose proof (built_ver reg _ B) as Y. rewrite V in Y. exact Y. }
  split; [split; auto; split; [congruence|]|split; auto].
  - intros k. rewrite O; auto. cbn [place]. discriminate.
  - intros k. rewrite <- G. assert (getArg a OPENID_NS k = getArg (rs_fields r1) OPENID_NS k) as Y.
    { apply O. cbn [place]. rewrite V. cbn [option_map]. intros Z. injection Z as ->. auto. }
    rewrite (core_get _ oid _) in Y by (eapply built_core; eauto; congruence). rewrite (core_get _ oid _) in Y by (eapply built_core; eauto). congruence.
Qed.
Lemma simple_plain reg m oid kvs : simple reg m oid kvs -> plain_message reg oid m.
Proof.
  intros [C B A _ _]. split; auto. split; [apply C|]. intros k. rewrite getArg_bare, A. f_equal. clear. induction kvs as [|[k' v] l IH]; auto.
Qed.

Section Provider.
  Context {S : Type} (step : S -> Z -> op -> S * out).
  Variable e : uenv.
  Variable reg : dict text text.
  Variable params_ok : Z -> Z -> bool.
  Variable hmac : text -> bytes -> bytes -> bytes.
  Variable pub_ok : Z -> Z -> Z -> bool.
  Variable hash : hash_alg -> bytes -> bytes.
  Variable neg : negotiator.

  (** The response before it is signed (server.py:1572-1603 and the application). *)
  Definition respond (i : exchange) (s : S) : S * res response :=
    match i with
    | Asked query ep x allow server_url identity claimed t salt decorate _ _ _ =>
        match Server.decode e reg params_ok query ep x with
        | DOk (Some (RCheckID c)) => (s, r <- CheckID_answer e c allow server_url identity claimed t salt ;; Ok (decorate r))
        | _ => (s, Raise NotImplementedError)
        end
    | Direct query ep x now secret uniq =>
        match Server.decode e reg params_ok query ep x with
        | DOk (Some q) => handleRequest hmac pub_ok hash step neg now secret uniq q s
        | _ => (s, Raise NotImplementedError)
        end
    end.
  Definition time_of (i : exchange) : Z := match i with Asked _ _ _ _ _ _ _ _ _ _ now _ _ | Direct _ _ _ now _ _ => now end.
  Definition secret_of (i : exchange) : N -> bytes := match i with Asked _ _ _ _ _ _ _ _ _ _ _ secret _ | Direct _ _ _ _ secret _ => secret end.
  Definition uniq_of (i : exchange) : bytes := match i with Asked _ _ _ _ _ _ _ _ _ _ _ _ uniq | Direct _ _ _ _ _ uniq => uniq end.
  Definition serve (i : exchange) (s : S) : S * res web :=
    match respond i s with
    | (s1, Ok r) => encodeResponse hmac step (time_of i) (secret_of i) (uniq_of i) r s1
    | (s1, Raise x) => (s1, Raise x)
    end.
  (** The provider's store after some exchanges. *)
  Definition provider (xs : list exchange) (s : S) : S := fold_left (fun s i => fst (serve i s)) xs s.

  (** The provider signs the text [b] with the key [k] in the exchange [i]. *)
  Definition signs (i : exchange) (s : S) (ty : text) (k b : bytes) : Prop :=
    exists s1 r s2 r' signed, respond i s = (s1, Ok r) /\ needsSigning r = Ok true /\
      sign_response hmac step (time_of i) (secret_of i) (uniq_of i) r s1 = (s2, Ok r') /\
      let fields := toPostArgs (rs_fields r') in
      wire_value fields (u "signed") = Some signed /\ authenticated fields signed b /\
      wire_value fields (u "sig") = Some (toBase64 (hmac ty k b)).
  Definition issued (xs : list exchange) (s : S) (ty : text) (k b : bytes) : Prop :=
    exists before i after, xs = before ++ i :: after /\ signs i (provider before s) ty k b.

  (** What is signed are the fields of the response. *)
  Lemma sign_inv now secret uniq r s s2 r' oid : core (rs_fields r) oid -> sign_response hmac step now secret uniq r s = (s2, Ok r') ->
    exists signed, wire_value (toPostArgs (rs_fields r')) (u "signed") = Some signed /\
      forall k, k <> u "assoc_handle" -> k <> u "invalidate_handle" -> k <> u "signed" -> k <> u "sig" ->
        wire_value (toPostArgs (rs_fields r')) k = wire_value (toPostArgs (rs_fields r)) k /\
        (~ In 44 k -> wire_value (toPostArgs (rs_fields r)) k <> None -> In k (splitc 44 signed)).
  Proof using.
    clear e reg params_ok pub_ok hash neg. intros C H.
    assert (exists a r1 m, (r1 = r \/ exists h, setField r (u "invalidate_handle") h = Ok r1) /\ signMessage hmac a (rs_fields r1) = Ok m /\ rs_fields r' = m) as (a & r1 & m & R1 & Sm & ->).
    { unfold sign_response, sbind, sret in H. destruct (request_assoc_handle (rs_request r)) as [o|]; [|discriminate].
      match type of H with (let '(_, _) := ?p in _) = _ => destruct p as [s3 [[r1 a]|?]] eqn:P end; [|discriminate].
      cbn [fst snd] in H. exists a, r1. destruct (signMessage hmac a (rs_fields r1)) as [m|[]]; try discriminate H. exists m. split; [|split; [auto|injection H as _ <-; reflexivity]].
      clear H. assert (forall q st, (let '(s', x) := createAssociation step now secret uniq true (u "HMAC-SHA1") q in match x with Ok a => (s', Ok (r, a)) | Raise x => (s', Raise x) end) = (st, Ok (r1, a)) -> r1 = r) as Fr.
      { intros q st X. destruct (createAssociation step now secret uniq true (u "HMAC-SHA1") q) as [s' [b|?]]; [congruence|discriminate]. }
      destruct o as [h|]; [|left; eapply Fr; exact P]. destruct (truthy h); [|left; eapply Fr; exact P].
      destruct (getAssociation step now h false false s) as [s4 [o|?]]; [|discriminate].
      destruct (match o with Some a => run_out a now | None => true end).
      - destruct (setField r (u "invalidate_handle") h) as [r2|] eqn:Sf; [|discriminate]. right. exists h.
        match type of P with (let '(_, _) := ?p in _) = _ => destruct p as [s5 [?|?]] end; [|discriminate].
        match type of P with (let '(_, _) := ?p in _) = _ => destruct p as [s6 [?|?]] end; [|discriminate]. congruence.
      - left. destruct o; [congruence|discriminate]. }
    assert (core (rs_fields r1) oid /\ forall k, k <> u "invalidate_handle" -> wire_value (toPostArgs (rs_fields r1)) k = wire_value (toPostArgs (rs_fields r)) k) as (C1 & W1).
    { destruct R1 as [->|(h & R1)]; [auto|]. unfold setField in R1. destruct (core_set _ _ (u "invalidate_handle") h C) as (m' & E & M & N & C'). rewrite E in R1. injection R1 as <-.
      cbn [rs_fields]. split; auto. intros k Hk. unfold wire_value. eapply post_set_other; eauto; [apply C'|]. intros X. apply (app_inv_head (u "openid.") k) in X. auto. }
    pose proof (signMessage_Ok hmac a _ oid m C1 Sm) as SA. destruct SA as [_ C' N' _ _ (m1 & b & C1' & N1' & A1 & Kb & A3 & Pm) Ty _]. cbv zeta in *.
    set (signed := join [44] (signed_names m1)) in *. exists signed.
    split. { unfold wire_value. change (u "openid." ++ u "signed") with (u "openid.signed"). rewrite Pm, (dget_dset_other text_eqb text_eqb_eq) by discriminate. apply (dget_dset_same text_eqb text_eqb_eq). }
    intros k K1 K2 K3 K4.
    assert (wire_value (toPostArgs m1) k = wire_value (toPostArgs (rs_fields r)) k) as W.
    { rewrite <- W1 by auto. unfold wire_value. eapply post_set_other; eauto; [apply C1'|]. intros X. apply (app_inv_head (u "openid.") k) in X. auto. }
    split.
    - rewrite <- W. unfold wire_value. rewrite Pm, !(dget_dset_other text_eqb text_eqb_eq); auto; intros X; [apply (app_inv_head (u "openid.") k (u "signed")) in X|apply (app_inv_head (u "openid.") k (u "sig")) in X]; auto.
    - intros N44 Hw. apply In_splitc_join; auto. apply signed_names_In. left. rewrite <- W in Hw. apply (dhas_In text_eqb text_eqb_eq). unfold dhas. unfold wire_value in Hw.
      destruct (dget text_eqb (u "openid." ++ k) (toPostArgs m1)); congruence.
  Qed.

  (** The provider's own answers to direct requests are never signed. *)
  Definition unmarked (oid : text) (r : response) : Prop := core (rs_fields r) oid /\ dget akey_eqb (Uri oid, u "mode") (margs (rs_fields r)) = None.
  Lemma unmarked_needs oid r : unmarked oid r -> needsSigning r = Ok false.
  Proof using. clear. intros (C & M). unfold needsSigning. rewrite (core_get _ _ _ C), M. reflexivity. Qed.
  Lemma unmarked_set oid r k v r' : unmarked oid r -> k <> u "mode" -> setField r k v = Ok r' -> unmarked oid r'.
  Proof using.
    clear. intros (C & M) Hk H. unfold setField in H. destruct (core_set _ _ k v C) as (m' & E & A & _ & C'). rewrite E in H. injection H as <-. split; auto. cbn [rs_fields].
    rewrite A, (dget_dset_other akey_eqb akey_eqb_eq); auto. intros X. injection X as X. auto.
  Qed.
  Lemma unmarked_update oid r kv r' : unmarked oid r -> (forall k, In k (map fst kv) -> k <> u "mode") -> updateFields r kv = Ok r' -> unmarked oid r'.
  Proof using.
    clear. intros U Hk H. unfold updateFields in H. binv H. injection H as <-. unfold updateArgs in E. destruct U as (C & M).
    rewrite (core_fix _ _ C) in E. cbn [bind] in E. unfold unmarked. cbn [rs_fields]. revert C M E. generalize (rs_fields r) as m.
    induction kv as [|[k v] kv IH]; intros m C M E; cbn [foldM] in E; [injection E as <-; auto|]. binv E.
    cbn [nsarg_of fst snd] in E0. destruct (core_set _ _ k v C) as (m' & E1 & A & _ & C').
    assert (setArg m (NS oid) k v = setArg m OPENID_NS k v) as X. { unfold setArg. rewrite (core_fix _ _ C). rewrite fixNS_uri; auto. apply C. }
    rewrite X, E1 in E0. injection E0 as <-. apply (IH) with (m := m'); auto; [intros; apply Hk; right; auto|].
    rewrite A, (dget_dset_other akey_eqb akey_eqb_eq); auto. intros Y. injection Y as Y. symmetry in Y. revert Y. apply Hk. left. auto.
  Qed.
  Lemma direct_unsigned query ep x now secret uniq s s1 r : NoDup (map fst query) ->
    respond (Direct query ep x now secret uniq) s = (s1, Ok r) -> needsSigning r = Ok false.
  Proof using.
    intros Hn H. cbn [respond] in H. destruct (Server.decode e reg params_ok query ep x) as [[[c|c|c]| ]| |] eqn:D; try discriminate H; cbn [handleRequest] in H.
    - destruct (C33_decode_check_authentication e reg params_ok query ep x c Hn D) as (F & _). destruct (fromPostArgs_ver _ _ _ F Hn) as (V & A).
      destruct (check_answer_simple step reg hmac c _ now s s1 r V A H) as (v & rest & _ & Si & _ & Rest).
      apply (unmarked_needs (oid_of (openid_part query))). split; [apply Si|]. 
      pose proof (simple_get _ _ _ _ (u "mode") Si) as G. rewrite (core_get _ _ _ (si_core _ _ _ _ Si)) in G. injection G as G. rewrite G.
      destruct Rest as [->|(i & -> & _)]; reflexivity.
    - assert (fromPostArgs reg query = Ok (as_message c)) as F.
      { apply (Prop_ServerAssociate.C39_decode e reg params_ok query ep x c Hn D). }
      destruct (fromPostArgs_ver _ _ _ F Hn) as (V & A). set (oid := oid_of (openid_part query)) in *.
      destruct (new_response reg (RAssociate c) oid V A) as (r0 & Er0 & _ & C0 & M0 & _).
      assert (unmarked oid r0) as U0. { split; auto. rewrite M0. reflexivity. }
      apply (unmarked_needs oid). unfold openid_associate in H. destruct (isAllowed neg (as_assoc_type c) (session_type (as_session c))).
      + unfold sbind in H. destruct (createAssociation step now secret uniq false (as_assoc_type c) s) as [s2 [a|?]]; [|discriminate]. unfold sret in H. apply pair_equal_spec in H as (_ & H).
        unfold Associate_answer in H. rewrite Er0 in H. cbn [bind] in H. binv H. binv H. binv H.
        assert (unmarked oid a0) as U1. { eapply unmarked_update; [exact U0| |exact E]. cbn [map fst]. intros k Hk. repeat (destruct Hk as [<-|Hk]; [vm_compute; discriminate|]). destruct Hk. }
        assert (unmarked oid a2) as U2.
        { eapply unmarked_update; [exact U1| |exact E1]. unfold session_answer in E0. destruct (as_session c).
          - injection E0 as <-. intros k [<-|[]]. vm_compute. discriminate.
          - binv E0. destruct a3. injection E0 as <-. intros k Hk. repeat (destruct Hk as [<-|Hk]; [vm_compute; discriminate|]). destruct Hk. }
        destruct (_ && _) in H; [injection H as <-; auto|]. refine (unmarked_set oid _ _ _ _ U2 _ H). vm_compute. discriminate.
      + unfold sret in H. apply pair_equal_spec in H as (_ & H). unfold answerUnsupported in H. destruct (isOpenID1 (as_message c)); [discriminate|]. rewrite Er0 in H. cbn [bind] in H. binv H. binv H.
        assert (unmarked oid a) as U1 by (refine (unmarked_set oid _ _ _ _ U0 _ E); vm_compute; discriminate).
        assert (unmarked oid a0) as U2 by (refine (unmarked_set oid _ _ _ _ U1 _ E0); vm_compute; discriminate).
        destruct (getAllowedType neg) as [[at_ st]|]; [|injection H as <-; auto]. binv H.
        assert (unmarked oid a1) as U3. { destruct (truthy at_); [refine (unmarked_set oid _ _ _ _ U2 _ E1); vm_compute; discriminate|injection E1 as <-; auto]. }
        destruct (truthy st); [refine (unmarked_set oid _ _ _ _ U3 _ H); vm_compute; discriminate|injection H as <-; auto].
  Qed.

  Lemma refusal_simple request ep x c server_url identity claimed t salt r : NoDup (map fst request) ->
    Server.decode e reg params_ok request ep x = DOk (Some (RCheckID c)) ->
    CheckID_answer e c false server_url identity claimed t salt = Ok r -> exists oid kvs, simple reg (rs_fields r) oid kvs.
  Proof using.
    clear S step hmac pub_ok hash neg. intros Hn D H. pose proof (decoded_ok e reg params_ok request ep x c Hn D) as De. destruct (fields_new reg request c Hn (de_parse _ _ _ _ De)) as (r0 & oid & E0 & _ & S0 & _).
    exists oid. unfold CheckID_answer in H. destruct (ci_return_to c) as [rt|]; [|discriminate]. destruct (negb (truthy rt)); [discriminate|].
    binv H. rewrite E0 in H. cbn [bind] in H. destruct (otruthy claimed && isOpenID1 (ci_message c)); [discriminate|]. cbn [bind] in H.
    binv H. rename a0 into r1.
    destruct (field_add reg r0 oid [] (u "mode") (answer_mode c false) S0) as (r1' & X & _ & S1); [intros []|vm_compute; discriminate|]. assert (r1' = r1) as -> by congruence.
    destruct (ci_immediate c); [|injection H as <-; eauto].
    destruct (isOpenID1 (ci_message c) && _); [discriminate|]. binv H. binv H.
    destruct (field_add reg r1 oid _ (u "user_setup_url") a1 S1) as (r2 & Y & _ & S2); [vm_compute; intuition discriminate|vm_compute; discriminate|].
    assert (r2 = r) as -> by congruence. eauto.
  Qed.

  (** The parameters of an assertion, as far as they are checked. *)
  Definition core_fields : list text := [u "return_to"; u "identity"; u "response_nonce"; u "claimed_id"; u "op_endpoint"].
  (** The provider's application said yes, in one of the exchanges, to exactly what [query] says. *)
  Definition said (xs : list exchange) (query : dict text text) (signed : text) : Prop :=
    exists before request ep x c server_url identity claimed t salt decorate now secret uniq after return_to ids,
      xs = before ++ Asked request ep x true server_url identity claimed t salt decorate now secret uniq :: after /\
      Server.decode e reg params_ok request ep x = DOk (Some (RCheckID c)) /\
      answerable request ep server_url claimed /\ wire_value request (u "return_to") = Some return_to /\
      may_assert e (asks_v2 request) (wire_value request (u "identity")) (wire_value request (u "claimed_id")) identity claimed ids /\
      let fields := base_params return_to (mkNonce t salt) (endpoint_param server_url ep) ids in
      (forall k, In k core_fields -> In k (splitc 44 signed) -> value_of query k = match dget text_eqb k fields with Some v => v | None => [] end) /\
      (forall k, In k core_fields -> dget text_eqb k fields <> None -> In k (splitc 44 signed)).

  Lemma signs_said xs s ty key b query signed rto : Forall proper xs -> issued xs s ty key b ->
    authenticated query signed b -> In (u "return_to") (splitc 44 signed) -> wire_value query (u "return_to") = Some rto -> rto <> [] ->
    said xs query signed.
  Proof using.
    intros P (before & i & after & -> & s1 & r & s2 & r' & signed' & R & Ns & Sg & W1 & (t' & T1 & B1) & _) (t2 & T2 & B2) Ir Wr Nr.
    assert (t' = t2) as ->. { apply (encode_inj t' t2 b); auto. }
    pose proof (seqToKV_inj _ _ _ _ _ T1 T2) as L. set (fields := toPostArgs (rs_fields r')) in *.
    assert (splitc 44 signed' = splitc 44 signed) as Names.
    { apply (f_equal (map fst)) in L. rewrite !map_map in L. cbn [fst] in L. rewrite !map_id in L. auto. }
    assert (forall k, In k (splitc 44 signed) -> value_of query k = value_of fields k) as Vals.
    { intros k Hk. rewrite Names in L. assert (In (k, value_of query k) (map (fun k => (k, value_of query k)) (splitc 44 signed))) as J by (apply in_map_iff; eauto).
      rewrite <- L in J. apply in_map_iff in J as (k' & J & _). apply pair_equal_spec in J as (-> & J). auto. }
    rewrite Forall_app in P. destruct P as (_ & P). inversion P as [|? ? Pi _]; subst.
    destruct i as [request ep x allow server_url identity claimed t salt decorate now secret uniq|request ep x now secret uniq].
    2:{ exfalso. cbn [proper] in Pi. rewrite (direct_unsigned _ _ _ _ _ _ _ _ _ Pi R) in Ns. discriminate Ns. }
    destruct Pi as (Hn & Po). cbn [respond] in R. destruct (Server.decode e reg params_ok request ep x) as [[[c|c|c]| ]| |] eqn:D; try discriminate R.
    apply pair_equal_spec in R as (<- & R). binv R. injection R as <-. rename a into r0. specialize (Po r0). cbn [time_of secret_of uniq_of] in Sg.
    assert (exists oid, plain_message reg oid (rs_fields r0)) as (oid & C0).
    { destruct allow.
      - destruct (answer_simple e reg params_ok _ _ _ _ _ _ _ _ _ _ Hn D E) as (oid & kvs & _ & Si & _). exists oid. eapply simple_plain; eauto.
      - destruct (refusal_simple request ep x c server_url identity claimed t salt r0 Hn D E) as (oid & kvs & Si). exists oid. eapply simple_plain; eauto. }
    destruct (extended_plain reg oid _ _ Po C0) as (C1 & _ & Sm).
    destruct (sign_inv _ _ _ _ _ _ _ oid (built_core _ _ _ (proj1 C1) (proj1 (proj2 C1))) Sg) as (signed'' & W1' & Sp). assert (signed'' = signed') as -> by (fold fields in W1'; congruence). clear W1'.
    assert (forall k, In k core_fields -> wire_value fields k = wire_value (toPostArgs (rs_fields r0)) k /\
              (wire_value (toPostArgs (rs_fields r0)) k <> None -> In k (splitc 44 signed))) as Cf.
    { intros k Hk. rewrite <- Names. assert (~ In 44 k /\ ~ In 46 k /\ k <> u "assoc_handle" /\ k <> u "invalidate_handle" /\ k <> u "signed" /\ k <> u "sig" /\ k <> u "ns") as (K1 & K2 & K3 & K4 & K5 & K6 & K7).
      { repeat (destruct Hk as [<-|Hk]; [repeat split; vm_compute; intuition discriminate|]). destruct Hk. }
      destruct (Sp k K3 K4 K5 K6) as (X & Y). 
      assert (wire_value (toPostArgs (rs_fields (decorate r0))) k = wire_value (toPostArgs (rs_fields r0)) k) as Z
        by (rewrite (plain_wire reg oid _ k C1 K2 K7), Sm; symmetry; apply (plain_wire reg oid _ k C0 K2 K7)).
      rewrite Z in X, Y. auto. }
    assert (value_of fields (u "return_to") = rto) as Vr. { rewrite <- Vals by auto. unfold value_of. rewrite Wr. auto. }
    destruct allow.
    - destruct (proj1 (C36_positive_answer e reg params_ok request ep x c server_url identity claimed t salt Hn D (toPostArgs (rs_fields r0)))) as (rt & ids & An & Hr & Ma & Se).
      { exists r0. split; [exact E|]. split; auto. destruct (answer_simple e reg params_ok _ _ _ _ _ _ _ _ _ _ Hn D E) as (oid' & kvs & Q & _). exact Q. }
      exists before, request, ep, x, c, server_url, identity, claimed, t, salt, decorate, now, secret, uniq, after, rt, ids.
      split; auto. split; auto. split; auto. split; auto. split; auto. cbv zeta.
      set (base := base_params rt (mkNonce t salt) (endpoint_param server_url ep) ids).
      assert (forall k, In k core_fields -> wire_value (toPostArgs (rs_fields r0)) k = dget text_eqb k base) as Wb.
      { intros k Hk. assert (k <> u "ns") as Kn by (repeat (destruct Hk as [<-|Hk]; [vm_compute; discriminate|]); destruct Hk).
        unfold wire_value. rewrite Se. fold (base_params rt (mkNonce t salt) (endpoint_param server_url ep) ids). fold base. rewrite dget_app_l.
        - clear. induction base as [|[k' v] l IH]; auto. unfold on_wire in *. cbn [map dget fst snd]. destruct (text_eqb k k') eqn:E.
          + apply text_eqb_eq in E. subst. rewrite text_eqb_refl. auto.
          + assert (text_eqb (u "openid." ++ k) (u "openid." ++ k') = false) as ->; [exact E|]. exact IH.
        - intros v I. destruct (asks_v2 request); [|destruct I]. destruct I as [I|[]]. apply pair_equal_spec in I as (I & _). apply (app_inv_head (u "openid.") (u "ns")) in I. congruence. }
      split.
      + intros k Hk Hs. rewrite Vals by auto. unfold value_of. destruct (Cf k Hk) as (-> & _). rewrite Wb by auto. auto.
      + intros k Hk Hb. apply Cf; auto. rewrite Wb by auto. auto.
    - exfalso. destruct (C37_refusal e reg params_ok request ep x c server_url identity claimed t salt r0 Hn D E) as (_ & _ & setup & Se & Hs0 & Hs1 & _).
      assert (wire_value (toPostArgs (rs_fields r0)) (u "return_to") = None) as X.
      { unfold wire_value. rewrite Se. apply dget_fresh. rewrite map_app, in_app_iff. intros [I|I].
        - destruct (asks_v2 request); [|destruct I]. destruct I as [I|[]]. discriminate I.
        - unfold on_wire in I. cbn [map fst] in I. destruct I as [I|I]; [discriminate I|]. rewrite map_map in I. cbn [fst] in I.
          destruct (opt_eqb text_eqb (wire_value request (u "mode")) (Some (u "checkid_immediate"))).
          + destruct (Hs1 eq_refl) as (url & m & kvs & sv & -> & _). destruct I as [I|[]]. discriminate I.
          + rewrite (Hs0 eq_refl) in I. destruct I. }
      unfold value_of in Vr. destruct (Cf (u "return_to")) as (Y & _); [left; auto|]. rewrite Y, X in Vr. auto.
  Qed.

  (** The answer to a POST (server.py:1572-1630), over HTTP in UTF-8. *)
  Definition direct_reply (s : S) (ep : text) (x now : Z) (secret : N -> bytes) (uniq : bytes) (body : text) : option (N * bytes) :=
    match snd (serve (Direct (dict_of text_eqb (parse_qsl true body)) ep x now secret uniq) s) with
    | Ok (mkWeb code None (BText t)) => match encode t with Ok b => Some (code, b) | Raise _ => None end
    | _ => None
    end.

  (** What the provider confirms, it has a key for. *)
  Lemma confirmed s ep x now secret uniq query m signed sig hd body code answer :
    fair_query reg query -> fromPostArgs reg query = Ok m ->
    wire_value query (u "mode") = Some (u "id_res") -> wire_value query (u "assoc_handle") = Some hd ->
    wire_value query (u "signed") = Some signed -> wire_value query (u "sig") = Some sig ->
    check_body query body -> direct_reply s ep x now secret uniq body = Some (code, answer) -> reply_says answer (u "is_valid") (u "true") ->
    (exists ca, Server.decode e reg params_ok (dict_of text_eqb (parse_qsl true body)) ep x = DOk (Some (RCheckAuth ca)) /\ ca_assoc_handle ca = hd) /\
    exists s' a, step s now (GetA dumb_key (Some hd)) = (s', Got (Some a)) /\ (now < a_issued a + a_lifetime a)%Z /\ mac_valid hmac a query signed sig.
  Proof using.
    intros Q F Hm Hh Hs Hg (args & Ub & Hna & Ag) Dr (tx & d & Tx & Kd & Iv). pose proof Q as (Rg & Hn & Hsr).
    assert (parse_qsl true body = args) as Pq. { apply urlencode_Ok in Ub as (db & Fb & ->). apply parse_qsl_enc; auto. }
    assert (forall k, k <> u "mode" -> wire_value args k = wire_value query k) as Wa.
    { intros k Hk. unfold wire_value. rewrite Ag. assert (text_eqb (u "openid." ++ k) (u "openid.mode") = false) as ->; [|reflexivity].
      apply text_eqb_neq. intros X. apply (app_inv_head (u "openid.") k (u "mode")) in X. auto. }
    assert (wire_value args (u "mode") = Some (u "check_authentication")) as Wm. { unfold wire_value. rewrite Ag. reflexivity. }
    unfold direct_reply, serve in Dr. rewrite Pq, (dict_of_NoDup text_eqb text_eqb_eq) in Dr by auto.
    destruct (respond (Direct args ep x now secret uniq) s) as [s1 [r|y]] eqn:Rs; [|discriminate Dr].
    pose proof (direct_unsigned args ep x now secret uniq s s1 r Hna Rs) as Nr. cbn [respond] in Rs.
    destruct (Server.decode e reg params_ok args ep x) as [[q| ]| |] eqn:D; try discriminate Rs.
    assert (exists m2 ca, fromPostArgs reg args = Ok m2 /\ q = RCheckAuth ca /\ CheckAuth_fromMessage m2 = DOk ca) as (m2 & ca & F2 & -> & Ca).
    { unfold Server.decode in D. destruct args as [|kv q0] eqn:Eq; [discriminate Wm|]. rewrite <- Eq in *.
      destruct (fromPostArgs reg args) as [m2|y] eqn:F2.
      2:{ exfalso. destruct y; cbn [dbind] in D; try discriminate D;
          match type of D with context [dlift (fromPostArgs reg ?z)] => destruct (fromPostArgs reg z) as [?|?] end; cbn [dlift dbind] in D; discriminate D. }
      cbn [dbind] in D. rewrite (field_of reg args m2 (u "mode") Hna F2) in D by simple_key. rewrite Wm in D. cbn [dlift dbind] in D.
      change (negb (truthy (u "check_authentication"))) with false in D.
      change (text_eqb (u "check_authentication") (u "checkid_setup") || text_eqb (u "check_authentication") (u "checkid_immediate"))%bool with false in D.
      change (text_eqb (u "check_authentication") (u "check_authentication")) with true in D. cbv iota in D.
      destruct (CheckAuth_fromMessage m2) as [ca| |] eqn:Ca; cbn [dbind] in D; try discriminate D. exists m2, ca. split; auto. split; [congruence|auto]. }
    destruct (fromPostArgs_ver _ _ _ F2 Hna) as (V2 & A2). set (oid2 := oid_of (openid_part args)) in *.
    assert (built reg m2) as Bu by (eapply b_parse; eauto). pose proof (built_core _ _ _ Bu V2) as C2.
    destruct (fromPostArgs_ver _ _ _ F Hn) as (V & _). assert (built reg m) as Bu1 by (eapply b_parse; eauto). pose proof (built_core _ _ _ Bu1 V) as C. set (oid := oid_of (openid_part query)) in *.
    destruct (core_set m2 oid2 (u "mode") (u "id_res") C2) as (m3 & E3 & M3 & N3 & C3).
    assert (ca = mkCheckAuth m2 hd m3 (wire_value query (u "invalidate_handle"))) as ->.
    { unfold CheckAuth_fromMessage in Ca. rewrite !(field_of reg args m2 _ Hna F2) in Ca by simple_key. rewrite !Wa in Ca by (vm_compute; discriminate). rewrite Hh, Hg in Ca. cbn [dlift dbind] in Ca.
      assert (dget akey_eqb (Uri oid2, u "mode") (margs m2) = Some (u "check_authentication")) as Gm.
      { pose proof (field_of reg args m2 (u "mode") Hna F2 ltac:(simple_key) ltac:(simple_key)) as Gm. rewrite Wm, (core_get _ _ _ C2) in Gm. congruence. }
      rewrite (core_has _ _ _ C2) in Ca. unfold dhas in Ca. rewrite Gm in Ca. cbn [dlift dbind] in Ca. rewrite E3 in Ca. cbn [dlift dbind] in Ca. congruence. }
    split. { rewrite Pq, (dict_of_NoDup text_eqb text_eqb_eq) by auto. eexists. split; [exact D|reflexivity]. }
    cbn [handleRequest] in Rs.
    destruct (check_answer_simple step reg hmac (mkCheckAuth m2 hd m3 (wire_value query (u "invalidate_handle"))) oid2 now s s1 r V2 A2 Rs) as (v & rest & Rq & Si & Tf & Rest).
    (* it says true *)
    assert (v = u "true") as ->.
    { unfold encodeResponse, sbind, sret in Dr. rewrite Nr in Dr. cbn [snd time_of] in Dr.
      assert (encode_response r = (y <- toKVForm (rs_fields r) ;; Ok (mkWeb HTTP_OK None (BText y)))) as Xe by (unfold encode_response, whichEncoding; rewrite Rq; reflexivity).
      rewrite Xe in Dr. destruct (simple_args _ _ _ _ Si) as (Ta & Nb). unfold toKVForm in Dr. rewrite Ta in Dr. cbn [bind] in Dr.
      destruct (dictToKV (bare oid2 ((u "is_valid", v) :: rest))) as [t|] eqn:Dk; [|discriminate Dr]. cbn [bind] in Dr.
      destruct (encode t) as [b|] eqn:Eb; [|discriminate Dr]. assert (b = answer) as -> by congruence.
      rewrite (decode_encode _ _ Eb) in Tx. assert (t = tx) as -> by congruence.
      assert (Forall (fun p => strip (fst p) = fst p) (bare oid2 ((u "is_valid", v) :: rest))) as Cl.
      { unfold bare. apply Forall_app. split; [destruct (text_eqb oid2 OPENID2_NS); constructor; auto|]. constructor; [reflexivity|].
        destruct Rest as [->|(i & -> & _)]; constructor; auto. }
      destruct (kv_loose _ _ Nb Cl Dk) as (d' & Kd' & Dg).
      assert (d' = d) as -> by congruence. rewrite Dg in Iv.
      assert (dget text_eqb (u "is_valid") (bare oid2 ((u "is_valid", v) :: rest)) = Some v) as X by (unfold bare; destruct (text_eqb oid2 OPENID2_NS); reflexivity).
      rewrite X in Iv. destruct Tf as [->| ->]; [reflexivity|]. exfalso. vm_compute in Iv. discriminate Iv. }
    (* so a key was found and the signature is good *)
    unfold CheckAuth_answer, sbind in Rs. cbn [ca_assoc_handle ca_signed ca_invalidate_handle ca_message] in Rs.
    destruct (verify hmac step now hd m3 s) as [s2 [ok|?]] eqn:Ve; [|discriminate Rs].
    destruct (invalidate step now hd true s2) as [s3 [[]|?]]; [|discriminate Rs].
    assert (ok = true) as ->.
    { destruct ok; auto. exfalso. destruct (simple_new reg oid2 A2) as (m0 & Em & Si0). unfold OpenIDResponse in Rs. cbn [request_message ca_message] in Rs. rewrite V2, Em in Rs. cbn [bind] in Rs. unfold sret at 1 in Rs.
      destruct (field_add reg (mkResponse (RCheckAuth (mkCheckAuth m2 hd m3 (wire_value query (u "invalidate_handle")))) m0) oid2 [] (u "is_valid") (u "false") Si0) as (r1 & E1 & Q1 & S1); [intros []|vm_compute; discriminate|].
      unfold sret at 1 in Rs. rewrite E1 in Rs.
      assert (forall r2 rest2, simple reg (rs_fields r2) oid2 ((u "is_valid", u "false") :: rest2) -> r2 = r -> False) as No.
      { intros r2 rest2 S2 ->. pose proof (simple_get _ _ _ _ (u "is_valid") S2) as X. rewrite (simple_get _ _ _ _ (u "is_valid") Si) in X. vm_compute in X. discriminate X. }
      destruct (wire_value query (u "invalidate_handle")) as [i|]; [|injection Rs as _ Rs; eapply No; eauto].
      destruct (truthy i); [|injection Rs as _ Rs; eapply No; eauto].
      destruct (getAssociation step now i false true s3) as [s4 [[b|]|?]]; [injection Rs as _ Rs; eapply No; eauto| |discriminate Rs].
      destruct (field_add reg r1 oid2 _ (u "invalidate_handle") i S1) as (r2 & E2 & Q2 & S2); [vm_compute; intuition discriminate|vm_compute; discriminate|].
      unfold sret in Rs. rewrite E2 in Rs. injection Rs as _ Rs. exact (No r2 _ S2 Rs). }
    unfold verify, sbind in Ve. destruct (getAssociation step now hd true true s) as [s4 [o|?]] eqn:Ga; [|discriminate Ve].
    destruct o as [a|]; [|unfold sret in Ve; discriminate Ve]. unfold sret in Ve.
    assert (checkMessageSignature hmac a m3 = Ok true) as Ck. { destruct (checkMessageSignature hmac a m3) as [b|y]; [congruence|]. destruct (isValueError y); discriminate Ve. }
    unfold getAssociation, sbind, store_get in Ga. cbn [key_of] in Ga. destruct (step s now (GetA dumb_key (Some hd))) as [s5 o] eqn:St.
    destruct o as [ |[a'|]|?|?|?]; try discriminate Ga.
    destruct (run_out a' now) eqn:Ro; cbn [andb] in Ga.
    { unfold store_unit in Ga. destruct (step s5 now _) as [s6 [ |?|?|?|?]]; discriminate Ga. }
    unfold sret in Ga. assert (a' = a) as -> by congruence. exists s5, a. split; auto. split.
    { unfold run_out, getExpiresIn in Ro. apply Z.leb_gt in Ro. lia. }
    assert (forall k, k <> u "mode" -> ~ In 46 k -> k <> u "ns" -> dget akey_eqb (Uri oid2, k) (margs m3) = wire_value query k) as Fs.
    { intros k Hk H46 Hns. rewrite M3, (dget_dset_other akey_eqb akey_eqb_eq) by (apply akey_ne; auto).
      pose proof (field_of reg args m2 k Hna F2 H46 Hns) as Y. rewrite (core_get _ _ _ C2) in Y. rewrite Wa in Y by auto. congruence. }
    destruct (check_Ok hmac a m3 _ C3 Ck) as (s' & sg & b & S1 & S2 & _ & (t & T1 & T2) & S3 & S4).
    rewrite Fs, Hg in S1 by simple_key. injection S1 as <-. rewrite Fs, Hs in S2 by simple_key. injection S2 as <-.
    exists t, b. split; [|split; auto; split; auto; destruct S4 as [<-|[<-|[]]]; [left|right]; auto].
    rewrite <- T1. f_equal. unfold pairs_of. apply map_ext. intros k. f_equal. unfold AssociationFacts.field.
    assert (forall k, dget text_eqb k (toPostArgs m2) = dget text_eqb k args) as P2.
    { eapply C14_parse_exact; eauto. intros al I. apply (In_dget text_eqb text_eqb_eq) in I; auto. rewrite Ag in I.
      destruct (text_eqb _ _) eqn:X in I; [discriminate I|]. apply (dget_In text_eqb text_eqb_eq) in I. eapply Hsr; eauto. }
    assert (dget text_eqb (u "openid." ++ k) (toPostArgs m3) = wire_value query k) as ->; auto.
    destruct (text_eq_dec k (u "mode")) as [->|Nk].
    - rewrite Hm. eapply (post_core_value m3 oid2 (u "mode")); eauto.
      + intros y w. rewrite M3, (dget_dset_other akey_eqb akey_eqb_eq) by discriminate. intros X.
        destruct (fromPostArgs_sound reg args m2 (proj1 Rg) Hna) as (_ & m0 & _ & _ & _ & _ & Ba); auto.
        { intros al I. apply (In_dget text_eqb text_eqb_eq) in I; auto. rewrite Ag in I.
          destruct (text_eqb _ _) eqn:Y in I; [discriminate I|]. apply (dget_In text_eqb text_eqb_eq) in I. eapply Hsr; eauto. }
        apply Ba in X. apply X.
      + simple_key.
      + rewrite M3. apply (dget_dset_same akey_eqb akey_eqb_eq).
    - rewrite (post_set_other m2 oid2 (u "mode") (u "id_res") m3) by (auto; try apply C3; intros X; apply app_inv_head in X; auto). rewrite P2. apply Wa. auto.
  Qed.

  (** The provider's application said yes, in one of the exchanges, to what [query] says:
      its return_to is that of a request, its identifiers the ones asserted in answer, its
      nonce and server URL those of the answer. *)
  Definition asserted (xs : list exchange) (query : dict text text) : Prop :=
    exists before request ep x c server_url identity claimed t salt decorate now secret uniq after return_to ids,
      xs = before ++ Asked request ep x true server_url identity claimed t salt decorate now secret uniq :: after /\
      Server.decode e reg params_ok request ep x = DOk (Some (RCheckID c)) /\
      answerable request ep server_url claimed /\ wire_value request (u "return_to") = Some return_to /\
      may_assert e (asks_v2 request) (wire_value request (u "identity")) (wire_value request (u "claimed_id")) identity claimed ids /\
      let fields := base_params return_to (mkNonce t salt) (endpoint_param server_url ep) ids in
      wire_value query (u "return_to") = Some return_to /\
      forall k, In k (if asks_v2 query then core_fields else [u "return_to"; u "identity"]) \/ In k core_fields /\ dget text_eqb k fields <> None ->
        value_of query k = match dget text_eqb k fields with Some v => v | None => [] end.

  Section Consumer.
    Context {CS : Type} (cstep : CS -> Z -> op -> CS * out).
    Variable udigit : N -> option Z.
    Variable net : list post -> option (N * bytes).
    Variable discover : text -> res (list endpoint).

    (** C59.  [Secret] are the keys that only the provider and the consumer hold. *)
    Theorem C59_accepted_was_asserted :
      forall (Secret : text -> bytes -> Prop) xs s0 query m session rt cnow cs cs' ep' m' fields ep x now secret uniq,
        fair_query reg query -> fromPostArgs reg query = Ok m ->
        complete e reg hmac udigit net discover cstep cnow m session rt cs = (cs', Ok (Success ep' m' fields)) ->
        Forall proper xs ->
        (* the consumer's keys for the server, and the provider's private keys, are secret *)
        (forall server hd st st' a, ep_server_url ep' = Some server -> c_store cs = Some st ->
           cstep st cnow (GetA server (Some hd)) = (st', Got (Some a)) -> Secret (a_type a) (a_secret a)) ->
        (forall hd s' a, step (provider xs s0) now (GetA dumb_key (Some hd)) = (s', Got (Some a)) -> Secret (a_type a) (a_secret a)) ->
        (* the consumer talks to the provider *)
        (forall server body, ep_server_url ep' = Some server ->
           net ((server, body) :: c_posts cs) = direct_reply (provider xs s0) ep x now secret uniq body) ->
        (* the signature is not forged: if it is good under a secret key, the provider made it *)
        (forall a signed sig, Secret (a_type a) (a_secret a) ->
           wire_value query (u "signed") = Some signed -> wire_value query (u "sig") = Some sig -> mac_valid hmac a query signed sig ->
           exists b, authenticated query signed b /\ issued xs s0 (a_type a) (a_secret a) b) ->
        asserted xs query.
    Proof using.
      intros Secret xs s0 query m session rt cnow cs cs' ep' m' fields ep x now secret uniq Q F H P Sc Sp Nt Un.
      destruct (C41_success_is_justified e reg hmac udigit net discover cstep cnow query m session rt cs cs' ep' m' fields Q F H) as
        (_ & Hm & _ & rto & server & hd & signed & sig & Wr & Wh & Ws & Wg & Es & _ & Must & _ & Vo).
      destruct (C42_return_to e reg hmac udigit net discover cstep cnow query m session rt cs cs' ep' m' fields Q F H) as (rto' & parts & Wr' & _ & (na & nb & _ & _ & _ & _ & Ub & _) & _).
      assert (rto' = rto) as -> by congruence.
      assert (rto <> []) as Nr. { intros ->. vm_compute in Ub. discriminate Ub. }
      assert (exists a, Secret (a_type a) (a_secret a) /\ mac_valid hmac a query signed sig) as (a & Sa & Mv).
      { destruct Vo as [(st & st' & a & Cs & G & _ & Mv & _)|(_ & body & status & answer & Cb & Cp & Nb & _ & Rp)]; [eauto|].
        rewrite Cp, (Nt server body Es) in Nb.
        destruct (confirmed _ _ _ _ _ _ query m signed sig hd body status answer Q F Hm Wh Ws Wg Cb Nb Rp) as (_ & s' & a & G & _ & Mv). eauto. }
      destruct (Un a signed sig Sa Ws Wg Mv) as (b & Au & Is).
      assert (In (u "return_to") (splitc 44 signed)) as Ir. { apply Must; [destruct (asks_v2 query); left; auto|congruence]. }
      destruct (signs_said xs s0 _ _ b query signed rto P Is Au Ir Wr Nr) as
        (before & request & ep1 & x1 & c & server_url & identity & claimed & t & salt & decorate & now1 & secret1 & uniq1 & after & return_to & ids & X1 & X2 & X3 & X4 & X5 & Y1 & Y2).
      exists before, request, ep1, x1, c, server_url, identity, claimed, t, salt, decorate, now1, secret1, uniq1, after, return_to, ids.
      split; auto. split; auto. split; auto. split; auto. split; auto. cbv zeta in *. split.
      - specialize (Y1 (u "return_to") (or_introl eq_refl) Ir). unfold value_of in Y1. rewrite Wr in Y1. rewrite Wr. f_equal. exact Y1.
      - assert (forall k, In k core_fields -> dget text_eqb k (base_params return_to (mkNonce t salt) (endpoint_param server_url ep1) ids) <> None -> value_of query k = match dget text_eqb k (base_params return_to (mkNonce t salt) (endpoint_param server_url ep1) ids) with Some v => v | None => [] end) as Z by (intros; apply Y1; auto).
        intros k [I|[I J]]; [|auto].
        assert (In k core_fields) as I'.
        { destruct (asks_v2 query); auto. destruct I as [<-|[<-|[]]]; [left|right; left]; auto. }
        destruct (wire_value query k) as [v|] eqn:W.
        + apply Y1; auto. apply Must; [|congruence]. destruct (asks_v2 query); auto. unfold core_fields in I'. cbn [In] in *. tauto.
        + destruct (dget text_eqb k (base_params return_to (mkNonce t salt) (endpoint_param server_url ep1) ids)) as [v|] eqn:D.
          * rewrite Z; auto; rewrite D; congruence.
          * unfold value_of. rewrite W. auto.
    Qed.
  End Consumer.
End Provider.
Print Assumptions C59_accepted_was_asserted.

(** A login without shared association, with memory stores: every premise holds. *)
Fixpoint distinct (l : list text) : bool := match l with [] => true | a :: l => negb (mem_text a l) && distinct l end.
Lemma distinct_NoDup l : distinct l = true -> NoDup l.
Proof.
  induction l as [|a l IH]; cbn [distinct]; intros H; constructor; apply andb_true_iff in H as (H1 & H2); auto.
  apply negb_true_iff in H1. apply mem_text_false. exact H1.
Qed.
Definition bytes_of (query : dict text text) (signed : text) : res bytes :=
  t <- seqToKV false (map (fun k => (k, value_of query k)) (splitc 44 signed)) ;; encode t.
Lemma bytes_of_ok query signed b : bytes_of query signed = Ok b -> authenticated query signed b.
Proof. unfold bytes_of. intros H. binv H. exists a. auto. Qed.
Definition one_login : list exchange :=
  [Asked login_query op_url 1 true None None None 1700000000 (u "salt42")
     (fun r => match addExtension r SREG_URI (u "sreg") [(u "nickname", u "me")] with Ok r' => r' | Raise _ => r end)
     1700000000 secret0 [9; 8; 7; 6]].
Definition demo_provider (xs : list exchange) : mem := provider mem_step plain_env [] (fun _ _ => true) long_mac (fun _ _ _ => true) (fun _ b => b) default_negotiator xs mem_init.
Definition demo_signs (i : exchange) (s : mem) (ty : text) (k : bytes) : res bytes :=
  match respond mem_step plain_env [] (fun _ _ => true) long_mac (fun _ _ _ => true) (fun _ b => b) default_negotiator i s with
  | (s1, Ok r) =>
      match needsSigning r, sign_response long_mac mem_step (time_of i) (secret_of i) (uniq_of i) r s1 with
      | Ok true, (_, Ok r') =>
          let fields := toPostArgs (rs_fields r') in
          match wire_value fields (u "signed") with
          | Some signed => b <- bytes_of fields signed ;;
                           if opt_eqb text_eqb (wire_value fields (u "sig")) (Some (toBase64 (long_mac ty k b))) then Ok b else Raise ValueError
          | None => Raise ValueError
          end
      | _, _ => Raise ValueError
      end
  | _ => Raise ValueError
  end.
Lemma demo_signs_ok i s ty k b : demo_signs i s ty k = Ok b ->
  signs mem_step plain_env [] (fun _ _ => true) long_mac (fun _ _ _ => true) (fun _ b => b) default_negotiator i s ty k b.
Proof.
  unfold demo_signs. intros H. destruct (respond _ _ _ _ _ _ _ _ i s) as [s1 [r|]] eqn:R; [|discriminate H].
  destruct (needsSigning r) as [[]|] eqn:N; try discriminate H.
  destruct (sign_response _ _ _ _ _ r s1) as [s2 [r'|]] eqn:Sg; [|discriminate H]. cbv zeta in H.
  destruct (wire_value (toPostArgs (rs_fields r')) (u "signed")) as [signed|] eqn:W; [|discriminate H]. binv H.
  destruct (opt_eqb _ _ _) eqn:O in H; [|discriminate H]. injection H as ->. apply (opt_eqb_eq text_eqb text_eqb_eq) in O.
  exists s1, r, s2, r', signed. split; auto. split; auto. split; auto. cbv zeta. split; auto. split; auto. apply bytes_of_ok. auto.
Qed.
Definition demo_reply (body : text) : option (N * bytes) :=
  direct_reply mem_step plain_env [] (fun _ _ => true) long_mac (fun _ _ _ => true) (fun _ b => b) default_negotiator (demo_provider one_login) op_url 1 1700000004 secret0 [1] body.
Definition delivered : dict text text :=
  match one_login with
  | [i] => arrived (serve mem_step plain_env [] (fun _ _ => true) long_mac (fun _ _ _ => true) (fun _ b => b) default_negotiator i mem_init)
  | _ => []
  end.
Definition demo_net (posts : list post) : option (N * bytes) := match posts with (_, body) :: _ => demo_reply body | [] => None end.
Example C59_example :
  consumer_says delivered demo_net None back_url = accepted /\
  wire_value delivered (u "sreg.nickname") = Some (u "me") /\
  asserted plain_env [] (fun _ _ => true) one_login delivered.
Proof.
  split; [vm_compute; reflexivity|]. split; [vm_compute; reflexivity|].
  destruct (fromPostArgs [] delivered) as [m|] eqn:F; [|vm_compute in F; discriminate F].
  destruct (complete plain_env [] long_mac (fun _ => None) demo_net (fun _ => Raise DiscoveryFailure) mem_step 1700000005 m (Some demo_endpoint) back_url (mkCst None [])) as [cs' [[ep' m' fields|?|?|?]|?]] eqn:H;
    try (exfalso; vm_compute in F; injection F as <-; vm_compute in H; discriminate H).
  refine (C59_accepted_was_asserted mem_step plain_env [] (fun _ _ => true) long_mac (fun _ _ _ => true) (fun _ b => b) default_negotiator mem_step (fun _ => None) demo_net (fun _ => Raise DiscoveryFailure)
    (fun ty k => ty = u "HMAC-SHA1" /\ k = secret0 20) one_login mem_init delivered m (Some demo_endpoint) back_url 1700000005 (mkCst None []) cs' ep' m' fields op_url 1 1700000004 secret0 [1] _ F H _ _ _ _ _).
  - split; [|split]; [split; intros; discriminate| |].
    + apply distinct_NoDup. vm_compute. reflexivity.
    + intros a I. vm_compute in I. intuition discriminate.
  - constructor; [|constructor]. split; [apply distinct_NoDup; vm_compute; reflexivity|].
    intros r. destruct (addExtension r SREG_URI (u "sreg") [(u "nickname", u "me")]) as [r'|] eqn:A; [|constructor].
    eapply ext_more; [constructor| | | |exact A]; [vm_compute; discriminate|vm_compute; intuition discriminate|constructor; [intros []|constructor]].
  - intros server hd st st' a _ X. discriminate X.
  - intros hd s' a X. cbn [mem_step] in X. unfold mem_get, getServerAssocs in X. fold (demo_provider one_login) in X.
    assert (forallb (fun p => text_eqb (a_type (snd p)) (u "HMAC-SHA1") && text_eqb (a_secret (snd p)) (secret0 20))
              match dget text_eqb dumb_key (m_assocs (demo_provider one_login)) with Some d => d | None => [] end = true) as D by (vm_compute; reflexivity).
    revert X D. generalize (demo_provider one_login). intros st X D. destruct (dget text_eqb dumb_key (m_assocs st)) as [d|]; [|discriminate X].
    apply pair_equal_spec in X as (_ & X). injection X as X. apply (dget_In text_eqb text_eqb_eq) in X. rewrite forallb_forall in D.
    apply D in X. apply andb_true_iff in X as (X & Y). split; apply text_eqb_eq; assumption.
  - intros server body _. reflexivity.
  - clear. intros a signed sig (Ht & Hk) Ws Wg _. rewrite Ht, Hk. clear a Ht Hk.
    set (first := hd (Direct [] [] 0 0 secret0 []) one_login).
    assert (match wire_value delivered (u "signed") with
            | Some s => match bytes_of delivered s, demo_signs first mem_init (u "HMAC-SHA1") (secret0 20) with Ok b, Ok b' => text_eqb b b' | _, _ => false end
            | None => false end = true) as X by (vm_compute; reflexivity).
    rewrite Ws in X. destruct (bytes_of delivered signed) as [b|] eqn:B; [|discriminate X].
    destruct (demo_signs first mem_init (u "HMAC-SHA1") (secret0 20)) as [b'|] eqn:B'; [|discriminate X]. apply text_eqb_eq in X. subst b'.
    exists b. split; [apply bytes_of_ok; exact B|]. exists [], first, []. split; [reflexivity|]. apply demo_signs_ok. exact B'.
Qed.
