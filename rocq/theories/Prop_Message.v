(** Properties C11-C16 of openid/message.py. *)
From Coq Require Import Lia.
From Verif Require Import Py PyFacts KVForm Message MessageFacts MessageWire MessageParse MessageSpec MessageRound.
Local Arguments u : simpl never.

(** ** C11: aliases stay one-to-one *)
Lemma ns_history_wf ops : wf_ns (ns_history ops).
Proof.
  unfold ns_history. generalize empty_nsmap wf_ns_empty. induction ops as [|o ops IH]; intros m W; simpl; auto.
  apply IH. destruct o as [uri al i|uri]; simpl.
  - destruct (addAlias m uri al i) as [m' r] eqn:E. eapply addAlias_wf; eauto.
  - destruct (add_wf m uri W) as (m' & a & E & W' & _). rewrite E. auto.
Qed.

Theorem C11_aliases_one_to_one :
  forall ops, let m := ns_history ops in
    (forall al uri, getNamespaceURI m al = Some uri <-> getAlias m uri = Some al) /\
    (forall al uri uri', getNamespaceURI m al = Some uri -> getNamespaceURI m al = Some uri' -> uri = uri') /\
    (forall al al' uri, getNamespaceURI m al = Some uri -> getNamespaceURI m al' = Some uri -> al = al') /\
    (forall a uri, getNamespaceURI m (Al a) = Some uri -> ~ In a OPENID_PROTOCOL_FIELDS /\ ~ In 46 a).
Proof.
  intros ops m. pose proof (ns_history_wf ops) as W. fold m in W. split; [apply W|]. split; [congruence|]. split.
  - intros al al' uri H1 H2. apply (wn_inv _ W) in H1, H2. congruence.
  - intros a uri H. apply (wn_ok _ W) in H. simpl in H. apply orb_false_iff in H as [H1 H2].
    split; [apply mem_text_false|apply memc_false]; auto.
Qed.
Print Assumptions C11_aliases_one_to_one.

(** A failed operation leaves the map as it was; a successful one adds exactly the
    pair asked for and keeps every other lookup; and it succeeds exactly when the
    alias is legal, and neither the alias nor the URI is taken otherwise. *)
Theorem C11_failure_leaves_map_unchanged :
  forall m uri al i m' e, addAlias m uri al i = (m', Raise e) -> m' = m.
Proof. intros m uri al i m' e H. destruct (addAlias_cases m uri al i) as [(e' & C & _)|(C & _)]; congruence. Qed.
Print Assumptions C11_failure_leaves_map_unchanged.

Theorem C11_success_adds_exactly_the_pair :
  forall m uri al i m' b, addAlias m uri al i = (m', Ok b) ->
    b = al /\
    (forall x, getNamespaceURI m' x = if alias_eqb x al then Some uri else getNamespaceURI m x) /\
    (forall x, getAlias m' x = if text_eqb x uri then Some al else getAlias m x) /\
    (forall x, isImplicit m' x = (text_eqb x uri && i) || isImplicit m x).
Proof.
  intros m uri al i m' b H. apply addAlias_Ok in H as (-> & _ & _ & A1 & A2 & A3 & _).
  split; auto. split; auto. split; auto. intros x. unfold isImplicit. rewrite A3. destruct i.
  - unfold mem_text. rewrite existsb_app. simpl. rewrite orb_false_r, andb_true_r. apply orb_comm.
  - rewrite andb_false_r. auto.
Qed.
Print Assumptions C11_success_adds_exactly_the_pair.

Theorem C11_success_condition :
  forall ops uri al i, let m := ns_history ops in
    (exists m' b, addAlias m uri al i = (m', Ok b)) <->
    match al with Null => True | Al a => ~ In a OPENID_PROTOCOL_FIELDS /\ ~ In 46 a end /\
    (getNamespaceURI m al = None \/ getNamespaceURI m al = Some uri) /\
    (getAlias m uri = None \/ getAlias m uri = Some al) /\ isImplicit m uri = false.
Proof.
  intros ops uri al i m.
  assert (bad_alias al = false <-> match al with Null => True | Al a => ~ In a OPENID_PROTOCOL_FIELDS /\ ~ In 46 a end) as B.
  { destruct al as [|a]; cbn [bad_alias]; [tauto|]. rewrite orb_false_iff, mem_text_false, memc_false. tauto. }
  rewrite <- B. split.
  - intros (m' & b & H). destruct (addAlias_cases m uri al i) as [(e' & C & _)|(C & C1 & C2 & C3 & C4)]; [congruence|].
    repeat split; auto. apply mem_text_false; auto.
  - intros (H1 & H2 & H3 & H4). unfold addAlias. rewrite H1.
    assert (match getNamespaceURI m al with Some c => negb (text_eqb c uri) | None => false end = false) as ->.
    { destruct H2 as [->| ->]; auto. rewrite text_eqb_refl. auto. }
    assert (match getAlias m uri with Some a => negb (alias_eqb a al) | None => false end = false) as ->.
    { destruct H3 as [->| ->]; auto. rewrite alias_eqb_refl. auto. }
    unfold isImplicit in H4. rewrite H4. eauto.
Qed.
Print Assumptions C11_success_condition.

(** The library wide registry of default aliases is one-to-one as well. *)
Definition register_step (reg : dict text text) (e : text * text) : dict text text :=
  match registerNamespaceAlias reg (fst e) (snd e) with Some r => r | None => reg end.
Theorem C11_registry_one_to_one :
  forall calls a b uri, let reg := fold_left register_step calls [] in
    dget text_eqb a reg = Some uri -> dget text_eqb b reg = Some uri -> a = b.
Proof.
  intros calls.
  assert (forall reg, NoDup (dkeys reg) -> (forall a b uri, dget text_eqb a reg = Some uri -> dget text_eqb b reg = Some uri -> a = b) ->
     NoDup (dkeys (fold_left register_step calls reg)) /\
     forall a b uri, dget text_eqb a (fold_left register_step calls reg) = Some uri ->
                     dget text_eqb b (fold_left register_step calls reg) = Some uri -> a = b) as G.
  { induction calls as [|[uri al] calls IH]; intros reg Hn H; cbn [fold_left]; auto. apply IH; unfold register_step, registerNamespaceAlias; cbn [fst snd];
    destruct (opt_eqb text_eqb _ _); auto; destruct (mem_text uri (map snd reg)) eqn:M; auto; destruct (dhas text_eqb al reg) eqn:D; auto.
    - apply NoDup_dset; auto using text_eqb_eq.
    - apply mem_text_false in M.
      assert (forall x, dget text_eqb x reg <> Some uri) as NU.
      { intros x Hx. apply M. apply (dget_In text_eqb text_eqb_eq) in Hx. apply (in_map snd) in Hx. exact Hx. }
      intros a b n. rewrite !(dget_dset text_eqb text_eqb_eq).
      destruct (text_eqb a al) eqn:Ea; destruct (text_eqb b al) eqn:Eb; intros H1 H2.
      + apply text_eqb_eq in Ea, Eb. congruence.
      + inv H1. exfalso. eapply NU; eauto.
      + inv H2. exfalso. eapply NU; eauto.
      + eauto. }
  intros a b uri reg. apply (G []); [constructor|]. intros ? ? ?. discriminate.
Qed.
Print Assumptions C11_registry_one_to_one.

Example C11_example :
  let ops := [OpAddAlias (u "http://a/") (Al (u "a")) false; OpAdd (u "http://b/"); OpAddAlias (u "http://b/") (Al (u "a")) false;
              OpAddAlias (u "http://c/") (Al (u "mode")) true; OpAddAlias OPENID2_NS Null false] in
  getNamespaceURI (ns_history ops) (Al (u "a")) = Some (u "http://a/") /\
  getAlias (ns_history ops) (u "http://b/") = Some (Al (u "ext0")) /\
  getAlias (ns_history ops) (u "http://c/") = None /\
  getNamespaceURI (ns_history ops) Null = Some OPENID2_NS.
Proof. vm_compute. auto. Qed.

(** ** C12: automatic aliases *)
Theorem C12_add_succeeds :
  forall ops uri, let m := ns_history ops in
    exists m' al, add m uri = (m', Ok al) /\ getAlias m' uri = Some al /\
      (forall x, x <> uri -> getAlias m' x = getAlias m x) /\
      (forall x n, getNamespaceURI m x = Some n -> getNamespaceURI m' x = Some n) /\
      match getAlias m uri with
      | Some a => al = a /\ m' = m
      | None => (exists i, al = Al (u "ext" ++ str_of_N i)) /\ getNamespaceURI m al = None
      end.
Proof.
  intros ops uri m. pose proof (ns_history_wf ops) as W. fold m in W.
  destruct (add_wf m uri W) as (m2 & a2 & E2 & W2 & G1 & G2 & G3 & G4 & G5 & G6).
  exists m2, a2. split; auto. split; auto. split; auto. split; auto.
  destruct (add_total m uri W) as [(a & E & R)|(E & j & m' & A & B & C & _)]; rewrite E.
  - rewrite R in E2. inv E2. auto.
  - rewrite A in E2. inv E2. split; auto. exists j. reflexivity.
Qed.
Print Assumptions C12_add_succeeds.
Example C12_example :
  snd (add (ns_history [OpAddAlias (u "http://x/") (Al (u "ext0")) false; OpAdd (u "http://y/")]) (u "http://z/")) = Ok (Al (u "ext2")) /\
  snd (add (ns_history [OpAddAlias (u "http://x/") (Al (u "ext0")) false; OpAdd (u "http://y/")]) (u "http://y/")) = Ok (Al (u "ext1")).
Proof. vm_compute. auto. Qed.

(** ** C13: arguments behave like a map *)
Theorem C13_set_then_get :
  forall reg m n k v m', built reg m -> setArg m n k v = Ok m' ->
    getArg m' n k = Ok (Some v) /\
    (forall n' k', (place m n', k') <> (place m n, k) -> getArg m' n' k' = getArg m n' k') /\
    getOpenIDNamespace m' = getOpenIDNamespace m.
Proof.
  intros reg m n k v m' B H. assert (built reg m') as B' by (eapply b_set; eauto).
  pose proof (setArg_null _ _ _ _ _ H) as V. pose proof (built_wf _ _ B) as W.
  destruct (setArg_inv _ _ _ _ _ W H) as (x & F & A & _ & _).
  pose proof (place_ok reg m n B) as P. destruct (place m n) as [y|] eqn:Pn.
  2:{ destruct P as (e & P). congruence. }
  rewrite F in P. injection P as <-.
  split; [|split; auto].
  - pose proof (getArg_place reg m' n k B') as G. rewrite (place_null _ _ _ V), Pn in G. rewrite G, A.
    rewrite (dget_dset_same akey_eqb akey_eqb_eq). auto.
  - intros n' k' Hne. pose proof (getArg_place reg m' n' k' B') as G'. pose proof (getArg_place reg m n' k' B) as G.
    rewrite (place_null _ _ _ V) in G'. destruct (place m n') as [y|] eqn:Py.
    + rewrite G, G', A. f_equal. apply (dget_dset_other akey_eqb akey_eqb_eq). congruence.
    + unfold getArg. rewrite (fixNS_ext m' m n' V). destruct (fixNS m n') as [z|e] eqn:Z; auto.
      pose proof (place_ok reg m n' B) as P. rewrite Py in P. destruct P as (e & P). congruence.
Qed.
Print Assumptions C13_set_then_get.

(** Setting fails only if the namespace means nothing. *)
Theorem C13_set_succeeds :
  forall reg m n k v, built reg m ->
    (exists m', setArg m n k v = Ok m') <-> place m n <> None.
Proof.
  intros reg m n k v B. pose proof (place_ok reg m n B) as P. pose proof (built_wf _ _ B) as W. split.
  - intros (m' & H). destruct (setArg_inv _ _ _ _ _ W H) as (x & F & _). destruct (place m n); [discriminate|].
    destruct P as (e & P). congruence.
  - intros H. destruct (place m n) as [x|]; [|contradiction].
    destruct (setArg_total m n k v x W P) as (m' & E & _). eauto.
Qed.
Print Assumptions C13_set_succeeds.

Theorem C13_delete :
  forall reg m n k, built reg m ->
    match delArg m n k with
    | Ok m' => (exists v, getArg m n k = Ok (Some v)) /\ getArg m' n k = Ok None /\
               (forall n' k', (place m n', k') <> (place m n, k) -> getArg m' n' k' = getArg m n' k')
    | Raise _ => place m n = None \/ getArg m n k = Ok None
    end.
Proof.
  intros reg m n k B. pose proof (built_wf _ _ B) as W. destruct (delArg m n k) as [m'|e] eqn:H.
  - assert (built reg m') as B' by (eapply b_del; eauto).
    destruct (delArg_inv _ _ _ _ W H) as (x & F & I & A & N & _).
    assert (getOpenIDNamespace m' = getOpenIDNamespace m) as V by (unfold getOpenIDNamespace; rewrite N; auto).
    pose proof (place_ok reg m n B) as P. destruct (place m n) as [y|] eqn:Pn.
    2:{ destruct P as (e & P). congruence. }
    rewrite F in P. injection P as <-. pose proof (getArg_place reg m n k B) as G0. rewrite Pn in G0.
    split; [|split].
    + rewrite G0. apply (dhas_In akey_eqb akey_eqb_eq) in I. unfold dhas in I. destruct (dget _ _ _); [eauto|discriminate].
    + pose proof (getArg_place reg m' n k B') as G. rewrite (place_null _ _ _ V), Pn in G. rewrite G, A.
      rewrite (dget_ddel_same akey_eqb akey_eqb_eq); auto. apply W.
    + intros n' k' Hne. pose proof (getArg_place reg m' n' k' B') as G'. pose proof (getArg_place reg m n' k' B) as G.
      rewrite (place_null _ _ _ V) in G'. destruct (place m n') as [y|] eqn:Py.
      * rewrite G, G', A. f_equal. apply (dget_ddel_other akey_eqb akey_eqb_eq). congruence.
      * unfold getArg. rewrite (fixNS_ext m' m n' V). destruct (fixNS m n') as [z|e] eqn:Z; auto.
        pose proof (place_ok reg m n' B) as P. rewrite Py in P. destruct P as (e & P). congruence.
  - unfold delArg in H. pose proof (place_ok reg m n B) as P. destruct (place m n) as [y|] eqn:Pn; auto.
    right. rewrite P in H. cbn [bind] in H. unfold getArg. rewrite P. cbn [bind].
    unfold dhas in H. destruct (dget akey_eqb (y, k) (margs m)); [discriminate|auto].
Qed.
Print Assumptions C13_delete.

(** [updateArgs] overrides with the last value given for a key. *)
Fixpoint last_value (k : text) (kv : list (text * text)) : option text :=
  match kv with
  | [] => None
  | (k', v) :: r => match last_value k r with Some w => Some w | None => if text_eqb k k' then Some v else None end
  end.
Theorem C13_update :
  forall reg m n kv m', built reg m -> updateArgs m n kv = Ok m' ->
    (forall k, getArg m' n k = match last_value k kv with Some v => Ok (Some v) | None => getArg m n k end) /\
    (forall n' k', place m n' <> place m n -> getArg m' n' k' = getArg m n' k').
Proof.
  intros reg m n kv m' B H. unfold updateArgs in H. binv H. rename a into x.
  assert (place m n = Some x) as Pn.
  { pose proof (place_ok reg m n B) as P. destruct (place m n); [congruence|]. destruct P as (e & P). congruence. }
  assert (x <> Uri sreg_lit) as Xs by (eapply fixNS_out; eauto).
  assert (forall m n, place m n = Some x -> place m (nsarg_of x) = Some x) as Px.
  { clear -Xs. intros m n _. destruct x as [|t]; auto. simpl. destruct (text_eqb t (u "sreg")) eqn:Q; auto.
    apply text_eqb_eq in Q. subst. contradiction. }
  revert m B Pn E H. induction kv as [|[k v] kv IH]; intros m B Pn E H; simpl in H.
  - inv H. simpl. auto.
  - binv H. rename a into m1. rename E0 into S1.
    destruct (C13_set_then_get reg m (nsarg_of x) k v m1 B S1) as (A1 & A2 & A3).
    assert (built reg m1) as B1 by (eapply b_set; eauto).
    assert (place m1 n = Some x) as Pn1 by (rewrite (place_null _ _ _ A3); auto).
    destruct (IH m1 B1 Pn1) as (I1 & I2); auto.
    { rewrite <- E. apply fixNS_ext; auto. }
    split.
    + intros k'. rewrite I1. cbn [last_value]. destruct (last_value k' kv); auto.
      pose proof (getArg_place reg m1 n k' B1) as G1. rewrite Pn1 in G1. rewrite G1.
      pose proof (getArg_place reg m1 (nsarg_of x) k' B1) as G2. rewrite (Px m1 n Pn1) in G2. rewrite <- G2.
      destruct (text_eqb k' k) eqn:Q.
      * apply text_eqb_eq in Q. subst. rewrite A1. auto.
      * apply text_eqb_neq in Q. rewrite A2 by congruence.
        pose proof (getArg_place reg m n k' B) as G3. rewrite Pn in G3. rewrite G3.
        pose proof (getArg_place reg m (nsarg_of x) k' B) as G4. rewrite (Px m n Pn) in G4. auto.
    + intros n' k' Hne. rewrite I2 by (rewrite !(place_null _ _ _ A3); auto). apply A2. rewrite (Px m n Pn). congruence.
Qed.
Print Assumptions C13_update.

(** The read accessors agree with each other. *)
Theorem C13_readers_agree :
  forall reg m n k, built reg m -> place m n <> None ->
    exists o d, getArg m n k = Ok o /\
      hasKey m n k = Ok (match o with Some _ => true | None => false end) /\
      getArgs m n = Ok d /\ dget text_eqb k d = o /\
      getArgReq m n k = match o with Some v => Ok v | None => Raise KeyError end /\
      forall dflt, getArgDef m n k dflt = Ok (match o with Some v => v | None => dflt end).
Proof.
  intros reg m n k B H. pose proof (place_ok reg m n B) as P. destruct (place m n) as [x|]; [|contradiction].
  unfold getArgReq, getArgDef, getArg, hasKey, getArgs. rewrite P. cbn [bind]. do 2 eexists. split; [reflexivity|].
  split; [reflexivity|]. split; [reflexivity|]. split; [|split].
  - clear. induction (margs m) as [|[[y k'] v] l IH]; auto. cbn [filter fst snd]. cbn [dget]. unfold akey_eqb at 1. cbn [fst snd].
    assert (ns_eqb x y = ns_eqb y x) as ->. { destruct x, y; simpl; auto. apply text_eqb_sym. }
    destruct (ns_eqb y x) eqn:Q.
    + cbn [map fst snd dget andb]. rewrite IH. auto.
    + cbn [andb]. auto.
  - destruct (dget akey_eqb (x, k) (margs m)); auto.
  - intros dflt. destruct (dget akey_eqb (x, k) (margs m)); auto.
Qed.
Print Assumptions C13_readers_agree.
Example C13_example :
  exists m m', newMessage (Some OPENID2_NS) None = Ok m /\
    setArg m (NS (u "http://example.com/ext")) (u "a") (u "1") = Ok m' /\
    getArg m' (NS (u "http://example.com/ext")) (u "a") = Ok (Some (u "1")) /\ getArg m' OPENID_NS (u "a") = Ok None.
Proof. do 2 eexists. split; [vm_compute; reflexivity|]. split; [vm_compute; reflexivity|]. vm_compute. auto. Qed.

(** ** C14: parsing loses and invents nothing *)
Theorem C14_parse_exact :
  forall reg args m,
    good_registry reg -> NoDup (map fst args) ->
    (forall a, ~ In (u "openid.ns." ++ a, u "sreg") args) ->
    fromPostArgs reg args = Ok m ->
    (* every OpenID parameter that is not a namespace declaration *)
    (forall k v, In (u "openid." ++ k, v) args -> k <> u "ns" -> startswith k (u "ns.") = false ->
       getAliasedArg m k = Ok (Some v)) /\
    (* every other parameter *)
    (forall k v, In (k, v) args -> startswith k (u "openid.") = false -> getArg m BARE_NS k = Ok (Some v)) /\
    (* declarations *)
    (forall a n, In (u "openid.ns." ++ a, n) args -> getNamespaceURI (mns m) (Al a) = Some n) /\
    (forall n, In (u "openid.ns", n) args -> getOpenIDNamespace m = Some n) /\
    (* nothing else *)
    (forall n k v, getArg m n k = Ok (Some v) -> exists name, getKey m n k = Ok (Some name) /\ In (name, v) args) /\
    (* and writing it out again gives the same parameters *)
    (forall k, dget text_eqb k (toPostArgs m) = dget text_eqb k args).
Proof.
  intros reg args m (R1 & R2) Hn Hs H. assert (built reg m) as B by (eapply b_parse; eauto).
  destruct (fromPostArgs_sound reg args m R1 Hn Hs H) as (W & m0 & F & P & N & U & Ba).
  set (oargs := openid_part args) in *.
  assert (NoDup (dkeys oargs)) as ND by (apply NoDup_openid_part; auto).
  assert (getOpenIDNamespace m = Some (oid_of oargs)) as V.
  { unfold getOpenIDNamespace. rewrite N. exact (pa_null _ _ _ P). }
  assert (oid_of oargs <> sreg_lit) as Vs by (apply allowed_not_sreg; exact (pa_oid _ _ _ P)).
  assert (forall al k v, entry_ok al k -> In (u "openid." ++ untag al k, v) args ->
             dget akey_eqb (tgt m0 (oid_of oargs) al k) (margs m) = Some v) as IN.
  { intros al k v He Hin. apply In_openid_part in Hin. pose proof (pa_in _ _ _ P al k v He Hin) as X. unfold tgt in *.
    destruct (getNS m0 al); rewrite U; auto. }
  assert (forall al k, entry_ok al k -> keyname m (fst (tgt m0 (oid_of oargs) al k)) (snd (tgt m0 (oid_of oargs) al k)) = u "openid." ++ untag al k) as KN.
  { intros al k He. unfold tgt. destruct (getNS m0 al) as [n|] eqn:E; cbn [fst snd keyname]; rewrite N.
    - pose proof E as E'. apply (wn_inv _ (wm_ns _ (pa_wf _ _ _ P))) in E'. rewrite E'. destruct al; auto.
    - pose proof (pa_null _ _ _ P) as E'. apply (wn_inv _ (wm_ns _ (pa_wf _ _ _ P))) in E'. rewrite E'. auto. }
  assert (forall n k v, dget akey_eqb (Uri n, k) (margs m) = Some v -> exists al k0, entry_ok al k0 /\
             In (u "openid." ++ untag al k0, v) args /\ tgt m0 (oid_of oargs) al k0 = (Uri n, k)) as OUT.
  { intros n k v Hk. rewrite U in Hk. apply (pa_out _ _ _ P) in Hk as (al & k0 & He & Hin & T). exists al, k0.
    split; auto. split; auto. apply In_openid_part; auto. }
  assert (clean_names m) as C.
  { assert (forall n k, In (n, k) (dkeys (margs m)) -> exists v, dget akey_eqb (n, k) (margs m) = Some v) as K.
    { intros n k Hin. apply (dhas_In akey_eqb akey_eqb_eq) in Hin. unfold dhas in Hin. destruct (dget _ _ _); [eauto|discriminate]. }
    constructor.
    - intros n k n' k' H1 H2 E. apply K in H1 as (v & H1), H2 as (v' & H2).
      destruct n as [|x], n' as [|y].
      + cbn [keyname] in E. congruence.
      + apply Ba in H1 as [_ H1]. apply OUT in H2 as (al & k0 & He & _ & T). pose proof (KN al k0 He) as Q. rewrite T in Q.
        cbn [fst snd] in Q. rewrite Q in E. cbn [keyname] in E. subst k. unfold is_bare in H1. rewrite startswith_app in H1. discriminate.
      + apply Ba in H2 as [_ H2]. apply OUT in H1 as (al & k0 & He & _ & T). pose proof (KN al k0 He) as Q. rewrite T in Q.
        cbn [fst snd] in Q. rewrite Q in E. cbn [keyname] in E. subst k'. unfold is_bare in H2. rewrite startswith_app in H2. discriminate.
      + apply OUT in H1 as (al & k0 & He & _ & T). pose proof (KN al k0 He) as Q. rewrite T in Q.
        apply OUT in H2 as (al' & k0' & He' & _ & T'). pose proof (KN al' k0' He') as Q'. rewrite T' in Q'.
        cbn [fst snd] in Q, Q'. rewrite Q, Q' in E. apply app_inv_head in E. apply untag_inj in E as [<- <-]; auto. congruence.
    - intros n k x al H1 _ E. apply K in H1 as (v & H1). destruct n as [|y].
      + apply Ba in H1 as [_ H1]. cbn [keyname] in E. subst k. unfold is_bare in H1. destruct al; discriminate.
      + apply OUT in H1 as (al' & k0 & He & _ & T). pose proof (KN al' k0 He) as Q. rewrite T in Q. cbn [fst snd] in Q. rewrite Q in E.
        assert (read_key (untag al' k0) = RArg al' k0) as RK by (apply read_key_RArg; auto).
        destruct al as [|a]; cbn [ns_field] in E.
        * assert (u "openid." ++ untag al' k0 = u "openid." ++ u "ns") as E' by exact E. apply app_inv_head in E'. rewrite E' in RK. discriminate.
        * assert (u "openid." ++ untag al' k0 = u "openid." ++ u "ns." ++ a) as E' by exact E. apply app_inv_head in E'.
          rewrite E' in RK. assert (read_key (u "ns." ++ a) = RDecl a) as RK' by (apply read_key_RDecl; auto). congruence. }
  split; [|split; [|split; [|split; [|split]]]].
  - intros k v Hin Hk1 Hk2. destruct (read_key k) as [|a|al k0] eqn:RK.
    + apply read_key_RNs in RK. contradiction.
    + apply read_key_RDecl in RK. subst k. rewrite startswith_app in Hk2. discriminate.
    + apply read_key_RArg in RK as [He ->]. pose proof (IN al k0 v He Hin) as X.
      unfold getAliasedArg. apply text_eqb_neq in Hk1. rewrite Hk1, Hk2.
      assert (getArg m (match getOpenIDNamespace m with Some n => NS n | None => NoneNS end) (untag al k0) =
              Ok (dget akey_eqb (Uri (oid_of oargs), untag al k0) (margs m))) as GO.
      { rewrite V. rewrite getArg_ns; auto. }
      unfold tgt in X. destruct al as [|a]; cbn [untag] in *.
      * destruct He as [He _]. apply cut_None in He. rewrite He. rewrite GO. f_equal.
        pose proof (pa_null _ _ _ P) as PN. rewrite PN in X. auto.
      * destruct He as [He _]. rewrite (cut_app 46 a k0 He). rewrite N. destruct (getNS m0 (Al a)) as [n|] eqn:G.
        -- rewrite getArg_ns; [f_equal; auto|]. intros ->. eapply (pa_sreg _ _ _ P); eauto.
        -- rewrite GO. f_equal. auto.
  - intros k v Hin Hb. rewrite getArg_bare. f_equal. apply Ba. auto.
  - intros a n Hin. rewrite N. apply (pa_ns _ _ _ P). left. apply In_openid_part. exact Hin.
  - intros n Hin. rewrite V. f_equal. unfold oid_of. rewrite (In_dget text_eqb text_eqb_eq (u "ns") n); auto.
    apply In_openid_part. exact Hin.
  - intros n k v Hk. pose proof (place_ok reg m n B) as Pl. destruct (place m n) as [x|] eqn:Px.
    2:{ destruct Pl as (e & Pl). unfold getArg in Hk. rewrite Pl in Hk. discriminate. }
    unfold getArg in Hk. rewrite Pl in Hk. cbn [bind] in Hk. injection Hk as Hk.
    unfold getKey. rewrite Pl. cbn [bind]. destruct x as [|x].
    + exists k. split; auto. apply Ba in Hk. tauto.
    + apply OUT in Hk as (al & k0 & He & Hin & T). exists (u "openid." ++ untag al k0). split; auto.
      pose proof (KN al k0 He) as Q. rewrite T in Q. cbn [fst snd keyname] in Q. rewrite <- Q.
      destruct (getAlias (mns m) x) as [[|a]|] eqn:G; auto. discriminate.
  - intros k. assert (forall (a b : option text), (forall v, a = Some v <-> b = Some v) -> a = b) as OE.
    { intros [a|] [b|] Hab; auto.
      - symmetry. apply Hab. auto.
      - destruct (Hab a) as [K _]. discriminate K; auto.
      - destruct (Hab b) as [_ K]. discriminate K; auto. }
    apply OE. intros v. rewrite (toPostArgs_spec m k v W C).
    assert (dget text_eqb k args = Some v <-> In (k, v) args) as ->.
    { split; [apply (dget_In text_eqb text_eqb_eq)|apply (In_dget text_eqb text_eqb_eq); auto]. }
    unfold explicit. rewrite N. split.
    + intros [(al & (X1 & X2) & ->)|(n & k' & X & ->)].
      * apply (wn_inv _ (wm_ns _ (pa_wf _ _ _ P))) in X1. destruct al as [|a]; cbn [ns_field].
        -- pose proof (pa_null _ _ _ P) as PN. assert (v = oid_of oargs) as -> by congruence.
           destruct (dget text_eqb (u "ns") oargs) as [q|] eqn:G.
           ++ assert (oid_of oargs = q) as -> by (unfold oid_of; rewrite G; auto).
              apply (dget_In text_eqb text_eqb_eq) in G. apply In_openid_part in G. exact G.
           ++ exfalso. apply X2. apply (pa_imp _ _ _ P). auto.
        -- pose proof X1 as X1'. apply (pa_ns _ _ _ P) in X1 as [X1|(X3 & _)].
           ++ apply In_openid_part in X1. exact X1.
           ++ exfalso. apply X2. apply (pa_imp _ _ _ P). right. eauto.
      * destruct n as [|n]; [apply Ba in X; tauto|]. apply OUT in X as (al & k0 & He & Hin & T).
        pose proof (KN al k0 He) as Q. rewrite T in Q. cbn [fst snd] in Q. rewrite Q. auto.
    + intros Hin. destruct (split_openid k) as [r|] eqn:S.
      * apply split_openid_Some in S as ->. destruct (read_key r) as [|a|al k0] eqn:RK.
        -- left. exists Null. apply read_key_RNs in RK as ->. split; [|reflexivity].
           assert (dget text_eqb (u "ns") oargs = Some v) as G by (apply (In_dget text_eqb text_eqb_eq); auto; apply In_openid_part; auto).
           assert (oid_of oargs = v) as <- by (unfold oid_of; rewrite G; auto). split.
           ++ apply (wn_inv _ (wm_ns _ (pa_wf _ _ _ P))). exact (pa_null _ _ _ P).
           ++ intros I. apply (pa_imp _ _ _ P) in I as [[_ I]|(a & _ & I)]; [congruence|].
              apply (wn_inv _ (wm_ns _ (pa_wf _ _ _ P))) in I. pose proof (pa_null _ _ _ P) as PN.
              apply (wn_inv _ (wm_ns _ (pa_wf _ _ _ P))) in PN. congruence.
        -- left. exists (Al a). apply read_key_RDecl in RK as ->. split; [|reflexivity].
           assert (getNS m0 (Al a) = Some v) as G by (apply (pa_ns _ _ _ P); left; apply In_openid_part; auto). split.
           ++ apply (wn_inv _ (wm_ns _ (pa_wf _ _ _ P))). auto.
           ++ intros I. apply (pa_imp _ _ _ P) in I as [[I _]|(b & I1 & I2)].
              ** subst v. apply (wn_inv _ (wm_ns _ (pa_wf _ _ _ P))) in G. pose proof (pa_null _ _ _ P) as PN.
                 apply (wn_inv _ (wm_ns _ (pa_wf _ _ _ P))) in PN. congruence.
              ** assert (a = b) as <-. { apply (wn_inv _ (wm_ns _ (pa_wf _ _ _ P))) in G, I2. congruence. }
                 eapply I1. apply In_openid_part. exact Hin.
        -- right. apply read_key_RArg in RK as [He ->]. pose proof (IN al k0 v He Hin) as X.
           exists (fst (tgt m0 (oid_of oargs) al k0)), (snd (tgt m0 (oid_of oargs) al k0)). split.
           ++ rewrite <- surjective_pairing. auto.
           ++ symmetry. apply KN; auto.
      * apply split_openid_None in S. right. exists Bare, k. split; auto. apply Ba. auto.
Qed.
Print Assumptions C14_parse_exact.

(** When a query parses. *)
Theorem C14_parse_succeeds :
  forall reg args,
    good_registry reg -> NoDup (map fst args) ->
    (forall a, ~ In (u "openid.ns." ++ a, u "sreg") args) ->
    let version := match dget text_eqb (u "openid.ns") args with Some v => v | None => OPENID1_NS end in
    In version [OPENID1_NS; THE_OTHER_OPENID1_NS; OPENID2_NS] ->
    (* declared aliases are legal, and declare different namespaces other than the version *)
    (forall a n, In (u "openid.ns." ++ a, n) args -> ~ In a OPENID_PROTOCOL_FIELDS /\ ~ In 46 a /\ n <> version) ->
    (forall a b n, In (u "openid.ns." ++ a, n) args -> In (u "openid.ns." ++ b, n) args -> a = b) ->
    (* likewise the library's own aliases used without declaration in OpenID 1 *)
    (forall a n k v, In version OPENID1_NAMESPACES -> dget text_eqb a reg = Some n ->
        In (u "openid." ++ a ++ u "." ++ k, v) args -> (forall n', ~ In (u "openid.ns." ++ a, n') args) ->
        ~ In a OPENID_PROTOCOL_FIELDS /\ n <> version /\ forall b, ~ In (u "openid.ns." ++ b, n) args) ->
    exists m, fromPostArgs reg args = Ok m.
Proof.
  intros reg args (R1 & R2) Hn Hs version Hv Hd1 Hd2 Hu.
  pose proof (fromPostArgs_spec reg args Hn) as S.
  assert (oid_of (openid_part args) = version) as OV.
  { unfold oid_of, version. assert (dget text_eqb (u "ns") (openid_part args) = dget text_eqb (u "openid.ns") args) as ->; auto.
    destruct (dget text_eqb (u "openid.ns") args) as [v|] eqn:E.
    - apply (In_dget text_eqb text_eqb_eq); [apply NoDup_openid_part; auto|]. apply In_openid_part.
      apply (dget_In text_eqb text_eqb_eq) in E. exact E.
    - apply (dget_None text_eqb text_eqb_eq). apply (dget_None text_eqb text_eqb_eq) in E. intros K. apply E.
      apply in_map_iff in K as ([r v] & K1 & K2). simpl in K1. subst r. apply In_openid_part in K2.
      apply (in_map fst) in K2. exact K2. }
  destruct (fromOpenIDArgs_complete reg (openid_part args)) as (m & E); auto.
  - apply NoDup_openid_part; auto.
  - intros a Hin. apply In_openid_part in Hin. exact (Hs a Hin).
  - rewrite OV. exact Hv.
  - rewrite OV. intros a n Hin. apply In_openid_part in Hin. destruct (Hd1 a n Hin) as (A & B & C). split; auto.
    cbn [bad_alias]. apply orb_false_iff. split; [apply mem_text_false|apply memc_false]; auto.
  - intros a b n Ha Hb. apply In_openid_part in Ha, Hb. eapply Hd2; eauto.
  - rewrite OV. intros a n O Rg (k & v & Hin) Hnd Hdot Hne. apply In_openid_part in Hin.
    destruct (Hu a n k v) as (A & B & C); auto.
    + apply mem_text_In. exact O.
    + intros n' Hn'. eapply Hnd. apply In_openid_part. exact Hn'.
    + split; [|split; auto].
      * cbn [bad_alias]. apply orb_false_iff. split; [apply mem_text_false|apply memc_false]; auto.
      * intros b Hb. apply In_openid_part in Hb. exact (C b Hb).
  - rewrite E in S. destruct S as (m' & S & _). eauto.
Qed.
Print Assumptions C14_parse_succeeds.

Definition a_query : list (text * text) :=
  [(u "openid.ns", OPENID2_NS); (u "openid.mode", u "id_res"); (u "openid.ns.ax", u "http://openid.net/srv/ax/1.0");
   (u "openid.ax.mode", u "fetch_request"); (u "openid.foo.bar", u "x"); (u "rp_nonce", u "7")].
Example C14_example :
  exists m, fromPostArgs [] a_query = Ok m /\ NoDup (map fst a_query) /\
    getAliasedArg m (u "ax.mode") = Ok (Some (u "fetch_request")) /\
    getArg m (NS (u "http://openid.net/srv/ax/1.0")) (u "mode") = Ok (Some (u "fetch_request")) /\
    getArg m OPENID_NS (u "foo.bar") = Ok (Some (u "x")).
Proof.
  eexists. split; [vm_compute; reflexivity|]. split.
  { repeat constructor; intros H; vm_compute in H; intuition discriminate. }
  vm_compute. auto.
Qed.

(** The exception for namespaces called 'sreg' in [C14_parse_exact] is needed: two
    parameters of such a query end up in one place and one is lost. *)
Theorem C64_parse_keeps_every_parameter_refuted :
  exists args m k v, NoDup (map fst args) /\ fromPostArgs [] args = Ok m /\
    In (u "openid." ++ k, v) args /\ k <> u "ns" /\ startswith k (u "ns.") = false /\
    getAliasedArg m k <> Ok (Some v).
Proof.
  exists [(u "openid.ns.foo", u "sreg"); (u "openid.ns.bar", SREG_URI); (u "openid.foo.x", u "1"); (u "openid.bar.x", u "2")].
  eexists. exists (u "foo.x"), (u "1"). split.
  { repeat constructor; intros H; vm_compute in H; intuition discriminate. }
  split; [vm_compute; reflexivity|]. split; [vm_compute; auto|]. split; [discriminate|]. split; [reflexivity|].
  vm_compute. discriminate.
Qed.
Print Assumptions C64_parse_keeps_every_parameter_refuted.

(** ** C15: wire round trip *)
Theorem C15_wire_round_trip :
  forall reg m, built reg m -> good_registry reg -> wire_safe reg m ->
    exists m', fromPostArgs reg (toPostArgs m) = Ok m' /\
      getOpenIDNamespace m' = getOpenIDNamespace m /\
      isOpenID1 m' = isOpenID1 m /\ isOpenID2 m' = isOpenID2 m /\
      (forall n k, getArg m' n k = getArg m n k) /\
      (* and every argument keeps its wire name *)
      (forall n k v, getArg m n k = Ok (Some v) -> getKey m' n k = getKey m n k).
Proof.
  intros reg m B R S. pose proof (built_wf _ _ B) as W. destruct (ws_version _ _ S) as (oid & O & Oa & _).
  destruct (rt_main reg m oid) as (m' & P & W' & O' & A & _ & G); [split; auto|].
  assert (getOpenIDNamespace m' = getOpenIDNamespace m) as V by congruence.
  assert (forall n, fixNS m' n = fixNS m n) as F by (intros; apply fixNS_ext; auto).
  exists m'. split; auto. split; auto. split; [unfold isOpenID1; rewrite V; auto|]. split; [unfold isOpenID2; rewrite V; auto|].
  split.
  - intros n k. unfold getArg. rewrite F. destruct (fixNS m n); simpl; auto. rewrite A. auto.
  - intros n k v. unfold getKey, getArg. rewrite F. destruct (fixNS m n) as [[|x]|]; simpl; auto. intros H. injection H as H.
    assert (getAlias (mns m') x = getAlias (mns m) x) as ->; auto.
    destruct (getAlias (mns m) x) as [al|] eqn:E.
    + apply (G x k v al H). auto.
    + destruct (getAlias (mns m') x) as [al|] eqn:E'; auto. apply (G x k v al H) in E'. congruence.
Qed.
Print Assumptions C15_wire_round_trip.

(** No field is overwritten: every argument and every declared namespace is in the
    emitted parameters under its own name, and there are no others. *)
Theorem C15_every_field_emitted :
  forall reg m, built reg m -> good_registry reg -> wire_safe reg m ->
    (forall n k v, getArg m n k = Ok (Some v) ->
       exists name, getKey m n k = Ok (Some name) /\ dget text_eqb name (toPostArgs m) = Some v) /\
    (forall uri al, getAlias (mns m) uri = Some al -> isImplicit (mns m) uri = false ->
       dget text_eqb (match al with Null => u "openid.ns" | Al a => u "openid.ns." ++ a end) (toPostArgs m) = Some uri) /\
    (forall name v, dget text_eqb name (toPostArgs m) = Some v ->
       (exists n k, getArg m n k = Ok (Some v) /\ getKey m n k = Ok (Some name)) \/
       (exists al, getAlias (mns m) v = Some al /\ isImplicit (mns m) v = false /\
                   name = match al with Null => u "openid.ns" | Al a => u "openid.ns." ++ a end)) /\
    (forall n k v n' k' v' name, getArg m n k = Ok (Some v) -> getArg m n' k' = Ok (Some v') ->
       getKey m n k = Ok (Some name) -> getKey m n' k' = Ok (Some name) -> place m n = place m n' /\ k = k').
Proof.
  intros reg m B R S. pose proof (built_wf _ _ B) as W. destruct (ws_version _ _ S) as (oid & O & Oa & _).
  assert (clean_names m) as C. { apply (rt_clean reg m oid). split; auto. }
  assert (forall n k v, getArg m n k = Ok (Some v) -> exists x, place m n = Some x /\ dget akey_eqb (x, k) (margs m) = Some v /\ getKey m n k = Ok (Some (keyname m x k))) as K.
  { intros n k v H. pose proof (getArg_place reg m n k B) as G. pose proof (place_ok reg m n B) as P. destruct (place m n) as [x|].
    - exists x. split; auto. rewrite H in G. injection G as G. split; auto. unfold getKey. rewrite P. cbn [bind].
      destruct x as [|x]; auto. cbn [keyname]. destruct (getAlias (mns m) x) as [[|a]|] eqn:E; auto.
      exfalso. eapply (wm_def _ W); eauto. symmetry in G. apply (dget_In akey_eqb akey_eqb_eq) in G. apply (in_map fst) in G. exact G.
    - destruct G as (e & G). congruence. }
  split; [|split; [|split]].
  - intros n k v H. destruct (K n k v H) as (x & X1 & X2 & X3). exists (keyname m x k). split; auto.
    apply toPostArgs_spec; auto. right. eauto.
  - intros uri al H I. apply toPostArgs_spec; auto. left. exists al. split; [|reflexivity]. split; auto. apply mem_text_false. auto.
  - intros name v H. apply toPostArgs_spec in H; auto. destruct H as [(al & (X1 & X2) & ->)|(n & k & H & ->)].
    + right. exists al. split; auto. split; [apply mem_text_false; auto|reflexivity].
    + left. exists (nsarg_of n), k.
      assert (n <> Uri sreg_lit) as Ns.
      { intros ->. eapply (wm_sreg _ W); eauto. apply (dget_In akey_eqb akey_eqb_eq) in H. apply (in_map fst) in H. exact H. }
      assert (getArg m (nsarg_of n) k = Ok (Some v)) as GA.
      { unfold getArg. rewrite fixNS_of by auto. cbn [bind]. rewrite H. auto. }
      split; auto. destruct (K _ _ _ GA) as (x & X1 & X2 & X3). rewrite X3.
      pose proof (place_ok reg m (nsarg_of n) B) as P. rewrite X1 in P. rewrite fixNS_of in P by auto. congruence.
  - intros n k v n' k' v' name H H' G G'. destruct (K _ _ _ H) as (x & X1 & X2 & X3). destruct (K _ _ _ H') as (x' & X1' & X2' & X3').
    assert ((x, k) = (x', k')) as E; [|inv E; split; congruence]. apply (cn_inj _ C).
    + apply (dget_In akey_eqb akey_eqb_eq) in X2. apply (in_map fst) in X2. exact X2.
    + apply (dget_In akey_eqb akey_eqb_eq) in X2'. apply (in_map fst) in X2'. exact X2'.
    + congruence.
Qed.
Print Assumptions C15_every_field_emitted.

(** A message that meets the hypotheses: parsed from [a_query] above and extended. *)
Definition reg0 : dict text text := [(u "sreg", u "http://openid.net/extensions/sreg/1.1")].
Definition msg1 : msg :=
  match newMessage (Some OPENID1_NS) None with
  | Ok m => match ext_toMessage m (u "http://openid.net/extensions/sreg/1.1") (u "sreg") [(u "nickname", u "bob")] with
            | Ok m => match setArg m OPENID_NS (u "mode") (u "id_res") with
                      | Ok m => match setArg m (NS (u "http://x/")) (u "k.l") [8364] with Ok m => m | _ => empty_msg end
                      | _ => empty_msg end
            | _ => empty_msg end
  | _ => empty_msg end.
Example C15_example :
  built reg0 msg1 /\ good_registry reg0 /\ wire_safe reg0 msg1 /\
  toPostArgs msg1 = [(u "openid.ns.ext0", u "http://x/"); (u "openid.sreg.nickname", u "bob");
                     (u "openid.mode", u "id_res"); (u "openid.ext0.k.l", [8364])].
Proof.
  split; [|split; [|split]].
  - eapply b_set with (ns := NS (u "http://x/")) (k := u "k.l") (v := [8364]);
      [eapply b_set with (ns := OPENID_NS) (k := u "mode") (v := u "id_res");
        [eapply b_ext with (uri := u "http://openid.net/extensions/sreg/1.1") (a := u "sreg") (args := [(u "nickname", u "bob")]);
          [eapply b_new with (o := Some OPENID1_NS) (i := None)|]|]|]; vm_compute; reflexivity.
  - split.
    + intros a. unfold reg0. cbn [dget]. destruct (text_eqb a (u "sreg")); discriminate.
    + intros a b n. unfold reg0. cbn [dget]. destruct (text_eqb a (u "sreg")) eqn:E1; [|discriminate].
      destruct (text_eqb b (u "sreg")) eqn:E2; [|discriminate]. apply text_eqb_eq in E1, E2. congruence.
  - assert (forall n k v, getArg msg1 n k = Ok (Some v) -> forall x, fixNS msg1 n = Ok x -> In ((x, k), v) (margs msg1)) as K.
    { intros n k v H x Hx. unfold getArg in H. rewrite Hx in H. cbn [bind] in H. injection H as H. apply (dget_In akey_eqb akey_eqb_eq); auto. }
    assert (forall al n, getNamespaceURI (mns msg1) al = Some n -> In (al, n) (a2n (mns msg1))) as L.
    { intros al n H. apply (dget_In alias_eqb alias_eqb_eq) in H; auto. }
    constructor.
    + exists OPENID1_NS. split; [vm_compute; reflexivity|]. split; [vm_compute; auto|]. auto.
    + intros k v H. specialize (K _ _ _ H Bare eq_refl). vm_compute in K. intuition discriminate.
    + intros k v H. assert (fixNS msg1 OPENID_NS = Ok (Uri OPENID1_NS)) as Fx by (vm_compute; reflexivity).
      specialize (K _ _ _ H _ Fx). clear H Fx.
      assert (k = u "mode") as ->.
      { vm_compute in K. destruct K as [K|[K|[K|[]]]]; inversion K; reflexivity. }
      split; [vm_compute; discriminate|]. intros a r E Ha. exfalso.
      assert (In 46 (u "mode")) as Q by (rewrite E; apply in_or_app; right; simpl; left; reflexivity). vm_compute in Q. intuition discriminate.
    + intros a n H I. apply L in H. vm_compute in H. destruct H as [H|[H|[H|[]]]]; inversion H; subst; clear H.
      * split; vm_compute; reflexivity.
      * vm_compute in I. discriminate.
    + intros al H. apply L in H. vm_compute in H. destruct H as [H|[H|[H|[]]]]; inversion H.
  - vm_compute. reflexivity.
Qed.

(** Without the side conditions the round trip fails: the version of a message
    created for OpenID 1.1 is not sent, and reads back as 1.0. *)
Theorem C65_every_message_survives_the_wire_refuted :
  exists m m', built [] m /\ getOpenIDNamespace m = Some THE_OTHER_OPENID1_NS /\
    fromPostArgs [] (toPostArgs m) = Ok m' /\ getOpenIDNamespace m' <> getOpenIDNamespace m.
Proof.
  do 2 eexists. split; [eapply (b_new [] (Some THE_OTHER_OPENID1_NS) None); vm_compute; reflexivity|].
  split; [vm_compute; reflexivity|]. split; [vm_compute; reflexivity|]. vm_compute. discriminate.
Qed.
Print Assumptions C65_every_message_survives_the_wire_refuted.

(** Adding an extension twice to an OpenID 1 message is an AssertionError. *)
Theorem C66_extension_can_be_added_again_refuted :
  exists m m1 uri a args, newMessage (Some OPENID1_NS) None = Ok m /\
    ext_toMessage m uri a args = Ok m1 /\ ext_toMessage m1 uri a args = Raise AssertionError.
Proof.
  do 2 eexists. exists (u "http://x/"), (u "x"), [(u "k", u "v")]. split; [vm_compute; reflexivity|].
  split; vm_compute; reflexivity.
Qed.
Print Assumptions C66_extension_can_be_added_again_refuted.

(** In OpenID 2 it works, and changes nothing. *)
Theorem C66_extension_can_be_added_again_partial :
  forall reg m m1 uri a args, built reg m -> isOpenID1 m = false -> isImplicit (mns m) uri = false -> uri <> u "sreg" ->
    ext_toMessage m uri a args = Ok m1 ->
    exists m2, ext_toMessage m1 uri a args = Ok m2 /\ forall n k, getArg m2 n k = getArg m1 n k.
Proof.
  intros reg m m1 uri a args B O1 I Hs H. pose proof H as H0. assert (built reg m1) as B1 by (eapply b_ext; eauto).
  unfold ext_toMessage in H. rewrite O1 in H. binv H.
  assert (getNamespaceURI (mns a0) (Al a) = Some uri /\ getAlias (mns a0) uri = Some (Al a) /\ implicit_ns (mns a0) = implicit_ns (mns m) /\ bad_alias (Al a) = false /\ margs a0 = margs m
          /\ a0 = mkMsg (margs m) (fst (addAlias (mns m) uri (Al a) false))) as (A1 & A2 & A3 & A4 & A5 & A6).
  { destruct (addAlias (mns m) uri (Al a) false) as [n' [b|e]] eqn:E1.
    - injection E as <-. apply addAlias_Ok in E1 as (_ & C1 & _ & C2 & C3 & C4 & _). simpl. rewrite C2, C3, alias_eqb_refl, text_eqb_refl. auto 10.
    - destruct (addAlias_cases (mns m) uri (Al a) false) as [(e' & C & _)|(C & _)]; [|congruence]. rewrite C in E1. inversion E1. subst n' e'.
      destruct (isKeyError e) eqn:Ke; [|discriminate]. destruct (opt_eqb alias_eqb _ _) eqn:Oe; [|discriminate]. injection E as <-. simpl.
      apply (opt_eqb_eq alias_eqb alias_eqb_eq) in Oe. pose proof (built_wf _ _ B) as W.
      assert (getNamespaceURI (mns m) (Al a) = Some uri) as Gn by (apply (wn_inv _ (wm_ns _ W)); auto).
      pose proof (wn_ok _ (wm_ns _ W) _ _ Gn) as Bk.
      split; [exact Gn|]. split; [exact Oe|]. split; [auto|]. split; [exact Bk|]. auto. }
  assert (built reg a0) as B0. { rewrite A6. apply b_alias; auto. }
  assert (forall m kv m', updateArgs m (NS uri) kv = Ok m' -> wf m -> getAlias (mns m) uri = Some (Al a) -> uri <> sreg_lit -> mns m' = mns m) as U.
  { clear. intros m kv m' H W G Hs. unfold updateArgs in H. binv H. rewrite fixNS_uri in E by auto. injection E as <-.
    revert m W G H. induction kv as [|[k v] kv IH]; intros m W G H; simpl in H; [inv H; auto|]. binv H.
    destruct (setArg_uri m uri k v W Hs) as (E2 & W2); [congruence|]. cbn [nsarg_of] in E. rewrite E2 in E. injection E as <-.
    rewrite (IH _ W2 G H). auto. }
  pose proof (U a0 args m1 H (built_wf _ _ B0) A2 Hs) as N1.
  assert (getOpenIDNamespace m1 = getOpenIDNamespace m) as V.
  { unfold getOpenIDNamespace. rewrite N1, A6. simpl. apply addAlias_Al_null. }
  unfold ext_toMessage. assert (isOpenID1 m1 = false) as -> by (unfold isOpenID1; rewrite V; exact O1).
  assert (exists n'', addAlias (mns m1) uri (Al a) false = (n'', Ok (Al a))) as (n'' & E2).
  { unfold addAlias. rewrite A4, N1, A1, A2, text_eqb_refl, alias_eqb_refl. simpl.
    unfold isImplicit in I. rewrite A3, I. eauto. }
  pose proof (b_alias reg m1 uri a false B1) as B2. rewrite E2 in B2. rewrite E2. cbn [bind]. cbn [fst] in B2.
  set (m1' := mkMsg (margs m1) n'') in *.
  assert (getOpenIDNamespace m1' = getOpenIDNamespace m1) as V1.
  { unfold getOpenIDNamespace, m1'. simpl. pose proof (addAlias_Al_null (mns m1) uri a false) as X. rewrite E2 in X. exact X. }
  assert (exists m2, updateArgs m1' (NS uri) args = Ok m2) as (m2 & E3).
  { unfold updateArgs. rewrite fixNS_uri by auto. cbn [bind nsarg_of].
    apply addAlias_Ok in E2 as (_ & _ & _ & _ & C3 & _).
    assert (getAlias (mns m1') uri <> None) as G. { unfold m1'. simpl. rewrite C3, text_eqb_refl. discriminate. }
    assert (wf m1') as W2 by (eapply built_wf; eauto). clear -G W2 Hs. revert G W2. generalize m1'. 
    induction args as [|[k v] kv IH]; intros m G W; simpl; eauto.
    destruct (setArg_uri m uri k v W Hs G) as (E2 & W2). rewrite E2. cbn [bind]. apply IH; auto. }
  exists m2. split; auto. intros n k.
  destruct (C13_update reg m1' (NS uri) args m2 B2 E3) as (X1 & X2).
  assert (forall n k, getArg m1' n k = getArg m1 n k) as S1.
  { intros n0 k0. unfold getArg. rewrite (fixNS_ext m1' m1 n0 V1). auto. }
  destruct (C13_update reg a0 (NS uri) args m1 B0 H) as (Y1 & Y2).
  assert (getOpenIDNamespace m2 = getOpenIDNamespace m1') as V2 by (eapply updateArgs_null; eauto).
  pose proof (getArg_place reg m2 n k (b_update reg m1' (NS uri) args m2 B2 E3)) as P2.
  pose proof (getArg_place reg m1 n k B1) as P1. 
  assert (place m2 n = place m1 n) as PP by (apply place_null; congruence). rewrite PP in P2.
  destruct (place m1 n) as [x|] eqn:Px.
  - assert (x = Uri uri \/ x <> Uri uri) as [->|Hx]. { destruct x as [|t]; [right; discriminate|]. destruct (text_eq_dec t uri); [left|right]; congruence. }
    + assert (forall m, place m (NS uri) = Some (Uri uri)) as Pu.
      { intros m3. simpl. apply text_eqb_neq in Hs. unfold sreg_lit in Hs. rewrite Hs. auto. }
      pose proof (getArg_place reg m2 (NS uri) k (b_update reg m1' (NS uri) args m2 B2 E3)) as P2'. rewrite Pu in P2'.
      pose proof (getArg_place reg m1 (NS uri) k B1) as P1'. rewrite Pu in P1'.
      rewrite P1, P2, <- P1', <- P2', X1, S1, Y1. destruct (last_value k args); auto.
    + rewrite X2, S1; auto. rewrite (place_null _ _ n V1), Px. simpl. apply text_eqb_neq in Hs. unfold sreg_lit in Hs. rewrite Hs. congruence.
  - unfold getArg. rewrite (fixNS_ext m2 m1 n) by congruence. destruct (fixNS m1 n) eqn:Fx; auto.
    pose proof (place_ok reg m1 n B1) as Pk. rewrite Px in Pk. destruct Pk as (e & Pk). congruence.
Qed.
Print Assumptions C66_extension_can_be_added_again_partial.
Example C66_example :
  exists m m1, newMessage (Some OPENID2_NS) None = Ok m /\ isOpenID1 m = false /\
    ext_toMessage m (u "http://x/") (u "x") [(u "k", u "v")] = Ok m1.
Proof. do 2 eexists. split; [vm_compute; reflexivity|]. split; vm_compute; reflexivity. Qed.

(** ** C16: version detection *)
Theorem C16_version_detection :
  forall reg args m, NoDup (map fst args) -> fromPostArgs reg args = Ok m ->
    (isOpenID2 m = true <-> In (u "openid.ns", OPENID2_NS) args) /\
    (isOpenID1 m = true <->
       (forall v, ~ In (u "openid.ns", v) args) \/
       In (u "openid.ns", OPENID1_NS) args \/ In (u "openid.ns", THE_OTHER_OPENID1_NS) args) /\
    isOpenID1 m = negb (isOpenID2 m).
Proof.
  intros reg args m Hn H. destruct (fromPostArgs_ver reg args m H Hn) as (V & I).
  assert (forall v, In (u "openid.ns", v) args <-> dget text_eqb (u "ns") (openid_part args) = Some v) as D.
  { intros v. split.
    - intros Hin. apply (In_dget text_eqb text_eqb_eq); [apply NoDup_openid_part; auto|]. apply In_openid_part. exact Hin.
    - intros E. apply (dget_In text_eqb text_eqb_eq) in E. apply In_openid_part in E. exact E. }
  unfold isOpenID1, isOpenID2. rewrite V. unfold oid_of in *.
  split; [|split].
  - rewrite D. destruct (dget text_eqb (u "ns") (openid_part args)) as [v|].
    + rewrite opt_text_eqb_eq. tauto.
    + split; discriminate.
  - setoid_rewrite D. destruct (dget text_eqb (u "ns") (openid_part args)) as [v|].
    + rewrite mem_text_In. split.
      * intros [<-|[<-|[]]]; auto.
      * intros [K|[K|K]]; [exfalso; eapply K; eauto| |]; inversion K; subst; [left|right; left]; reflexivity.
    + split; auto. intros _. left. intros v. discriminate.
  - destruct (dget text_eqb (u "ns") (openid_part args)) as [v|]; [|vm_compute; auto].
    destruct I as [<-|[<-|[<-|[]]]]; vm_compute; auto.
Qed.
Print Assumptions C16_version_detection.

Theorem C16_unknown_version_rejected :
  forall reg args v, NoDup (map fst args) -> In (u "openid.ns", v) args ->
    ~ In v [OPENID1_NS; THE_OTHER_OPENID1_NS; OPENID2_NS] ->
    fromPostArgs reg args = Raise InvalidOpenIDNamespace.
Proof.
  intros reg args v Hn Hin Hv. pose proof (fromPostArgs_spec reg args Hn) as S.
  pose proof (fromOpenIDArgs_ver reg (openid_part args) (NoDup_openid_part _ Hn)) as V.
  assert (oid_of (openid_part args) = v) as O.
  { unfold oid_of. rewrite (In_dget text_eqb text_eqb_eq (u "ns") v); auto; [apply NoDup_openid_part; auto|].
    apply In_openid_part. exact Hin. }
  rewrite O in V. destruct (fromOpenIDArgs reg (openid_part args)) as [m|e].
  - destruct V as [_ V]. contradiction.
  - destruct V as [V|V]; [contradiction|]. congruence.
Qed.
Print Assumptions C16_unknown_version_rejected.
Example C16_example :
  (exists m, fromPostArgs [] a_query = Ok m /\ isOpenID2 m = true) /\
  (exists m, fromPostArgs [] [(u "openid.mode", u "x")] = Ok m /\ isOpenID1 m = true) /\
  fromPostArgs [] [(u "openid.ns", u "http://specs.openid.net/auth/3.0")] = Raise InvalidOpenIDNamespace.
Proof. split; [|split]; [eexists; split; vm_compute; reflexivity|eexists; split; vm_compute; reflexivity|vm_compute; reflexivity]. Qed.
