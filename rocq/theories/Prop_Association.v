(** C06, C07: associations and signatures. *)
From Coq Require Import Lia ZifyBool ZifyN ZifyNat Permutation.
From Verif Require Import Py PyFacts Utf8 Utf8Facts KVForm KVFormFacts CryptUtil CryptUtilFacts.
From Verif Require Import Message MessageFacts MessageWire MessageParse MessageSpec MessageRound.
From Verif Require Import Association AssociationFacts Prop_KVForm Prop_Message.
Local Arguments u : simpl never.

(** ** C06: serialization *)
Definition known_type (t : text) : Prop := t = u "HMAC-SHA1" \/ t = u "HMAC-SHA256".
Lemma known_type_mem t : mem_text t all_association_types = true <-> known_type t.
Proof. rewrite mem_text_In. unfold known_type, all_association_types. simpl. intuition. Qed.

Lemma b64char_plain n : n < 64 -> isspace (b64char n) = false /\ b64char n <> 10.
Proof.
  intros H. assert (forallb (fun n => negb (isspace (b64char n)) && negb (b64char n =? 10)) (map N.of_nat (seq 0 64)) = true) as K by (vm_compute; reflexivity).
  rewrite forallb_forall in K. specialize (K n). rewrite andb_true_iff, !negb_true_iff, N.eqb_neq in K. apply K.
  apply in_map_iff. exists (N.to_nat n). split; [lia|]. apply in_seq. lia.
Qed.
Lemma b64_plain s : Forall isbyte s -> Forall (fun c => isspace c = false /\ c <> 10) (b2a_base64 s).
Proof.
  induction s as [| a | a b | a b c r IH] using list3_ind; intros H; cbn [b2a_base64]; auto.
  - inv H. unfold isbyte in *. repeat constructor; try (apply b64char_plain; lia); try (vm_compute; congruence).
  - inv H. inv H3. unfold isbyte in *. repeat constructor; try (apply b64char_plain; lia); try (vm_compute; congruence).
  - inv H. inv H3. inv H4. unfold isbyte in *. repeat constructor; try (apply b64char_plain; lia); auto.
Qed.

Definition assoc_pairs (a : assoc) : list (text * text) :=
  [(u "version", u "2"); (u "handle", a_handle a); (u "secret", toBase64 (a_secret a));
   (u "issued", str_of_Z (a_issued a)); (u "lifetime", str_of_Z (a_lifetime a)); (u "assoc_type", a_type a)].

Lemma assoc_pairs_ok a : Forall isbyte (a_secret a) -> known_type (a_type a) ->
  (~ sp_ws (a_handle a) /\ ~ In 10 (a_handle a)) <-> Forall (pair_ok true) (assoc_pairs a).
Proof.
  intros Hb Ht.
  assert (forall k v, clean isspace k -> ~ In 10 k -> ~ In 58 k -> clean isspace v -> ~ In 10 v -> pair_ok true (k, v)) as K.
  { intros k v H1 H2 H3 H4 H5. unfold pair_ok. simpl. tauto. }
  assert (forall s, stripf isspace s = s -> memc 10 s = false -> clean isspace s /\ ~ In 10 s) as L.
  { intros s H1 H2. split; [apply stripf_fix_iff; auto|apply memc_false; auto]. }
  assert (forall s, stripf isspace s = s -> memc 10 s = false -> memc 58 s = false -> clean isspace s /\ ~ In 10 s /\ ~ In 58 s) as L2.
  { intros s H1 H2 H3. split; [apply stripf_fix_iff; auto|split; apply memc_false; auto]. }
  assert (clean isspace (toBase64 (a_secret a)) /\ ~ In 10 (toBase64 (a_secret a))) as (B1 & B2).
  { pose proof (b64_plain _ Hb) as P. rewrite Forall_forall in P. split.
    - apply clean_all. intros x Hx. apply P; auto.
    - intros Hx. apply P in Hx. destruct Hx. congruence. }
  assert (forall z, clean isspace (str_of_Z z) /\ ~ In 10 (str_of_Z z)) as Z.
  { intros z. split; [apply stripf_fix_iff; apply str_of_Z_strip|]. apply str_of_Z_no; [reflexivity|discriminate]. }
  assert (clean isspace (a_type a) /\ ~ In 10 (a_type a)) as (T1 & T2).
  { destruct Ht as [-> | ->]; apply L; vm_compute; reflexivity. }
  unfold assoc_pairs. split.
  - intros (H1 & H2). apply sp_ws_clean in H1.
    repeat (apply Forall_cons || apply Forall_nil); apply K; try (apply L2; vm_compute; reflexivity); try (apply L; vm_compute; reflexivity); auto; apply Z.
  - intros H. rewrite Forall_forall in H. specialize (H (u "handle", a_handle a)).
    assert (pair_ok true (u "handle", a_handle a)) as P by (apply H; right; left; reflexivity).
    apply pair_ok_spec in P as (W & T). destruct (T eq_refl) as (_ & T'). destruct W as (_ & _ & W). auto.
Qed.

Theorem C06_round_trip :
  forall a, Forall isbyte (a_secret a) -> known_type (a_type a) ->
    ~ sp_ws (a_handle a) -> ~ In 10 (a_handle a) ->
    exists t, serialize a = Ok t /\ deserialize t = Ok a.
Proof.
  intros a Hb Ht Hs Hn. assert (Forall (pair_ok true) (assoc_pairs a)) as P by (apply assoc_pairs_ok; auto).
  exists (List.concat (map kv_line (assoc_pairs a))). split.
  - unfold serialize. fold (assoc_pairs a). apply seqToKV_Ok. split; auto.
  - unfold deserialize. rewrite kvToSeq_pairs; auto.
    2:{ intros _. repeat constructor; discriminate. }
    cbn [bind]. unfold assoc_pairs. cbn [map fst snd].
    assert (list_eqb text_eqb [u "version"; u "handle"; u "secret"; u "issued"; u "lifetime"; u "assoc_type"] assoc_keys = true) as -> by (vm_compute; reflexivity).
    cbn [negb]. rewrite text_eqb_refl. cbn [negb]. rewrite !int_of_str. cbn [bind]. rewrite fromBase64_toBase64 by auto. cbn [bind].
    unfold newAssoc. apply known_type_mem in Ht. rewrite Ht. destruct a; reflexivity.
Qed.
Print Assumptions C06_round_trip.

(** A handle that the format cannot carry is refused, not stored wrongly. *)
Theorem C06_serialize_refuses :
  forall a, Forall isbyte (a_secret a) -> known_type (a_type a) ->
    sp_ws (a_handle a) \/ In 10 (a_handle a) -> serialize a = Raise KVFormError.
Proof.
  intros a Hb Ht H. destruct (serialize a) as [t|e] eqn:E.
  - exfalso. unfold serialize in E. fold (assoc_pairs a) in E. apply seqToKV_Ok in E as (P & _).
    apply (assoc_pairs_ok a Hb Ht) in P. tauto.
  - f_equal. eapply seqToKV_Raise; eauto.
Qed.
Print Assumptions C06_serialize_refuses.

(** Whatever is accepted has exactly the six fields, in order, version 2, integer
    times, base64 secret and a known type; everything else is a ValueError. *)
Theorem C06_deserialize_exact :
  forall t a, deserialize t = Ok a ->
    exists secret issued lifetime,
      kvToSeq true t = Ok [(u "version", u "2"); (u "handle", a_handle a); (u "secret", secret);
                           (u "issued", issued); (u "lifetime", lifetime); (u "assoc_type", a_type a)] /\
      fromBase64 secret = Ok (a_secret a) /\ int_of_text issued = Ok (a_issued a) /\
      int_of_text lifetime = Ok (a_lifetime a) /\ known_type (a_type a).
Proof.
  intros t a H. unfold deserialize in H. binv H. destruct (list_eqb text_eqb (map fst a0) assoc_keys) eqn:K; [|discriminate].
  apply list_eqb_eq in K; [|apply text_eqb_eq]. cbn [negb] in H.
  destruct a0 as [|[k1 v1] [|[k2 v2] [|[k3 v3] [|[k4 v4] [|[k5 v5] [|[k6 v6] [|? ?]]]]]]]; try discriminate.
  cbn [map fst] in K. unfold assoc_keys in K. cbn [map] in K. injection K as -> -> -> -> -> ->. cbn [map snd] in H.
  destruct (text_eqb v1 (u "2")) eqn:V; [|discriminate]. apply text_eqb_eq in V. subst v1. cbn [negb] in H.
  binv H. binv H. binv H. unfold newAssoc in H. destruct (mem_text v6 all_association_types) eqn:T; [|discriminate]. inv H.
  apply known_type_mem in T. exists v3, v4, v5. simpl. auto.
Qed.
Print Assumptions C06_deserialize_exact.

Lemma kvToSeq_Raise strict s e : kvToSeq strict s = Raise e -> e = KVFormError.
Proof.
  unfold kvToSeq. intros H. destruct (kvLines strict s) as [ls|e'] eqn:L; cbn [bind] in H.
  - destruct (mapM (kvToSeq_line strict) ls) as [ps|e'] eqn:M; cbn [bind] in H; [discriminate|]. inv H.
    clear L. revert M. induction ls as [|l ls IH]; cbn [mapM]; [discriminate|].
    destruct (kvToSeq_line strict l) as [o|e'] eqn:K; cbn [bind].
    + destruct (mapM (kvToSeq_line strict) ls); cbn [bind]; [discriminate|]. auto.
    + intros M. inv M. unfold kvToSeq_line in K. destruct (negb (truthy (strip l))); [discriminate|].
      destruct (cut colon l) as [[k v]|].
      * repeat match type of K with context [if ?x then _ else _] => destruct x; [inv K; auto|] end. discriminate.
      * destruct strict; congruence.
  - inv H. unfold kvLines in L. destruct (last (splitc newline s) []); [discriminate|]. destruct strict; congruence.
Qed.
Lemma int_of_text_Raise s e : int_of_text s = Raise e -> e = ValueError.
Proof.
  unfold int_of_text, nat_of_digits. intros H. destruct (strip s) as [|c r]; [congruence|].
  destruct (c =? 45). { destruct (digits r); cbn [bind] in H; congruence. }
  destruct (c =? 43). { destruct (digits r); congruence. }
  destruct (digits (c :: r)); congruence.
Qed.
Lemma a2b_Raise s : forall q l p e, a2b_loop q l p s = Raise e -> e = ValueError.
Proof.
  induction s as [|c s IH]; intros q l p e H; cbn [a2b_loop] in H.
  - destruct (q =? 0); congruence.
  - destruct (c =? pad).
    + destruct (2 <=? q); [destruct (4 <=? q + (p + 1)); [discriminate|]|]; eauto.
    + destruct (b64val c); [|eauto]. destruct (q =? 0); [eauto|].
      destruct (q =? 1); [|destruct (q =? 2)];
        match type of H with context [a2b_loop ?a ?b ?c s] => destruct (a2b_loop a b c s) eqn:E end; cbn [bind] in H; try discriminate; inv H; eauto.
Qed.
Lemma fromBase64_Raise s e : fromBase64 s = Raise e -> e = ValueError.
Proof. unfold fromBase64. destruct (forallb _ s); [apply a2b_Raise|congruence]. Qed.

Theorem C06_errors_are_ValueErrors :
  forall t e, deserialize t = Raise e -> isValueError e = true.
Proof.
  intros t e H. unfold deserialize in H. destruct (kvToSeq true t) as [ps|e'] eqn:K; cbn [bind] in H.
  2:{ apply kvToSeq_Raise in K. subst. inv H. auto. }
  destruct (list_eqb text_eqb (map fst ps) assoc_keys); cbn [negb] in H; [|inv H; auto].
  destruct (map snd ps) as [|v1 [|v2 [|v3 [|v4 [|v5 [|v6 [|? ?]]]]]]]; try (inv H; auto; fail).
  destruct (text_eqb v1 (u "2")); cbn [negb] in H; [|inv H; auto].
  destruct (int_of_text v4) eqn:E4; cbn [bind] in H. 2:{ apply int_of_text_Raise in E4. subst. inv H. auto. }
  destruct (int_of_text v5) eqn:E5; cbn [bind] in H. 2:{ apply int_of_text_Raise in E5. subst. inv H. auto. }
  destruct (fromBase64 v3) eqn:E3; cbn [bind] in H. 2:{ apply fromBase64_Raise in E3. subst. inv H. auto. }
  unfold newAssoc in H. destruct (mem_text v6 _); inv H. auto.
Qed.
Print Assumptions C06_errors_are_ValueErrors.

Definition assoc1 : assoc := mkAssoc (u "{HMAC-SHA1}{4b3a}{x y}") [0; 1; 255; 10] 1700000000 (-5) (u "HMAC-SHA1").
Example C06_example :
  exists t, serialize assoc1 = Ok t /\ deserialize t = Ok assoc1 /\
    deserialize (u "version:2") = Raise KVFormError /\
    (exists t', serialize (mkAssoc (u "h") [1] 1 2 (u "HMAC-SHA1")) = Ok t' /\ deserialize (t' ++ u "x:y" ++ [10]) = Raise ValueError).
Proof. eexists. split; [vm_compute; reflexivity|]. split; [vm_compute; reflexivity|]. split; [vm_compute; reflexivity|]. eexists. split; [vm_compute; reflexivity|vm_compute; reflexivity]. Qed.

(** ** C07: a signed message verifies *)

(** The value of an OpenID parameter on the wire. *)
Definition wire_value (query : list (text * text)) (f : text) : option text := dget text_eqb (u "openid." ++ f) query.

Lemma built_core reg m v : built reg m -> getOpenIDNamespace m = Some v -> core m v.
Proof.
  intros B V. split; [eapply built_wf; eauto|]. split; auto. pose proof (built_ver reg m B) as H. rewrite V in H.
  destruct H as [<-|[<-|[<-|[]]]]; discriminate.
Qed.
Lemma sign_core reg hmac a m m' : built reg m -> signMessage hmac a m = Ok m' -> exists v, getOpenIDNamespace m = Some v /\ core m v.
Proof.
  intros B H. destruct (getOpenIDNamespace m) as [v|] eqn:E. { exists v. split; auto. eapply built_core; eauto. }
  exfalso. unfold signMessage, hasKey, fixNS in H. rewrite E in H. discriminate.
Qed.

(** The MAC produces at least one byte (HMAC-SHA1 and HMAC-SHA256 give 20 and 32). *)
Definition mac_bytes (hmac : text -> bytes -> bytes -> bytes) : Prop :=
  forall t k b, hmac t k b <> [] /\ Forall isbyte (hmac t k b).

Theorem C07_signed_message_verifies :
  forall hmac reg a m m', mac_bytes hmac -> built reg m ->
    (* no parameter is called 'sig' or has a ',sig' part in its name *)
    (forall f, wire_value (toPostArgs m) f <> None -> ~ In (u "sig") (splitc 44 f)) ->
    signMessage hmac a m = Ok m' ->
    checkMessageSignature hmac a m' = Ok true.
Proof.
  intros hmac reg a m m' Hm B Hf H. destruct (sign_core _ _ _ _ _ B H) as (v & V & C).
  apply (signMessage_Ok hmac a m v m' C) in H. eapply signed_verifies; eauto.
  intros k Hk. apply Hf. unfold wire_value. apply (dhas_In text_eqb text_eqb_eq) in Hk. unfold dhas in Hk.
  destruct (dget _ _ _); [discriminate|discriminate].
Qed.
Print Assumptions C07_signed_message_verifies.

(** Also after transport: any query carrying the same OpenID parameters (in any
    order, among any others) that the receiver can parse verifies. *)
Theorem C07_verifies_after_transport :
  forall hmac reg reg' a m m' query m2, mac_bytes hmac -> built reg m ->
    (forall f, wire_value (toPostArgs m) f <> None -> ~ In (u "sig") (splitc 44 f)) ->
    signMessage hmac a m = Ok m' ->
    NoDup (map fst query) -> (forall f, wire_value query f = wire_value (toPostArgs m') f) ->
    good_registry reg' -> (forall al, ~ In (u "openid.ns." ++ al, u "sreg") query) ->
    fromPostArgs reg' query = Ok m2 ->
    checkMessageSignature hmac a m2 = Ok true.
Proof.
  intros hmac reg reg' a m m' query m2 Hm B Hf H Hn Hq R Hs P.
  rewrite <- (C07_signed_message_verifies hmac reg a m m' Hm B Hf H).
  destruct (sign_core _ _ _ _ _ B H) as (v & V & C). apply (signMessage_Ok hmac a m v m' C) in H.
  destruct (C14_parse_exact reg' query m2 R Hn Hs P) as (Q1 & _ & _ & _ & _ & Q6).
  assert (built reg' m2) as B2 by (eapply b_parse; eauto).
  assert (exists v2, getOpenIDNamespace m2 = Some v2) as (v2 & V2).
  { pose proof (fromPostArgs_ver _ _ _ P Hn) as (X & _). eauto. }
  pose proof (built_core _ _ _ B2 V2) as C2.
  destruct H as [_ C' N S1 S2 (m1 & b & C1 & N1 & A1 & K & A3 & PP) T _]. cbv zeta in *.
  assert (forall k w, ~ In 46 k -> k <> u "ns" -> wire_value query k = Some w -> dget akey_eqb (Uri v2, k) (margs m2) = Some w) as G.
  { intros k w Hk Hk2 E. apply (dget_In text_eqb text_eqb_eq) in E. apply Q1 in E; auto.
    - unfold getAliasedArg in E. apply text_eqb_neq in Hk2. rewrite Hk2 in E.
      destruct (startswith k (u "ns.")) eqn:Sw.
      { apply startswith_spec in Sw as (r & ->). exfalso. apply Hk. apply in_or_app. left. vm_compute. auto. }
      apply (cut_None 46) in Hk. rewrite Hk, V2 in E. destruct C2 as (_ & _ & Hv). rewrite getArg_ns in E; [injection E as E; exact E|auto].
    - destruct (startswith k (u "ns.")) eqn:Sw; auto. apply startswith_spec in Sw as (r & ->). exfalso. apply Hk. apply in_or_app. left. vm_compute. auto. }
  apply (check_same hmac a m2 m' v2 v C2 C').
  - rewrite A3, (dget_dset_same akey_eqb akey_eqb_eq). apply G; [vm_compute; intuition discriminate|discriminate|].
    rewrite Hq. unfold wire_value. rewrite PP. apply (dget_dset_same text_eqb text_eqb_eq).
  - rewrite A3, (dget_dset_other akey_eqb akey_eqb_eq), (dget_dset_same akey_eqb akey_eqb_eq) by (apply akey_ne; discriminate).
    apply G; [vm_compute; intuition discriminate|discriminate|].
    rewrite Hq. unfold wire_value. rewrite PP. rewrite (dget_dset_other text_eqb text_eqb_eq); [|discriminate]. apply (dget_dset_same text_eqb text_eqb_eq).
  - intros k. rewrite Q6. apply Hq.
Qed.
Print Assumptions C07_verifies_after_transport.

(** Without the condition on names it is false: a parameter called 'x,sig' makes
    'sig' itself part of the signed list. *)
Definition demo_mac (t : text) (k b : bytes) : bytes := [7].
Definition long_mac (t : text) (k b : bytes) : bytes := firstn 2 (rev (map (fun x => x mod 256) b)) ++ [len b mod 256].
Theorem C67_signed_message_always_verifies_refuted :
  exists a m0 m m' , newMessage (Some OPENID2_NS) None = Ok m0 /\ setArg m0 OPENID_NS (u "x,sig") (u "1") = Ok m /\
    signMessage long_mac a m = Ok m' /\ checkMessageSignature long_mac a m' = Ok false.
Proof.
  exists (mkAssoc (u "h") [1] 0 0 (u "HMAC-SHA1")). do 3 eexists. split; [vm_compute; reflexivity|].
  split; [vm_compute; reflexivity|]. split; [vm_compute; reflexivity|vm_compute; reflexivity].
Qed.
Print Assumptions C67_signed_message_always_verifies_refuted.

Definition demo_assoc : assoc := mkAssoc (u "h1") [1; 2] 0 600 (u "HMAC-SHA256").
Lemma no_sig_check (d : dict text text) :
  forallb (fun k => negb (startswith k (u "openid.")) || negb (mem_text (u "sig") (splitc 44 (skipn 7 k)))) (map fst d) = true ->
  forall f, wire_value d f <> None -> ~ In (u "sig") (splitc 44 f).
Proof.
  intros H f Hf. unfold wire_value in Hf. destruct (dget _ _ d) as [w|] eqn:E; [|contradiction].
  apply (dget_In text_eqb text_eqb_eq) in E. apply (in_map fst) in E. rewrite forallb_forall in H. apply H in E.
  cbn [fst] in E. rewrite startswith_app in E. cbn [negb orb] in E. apply negb_true_iff, mem_text_false in E. exact E.
Qed.
Example C07_example :
  exists m m', fromPostArgs reg0 a_query = Ok m /\ signMessage long_mac demo_assoc m = Ok m' /\
    checkMessageSignature long_mac demo_assoc m' = Ok true /\
    (forall f, wire_value (toPostArgs m) f <> None -> ~ In (u "sig") (splitc 44 f)) /\
    (exists m2, fromPostArgs reg0 (rev (toPostArgs m')) = Ok m2 /\ checkMessageSignature long_mac demo_assoc m2 = Ok true).
Proof.
  do 2 eexists. split; [vm_compute; reflexivity|]. split; [vm_compute; reflexivity|]. split; [vm_compute; reflexivity|]. split.
  - apply no_sig_check. vm_compute. reflexivity.
  - eexists. split; [vm_compute; reflexivity|vm_compute; reflexivity].
Qed.

