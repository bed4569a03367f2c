(** C158–C160: a provider in several processes on one store ([keeps_memory], [keeps_sql],
    [keeps_file]): what its confirmations and its signatures mean however the store calls of
    the processes interleave. *)
From Coq Require Import Lia ZifyBool ZifyN ZifyNat.
From Verif Require Import Py PyFacts CryptUtil DH Message Association Nonce Store StoreSpec Server Conc ConcFacts ServerConc.
From Verif Require Import UrlLib MessageFacts MessageSpec AssociationFacts Prop_Association Prop_Association2 ServerStores SignatoryFacts Prop_Signatory ServerConcFacts.
From Verif Require Import Prop_ServerDecode.
Open Scope Z_scope.
Local Arguments u : simpl never.

(** An association is [created] by a signing job of the run. *)
Definition created (jobs : list job) (tr : list call) (a : assoc) : Prop :=
  exists ev now secret uniq r ty, In ev tr /\ the_op ev = StoreA dumb_key a /\
    nth_error jobs (by_job ev) = Some (JSign now secret uniq r) /\ known_type ty /\ a = fresh_assoc now secret uniq ty.

Section Over.
  Context {S : Type} (step : S -> Z -> op -> S * out) (s0 : S) (fine : op -> Prop) (K : keeps step s0 fine).
  Variable hmac : text -> bytes -> bytes -> bytes.
  Variable pub_ok : Z -> Z -> Z -> bool.
  Variable hash : hash_alg -> bytes -> bytes.
  Variable h0 : history.
  Variable others : op -> Prop.
  Variable jobs : list job.
  Notation runs := (runs (next_call hmac pub_ok hash) step s0 h0 others jobs).
  Notation finished := (finished hmac pub_ok hash).
  (** The store as the calls of a trace have left it. *)
  Notation store tr := (calls_of tr ++ h0).
  Notation all_fine tr := (Forall (fun e : Z * op => fine (snd e)) (store tr)).

  Lemma store_app tr2 tr1 : store (tr2 ++ tr1) = calls_of tr2 ++ store tr1.
  Proof using. unfold calls_of. rewrite map_app, app_assoc. auto. Qed.
  Lemma all_fine_app tr2 tr1 : all_fine (tr2 ++ tr1) -> all_fine tr1.
  Proof using. rewrite store_app. intros H. apply Forall_app in H. tauto. Qed.
  Lemma stored_since k y h1 h a : (forall t b, In (t, StoreA k b) h1 -> a_handle b <> y) -> stored k y (h1 ++ h) = Some a -> stored k y h = Some a.
  Proof using.
    intros N. induction h1 as [|[t o] h1 IH]; cbn [app]; auto. assert (stored k y (h1 ++ h) = Some a -> stored k y h = Some a) as I' by (apply IH; intros; eapply N; right; eauto).
    destruct o; cbn [stored]; auto.
    - destruct (text_eqb k url && text_eqb y (a_handle a0)) eqn:Q; auto. rewrite andb_true_iff, !text_eqb_eq in Q. destruct Q as (<- & Q).
      exfalso. eapply N; [left; eauto|auto].
    - destruct (_ && _); [discriminate|auto].
  Qed.
  Lemma stored_In k y h a : stored k y h = Some a -> exists t, In (t, StoreA k a) h.
  Proof using.
    induction h as [|[t o] h IH]; cbn [stored]; [discriminate|]. destruct o.
    - destruct (text_eqb k url && text_eqb y (a_handle a0)) eqn:Q.
      + intros X. inv X. rewrite andb_true_iff, !text_eqb_eq in Q. destruct Q as (<- & _). exists t. left. auto.
      + intros X. apply IH in X as (t' & X). exists t'. right. auto.
    - intros X. apply IH in X as (t' & X). exists t'. right. auto.
    - destruct (_ && _); [discriminate|]. intros X. apply IH in X as (t' & X). exists t'. right. auto.
    - intros X. apply IH in X as (t' & X). exists t'. right. auto.
    - intros X. apply IH in X as (t' & X). exists t'. right. auto.
    - intros X. apply IH in X as (t' & X). exists t'. right. auto.
  Qed.
  Lemma private_origin tr y a : runs tr -> stored dumb_key y (store tr) = Some a -> (exists t, In (t, StoreA dumb_key a) h0) \/ others (StoreA dumb_key a) \/ created jobs tr a.
  Proof using.
    intros R H. apply stored_In in H as (t & H). apply in_app_or in H as [H|H]; [right|left; eauto].
    unfold calls_of in H. apply in_map_iff in H as (ev & E & H). injection E as Et Eo. pose proof H as H'. apply in_split in H as (tr2 & tr1 & E').
    destruct (every_call hmac pub_ok hash step s0 h0 others jobs tr tr2 ev tr1 R E') as [(_ & M)|(j & J & M)]; rewrite Eo in M; [auto|]. right. destruct j; cbn in M.
    - destruct M.
    - destruct M as (_ & ty & T & Ea). exists ev, now, secret, uniq, r, ty. auto.
    - destruct M as (M & _). discriminate.
  Qed.

  (** The first call of a job that has heard [Got o] first. *)
  Lemma first_get tr i j key handle more o rest : runs tr -> all_fine tr -> nth_error jobs i = Some j -> answers_to i tr = Got o :: rest ->
    asked (fst (with_answers hmac pub_ok hash j (answers_to i tr))) = GetA key (Some handle) :: more ->
    exists tr2 ev tr1, tr = tr2 ++ ev :: tr1 /\ by_job ev = i /\ answers_to i tr1 = [] /\
      good_at (at_time ev) o = good_at (at_time ev) (stored key handle (store tr1)) /\ (forall a, o = Some a -> stored key handle (store tr1) = Some a).
  Proof using K.
    intros R F J O A. destruct (nth_call hmac pub_ok hash step s0 h0 others jobs tr i j 0 R J) as (tr2 & ev & tr1 & E & B & L & O' & A' & C & X). { rewrite O. cbn. lia. }
    exists tr2, ev, tr1. split; auto. split; auto. split. { destruct (answers_to i tr1); [auto|discriminate]. }
    rewrite O in O'. rewrite A in A'. cbn in O', A'. injection O' as O'. injection A' as A'. rewrite <- O', <- A' in X.
    rewrite E in F. assert (fine (GetA key (Some handle)) /\ all_fine tr1) as (F1 & F2).
    { apply all_fine_app in F. unfold calls_of in F. cbn [map app] in F. inversion F as [|e l F1 F2]. cbn in F1. rewrite A'. auto. }
    destruct (ks_get _ _ _ K (store tr1) (at_time ev) key handle C F2 F1) as (o' & Eo & G1 & G2). rewrite Eo in X. inv X. auto.
  Qed.

  (** ** C158: a confirmation means what it meant in one process *)
  Theorem C158_confirmed : forall tr i now c r, runs tr -> all_fine tr -> nth_error jobs i = Some (JCheck now c) ->
    finished (JCheck now c) (answers_to i tr) = Some (Ok (AResponse r)) ->
    exists (v : bool) tr2 ev tr1, field_is r (u "is_valid") (Some (if v then u "true" else u "false")) /\
      (* there was a moment, at its first call, when *)
      tr = tr2 ++ ev :: tr1 /\ by_job ev = i /\ answers_to i tr1 = [] /\
      (* it says yes only if the private association was there, verifies the assertion, and was made by a signing job, or by others, or before *)
      (v = true -> exists a, stored dumb_key (ca_assoc_handle c) (store tr1) = Some a /\ now < a_issued a + a_lifetime a /\
         checkMessageSignature hmac a (ca_signed c) = Ok true /\
         ((exists t, In (t, StoreA dumb_key a) h0) \/ others (StoreA dumb_key a) \/ created jobs tr1 a)) /\
      (* and says yes if it was there, has not run out, and verifies the assertion *)
      (forall a, stored dumb_key (ca_assoc_handle c) (store tr1) = Some a -> at_time ev < a_issued a + a_lifetime a -> now < a_issued a + a_lifetime a ->
         checkMessageSignature hmac a (ca_signed c) = Ok true -> v = true).
  Proof using K.
    intros tr i now c r R F J Fi. pose proof Fi as Fi'. unfold ServerConc.finished in Fi'. destruct (next_call _ _ _ _ _); [discriminate|]. injection Fi' as Fi'.
    destruct (check_script hmac pub_ok hash now c _ r Fi') as (o & rest & more & v & O & A & _ & V & W).
    destruct (first_get tr i _ _ _ more o rest R F J O A) as (tr2 & ev & tr1 & E & B & L & G1 & G2).
    exists v, tr2, ev, tr1. split; auto. split; auto. split; auto. split; auto. split.
    - intros Ev. apply W in Ev as (a & -> & RO & Ck). exists a. specialize (G2 a eq_refl). split; auto. split. { apply run_out_false in RO. cbn in RO. destruct (_ <? _) eqn:X; [lia|discriminate]. }
      split; auto. rewrite E in R. apply runs_app in R. eapply private_origin; [|exact G2]. inversion R; auto.
    - intros a Sa T1 T2 Ck. apply W. exists a. rewrite Sa in G1. cbn in G1. destruct (_ <? _) eqn:X in G1; [|lia].
      split. { destruct o as [b|]; cbn in G1; [|discriminate]. destruct (_ <? _) in G1; congruence. }
      split; auto. apply run_out_false. cbn. destruct (now <? _) eqn:Y; [auto|lia].
  Qed.

  (** A check that begins after another one of the same handle has finished says no. *)
  Theorem C158_later_checks : forall tr3 tr2 tr1 i now c r j now' c' r',
    runs (tr3 ++ tr2 ++ tr1) -> all_fine (tr3 ++ tr2 ++ tr1) ->
    nth_error jobs i = Some (JCheck now c) -> nth_error jobs j = Some (JCheck now' c') -> ca_assoc_handle c' = ca_assoc_handle c ->
    (* the one runs within tr2, the other begins in tr3 *)
    answers_to i tr1 = [] -> finished (JCheck now c) (answers_to i (tr2 ++ tr1)) = Some (Ok (AResponse r)) ->
    answers_to j (tr2 ++ tr1) = [] ->
    (* meanwhile nobody stores a private association under the same handle *)
    (forall ev a, In ev (tr3 ++ tr2) -> the_op ev = StoreA dumb_key a -> a_handle a <> ca_assoc_handle c) ->
    finished (JCheck now' c') (answers_to j (tr3 ++ tr2 ++ tr1)) = Some (Ok (AResponse r')) ->
    field_is r' (u "is_valid") (Some (u "false")).
  Proof using K.
    intros tr3 tr2 tr1 i now c r j now' c' r' R F Ji Jj Eh N1 Fi N2 Ns Fj.
    destruct (C158_confirmed _ _ _ _ _ R F Jj Fj) as (v & ta & ev & tb & V & E & B & L & W & _). destruct v; auto. exfalso.
    destruct (W eq_refl) as (a & Sa & _).
    (* the removal of the first check *)
    pose proof Fi as Fi'. unfold ServerConc.finished in Fi'. destruct (next_call _ _ _ _ _); [discriminate|]. injection Fi' as Fi'.
    destruct (check_script hmac pub_ok hash now c _ r Fi') as (o & rest & more & v & O & A & Rm & _).
    apply In_nth_error in Rm as (k & Rm).
    assert (nth_error (asked (fst (with_answers hmac pub_ok hash (JCheck now c) (answers_to i (tr2 ++ tr1))))) (Datatypes.S k) = Some (RemoveA dumb_key (ca_assoc_handle c))) as Rm' by (rewrite A; exact Rm).
    pose proof (runs_app _ _ _ _ _ _ _ _ R) as R2.
    pose proof (finished_asked _ _ _ _ _ _ _ _ Fi Rm') as Lk.
    destruct (nth_call hmac pub_ok hash step s0 h0 others jobs (tr2 ++ tr1) i _ (Datatypes.S k) R2 Ji Lk) as (tc & ev' & td & E' & B' & L' & _ & A' & _). rewrite Rm' in A'. injection A' as A'.
    (* it lies within tr2 *)
    assert (exists tm, td = tm ++ tr1 /\ tr2 = tc ++ ev' :: tm) as (tm & Etd & Etr2).
    { assert (exists x, (tc ++ [ev'] = tr2 ++ x /\ tr1 = x ++ td) \/ (tr2 = (tc ++ [ev']) ++ x /\ td = x ++ tr1)) as (x & X).
      { assert (forall (A : Type) (a b c d : list A), a ++ b = c ++ d -> exists x, (c = a ++ x /\ b = x ++ d) \/ (a = c ++ x /\ d = x ++ b)) as Sp.
        { clear. induction a as [|y a IH]; intros b [|z c'] d H; cbn in *; eauto. inv H. destruct (IH _ _ _ H2) as (x & [(-> & ->)|(-> & ->)]); eauto. }
        apply (Sp _ tr2 tr1 (tc ++ [ev']) td). rewrite <- app_assoc. cbn. congruence. }
      destruct X as [(X1 & X2)|(X1 & X2)]; [|exists x; split; auto; rewrite <- app_assoc in X1; auto].
      exfalso. assert (x = [] \/ exists y, x = y ++ [ev']) as [->|(y & ->)].
      { destruct x as [|z x] using rev_ind; auto. right. rewrite app_assoc in X1. apply app_inj_tail in X1 as (_ & <-). eauto. }
      - rewrite X2 in N1. cbn [app] in N1. rewrite N1 in L'. discriminate.
      - rewrite X2, <- app_assoc, answers_app in N1. cbn [app] in N1. rewrite answers_cons in N1. rewrite B', Nat.eqb_refl in N1. destruct (answers_to i td); discriminate. }
    (* the other's first call is in tr3 *)
    assert (exists tn, tb = tn ++ tr2 ++ tr1 /\ tr3 = ta ++ ev :: tn) as (tn & Etb & Etr3).
    { assert (forall (A : Type) (a b c d : list A), a ++ b = c ++ d -> exists x, (c = a ++ x /\ b = x ++ d) \/ (a = c ++ x /\ d = x ++ b)) as Sp.
      { clear. induction a as [|y a IH]; intros b [|z c'] d H; cbn in *; eauto. inv H. destruct (IH _ _ _ H2) as (x & [(-> & ->)|(-> & ->)]); eauto. }
      destruct (Sp _ tr3 (tr2 ++ tr1) ta (ev :: tb) E) as (x & [(X1 & X2)|(X1 & X2)]).
      - exfalso. assert (answers_to j (x ++ ev :: tb) <> []) as X. { rewrite answers_app, answers_cons, B, Nat.eqb_refl. destruct (answers_to j tb); discriminate. }
        apply X. rewrite <- X2. auto.
      - destruct x as [|z x]; cbn in X2.
        + exfalso. assert (answers_to j (ev :: tb) <> []) as X. { rewrite answers_cons, B, Nat.eqb_refl. destruct (answers_to j tb); discriminate. } apply X. rewrite X2. auto.
        + inv X2. exists x. auto. }
    rewrite Etb, Etr2 in Sa. rewrite app_assoc, store_app in Sa.
    assert (stored dumb_key (ca_assoc_handle c') (calls_of (tn ++ tc) ++ store (ev' :: td)) = Some a) as Sa'.
    { rewrite <- store_app. rewrite <- store_app in Sa. rewrite Etd. rewrite <- Sa. f_equal. f_equal. f_equal. rewrite <- !app_assoc. reflexivity. }
    apply stored_since in Sa'.
    - change (store (ev' :: td)) with ((at_time ev', the_op ev') :: store td) in Sa'. rewrite <- A' in Sa'. cbn [stored] in Sa'. rewrite Eh, !text_eqb_refl in Sa'. discriminate.
    - intros t b H. unfold calls_of in H. apply in_map_iff in H as (e & Ee & H). injection Ee as _ Ee. rewrite Eh. apply (Ns e); auto.
      rewrite Etr3, Etr2. apply in_app_or in H as [H|H]; apply in_or_app; [left; apply in_or_app; right; right; auto|right; apply in_or_app; left; auto].
  Qed.

  (** ** C159: a signed answer *)
  Theorem C159_signed : forall reg tr i now secret uniq r c w, runs tr -> all_fine tr -> nth_error jobs i = Some (JSign now secret uniq r) ->
    mac_bytes hmac -> built reg (rs_fields r) -> rs_request r = RCheckID c -> field_is r (u "mode") (Some (u "id_res")) ->
    (forall f, wire_value (toPostArgs (rs_fields r)) f <> None -> ~ In (u "sig") (splitc 44 f)) ->
    finished (JSign now secret uniq r) (answers_to i tr) = Some (Ok (AWeb w)) ->
    exists a m tr2 ev tr1,
      encode_response (mkResponse (RCheckID c) m) = Ok w /\ checkMessageSignature hmac a m = Ok true /\
      getArg m OPENID_NS (u "assoc_handle") = Ok (Some (a_handle a)) /\
      tr = tr2 ++ ev :: tr1 /\ by_job ev = i /\
      ((* the shared association asked for, which was in the store and had not run out *)
       (exists h, ci_assoc_handle c = Some h /\ h <> [] /\ stored normal_key h (store tr1) = Some a /\ now < a_issued a + a_lifetime a /\
          getArg m OPENID_NS (u "invalidate_handle") = getArg (rs_fields r) OPENID_NS (u "invalidate_handle")) \/
       (* or a private one that the job has made and put into the store *)
       (the_op ev = StoreA dumb_key a /\ (exists ty, known_type ty /\ a = fresh_assoc now secret uniq ty) /\
        stored dumb_key (a_handle a) (store (ev :: tr1)) = Some a /\
        forall h, ci_assoc_handle c = Some h -> h <> [] -> getArg m OPENID_NS (u "invalidate_handle") = Ok (Some h))).
  Proof using K.
    intros reg tr i now secret uniq r c w R F J Mb B Q M Ns Fi. pose proof Fi as Fi'. unfold ServerConc.finished in Fi'. destruct (next_call _ _ _ _ _); [discriminate|]. injection Fi' as Fi'.
    assert (needsSigning r = Ok true) as Nd. { unfold needsSigning. rewrite M. cbn [bind opt_eqb]. rewrite text_eqb_refl. auto. }
    destruct (sign_script hmac pub_ok hash now secret uniq r _ w Fi' Nd) as (a & r1 & m & hd & more & Sm & En & Hd & Cases). cbv zeta in Cases.
    rewrite Q in Hd. cbn in Hd. injection Hd as Hd.
    assert (exists oid, core (rs_fields r) oid) as (oid & C).
    { unfold field_is, getArg, fixNS in M. destruct (getOpenIDNamespace (rs_fields r)) as [v|] eqn:E; [|discriminate].
      exists v. eapply built_core; eauto. }
    assert (forall r1, (r1 = r \/ exists h, setField r (u "invalidate_handle") h = Ok r1) -> signMessage hmac a (rs_fields r1) = Ok m -> 
      rs_request r1 = RCheckID c /\ checkMessageSignature hmac a m = Ok true /\ getArg m OPENID_NS (u "assoc_handle") = Ok (Some (a_handle a)) /\
      getArg m OPENID_NS (u "invalidate_handle") = getArg (rs_fields r1) OPENID_NS (u "invalidate_handle")) as Z.
    { clear r1 Sm En Cases. intros r1 H Sm.
      assert (rs_request r1 = RCheckID c /\ core (rs_fields r1) oid /\ built reg (rs_fields r1) /\
              (forall f, wire_value (toPostArgs (rs_fields r1)) f <> None -> ~ In (u "sig") (splitc 44 f))) as (Q1 & C1 & B1 & Ns1).
      { destruct H as [->|(h & H)]; auto. destruct (setField_core reg r oid (u "invalidate_handle") h C B) as (r2 & E2 & Q2 & C2 & B2 & M2 & N2). rewrite H in E2. inv E2.
        split; [congruence|]. split; auto. split; auto. intros f Hf. destruct (list_eq_dec N.eq_dec f (u "invalidate_handle")) as [->|Ne].
        - vm_compute. intuition discriminate.
        - apply Ns. intros X. apply Hf. unfold wire_value in *. rewrite <- X. apply (post_set_other (rs_fields r) oid (u "invalidate_handle") h); auto; [apply C2|].
          intros Y. apply app_inv_head in Y. auto. }
      pose proof (signMessage_Ok hmac a _ oid m C1 Sm) as SA. destruct SA as [_ C' N' _ _ (m1 & b & C1' & N1' & A1 & _ & A3 & _) _ _]. cbv zeta in A3.
      split; auto. split; [eapply C07_signed_message_verifies; eauto|]. rewrite !(core_get _ _ _ C'), (core_get _ _ _ C1), A3.
      rewrite !(dget_dset_other akey_eqb akey_eqb_eq) by (apply akey_ne; discriminate). rewrite A1, (dget_dset_same akey_eqb akey_eqb_eq).
      rewrite (dget_dset_other akey_eqb akey_eqb_eq) by (apply akey_ne; discriminate). auto. }
    destruct Cases as [(h & rest & Eh & Ne & A & O & RO & ->)|[(h & o & rest & ty & Eh & Ne & A & O & RO & Sf & I & T & Ea)|(ty & Eh & A & -> & T & Ea)]].
    - destruct (first_get tr i _ _ _ more _ rest R F J O A) as (tr2 & ev & tr1 & E & Bi & L & G1 & G2). specialize (G2 a eq_refl).
      destruct (Z r (or_introl eq_refl) Sm) as (Z1 & Z2 & Z3 & Z4). rewrite Z1 in En. exists a, m, tr2, ev, tr1. split; auto. split; auto. split; auto. split; auto. split; auto. left.
      exists h. split; [congruence|]. split; auto. split; auto. split; auto. apply run_out_false in RO. cbn in RO. destruct (_ <? _) eqn:X; [lia|discriminate].
    - destruct (Z r1 (or_intror (ex_intro _ h Sf)) Sm) as (Z1 & Z2 & Z3 & Z4). rewrite Z1 in En.
      apply In_nth_error in I as (k & I). assert (nth_error (asked (fst (with_answers hmac pub_ok hash (JSign now secret uniq r) (answers_to i tr)))) (Datatypes.S k) = Some (StoreA dumb_key a)) as I' by (rewrite A; exact I).
      pose proof (finished_asked _ _ _ _ _ _ _ _ Fi I') as Lk.
      destruct (nth_call hmac pub_ok hash step s0 h0 others jobs tr i _ (Datatypes.S k) R J Lk) as (tr2 & ev & tr1 & E & Bi & _ & _ & A' & _). rewrite I' in A'. injection A' as A'.
      exists a, m, tr2, ev, tr1. split; auto. split; auto. split; auto. split; auto. split; auto. right. split; auto. split; eauto. split.
      { change (store (ev :: tr1)) with ((at_time ev, the_op ev) :: store tr1). rewrite <- A'. cbn [stored]. rewrite !text_eqb_refl. auto. }
      intros h' H' _. assert (h' = h) as -> by congruence. rewrite Z4.
      destruct (setField_core reg r oid (u "invalidate_handle") h C B) as (r2 & E2 & Q2 & C2 & B2 & M2 & N2). rewrite Sf in E2. inv E2.
      rewrite (core_get _ _ _ C2), M2, (dget_dset_same akey_eqb akey_eqb_eq). auto.
    - destruct (Z r (or_introl eq_refl) Sm) as (Z1 & Z2 & Z3 & Z4). rewrite Z1 in En.
      assert (nth_error (asked (fst (with_answers hmac pub_ok hash (JSign now secret uniq r) (answers_to i tr)))) 0 = Some (StoreA dumb_key a)) as I' by (rewrite A; reflexivity).
      pose proof (finished_asked _ _ _ _ _ _ _ _ Fi I') as Lk.
      destruct (nth_call hmac pub_ok hash step s0 h0 others jobs tr i _ 0 R J Lk) as (tr2 & ev & tr1 & E & Bi & _ & _ & A' & _). rewrite I' in A'. injection A' as A'.
      exists a, m, tr2, ev, tr1. split; auto. split; auto. split; auto. split; auto. split; auto. right. split; auto. split; eauto. split.
      { change (store (ev :: tr1)) with ((at_time ev, the_op ev) :: store tr1). rewrite <- A'. cbn [stored]. rewrite !text_eqb_refl. auto. }
      intros h' H' Ne. destruct Eh as [Eh|Eh]; congruence.
  Qed.
End Over.
Print Assumptions C158_confirmed.
Print Assumptions C158_later_checks.
Print Assumptions C159_signed.

(** ** Concrete runs *)
(** The login of C34_example: signed by job 0, and the same assertion checked by jobs 1 and 2. *)
Definition no_keys (a b c : Z) : bool := true.
Definition no_hash (a : hash_alg) (b : bytes) : bytes := b.
Definition the_check : checkauth :=
  match decode plain_env [] (fun _ _ => true) check_query (u "http://op.example/") 1 with
  | DOk (Some (RCheckAuth c)) => c | _ => mkCheckAuth empty_msg [] empty_msg None end.
Definition the_login : response := match login_response with Ok r => r | Raise _ => mkResponse login_request empty_msg end.
Definition three : list job :=
  [JSign 1700000000 secret0 [9; 8; 7; 6]%N the_login; JCheck 1700000001 the_check; JCheck 1700000002 the_check].
Definition played (who : list (nat * Z)) : list call :=
  match go (next_call long_mac no_keys no_hash) mem_step mem_init [] three who [] with Some tr => tr | None => [] end.
Definition says (tr : list call) (i : nat) : option (option text) :=
  match nth_error three i with
  | Some j => match finished long_mac no_keys no_hash j (answers_to i tr) with
              | Some (Ok (AResponse r)) => match getArg (rs_fields r) OPENID_NS (u "is_valid") with Ok v => Some v | _ => None end
              | _ => None end
  | None => None end.
Definition T (n : Z) : Z := 1700000000 + n.
(** One after the other: yes, then no. *)
Definition in_turn : list (nat * Z) := [(0%nat, T 0); (0%nat, T 0); (1%nat, T 1); (1%nat, T 1); (1%nat, T 1); (2%nat, T 2); (2%nat, T 2); (2%nat, T 2)].
(** Both look before either removes. *)
Definition at_once : list (nat * Z) := [(0%nat, T 0); (0%nat, T 0); (1%nat, T 1); (2%nat, T 1); (1%nat, T 1); (2%nat, T 2); (1%nat, T 2); (2%nat, T 2)].
Lemma played_runs who tr : go (next_call long_mac no_keys no_hash) mem_step mem_init [] three who [] = Some tr ->
  played who = tr /\ runs (next_call long_mac no_keys no_hash) mem_step mem_init [] (fun _ => False) three tr.
Proof. intros H. unfold played. rewrite H. split; auto. eapply go_runs; [apply runs_none|exact H]. Qed.

Example C158_example :
  runs (next_call long_mac no_keys no_hash) mem_step mem_init [] (fun _ => False) three (played in_turn) /\
  says (played in_turn) 1 = Some (Some (u "true")) /\ says (played in_turn) 2 = Some (Some (u "false")).
Proof.
  assert (exists tr, go (next_call long_mac no_keys no_hash) mem_step mem_init [] three in_turn [] = Some tr) as (tr & H).
  { exists (played in_turn). vm_compute. reflexivity. }
  destruct (played_runs _ _ H) as (-> & R). split; [exact R|]. destruct (played_runs _ _ H) as (<- & _). split; vm_compute; reflexivity.
Qed.
Example C159_example : exists w, finished long_mac no_keys no_hash (nth 0 three (JCheck 0 the_check)) (answers_to 0 (played at_once)) = Some (Ok (AWeb w)) /\
  snd run_login = Ok w.
Proof. exists (match snd run_login with Ok w => w | Raise _ => mkWeb 0 None (BText []) end). split; vm_compute; reflexivity. Qed.

(** ** C160: that an assertion is confirmed at most once is not true of processes that overlap:
    both look up the association before either removes it. *)
Theorem C160_once_refuted : exists jobs tr now now' c r r',
  runs (next_call long_mac no_keys no_hash) mem_step mem_init [] (fun _ => False) jobs tr /\
  nth_error jobs 1 = Some (JCheck now c) /\ nth_error jobs 2 = Some (JCheck now' c) /\
  finished long_mac no_keys no_hash (JCheck now c) (answers_to 1 tr) = Some (Ok (AResponse r)) /\
  finished long_mac no_keys no_hash (JCheck now' c) (answers_to 2 tr) = Some (Ok (AResponse r')) /\
  field_is r (u "is_valid") (Some (u "true")) /\ field_is r' (u "is_valid") (Some (u "true")) /\
  (* the private association was stored once only *)
  List.length (filter (fun e => match the_op e with StoreA _ _ => true | _ => false end) tr) = 1%nat.
Proof.
  assert (exists tr, go (next_call long_mac no_keys no_hash) mem_step mem_init [] three at_once [] = Some tr) as (tr & H).
  { exists (played at_once). vm_compute. reflexivity. }
  destruct (played_runs _ _ H) as (E & R).
  pose (answer_of := fun i => match finished long_mac no_keys no_hash (nth i three (JCheck 0 the_check)) (answers_to i (played at_once)) with Some (Ok (AResponse r)) => r | _ => the_login end).
  exists three, tr, 1700000001, 1700000002, the_check, (answer_of 1%nat), (answer_of 2%nat). split; [exact R|]. clear R. subst tr.
  split; [reflexivity|]. split; [reflexivity|].
  split; [vm_compute; reflexivity|]. split; [vm_compute; reflexivity|]. split; [vm_compute; reflexivity|]. split; [vm_compute; reflexivity|]. vm_compute. reflexivity.
Qed.
Print Assumptions C160_once_refuted.
