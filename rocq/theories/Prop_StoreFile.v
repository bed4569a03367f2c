(** C20 (sequential part), C22, C23, C26 for the file store. *)
From Coq Require Import Lia ZifyBool ZifyN ZifyNat.
From Verif Require Import Py PyFacts Utf8 Utf8Facts CryptUtil CryptUtilFacts KVForm Prop_KVForm Association AssociationFacts Prop_Association.
From Verif Require Import Nonce Store StoreSpec StoreFacts FileStore FileStoreFacts Prop_StoreMem Prop_StoreSql Prop_FileNames.
Open Scope Z_scope.
Local Arguments u : simpl never.

(** URLs whose scheme is free of '-', '/' and NUL (see [C78_outside_refuted], [C78_prefix_refuted] for the others). *)
Definition file_url (url : text) : Prop :=
  sendable url /\ exists proto rest, cut_scheme url = Some (proto, rest) /\
    ~ In 45%N proto /\ ~ In 47%N proto /\ ~ In 0%N proto.
(** Associations that serialize ([C06_round_trip]) and have a handle. *)
Definition file_assoc (a : assoc) : Prop :=
  sendable (a_handle a) /\ a_handle a <> [] /\ Forall isbyte (a_secret a) /\ known_type (a_type a) /\
  ~ sp_ws (a_handle a) /\ ~ In 10%N (a_handle a).
Definition file_op (o : op) : Prop :=
  match o with
  | StoreA url a => file_url url /\ file_assoc a
  | GetA url h => file_url url /\ (forall x, h = Some x -> sendable x)
  | RemoveA url h => file_url url /\ sendable h
  | UseN url ts salt => (url = [] \/ file_url url) /\ 0 <= ts /\ sendable salt
  | CleanN | CleanA => True
  end.
(** The texts that are hashed into file names. *)
Definition op_texts (o : op) : list text :=
  match o with
  | StoreA url a => [url; a_handle a]
  | GetA url (Some h) => [url; h]
  | GetA url None => [url]
  | RemoveA url h => [url; h]
  | UseN url ts salt => [url; salt]
  | CleanN | CleanA => []
  end.
Definition texts (h : history) : list text := flat_map (fun e => op_texts (snd e)) h.
(** sha1 keeps these texts apart. *)
Definition distinct_on (sha1 : bytes -> bytes) (T : list text) : Prop :=
  forall a b x y, In a T -> In b T -> encode a = Ok x -> encode b = Ok y -> sha1 x = sha1 y -> a = b.

Lemma sendable_app a b : sendable a -> sendable b -> sendable (a ++ b).
Proof. intros (x & X) (y & Y). exists (x ++ y). rewrite encode_app, X, Y. auto. Qed.
Lemma sendable_ascii s : forallb (fun c => (c <? 128)%N) s = true -> sendable s.
Proof. intros H. exists s. apply encode_ascii; auto. Qed.
Lemma seqToKV_sendable st ps s : seqToKV st ps = Ok s -> Forall (fun p => sendable (fst p) /\ sendable (snd p)) ps -> sendable s.
Proof.
  unfold seqToKV. intros H F. binv H. inv H. revert a E. induction F as [|[k v] ps (H1 & H2) F IH]; intros a E; cbn [mapM] in E.
  - inv E. exists []. reflexivity.
  - binv E. binv E. inv E. cbn [concat]. apply sendable_app; [|apply IH; auto]. unfold seqToKV_line in E0. simpl in H1, H2.
    destruct (memc newline k); [discriminate|]. destruct (memc colon k); [discriminate|]. destruct (st && _); [discriminate|].
    destruct (memc newline v); [discriminate|]. destruct (st && _); [discriminate|]. inv E0.
    apply sendable_app; [auto|]. apply (sendable_app [colon]); [exists [colon]; reflexivity|]. apply sendable_app; [auto|exists [newline]; reflexivity].
Qed.
Lemma sendable_u x : forallb (fun c => (c <? 128)%N) (u x) = true -> sendable (u x).
Proof. apply sendable_ascii. Qed.
Lemma sendable_Z z : sendable (str_of_Z z).
Proof.
  assert (forall n, sendable (str_of_N n)) as K.
  { intros n. apply sendable_ascii. pose proof (str_of_N_isdigit n) as D. rewrite forallb_forall in *. intros c H. specialize (D _ H).
    unfold isdigit in D. lia. }
  destruct z as [|p|p]; simpl; auto; [apply (K 0%N)|]. apply (sendable_app [45%N]); auto. exists [45%N]. reflexivity.
Qed.

Section File.
  Variable sha1 : bytes -> bytes.
  Hypothesis digest : digest20 sha1.
  Variable T : list text.
  Hypothesis distinct : distinct_on sha1 T.

  Lemma fname_ok url handle : file_url url -> sendable handle ->
    exists name, getAssociationFilename sha1 url handle = Ok name /\ path_ok name = true.
  Proof using digest.
    intros ((bu & Eu) & proto & rest & C & D1 & D2 & D3) (bh & Eh).
    assert (exists name, getAssociationFilename sha1 url handle = Ok name) as (name & N).
    { unfold getAssociationFilename, safe64. rewrite C, Eu, Eh. cbn [bind]. destruct (truthy handle); cbn [bind]; eauto. }
    exists name. split; auto. destruct (C25_inside sha1 digest _ _ _ _ _ N C) as (I1 & I2).
    unfold path_ok. apply negb_true_iff, orb_false_iff. split; apply memc_false; tauto.
  Qed.
  Lemma fname_inj url1 h1 url2 h2 name : In url1 T -> In url2 T -> In h1 T -> In h2 T ->
    getAssociationFilename sha1 url1 h1 = Ok name -> getAssociationFilename sha1 url2 h2 = Ok name -> url1 = url2 /\ h1 = h2.
  Proof using digest distinct.
    intros U1 U2 H1 H2 N1 N2. destruct (C25_injective sha1 digest _ _ _ _ _ N1 N2) as [?|(x & y & Ne & E & [(A & B)|(A & B)])]; auto; exfalso.
    - pose proof (distinct _ _ _ _ U1 U2 A B E). subst. congruence.
    - pose proof (distinct _ _ _ _ H1 H2 A B E). subst. congruence.
  Qed.
  Lemma fname_prefix url1 url2 h2 prefix name : In url1 T -> In url2 T -> file_url url1 -> file_url url2 ->
    getAssociationFilename sha1 url1 [] = Ok prefix -> getAssociationFilename sha1 url2 h2 = Ok name ->
    (startswith name prefix = true <-> url1 = url2).
  Proof using digest distinct.
    intros U1 U2 (_ & p1 & r1 & C1 & D1 & _) (_ & p2 & r2 & C2 & D2 & _) N1 N2. split.
    - intros SW. destruct (C25_prefix_sound sha1 digest _ _ _ _ _ _ _ _ _ N1 N2 C1 C2 D1 D2 SW) as [?|(x & y & Ne & E & A & B)]; auto.
      exfalso. pose proof (distinct _ _ _ _ U1 U2 A B E). subst. congruence.
    - intros <-. eapply C25_prefix_complete; eauto.
  Qed.

  (** What is in a file written by storeAssociation. *)
  Definition file_of (url : text) (a : assoc) (f : text * bytes) : Prop :=
    file_url url /\ file_assoc a /\ In url T /\ In (a_handle a) T /\
    getAssociationFilename sha1 url (a_handle a) = Ok (fst f) /\ read_assoc (snd f) = Ok (Some a).
  Lemma store_plan_ok url a : file_url url -> file_assoc a -> In url T -> In (a_handle a) T ->
    exists f, store_plan sha1 url a = Ok f /\ path_ok (fst f) = true /\ file_of url a f.
  Proof using digest.
    intros Hu Ha T1 T2. pose proof Ha as (A1 & A2 & A3 & A4 & A5 & A6).
    destruct (C06_round_trip a A3 A4 A5 A6) as (s & S & DS). destruct (fname_ok url (a_handle a) Hu A1) as (name & N & P).
    assert (exists b, encode s = Ok b) as (b & E).
    { unfold serialize in S. apply (seqToKV_sendable _ _ _ S). repeat (apply Forall_cons || apply Forall_nil); split; cbn [fst snd];
      try (apply sendable_u; vm_compute; reflexivity); auto using sendable_Z.
      - apply sendable_ascii. apply b2a_ascii; auto.
      - destruct A4 as [-> | ->]; apply sendable_u; vm_compute; reflexivity. }
    unfold store_plan. rewrite S. cbn [bind]. rewrite N. cbn [bind]. rewrite E. cbn [bind]. exists (name, b). split; auto. split; auto.
    repeat (split; auto). unfold read_assoc. simpl. rewrite (decode_encode _ _ E). cbn [bind]. rewrite DS. auto.
  Qed.

  Definition dir_inv (d : dir) (h : history) (t : Z) : Prop :=
    NoDup (dkeys d) /\
    (forall f, In f d -> exists url a, file_of url a f /\ stored url (a_handle a) h = Some a) /\
    (forall url handle a, stored url handle h = Some a -> expired a t = false ->
       exists f, In f d /\ file_of url a f /\ a_handle a = handle).

  Lemma dir_inv_later d h t t' : t <= t' -> dir_inv d h t -> dir_inv d h t'.
  Proof using.
    intros L (I1 & I2 & I3). split; [|split]; auto. intros url handle a S X. apply I3; auto.
    destruct (expired a t) eqn:E; auto. rewrite (expired_mono _ _ _ L E) in X. discriminate.
  Qed.
  Definition shrinks (t : Z) (d d' : dir) : Prop :=
    NoDup (dkeys d') /\ (forall f, In f d' -> In f d) /\
    (forall f a, In f d -> read_assoc (snd f) = Ok (Some a) -> expired a t = false -> In f d').
  Lemma shrinks_refl t d : NoDup (dkeys d) -> shrinks t d d.
  Proof using. intros N. split; auto. Qed.
  Lemma shrinks_trans t d1 d2 d3 : shrinks t d1 d2 -> shrinks t d2 d3 -> shrinks t d1 d3.
  Proof using. intros (A1 & A2 & A3) (B1 & B2 & B3). split; auto. split; auto. intros; eapply B3; eauto. Qed.
  Lemma dir_inv_shrink d d' h t : dir_inv d h t -> shrinks t d d' -> dir_inv d' h t.
  Proof using.
    intros (I1 & I2 & I3) (S1 & S2 & S3). split; [|split]; auto. intros url handle a S X.
    destruct (I3 _ _ _ S X) as (f & H1 & H2 & H3). exists f. split; auto. eapply S3; eauto. apply H2.
  Qed.
  Lemma shrinks_del t d name data a : NoDup (dkeys d) -> In (name, data) d -> read_assoc data = Ok (Some a) -> expired a t = true ->
    shrinks t d (ddel text_eqb name d).
  Proof using.
    intros N Hin R X. split; [apply NoDup_ddel; auto|]. split; [intros f; apply In_ddel_sub|].
    intros [n' d'] b Hf Rb Xb. apply (dget_In text_eqb text_eqb_eq). apply (In_dget text_eqb text_eqb_eq _ _ _ N) in Hf as G.
    rewrite (dget_ddel text_eqb text_eqb_eq) by auto. destruct (text_eqb n' name) eqn:E; auto. exfalso.
    apply text_eqb_eq in E. subst n'. apply (In_dget text_eqb text_eqb_eq _ _ _ N) in Hin. simpl in Rb. congruence.
  Qed.

  (** Reading one file. *)
  Lemma get_file_spec d now name data a : NoDup (dkeys d) -> path_ok name = true -> In (name, data) d -> read_assoc data = Ok (Some a) ->
    exists d', get_file d now name = Ok (d', if expired a now then None else Some a) /\ shrinks now d d' /\
               (forall n x, n <> name -> In (n, x) d -> In (n, x) d').
  Proof using.
    intros N P Hin R. unfold get_file. rewrite P. cbn [negb].
    rewrite (In_dget text_eqb text_eqb_eq _ _ _ N Hin), R. cbn [bind]. destruct (expired a now) eqn:X.
    - eexists. split; [reflexivity|]. split; [eapply shrinks_del; eauto|]. intros n x Ne Hx.
      apply (dget_In text_eqb text_eqb_eq). rewrite (dget_ddel_other text_eqb text_eqb_eq) by auto. apply (In_dget text_eqb text_eqb_eq); auto.
    - eexists. split; [reflexivity|]. split; [apply shrinks_refl; auto|auto].
  Qed.

  Lemma file_of_fun url a b f : file_of url a f -> file_of url b f -> a = b.
  Proof using. intros (_ & _ & _ & _ & _ & A) (_ & _ & _ & _ & _ & B). congruence. Qed.
  Lemma file_of_path url a f : file_of url a f -> path_ok (fst f) = true.
  Proof using digest.
    intros (A & B & _ & _ & N & _). destruct (fname_ok url (a_handle a) A) as (name & N' & P); [apply B|]. congruence.
  Qed.

  (** The loop over the matching files. *)
  Lemma get_matching_spec now names : forall d acc, NoDup (dkeys d) -> NoDup names ->
    (forall n, In n names -> exists url a data, In (n, data) d /\ file_of url a (n, data)) ->
    exists d' l, foldM (get_matching now) (d, acc) names = Ok (d', acc ++ l) /\ shrinks now d d' /\
      (forall a, In a l <-> exists n url data, In n names /\ In (n, data) d /\ file_of url a (n, data) /\ expired a now = false).
  Proof using digest.
    induction names as [|n names IH]; intros d acc N NN H.
    - exists d, []. simpl. rewrite app_nil_r. split; auto. split; [apply shrinks_refl; auto|]. intros a. split; [tauto|].
      intros (n & _ & _ & [] & _).
    - destruct (H n (or_introl eq_refl)) as (url & a & data & Hin & F). inv NN.
      destruct (get_file_spec d now n data a N) as (d1 & G & S1 & O); auto; [apply (file_of_path _ _ _ F)|apply F|].
      cbn [foldM]. unfold get_matching at 1. cbn [fst snd]. rewrite G. cbn [bind fst snd].
      assert (forall n0, In n0 names -> exists url a data, In (n0, data) d1 /\ file_of url a (n0, data)) as H'.
      { intros n0 H0. destruct (H n0 (or_intror H0)) as (url0 & a0 & data0 & Hin0 & F0). exists url0, a0, data0. split; auto.
        apply O; auto. intros ->. auto. }
      assert (forall b n0 url0 data0, In n0 names -> file_of url0 b (n0, data0) -> In (n0, data0) d1 <-> In (n0, data0) d) as Eq.
      { intros b n0 url0 data0 H0 F0. split; [apply S1|]. intros. apply O; auto. intros ->. auto. }
      destruct (expired a now) eqn:X.
      + destruct (IH d1 acc) as (d' & l & E & S & M); auto; [apply S1|]. exists d', l. split; auto. split; [eapply shrinks_trans; eauto|].
        intros b. rewrite M. split.
        * intros (n0 & url0 & data0 & I1 & I2 & I3 & I4). exists n0, url0, data0. split; [right; auto|]. split; [apply S1; auto|auto].
        * intros (n0 & url0 & data0 & [<-|I1] & I2 & I3 & I4).
          -- exfalso. assert (data0 = data) as -> by (apply (In_dget text_eqb text_eqb_eq _ _ _ N) in Hin; apply (In_dget text_eqb text_eqb_eq _ _ _ N) in I2; congruence).
             destruct F as (_ & _ & _ & _ & _ & F). destruct I3 as (_ & _ & _ & _ & _ & I3). congruence.
          -- exists n0, url0, data0. split; auto. split; auto. eapply Eq; eauto.
      + destruct (IH d1 (acc ++ [a])) as (d' & l & E & S & M); auto; [apply S1|]. exists d', (a :: l). rewrite <- app_assoc in E. split; [exact E|].
        split; [eapply shrinks_trans; eauto|]. intros b. simpl. rewrite M. split.
        * intros [<-|(n0 & url0 & data0 & I1 & I2 & I3 & I4)].
          -- exists n, url, data. auto.
          -- exists n0, url0, data0. split; [right; auto|]. split; [apply S1; auto|auto].
        * intros (n0 & url0 & data0 & [<-|I1] & I2 & I3 & I4).
          -- left. assert (data0 = data) as -> by (apply (In_dget text_eqb text_eqb_eq _ _ _ N) in Hin; apply (In_dget text_eqb text_eqb_eq _ _ _ N) in I2; congruence).
             destruct F as (_ & _ & _ & _ & _ & F). destruct I3 as (_ & _ & _ & _ & _ & I3). congruence.
          -- right. exists n0, url0, data0. split; auto. split; auto. eapply Eq; eauto.
  Qed.

  Lemma basename_path name : path_ok name = true -> basename name = name.
  Proof using.
    unfold path_ok, basename. intros H. apply negb_true_iff, orb_false_iff in H as (H & _).
    assert (rcut 47%N name = None) as -> by (apply rcut_None; apply memc_false; auto). auto.
  Qed.

  Definition handle_of (o : option text) : text := match o with None => [] | Some h => h end.
  Lemma file_get_spec s h t0 now url handle :
    file_url url -> sendable (handle_of handle) -> In url T -> (handle_of handle <> [] -> In (handle_of handle) T) ->
    dir_inv (f_assocs s) h t0 -> t0 <= now ->
    exists l s',
      (forall a, In a l <-> stored url (a_handle a) h = Some a /\ expired a now = false /\
                            (handle_of handle <> [] -> a_handle a = handle_of handle)) /\
      file_get sha1 s now url handle = (s', sorted_last l) /\
      f_nonces s' = f_nonces s /\ dir_inv (f_assocs s') h now /\ shrinks now (f_assocs s) (f_assocs s').
  Proof using digest distinct.
    intros Hu Hs Tu Th I L. pose proof (dir_inv_later _ _ _ _ L I) as I'. pose proof I' as (I1 & I2 & I3).
    unfold file_get. fold (handle_of handle). set (hd := handle_of handle) in *.
    destruct (fname_ok url hd Hu Hs) as (name & N & P). rewrite N. destruct (truthy hd) eqn:Q.
    - apply truthy_true in Q. specialize (Th Q).
      destruct (stored url hd h) as [a|] eqn:S; [destruct (dget text_eqb name (f_assocs s)) as [data|] eqn:G|].
      + pose proof (dget_In text_eqb text_eqb_eq _ _ _ G) as Hin. destruct (I2 _ Hin) as (url' & a' & F & S'). pose proof F as (F1 & F2 & F3 & F4 & F5 & F6).
        simpl in F5, F6. destruct (fname_inj url hd url' (a_handle a') name) as (<- & E); auto.
        assert (a' = a) as -> by congruence.
        destruct (get_file_spec (f_assocs s) now name data a I1 P Hin F6) as (d' & GF & SH & _). rewrite GF.
        exists (if expired a now then [] else [a]). eexists. split; [|split; [|split; [|split]]].
        * intros b. split.
          -- destruct (expired a now) eqn:X; [intros []|]. intros [<-|[]]. rewrite <- E. auto.
          -- intros (B1 & B2 & B3). specialize (B3 Q). rewrite B3 in B1. assert (b = a) as -> by congruence. rewrite B2. left. auto.
        * destruct (expired a now); reflexivity.
        * reflexivity.
        * simpl. eapply dir_inv_shrink; eauto.
        * exact SH.
      + assert (expired a now = true) as X.
        { destruct (expired a now) eqn:X; auto. destruct (I3 _ _ _ S X) as (f & B1 & B2 & B3). exfalso.
          pose proof B2 as (_ & _ & _ & _ & B4 & _). rewrite B3 in B4. rewrite N in B4. inv B4.
          destruct f as [n d]. simpl in G. apply (In_dget text_eqb text_eqb_eq _ _ _ I1) in B1. congruence. }
        unfold get_file. rewrite P, G. cbn [negb]. exists [], (mkFs (f_assocs s) (f_nonces s)). split; [|split; [|split; [|split]]]; auto.
        * intros b. split; [intros []|]. intros (B1 & B2 & B3). specialize (B3 Q). rewrite B3 in B1. assert (b = a) as -> by congruence. congruence.
        * apply shrinks_refl; auto.
      + assert (dget text_eqb name (f_assocs s) = None) as G.
        { destruct (dget text_eqb name (f_assocs s)) as [data|] eqn:G; auto. exfalso.
          pose proof (dget_In text_eqb text_eqb_eq _ _ _ G) as Hin. destruct (I2 _ Hin) as (url' & a' & F & S'). pose proof F as (F1 & F2 & F3 & F4 & F5 & F6).
          simpl in F5, F6. destruct (fname_inj url hd url' (a_handle a') name) as (<- & E); auto. congruence. }
        unfold get_file. rewrite P, G. cbn [negb]. exists [], (mkFs (f_assocs s) (f_nonces s)). split; [|split; [|split; [|split]]]; auto.
        * intros b. split; [intros []|]. intros (B1 & B2 & B3). specialize (B3 Q). rewrite B3 in B1. congruence.
        * apply shrinks_refl; auto.
    - apply truthy_false in Q. rewrite (basename_path _ P).
      set (names := filter (fun n => startswith n name) (dkeys (f_assocs s))).
      assert (forall n, In n names -> exists url a data, In (n, data) (f_assocs s) /\ file_of url a (n, data)) as H.
      { intros n Hn. apply filter_In in Hn as (Hn & _). unfold dkeys in Hn. apply in_map_iff in Hn as ([n' data] & E & Hin). simpl in E. subst n'.
        destruct (I2 _ Hin) as (url' & a' & F & _). exists url', a', data. auto. }
      destruct (get_matching_spec now names (f_assocs s) [] I1 (NoDup_filter _ I1) H) as (d' & l & E & SH & M).
      match goal with |- context [foldM ?f ?x ?y] => replace (foldM f x y) with (Ok (d', l)) by (symmetry; exact E) end.
      exists l. eexists. split; [|split; [reflexivity|split; [reflexivity|split; [simpl; eapply dir_inv_shrink; eauto|exact SH]]]].
      intros a. rewrite M. rewrite Q in N. split.
      + intros (n & url' & data & A1 & A2 & A3 & A4). apply filter_In in A1 as (_ & SW). destruct (I2 _ A2) as (url2 & a2 & F2 & S2).
        pose proof F2 as (G1 & G2 & G3 & G4 & G5 & G6). simpl in G5, G6.
        assert (url = url2) as <- by (eapply (fname_prefix url url2); eauto).
        assert (a2 = a) as -> by (destruct A3 as (_ & _ & _ & _ & _ & A3); simpl in A3; congruence).
        split; auto. split; auto. congruence.
      + intros (S & X & _). destruct (I3 _ _ _ S X) as ([n data] & B1 & B2 & _). pose proof B2 as (G1 & G2 & G3 & G4 & G5 & G6). simpl in G5, G6.
        exists n, url, data. split; [|auto]. apply filter_In. split; [apply (in_map fst) in B1; auto|].
        eapply (fname_prefix url url); eauto.
  Qed.

  (** ** Nonces *)
  Lemma nname_parts url ts salt name : nonceFilename sha1 url ts salt = Ok name ->
    exists proto rest uh sh,
      (if truthy url then match cut_scheme url with Some p => Ok p | None => Raise ValueError end else Ok ([], [])) = Ok (proto, rest) /\
      safe64 sha1 url = Ok uh /\ safe64 sha1 salt = Ok sh /\
      name = hex08 ts ++ u "-" ++ proto ++ u "-" ++ filenameEscape (before_slash rest) ++ u "-" ++ uh ++ u "-" ++ sh.
  Proof using.
    unfold nonceFilename. intros H. binv H. destruct a as [proto rest]. cbn [fst snd] in H. binv H. binv H. inv H.
    exists proto, rest, a, a0. auto.
  Qed.
  Lemma nname_ok url ts salt : (url = [] \/ file_url url) -> 0 <= ts -> sendable salt ->
    exists name, nonceFilename sha1 url ts salt = Ok name /\ path_ok name = true /\ nonce_file_ts name = Ok ts.
  Proof using digest.
    intros Hu Ht (bs & Es).
    assert (exists proto rest, (if truthy url then match cut_scheme url with Some p => Ok p | None => Raise ValueError end else Ok ([], [])) = Ok (proto, rest) /\
             ~ In 47%N proto /\ ~ In 0%N proto /\ sendable url) as (proto & rest & C & D1 & D2 & (bu & Eu)).
    { destruct Hu as [->|((bu & Eu) & proto & rest & C & D1 & D2 & D3)].
      - exists [], []. split; auto. split; [intros []|]. split; [intros []|]. exists []. reflexivity.
      - destruct (truthy url).
        + rewrite C. exists proto, rest. split; auto. split; auto. split; auto. exists bu; auto.
        + exists [], []. split; auto. split; [intros []|]. split; [intros []|]. exists bu; auto. }
    assert (exists uh, safe64 sha1 url = Ok uh) as (uh & U) by (unfold safe64; rewrite Eu; cbn [bind]; eauto).
    assert (exists sh, safe64 sha1 salt = Ok sh) as (sh & S) by (unfold safe64; rewrite Es; cbn [bind]; eauto).
    unfold nonceFilename. rewrite C. cbn [bind fst snd]. rewrite U, S. cbn [bind]. eexists. split; [reflexivity|].
    pose proof (hex08_tame ts Ht) as T1. pose proof (safe64_tame sha1 digest _ _ U) as T2. pose proof (safe64_tame sha1 digest _ _ S) as T3.
    pose proof (escape_tame (before_slash rest)) as T4. split.
    - assert (forall c, c = 47%N \/ c = 0%N -> ~ In c (hex08 ts ++ u "-" ++ proto ++ u "-" ++ filenameEscape (before_slash rest) ++ u "-" ++ uh ++ u "-" ++ sh)) as K.
      { intros c Hc. assert (forbidden c) as F by (unfold forbidden; tauto). rewrite !in_app_iff. change (u "-") with [45%N]. simpl.
        intros [H|[[<-|[]]|[H|[[<-|[]]|[H|[[<-|[]]|[H|[[<-|[]]|H]]]]]]]]; try (destruct Hc; discriminate).
        - destruct (T1 _ H F). - destruct Hc as [-> | ->]; auto. - destruct (T4 _ H F). - destruct (T2 _ H F). - destruct (T3 _ H F). }
      unfold path_ok. apply negb_true_iff, orb_false_iff. split; apply memc_false; auto.
    - unfold nonce_file_ts. change (u "-" ++ ?x) with (45%N :: x). rewrite cut_app by (apply tame_dash; auto). apply hex08_int; auto.
  Qed.
  Lemma nname_inj url1 ts1 salt1 url2 ts2 salt2 name :
    In url1 T -> In url2 T -> In salt1 T -> In salt2 T ->
    nonce_file_ts name = Ok ts1 -> nonce_file_ts name = Ok ts2 ->
    nonceFilename sha1 url1 ts1 salt1 = Ok name -> nonceFilename sha1 url2 ts2 salt2 = Ok name ->
    url1 = url2 /\ ts1 = ts2 /\ salt1 = salt2.
  Proof using digest distinct.
    intros U1 U2 S1 S2 N1 N2 H1 H2. assert (ts1 = ts2) as <- by congruence.
    apply nname_parts in H1 as (p1 & r1 & uh1 & sh1 & C1 & A1 & B1 & E1).
    apply nname_parts in H2 as (p2 & r2 & uh2 & sh2 & C2 & A2 & B2 & E2). rewrite E1 in E2.
    change (hex08 ts1 ++ u "-" ++ ?x) with (hex08 ts1 ++ (u "-" ++ x)) in E2. rewrite !app4, !app_assoc in E2. rewrite <- !(app_assoc _ (u "-")) in E2.
    rewrite !app_assoc in E2.
    rewrite <- (app_assoc _ (u "-") sh1), <- (app_assoc _ (u "-") sh2) in E2.
    apply last_dash in E2 as (E2 & <-); [|apply tame_dash; eapply safe64_tame; eauto|apply tame_dash; eapply safe64_tame; eauto].
    rewrite <- (app_assoc _ (u "-") uh1), <- (app_assoc _ (u "-") uh2) in E2.
    apply last_dash in E2 as (_ & <-); [|apply tame_dash; eapply safe64_tame; eauto|apply tame_dash; eapply safe64_tame; eauto].
    destruct (safe64_inj sha1 digest _ _ _ A1 A2) as (x & y & X & Y & XY). destruct (safe64_inj sha1 digest _ _ _ B1 B2) as (x' & y' & X' & Y' & XY').
    split; [eapply (distinct url1 url2); eauto|]. split; auto. eapply (distinct salt1 salt2); eauto.
  Qed.

  (** A nonce file and the call that made it. *)
  Definition nonce_of (url : text) (ts : Z) (salt : text) (name : text) : Prop :=
    (url = [] \/ file_url url) /\ 0 <= ts /\ sendable salt /\ In url T /\ In salt T /\ nonceFilename sha1 url ts salt = Ok name.
  Lemma nonce_of_ok url ts salt : (url = [] \/ file_url url) -> 0 <= ts -> sendable salt -> In url T -> In salt T ->
    exists name, nonce_of url ts salt name /\ path_ok name = true.
  Proof using digest.
    intros A B C D E. destruct (nname_ok url ts salt A B C) as (name & N & P & _). exists name. split; auto. repeat split; auto.
  Qed.
  Lemma nonce_of_ts url ts salt name : nonce_of url ts salt name -> nonce_file_ts name = Ok ts.
  Proof using digest.
    intros (A & B & C & _ & _ & N). destruct (nname_ok url ts salt A B C) as (name' & N' & _ & R). congruence.
  Qed.
  Lemma nonce_of_inj url1 ts1 salt1 url2 ts2 salt2 name : nonce_of url1 ts1 salt1 name -> nonce_of url2 ts2 salt2 name ->
    url1 = url2 /\ ts1 = ts2 /\ salt1 = salt2.
  Proof using digest distinct.
    intros H1 H2. pose proof (nonce_of_ts _ _ _ _ H1) as R1. pose proof (nonce_of_ts _ _ _ _ H2) as R2.
    destruct H1 as (_ & _ & _ & A1 & A2 & A3). destruct H2 as (_ & _ & _ & B1 & B2 & B3). eapply nname_inj; eauto.
  Qed.

  Definition fop (o : op) : Prop := file_op o /\ incl (op_texts o) T.
  Definition fhist (h : history) : Prop := Forall (fun e => fop (snd e)) h.

  Definition ndir_inv (d : dir) (h : history) (t : Z) : Prop :=
    NoDup (dkeys d) /\
    (forall name, In name (dkeys d) -> exists url ts salt, nonce_of url ts salt name /\ used url ts salt h = true) /\
    (forall url ts salt name, used url ts salt h = true -> in_window t ts = true -> nonce_of url ts salt name -> In name (dkeys d)).
  Lemma ndir_inv_later d h t t' : clock t h -> t <= t' -> ndir_inv d h t -> ndir_inv d h t'.
  Proof using.
    intros C L (I1 & I2 & I3). split; auto. split; auto. intros url ts salt name U W N. eapply I3; eauto. eapply window_later; eauto.
  Qed.
  Lemma ndir_inv_other d h t o : (forall url ts salt, o <> UseN url ts salt) -> ndir_inv d h t -> ndir_inv d ((t, o) :: h) t.
  Proof using.
    intros N (I1 & I2 & I3). assert (forall url ts salt, used url ts salt ((t, o) :: h) = used url ts salt h) as K.
    { intros. rewrite used_cons. destruct o; auto. exfalso. eapply N; eauto. }
    split; auto. split.
    - intros x H. destruct (I2 x H) as (a & b & c & H1 & H2). exists a, b, c. rewrite K. auto.
    - intros url ts salt name. rewrite K. apply I3.
  Qed.
  Lemma file_useNonce_spec s h t url ts salt : fop (UseN url ts salt) -> ndir_inv (f_nonces s) h t ->
    exists s', file_useNonce sha1 s t url ts salt = (s', Ok (in_window t ts && negb (used url ts salt h))%bool) /\
      f_assocs s' = f_assocs s /\ ndir_inv (f_nonces s') ((t, UseN url ts salt) :: h) t.
  Proof using digest distinct.
    intros ((A & B & C) & D) (I1 & I2 & I3).
    assert (In url T) as Tu by (apply D; simpl; auto). assert (In salt T) as Ts by (apply D; simpl; auto).
    destruct (nonce_of_ok url ts salt A B C Tu Ts) as (name & N & P).
    unfold file_useNonce. rewrite skewed_window. destruct (in_window t ts) eqn:W; cbn [negb andb].
    - pose proof N as (_ & _ & _ & _ & _ & Nm). rewrite Nm, P. cbn [negb].
      assert (dhas text_eqb name (f_nonces s) = used url ts salt h) as X.
      { destruct (used url ts salt h) eqn:U; [apply (dhas_In text_eqb text_eqb_eq); eapply I3; eauto|].
        destruct (dhas text_eqb name (f_nonces s)) eqn:X; auto. apply (dhas_In text_eqb text_eqb_eq) in X.
        destruct (I2 _ X) as (url' & ts' & salt' & N' & U'). destruct (nonce_of_inj _ _ _ _ _ _ _ N N') as (-> & -> & ->). congruence. }
      rewrite X. destruct (used url ts salt h) eqn:U.
      + exists s. split; auto. split; auto. split; auto. split.
        * intros x H. destruct (I2 x H) as (a & b & c & H1 & H2). exists a, b, c. rewrite used_cons, H2, orb_true_r. auto.
        * intros url' ts' salt' n. rewrite used_cons. intros H W' N'. apply orb_prop in H as [H|H]; [|eapply I3; eauto].
          rewrite !andb_true_iff, !text_eqb_eq, Z.eqb_eq in H. destruct H as [[[-> ->] ->] _]. eapply I3; eauto.
      + eexists. split; [reflexivity|]. cbn [f_assocs f_nonces]. split; auto. split; [apply (NoDup_dset text_eqb text_eqb_eq); auto|]. split.
        * intros x H. apply (In_dkeys_dset text_eqb text_eqb_eq) in H as [->|H].
          -- exists url, ts, salt. split; auto. rewrite used_cons, !text_eqb_refl, Z.eqb_refl, W. auto.
          -- destruct (I2 x H) as (a & b & c & H1 & H2). exists a, b, c. rewrite used_cons, H2, orb_true_r. auto.
        * intros url' ts' salt' n. rewrite used_cons. intros H W' N'. apply (In_dkeys_dset text_eqb text_eqb_eq). apply orb_prop in H as [H|H]; [|right; eapply I3; eauto].
          rewrite !andb_true_iff, !text_eqb_eq, Z.eqb_eq in H. destruct H as [[[-> ->] ->] _]. left.
          destruct N' as (_ & _ & _ & _ & _ & N'). congruence.
    - exists s. split; auto. split; auto. split; auto. split.
      + intros x H. destruct (I2 x H) as (a & b & c & H1 & H2). exists a, b, c. rewrite used_cons, H2, orb_true_r. auto.
      + intros url' ts' salt' n. rewrite used_cons. intros H W' N'. apply orb_prop in H as [H|H]; [|eapply I3; eauto].
        rewrite !andb_true_iff, !text_eqb_eq, Z.eqb_eq in H. destruct H as [[[-> ->] ->] H]. congruence.
  Qed.

  (** cleanupNonces. *)
  Lemma clean_nonces_spec now names : forall d k, NoDup (dkeys d) -> NoDup names ->
    (forall n, In n names -> In n (dkeys d)) ->
    (forall n, In n names -> exists ts, nonce_file_ts n = Ok ts) ->
    exists d' gone, clean_nonces names d now k = (d', Ok (k + length gone)%nat) /\ NoDup (dkeys d') /\ NoDup gone /\
      (forall n, In n gone <-> In n names /\ exists ts, nonce_file_ts n = Ok ts /\ in_window now ts = false) /\
      (forall n, In n (dkeys d') <-> In n (dkeys d) /\ ~ In n gone).
  Proof using.
    induction names as [|n names IH]; intros d k N NN H1 H2.
    - exists d, []. cbn [clean_nonces length]. rewrite Nat.add_0_r. split; auto. split; auto. split; [constructor|]. split.
      + intros n. split; [intros []|]. intros ([] & _).
      + intros n. split; [intros; split; auto|tauto].
    - inv NN. destruct (H2 n (or_introl eq_refl)) as (ts & E). cbn [clean_nonces]. rewrite E, skewed_window. destruct (in_window now ts) eqn:W; cbn [negb].
      + destruct (IH d k) as (d' & gone & Q1 & Q2 & Q3 & Q4 & Q5); auto; [intros; apply H1; right; auto|intros; apply H2; right; auto|].
        exists d', gone. split; auto. split; auto. split; auto. split; auto. intros x. rewrite Q4. split.
        * intros (X1 & X2). split; [right; auto|auto].
        * intros ([<-|X1] & ts' & X2 & X3); [congruence|]. split; eauto.
      + destruct (IH (ddel text_eqb n d) (S k)) as (d' & gone & Q1 & Q2 & Q3 & Q4 & Q5); auto.
        * apply NoDup_ddel; auto.
        * intros x Hx. pose proof (H1 x (or_intror Hx)) as Hd. apply (dhas_In text_eqb text_eqb_eq) in Hd. apply (dhas_In text_eqb text_eqb_eq).
          unfold dhas in *. rewrite (dget_ddel_other text_eqb text_eqb_eq) by (intros ->; auto). auto.
        * intros; apply H2; right; auto.
        * assert (~ In n gone) as Ng by (rewrite Q4; tauto).
          exists d', (n :: gone). split; [rewrite Q1; cbn [length]; f_equal; f_equal; lia|]. split; auto. split; [constructor; auto|]. split.
          -- intros x. simpl. rewrite Q4. split.
             ++ intros [<-|(X1 & X2)]; [split; eauto|split; auto].
             ++ intros ([<-|X1] & X2); [left; auto|right; auto].
          -- intros x. rewrite Q5. simpl. split.
             ++ intros (X1 & X2). split.
                ** unfold dkeys in *. apply in_map_iff in X1 as (f & E1 & E2). apply In_ddel_sub in E2. apply in_map_iff. eauto.
                ** intros [<-|X]; auto. apply (dhas_In text_eqb text_eqb_eq) in X1. unfold dhas in X1. rewrite (dget_ddel_same text_eqb text_eqb_eq) in X1 by auto. discriminate.
             ++ intros (X1 & X2). split; [|tauto]. apply (dhas_In text_eqb text_eqb_eq). apply (dhas_In text_eqb text_eqb_eq) in X1. unfold dhas in *.
                rewrite (dget_ddel_other text_eqb text_eqb_eq); auto.
  Qed.
  Lemma file_cleanN_spec s h t : clock t h -> ndir_inv (f_nonces s) h t ->
    exists s' gone, file_cleanupNonces s t = (s', Ok (length gone)) /\ f_assocs s' = f_assocs s /\ NoDup gone /\
      ndir_inv (f_nonces s') h t /\
      (forall n, In n gone <-> In n (dkeys (f_nonces s)) /\ exists url ts salt, nonce_of url ts salt n /\ in_window t ts = false) /\
      (forall n, In n (dkeys (f_nonces s')) <-> In n (dkeys (f_nonces s)) /\ ~ In n gone).
  Proof using digest.
    intros C (I1 & I2 & I3). unfold file_cleanupNonces.
    destruct (clean_nonces_spec t (dkeys (f_nonces s)) (f_nonces s) 0 I1 I1) as (d' & gone & Q1 & Q2 & Q3 & Q4 & Q5); auto.
    { intros n Hn. destruct (I2 _ Hn) as (url & ts & salt & N & _). exists ts. eapply nonce_of_ts; eauto. }
    rewrite Q1. exists (mkFs (f_assocs s) d'), gone. split; auto. split; auto. split; auto. cbn [f_nonces]. split; [|split; auto].
    - split; auto. split.
      + intros n Hn. apply Q5 in Hn as (Hn & _). auto.
      + intros url ts salt n U W N. apply Q5. split; [eapply I3; eauto|]. rewrite Q4. intros (_ & ts' & E & W').
        pose proof (nonce_of_ts _ _ _ _ N). congruence.
    - intros n. rewrite Q4. split; intros (H & R); split; auto.
      + destruct R as (ts & E & W). destruct (I2 _ H) as (url & ts' & salt & N & _). pose proof (nonce_of_ts _ _ _ _ N).
        exists url, ts', salt. split; auto. congruence.
      + destruct R as (url & ts & salt & N & W). exists ts. split; auto. eapply nonce_of_ts; eauto.
  Qed.

  (** cleanupAssociations. *)
  Lemma allAssocs_ok d0 l : (forall f, In f l -> exists a, read_assoc (snd f) = Ok (Some a)) -> forall acc,
    exists r, foldM all_step (d0, acc) l = Ok (d0, acc ++ r) /\ map fst r = map fst l /\
      (forall n a, In (n, a) r <-> exists data, In (n, data) l /\ read_assoc data = Ok (Some a)).
  Proof using.
    intros H. induction l as [|f l IH]; intros acc.
    - exists []. simpl. rewrite app_nil_r. split; auto. split; auto. intros n a. split; [intros []|]. intros (data & [] & _).
    - destruct (H f (or_introl eq_refl)) as (a & R). cbn [foldM]. unfold all_step at 1. rewrite R. cbn [bind fst snd].
      destruct (IH (fun f' Hf => H f' (or_intror Hf)) (acc ++ [(fst f, a)])) as (r & E & M & K). rewrite <- app_assoc in E.
      exists ((fst f, a) :: r). split; [exact E|]. split; [simpl; rewrite M; auto|]. intros n b. simpl. rewrite K. split.
      + intros [Q|(data & Q1 & Q2)]; [inv Q; exists (snd f); destruct f; auto|eauto].
      + intros (data & [->|Q1] & Q2); [left; simpl in *; congruence|right; eauto].
  Qed.
  Lemma file_cleanA_spec s h t : dir_inv (f_assocs s) h t ->
    exists s' gone, file_cleanupAssociations s t = Ok (s', length gone) /\ f_nonces s' = f_nonces s /\ NoDup gone /\
      shrinks t (f_assocs s) (f_assocs s') /\
      (forall n, In n gone <-> exists data a, In (n, data) (f_assocs s) /\ read_assoc data = Ok (Some a) /\ expired a t = true) /\
      (forall n, In n (dkeys (f_assocs s')) <-> In n (dkeys (f_assocs s)) /\ ~ In n gone).
  Proof using.
    intros (I1 & I2 & I3). unfold file_cleanupAssociations, allAssocs.
    destruct (allAssocs_ok (f_assocs s) (f_assocs s)) with (acc := @nil (text * assoc)) as (r & E & M & K).
    { intros f Hf. destruct (I2 _ Hf) as (url & a & F & _). exists a. apply F. }
    match goal with |- context [foldM ?f ?x ?y] => replace (foldM f x y) with (Ok (f_assocs s, r)) by (symmetry; exact E) end.
    cbn [bind fst snd]. set (gone := filter (fun q : text * assoc => expired (snd q) t) r).
    exists (mkFs (fold_left (fun d n => ddel text_eqb n d) (map fst gone) (f_assocs s)) (f_nonces s)), (map fst gone).
    rewrite map_length. split; auto. split; auto. cbn [f_assocs].
    assert (NoDup (map fst gone)) as NG by (apply NoDup_map_filter; rewrite M; auto).
    assert (forall n, In n (map fst gone) <-> exists data a, In (n, data) (f_assocs s) /\ read_assoc data = Ok (Some a) /\ expired a t = true) as G.
    { intros n. rewrite in_map_iff. split.
      - intros ([n' a] & Q & Hin). simpl in Q. subst n'. apply filter_In in Hin as (Hin & X). apply K in Hin as (data & H1 & H2). exists data, a. auto.
      - intros (data & a & H1 & H2 & H3). exists (n, a). split; auto. apply filter_In. split; auto. apply K. eauto. }
    assert (forall n, In n (dkeys (fold_left (fun d n => ddel text_eqb n d) (map fst gone) (f_assocs s))) <-> In n (dkeys (f_assocs s)) /\ ~ In n (map fst gone)) as D.
    { intros n. rewrite <- !(dhas_In text_eqb text_eqb_eq). unfold dhas. rewrite dget_dels by auto.
      destruct (mem_text n (map fst gone)) eqn:Q.
      - apply mem_text_In in Q. split; [discriminate|tauto].
      - apply mem_text_false in Q. tauto. }
    split; auto. split; [|split; auto]. split; [apply NoDup_dels; auto|]. split; [intros f; apply In_dels|].
    intros [n data] a Hf R X. apply (dget_In text_eqb text_eqb_eq). rewrite dget_dels by auto.
    destruct (mem_text n (map fst gone)) eqn:Q; [|apply (In_dget text_eqb text_eqb_eq); auto]. exfalso.
    apply mem_text_In, G in Q as (data' & a' & Q1 & Q2 & Q3). apply (In_dget text_eqb text_eqb_eq _ _ _ I1) in Q1.
    apply (In_dget text_eqb text_eqb_eq _ _ _ I1) in Hf. simpl in R. congruence.
  Qed.

  (** removeAssociation. *)
  Lemma file_remove_spec s h t0 now url handle : fop (RemoveA url handle) -> dir_inv (f_assocs s) h t0 -> t0 <= now -> 
    exists s' r, file_remove sha1 s now url handle = (s', r) /\ f_nonces s' = f_nonces s /\
      dir_inv (f_assocs s') ((now, RemoveA url handle) :: h) now /\
      (handle <> [] -> exists b, r = Ok b /\ (b = true <-> good_at now (stored url handle h) <> None)).
  Proof using digest distinct.
    intros ((Hu & Hs) & D) I L.
    assert (In url T) as Tu by (apply D; simpl; auto). assert (In handle T) as Th by (apply D; simpl; auto).
    destruct (file_get_spec s h t0 now url (Some handle) Hu Hs Tu (fun _ => Th) I L) as (l & s1 & M & G & N1 & J & _).
    unfold file_remove. rewrite G. cbn [handle_of] in M.
    destruct (fname_ok url handle Hu Hs) as (name & Nm & P).
    (* removing nothing *)
    assert (forall d, dir_inv d h now -> (handle <> [] -> forall f a, In f d -> file_of url a f -> a_handle a = handle -> False) ->
              dir_inv d ((now, RemoveA url handle) :: h) now) as K.
    { intros d (K1 & K2 & K3) Ab. split; auto. split.
      - intros f Hf. destruct (K2 f Hf) as (url' & a & F & S). exists url', a. split; auto. cbn [stored].
        destruct (text_eqb url' url && text_eqb (a_handle a) handle) eqn:E; auto. exfalso.
        rewrite andb_true_iff, !text_eqb_eq in E. destruct E as (-> & E). eapply Ab; eauto. rewrite <- E. apply F.
      - intros url' h' a. cbn [stored]. destruct (_ && _); [discriminate|apply K3]. }
    pose proof (sorted_last_spec l) as SL.
    destruct (text_eq_dec handle []) as [He|He].
    - (* the empty handle *)
      assert (forall d, dir_inv d h now -> dir_inv d ((now, RemoveA url handle) :: h) now) as K' by (intros; apply K; auto; contradiction).
      assert (dhas text_eqb name (f_assocs s1) = false) as Ab.
      { destruct (dhas text_eqb name (f_assocs s1)) eqn:X; auto. exfalso. apply (dhas_In text_eqb text_eqb_eq) in X. unfold dkeys in X.
        apply in_map_iff in X as (f & E & Hf). destruct J as (_ & J2 & _). destruct (J2 _ Hf) as (url' & a & F & _).
        destruct F as (F1 & F2 & F3 & F4 & F5 & _). rewrite E in F5.
        destruct (fname_inj url handle url' (a_handle a) name) as (_ & Q); auto. destruct F2 as (_ & F2 & _). congruence. }
      destruct (sorted_last l) as [[a|]|e].
      + rewrite Nm. cbn [bind]. unfold removeIfPresent. rewrite P, Ab. cbn [negb]. eexists. eexists. split; [reflexivity|]. cbn [f_nonces f_assocs].
        split; auto. split; [apply K'; auto|contradiction].
      + eexists. eexists. split; [reflexivity|]. split; auto. split; [apply K'; auto|contradiction].
      + eexists. eexists. split; [reflexivity|]. split; auto. split; [apply K'; auto|contradiction].
    - assert (forall a, In a l <-> stored url handle h = Some a /\ expired a now = false) as M'.
      { intros a. rewrite M. split.
        - intros (S & X & E). rewrite (E He) in S. auto.
        - intros (S & X). rewrite (stored_handle _ _ _ _ S). auto. }
      pose proof J as (J1 & J2 & J3).
      assert (forall f a, In f (f_assocs s1) -> file_of url a f -> a_handle a = handle -> fst f = name /\ stored url handle h = Some a) as FN.
      { intros f a Hf F E. destruct (J2 _ Hf) as (url' & a' & F' & S'). pose proof F as (_ & _ & _ & _ & Q1 & Q2). pose proof F' as (_ & _ & A & B & Q3 & Q4).
        rewrite E in Q1. split; [congruence|]. assert (a' = a) as -> by congruence.
        assert (getAssociationFilename sha1 url' (a_handle a) = getAssociationFilename sha1 url handle) as Q5 by congruence.
        destruct (fname_inj url' (a_handle a) url handle (fst f)) as (-> & Q6); auto; try congruence. }
      destruct (sorted_last l) as [[a|]|e].
      + destruct SL as (SL & _). apply M' in SL as (S & X). rewrite Nm. cbn [bind]. unfold removeIfPresent. rewrite P. cbn [negb].
        destruct (J3 _ _ _ S X) as ([n data] & Hf & F & E). destruct (FN _ _ Hf F E) as (Q & _). simpl in Q. subst n.
        assert (dhas text_eqb name (f_assocs s1) = true) as -> by (apply (dhas_In text_eqb text_eqb_eq); apply (in_map fst) in Hf; auto).
        eexists. eexists. split; [reflexivity|]. cbn [f_nonces f_assocs]. split; auto. split.
        * split; [apply NoDup_ddel; auto|]. split.
          -- intros [n d] Hf'. pose proof (In_ddel_sub _ _ _ _ Hf') as Hf''. destruct (J2 _ Hf'') as (url' & a' & F' & S'). exists url', a'. split; auto. cbn [stored].
             destruct (text_eqb url' url && text_eqb (a_handle a') handle) eqn:E'; auto. exfalso.
             rewrite andb_true_iff, !text_eqb_eq in E'. destruct E' as (-> & E'). destruct (FN _ _ Hf'' F' E') as (Q & _). simpl in Q. subst n.
             apply (In_dget text_eqb text_eqb_eq) in Hf'; [|apply NoDup_ddel; auto]. rewrite (dget_ddel_same text_eqb text_eqb_eq) in Hf' by auto. discriminate.
          -- intros url' h' b. cbn [stored]. destruct (text_eqb url' url && text_eqb h' handle) eqn:E'; [discriminate|]. intros S' X'.
             destruct (J3 _ _ _ S' X') as ([n d] & Hf' & F' & E''). exists (n, d). split; [|auto]. apply (dget_In text_eqb text_eqb_eq).
             rewrite (dget_ddel_other text_eqb text_eqb_eq); [apply (In_dget text_eqb text_eqb_eq); auto|]. intros ->.
             pose proof F' as (_ & _ & A & B & Q & _). simpl in Q. destruct (fname_inj url' (a_handle b) url handle name) as (-> & Q'); auto.
             rewrite <- E'', Q', !text_eqb_refl in E'. discriminate.
        * intros _. exists true. split; auto. rewrite good_at_expired, S, X. split; [congruence|auto].
      + subst l. eexists. eexists. split; [reflexivity|]. split; auto.
        assert (good_at now (stored url handle h) = None) as GN.
        { rewrite good_at_expired. destruct (stored url handle h) as [a|] eqn:S; auto. destruct (expired a now) eqn:X; auto.
          destruct (M' a) as (_ & Q). destruct Q; auto. }
        split.
        * apply K; auto. intros _ f a Hf F E. destruct (FN _ _ Hf F E) as (Q & S).
          (* the file was there and expired, so reading it deleted it *)
          assert (getAssociationFilename sha1 url handle = Ok (fst f)) as Nf by congruence.
          assert (dget text_eqb name (f_assocs s1) = None) as Gn.
          { clear - G Nm P He S I L GN M' digest distinct Hu Hs Tu Th. unfold file_get in G. rewrite Nm in G.
            assert (truthy handle = true) as Tr by (apply truthy_true; auto). rewrite Tr in G.
            destruct (get_file (f_assocs s) now name) as [[d o]|e] eqn:GF; [|inv G]. inv G. cbn [f_assocs]. unfold get_file in GF. rewrite P in GF. cbn [negb] in GF.
            destruct (dget text_eqb name (f_assocs s)) as [data|] eqn:Gd; [|inv GF; auto]. destruct I as (I1 & _).
            binv GF. destruct a0 as [b|]; [destruct (expired b now) eqn:X|]; inv GF; try (apply (dget_ddel_same text_eqb text_eqb_eq); auto). }
          destruct f as [n d]. simpl in Q. subst n. apply (In_dget text_eqb text_eqb_eq _ _ _ J1) in Hf. congruence.
        * intros _. exists false. split; auto. rewrite GN. split; [discriminate|congruence].
      + exfalso. destruct SL as (_ & a & b & H1 & H2 & Ne & _). apply M' in H1 as (H1 & _). apply M' in H2 as (H2 & _). congruence.
  Qed.

  Lemma file_step_inv s h t0 t o : clock t0 h -> t0 <= t -> fop o ->
    dir_inv (f_assocs s) h t0 -> ndir_inv (f_nonces s) h t0 ->
    dir_inv (f_assocs (fst (file_step sha1 s t o))) ((t, o) :: h) t /\ ndir_inv (f_nonces (fst (file_step sha1 s t o))) ((t, o) :: h) t.
  Proof using digest distinct.
    intros C L K I N. pose proof (dir_inv_later _ _ _ _ L I) as I'. pose proof (ndir_inv_later _ _ _ _ C L N) as N'.
    pose proof (clock_le _ _ _ L C) as C'.
    destruct o as [url a|url x|url x|url ts salt| |]; cbn [file_step].
    - destruct K as ((Hu & Ha) & D). assert (In url T) as Tu by (apply D; simpl; auto). assert (In (a_handle a) T) as Th by (apply D; simpl; auto).
      destruct (store_plan_ok url a Hu Ha Tu Th) as ([name data] & SP & P & F). unfold file_store. rewrite SP. cbn [bind fst snd]. cbn [fst] in P. rewrite P.
      cbn [fst f_assocs f_nonces]. split; [|apply ndir_inv_other; auto; discriminate]. destruct I' as (I1 & I2 & I3).
      pose proof F as (_ & _ & _ & _ & F5 & _). cbn [fst] in F5.
      split; [apply (NoDup_dset text_eqb text_eqb_eq); auto|].
      assert (forall n d, In (n, d) (dset text_eqb name data (f_assocs s)) <-> (n = name /\ d = data) \/ (n <> name /\ In (n, d) (f_assocs s))) as DS.
      { intros n d. split.
        - intros H. apply (In_dget text_eqb text_eqb_eq) in H; [|apply (NoDup_dset text_eqb text_eqb_eq); auto].
          rewrite (dget_dset text_eqb text_eqb_eq) in H. destruct (text_eqb n name) eqn:E.
          + apply text_eqb_eq in E. inv H. auto.
          + apply text_eqb_neq in E. right. split; auto. apply (dget_In text_eqb text_eqb_eq); auto.
        - intros H. apply (dget_In text_eqb text_eqb_eq). rewrite (dget_dset text_eqb text_eqb_eq). destruct H as [(-> & ->)|(Ne & H)].
          + rewrite text_eqb_refl. auto.
          + apply text_eqb_neq in Ne. rewrite Ne. apply (In_dget text_eqb text_eqb_eq); auto. }
      split.
      + intros [n d] H. apply DS in H as [(-> & ->)|(Ne & H)].
        * exists url, a. split; auto. cbn [stored]. rewrite !text_eqb_refl. auto.
        * destruct (I2 _ H) as (url' & a' & F' & S'). exists url', a'. split; auto. cbn [stored].
          destruct (text_eqb url' url && text_eqb (a_handle a') (a_handle a)) eqn:E; auto. exfalso.
          rewrite andb_true_iff, !text_eqb_eq in E. destruct E as (-> & E). destruct F' as (_ & _ & _ & _ & F' & _). rewrite E in F'. simpl in F'. congruence.
      + intros url' h' b. cbn [stored]. destruct (text_eqb url' url && text_eqb h' (a_handle a)) eqn:E.
        * intros H X. inv H. rewrite andb_true_iff, !text_eqb_eq in E. destruct E as (-> & ->). exists (name, data). split; auto. apply DS. auto.
        * intros H X. destruct (I3 _ _ _ H X) as ([n d] & Y1 & Y2 & Y3). exists (n, d). split; [|auto]. apply DS. right. split; auto.
          intros ->. pose proof Y2 as (_ & _ & A & B & Q & _). simpl in Q. destruct (fname_inj url' (a_handle b) url (a_handle a) name) as (-> & Q'); auto.
          rewrite <- Y3, Q', !text_eqb_refl in E. discriminate.
    - destruct K as ((Hu & Hs) & D). assert (In url T) as Tu by (apply D; simpl; destruct x; simpl; auto).
      assert (sendable (handle_of x)) as Hs'. { destruct x as [x|]; simpl; auto. exists []. reflexivity. }
      assert (handle_of x <> [] -> In (handle_of x) T) as Th. { destruct x as [x|]; simpl; [intros _; apply D; simpl; auto|congruence]. }
      destruct (file_get_spec s h t0 t url x Hu Hs' Tu Th I L) as (l & s' & _ & G & G1 & G2 & _). rewrite G. cbn [fst]. rewrite G1.
      split; [exact G2|]. apply ndir_inv_other; auto; discriminate.
    - destruct (file_remove_spec s h t0 t url x K I L) as (s' & r & G & G1 & G2 & _). rewrite G. cbn [fst]. rewrite G1. split; [exact G2|exact N'].
    - destruct (file_useNonce_spec s h t url ts salt K N') as (s' & G & G1 & G2). rewrite G. cbn [fst]. rewrite G1. split; [exact I'|exact G2].
    - destruct (file_cleanN_spec s h t C' N') as (s' & gone & G & G1 & _ & G2 & _). rewrite G. cbn [fst]. rewrite G1. split; [exact I'|].
      apply ndir_inv_other; auto; discriminate.
    - destruct (file_cleanA_spec s h t I') as (s' & gone & G & G1 & _ & G2 & _). rewrite G. cbn [fst]. rewrite G1. split; [|apply ndir_inv_other; auto; discriminate].
      change (dir_inv (f_assocs s') h t). eapply dir_inv_shrink; eauto.
  Qed.
  Lemma file_after_inv h : forall t, clock t h -> fhist h ->
    dir_inv (f_assocs (after (file_step sha1) fs_init h)) h t /\ ndir_inv (f_nonces (after (file_step sha1) fs_init h)) h t.
  Proof using digest distinct.
    induction h as [|[t0 o] h IH]; intros t C K.
    - split.
      + split; [constructor|split; [intros f []|discriminate]].
      + split; [constructor|split; [intros f []|discriminate]].
    - cbn [clock] in C. destruct C as (C1 & C2). inv K. cbn [after].
      destruct (IH _ C2 H2) as (I & N). destruct (file_step_inv _ _ t0 t0 o C2 (Z.le_refl _) H1 I N) as (I' & N').
      split; [eapply dir_inv_later; eauto|eapply ndir_inv_later; eauto]. simpl. split; auto. lia.
  Qed.
End File.

Definition file_history (h : history) : Prop := Forall (fun e => file_op (snd e)) h.
Lemma file_history_fhist T h : file_history h -> incl (texts h) T -> fhist T h.
Proof.
  induction 1 as [|e h H1 H2 IH]; intros I; constructor.
  - split; auto. intros x Hx. apply I. unfold texts. simpl. apply in_or_app. auto.
  - apply IH. intros x Hx. apply I. unfold texts. simpl. apply in_or_app. auto.
Qed.
Lemma file_inv sha1 h t o : digest20 sha1 -> distinct_on sha1 (texts ((t, o) :: h)) -> clock t h -> file_history h ->
  let T := texts ((t, o) :: h) in
  dir_inv sha1 T (f_assocs (after (file_step sha1) fs_init h)) h t /\ ndir_inv sha1 T (f_nonces (after (file_step sha1) fs_init h)) h t.
Proof.
  intros D X C K T. apply file_after_inv; auto. apply file_history_fhist; auto. intros x Hx. apply in_or_app. right. exact Hx.
Qed.
Lemma texts_fop t o h : file_op o -> fop (texts ((t, o) :: h)) o.
Proof. intros H. split; auto. intros x Hx. apply in_or_app. left. exact Hx. Qed.

(** ** C20 (one process at a time) *)
Theorem C20_useNonce_file :
  forall sha1, digest20 sha1 -> forall h t url ts salt,
    distinct_on sha1 (texts ((t, UseN url ts salt) :: h)) -> clock t h -> file_history h -> file_op (UseN url ts salt) ->
    answer (file_step sha1) fs_init h t (UseN url ts salt) = Flag (in_window t ts && negb (used url ts salt h)).
Proof.
  intros sha1 D h t url ts salt X C K O. destruct (file_inv sha1 h t _ D X C K) as (_ & N).
  destruct (file_useNonce_spec sha1 D _ X _ h t url ts salt (texts_fop _ _ _ O) N) as (s' & G & _).
  unfold answer. cbn [file_step]. rewrite G. auto.
Qed.
Theorem C20_once_file :
  forall sha1, digest20 sha1 -> forall h t url ts salt,
    distinct_on sha1 (texts h) -> clock t h -> file_history h ->
    (accepted (file_step sha1) fs_init url ts salt h <= 1)%nat.
Proof.
  intros sha1 D h t url ts salt X C K.
  rewrite (accepted_once (file_step sha1) fs_init (fun h' => file_history h' /\ distinct_on sha1 (texts h'))) with (t := t); auto.
  - destruct (used url ts salt h); lia.
  - intros e h' (H1 & H2). inv H1. split; auto. intros a b x y Ha Hb. apply H2; unfold texts; simpl; apply in_or_app; auto.
  - intros h' t' url' ts' salt' C' (H1 & H2). inv H1. apply C20_useNonce_file; auto.
Qed.
Print Assumptions C20_useNonce_file.
Print Assumptions C20_once_file.
Example C20_example_file :
  answer (file_step toy_sha1) fs_init [(18010, CleanN); (10, UseN (u "http://a/") 17 (u "x"))] 18017
    (UseN (u "http://a/") 17 (u "x")) = Flag false /\
  answer (file_step toy_sha1) fs_init [(18010, CleanN); (10, UseN (u "http://a/") 17 (u "x"))] 18017
    (UseN (u "http://a/") 17 (u "y")) = Flag true.
Proof. split; vm_compute; reflexivity. Qed.

(** ** C22, C23 *)
Theorem C22_get_file :
  forall sha1, digest20 sha1 -> forall h t url handle,
    distinct_on sha1 (texts ((t, GetA url (Some handle)) :: h)) -> clock t h -> file_history h -> file_op (GetA url (Some handle)) ->
    handle <> [] ->
    answer (file_step sha1) fs_init h t (GetA url (Some handle)) = Got (good_at t (stored url handle h)).
Proof.
  intros sha1 D h t url handle X C K O Ne. destruct (file_inv sha1 h t _ D X C K) as (I & _).
  destruct O as (Hu & Hs). unfold answer. cbn [file_step].
  destruct (file_get_spec sha1 D _ X (after (file_step sha1) fs_init h) h t t url (Some handle) Hu) as (l & s' & M & G & _); simpl; auto; try lia.
  rewrite G. cbn [snd handle_of] in *.
  assert (forall a, In a l <-> stored url handle h = Some a /\ expired a t = false) as M'.
  { intros a. rewrite M. split.
    - intros (S & E & Q). rewrite (Q Ne) in S. auto.
    - intros (S & E). rewrite (stored_handle _ _ _ _ S). auto. }
  rewrite good_at_expired. pose proof (sorted_last_spec l) as SL. destruct (sorted_last l) as [[a|]|e]; cbn [outcome].
  - destruct SL as (SL & _). apply M' in SL as (S & E). rewrite S, E. auto.
  - subst l. destruct (stored url handle h) as [a|] eqn:S; auto. destruct (expired a t) eqn:E; auto. destruct (M' a) as (_ & Q). destruct Q; auto.
  - exfalso. destruct SL as (_ & a & b & H1 & H2 & N & _). apply M' in H1 as (H1 & _). apply M' in H2 as (H2 & _). congruence.
Qed.
Theorem C22_newest_file :
  forall sha1, digest20 sha1 -> forall h t url,
    distinct_on sha1 (texts ((t, GetA url None) :: h)) -> clock t h -> file_history h -> file_url url ->
    let view := fun handle => good_at t (stored url handle h) in
    (exists o, answer (file_step sha1) fs_init h t (GetA url None) = Got o /\ newest view o /\ ~ same_second view) \/
    (answer (file_step sha1) fs_init h t (GetA url None) = Err TypeError /\ same_second view).
Proof.
  intros sha1 D h t url X C K Hu view. destruct (file_inv sha1 h t _ D X C K) as (I & _). unfold answer. cbn [file_step].
  destruct (file_get_spec sha1 D _ X (after (file_step sha1) fs_init h) h t t url None Hu) as (l & s' & M & G & _); cbn [handle_of]; auto; try lia.
  { exists []. reflexivity. } { left. auto. } { congruence. }
  rewrite G. cbn [snd handle_of] in *.
  assert (forall handle a, view handle = Some a <-> In a l /\ a_handle a = handle) as V.
  { intros handle a. unfold view. rewrite good_at_expired, M. split.
    - destruct (stored url handle h) as [b|] eqn:S; [|discriminate]. destruct (expired b t) eqn:E; [discriminate|].
      intros Q; inv Q. rewrite (stored_handle _ _ _ _ S). repeat split; auto. congruence.
    - intros ((S & E & _) & <-). rewrite S, E. auto. }
  pose proof (sorted_last_spec l) as L. destruct (sorted_last l) as [[a|]|e]; cbn [outcome].
  - left. exists (Some a). split; auto. destruct L as (L1 & L2 & L3). split.
    + split; [exists (a_handle a); apply V; auto|]. intros handle b Hb. apply V in Hb as (Hb & _). auto.
    + intros (h1 & h2 & x & y & H1 & H2 & N & E). apply V in H1 as (H1 & <-). apply V in H2 as (H2 & <-).
      apply N. rewrite (L3 _ _ H1 H2 E). auto.
  - left. exists None. split; auto. subst l. split.
    + intros handle. destruct (view handle) eqn:Q; auto. apply V in Q as ([] & _).
    + intros (h1 & _ & x & _ & H1 & _). apply V in H1 as ([] & _).
  - right. destruct L as (-> & a & b & Ha & Hb & N & E). split; auto.
    exists (a_handle a), (a_handle b), a, b. split; [apply V; auto|]. split; [apply V; auto|]. split; auto.
    intros Q. apply N. apply M in Ha as (Ha & _). apply M in Hb as (Hb & _). congruence.
Qed.
Theorem C22_remove_file :
  forall sha1, digest20 sha1 -> forall h t url handle,
    distinct_on sha1 (texts ((t, RemoveA url handle) :: h)) -> clock t h -> file_history h -> file_op (RemoveA url handle) ->
    handle <> [] -> exists b,
    answer (file_step sha1) fs_init h t (RemoveA url handle) = Flag b /\
    (b = true <-> good_at t (stored url handle h) <> None).
Proof.
  intros sha1 D h t url handle X C K O Ne. destruct (file_inv sha1 h t _ D X C K) as (I & _).
  destruct (file_remove_spec sha1 D _ X _ h t t url handle (texts_fop _ _ _ O) I (Z.le_refl _)) as (s' & r & G & _ & _ & R).
  destruct (R Ne) as (b & -> & B). exists b. unfold answer. cbn [file_step]. rewrite G. auto.
Qed.
Theorem C23_file :
  forall sha1, digest20 sha1 -> forall h t url handle a,
    distinct_on sha1 (texts ((t, GetA url handle) :: h)) -> clock t h -> file_history h -> file_op (GetA url handle) ->
    answer (file_step sha1) fs_init h t (GetA url handle) = Got (Some a) -> t < a_issued a + a_lifetime a.
Proof.
  intros sha1 D h t url handle a X C K (Hu & Hs). destruct (file_inv sha1 h t _ D X C K) as (I & _). unfold answer. cbn [file_step].
  destruct (file_get_spec sha1 D _ X (after (file_step sha1) fs_init h) h t t url handle Hu) as (l & s' & M & G & _); auto; try lia.
  { destruct handle; simpl; auto. exists []. reflexivity. } { destruct handle; simpl; auto. } { destruct handle; simpl; auto. congruence. }
  rewrite G. cbn [snd]. pose proof (sorted_last_spec l) as L. destruct (sorted_last l) as [[b|]|e]; cbn [outcome]; intros H; inv H.
  destruct L as (L & _). apply M in L as (_ & E & _). rewrite expired_spec in E. lia.
Qed.
Print Assumptions C22_get_file.
Print Assumptions C22_newest_file.
Print Assumptions C22_remove_file.
Print Assumptions C23_file.
Example C22_example_file :
  answer (file_step toy_sha1) fs_init ex_history 50 (GetA (u "http://a/") None) = Got (Some (ex_assoc (u "h3") 11 100)) /\
  answer (file_step toy_sha1) fs_init ex_history 50 (GetA (u "http://b/") (Some (u "h1"))) = Got (Some (ex_assoc (u "h1") 30 100)) /\
  answer (file_step toy_sha1) fs_init ex_history 130 (GetA (u "http://b/") (Some (u "h1"))) = Got None.
Proof. split; [vm_compute; reflexivity|split; vm_compute; reflexivity]. Qed.

(** ** C26: what is on disk after a cleanup *)
Definition assoc_in (name : text) (a : assoc) (s : fstore) : Prop :=
  exists data, In (name, data) (f_assocs s) /\ read_assoc data = Ok (Some a).
Theorem C26_cleanup_associations_file :
  forall sha1, digest20 sha1 -> forall h t,
    distinct_on sha1 (texts h) -> clock t h -> file_history h ->
    let s := after (file_step sha1) fs_init h in
    exists s' gone, file_step sha1 s t CleanA = (s', Count (length gone)) /\ NoDup gone /\
      (forall name, In name gone <-> exists a, assoc_in name a s /\ a_issued a + a_lifetime a <= t) /\
      (forall name a, assoc_in name a s' <-> assoc_in name a s /\ t < a_issued a + a_lifetime a) /\
      (forall name, In name (dkeys (f_assocs s')) -> exists a, assoc_in name a s').
Proof.
  intros sha1 D h t X C K s. destruct (file_inv sha1 h t CleanA D X C K) as (I & _). fold s in I.
  destruct (file_cleanA_spec sha1 _ s h t I) as (s' & gone & G & _ & ND & (Q1 & Q2 & Q3) & Q4 & Q5). cbn [file_step]. rewrite G.
  exists s', gone. split; auto. split; auto. pose proof I as (I1 & I2 & _).
  assert (forall name, In name gone <-> exists a, assoc_in name a s /\ a_issued a + a_lifetime a <= t) as P.
  { intros name. rewrite Q4. split.
    - intros (data & a & H1 & H2 & H3). exists a. split; [exists data; auto|]. rewrite expired_spec in H3. lia.
    - intros (a & (data & H1 & H2) & H3). exists data, a. split; auto. split; auto. rewrite expired_spec. lia. }
  assert (forall f, In f (f_assocs s') -> In f (f_assocs s)) as Sub by (intros; apply Q2; auto).
  split; auto. split.
  - intros name a. split.
    + intros (data & H1 & H2). split; [exists data; split; auto|]. destruct (Z_lt_le_dec t (a_issued a + a_lifetime a)) as [|Ge]; auto. exfalso.
      assert (In name (dkeys (f_assocs s'))) as Hn by (apply (in_map fst) in H1; auto). apply Q5 in Hn as (_ & Hn). apply Hn, P. exists a. split; auto. exists data. auto.
    + intros ((data & H1 & H2) & H3). exists data. split; auto. apply (Q3 _ a); auto.
      destruct (expired a t) eqn:E; auto. rewrite expired_spec in E. lia.
  - intros name Hn. unfold dkeys in Hn. apply in_map_iff in Hn as ([n data] & E & Hf). simpl in E. subst n.
    destruct (I2 _ (Sub _ Hf)) as (url & a & F & _). exists a, data. split; auto. apply F.
Qed.
Theorem C26_cleanup_nonces_file :
  forall sha1, digest20 sha1 -> forall h t,
    distinct_on sha1 (texts h) -> clock t h -> file_history h ->
    let s := after (file_step sha1) fs_init h in
    exists s' gone, file_step sha1 s t CleanN = (s', Count (length gone)) /\ NoDup gone /\
      (forall name, In name (dkeys (f_nonces s')) <-> In name (dkeys (f_nonces s)) /\ ~ In name gone) /\
      (forall name, In name gone <-> In name (dkeys (f_nonces s)) /\
         exists url ts salt, used url ts salt h = true /\ nonceFilename sha1 url ts salt = Ok name /\ in_window t ts = false) /\
      (forall t' url ts salt, distinct_on sha1 (texts ((t', UseN url ts salt) :: h)) -> file_op (UseN url ts salt) -> t <= t' ->
         answer (file_step sha1) fs_init ((t, CleanN) :: h) t' (UseN url ts salt) = answer (file_step sha1) fs_init h t' (UseN url ts salt)).
Proof.
  intros sha1 D h t X C K s. destruct (file_inv sha1 h t CleanN D X C K) as (_ & N). fold s in N.
  destruct (file_cleanN_spec sha1 D _ s h t C N) as (s' & gone & G & _ & ND & _ & Q4 & Q5). cbn [file_step]. rewrite G.
  exists s', gone. split; auto. split; auto. split; auto. split.
  - intros name. rewrite Q4. split; intros (H & R); split; auto.
    + destruct R as (url & ts & salt & R & W). pose proof N as (_ & N2 & _). destruct (N2 _ H) as (url' & ts' & salt' & R' & U').
      destruct (nonce_of_inj sha1 D _ X _ _ _ _ _ _ _ R R') as (<- & <- & <-). exists url, ts, salt. split; auto. split; auto. apply R.
    + destruct R as (url & ts & salt & U & Nm & W). pose proof N as (_ & N2 & _). destruct (N2 _ H) as (url' & ts' & salt' & R' & U').
      exists url', ts', salt'. split; auto.
      assert (file_op (UseN url ts salt) /\ In url (texts h) /\ In salt (texts h)) as (O & T1 & T2).
      { clear - U K. unfold used in U. apply existsb_exists in U as ([t0 o] & Hin & E). unfold file_history in K. rewrite Forall_forall in K. specialize (K _ Hin). simpl in E, K.
        destruct o as [| | |url0 ts0 salt0| |]; try discriminate. rewrite !andb_true_iff, !text_eqb_eq, Z.eqb_eq in E. destruct E as [[[-> ->] ->] _]. split; auto.
        split; unfold texts; apply in_flat_map; exists (t0, UseN url0 ts0 salt0); simpl; auto. }
      destruct O as (O1 & O2 & O3). destruct (nonce_of_inj sha1 D _ X url ts salt url' ts' salt' name) as (<- & <- & <-); auto.
      repeat (split; auto).
  - intros t' url ts salt X' O L. assert (clock t' ((t, CleanN) :: h)) as C' by (simpl; auto).
    rewrite !C20_useNonce_file; auto. { eapply clock_le; eauto. } constructor; simpl; auto.
Qed.
Print Assumptions C26_cleanup_associations_file.
Print Assumptions C26_cleanup_nonces_file.
Example C26_example_file :
  answer (file_step toy_sha1) fs_init ex_history 116 CleanA = Count 1 /\
  answer (file_step toy_sha1) fs_init [(10, UseN (u "http://a/") 17 (u "x")); (9, UseN (u "http://a/") 18 (u "x"))] 18018 CleanN = Count 1.
Proof. split; vm_compute; reflexivity. Qed.
