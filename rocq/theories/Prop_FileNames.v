(** C25: file names of the file store. *)
From Coq Require Import Lia ZifyBool ZifyN ZifyNat.
From Verif Require Import Py PyFacts Utf8 Utf8Facts CryptUtil CryptUtilFacts Association Nonce Store StoreSpec StoreFacts FileStore FileStoreFacts.
Local Arguments u : simpl never.

(** What hashlib promises of sha1: twenty bytes. *)
Definition digest20 (sha1 : bytes -> bytes) : Prop := forall b, length (sha1 b) = 20%nat /\ Forall isbyte (sha1 b).

Lemma filename_parts sha1 url handle name : getAssociationFilename sha1 url handle = Ok name ->
  exists proto rest uh hh, cut_scheme url = Some (proto, rest) /\ safe64 sha1 url = Ok uh /\
    (if truthy handle then safe64 sha1 handle else Ok []) = Ok hh /\
    name = proto ++ u "-" ++ filenameEscape (before_slash rest) ++ u "-" ++ uh ++ u "-" ++ hh.
Proof.
  unfold getAssociationFilename. destruct (cut_scheme url) as [[proto rest]|]; [|discriminate].
  intros H. binv H. binv H. inv H. exists proto, rest, a, a0. auto.
Qed.
Lemma app4 (a b c d : text) : a ++ u "-" ++ b ++ u "-" ++ c ++ u "-" ++ d = ((a ++ u "-" ++ b) ++ u "-" ++ c) ++ u "-" ++ d.
Proof. rewrite <- !app_assoc. reflexivity. Qed.

(** Different (server URL, handle) pairs have different names, or sha1 has a collision. *)
Theorem C25_injective :
  forall sha1, digest20 sha1 ->
  forall url1 handle1 url2 handle2 name,
    getAssociationFilename sha1 url1 handle1 = Ok name -> getAssociationFilename sha1 url2 handle2 = Ok name ->
    (url1 = url2 /\ handle1 = handle2) \/
    (exists x y, x <> y /\ sha1 x = sha1 y /\
       ((encode url1 = Ok x /\ encode url2 = Ok y) \/ (encode handle1 = Ok x /\ encode handle2 = Ok y))).
Proof.
  intros sha1 D url1 handle1 url2 handle2 name H1 H2.
  apply filename_parts in H1 as (p1 & r1 & uh1 & hh1 & C1 & U1 & S1 & N1).
  apply filename_parts in H2 as (p2 & r2 & uh2 & hh2 & C2 & U2 & S2 & N2). rewrite N1 in N2. rewrite !app4 in N2.
  assert (forall handle hh, (if truthy handle then safe64 sha1 handle else Ok []) = Ok hh -> tame hh) as T.
  { intros handle hh H. destruct (truthy handle); [eapply safe64_tame; eauto|inv H; apply tame_nil]. }
  apply last_dash in N2 as (N2 & E2); [|apply tame_dash; eauto|apply tame_dash; eauto].
  apply last_dash in N2 as (_ & E1); [|apply tame_dash; eapply safe64_tame; eauto|apply tame_dash; eapply safe64_tame; eauto].
  subst uh2 hh2. destruct (safe64_inj sha1 D _ _ _ U1 U2) as (x & y & X & Y & XY).
  destruct (text_eq_dec x y) as [<-|Ne].
  2:{ right. exists x, y. auto. }
  assert (url1 = url2) as <- by (eapply encode_inj; eauto).
  destruct (truthy handle1) eqn:T1, (truthy handle2) eqn:T2.
  - destruct (safe64_inj sha1 D _ _ _ S1 S2) as (x' & y' & X' & Y' & XY').
    destruct (text_eq_dec x' y') as [<-|Ne]; [left; split; auto; eapply encode_inj; eauto|right; exists x', y'; auto].
  - inv S2. apply (safe64_nonnil sha1 D) in S1. congruence.
  - inv S1. apply (safe64_nonnil sha1 D) in S2. congruence.
  - left. apply truthy_false in T1, T2. subst. auto.
Qed.
(** The search by prefix finds every file of the server... *)
Theorem C25_prefix_complete :
  forall sha1 url handle prefix name,
    getAssociationFilename sha1 url [] = Ok prefix -> getAssociationFilename sha1 url handle = Ok name ->
    startswith name prefix = true.
Proof.
  intros sha1 url handle prefix name H1 H2.
  apply filename_parts in H1 as (p1 & r1 & uh1 & hh1 & C1 & U1 & S1 & N1).
  apply filename_parts in H2 as (p2 & r2 & uh2 & hh2 & C2 & U2 & S2 & N2).
  rewrite C1 in C2. inv C2. rewrite U1 in U2. inv U2. inv S1. apply startswith_spec. exists hh2.
  rewrite <- !app_assoc. reflexivity.
Qed.
(** ... and, when the two URL schemes contain no '-', no file of another server. *)
Theorem C25_prefix_sound :
  forall sha1, digest20 sha1 ->
  forall url1 url2 handle prefix name proto1 rest1 proto2 rest2,
    getAssociationFilename sha1 url1 [] = Ok prefix -> getAssociationFilename sha1 url2 handle = Ok name ->
    cut_scheme url1 = Some (proto1, rest1) -> cut_scheme url2 = Some (proto2, rest2) ->
    ~ In 45 proto1 -> ~ In 45 proto2 ->
    startswith name prefix = true ->
    url1 = url2 \/ (exists x y, x <> y /\ sha1 x = sha1 y /\ encode url1 = Ok x /\ encode url2 = Ok y).
Proof.
  intros sha1 D url1 url2 handle prefix name proto1 rest1 proto2 rest2 H1 H2 C1' C2' D1 D2 SW.
  apply filename_parts in H1 as (p1 & r1 & uh1 & hh1 & C1 & U1 & S1 & N1).
  apply filename_parts in H2 as (p2 & r2 & uh2 & hh2 & C2 & U2 & S2 & N2).
  rewrite C1 in C1'. inv C1'. rewrite C2 in C2'. inv C2'. inv S1. apply startswith_spec in SW as (q & SW).
  rewrite <- !app_assoc in SW.
  apply first_dash in SW as (_ & SW); auto.
  apply first_dash in SW as (_ & SW); [|apply tame_dash, escape_tame|apply tame_dash, escape_tame].
  change (u "-" ++ [] ++ q) with (u "-" ++ q) in SW.
  apply first_dash in SW as (E & _); [|apply tame_dash; eapply safe64_tame; eauto|apply tame_dash; eapply safe64_tame; eauto].
  subst uh2. destruct (safe64_inj sha1 D _ _ _ U1 U2) as (x & y & X & Y & XY).
  destruct (text_eq_dec x y) as [<-|Ne]; [left; eapply encode_inj; eauto|right; exists x, y; auto].
Qed.
(** The name is a single path component exactly when the URL scheme is. *)
Theorem C25_inside :
  forall sha1, digest20 sha1 ->
  forall url handle name proto rest,
    getAssociationFilename sha1 url handle = Ok name -> cut_scheme url = Some (proto, rest) ->
    (In 47 name <-> In 47 proto) /\ (In 0 name <-> In 0 proto).
Proof.
  intros sha1 D url handle name proto rest H C. apply filename_parts in H as (p & r & uh & hh & C' & U & S & ->).
  rewrite C in C'. inv C'.
  assert (tame hh) as T. { destruct (truthy handle); [eapply safe64_tame; eauto|inv S; apply tame_nil]. }
  pose proof (safe64_tame sha1 D _ _ U) as T2. pose proof (escape_tame (before_slash r)) as T3.
  assert (forall c, c = 47 \/ c = 0 ->
     In c (p ++ u "-" ++ filenameEscape (before_slash r) ++ u "-" ++ uh ++ u "-" ++ hh) <-> In c p) as K.
  { intros c Hc. assert (forbidden c) as F by (unfold forbidden; tauto).
    split; [|intros; apply in_app_iff; auto]. rewrite !in_app_iff. change (u "-") with [45]. simpl.
    intros [H|[[<-|[]]|[H|[[<-|[]]|[H|[[<-|[]]|H]]]]]]; auto; try (destruct Hc; discriminate).
    - destruct (T3 _ H F). - destruct (T2 _ H F). - destruct (T _ H F). }
  split; apply K; auto.
Qed.
Print Assumptions C25_injective.
Print Assumptions C25_prefix_complete.
Print Assumptions C25_prefix_sound.
Print Assumptions C25_inside.
Definition toy_sha1 (b : bytes) : bytes := firstn 20 (map (fun c => (c * 7 + 3) mod 256) (rev b) ++ repeat 0 20).
Example C25_example :
  getAssociationFilename toy_sha1 (u "https://idp.example.com:8080/a b") (u "{h}") =
    Ok (u "https-idp.example.com_3A8080-seOqTFOLU4uZ.gy4Rcb3E.6qS8Y-bttgAAAAAAAAAAAAAAAAAAAAAAA") /\
  getAssociationFilename toy_sha1 (u "idp.example.com") (u "h") = Raise ValueError.
Proof. split; vm_compute; reflexivity. Qed.

(** As stated C25 fails, for two reasons.  A scheme with slashes leaves the directory... *)
Theorem C78_outside_refuted :
  exists url, forall sha1, exists name,
    getAssociationFilename sha1 url (u "h") = Ok name /\ startswith name (u "../../etc/x-") = true.
Proof.
  exists (u "../../etc/x://host/"). intros sha1. unfold getAssociationFilename, safe64.
  replace (cut_scheme (u "../../etc/x://host/")) with (Some (u "../../etc/x", u "host/")) by (vm_compute; reflexivity).
  replace (encode (u "../../etc/x://host/")) with (Ok (u "../../etc/x://host/")) by (vm_compute; reflexivity).
  cbn [bind]. change (truthy (u "h")) with true. cbv iota.
  replace (encode (u "h")) with (Ok (u "h")) by (vm_compute; reflexivity). cbn [bind].
  eexists. split; [reflexivity|]. rewrite app_assoc.
  change (u "../../etc/x" ++ u "-") with (u "../../etc/x-"). apply startswith_app.
Qed.
(** ... and a scheme with dashes pretends to be another server's file. *)
Theorem C78_prefix_refuted :
  forall sha1, digest20 sha1 -> exists url1 url2 prefix name,
    url1 <> url2 /\ getAssociationFilename sha1 url1 [] = Ok prefix /\
    getAssociationFilename sha1 url2 (u "h") = Ok name /\ startswith name prefix = true.
Proof.
  intros sha1 D. set (url1 := u "http://a/").
  assert (exists uh, safe64 sha1 url1 = Ok uh) as (uh & U).
  { unfold safe64. replace (encode url1) with (Ok url1) by (vm_compute; reflexivity). cbn [bind]. eauto. }
  set (prefix := u "http-a-" ++ uh ++ u "-").
  assert (getAssociationFilename sha1 url1 [] = Ok prefix) as P.
  { unfold getAssociationFilename. rewrite U. replace (cut_scheme url1) with (Some (u "http", u "a/")) by (vm_compute; reflexivity).
    cbn [bind truthy]. unfold prefix. f_equal. }
  assert (~ In 58 prefix) as NC.
  { unfold prefix. rewrite !in_app_iff. intros [H|[H|H]].
    - revert H. apply memc_false. vm_compute. reflexivity.
    - apply (safe64_tame sha1 D _ _ U _ H). unfold forbidden. auto.
    - revert H. apply memc_false. vm_compute. reflexivity. }
  assert (exists x, encode prefix = Ok x) as (bp & EP).
  { unfold prefix. exists (u "http-a-" ++ uh ++ u "-"). apply encode_ascii. rewrite !forallb_app.
    apply andb_true_intro. split; [vm_compute; reflexivity|]. apply andb_true_intro. split; [|vm_compute; reflexivity].
    unfold safe64 in U. binv U. inv U. destruct (D a) as (_ & B). pose proof (b2a_ascii _ B) as A.
    rewrite forallb_forall in *. intros c H. apply in_flat_map in H as (x & Hx & H). specialize (A _ Hx). unfold safe64_char in H.
    destruct (x =? 43); [destruct H as [<-|[]]; reflexivity|]. destruct (x =? 47); [destruct H as [<-|[]]; reflexivity|].
    destruct (x =? 61); [destruct H|]. destruct H as [<-|[]]; auto. }
  set (url2 := prefix ++ u "://" ++ u "b").
  assert (exists uh2, safe64 sha1 url2 = Ok uh2) as (uh2 & U2).
  { unfold safe64, url2. rewrite encode_app, EP. cbn [bind]. replace (encode (u "://" ++ u "b")) with (Ok (u "://b")) by (vm_compute; reflexivity).
    cbn [bind]. eauto. }
  exists url1, url2, prefix. eexists. split; [|split; [exact P|split]].
  - unfold url2. intros E. assert (In 58 url1 -> False) as F.
    { intros _. apply (f_equal (cut 58)) in E. unfold url2 in E. change (u "://" ++ u "b") with (58 :: u "//b") in E. rewrite cut_app in E by auto.
      replace (cut 58 url1) with (Some (u "http", u "//a/")) in E by (vm_compute; reflexivity). inv E. }
    apply F. apply memc_In. vm_compute. reflexivity.
  - unfold getAssociationFilename. rewrite U2. unfold url2. rewrite cut_scheme_ext by auto. cbn [bind].
    change (truthy (u "h")) with true. cbv iota. unfold safe64. replace (encode (u "h")) with (Ok (u "h")) by (vm_compute; reflexivity). cbn [bind].
    reflexivity.
  - apply startswith_app.
Qed.
Print Assumptions C78_outside_refuted.
Print Assumptions C78_prefix_refuted.
