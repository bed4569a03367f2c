(** C52, C61, C98: XRDS documents (/repo/openid/yadis/etxrd.py). *)
From Coq Require Import Lia ZifyBool ZifyN ZifyNat Permutation Sorted.
From Verif Require Import Py PyFacts Xri Prop_Xri Etxrd.

Local Arguments u : simpl never.

(** ** C52: canonical identifiers *)
(** [p] is the parent of [c]: one segment after a '!' less. *)
Definition parent_of (p c : text) : Prop := exists seg, c = p ++ 33 :: seg /\ ~ In 33 seg.
(** Each identifier is the parent of the next. *)
Fixpoint descends (root : text) (ids : list text) : Prop :=
  match ids with [] => True | i :: r => parent_of root i /\ descends i r end.
(** The identifier an XRD claims: that of its first CanonicalID element; [blank] says
    whether an element without text counts as empty text. *)
Definition claims (blank : bool) (xrd : xel) (id : text) : Prop :=
  exists before e after t, x_children xrd = before ++ e :: after /\
    Forall (fun c => x_tag c <> u "{xri://$xrd*($v*2.0)}CanonicalID") before /\ x_tag e = u "{xri://$xrd*($v*2.0)}CanonicalID" /\
    (x_text e = Some t \/ blank = true /\ x_text e = None /\ t = []) /\ with_scheme t id.
(** The root of an i-name: its cross reference, its context symbol, or its first segment. *)
Inductive authority_root : text -> text -> Prop :=
| root_xref a r : ~ In 41 a -> authority_root (40 :: a ++ 41 :: r) (40 :: a ++ [41])
| root_symbol c r : In c (u "!=@+$") -> authority_root (c :: r) [c]
| root_iri a r : (forall c, In c a -> c <> 33 /\ c <> 42) -> (r = [] \/ exists c r', r = c :: r' /\ (c = 33 \/ c = 42)) ->
    a ++ r <> [] -> (forall c r', a ++ r = c :: r' -> ~ In c (u "!=@+$(")) -> authority_root (a ++ r) a.
Definition root_of (iname root : text) : Prop :=
  exists body auth rest r, (iname = u "xri://" ++ body \/ iname = body /\ ~ (exists b, iname = u "xri://" ++ b)) /\
    body = auth ++ rest /\ ~ In 47 auth /\ (rest = [] \/ exists q, rest = 47 :: q) /\ authority_root auth r /\ root = u "xri://" ++ r.
(** The XRD elements of a document, in order. *)
Definition xrds (doc : xel) : list xel := filter (fun c => text_eqb (x_tag c) (u "{xri://$xrd*($v*2.0)}XRD")) (x_children doc).

(** ** Proofs *)
Lemma findall_first tag x c l : x_findall tag x = c :: l ->
  exists before after, x_children x = before ++ c :: after /\ Forall (fun c => x_tag c <> tag) before /\ x_tag c = tag.
Proof.
  unfold x_findall. induction (x_children x) as [|y ys IH]; [discriminate|]. cbn [filter]. destruct (text_eqb (x_tag y) tag) eqn:E; intros H.
  - inv H. apply text_eqb_eq in E. exists [], ys. auto.
  - destruct (IH H) as (b & a & -> & F & T). exists (y :: b), a. split; auto. split; auto. constructor; auto. apply text_eqb_neq. auto.
Qed.
Lemma findall_first_inv tag x before c after : x_children x = before ++ c :: after -> Forall (fun c => x_tag c <> tag) before -> x_tag c = tag ->
  exists l, x_findall tag x = c :: l.
Proof.
  intros E F T. unfold x_findall. rewrite E. clear E. induction F as [|y b Hy F IH]; cbn [app filter].
  - rewrite T, text_eqb_refl. eauto.
  - apply text_eqb_neq in Hy. rewrite Hy. auto.
Qed.
Lemma cid_tag : canonicalID_tag = u "{xri://$xrd*($v*2.0)}CanonicalID".
Proof. vm_compute. reflexivity. Qed.
Lemma xrds_findall doc : x_findall xrd_tag doc = xrds doc.
Proof. unfold x_findall, xrds. assert (xrd_tag = u "{xri://$xrd*($v*2.0)}XRD") as -> by (vm_compute; reflexivity). auto. Qed.
Lemma claims_fun blank x i j : claims blank x i -> claims blank x j -> i = j.
Proof.
  intros (b & e & a & t & E & F & T & X & W) (b' & e' & a' & t' & E' & F' & T' & X' & W'). rewrite <- cid_tag in *.
  destruct (findall_first_inv _ _ _ _ _ E F T) as (l & L). destruct (findall_first_inv _ _ _ _ _ E' F' T') as (l' & L').
  rewrite L in L'. inv L'. assert (t = t') as ->.
  { destruct X as [X|(_ & X & ->)], X' as [X'|(_ & X' & ->)]; congruence. }
  eapply with_scheme_fun; eauto.
Qed.
Lemma findtext_claims x : match x_findtext canonicalID_tag x with Some t => claims true x (XRI t) | None => forall b i, ~ claims b x i end.
Proof.
  unfold x_findtext. destruct (x_findall canonicalID_tag x) as [|c l] eqn:E.
  - intros bl i (b & e & a & t & Ec & F & T & _). rewrite <- cid_tag in *. destruct (findall_first_inv _ _ _ _ _ Ec F T) as (l & L). congruence.
  - apply findall_first in E as (b & a & E & F & T). rewrite cid_tag in *. exists b, c, a. eexists. split; eauto. split; auto. split; auto.
    split; [|apply XRI_scheme]. destruct (x_text c); auto.
Qed.
Lemma rcut_parent c : match rcut 33 c with Some (p, _) => parent_of p c /\ forall q, parent_of q c -> q = p | None => forall p, ~ parent_of p c end.
Proof.
  destruct (rcut 33 c) as [[p s]|] eqn:E.
  - split; [exists s; apply rcut_Some; auto|]. intros q (s' & H). apply rcut_Some in H. congruence.
  - apply rcut_None in E. intros p (s & -> & _). apply E. apply in_app_iff. right. left. auto.
Qed.
Lemma parent_fun p q c : parent_of p c -> parent_of q c -> p = q.
Proof. intros H K. pose proof (rcut_parent c) as R. destruct (rcut 33 c) as [[r s]|]; [|destruct (R _ H)]. destruct R as (_ & R). rewrite (R _ H), (R _ K). auto. Qed.

(** The loop of the code goes from the last XRD to the first. *)
Lemma Forall2_rev {A B} (R : A -> B -> Prop) l m : Forall2 R l m -> Forall2 R (rev l) (rev m).
Proof. induction 1; cbn [rev]; auto. apply Forall2_app; auto. Qed.
Fixpoint ascends (c : text) (l : list text) : Prop :=
  match l with [] => True | p :: r => parent_of p c /\ ascends p r end.
Lemma last_d {A} (x : A) l d d' : last (x :: l) d = last (x :: l) d'.
Proof. revert x. induction l as [|y l IH]; intros x; auto. cbn [last]. apply IH. Qed.
Lemma last_cons {A} (x : A) l d : last (x :: l) d = last l x.
Proof. destruct l as [|y l]; auto. change (last (y :: l) d = last (y :: l) x). apply last_d. Qed.
Lemma chain_spec low xs : forall child top, canonical_chain low child xs = Ok top <->
  exists ids, Forall2 (claims true) xs ids /\ ascends child (map low ids) /\ top = last (map low ids) child.
Proof.
  induction xs as [|x xs IH]; intros child top; cbn [canonical_chain].
  - split.
    + intros H. inv H. exists []. cbn. auto.
    + intros (ids & F & _ & ->). inv F. auto.
  - pose proof (rcut_parent child) as R. pose proof (findtext_claims x) as C. split.
    + intros H. destruct (rcut 33 child) as [[p sg]|]; [|discriminate]. destruct R as (R & _).
      destruct (x_findtext canonicalID_tag x) as [t|]; [|discriminate]. cbn [bind] in H.
      destruct (text_eqb p (low (XRI t))) eqn:E; [|discriminate]. apply text_eqb_eq in E. apply IH in H as (ids & F & A & ->).
      exists (XRI t :: ids). split; auto. cbn [map ascends]. rewrite <- E. split; auto. symmetry. apply last_cons.
    + intros (ids & F & A & ->). inversion F as [|x' i xs' ids' Hi F' E1 E2]; subst. cbn [map ascends] in A. destruct A as (A1 & A2).
      destruct (rcut 33 child) as [[p sg]|]; [|destruct (R _ A1)]. destruct R as (_ & R). rewrite <- (R _ A1).
      destruct (x_findtext canonicalID_tag x) as [t|]; [|destruct (C _ _ Hi)]. cbn [bind]. rewrite (claims_fun _ _ _ _ C Hi), text_eqb_refl.
      apply IH. exists ids'. split; auto. split; auto. cbn [map]. apply last_cons.
Qed.
Lemma descends_snoc l c : forall root, descends root (l ++ [c]) <-> descends root l /\ parent_of (last l root) c.
Proof.
  induction l as [|x l IH]; intros root; cbn [app descends]; [cbn; tauto|]. rewrite IH, last_cons. tauto.
Qed.
Lemma descends_rev l : forall c root, descends root (rev l ++ [c]) <-> ascends c (l ++ [root]).
Proof.
  induction l as [|p l IH]; intros c root; cbn [rev app ascends descends]; [tauto|]. rewrite <- IH, descends_snoc.
  assert (last (rev l ++ [p]) root = p) as -> by apply last_last. tauto.
Qed.
Lemma ascends_snoc l : forall c r, ascends c (l ++ [r]) <-> ascends c l /\ parent_of r (last l c).
Proof.
  induction l as [|p l IH]; intros c r; cbn [app ascends]; [cbn; tauto|]. rewrite IH, last_cons. tauto.
Qed.

Lemma pieces_first a r : (forall c, In c a -> c <> 33 /\ c <> 42) -> (r = [] \/ exists c r', r = c :: r' /\ (c = 33 \/ c = 42)) ->
  exists l, flat_map (splitc 42) (splitc 33 (a ++ r)) = a :: l.
Proof.
  intros Ha Hr. assert (~ In 33 a /\ ~ In 42 a) as (N1 & N2) by (split; intros X; apply Ha in X; lia).
  destruct Hr as [-> | (c & r' & -> & [-> | ->])].
  - rewrite app_nil_r, splitc_nin by auto. cbn [flat_map]. rewrite splitc_nin by auto. cbn. eauto.
  - rewrite splitc_app by auto. cbn [flat_map]. rewrite splitc_nin by auto. cbn. eauto.
  - destruct (cut 33 r') as [[x y]|] eqn:C.
    + apply cut_Some in C as (-> & N). replace (a ++ 42 :: x ++ 33 :: y) with ((a ++ 42 :: x) ++ 33 :: y) by (rewrite <- app_assoc; auto).
      rewrite splitc_app by (rewrite in_app_iff; cbn; intuition lia). cbn [flat_map]. rewrite splitc_app by auto. cbn. eauto.
    + apply cut_None in C. rewrite splitc_nin by (rewrite in_app_iff; cbn; intuition lia). cbn [flat_map]. rewrite splitc_app by auto. cbn. eauto.
Qed.
Lemma iri_split (s : text) : exists a r, s = a ++ r /\ (forall c, In c a -> c <> 33 /\ c <> 42) /\ (r = [] \/ exists c r', r = c :: r' /\ (c = 33 \/ c = 42)).
Proof.
  induction s as [|c s IH]; [exists [], []; split; [auto|split; [intros c []|auto]]|].
  destruct (N.eqb c 33 || N.eqb c 42) eqn:E.
  - exists [], (c :: s). split; [auto|]. split; [intros d []|]. right. exists c, s. split; auto. lia.
  - destruct IH as (a & r & -> & H1 & H2). exists (c :: a), r. split; auto. split; auto. intros d [<-|D]; auto. lia.
Qed.
Lemma no_slash_XRI r : ~ In 47 r -> XRI r = u "xri://" ++ r.
Proof.
  intros N. destruct (XRI_scheme r) as [((x & ->) & _)|(_ & E)]; auto. exfalso. apply N. apply in_app_iff. left. vm_compute. tauto.
Qed.
Lemma rootAuthority_spec iname : match rootAuthority iname with Ok r => root_of iname r | Raise _ => forall r, ~ root_of iname r end.
Proof.
  unfold rootAuthority.
  set (body := if startswith iname xri_scheme then skipn 6 iname else iname).
  assert (forall b, (iname = u "xri://" ++ b \/ iname = b /\ ~ (exists b0, iname = u "xri://" ++ b0)) <-> b = body) as HB.
  { intros b. subst body. destruct (startswith iname xri_scheme) eqn:E.
    - apply startswith_spec in E as (x & ->). change (skipn 6 (xri_scheme ++ x)) with x. unfold xri_scheme. split.
      + intros [H|(_ & H)]; [apply app_inv_head in H; auto|]. destruct H. eauto.
      + intros ->. auto.
    - split.
      + intros [-> | (-> & _)]; auto. unfold xri_scheme in E. rewrite startswith_app in E. discriminate.
      + intros ->. right. split; auto. intros (x & ->). unfold xri_scheme in E. rewrite startswith_app in E. discriminate. }
  set (auth := match cut 47 body with Some (a, _) => a | None => body end).
  assert (forall a rest, body = a ++ rest -> ~ In 47 a -> (rest = [] \/ exists q, rest = 47 :: q) -> a = auth) as HA.
  { intros a rest -> N R. subst auth. destruct R as [-> | (q & ->)]; [rewrite app_nil_r; apply cut_None in N; rewrite N; auto|rewrite cut_app by auto; auto]. }
  assert (exists rest, body = auth ++ rest /\ ~ In 47 auth /\ (rest = [] \/ exists q, rest = 47 :: q)) as (rest & HA1 & HA2 & HA3).
  { subst auth. destruct (cut 47 body) as [[a r]|] eqn:E.
    - apply cut_Some in E as (-> & N). exists (47 :: r). eauto.
    - apply cut_None in E. exists []. rewrite app_nil_r. auto. }
  assert (forall r, root_of iname r <-> exists r0, authority_root auth r0 /\ r = u "xri://" ++ r0) as HR.
  { intros r. split.
    - intros (b & a & rs & r0 & H1 & H2 & H3 & H4 & H5 & H6). apply HB in H1 as ->. rewrite (HA _ _ H2 H3 H4) in H5. eauto.
    - intros (r0 & H1 & H2). exists body, auth, rest, r0. split; [apply HB; auto|]. auto. }
  assert (forall r0, authority_root auth r0 -> ~ In 47 r0) as HN.
  { intros r0 H X. apply HA2. inversion H; subst.
    - cbn in *. destruct X as [X|X]; [auto|]. right. apply in_app_iff. apply in_app_iff in X as [X|[X|[]]]; auto. discriminate.
    - cbn in *. tauto.
    - apply in_app_iff. auto. }
  clearbody auth. clear HA HA1 HA3 HB body rest. destruct auth as [|c auth].
  - intros r X. apply HR in X as (r0 & X & _). inversion X. subst. congruence.
  - destruct (c =? 40) eqn:Ec.
    + apply N.eqb_eq in Ec as ->. change (cut 41 (40 :: auth)) with (match cut 41 auth with None => None | Some (a, b) => Some (40 :: a, b) end).
      destruct (cut 41 auth) as [[a r]|] eqn:E.
      * apply cut_Some in E as (-> & N). apply HR. exists (40 :: a ++ [41]). pose proof (root_xref a r N) as X. split; [exact X|apply no_slash_XRI; auto].
      * apply cut_None in E. intros r X. apply HR in X as (r0 & X & _). inversion X; subst.
        -- apply E. apply in_app_iff. right. left. auto.
        -- vm_compute in H2. intuition discriminate.
        -- apply (H3 40 auth H). vm_compute. tauto.
    + destruct (memc c XRI_AUTHORITIES) eqn:M.
      * apply memc_In in M. apply HR. exists [c]. assert (authority_root (c :: auth) [c]) as X.
        { apply root_symbol. vm_compute in M |- *. intuition lia. }
        split; [exact X|apply no_slash_XRI; auto].
      * destruct (iri_split (c :: auth)) as (a & r & E & H1 & H2). rewrite E. destruct (pieces_first a r H1 H2) as (l & ->).
        apply HR. exists a. assert (authority_root (c :: auth) a) as X.
        { rewrite E. apply root_iri; auto; [congruence|]. intros c' r' Q. rewrite <- E in Q. injection Q as <- <-. apply memc_false in M. auto. }
        split; [exact X|apply no_slash_XRI; auto].
Qed.
Lemma authoritative root id : providerIsAuthoritative root id = Ok true <-> parent_of root id.
Proof.
  unfold providerIsAuthoritative. pose proof (rcut_parent id) as R. destruct (rcut 33 id) as [[p sg]|].
  - destruct R as (R1 & R2). split.
    + intros H. injection H as H. apply text_eqb_eq in H as <-. auto.
    + intros H. rewrite (R2 _ H), text_eqb_refl. auto.
  - split; [discriminate|]. intros H. destruct (R _ H).
Qed.
Lemma authority_fun a r r' : authority_root a r -> authority_root a r' -> r = r'.
Proof.
  assert (forall c : N, In c (u "!=@+$") -> c <> 40 /\ In c (u "!=@+$(")) as K by (intros c; vm_compute; intuition lia).
  intros H H'. inversion H as [x y N E|c y I E|x y H1 H2 H3 H4 E]; subst; inversion H' as [x' y' N' E|c' y' I' E|x' y' H1' H2' H3' H4' E]; subst; auto.
  - pose proof (cut_app 41 x y N) as A. rewrite <- E, cut_app in A by auto. injection A as -> _. auto.
  - destruct (K _ I'). congruence.
  - exfalso. apply (H4' _ _ E). vm_compute. tauto.
  - destruct (K _ I). congruence.
  - exfalso. apply (H4' _ _ E). apply K. auto.
  - exfalso. apply (H4 _ _ (eq_sym E)). vm_compute. tauto.
  - exfalso. apply (H4 _ _ (eq_sym E)). apply K. auto.
  - destruct (pieces_first _ _ H1 H2) as (l & A). destruct (pieces_first _ _ H1' H2') as (l0 & B). rewrite E in B. rewrite A in B. congruence.
Qed.

(** An identifier is returned exactly when the XRDs claim a chain of identifiers, each
    the parent of the next (letter case aside), starting one segment below the root of
    the i-name asked for. *)
Theorem C52_accepts : forall low iname doc cid,
  getCanonicalID low iname doc = Ok (Some cid) <->
  exists above final ids root, xrds doc = above ++ [final] /\ Forall2 (claims true) above ids /\ claims false final cid /\
    root_of iname root /\ descends root (map low (ids ++ [cid])).
Proof.
  intros low iname doc cid. unfold getCanonicalID. rewrite xrds_findall. pose proof (rootAuthority_spec iname) as HR. split.
  - intros H. destruct (rev (xrds doc)) as [|x r] eqn:E; [discriminate|].
    assert (xrds doc = rev r ++ [x]) as -> by (rewrite <- (rev_involutive (xrds doc)), E; auto).
    destruct (x_findall canonicalID_tag x) as [|c l] eqn:F; [discriminate|]. destruct (x_text c) as [t|] eqn:T; [|discriminate].
    cbn [bind] in H. destruct (canonical_chain low (low (XRI t)) r) as [top|] eqn:C; [|discriminate]. cbn [bind] in H.
    destruct (rootAuthority iname) as [root|]; [|discriminate]. cbn [bind] in H.
    destruct (providerIsAuthoritative root top) as [[|]|] eqn:A; [|discriminate|discriminate]. cbn [bind] in H. injection H as <-.
    apply authoritative in A. apply chain_spec in C as (ids & F2 & As & ->).
    exists (rev r), x, (rev ids), root. split; [auto|]. split; [apply Forall2_rev; auto|]. split; [|split; [auto|]].
    + apply findall_first in F as (b & a & Ec & Fb & Tc). rewrite cid_tag in *. exists b, c, a, t. split; [auto|]. split; [auto|]. split; [auto|]. split; [auto|apply XRI_scheme].
    + rewrite map_app, map_rev. cbn [map]. apply descends_rev. apply ascends_snoc. auto.
  - intros (above & final & ids & root & E & F2 & Cl & R & D). rewrite E, rev_app_distr. cbn [rev app].
    destruct Cl as (b & e & a & t & Ec & Fb & Te & X & W). rewrite <- cid_tag in *. destruct (findall_first_inv _ _ _ _ _ Ec Fb Te) as (l & ->).
    destruct X as [X|(X & _)]; [|discriminate]. rewrite X. cbn [bind]. rewrite <- (with_scheme_fun _ _ _ W (XRI_scheme t)).
    rewrite map_app in D. cbn [map] in D. rewrite <- (rev_involutive (map low ids)) in D. apply descends_rev in D. apply ascends_snoc in D as (D1 & D2).
    assert (canonical_chain low (low cid) (rev above) = Ok (last (rev (map low ids)) (low cid))) as ->.
    { apply chain_spec. exists (rev ids). split; [apply Forall2_rev; exact F2|]. rewrite map_rev. split; [exact D1|reflexivity]. }
    cbn [bind]. destruct (rootAuthority iname) as [root'|]; [|destruct (HR _ R)]. cbn [bind].
    assert (root' = root) as ->.
    { clear - HR R. destruct HR as (b1 & a1 & s1 & r1 & H1 & H2 & H3 & H4 & H5 & H6), R as (b2 & a2 & s2 & r2 & K1 & K2 & K3 & K4 & K5 & K6).
      assert (b1 = b2) as ->.
      { destruct H1 as [H1|(H1 & H1')], K1 as [K1|(K1 & K1')].
        - rewrite H1 in K1. apply app_inv_head in K1. auto.
        - destruct K1'; eauto.
        - destruct H1'; eauto.
        - congruence. }
      assert (a1 = a2) as ->; [|rewrite H6, K6; f_equal; eapply authority_fun; eauto].
      assert (forall a rest, b2 = a ++ rest -> ~ In 47 a -> (rest = [] \/ exists q, rest = 47 :: q) -> a = match cut 47 b2 with Some (x, _) => x | None => b2 end) as HA.
      { intros a rest -> N [-> | (q & ->)]; [rewrite app_nil_r; apply cut_None in N; rewrite N; auto|rewrite cut_app by auto; auto]. }
      rewrite (HA _ _ H2 H3 H4), (HA _ _ K2 K3 K4). auto. }
    rewrite (proj2 (authoritative _ _) D2). reflexivity.
Qed.
Print Assumptions C52_accepts.
(** No identifier is reported exactly when the last XRD has none. *)
Theorem C52_none : forall low iname doc,
  getCanonicalID low iname doc = Ok None <->
  xrds doc = [] \/ exists above final, xrds doc = above ++ [final] /\ Forall (fun c => x_tag c <> u "{xri://$xrd*($v*2.0)}CanonicalID") (x_children final).
Proof.
  intros low iname doc. unfold getCanonicalID. rewrite xrds_findall. rewrite <- cid_tag. destruct (rev (xrds doc)) as [|x r] eqn:E.
  - split; auto. intros _. left. rewrite <- (rev_involutive (xrds doc)), E. auto.
  - assert (xrds doc = rev r ++ [x]) as Q by (rewrite <- (rev_involutive (xrds doc)), E; auto). rewrite Q.
    assert (x_findall canonicalID_tag x = [] <-> Forall (fun c => x_tag c <> canonicalID_tag) (x_children x)) as K.
    { unfold x_findall. induction (x_children x) as [|y l IH]; cbn [filter]; [split; auto|]. destruct (text_eqb (x_tag y) canonicalID_tag) eqn:T.
      - apply text_eqb_eq in T. split; [discriminate|]. intros F. inversion F. contradiction.
      - apply text_eqb_neq in T. rewrite IH. split; [auto|]. intros F. inversion F. auto. }
    split.
    + intros H. right. exists (rev r), x. split; auto. apply K. destruct (x_findall canonicalID_tag x); auto. exfalso. clear - H.
      do 4 (apply bind_Ok in H as (? & _ & H)). match type of H with (if ?b then _ else _) = _ => destruct b end; discriminate H.
    + intros [H|(ab & f & H & F)]; [destruct (rev r); discriminate|]. apply app_inj_tail in H as (_ & <-). apply K in F. rewrite F. auto.
Qed.
Print Assumptions C52_none.
(** The accepted identifier is the root followed by one '!' segment for every XRD. *)
Theorem C52_segments : forall low iname doc cid, getCanonicalID low iname doc = Ok (Some cid) ->
  exists root segs, root_of iname root /\ List.length segs = List.length (xrds doc) /\ segs <> [] /\ Forall (fun s => ~ In 33 s) segs /\
    low cid = root ++ flat_map (fun s => 33 :: s) segs.
Proof.
  intros low iname doc cid H. apply C52_accepts in H as (above & final & ids & root & E & F2 & _ & R & D).
  assert (forall l root c, descends root (l ++ [c]) -> exists segs, List.length segs = S (List.length l) /\ Forall (fun s => ~ In 33 s) segs /\ c = root ++ flat_map (fun s => 33 :: s) segs) as K.
  { clear. induction l as [|x l IH]; intros root c H; cbn [app descends] in H; destruct H as ((sg & -> & N) & H).
    - exists [sg]. cbn [flat_map]. rewrite app_nil_r. auto.
    - destruct (IH _ _ H) as (segs & L & F & ->). exists (sg :: segs). cbn [List.length flat_map]. rewrite L. split; auto. split; auto.
      rewrite <- app_assoc. auto. }
  rewrite map_app in D. destruct (K _ _ _ D) as (segs & L & F & ->). exists root, segs. rewrite E, app_length. cbn [List.length].
  rewrite map_length in L. assert (List.length above = List.length ids) as F3 by (clear - F2; induction F2; cbn; auto). split; auto. split; [lia|]. split; auto. intros ->. discriminate.
Qed.
Print Assumptions C52_segments.

(** An i-name below another one, and attempts of an authority to speak for a name that is
    not its own. *)
Definition xrd_with (id : text) : xel := mkXel xrd_tag [] None [mkXel (u "{x}Other") [] None []; mkXel canonicalID_tag [] (Some id) []].
Definition xrds_doc (l : list xel) : xel := mkXel root_tag [] None l.
Example C52_example :
  getCanonicalID lower (u "@a*b") (xrds_doc [xrd_with (u "xri://@!1"); xrd_with (u "@!1!Ab.c")]) = Ok (Some (u "xri://@!1!Ab.c")) /\
  getCanonicalID lower (u "@a*b") (xrds_doc [xrd_with (u "@!1"); xrd_with (u "@!2!3")]) = Raise XRDSFraud /\
  getCanonicalID lower (u "@a") (xrds_doc [xrd_with (u "=!1")]) = Raise XRDSFraud /\
  getCanonicalID lower (u "@a") (xrds_doc [xrd_with (u "@!1!2")]) = Raise XRDSFraud /\
  getCanonicalID lower (u "(http://x)*a/p") (xrds_doc [xrd_with (u "(http:")]) = Raise ValueError /\
  getCanonicalID lower (u "@a") (xrds_doc [xrd_with (u "@!1"); mkXel xrd_tag [] None []]) = Ok None.
Proof. vm_compute. auto 9. Qed.

(** ** C98 (refuted): a bad chain is always reported as an XRDS error *)
Theorem C98_bad_chain_is_XRDSError_refuted :
  (exists iname doc, getCanonicalID lower iname doc = Raise ValueError) /\
  (exists iname doc, getCanonicalID lower iname doc = Raise AttributeError) /\
  (exists iname doc, getCanonicalID lower iname doc = Raise IndexError).
Proof.
  split; [|split].
  - exists (u "=a"), (xrds_doc [xrd_with (u "=a")]). vm_compute. reflexivity.                       (* no '!' *)
  - exists (u "=a*b"), (xrds_doc [mkXel xrd_tag [] None []; xrd_with (u "=!1!2")]). vm_compute. reflexivity.  (* the parent XRD has no CanonicalID *)
  - exists (u "xri:///x"), (xrds_doc [xrd_with (u "=!1")]). vm_compute. reflexivity.                (* no authority *)
Qed.
Print Assumptions C98_bad_chain_is_XRDSError_refuted.

(** ** C61: priorities *)
(** The priority of an element: its attribute read as a non-negative number. *)
Definition priority (e : xel) (p : option Z) : Prop :=
  match p with
  | Some v => exists s, x_get (u "priority") e = Some s /\ int_of_text s = Ok v /\ (0 <= v)%Z
  | None => forall s v, x_get (u "priority") e = Some s -> int_of_text s = Ok v -> (v < 0)%Z
  end.
(** [a] may come before [b]. *)
Definition not_after (a b : xel) : Prop :=
  forall p q, priority a p -> priority b q -> match p, q with Some v, Some w => (v <= w)%Z | None, Some _ => False | _, None => True end.

Lemma int_err s e : int_of_text s = Raise e -> e = ValueError.
Proof.
  unfold int_of_text, nat_of_digits. destruct (strip s) as [|c r]; [congruence|]. destruct (c =? 45); [|destruct (c =? 43)];
    match goal with |- context [digits ?x] => destruct (digits x) end; cbn; congruence.
Qed.
Lemma getPriority_spec e : exists p, getPriority e = Ok p /\ priority e p.
Proof.
  unfold getPriority, getPriorityStrict, priority. destruct (x_get (u "priority") e) as [s|] eqn:E.
  - destruct (int_of_text s) as [v|x] eqn:I; cbn [bind].
    + destruct (0 <=? v)%Z eqn:L.
      * exists (Some v). split; auto. exists s. split; auto. split; auto. lia.
      * exists None. split; auto. intros s' v' Es Ev. inv Es. assert (v' = v) by congruence. lia.
    + apply int_err in I as X. subst. exists None. split; auto. intros s' v' Es Ev. inv Es. congruence.
  - exists None. split; auto. intros; congruence.
Qed.
Lemma priority_fun e p q : priority e p -> priority e q -> p = q.
Proof.
  destruct p as [v|], q as [w|]; cbn; auto.
  - intros (s & E & I & L) (s' & E' & I' & L'). congruence.
  - intros (s & E & I & L) H. specialize (H _ _ E I). lia.
  - intros H (s & E & I & L). specialize (H _ _ E I). lia.
Qed.
Lemma prio_total a b : prio_leb a b = true \/ prio_leb b a = true.
Proof. destruct a as [a|], b as [b|]; cbn; auto. lia. Qed.
Lemma prio_trans a b c : prio_leb a b = true -> prio_leb b c = true -> prio_leb a c = true.
Proof. destruct a as [a|], b as [b|], c as [c|]; cbn; auto; try discriminate. lia. Qed.

(** Whatever the shuffle did, the result is a permutation of the elements ordered by
    priority, those without a valid one last; elements of the same priority stay in the
    order of the shuffle. *)
Theorem C61_priority_order : forall els shuffled, Permutation els shuffled ->
  exists l, prioSort shuffled = Ok l /\ Permutation els l /\ StronglySorted not_after l.
Proof.
  intros els sh P. unfold prioSort.
  assert (exists ps, mapM (fun e => p <- getPriority e ;; Ok (p, e)) sh = Ok ps /\ map snd ps = sh /\ Forall (fun pe => priority (snd pe) (fst pe)) ps) as (ps & -> & M & F).
  { clear P. induction sh as [|e sh (ps & E & M & F)]; [exists []; auto|]. destruct (getPriority_spec e) as (p & Ep & Hp).
    exists ((p, e) :: ps). cbn [mapM]. rewrite Ep. cbn [bind]. rewrite E. cbn. rewrite M. auto. }
  cbn [bind]. eexists. split; [reflexivity|]. split.
  - rewrite P, <- M. apply Permutation_map, sort_perm.
  - set (pleb := fun a b : option Z * xel => prio_leb (fst a) (fst b)).
    assert (StronglySorted (fun a b => pleb a b = true) (sort pleb ps)) as S.
    { apply sort_strongly_sorted; unfold pleb; [intros; apply prio_total|intros a b c; apply prio_trans]. }
    assert (Forall (fun pe => priority (snd pe) (fst pe)) (sort pleb ps)) as F2 by (eapply Permutation_Forall; [apply sort_perm|auto]).
    clear - S F2. induction S as [|a l S IH H]; cbn [map]; constructor; inversion F2; subst; auto.
    rewrite Forall_map. rewrite Forall_forall in *. intros b Hb p q Hp Hq.
    rewrite (priority_fun _ _ _ Hp H2), (priority_fun _ _ _ Hq (H3 _ Hb)). specialize (H b Hb). unfold pleb in H.
    destruct a as [[v|] ea], b as [[w|] eb]; cbn in *; auto; try discriminate. lia.
Qed.
Print Assumptions C61_priority_order.
Theorem C61_ties_keep_shuffle_order : forall shuffled l p (same : xel -> bool), prioSort shuffled = Ok l ->
  (forall e, same e = true <-> priority e p) -> filter same l = filter same shuffled.
Proof.
  intros sh l p same H Hs. unfold prioSort in H.
  assert (exists ps, mapM (fun e => p <- getPriority e ;; Ok (p, e)) sh = Ok ps /\ map snd ps = sh /\ Forall (fun pe => priority (snd pe) (fst pe)) ps) as (ps & E & M & F).
  { clear H. induction sh as [|e sh (ps & E & M & F)]; [exists []; auto|]. destruct (getPriority_spec e) as (q & Ep & Hp).
    exists ((q, e) :: ps). cbn [mapM]. rewrite Ep. cbn [bind]. rewrite E. cbn. rewrite M. auto. }
  rewrite E in H. cbn [bind] in H. inv H.
  assert (forall l : list (option Z * xel), filter same (map snd l) = map snd (filter (fun pe => same (snd pe)) l)) as K.
  { induction l as [|a l IH]; auto. cbn. destruct (same (snd a)); cbn; rewrite IH; auto. }
  rewrite !K. f_equal. set (pleb := fun a b : option Z * xel => prio_leb (fst a) (fst b)).
  set (q := fun pe : option Z * xel => same (snd pe) && prio_leb (fst pe) p && prio_leb p (fst pe)).
  assert (forall l, Forall (fun pe => priority (snd pe) (fst pe)) l -> filter (fun pe => same (snd pe)) l = filter q l) as Q.
  { intros l Fl. apply filter_ext_in. intros pe I. rewrite Forall_forall in Fl. specialize (Fl _ I). unfold q. destruct (same (snd pe)) eqn:S; auto.
    apply Hs in S. rewrite (priority_fun _ _ _ Fl S). destruct p; cbn; auto. lia. }
  rewrite (Q ps F), Q by (eapply Permutation_Forall; [apply sort_perm|auto]).
  apply sort_stable. intros a b Ha Hb. unfold q, pleb in *. apply andb_prop in Ha as (Ha & _). apply andb_prop in Ha as (_ & Ha). apply andb_prop in Hb as (_ & Hb). exact (prio_trans _ _ _ Ha Hb).
Qed.
Print Assumptions C61_ties_keep_shuffle_order.
(** Priorities 10, 2, absent, malformed and negative, given in another order. *)
Definition prio_el (n : string) (p : option text) : xel := mkXel (u n) (match p with Some s => [(u "priority", s)] | None => [] end) None [].
Example C61_example :
  prioSort [prio_el "a" (Some (u "x")); prio_el "b" (Some (u "10")); prio_el "c" None; prio_el "d" (Some (u " 2 ")); prio_el "e" (Some (u "-1")); prio_el "f" (Some (u "10"))] =
  Ok [prio_el "d" (Some (u " 2 ")); prio_el "b" (Some (u "10")); prio_el "f" (Some (u "10")); prio_el "a" (Some (u "x")); prio_el "c" None; prio_el "e" (Some (u "-1"))].
Proof. vm_compute. reflexivity. Qed.
