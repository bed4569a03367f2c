(** Facts about the file names of the file store. *)
From Coq Require Import Lia ZifyBool ZifyN ZifyNat.
From Verif Require Import Py PyFacts Utf8 Utf8Facts CryptUtil CryptUtilFacts Association Nonce Store StoreSpec StoreFacts FileStore.
Open Scope N_scope.
Local Arguments u : simpl never.

(** Characters that never occur in the computed parts of a name. *)
Definition forbidden (c : N) : Prop := c = 45 \/ c = 47 \/ c = 0 \/ c = 58.
Definition tame (s : text) : Prop := forall c, In c s -> ~ forbidden c.
Lemma tame_nil : tame [].
Proof. intros c []. Qed.
Lemma tame_app a b : tame a -> tame b -> tame (a ++ b).
Proof. intros H1 H2 c H. apply in_app_iff in H as [H|H]; auto. Qed.
Lemma tame_dash s : tame s -> ~ In 45 s.
Proof. intros H I. apply (H _ I). left. auto. Qed.

(** ** Hexadecimal *)
Lemma hexN_spec n : exists ns, hexN n = map hexlow ns /\ Forall isnib ns /\ be16 0 ns = n /\ ns <> [].
Proof.
  unfold hexN. exists (nibs (S (N.size_nat n)) n []). split; [apply (hex_digits_nibs _ _ [])|].
  assert (n < 16 ^ N.of_nat (S (N.size_nat n))) as B.
  { rewrite Nat2N.inj_succ, N.pow_succ_r'. destruct n as [|p]; [change (16 ^ N.of_nat (N.size_nat 0)) with 1; lia|].
    simpl N.size_nat. pose proof (pos_size_bound p). lia. }
  destruct (nibs_spec _ _ [] B ltac:(discriminate)) as (A & C & D & _); [constructor|]. split; auto. split.
  - rewrite C. simpl. lia.
  - destruct (nibs _ _ _); [simpl in D; lia|discriminate].
Qed.
Lemma hex_value_nibs ns : Forall isnib ns -> forall acc, hex_value acc (map hexlow ns) = Ok (be16 acc ns).
Proof.
  induction 1 as [|n ns Hn HF IH]; intros acc; auto. cbn [map hex_value be16]. rewrite hexval_low by exact Hn. apply IH.
Qed.
Lemma hexlow_range n : n < 16 -> hexlow n < 103 /\ 48 <= hexlow n /\ (hexlow n <= 57 \/ 97 <= hexlow n).
Proof. unfold hexlow. destruct (n <? 10) eqn:E; lia. Qed.
Lemma zfill_nibs w s : exists k, zfill w (map hexlow s) = map hexlow (repeat 0 k ++ s).
Proof.
  unfold zfill. exists (w - length (map hexlow s))%nat. rewrite map_app. f_equal. generalize (w - length (map hexlow s))%nat. clear.
  intros n. induction n as [|n IH]; [auto|]. cbn [repeat map]. rewrite <- IH. reflexivity.
Qed.
Lemma be16_zeros k s : be16 0 (repeat 0 k ++ s) = be16 0 s.
Proof. induction k as [|k IH]; auto. Qed.
Lemma hex08_spec z : (0 <= z)%Z -> exists ns, hex08 z = map hexlow ns /\ Forall isnib ns /\ be16 0 ns = Z.to_N z /\ ns <> [].
Proof.
  intros H. unfold hex08. replace (z <? 0)%Z with false by lia.
  destruct (hexN_spec (Z.to_N z)) as (ns & -> & H1 & H2 & H3). destruct (zfill_nibs 8 ns) as (k & ->).
  exists (repeat 0 k ++ ns). split; auto. split; [|split].
  - apply Forall_app. split; auto. apply Forall_forall. intros x Hx. apply repeat_spec in Hx. subst. reflexivity.
  - rewrite be16_zeros. auto.
  - destruct ns; [congruence|]. intros Q. apply app_eq_nil in Q as (_ & Q). discriminate.
Qed.
Lemma hex08_int z : (0 <= z)%Z -> int16 (hex08 z) = Ok z.
Proof.
  intros H. destruct (hex08_spec z H) as (ns & -> & H1 & H2 & H3). unfold int16. rewrite hex_value_nibs by auto. cbn [bind].
  destruct ns; [congruence|]. cbn [map]. rewrite H2, Z2N.id by lia. auto.
Qed.
Lemma hex08_tame z : (0 <= z)%Z -> tame (hex08 z).
Proof.
  intros H. destruct (hex08_spec z H) as (ns & -> & H1 & _). intros c Hc. apply in_map_iff in Hc as (n & <- & Hn).
  rewrite Forall_forall in H1. specialize (H1 _ Hn). apply hexlow_range in H1. unfold forbidden. lia.
Qed.

(** ** Escaped host names *)
Lemma escape_tame s : tame (filenameEscape s).
Proof.
  intros c Hc. unfold filenameEscape in Hc. apply in_flat_map in Hc as (x & _ & Hc).
  destruct (filename_allowed x) eqn:E.
  - destruct Hc as [<-|[]]. unfold filename_allowed in E. unfold forbidden. lia.
  - destruct Hc as [<-|Hc]; [unfold forbidden; lia|]. unfold zfill in Hc. apply in_app_iff in Hc as [Hc|Hc].
    + apply repeat_spec in Hc. subst. unfold forbidden. lia.
    + unfold upper_hex in Hc. apply in_map_iff in Hc as (y & <- & Hy).
      destruct (hexN_spec x) as (ns & Q & H1 & _). rewrite Q in Hy. apply in_map_iff in Hy as (n & <- & Hn).
      rewrite Forall_forall in H1. specialize (H1 _ Hn). apply hexlow_range in H1 as Hr. unfold forbidden.
      destruct (97 <=? hexlow n) eqn:L; lia.
Qed.

(** ** The hash part *)
Definition unsafe_char (c : N) : N := if c =? 95 then 43 else if c =? 46 then 47 else c.
Fixpoint pads (n : nat) : nat := match n with 0 => 0 | 1 => 2 | 2 => 1 | S (S (S n)) => pads n end%nat.
Lemma safe64_b64char n : n < 64 -> exists c, safe64_char (b64char n) = [c] /\ unsafe_char c = b64char n /\ ~ forbidden c.
Proof.
  intros H. unfold safe64_char, unsafe_char, b64char, forbidden.
  repeat match goal with |- context [if ?b then _ else _] => destruct b eqn:?; try lia end;
    (eexists; split; [reflexivity|]);
    repeat match goal with |- context [if ?b then _ else _] => destruct b eqn:?; try lia end; lia.
Qed.
Lemma safe64_spec b : Forall isbyte b ->
  map unsafe_char (flat_map safe64_char (b2a_base64 b)) ++ repeat 61 (pads (length b)) = b2a_base64 b /\
  tame (flat_map safe64_char (b2a_base64 b)).
Proof.
  induction b as [|a|a b|a b c r IH] using list3_ind; intros H.
  - split; auto. apply tame_nil.
  - inv H. unfold isbyte in H2. cbn [b2a_base64 flat_map].
    destruct (safe64_b64char (a / 4)) as (c1 & -> & E1 & T1); [lia|]. destruct (safe64_b64char (a mod 4 * 16)) as (c2 & -> & E2 & T2); [lia|].
    change (safe64_char pad) with (@nil N). cbn [app map length pads repeat]. rewrite E1, E2. split; auto.
    intros c [<-|[<-|[]]]; auto.
  - inv H. inv H3. unfold isbyte in *. cbn [b2a_base64 flat_map].
    destruct (safe64_b64char (a / 4)) as (c1 & -> & E1 & T1); [lia|]. destruct (safe64_b64char (a mod 4 * 16 + b / 16)) as (c2 & -> & E2 & T2); [lia|].
    destruct (safe64_b64char (b mod 16 * 4)) as (c3 & -> & E3 & T3); [lia|].
    change (safe64_char pad) with (@nil N). cbn [app map length pads repeat]. rewrite E1, E2, E3. split; auto.
    intros c [<-|[<-|[<-|[]]]]; auto.
  - inv H. inv H3. inv H4. destruct (IH H5) as (I1 & I2). unfold isbyte in *. cbn [b2a_base64 flat_map].
    destruct (safe64_b64char (a / 4)) as (c1 & -> & E1 & T1); [lia|]. destruct (safe64_b64char (a mod 4 * 16 + b / 16)) as (c2 & -> & E2 & T2); [lia|].
    destruct (safe64_b64char (b mod 16 * 4 + c / 64)) as (c3 & -> & E3 & T3); [lia|]. destruct (safe64_b64char (c mod 64)) as (c4 & -> & E4 & T4); [lia|].
    cbn [app map length pads]. rewrite E1, E2, E3, E4, I1. split; auto.
    intros x [<-|[<-|[<-|[<-|Hx]]]]; auto.
Qed.

Section Names.
  Variable sha1 : bytes -> bytes.
  Hypothesis digest : forall b, length (sha1 b) = 20%nat /\ Forall isbyte (sha1 b).

  (** Two different byte strings with one digest. *)
  Definition collision : Prop := exists x y, x <> y /\ sha1 x = sha1 y.

  Lemma safe64_inj a b s : safe64 sha1 a = Ok s -> safe64 sha1 b = Ok s ->
    exists x y, encode a = Ok x /\ encode b = Ok y /\ sha1 x = sha1 y.
  Proof using digest.
    unfold safe64. intros H1 H2. binv H1. binv H2. inv H1. inv H2.
    destruct (digest a0) as (L1 & B1). destruct (digest a1) as (L2 & B2).
    destruct (safe64_spec _ B1) as (S1 & _). destruct (safe64_spec _ B2) as (S2 & _).
    unfold toBase64 in H0. rewrite <- H0, L1, <- L2, S2 in S1. apply (f_equal fromBase64) in S1.
    change b2a_base64 with toBase64 in S1. rewrite !fromBase64_toBase64 in S1 by auto. exists a0, a1. split; auto. split; auto. congruence.
  Qed.
  Lemma safe64_tame a s : safe64 sha1 a = Ok s -> tame s.
  Proof using digest.
    unfold safe64. intros H. binv H. inv H. apply safe64_spec. apply digest.
  Qed.
  Lemma safe64_nonnil a s : safe64 sha1 a = Ok s -> s <> [].
  Proof using digest.
    unfold safe64. intros H. binv H. inv H. destruct (digest a0) as (L & B). destruct (safe64_spec _ B) as (S & _).
    intros Q. unfold toBase64 in Q. rewrite Q in S. apply (f_equal (@length N)) in S. rewrite b2a_length, L in S. discriminate.
  Qed.
End Names.

Lemma last_dash a b x y : ~ In 45 b -> ~ In 45 y -> a ++ u "-" ++ b = x ++ u "-" ++ y -> a = x /\ b = y.
Proof.
  intros H1 H2 E. assert (rcut 45 (a ++ 45 :: b) = Some (a, b)) as R1 by (apply rcut_Some; auto).
  assert (rcut 45 (x ++ 45 :: y) = Some (x, y)) as R2 by (apply rcut_Some; auto).
  change (u "-" ++ b) with (45 :: b) in E. change (u "-" ++ y) with (45 :: y) in E. rewrite E in R1. rewrite R1 in R2. inv R2. auto.
Qed.
Lemma first_dash a b x y : ~ In 45 a -> ~ In 45 x -> a ++ u "-" ++ b = x ++ u "-" ++ y -> a = x /\ b = y.
Proof.
  intros H1 H2 E. assert (cut 45 (a ++ 45 :: b) = Some (a, b)) as R1 by (apply cut_app; auto).
  assert (cut 45 (x ++ 45 :: y) = Some (x, y)) as R2 by (apply cut_app; auto).
  change (u "-" ++ b) with (45 :: b) in E. change (u "-" ++ y) with (45 :: y) in E. rewrite E in R1. rewrite R1 in R2. inv R2. auto.
Qed.

(** ** [s.split('://', 1)] *)
Lemma cut_scheme_app s a b : cut_scheme s = Some (a, b) -> s = a ++ u "://" ++ b.
Proof.
  revert a b; induction s as [|c s IH]; intros a b; cbn [cut_scheme]; [discriminate|].
  destruct (startswith (c :: s) (u "://")) eqn:E.
  - intros H. inv H. apply startswith_spec in E as (r & E). change (u "://") with [58; 47; 47] in E. injection E as -> ->. reflexivity.
  - destruct (cut_scheme s) as [[x y]|]; [|discriminate]. intros H. inv H. rewrite (IH _ _ eq_refl). reflexivity.
Qed.
Definition no_scheme_sep (s : text) : Prop := forall a b, s <> a ++ u "://" ++ b.
Lemma cut_scheme_ext p r : ~ In 58 p -> cut_scheme (p ++ u "://" ++ r) = Some (p, r).
Proof.
  induction p as [|c p IH]; intros H.
  - reflexivity.
  - cbn [app cut_scheme]. assert (startswith (c :: p ++ u "://" ++ r) (u "://") = false) as ->.
    { destruct (startswith _ _) eqn:E; auto. apply startswith_spec in E as (q & E). change (u "://") with [58; 47; 47] in E. inv E.
      exfalso. apply H. left. auto. }
    rewrite IH; auto. intros Q. apply H. right. auto.
Qed.
