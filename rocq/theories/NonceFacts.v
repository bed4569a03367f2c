(** Calendar and parsing lemmas for Nonce.v. *)
From Verif Require Import Py PyFacts Nonce.
From Coq Require Import Lia ZifyBool ZifyN ZifyNat.
Local Ltac Zify.zify_post_hook ::= Z.div_mod_to_equations.
Open Scope Z_scope.

(** * The calendar, by counting *)

(** Gregorian month and year lengths. *)
Definition leap_year (y : Z) : Prop := (y mod 4 = 0 /\ y mod 100 <> 0) \/ y mod 400 = 0.
Lemma is_leap_spec y : is_leap y = true <-> leap_year y.
Proof. unfold is_leap, leap_year. lia. Qed.

Definition month_len (y m : Z) : Z :=
  if (m =? 2) then (if is_leap y then 29 else 28)
  else if existsb (Z.eqb m) [4; 6; 9; 11] then 30 else 31.
Definition year_len (y : Z) : Z := if is_leap y then 366 else 365.
(** The sum of [f 1 .. f n]. *)
Fixpoint sum1 (f : Z -> Z) (n : nat) : Z :=
  match n with O => 0 | S k => sum1 f k + f (Z.of_nat (S k)) end.
(** Days from 0001-01-01 to the date. *)
Definition day_number (y m d : Z) : Z :=
  sum1 year_len (Z.to_nat (y - 1)) + sum1 (month_len y) (Z.to_nat (m - 1)) + (d - 1).

Lemma div_succ k q : 0 < q -> (k + 1) / q = k / q + (if (k + 1) mod q =? 0 then 1 else 0).
Proof.
  intros Hq. pose proof (Z.div_mod k q ltac:(lia)). pose proof (Z.mod_pos_bound k q Hq).
  destruct (Z_lt_le_dec (k mod q + 1) q) as [L|L].
  - assert (E : (k + 1) / q = k / q) by (symmetry; apply Z.div_unique with (k mod q + 1); lia).
    assert (E2 : (k + 1) mod q = k mod q + 1) by (symmetry; apply Z.mod_unique with (k / q); lia).
    rewrite E, E2. destruct (k mod q + 1 =? 0) eqn:B; lia.
  - assert (E : (k + 1) / q = k / q + 1) by (symmetry; apply Z.div_unique with 0; lia).
    assert (E2 : (k + 1) mod q = 0) by (symmetry; apply Z.mod_unique with (k / q + 1); lia).
    rewrite E, E2. reflexivity.
Qed.

Lemma days_before_year_succ y : days_before_year (y + 1) = days_before_year y + year_len y.
Proof.
  unfold days_before_year, year_len, is_leap. cbv zeta.
  assert (E4 := div_succ (y - 1) 4 ltac:(lia)). assert (E100 := div_succ (y - 1) 100 ltac:(lia)).
  assert (E400 := div_succ (y - 1) 400 ltac:(lia)).
  replace (y - 1 + 1) with y in * by lia. replace (y + 1 - 1) with y by lia.
  rewrite E4, E100, E400.
  assert (y mod 400 = 0 -> y mod 100 = 0) by lia. assert (y mod 100 = 0 -> y mod 4 = 0) by lia.
  destruct (y mod 4 =? 0) eqn:B4, (y mod 100 =? 0) eqn:B100, (y mod 400 =? 0) eqn:B400; cbn [andb orb negb]; try lia.
Qed.

Lemma year_sum n : sum1 year_len n = days_before_year (Z.of_nat n + 1).
Proof.
  induction n as [|n IH]; [reflexivity|].
  cbn [sum1]. rewrite IH. rewrite Nat2Z.inj_succ. unfold Z.succ. rewrite (days_before_year_succ (Z.of_nat n + 1)). reflexivity.
Qed.

Lemma month_cases (P : Z -> Prop) m :
  1 <= m <= 12 -> P 1 -> P 2 -> P 3 -> P 4 -> P 5 -> P 6 -> P 7 -> P 8 -> P 9 -> P 10 -> P 11 -> P 12 -> P m.
Proof.
  intros H. intros.
  assert (m = 1 \/ m = 2 \/ m = 3 \/ m = 4 \/ m = 5 \/ m = 6 \/ m = 7 \/ m = 8 \/ m = 9 \/ m = 10 \/ m = 11 \/ m = 12) by lia.
  intuition subst; assumption.
Qed.

Lemma month_sum y m : 1 <= m <= 12 -> sum1 (month_len y) (Z.to_nat (m - 1)) = days_before_month y m.
Proof.
  intros H; pattern m; apply month_cases; [exact H|..];
    unfold days_before_month, month_len; cbv -[is_leap]; destruct (is_leap y); reflexivity.
Qed.

Lemma days_in_month_len y m : 1 <= m <= 12 -> days_in_month y m = month_len y m.
Proof.
  intros H; pattern m; apply month_cases; [exact H|..];
    unfold days_in_month, month_len; cbv -[is_leap]; destruct (is_leap y); reflexivity.
Qed.

Lemma ymd2ord_day_number y m d : 1 <= y -> 1 <= m <= 12 -> ymd2ord y m d = day_number y m d + 1.
Proof.
  intros Hy Hm. unfold ymd2ord, day_number. rewrite year_sum, month_sum by exact Hm.
  replace (Z.of_nat (Z.to_nat (y - 1)) + 1) with y by lia. lia.
Qed.

(** * From ordinals to dates *)

Definition valid_date (y m d : Z) : Prop := 1 <= y /\ 1 <= m <= 12 /\ 1 <= d <= month_len y m.

(** The month part of [ord2ymd], for the day [n] of a year. *)
Definition month_part (leap : bool) (n : Z) : Z * Z :=
  let month := (n + 50) / 32 in
  let preceding := month_entry DAYS_BEFORE_MONTH month + (if (2 <? month) && leap then 1 else 0) in
  if n <? preceding
  then let month := month - 1 in
       let preceding := preceding - (month_entry DAYS_IN_MONTH month + (if (month =? 2) && leap then 1 else 0)) in
       (month, n - preceding + 1)
  else (month, n - preceding + 1).
Definition month_part_ok (leap : bool) (n : Z) : bool :=
  let '(m, d) := month_part leap n in
  (1 <=? m) && (m <=? 12) && (1 <=? d)
  && (d <=? (if (m =? 2) && leap then 29 else month_entry DAYS_IN_MONTH m))
  && (month_entry DAYS_BEFORE_MONTH m + (if (2 <? m) && leap then 1 else 0) + d =? n + 1).
Lemma month_part_all : forall leap n, 0 <= n < (if (leap : bool) then 366 else 365) -> month_part_ok leap n = true.
Proof.
  assert (A : forall leap : bool, forallb (fun k => month_part_ok leap (Z.of_nat k)) (seq 0 (if leap then 366 else 365)) = true)
    by (intros []; vm_compute; reflexivity).
  intros leap n Hn. specialize (A leap). rewrite forallb_forall in A.
  specialize (A (Z.to_nat n)). rewrite Z2Nat.id in A by lia. apply A, in_seq. destruct leap; lia.
Qed.

(** A year is 400a + 100b + 4c + d + 1. *)
Lemma year_parts a b c d :
  0 <= a -> 0 <= b <= 3 -> 0 <= c <= 24 -> 0 <= d <= 3 ->
  let y := a * 400 + 1 + b * 100 + c * 4 + d in
  days_before_year y = a * 146097 + b * 36524 + c * 1461 + d * 365
  /\ is_leap y = (d =? 3) && (negb (c =? 24) || (b =? 3)).
Proof.
  intros Ha Hb Hc Hd. cbv zeta. unfold days_before_year, is_leap. split.
  - replace (a * 400 + 1 + b * 100 + c * 4 + d - 1) with (a * 400 + b * 100 + c * 4 + d) by lia.
    assert (E4 : (a * 400 + b * 100 + c * 4 + d) / 4 = a * 100 + b * 25 + c) by (symmetry; apply Z.div_unique with d; lia).
    assert (E100 : (a * 400 + b * 100 + c * 4 + d) / 100 = a * 4 + b) by (symmetry; apply Z.div_unique with (c * 4 + d); lia).
    assert (E400 : (a * 400 + b * 100 + c * 4 + d) / 400 = a) by (symmetry; apply Z.div_unique with (b * 100 + c * 4 + d); lia).
    rewrite E4, E100, E400. lia.
  - lia.
Qed.

Lemma ord2ymd_ok n : 1 <= n -> let '(y, m, d) := ord2ymd n in valid_date y m d /\ ymd2ord y m d = n.
Proof.
  intros Hn. unfold ord2ymd. cbv zeta.
  set (n0 := n - 1). set (a := n0 / 146097). set (r1 := n0 mod 146097).
  set (b := r1 / 36524). set (r2 := r1 mod 36524).
  set (c := r2 / 1461). set (r3 := r2 mod 1461).
  set (d := r3 / 365). set (r := r3 mod 365).
  assert (Ha : 0 <= a /\ 0 <= r1 < 146097 /\ n0 = a * 146097 + r1) by (unfold a, r1, n0; lia).
  assert (Hb : 0 <= b <= 4 /\ 0 <= r2 < 36524 /\ r1 = b * 36524 + r2) by (unfold b, r2; lia).
  assert (Hc : 0 <= c <= 24 /\ 0 <= r3 < 1461 /\ r2 = c * 1461 + r3) by (unfold c, r3; lia).
  assert (Hd : 0 <= d <= 4 /\ 0 <= r < 365 /\ r3 = d * 365 + r) by (unfold d, r; lia).
  clearbody a r1 b r2 c r3 d r. subst n0.
  destruct ((d =? 4) || (b =? 4)) eqn:E.
  - destruct (b =? 4) eqn:Eb.
    + assert (b = 4 /\ r2 = 0 /\ c = 0 /\ r3 = 0 /\ d = 0 /\ r = 0) as (-> & -> & -> & -> & -> & ->) by lia.
      destruct (year_parts a 3 24 3) as [Y1 Y2]; try lia.
      replace (a * 400 + 1 + 4 * 100 + 0 * 4 + 0 - 1) with (a * 400 + 1 + 3 * 100 + 24 * 4 + 3) by lia.
      unfold valid_date, ymd2ord. rewrite Y1. unfold days_before_month, month_len. rewrite Y2.
      change (month_entry DAYS_BEFORE_MONTH 12) with 334. cbv [Z.eqb Z.ltb Pos.eqb Z.compare Pos.compare Pos.compare_cont andb orb negb existsb]. lia.
    + assert (d = 4 /\ r = 0 /\ c <= 23) as (-> & -> & Hc') by lia.
      destruct (year_parts a b c 3) as [Y1 Y2]; try lia.
      replace (a * 400 + 1 + b * 100 + c * 4 + 4 - 1) with (a * 400 + 1 + b * 100 + c * 4 + 3) by lia.
      unfold valid_date, ymd2ord. rewrite Y1. unfold days_before_month, month_len. rewrite Y2.
      replace (c =? 24) with false by lia. change (month_entry DAYS_BEFORE_MONTH 12) with 334.
      cbv [Z.eqb Z.ltb Pos.eqb Z.compare Pos.compare Pos.compare_cont andb orb negb existsb]. lia.
  - destruct (year_parts a b c d) as [Y1 Y2]; try lia.
    set (y := a * 400 + 1 + b * 100 + c * 4 + d) in *.
    set (leap := (d =? 3) && (negb (c =? 24) || (b =? 3))) in *.
    assert (Hr : 0 <= r < (if leap then 366 else 365)) by (destruct leap; lia).
    pose proof (month_part_all leap r Hr) as M. unfold month_part_ok in M.
    change (let '(y0, m, d0) := (let '(m, d0) := month_part leap r in (y, m, d0)) in
            valid_date y0 m d0 /\ ymd2ord y0 m d0 = n) in |- * || idtac.
    assert (G : let '(m, d0) := month_part leap r in valid_date y m d0 /\ ymd2ord y m d0 = n).
    { destruct (month_part leap r) as [m d0]. unfold valid_date, ymd2ord, days_before_month. rewrite Y1, Y2.
      rewrite <- days_in_month_len by lia. unfold days_in_month. rewrite Y2. lia. }
    unfold month_part in G. cbv zeta in G.
    destruct (r <? _) eqn:E2 in G |- *; exact G.
Qed.

Lemma days_before_year_mono y z : y <= z -> days_before_year y + (z - y) * 365 <= days_before_year z.
Proof.
  intros H. replace z with (y + Z.of_nat (Z.to_nat (z - y))) by lia.
  induction (Z.to_nat (z - y)) as [|k IH].
  - replace (y + Z.of_nat 0) with y by lia. lia.
  - replace (y + Z.of_nat (S k)) with (y + Z.of_nat k + 1) by lia. rewrite days_before_year_succ.
    unfold year_len. destruct (is_leap _); lia.
Qed.

Definition tm_valid (x : tm) : Prop :=
  valid_date (tm_year x) (tm_mon x) (tm_mday x)
  /\ 0 <= tm_hour x <= 23 /\ 0 <= tm_min x <= 59 /\ 0 <= tm_sec x <= 59.

Lemma month_end y m d : valid_date y m d -> days_before_month y m + d <= year_len y.
Proof.
  intros (_ & Hm & Hd). revert Hd. pattern m; apply month_cases; [exact Hm|..];
    unfold days_before_month, month_len, year_len; destruct (is_leap y);
    match goal with |- context [month_entry ?l ?k] =>
      let v := eval vm_compute in (month_entry l k) in change (month_entry l k) with v end;
    cbv [Z.eqb Z.ltb Pos.eqb Z.compare Pos.compare Pos.compare_cont andb orb negb existsb]; lia.
Qed.


Lemma gmtime_ok t : 0 <= t -> tm_valid (gmtime t) /\ timegm (gmtime t) = t /\ 1970 <= tm_year (gmtime t).
Proof.
  intros Ht. unfold gmtime. cbv zeta.
  pose proof (ord2ymd_ok (t / 86400 + EPOCH_ORD) ltac:(unfold EPOCH_ORD; lia)) as O.
  destruct (ord2ymd (t / 86400 + EPOCH_ORD)) as [[y m] d]. destruct O as [V O].
  split; [|split].
  - unfold tm_valid; cbn [tm_year tm_mon tm_mday tm_hour tm_min tm_sec]. split; [exact V|]. lia.
  - unfold timegm; cbn [tm_year tm_mon tm_mday tm_hour tm_min tm_sec].
    unfold ymd2ord in *. clear V. revert O. generalize (days_before_year y + days_before_month y m). intros q O. lia.
  - cbn [tm_year]. pose proof (month_end y m d V) as E. unfold ymd2ord in O.
    destruct (Z_lt_le_dec y 1970) as [L|L]; [exfalso|exact L].
    destruct V as (Hy & _). pose proof (days_before_year_mono (y + 1) 1970 ltac:(clear - L; lia)) as M.
    rewrite days_before_year_succ in M. clear - O E M Ht L. assert (E1 : days_before_year 1970 = 719162) by (vm_compute; reflexivity). rewrite E1 in M. unfold EPOCH_ORD in O.
    lia.
Qed.

Lemma days_before_month_nonneg y m : 1 <= m <= 12 -> 0 <= days_before_month y m.
Proof.
  intros Hm. pattern m; apply month_cases; [exact Hm|..];
    unfold days_before_month; destruct (is_leap _); cbv; discriminate.
Qed.

Lemma timegm_eq x : timegm x = (((days_before_year (tm_year x) + days_before_month (tm_year x) (tm_mon x) + tm_mday x - EPOCH_ORD) * 24 + tm_hour x) * 60 + tm_min x) * 60 + tm_sec x.
Proof. unfold timegm, ymd2ord. cbv zeta. f_equal. f_equal. f_equal. f_equal. f_equal. lia. Qed.

Lemma timegm_year x : tm_valid x -> timegm x <= 253402300799 -> tm_year x <= 9999.
Proof.
  intros ((Hy & Hm & Hd) & Hh & Hmi & Hs) T. rewrite timegm_eq in T.
  destruct x as [y m d h mi s]. cbn [tm_year tm_mon tm_mday tm_hour tm_min tm_sec] in *.
  destruct (Z_lt_le_dec 9999 y) as [L|L]; [exfalso|exact L].
  pose proof (days_before_year_mono 10000 y ltac:(clear - L; lia)) as M.
  assert (E : days_before_year 10000 = 3652059) by (vm_compute; reflexivity). rewrite E in M. clear E.
  pose proof (days_before_month_nonneg y m Hm) as N.
  revert M N T. generalize (days_before_year y) (days_before_month y m). intros p q M N T.
  unfold EPOCH_ORD in T. clear - M N T L Hd Hh Hmi Hs. lia.
Qed.

Lemma gmtime_year t : 0 <= t <= 253402300799 -> 1970 <= tm_year (gmtime t) <= 9999.
Proof.
  intros Ht. destruct (gmtime_ok t) as (V & T & Y); [apply Ht|]. split; [exact Y|].
  apply timegm_year; [exact V|]. rewrite T. apply Ht.
Qed.

(** * The regular expression *)

Section Re.
  Variable udigit : N -> option Z.
  Notation anyd := (anydigit udigit).

  Lemma one_In a s p : In p (one a s) <-> exists c r v, s = c :: r /\ a c = Some v /\ p = (v, r).
  Proof.
    unfold one. split.
    - destruct s as [|c r]; [intros []|]. destruct (a c) as [v|] eqn:E; [|intros []].
      intros [<-|[]]. exists c, r, v. auto.
    - intros (c & r & v & -> & E & ->). rewrite E. left; reflexivity.
  Qed.
  Lemma pair_In a b s p :
    In p (pair a b s) <-> exists c d r v w, s = c :: d :: r /\ a c = Some v /\ b d = Some w /\ p = (v * 10 + w, r).
  Proof.
    unfold pair. rewrite in_flat_map. split.
    - intros (q & Hq & Hp). apply one_In in Hq as (c & r & v & -> & E & ->). cbn [fst snd] in Hp.
      apply in_map_iff in Hp as (q & <- & Hq). apply one_In in Hq as (d & r' & w & -> & E' & ->).
      exists c, d, r', v, w. auto.
    - intros (c & d & r & v & w & -> & E & E' & ->). exists (v, d :: r). split; [apply one_In; eauto 6|].
      apply in_map_iff. exists (w, r). split; [reflexivity|apply one_In]. exists d, r, w. auto.
  Qed.
  Lemma cls_Some lo hi c v : cls lo hi c = Some v <-> v = Z.of_N c - 48 /\ lo <= v <= hi.
  Proof.
    unfold cls. destruct ((lo <=? Z.of_N c - 48) && (Z.of_N c - 48 <=? hi)) eqn:E; split.
    - intros X; injection X as <-. lia.
    - intros [-> _]. reflexivity.
    - discriminate.
    - lia.
  Qed.
  Lemma anyd_Some c v : (c < 128)%N -> anyd c = Some v <-> v = Z.of_N c - 48 /\ 0 <= v <= 9.
  Proof. intros H. unfold anydigit. replace (c <? 128)%N with true by lia. apply cls_Some. Qed.
  Lemma blank_Some c v : blank c = Some v <-> c = 32%N /\ v = 0.
  Proof.
    unfold blank. destruct (c =? 32)%N eqn:E; split.
    - intros X; injection X as <-. lia.
    - intros [_ ->]; reflexivity.
    - discriminate.
    - lia.
  Qed.

  (** ** Numerals *)
  Definition is_digit (c : N) : Prop := (48 <= c <= 57)%N.
  Definition value (w : text) : Z := fold_left (fun a c => a * 10 + (Z.of_N c - 48)) w 0.
  (** One or two decimal digits with value [v]. *)
  Definition numeral (w : text) (v : Z) : Prop :=
    (List.length w = 1 \/ List.length w = 2)%nat /\ Forall is_digit w /\ v = value w.
  (** %d also takes a blank and a digit. *)
  Definition day_numeral (w : text) (v : Z) : Prop :=
    numeral w v \/ exists c, w = [32%N; c] /\ numeral [c] v.

  Definition ascii_text (s : text) : Prop := Forall (fun c => c < 128)%N s.

  Lemma ascii_cons c r : ascii_text (c :: r) -> (c < 128)%N /\ ascii_text r.
  Proof. intros H. apply Forall_cons_iff in H. exact H. Qed.

  Lemma num1 c v : (c < 128)%N -> numeral [c] v <-> v = Z.of_N c - 48 /\ 0 <= v <= 9.
  Proof.
    intros Hc. unfold numeral, value. cbn [fold_left List.length]. split.
    - intros (_ & D & ->). apply Forall_inv in D. unfold is_digit in D. lia.
    - intros [-> H]. split; [left; reflexivity|]. split; [|lia]. constructor; [unfold is_digit; lia|constructor].
  Qed.
  Lemma num2 c d v :
    (c < 128)%N -> (d < 128)%N ->
    numeral [c; d] v <-> v = (Z.of_N c - 48) * 10 + (Z.of_N d - 48) /\ 0 <= Z.of_N c - 48 <= 9 /\ 0 <= Z.of_N d - 48 <= 9.
  Proof.
    intros Hc Hd. unfold numeral, value. cbn [fold_left List.length]. split.
    - intros (_ & D & ->). inversion D as [|? ? D1 D2]; subst. apply Forall_inv in D2. unfold is_digit in *. lia.
    - intros (-> & H). split; [right; reflexivity|]. split; [|lia].
      constructor; [unfold is_digit; lia|]. constructor; [unfold is_digit; lia|constructor].
  Qed.
  Lemma numeral_shape w v : numeral w v -> (exists c, w = [c]) \/ (exists c d, w = [c; d]).
  Proof.
    intros ([L|L] & _).
    - left. destruct w as [|c [|]]; try discriminate. eauto.
    - right. destruct w as [|c [|d [|]]]; try discriminate. eauto.
  Qed.

  Ltac opens :=
    repeat match goal with
    | H : ascii_text (_ :: _) |- _ => let A := fresh "A" in apply ascii_cons in H as [A H]
    | H : In _ (_ ++ _) |- _ => apply in_app_or in H as [H|H]
    | H : In _ [] |- _ => destruct H
    | H : In _ (pair _ _ _) |- _ => apply pair_In in H as (? & ? & ? & ? & ? & -> & ? & ? & H)
    | H : In _ (one _ _) |- _ => apply one_In in H as (? & ? & ? & -> & ? & H)
    | H : cls _ _ _ = Some _ |- _ => apply cls_Some in H
    | H : anydigit _ _ = Some _ |- _ => apply anyd_Some in H; [|assumption]
    | H : blank _ = Some _ |- _ => apply blank_Some in H as [-> ->]
    | H : (_, _) = (_, _) |- _ => injection H as -> ->
    end.

  Ltac cand := first [apply cls_Some; split; [reflexivity|lia] | apply anyd_Some; [assumption|split; [reflexivity|lia]] | apply blank_Some; split; reflexivity].
  Ltac use2 := apply pair_In; do 5 eexists; split; [reflexivity|]; split; [cand|]; split; [cand|]; f_equal; lia.
  Ltac use1 := apply one_In; do 3 eexists; split; [reflexivity|]; split; [cand|]; f_equal; lia.

  Lemma re_m_In s v t : ascii_text s ->
    In (v, t) (re_m s) <-> exists w, s = w ++ t /\ numeral w v /\ 1 <= v <= 12.
  Proof.
    intros HA. unfold re_m, alt. cbn [flat_map]. split.
    - intros H. opens.
      + eexists [_; _]. split; [reflexivity|]. rewrite num2 by assumption. lia.
      + eexists [_; _]. split; [reflexivity|]. rewrite num2 by assumption. lia.
      + eexists [_]. split; [reflexivity|]. rewrite num1 by assumption. lia.
    - intros (w & -> & H & R). destruct (numeral_shape w v H) as [[c ->]|(c & d & ->)]; cbn [app] in *; opens.
      + rewrite num1 in H by assumption. apply in_or_app; right. apply in_or_app; right. apply in_or_app; left. use1.
      + rewrite num2 in H by assumption. assert (C : Z.of_N c = 48 \/ Z.of_N c = 49) by lia.
        destruct C.
        * apply in_or_app; right. apply in_or_app; left. use2.
        * apply in_or_app; left. use2.
  Qed.

  Lemma re_d_In s v t : ascii_text s ->
    In (v, t) (re_d udigit s) <-> exists w, s = w ++ t /\ day_numeral w v /\ 1 <= v <= 31.
  Proof.
    intros HA. unfold re_d, alt. cbn [flat_map]. split.
    - intros H. opens.
      + eexists [_; _]. split; [reflexivity|]. unfold day_numeral. rewrite num2 by assumption. lia.
      + eexists [_; _]. split; [reflexivity|]. unfold day_numeral. rewrite num2 by assumption. lia.
      + eexists [_; _]. split; [reflexivity|]. unfold day_numeral. rewrite num2 by assumption. lia.
      + eexists [_]. split; [reflexivity|]. unfold day_numeral. rewrite num1 by assumption. lia.
      + eexists [_; _]. split; [reflexivity|]. split; [|lia]. right. eexists. split; [reflexivity|]. rewrite num1 by assumption. lia.
    - intros (w & -> & [H|(c & -> & H)] & R).
      + destruct (numeral_shape w v H) as [[c ->]|(c & d & ->)]; cbn [app] in *; opens.
        * rewrite num1 in H by assumption. do 3 (apply in_or_app; right). apply in_or_app; left. use1.
        * rewrite num2 in H by assumption.
          assert (C : Z.of_N c = 48 \/ (Z.of_N c = 49 \/ Z.of_N c = 50) \/ Z.of_N c = 51) by lia.
          destruct C as [C|[C|C]].
          -- do 2 (apply in_or_app; right). apply in_or_app; left. use2.
          -- do 1 (apply in_or_app; right). apply in_or_app; left. use2.
          -- apply in_or_app; left. use2.
      + cbn [app] in *. opens. rewrite num1 in H by assumption.
        do 4 (apply in_or_app; right). apply in_or_app; left. use2.
  Qed.

  Lemma re_H_In s v t : ascii_text s ->
    In (v, t) (re_H udigit s) <-> exists w, s = w ++ t /\ numeral w v /\ 0 <= v <= 23.
  Proof.
    intros HA. unfold re_H, alt. cbn [flat_map]. split.
    - intros H. opens.
      + eexists [_; _]. split; [reflexivity|]. rewrite num2 by assumption. lia.
      + eexists [_; _]. split; [reflexivity|]. rewrite num2 by assumption. lia.
      + eexists [_]. split; [reflexivity|]. rewrite num1 by assumption. lia.
    - intros (w & -> & H & R). destruct (numeral_shape w v H) as [[c ->]|(c & d & ->)]; cbn [app] in *; opens.
      + rewrite num1 in H by assumption. do 2 (apply in_or_app; right). apply in_or_app; left. use1.
      + rewrite num2 in H by assumption. assert (C : (Z.of_N c = 48 \/ Z.of_N c = 49) \/ Z.of_N c = 50) by lia.
        destruct C as [C|C].
        * apply in_or_app; right. apply in_or_app; left. use2.
        * apply in_or_app; left. use2.
  Qed.

  Lemma re_M_In s v t : ascii_text s ->
    In (v, t) (re_M udigit s) <-> exists w, s = w ++ t /\ numeral w v /\ 0 <= v <= 59.
  Proof.
    intros HA. unfold re_M, alt. cbn [flat_map]. split.
    - intros H. opens.
      + eexists [_; _]. split; [reflexivity|]. rewrite num2 by assumption. lia.
      + eexists [_]. split; [reflexivity|]. rewrite num1 by assumption. lia.
    - intros (w & -> & H & R). destruct (numeral_shape w v H) as [[c ->]|(c & d & ->)]; cbn [app] in *; opens.
      + rewrite num1 in H by assumption. apply in_or_app; right. apply in_or_app; left. use1.
      + rewrite num2 in H by assumption. apply in_or_app; left. use2.
  Qed.

  Lemma re_S_In s v t : ascii_text s ->
    In (v, t) (re_S udigit s) <-> exists w, s = w ++ t /\ numeral w v /\ 0 <= v <= 61.
  Proof.
    intros HA. unfold re_S, alt. cbn [flat_map]. split.
    - intros H. opens.
      + eexists [_; _]. split; [reflexivity|]. rewrite num2 by assumption. lia.
      + eexists [_; _]. split; [reflexivity|]. rewrite num2 by assumption. lia.
      + eexists [_]. split; [reflexivity|]. rewrite num1 by assumption. lia.
    - intros (w & -> & H & R). destruct (numeral_shape w v H) as [[c ->]|(c & d & ->)]; cbn [app] in *; opens.
      + rewrite num1 in H by assumption. do 2 (apply in_or_app; right). apply in_or_app; left. use1.
      + rewrite num2 in H by assumption. assert (C : (Z.of_N c <= 53) \/ Z.of_N c = 54) by lia.
        destruct C as [C|C].
        * apply in_or_app; right. apply in_or_app; left. use2.
        * apply in_or_app; left. use2.
  Qed.

  (** Four digits. *)
  Definition year_numeral (w : text) (v : Z) : Prop := List.length w = 4%nat /\ Forall is_digit w /\ v = value w.
  Lemma re_Y_In s v t : ascii_text s ->
    In (v, t) (re_Y udigit s) <-> exists w, s = w ++ t /\ year_numeral w v.
  Proof.
    intros HA. unfold re_Y. rewrite in_flat_map. split.
    - intros (p & Hp & Hq). opens. subst. apply in_map_iff in Hq as (q & E & Hq). cbn [fst snd] in *. opens. subst.
      cbn [fst snd] in *. opens. injection E as <- <-.
      eexists [_; _; _; _]. split; [reflexivity|]. unfold year_numeral, value. cbn [fold_left List.length].
      split; [reflexivity|]. split; [|lia].
      repeat (apply Forall_cons; [unfold is_digit; lia|]). constructor.
    - intros (w & -> & L & D & ->). destruct w as [|a [|b [|c [|d [|]]]]]; try discriminate. cbn [app] in *.
      inversion D as [|? ? Da D1]; subst. inversion D1 as [|? ? Db D2]; subst. inversion D2 as [|? ? Dc D3]; subst.
      apply Forall_inv in D3. unfold is_digit in *. opens.
      exists ((Z.of_N a - 48) * 10 + (Z.of_N b - 48), c :: d :: t). split; [use2|].
      apply in_map_iff. exists ((Z.of_N c - 48) * 10 + (Z.of_N d - 48), t). split; [|cbn [snd]; use2].
      cbn [fst snd]. unfold value. cbn [fold_left]. f_equal. lia.
  Qed.

  Lemma lit_In c r s : In r (lit c s) <-> exists x, s = x :: r /\ lowerc x = lowerc c.
  Proof.
    unfold lit. split.
    - destruct s as [|x r']; [intros []|]. destruct (lowerc x =? lowerc c)%N eqn:E; [|intros []].
      intros [<-|[]]. exists x. split; [reflexivity|lia].
    - intros (x & -> & ->). rewrite N.eqb_refl. left; reflexivity.
  Qed.
  Lemma lower_dash x : lowerc x = lowerc 45 <-> x = 45%N.
  Proof. unfold lowerc. destruct ((65 <=? x) && (x <=? 90))%N eqn:E; change ((65 <=? 45) && (45 <=? 90))%N with false; cbv iota; lia. Qed.
  Lemma lower_colon x : lowerc x = lowerc 58 <-> x = 58%N.
  Proof. unfold lowerc. destruct ((65 <=? x) && (x <=? 90))%N eqn:E; change ((65 <=? 58) && (58 <=? 90))%N with false; cbv iota; lia. Qed.
  Lemma lower_T x : lowerc x = lowerc 84 <-> x = 84%N \/ x = 116%N.
  Proof. unfold lowerc. destruct ((65 <=? x) && (x <=? 90))%N eqn:E; change ((65 <=? 84) && (84 <=? 90))%N with true; cbv iota; lia. Qed.
  Lemma lower_Z x : lowerc x = lowerc 90 <-> x = 90%N \/ x = 122%N.
  Proof. unfold lowerc. destruct ((65 <=? x) && (x <=? 90))%N eqn:E; change ((65 <=? 90) && (90 <=? 90))%N with true; cbv iota; lia. Qed.

  (** The text of a time, with the leniency of strptime: short fields, a blank
      before the day, separators in lower case. *)
  Definition time_prefix (s : text) (x : tm) (t : text) : Prop :=
    exists Y m d H M S T Zc,
      s = Y ++ [45%N] ++ m ++ [45%N] ++ d ++ [T] ++ H ++ [58%N] ++ M ++ [58%N] ++ S ++ [Zc] ++ t
      /\ year_numeral Y (tm_year x)
      /\ (numeral m (tm_mon x) /\ 1 <= tm_mon x <= 12)
      /\ (day_numeral d (tm_mday x) /\ 1 <= tm_mday x <= 31)
      /\ (T = 84%N \/ T = 116%N)
      /\ (numeral H (tm_hour x) /\ 0 <= tm_hour x <= 23)
      /\ (numeral M (tm_min x) /\ 0 <= tm_min x <= 59)
      /\ (numeral S (tm_sec x) /\ 0 <= tm_sec x <= 61)
      /\ (Zc = 90%N \/ Zc = 122%N).

  Lemma ascii_app a b : ascii_text (a ++ b) <-> ascii_text a /\ ascii_text b.
  Proof. apply Forall_app. Qed.

  Ltac asc := repeat match goal with
    | H : ascii_text (_ ++ _) |- _ => apply ascii_app in H as [? H]
    | H : ascii_text (_ :: _) |- _ => apply ascii_cons in H as [? H]
    end.

  Lemma matches_In s x t : ascii_text s -> In (x, t) (matches udigit s) <-> time_prefix s x t.
  Proof.
    intros HA. split.
    - unfold matches. intros I.
      apply in_flat_map in I as ([vY s1] & HY & I). apply re_Y_In in HY as (Y & -> & HY); [|exact HA]. asc.
      apply in_flat_map in I as (s2 & L1 & I). cbn [fst snd] in *. apply lit_In in L1 as (c1 & -> & L1). asc.
      apply in_flat_map in I as ([vm s3] & Hm & I). apply re_m_In in Hm as (m & -> & Hm); [|assumption]. asc.
      apply in_flat_map in I as (s4 & L2 & I). cbn [fst snd] in *. apply lit_In in L2 as (c2 & -> & L2). asc.
      apply in_flat_map in I as ([vd s5] & Hd & I). apply re_d_In in Hd as (d & -> & Hd); [|assumption]. asc.
      apply in_flat_map in I as (s6 & L3 & I). cbn [fst snd] in *. apply lit_In in L3 as (c3 & -> & L3). asc.
      apply in_flat_map in I as ([vH s7] & HH & I). apply re_H_In in HH as (hh & -> & HH); [|assumption]. asc.
      apply in_flat_map in I as (s8 & L4 & I). cbn [fst snd] in *. apply lit_In in L4 as (c4 & -> & L4). asc.
      apply in_flat_map in I as ([vM s9] & HM & I). apply re_M_In in HM as (mm & -> & HM); [|assumption]. asc.
      apply in_flat_map in I as (s10 & L5 & I). cbn [fst snd] in *. apply lit_In in L5 as (c5 & -> & L5). asc.
      apply in_flat_map in I as ([vS s11] & HS & I). apply re_S_In in HS as (ss & -> & HS); [|assumption]. asc.
      apply in_map_iff in I as (s12 & E & L6). cbn [fst snd] in *. apply lit_In in L6 as (c6 & -> & L6).
      injection E as <- <-.
      apply lower_dash in L1 as ->. apply lower_dash in L2 as ->. apply lower_T in L3. apply lower_colon in L4 as ->.
      apply lower_colon in L5 as ->. apply lower_Z in L6.
      exists Y, m, d, hh, mm, ss, c3, c6. cbn [tm_year tm_mon tm_mday tm_hour tm_min tm_sec].
      split; [reflexivity|]. split; [exact HY|]. split; [exact Hm|]. split; [exact Hd|]. split; [exact L3|].
      split; [exact HH|]. split; [exact HM|]. split; [exact HS|exact L6].
    - intros (Y & m & d & hh & mm & ss & T & Zc & -> & HY & Hm & Hd & HT & HH & HM & HS & HZ).
      destruct x as [vY vm vd vH vM vS]. cbn [tm_year tm_mon tm_mday tm_hour tm_min tm_sec app] in *.
      unfold matches.
      apply in_flat_map. eexists (vY, 45%N :: _). split; [apply re_Y_In; [exact HA|exists Y; split; [reflexivity|exact HY]]|].
      cbn [fst snd]. apply in_flat_map. eexists. split; [apply lit_In; eexists; split; [reflexivity|reflexivity]|].
      apply ascii_app in HA as [_ HA]. apply ascii_cons in HA as [_ HA].
      apply in_flat_map. eexists (vm, 45%N :: _). split; [apply re_m_In; [exact HA|exists m; split; [reflexivity|exact Hm]]|].
      cbn [fst snd]. apply in_flat_map. eexists. split; [apply lit_In; eexists; split; [reflexivity|reflexivity]|].
      apply ascii_app in HA as [_ HA]. apply ascii_cons in HA as [_ HA].
      apply in_flat_map. eexists (vd, T :: _). split; [apply re_d_In; [exact HA|exists d; split; [reflexivity|exact Hd]]|].
      cbn [fst snd]. apply in_flat_map. eexists. split; [apply lit_In; eexists; split; [reflexivity|apply lower_T; exact HT]|].
      apply ascii_app in HA as [_ HA]. apply ascii_cons in HA as [_ HA].
      apply in_flat_map. eexists (vH, 58%N :: _). split; [apply re_H_In; [exact HA|exists hh; split; [reflexivity|exact HH]]|].
      cbn [fst snd]. apply in_flat_map. eexists. split; [apply lit_In; eexists; split; [reflexivity|reflexivity]|].
      apply ascii_app in HA as [_ HA]. apply ascii_cons in HA as [_ HA].
      apply in_flat_map. eexists (vM, 58%N :: _). split; [apply re_M_In; [exact HA|exists mm; split; [reflexivity|exact HM]]|].
      cbn [fst snd]. apply in_flat_map. eexists. split; [apply lit_In; eexists; split; [reflexivity|reflexivity]|].
      apply ascii_app in HA as [_ HA]. apply ascii_cons in HA as [_ HA].
      apply in_flat_map. exists (vS, Zc :: t). split; [apply re_S_In; [exact HA|exists ss; split; [reflexivity|exact HS]]|].
      apply in_map_iff. exists t. split; [reflexivity|]. apply lit_In. exists Zc. split; [reflexivity|apply lower_Z; exact HZ].
  Qed.

  (** ** There is one match at most *)
  Lemma sep_unique (P : N -> Prop) w w' c c' t t' :
    Forall (fun x => ~ P x) w -> Forall (fun x => ~ P x) w' -> P c -> P c' ->
    w ++ c :: t = w' ++ c' :: t' -> w = w' /\ c = c' /\ t = t'.
  Proof.
    intros Hw; revert w'; induction Hw as [|x w Hx Hw IH]; intros w' Hw' Hc Hc' E.
    - destruct w' as [|y w']; cbn [app] in E; injection E as E1 E2; [auto|].
      subst. apply Forall_inv in Hw'. contradiction.
    - destruct w' as [|y w']; cbn [app] in E; injection E as E1 E2.
      + subst. contradiction.
      + subst. apply Forall_cons_iff in Hw' as [_ Hw']. destruct (IH w' Hw' Hc Hc' E2) as (-> & -> & ->). auto.
  Qed.

  (** A separator is neither a digit nor a blank. *)
  Definition is_sep (c : N) : Prop := ~ is_digit c /\ c <> 32%N.
  Lemma numeral_nosep w v : numeral w v -> Forall (fun c => ~ is_sep c) w.
  Proof. intros (_ & D & _). apply Forall_impl with (2 := D). intros c Hc [X _]. contradiction. Qed.
  Lemma year_nosep w v : year_numeral w v -> Forall (fun c => ~ is_sep c) w.
  Proof. intros (_ & D & _). apply Forall_impl with (2 := D). intros c Hc [X _]. contradiction. Qed.
  Lemma day_nosep w v : day_numeral w v -> Forall (fun c => ~ is_sep c) w.
  Proof.
    intros [H|(c & -> & H)]; [exact (numeral_nosep w v H)|]. constructor; [|exact (numeral_nosep _ v H)].
    intros [_ X]. apply X. reflexivity.
  Qed.
  Lemma day_fun w v v' : day_numeral w v -> day_numeral w v' -> v = v'.
  Proof.
    intros [(L & D & E)|(c & E & L & D & V)] [(L' & D' & E')|(c' & E2 & L' & D' & V')]; subst.
    - reflexivity.
    - apply Forall_inv in D. unfold is_digit in D. lia.
    - apply Forall_inv in D'. unfold is_digit in D'. lia.
    - injection E2 as ->. reflexivity.
  Qed.

  Lemma time_prefix_unique s x t x' t' : time_prefix s x t -> time_prefix s x' t' -> x = x' /\ t = t'.
  Proof.
    intros (Y & m & d & H & M & S & T & Zc & E & HY & [Hm _] & [Hd _] & HT & [HH _] & [HM _] & [HS _] & HZ)
           (Y' & m' & d' & H' & M' & S' & T' & Zc' & E' & HY' & [Hm' _] & [Hd' _] & HT' & [HH' _] & [HM' _] & [HS' _] & HZ').
    rewrite E in E'. clear E. cbn [app] in E'.
    assert (P45 : is_sep 45) by (unfold is_sep, is_digit; lia). assert (P58 : is_sep 58) by (unfold is_sep, is_digit; lia).
    assert (PT : is_sep T) by (unfold is_sep, is_digit; lia). assert (PT' : is_sep T') by (unfold is_sep, is_digit; lia).
    assert (PZ : is_sep Zc) by (unfold is_sep, is_digit; lia). assert (PZ' : is_sep Zc') by (unfold is_sep, is_digit; lia).
    apply (sep_unique is_sep) in E' as (-> & _ & E'); eauto using year_nosep.
    apply (sep_unique is_sep) in E' as (-> & _ & E'); eauto using numeral_nosep.
    apply (sep_unique is_sep) in E' as (-> & -> & E'); eauto using day_nosep.
    apply (sep_unique is_sep) in E' as (-> & _ & E'); eauto using numeral_nosep.
    apply (sep_unique is_sep) in E' as (-> & _ & E'); eauto using numeral_nosep.
    apply (sep_unique is_sep) in E' as (-> & -> & E'); eauto using numeral_nosep.
    split; [|exact E'].
    pose proof (day_fun _ _ _ Hd Hd') as Ed.
    destruct HY as (_ & _ & HY), HY' as (_ & _ & HY'), Hm as (_ & _ & Hm), Hm' as (_ & _ & Hm'),
      HH as (_ & _ & HH), HH' as (_ & _ & HH'), HM as (_ & _ & HM), HM' as (_ & _ & HM'), HS as (_ & _ & HS), HS' as (_ & _ & HS').
    destruct x as [xa xb xc xd xe xf], x' as [ya yb yc yd ye yf]. cbn [tm_year tm_mon tm_mday tm_hour tm_min tm_sec] in *. congruence.
  Qed.

  (** [strptime] accepts exactly the texts of existing times. *)
  Definition exists_time (x : tm) : Prop := valid_date (tm_year x) (tm_mon x) (tm_mday x).

  Lemma strptime_ok s x : ascii_text s -> strptime udigit s = Ok x <-> time_prefix s x [] /\ exists_time x.
  Proof.
    intros HA. unfold strptime. split.
    - destruct (matches udigit s) as [|[y r] l] eqn:E; [discriminate|].
      assert (I : In (y, r) (matches udigit s)) by (rewrite E; left; reflexivity).
      apply matches_In in I; [|exact HA]. destruct r; [|discriminate]. cbn [truthy].
      destruct (_ && _) eqn:B; [|discriminate]. intros X; injection X as ->.
      split; [exact I|]. destruct I as (Y & m & d & H & M & S & T & Zc & _ & _ & [_ Hm] & [_ Hd] & _).
      rewrite days_in_month_len in B by exact Hm. unfold exists_time, valid_date. lia.
    - intros [I (V1 & V2 & V3)]. pose proof I as I2. apply matches_In in I2; [|exact HA].
      destruct (matches udigit s) as [|[y r] l] eqn:E; [destruct I2|].
      assert (J : In (y, r) (matches udigit s)) by (rewrite E; left; reflexivity).
      apply matches_In in J; [|exact HA]. destruct (time_prefix_unique _ _ _ _ _ I J) as [-> <-]. cbn [truthy].
      rewrite days_in_month_len by exact V2.
      replace ((1 <=? tm_year y) && (tm_mday y <=? month_len (tm_year y) (tm_mon y))) with true by lia. reflexivity.
  Qed.
  Lemma strptime_err s e : strptime udigit s = Raise e -> e = ValueError.
  Proof.
    unfold strptime. destruct (matches udigit s) as [|[y r] l]; [congruence|].
    destruct (truthy r); [congruence|]. destruct (_ && _); congruence.
  Qed.

  (** ** What strftime writes *)
  Lemma dig_digit z : is_digit (dig z).
  Proof. unfold is_digit, dig. pose proof (Z.mod_pos_bound z 10 ltac:(lia)). lia. Qed.
  Lemma dig_val z : Z.of_N (dig z) - 48 = z mod 10.
  Proof. unfold dig. pose proof (Z.mod_pos_bound z 10 ltac:(lia)). lia. Qed.
  Lemma two_numeral v : 0 <= v < 100 -> numeral (two v) v.
  Proof.
    intros Hv. unfold numeral, two, value. cbn [fold_left List.length]. rewrite !dig_val.
    split; [right; reflexivity|]. split; [|lia].
    constructor; [apply dig_digit|]. constructor; [apply dig_digit|constructor].
  Qed.
  Lemma year_text_numeral v : 1000 <= v < 10000 -> year_numeral (year_text v) v.
  Proof.
    intros Hv. unfold year_numeral, year_text. replace ((1000 <=? v) && (v <? 10000)) with true by lia.
    unfold value. cbn [fold_left List.length]. rewrite !dig_val. split; [reflexivity|]. split; [|lia].
    repeat (apply Forall_cons; [apply dig_digit|]). constructor.
  Qed.
  Lemma strftime_prefix x t :
    tm_valid x -> 1000 <= tm_year x < 10000 -> time_prefix (strftime x ++ t) x t.
  Proof.
    intros ((V1 & V2 & V3) & Hh & Hm & Hs) Hy. unfold strftime.
    assert (Hd : tm_mday x <= 31).
    { assert (month_len (tm_year x) (tm_mon x) <= 31); [|lia]. unfold month_len.
      destruct (_ =? 2); [destruct (is_leap _); lia|]. destruct (existsb _ _); lia. }
    exists (year_text (tm_year x)), (two (tm_mon x)), (two (tm_mday x)), (two (tm_hour x)), (two (tm_min x)), (two (tm_sec x)), 84%N, 90%N.
    split; [rewrite <- !app_assoc; reflexivity|].
    split; [apply year_text_numeral; exact Hy|].
    split; [split; [apply two_numeral; lia|lia]|]. split; [split; [left; apply two_numeral; lia|lia]|].
    split; [left; reflexivity|]. split; [split; [apply two_numeral; lia|lia]|]. split; [split; [apply two_numeral; lia|lia]|].
    split; [split; [apply two_numeral; lia|lia]|left; reflexivity].
  Qed.
  Lemma strftime_length x : 1000 <= tm_year x < 10000 -> List.length (strftime x) = 20%nat.
  Proof.
    intros Hy. unfold strftime, year_text. replace ((1000 <=? tm_year x) && (tm_year x <? 10000)) with true by lia.
    reflexivity.
  Qed.
  Lemma prefix_ascii s x : time_prefix s x [] -> ascii_text s.
  Proof.
    intros (Y & m & d & H & M & S & T & Zc & -> & (_ & HY & _) & [(_ & Hm & _) _] & [Hd _] & HT & [(_ & HH & _) _] & [(_ & HM & _) _] & [(_ & HS & _) _] & HZ).
    assert (D : forall w, Forall is_digit w -> ascii_text w) by (intros w; apply Forall_impl; intros c; unfold is_digit; lia).
    assert (Dd : ascii_text d).
    { destruct Hd as [(_ & Hd & _)|(c & -> & _ & Hd & _)]; [exact (D _ Hd)|]. constructor; [lia|exact (D _ Hd)]. }
    repeat (apply ascii_app; split); auto; repeat (apply Forall_cons; [lia|]); constructor.
  Qed.
End Re.
