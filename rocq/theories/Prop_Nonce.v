(** Properties C17 and C18 (/repo/openid/store/nonce.py). *)
From Verif Require Import Py PyFacts Nonce NonceFacts.
From Coq Require Import Lia ZifyBool ZifyN ZifyNat.
Open Scope Z_scope.

(** Seconds from 1970-01-01T00:00:00Z, by counting days ([day_number] sums the
    lengths of the years and months gone by). *)
Definition utc_seconds (x : tm) : Z :=
  (((day_number (tm_year x) (tm_mon x) (tm_mday x) - day_number 1970 1 1) * 24 + tm_hour x) * 60 + tm_min x) * 60 + tm_sec x.

Lemma timegm_utc x : exists_time x -> timegm x = utc_seconds x.
Proof.
  intros (Hy & Hm & Hd). unfold timegm, utc_seconds. cbv zeta.
  rewrite ymd2ord_day_number by assumption.
  assert (E : day_number 1970 1 1 = 719162) by (vm_compute; reflexivity). rewrite E. clear E.
  unfold day_number, EPOCH_ORD. generalize (sum1 year_len (Z.to_nat (tm_year x - 1)) + sum1 (month_len (tm_year x)) (Z.to_nat (tm_mon x - 1))).
  intros k. lia.
Qed.

(** The canonical text of a time: four digits for the year, two for the others. *)
Definition digits_of (n : nat) (w : text) (v : Z) : Prop := List.length w = n /\ Forall is_digit w /\ v = value w.
Definition canonical (s : text) (x : tm) : Prop :=
  exists Y m d H M S,
    s = Y ++ u "-" ++ m ++ u "-" ++ d ++ u "T" ++ H ++ u ":" ++ M ++ u ":" ++ S ++ u "Z"
    /\ digits_of 4 Y (tm_year x) /\ digits_of 2 m (tm_mon x) /\ digits_of 2 d (tm_mday x)
    /\ digits_of 2 H (tm_hour x) /\ digits_of 2 M (tm_min x) /\ digits_of 2 S (tm_sec x).

(** 9999-12-31T23:59:59Z. *)
Definition last_second : Z := 253402300799.
Remark last_second_ok : utc_seconds (mkTm 9999 12 31 23 59 59) = last_second.
Proof. vm_compute. reflexivity. Qed.

Lemma two_digits v : 0 <= v < 100 -> digits_of 2 (two v) v.
Proof. intros H. destruct (two_numeral v H) as (_ & D & E). split; [reflexivity|]. split; [exact D|exact E]. Qed.

Theorem C17_text : forall t salt,
  0 <= t <= last_second ->
  exists x stamp, mkNonce t salt = stamp ++ salt /\ List.length stamp = 20%nat
    /\ canonical stamp x /\ tm_valid x /\ utc_seconds x = t.
Proof.
  intros t salt Ht. destruct (gmtime_ok t (proj1 Ht)) as (V & T & Y).
  pose proof (gmtime_year t Ht) as Yr.
  exists (gmtime t), (strftime (gmtime t)). split; [reflexivity|].
  split; [apply strftime_length; split; [|apply Z.le_lt_trans with 9999; [apply Yr|reflexivity]]; apply Z.le_trans with 1970; [discriminate|apply Yr]|].
  split; [|split; [exact V|rewrite <- T at 2; symmetry; apply timegm_utc; exact (proj1 V)]].
  revert V Yr. generalize (gmtime t). clear. intros x ((Hy & Hm & Hd) & Hh & Hmi & Hs) Yr.
  assert (L : tm_mday x <= 31).
  { assert (month_len (tm_year x) (tm_mon x) <= 31); [|lia]. unfold month_len.
    destruct (_ =? 2); [destruct (is_leap _); lia|]. destruct (existsb _ _); lia. }
  exists (year_text (tm_year x)), (two (tm_mon x)), (two (tm_mday x)), (two (tm_hour x)), (two (tm_min x)), (two (tm_sec x)).
  split; [reflexivity|]. split; [apply year_text_numeral; lia|].
  split; [apply two_digits; lia|]. split; [apply two_digits; lia|]. split; [apply two_digits; lia|].
  split; apply two_digits; lia.
Qed.
Print Assumptions C17_text.

Lemma split_stamp udigit s x salt :
  List.length s = 20%nat -> time_prefix s x [] -> exists_time x -> 0 <= timegm x ->
  split udigit (s ++ salt) = Ok (timegm x, salt).
Proof.
  intros L P V T. unfold split, time_str_len.
  assert (F : firstn 20 (s ++ salt) = s).
  { rewrite <- L at 1. rewrite firstn_app, Nat.sub_diag, firstn_all, firstn_O. apply app_nil_r. }
  assert (K : skipn 20 (s ++ salt) = salt).
  { rewrite <- L at 1. rewrite skipn_app, Nat.sub_diag, skipn_all. reflexivity. }
  rewrite F, K. replace (strptime udigit s) with (Ok x).
  - cbn [bind]. replace (timegm x <? 0) with false by (symmetry; apply Z.ltb_ge; exact T). reflexivity.
  - symmetry. apply strptime_ok; [exact (prefix_ascii udigit s x P)|auto].
Qed.

Theorem C17_round_trip : forall udigit t salt,
  0 <= t <= last_second -> split udigit (mkNonce t salt) = Ok (t, salt).
Proof.
  intros udigit t salt Ht. destruct (gmtime_ok t (proj1 Ht)) as (V & T & Y).
  pose proof (gmtime_year t Ht) as Yr. unfold mkNonce.
  assert (R : 1000 <= tm_year (gmtime t) < 10000) by (clear - Yr; lia).
  rewrite (split_stamp udigit (strftime (gmtime t)) (gmtime t) salt).
  - rewrite T. reflexivity.
  - apply strftime_length. exact R.
  - pose proof (strftime_prefix (gmtime t) [] V R) as P. rewrite app_nil_r in P. exact P.
  - exact (proj1 V).
  - rewrite T. apply Ht.
Qed.
Print Assumptions C17_round_trip.

Theorem C17_injective : forall t t' salt salt',
  0 <= t <= last_second -> 0 <= t' <= last_second ->
  mkNonce t salt = mkNonce t' salt' -> t = t' /\ salt = salt'.
Proof.
  intros t t' salt salt' H H' E. pose proof (C17_round_trip (fun _ => None) t salt H) as A.
  rewrite E, (C17_round_trip _ t' salt' H') in A. injection A as -> ->. auto.
Qed.
Print Assumptions C17_injective.

Example C17_example :
  mkNonce 1141594574 (u "AbCd12") = u "2006-03-05T21:36:14ZAbCd12"
  /\ split (fun _ => None) (u "2006-03-05T21:36:14ZAbCd12") = Ok (1141594574, u "AbCd12")
  /\ mkNonce 951782400 [] = u "2000-02-29T00:00:00Z" /\ mkNonce last_second [] = u "9999-12-31T23:59:59Z".
Proof. split; [vm_compute; reflexivity|]. split; [vm_compute; reflexivity|]. split; [vm_compute; reflexivity|vm_compute; reflexivity]. Qed.

(** ** Freshness *)

(** Any text, any digit table: the result is a boolean, and it is true exactly when
    the nonce parses to a time in the window. *)
Theorem C18_window : forall udigit s skew now,
  exists b, checkTimestamp udigit s skew now = Ok b
    /\ (b = true <-> exists t salt, split udigit s = Ok (t, salt) /\ now - skew <= t <= now + skew).
Proof.
  intros udigit s skew now. unfold checkTimestamp.
  destruct (split udigit s) as [[t salt]|e] eqn:E.
  - exists ((now - skew <=? t) && (t <=? now + skew)). split; [reflexivity|]. split.
    + intros B. exists t, salt. split; [reflexivity|]. lia.
    + intros (t' & salt' & X & B). injection X as <- <-. lia.
  - exists false. split.
    + assert (e = ValueError) as ->; [|reflexivity]. unfold split in E.
      destruct (strptime udigit (firstn time_str_len s)) as [x|e'] eqn:S; cbn [bind] in E.
      * destruct (_ <? 0); congruence.
      * apply strptime_err in S. congruence.
    + split; [discriminate|]. intros (t & salt & X & _). discriminate.
Qed.
Print Assumptions C18_window.

(** What parses, for ASCII texts: the first 20 characters spell an existing UTC time
    not before 1970, in the fields' leniency of strptime; its value is the number of
    seconds since 1970. *)
Theorem C18_exact : forall udigit s skew now,
  ascii_text (firstn 20 s) ->
  exists b, checkTimestamp udigit s skew now = Ok b
    /\ (b = true <->
        exists x, time_prefix (firstn 20 s) x [] /\ valid_date (tm_year x) (tm_mon x) (tm_mday x)
          /\ 0 <= utc_seconds x /\ now - skew <= utc_seconds x <= now + skew).
Proof.
  intros udigit s skew now HA. destruct (C18_window udigit s skew now) as (b & E & B). exists b. split; [exact E|].
  rewrite B. clear B E. unfold split, time_str_len. split.
  - intros (t & salt & E & W). binv E. apply strptime_ok in E0 as [P V]; [|exact HA].
    destruct (timegm a <? 0) eqn:L; [discriminate|]. injection E as <- _.
    exists a. rewrite (timegm_utc a V) in *. split; [exact P|]. split; [exact V|]. apply Z.ltb_ge in L. auto.
  - intros (x & P & V & Z0 & W). exists (utc_seconds x), (skipn 20 s). split; [|exact W].
    replace (strptime udigit (firstn 20 s)) with (Ok x) by (symmetry; apply strptime_ok; auto). cbn [bind].
    rewrite (timegm_utc x V). replace (utc_seconds x <? 0) with false by (symmetry; apply Z.ltb_ge; exact Z0). reflexivity.
Qed.
Print Assumptions C18_exact.

(** In particular a nonce made at time [t] is accepted exactly in its window. *)
Theorem C18_made_nonce : forall udigit t salt skew now,
  0 <= t <= last_second ->
  checkTimestamp udigit (mkNonce t salt) skew now = Ok true <-> now - skew <= t <= now + skew.
Proof.
  intros udigit t salt skew now Ht. destruct (C18_window udigit (mkNonce t salt) skew now) as (b & E & B).
  rewrite E. rewrite (C17_round_trip udigit t salt Ht) in B. split.
  - intros X. injection X as ->. destruct (proj1 B eq_refl) as (t' & s' & X & W). injection X as <- <-. exact W.
  - intros W. f_equal. apply B. exists t, salt. auto.
Qed.
Print Assumptions C18_made_nonce.

Example C18_example :
  let now := 1141594574 in let n := u "2006-03-05T21:36:14ZAbCd12" in
  checkTimestamp (fun _ => None) n SKEW (now + SKEW) = Ok true
  /\ checkTimestamp (fun _ => None) n SKEW (now + SKEW + 1) = Ok false
  /\ checkTimestamp (fun _ => None) n SKEW (now - SKEW - 1) = Ok false
  /\ checkTimestamp (fun _ => None) (u "2006-02-30T21:36:14Z") SKEW now = Ok false
  /\ checkTimestamp (fun _ => None) (u "2006-3-5T21:36:14Z") SKEW now = Ok true.
Proof.
  cbv zeta. split; [vm_compute; reflexivity|]. split; [vm_compute; reflexivity|]. split; [vm_compute; reflexivity|].
  split; [vm_compute; reflexivity|vm_compute; reflexivity].
Qed.
