(** C179-C180: the expiration of an XRD element. *)
From Coq Require Import Lia ZifyBool ZifyN ZifyNat.
From Verif Require Import Py PyFacts Nonce NonceFacts Prop_Nonce Etxrd Prop_Etxrd Expires.
Open Scope Z_scope.
Local Arguments u : simpl never.

(** The first child with the name, and what it says. *)
Definition first_expires (xrd el : xel) : Prop :=
  exists before after, x_children xrd = before ++ el :: after /\ x_tag el = u "{xri://$xrd*($v*2.0)}Expires" /\
    Forall (fun c => x_tag c <> u "{xri://$xrd*($v*2.0)}Expires") before.
Lemma expires_cases xrd :
  (x_findall expires_tag xrd = [] /\ Forall (fun c => x_tag c <> u "{xri://$xrd*($v*2.0)}Expires") (x_children xrd)) \/
  exists el l, x_findall expires_tag xrd = el :: l /\ first_expires xrd el.
Proof.
  unfold x_findall, first_expires, expires_tag. induction (x_children xrd) as [|c l IH]; [left; split; [reflexivity|constructor]|]. cbn [filter].
  destruct (text_eqb (x_tag c) _) eqn:E.
  - apply text_eqb_eq in E. right. exists c. eexists. split; [reflexivity|]. exists [], l. auto.
  - apply text_eqb_neq in E. destruct IH as [(-> & F)|(el & l' & -> & b & a & -> & T & F)]; [left; auto|right]. exists el, l'. split; auto. exists (c :: b), a. auto.
Qed.
Lemma first_expires_fun xrd el el' : first_expires xrd el -> first_expires xrd el' -> el = el'.
Proof.
  intros (b & a & E & T & F) (b' & a' & E' & T' & F'). rewrite E in E'. clear E. revert b' E' F'. induction F as [|x b N F IH]; intros b' E F'.
  - destruct F' as [|x' b' N' F']; injection E as -> E; congruence.
  - destruct F' as [|x' b' N' F']; injection E as -> E; [congruence|eauto].
Qed.

(** C179: without an element the default; otherwise the time that the text gives, which has to
    exist and have at most 59 seconds. *)
Theorem C179_expiration : forall udigit xrd default,
  (Forall (fun c => x_tag c <> u "{xri://$xrd*($v*2.0)}Expires") (x_children xrd) -> getXRDExpiration udigit xrd default = Ok default) /\
  forall el, first_expires xrd el ->
    (x_text el = None -> getXRDExpiration udigit xrd default = Raise TypeError) /\
    forall s, x_text el = Some s ->
      (getXRDExpiration udigit xrd default = Raise ValueError \/ exists x, getXRDExpiration udigit xrd default = Ok (Some x)) /\
      (ascii_text s -> forall x, getXRDExpiration udigit xrd default = Ok (Some x) <->
         time_prefix s x [] /\ valid_date (tm_year x) (tm_mon x) (tm_mday x) /\ tm_sec x <= 59).
Proof.
  intros udigit xrd default. unfold getXRDExpiration. destruct (expires_cases xrd) as [(-> & F)|(el & l & -> & H)].
  - split; auto. intros el (b & a & E & T & _). exfalso. rewrite E in F. apply Forall_elt in F. auto.
  - split.
    { intros F. destruct H as (b & a & E & T & _). exfalso. rewrite E in F. apply Forall_elt in F. auto. }
    intros el' H'. assert (el' = el) as -> by (eapply first_expires_fun; eauto). split; [intros ->; reflexivity|]. intros s ->. split.
    + destruct (strptime udigit s) as [x|e] eqn:E; cbn [bind]; [|left; f_equal; eapply strptime_err; eauto]. unfold datetime. destruct (_ && _); cbn [bind]; eauto.
    + intros A x. split.
      * intros G. binv G. binv G. injection G as <-. apply strptime_ok in E as (P & V); auto. unfold datetime in E0.
        destruct (_ && _) eqn:C; [|discriminate]. injection E0 as <-. split; auto. split; auto. lia.
      * intros (P & V & S). assert (strptime udigit s = Ok x) as -> by (apply strptime_ok; auto). cbn [bind]. unfold datetime.
        assert (1 <= tm_year x <= 9999) as Y.
        { split; [apply V|]. destruct P as (Y & m & d & H1 & M & S' & T & Zc & _ & (L & D & ->) & _).
          do 5 (destruct Y as [|? Y]; try discriminate L). unfold value. cbn [fold_left].
          repeat match goal with K : Forall _ (_ :: _) |- _ => inversion K; clear K; subst end. unfold is_digit in *. lia. }
        replace ((1 <=? tm_year x) && (tm_year x <=? 9999) && (tm_sec x <=? 59)) with true by lia. reflexivity.
Qed.
Print Assumptions C179_expiration.
(** A time that is written is read. *)
Theorem C179_round_trip : forall udigit t xrd el default,
  0 <= t <= last_second -> first_expires xrd el -> x_text el = Some (mkNonce t []) ->
  exists x, getXRDExpiration udigit xrd default = Ok (Some x) /\ utc_seconds x = t.
Proof.
  intros udigit t xrd el default Ht F T. destruct (gmtime_ok t (proj1 Ht)) as (V & G & _). pose proof (gmtime_year t Ht) as Yr.
  assert (R : 1000 <= tm_year (gmtime t) < 10000) by (clear - Yr; lia). pose proof (strftime_prefix (gmtime t) [] V R) as P. rewrite app_nil_r in P.
  exists (gmtime t). split; [|rewrite <- timegm_utc by exact (proj1 V); exact G].
  unfold mkNonce in T. rewrite app_nil_r in T.
  destruct (C179_expiration udigit xrd default) as (_ & K). destruct (K el F) as (_ & K'). destruct (K' _ T) as (_ & K''). apply K''; [exact (prefix_ascii udigit _ _ P)|].
  split; auto. split; [exact (proj1 V)|]. destruct V as (_ & _ & _ & Hs). lia.
Qed.
Print Assumptions C179_round_trip.
Definition xrd_expiring (t : option text) : xel := mkXel (u "{xri://$xrd*($v*2.0)}XRD") [] None [mkXel (u "{xri://$xrd*($v*2.0)}Expires") [] t []].
Example C179_example :
  let g t := getXRDExpiration (fun _ => None) (xrd_expiring (Some t)) None in
  g (u "2006-03-05T21:36:14Z") = Ok (Some (mkTm 2006 3 5 21 36 14)) /\ g (u "2006-3-5t1:6:4z") = Ok (Some (mkTm 2006 3 5 1 6 4)) /\
  g (u "2006-03-05T23:59:60Z") = Raise ValueError /\ g (u "2006-02-29T00:00:00Z") = Raise ValueError /\
  getXRDExpiration (fun _ => None) (mkXel (u "x") [] None []) (Some (mkTm 1 1 1 1 1 1)) = Ok (Some (mkTm 1 1 1 1 1 1)).
Proof. repeat split; vm_compute; reflexivity. Qed.

(** C180: "@raises ValueError: If the xrd:Expires element is present, but its contents are not
    formatted according to the specification", which is xs:dateTime. *)
Theorem C180_empty_refuted : exists xrd, getXRDExpiration (fun _ => None) xrd None = Raise TypeError.
Proof. exists (xrd_expiring None). vm_compute. reflexivity. Qed.
Print Assumptions C180_empty_refuted.
(** xs:dateTime in UTC allows a fraction of the second. *)
Definition utc_dateTime (s : text) (x : tm) : Prop :=
  exists_time x /\ 0 <= tm_hour x <= 23 /\ 0 <= tm_min x <= 59 /\ 0 <= tm_sec x <= 59 /\
  exists fraction, (fraction = [] \/ exists d r, fraction = u "." ++ d :: r /\ Forall is_digit (d :: r)) /\
    canonical (firstn 19 s ++ u "Z") x /\ s = firstn 19 s ++ fraction ++ u "Z".
Lemma digits_check w : forallb (fun c => (48 <=? c) && (c <=? 57))%N w = true -> Forall is_digit w.
Proof. intros H. apply Forall_forall. intros c I. rewrite forallb_forall in H. apply H in I. unfold is_digit. lia. Qed.
Theorem C180_fraction_refuted : exists s x, utc_dateTime s x /\ getXRDExpiration (fun _ => None) (xrd_expiring (Some s)) None = Raise ValueError.
Proof.
  exists (u "2006-03-05T21:36:14.5Z"), (mkTm 2006 3 5 21 36 14). split; [|vm_compute; reflexivity]. split; [vm_compute; repeat split; discriminate|].
  cbn [tm_hour tm_min tm_sec]. split; [lia|]. split; [lia|]. split; [lia|]. exists (u ".5"). split; [right; exists 53%N, []; split; [reflexivity|]; repeat constructor; unfold is_digit; lia|].
  split; [|vm_compute; reflexivity]. exists (u "2006"), (u "03"), (u "05"), (u "21"), (u "36"), (u "14"). split; [vm_compute; reflexivity|].
  repeat split; try (vm_compute; reflexivity); (apply digits_check; vm_compute; reflexivity).
Qed.
Print Assumptions C180_fraction_refuted.
