(** Fetching (fetchers.py). *)
From Coq Require Import Lia ZifyBool ZifyN ZifyNat.
From Verif Require Import Py PyFacts Utf8 Utf8Facts UrlLib UriNorm UriNormFacts Prop_Uri Discover Fetch.
Local Arguments u : simpl never.

(** ** The Curl fetcher *)
Definition web (url : text) : Prop := exists rest, url = u "http://" ++ rest \/ url = u "https://" ++ rest.
Lemma allowed_web url : allowedURL url = true <-> web url.
Proof.
  unfold allowedURL, web. rewrite orb_true_iff, !startswith_spec. split.
  - intros [(r & ->)|(r & ->)]; eauto.
  - intros (r & [->| ->]); eauto.
Qed.
Lemma urinorm_web env url norm : urinorm env url = Ok norm -> web norm.
Proof.
  intros H. destruct (C31_shape env url norm H) as (scheme & netloc & path & query & fragment & -> & [<-|[<-|[]]] & _).
  - eexists. left. reflexivity.
  - eexists. right. reflexivity.
Qed.

Section Curl.
  Variable env : uenv.
  Variable net : list request -> option transfer.
  Variable clock : nat -> Z.
  (** The answer to the last of these requests sends the client to [url]. *)
  Definition redirects (sent : list request) (url : text) : Prop :=
    exists t hs, net sent = Some t /\ In (tr_code t) [301; 302; 303; 307] /\
                 parseHeaders (tr_header t) = inl (Ok hs) /\ dget text_eqb (u "location") hs = Some url.
  (** Request [i] of a fetch of [url0]: where it came from and what it carries. *)
  Definition proper (url0 : text) (headers : dict text text) (post : option bytes) (due : nat -> Z) (sent : list request) (i : nat) (rq : request) : Prop :=
    exists url off,
      match i with O => url = url0 | S _ => redirects (firstn i sent) url end /\
      web url /\ urinorm env url = Ok (rq_url rq) /\
      rq_post rq = match i with O => post | S _ => None end /\
      rq_headers rq = headers /\ rq_timeout rq = Some off /\ off = due i /\ (0 < off)%Z.
  (** What a fetch returns is the answer to its last request. *)
  Definition answers (url0 : text) (sent : list request) (r : fresp) : Prop :=
    exists before rq t,
      sent = before ++ [rq] /\ net sent = Some t /\
      match before with [] => r_final_url r = url0 | _ => redirects before (r_final_url r) end /\
      urinorm env (r_final_url r) = Ok (rq_url rq) /\
      r_status r = tr_code t /\ ~ In (r_status r) [301; 302; 303; 307] /\
      r_body r = List.concat (tr_chunks t) /\ parseHeaders (tr_header t) = inl (Ok (r_headers r)).

  Lemma is_redirect_In c : is_redirect c = true <-> In c [301; 302; 303; 307].
  Proof using. unfold is_redirect. rewrite !orb_true_iff, !N.eqb_eq. simpl. intuition auto. Qed.
  Lemma write_concat chunks : forall data r, write_chunks data chunks = Some r -> r = data ++ List.concat chunks.
  Proof using.
    induction chunks as [|c cs IH]; simpl; intros data r H; [inv H; rewrite app_nil_r; auto|].
    destruct (_ <? _) in H; [discriminate H|]. apply IH in H. rewrite H, app_assoc. auto.
  Qed.
  Lemma loop_spec headers stop : forall fuel post url off sent now sent' r,
    curl_loop env net clock fuel headers stop post url off sent now = Some (sent', r) ->
    exists more, sent' = sent ++ more /\
      (forall i rq, nth_error more i = Some rq ->
         exists url' off',
           match i with O => url' = url | S _ => redirects (sent ++ firstn i more) url' end /\
           web url' /\ urinorm env url' = Ok (rq_url rq) /\
           rq_post rq = match i with O => post | S _ => None end /\
           rq_headers rq = headers /\ rq_timeout rq = Some off' /\
           off' = match i with O => off | S j => stop - clock (now + j)%nat end%Z /\ (0 < off')%Z) /\
      match r with
      | Failed _ => True
      | Fetched r =>
          exists before rq t, more = before ++ [rq] /\ net sent' = Some t /\
            match before with [] => r_final_url r = url | _ => redirects (sent ++ before) (r_final_url r) end /\
            urinorm env (r_final_url r) = Ok (rq_url rq) /\
            r_status r = tr_code t /\ ~ In (r_status r) [301; 302; 303; 307] /\
            r_body r = List.concat (tr_chunks t) /\ parseHeaders (tr_header t) = inl (Ok (r_headers r))
      end.
  Proof using.
    induction fuel as [|fuel IH]; intros post url off sent now sent' r H; [discriminate H|]. cbn [curl_loop] in H.
    assert (forall e, Some (sent, Failed e) = Some (sent', r) -> exists more, sent' = sent ++ more /\
      (forall i rq, nth_error more i = Some rq ->
         exists url' off',
           match i with O => url' = url | S _ => redirects (sent ++ firstn i more) url' end /\
           web url' /\ urinorm env url' = Ok (rq_url rq) /\
           rq_post rq = match i with O => post | S _ => None end /\
           rq_headers rq = headers /\ rq_timeout rq = Some off' /\
           off' = match i with O => off | S j => stop - clock (now + j)%nat end%Z /\ (0 < off')%Z) /\
      match r with Failed _ => True | Fetched r => False end) as Early.
    { intros e E. inv E. exists []. rewrite app_nil_r. split; auto. split; auto. intros [|i] rq K; discriminate K. }
    destruct (off <=? 0)%Z eqn:Eoff.
    { destruct (Early _ H) as (more & A & B & C). exists more. destruct r; tauto. }
    destruct (allowedURL url) eqn:Ea; cbn [negb] in H.
    2:{ destruct (Early _ H) as (more & A & B & C). exists more. destruct r; tauto. }
    destruct (urinorm env url) as [norm|x] eqn:En.
    2:{ destruct (Early _ H) as (more & A & B & C). exists more. destruct r; tauto. }
    clear Early. set (rq := mkRequest norm post headers (Some off)) in *. cbv zeta in H.
    assert (forall i rq', nth_error [rq] i = Some rq' -> i = O /\ rq' = rq) as One.
    { intros [|[|i]] rq' K; inv K; auto. }
    assert (forall more i rq', i = O -> rq' = rq ->
         exists url' off',
           match i with O => url' = url | S _ => redirects (sent ++ firstn i more) url' end /\
           web url' /\ urinorm env url' = Ok (rq_url rq') /\
           rq_post rq' = match i with O => post | S _ => None end /\
           rq_headers rq' = headers /\ rq_timeout rq' = Some off' /\
           off' = match i with O => off | S j => stop - clock (now + j)%nat end%Z /\ (0 < off')%Z) as First.
    { intros more i rq' -> ->. exists url, off. split; auto. split; [apply allowed_web; auto|]. repeat split; auto. lia. }
    assert (forall e, Some (sent ++ [rq], Failed e) = Some (sent', r) -> exists more, sent' = sent ++ more /\
      (forall i rq, nth_error more i = Some rq ->
         exists url' off',
           match i with O => url' = url | S _ => redirects (sent ++ firstn i more) url' end /\
           web url' /\ urinorm env url' = Ok (rq_url rq) /\
           rq_post rq = match i with O => post | S _ => None end /\
           rq_headers rq = headers /\ rq_timeout rq = Some off' /\
           off' = match i with O => off | S j => stop - clock (now + j)%nat end%Z /\ (0 < off')%Z) /\
      match r with Failed _ => True | Fetched r => False end) as Late.
    { intros e E. inv E. exists [rq]. split; auto. split; auto. intros i rq' K. apply One in K as (-> & ->). exact (First [rq] O rq eq_refl eq_refl). }
    destruct (net (sent ++ [rq])) as [t|] eqn:Et.
    2:{ destruct (Late _ H) as (more & A & B & C). exists more. destruct r; tauto. }
    destruct (write_chunks [] (tr_chunks t)) as [body|] eqn:Eb.
    2:{ destruct (Late _ H) as (more & A & B & C). exists more. destruct r; tauto. }
    destruct (parseHeaders (tr_header t)) as [[hs|x]|x] eqn:Eh.
    2:{ destruct (Late _ H) as (more & A & B & C). exists more. destruct r; tauto. }
    2:{ destruct (Late _ H) as (more & A & B & C). exists more. destruct r; tauto. }
    destruct (is_redirect (tr_code t)) eqn:Er.
    - destruct (dget text_eqb (u "location") hs) as [url2|] eqn:El.
      2:{ destruct (Late _ H) as (more & A & B & C). exists more. destruct r; tauto. }
      clear Late. apply IH in H as (more & -> & A & B).
      assert (redirects (sent ++ [rq]) url2) as R by (exists t, hs; apply is_redirect_In in Er; auto).
      exists (rq :: more). rewrite <- app_assoc. split; auto. split.
      + intros [|i] rq' K; simpl in K; [inv K; exact (First (rq :: more) O rq eq_refl eq_refl)|].
        destruct (A i rq' K) as (url' & off' & A1 & A2 & A3 & A4 & A5 & A6 & A7 & A8).
        exists url', off'. split; [|split; [auto|split; [auto|split; [destruct i; auto|split; [auto|split; [auto|split; auto]]]]]].
        * destruct i; [subst; auto|]. simpl firstn. rewrite <- app_assoc in A1. exact A1.
        * rewrite A7. destruct i; f_equal; f_equal; lia.
      + destruct r as [r|]; auto. destruct B as (before & rq' & t' & B1 & B2 & B3 & B4). subst more.
        exists (rq :: before), rq', t'. split; auto. split; [rewrite <- B2, <- app_assoc; auto|]. split; auto.
        destruct before; [rewrite B3; auto|]. rewrite <- app_assoc in B3. exact B3.
    - inv H. exists [rq]. split; auto. split; [intros i rq' K; apply One in K as (-> & ->); exact (First [rq] O rq eq_refl eq_refl)|].
      exists [], rq, t. split; auto. split; auto. cbn [r_final_url r_status r_body r_headers]. split; auto. split; auto. split; auto.
      split; [rewrite <- is_redirect_In, Er; discriminate|]. split; auto. apply write_concat in Eb. auto.
  Qed.

  (** However the redirects go, each request is for an http or https URL: the normal form of
      the URL asked for, or of the target of the redirect before it.  Only the first can be a
      POST.  The limit of each request is the time left of 20 seconds, and positive. *)
  Theorem C62_curl agent fuel url body headers sent r :
    curl_fetch env net clock agent fuel url body headers = Some (sent, r) ->
    (forall i rq, nth_error sent i = Some rq ->
       web (rq_url rq) /\
       proper url (setdefault headers (u "User-Agent") agent) body (fun i => clock 0%nat + 20 - clock i)%Z sent i rq) /\
    match r with Fetched r => answers url sent r | Failed _ => True end.
  Proof using.
    unfold curl_fetch. intros H. apply loop_spec in H as (more & -> & A & B). rewrite app_nil_l in *. split.
    - intros i rq K. destruct (A i rq K) as (url' & off' & A1 & A2 & A3 & A4 & A5 & A6 & A7 & A8).
      split; [eapply urinorm_web; eauto|]. exists url', off'. split; [destruct i; auto|]. repeat split; auto.
      rewrite A7. unfold ALLOWED_TIME. destruct i; [lia|]. f_equal.
    - destruct r as [r|]; [exact B|auto].
  Qed.
  (** No URL that is not a web URL is ever asked for. *)
  Theorem C62_refuses agent fuel url body headers : ~ web url ->
    curl_fetch env net clock agent (S fuel) url body headers = Some ([], Failed FHTTPError).
  Proof using.
    intros H. unfold curl_fetch. cbn [curl_loop]. unfold ALLOWED_TIME. simpl.
    destruct (allowedURL url) eqn:E; auto. apply allowed_web in E. tauto.
  Qed.

  (** *** Time *)
  Lemma loop_more headers stop : forall fuel fuel' post url off sent now out,
    curl_loop env net clock fuel headers stop post url off sent now = Some out -> (fuel <= fuel')%nat ->
    curl_loop env net clock fuel' headers stop post url off sent now = Some out.
  Proof using.
    induction fuel as [|fuel IH]; intros fuel' post url off sent now out H L; [discriminate H|].
    destruct fuel' as [|fuel']; [lia|]. cbn [curl_loop] in *.
    destruct (off <=? 0)%Z; auto. destruct (negb (allowedURL url)); auto. destruct (urinorm env url); auto. cbv zeta in *.
    destruct (net _); auto. destruct (write_chunks _ _); auto. destruct (parseHeaders _) as [[hs|]|]; auto.
    destruct (is_redirect _); auto. destruct (dget _ _ _); auto. eapply IH; eauto. lia.
  Qed.
  Lemma loop_ends headers stop : forall n post url off sent now,
    (stop <= clock (now + n)%nat)%Z ->
    exists out, curl_loop env net clock (S (S n)) headers stop post url off sent now = Some out.
  Proof using.
    induction n as [|n IH]; intros post url off sent now H.
    - cbn [curl_loop]. destruct (off <=? 0)%Z; eauto. destruct (negb (allowedURL url)); eauto. destruct (urinorm env url); eauto. cbv zeta.
      destruct (net _); eauto. destruct (write_chunks _ _); eauto. destruct (parseHeaders _) as [[hs|]|]; eauto.
      destruct (is_redirect _); eauto. destruct (dget _ _ _); eauto.
      rewrite Nat.add_0_r in H. assert (stop - clock now <=? 0 = true)%Z as -> by lia. eauto.
    - change (curl_loop env net clock (S (S (S n))) headers stop post url off sent now) with
        (let loop := curl_loop env net clock (S (S n)) in curl_loop env net clock (S (S (S n))) headers stop post url off sent now).
      cbv zeta. remember (S (S n)) as m eqn:Em. cbn [curl_loop].
      destruct (off <=? 0)%Z; eauto. destruct (negb (allowedURL url)); eauto. destruct (urinorm env url); eauto. cbv zeta.
      destruct (net _); eauto. destruct (write_chunks _ _); eauto. destruct (parseHeaders _) as [[hs|]|]; eauto.
      destruct (is_redirect _); eauto. destruct (dget _ _ _); eauto. subst m. apply IH.
      rewrite Nat.add_succ_r in H. exact H.
  Qed.
  (** A fetch ends: once the clock has reached 20 seconds after the start, at its [n]th
      reading, at most [n] requests have been made. *)
  Theorem C62_ends agent url body headers n :
    (clock 0%nat + 20 <= clock (S n))%Z ->
    exists sent r, (List.length sent <= S n)%nat /\
      forall fuel, (S (S n) <= fuel)%nat -> curl_fetch env net clock agent fuel url body headers = Some (sent, r).
  Proof using.
    intros H. unfold curl_fetch.
    destruct (loop_ends (setdefault headers (u "User-Agent") agent) (clock 0%nat + ALLOWED_TIME) n body url ALLOWED_TIME [] 1) as ((sent & r) & E); [exact H|].
    exists sent, r. split.
    - destruct (Nat.le_gt_cases (List.length sent) (S n)) as [L|L]; auto. exfalso.
      pose proof E as E'. apply loop_spec in E' as (more & -> & A & _). rewrite app_nil_l in L.
      destruct (nth_error more (S n)) as [rq|] eqn:K; [|apply nth_error_None in K; lia].
      destruct (A _ _ K) as (url' & off' & _ & _ & _ & _ & _ & _ & A7 & A8). 
      change (1 + n)%nat with (S n) in A7. unfold ALLOWED_TIME in A7. lia.
    - intros fuel L. eapply loop_more; eauto.
  Qed.
  (** When libcurl keeps to the limits it is given, a fetch is over within its 20 seconds. *)
  Theorem C62_in_time agent fuel url body headers sent r :
    curl_fetch env net clock agent fuel url body headers = Some (sent, r) ->
    (forall i rq off, nth_error sent i = Some rq -> rq_timeout rq = Some off -> (clock (S i) <= clock i + off)%Z) ->
    forall i, (i <= List.length sent)%nat -> (clock i <= clock 0%nat + 20)%Z.
  Proof using.
    intros H K i L. destruct i as [|i]; [lia|].
    destruct (nth_error sent i) as [rq|] eqn:E; [|apply nth_error_None in E; lia].
    destruct (proj1 (C62_curl _ _ _ _ _ _ _ H) i rq E) as (_ & url' & off & _ & _ & _ & _ & _ & T & D & _).
    specialize (K i rq off E T). lia.
  Qed.

  (** *** Success *)
  Lemma redirects_fun sent url url' : redirects sent url -> redirects sent url' -> url = url'.
  Proof using. intros (t & hs & A & _ & B & C) (t' & hs' & A' & _ & B' & C'). congruence. Qed.
  Lemma write_small chunks : forall data, len (data ++ List.concat chunks) <= 1048576 -> write_chunks data chunks = Some (data ++ List.concat chunks).
  Proof using.
    clear. induction chunks as [|c cs IH]; simpl; intros data H; [rewrite app_nil_r; auto|].
    unfold len in *. rewrite app_assoc in *. assert (1024 * MAX_RESPONSE_KB <? N.of_nat (List.length data) = false) as ->.
    { rewrite !app_length in H. unfold MAX_RESPONSE_KB. lia. }
    apply IH. auto.
  Qed.
  Hypothesis small : forall sent t, net sent = Some t -> len (List.concat (tr_chunks t)) <= 1048576.
  Lemma loop_reaches headers stop r : forall more post url off sent now,
    (forall i rq, nth_error more i = Some rq ->
       exists url' off',
         match i with O => url' = url | S _ => redirects (sent ++ firstn i more) url' end /\
         web url' /\ urinorm env url' = Ok (rq_url rq) /\
         rq_post rq = match i with O => post | S _ => None end /\
         rq_headers rq = headers /\ rq_timeout rq = Some off' /\
         off' = match i with O => off | S j => stop - clock (now + j)%nat end%Z /\ (0 < off')%Z) ->
    (exists before rq t, more = before ++ [rq] /\ net (sent ++ more) = Some t /\
       match before with [] => r_final_url r = url | _ => redirects (sent ++ before) (r_final_url r) end /\
       urinorm env (r_final_url r) = Ok (rq_url rq) /\
       r_status r = tr_code t /\ ~ In (r_status r) [301; 302; 303; 307] /\
       r_body r = List.concat (tr_chunks t) /\ parseHeaders (tr_header t) = inl (Ok (r_headers r))) ->
    curl_loop env net clock (List.length more) headers stop post url off sent now = Some (sent ++ more, Fetched r).
  Proof using small.
    induction more as [|rq more IH]; intros post url off sent now A B.
    { destruct B as ([|] & ? & ? & E & _); discriminate E. }
    destruct (A 0%nat rq eq_refl) as (url' & off' & -> & A2 & A3 & A4 & A5 & A6 & -> & A8).
    cbn [curl_loop List.length]. assert ((off <=? 0)%Z = false) as -> by lia.
    apply allowed_web in A2. rewrite A2, A3. cbn [negb]. cbv zeta.
    assert (mkRequest (rq_url rq) post headers (Some off) = rq) as -> by (destruct rq; simpl in *; congruence).
    destruct more as [|rq2 more].
    - destruct B as (before & rq' & t & B1 & B2 & B3 & B4 & B5 & B6 & B7 & B8).
      destruct before as [|x before]; [|destruct before; discriminate B1]. inv B1.
      rewrite B2. rewrite (write_small _ []); [|rewrite app_nil_l; eapply small; eauto]. rewrite app_nil_l, B8.
      destruct (is_redirect (tr_code t)) eqn:Er; [apply is_redirect_In in Er; rewrite <- B5 in Er; tauto|].
      do 3 f_equal. destruct r; simpl in *. congruence.
    - destruct (A 1%nat rq2 eq_refl) as (url2 & off2 & R2 & W2).
      pose proof R2 as (t & hs & N & C & P & L). cbn [firstn] in N.
      rewrite N. rewrite (write_small _ []); [|rewrite app_nil_l; eapply small; eauto]. rewrite P.
      apply is_redirect_In in C. rewrite C, L.
      rewrite (IH None url2 (stop - clock now)%Z (sent ++ [rq]) (S now)).
      + rewrite <- app_assoc. auto.
      + intros i rq' K. destruct (A (S i) rq' K) as (url3 & off3 & A1' & A2' & A3' & A4' & A5' & A6' & A7' & A8').
        exists url3, off3. split; [|split; [auto|split; [auto|split; [destruct i; auto|split; [auto|split; [auto|split; auto]]]]]].
        * destruct i; [eapply redirects_fun; eauto|]. rewrite <- app_assoc. exact A1'.
        * rewrite A7'. destruct i; f_equal; f_equal; lia.
      + destruct B as (before & rq' & t' & B1 & B2 & B3 & B4).
        destruct before as [|x before]; [discriminate B1|]. inv B1. exists before, rq', t'. rewrite <- !app_assoc.
        split; auto. split; auto. split; auto. destruct before; [|exact B3].
        eapply redirects_fun; eauto.
  Qed.
  (** The converse: answers of at most 1024 KB, each redirect to a web URL and in time, are
      followed to the last, which is returned. *)
  Theorem C62_followed agent fuel url body headers sent r :
    (forall i rq, nth_error sent i = Some rq ->
       proper url (setdefault headers (u "User-Agent") agent) body (fun i => clock 0%nat + 20 - clock i)%Z sent i rq) ->
    answers url sent r -> (List.length sent <= fuel)%nat ->
    curl_fetch env net clock agent fuel url body headers = Some (sent, Fetched r).
  Proof using small.
    intros A B L. unfold curl_fetch. eapply loop_more; [|exact L].
    apply loop_reaches; [|exact B]. intros i rq K.
    destruct (A i rq K) as (url' & off' & A1 & A2 & A3 & A4 & A5 & A6 & A7 & A8).
    exists url', off'. split; [destruct i; auto|]. split; auto. split; auto. split; auto. split; auto. split; auto. split; auto.
    rewrite A7. unfold ALLOWED_TIME. destruct i; [lia|]. f_equal.
  Qed.
End Curl.
Print Assumptions C62_curl.
Print Assumptions C62_refuses.
Print Assumptions C62_ends.
Print Assumptions C62_in_time.
Print Assumptions C62_followed.

(** ** Header blocks *)
Lemma stripf_pre f l s : forallb f l = true -> stripf f (l ++ s) = stripf f s.
Proof.
  intros H. unfold stripf. f_equal. f_equal. f_equal. induction l as [|x l IH]; simpl in *; auto.
  apply andb_true_iff in H as (-> & H). auto.
Qed.
Lemma stripf_post f s r : forallb f r = true -> stripf f (s ++ r) = stripf f s.
Proof.
  intros H. unfold stripf. destruct (lstripf f s) as [|x t] eqn:E.
  - apply lstripf_nil in E. assert (lstripf f (s ++ r) = []) as -> by (apply lstripf_nil; rewrite forallb_app, E, H; auto). auto.
  - rewrite (lstripf_app _ _ r x t E), E, rev_app_distr. f_equal.
    assert (forallb f (rev r) = true) as H' by (rewrite forallb_forall in *; intros y Hy; apply H, in_rev; auto).
    revert H'. generalize (rev r). clear. induction l as [|y l IH]; simpl; auto. intros K. apply andb_true_iff in K as (-> & K). auto.
Qed.
Lemma file_lines_app a r : ~ In 10 a -> file_lines (a ++ 10 :: r) = (a ++ [10]) :: file_lines r.
Proof.
  induction a as [|x a IH]; intros H; auto. simpl. destruct (x =? 10) eqn:E; [apply N.eqb_eq in E; subst; destruct H; left; auto|].
  rewrite IH; auto. intros K. apply H. right. auto.
Qed.
(** A line of a block. *)
Definition CRLF : bytes := [13; 10].
Definition header_line (h : bytes * bytes) : bytes := fst h ++ u ": " ++ snd h ++ CRLF.
Definition block (status : bytes) (hs : list (bytes * bytes)) : bytes := status ++ CRLF ++ flat_map header_line hs ++ CRLF.
Definition header_ok' (h : bytes * bytes) (name value : text) : Prop :=
  fst h <> [] /\ (forall c, In c (fst h) -> c <> 58 /\ bspace c = false) /\ ~ In 10 (snd h) /\
  encode name = Ok (lower (fst h)) /\ encode value = Ok (stripf bspace (snd h)).
Lemma crlf_line a r : ~ In 10 a -> file_lines (a ++ CRLF ++ r) = (a ++ CRLF) :: file_lines r.
Proof.
  intros H. unfold CRLF. change (a ++ [13; 10] ++ r) with (a ++ [13] ++ 10 :: r). rewrite app_assoc.
  rewrite file_lines_app, <- app_assoc; auto. intros K. apply in_app_or in K as [K|[K|[]]]; auto. discriminate K.
Qed.
Lemma line_strip h name value : header_ok' h name value ->
  exists w, stripf bspace (header_line h) = fst h ++ 58 :: w /\ stripf bspace w = stripf bspace (snd h).
Proof.
  intros (Hn & Hc & _). unfold header_line. destruct h as [n v]. cbn [fst snd] in *.
  change (n ++ u ": " ++ v ++ CRLF) with (n ++ 58 :: (32 :: v ++ CRLF)). set (t := 32 :: v ++ CRLF).
  destruct (stripf_split bspace (n ++ 58 :: t)) as (l & r & E & Hl & Hr). set (s := stripf bspace (n ++ 58 :: t)) in *.
  assert (l = []) as ->.
  { destruct l as [|x l]; auto. destruct n as [|y n]; [congruence|]. inv E. simpl in Hl.
    destruct (Hc x) as (_ & K); [left; auto|]. rewrite K in Hl. discriminate Hl. }
  rewrite app_nil_l in E.
  assert (exists w, s = n ++ 58 :: w /\ t = w ++ r) as (w & E1 & E2).
  { clearbody s. revert s E. clear Hc Hn Hl. induction n as [|y n IH]; intros s E; simpl in E.
    - destruct s as [|z s]; [|inv E; exists s; auto]. simpl in E. rewrite <- E in Hr. simpl in Hr. discriminate Hr.
    - destruct s as [|z s]; simpl in E.
      + exfalso. rewrite <- E in Hr. simpl in Hr. apply andb_true_iff in Hr as (_ & Hr). rewrite forallb_app in Hr.
        apply andb_true_iff in Hr as (_ & Hr). simpl in Hr. discriminate Hr.
      + inv E. destruct (IH s H1) as (w & -> & K). exists w. auto. }
  exists w. split; auto.
  rewrite <- (stripf_post bspace w r Hr), <- E2. unfold t. change (32 :: v ++ CRLF) with ([32] ++ v ++ CRLF).
  rewrite stripf_pre by auto. apply stripf_post. auto.
Qed.
Lemma header_dict_ok hs : forall pairs d, Forall2 (fun h nv => header_ok' h (fst nv) (snd nv)) hs pairs ->
  header_dict (map (fun h => stripf bspace (header_line h)) hs) d = inl (Ok (fold_left (fun d nv => dset text_eqb (fst nv) (snd nv) d) pairs d)).
Proof.
  induction hs as [|h hs IH]; intros pairs d H; inv H; auto. cbn [map header_dict fold_left].
  destruct (line_strip h _ _ H2) as (w & E1 & E2). rewrite E1. destruct H2 as (_ & Hc & _ & Dn & Dv).
  rewrite cut_app by (intros K; apply Hc in K as (K & _); congruence).
  rewrite E2, (decode_encode _ _ Dv), (decode_encode _ _ Dn). auto.
Qed.
Lemma block_lines hs pairs r : Forall2 (fun h nv => header_ok' h (fst nv) (snd nv)) hs pairs ->
  file_lines (flat_map header_line hs ++ r) = map header_line hs ++ file_lines r.
Proof.
  intros H. revert r. induction H as [|h nv hs pairs H F IH]; intros r; auto. cbn [flat_map map].
  rewrite <- !app_assoc, <- app_comm_cons. rewrite <- IH. unfold header_line at 1. rewrite <- !app_assoc.
  change (fst h ++ u ": " ++ snd h ++ CRLF ++ flat_map header_line hs ++ r) with (fst h ++ (u ": " ++ (snd h ++ (CRLF ++ flat_map header_line hs ++ r)))).
  rewrite (app_assoc (u ": ")), (app_assoc (fst h)). rewrite crlf_line.
  - f_equal. unfold header_line. rewrite <- !app_assoc. auto.
  - destruct H as (_ & Hc & Hv & _). intros K. apply in_app_or in K as [K|K]; [apply Hc in K as (_ & K); discriminate K|].
    apply in_app_or in K as [K|K]; [vm_compute in K; intuition discriminate|auto].
Qed.
Lemma startswith_crlf p : ~ In 13 p -> ~ In 10 p -> forall l, startswith (l ++ CRLF) p = startswith l p.
Proof.
  induction p as [|y p IH]; intros H1 H2 l; [destruct l; auto|].
  destruct l as [|x l]; simpl.
  - destruct (13 =? y) eqn:E; auto. apply N.eqb_eq in E. subst. destruct H1. left. auto.
  - rewrite IH; auto; intros K; [apply H1|apply H2]; right; auto.
Qed.
(** A name without colons, spaces and line ends, a value without line ends, both UTF-8, the
    value without the white space around it. *)
Definition white (c : N) : Prop := 9 <= c <= 13 \/ c = 32.
Definition trimmed (v w : bytes) : Prop :=
  exists a b, v = a ++ w ++ b /\ Forall white a /\ Forall white b /\ (forall c r, w = c :: r -> ~ white c) /\ (forall r c, w = r ++ [c] -> ~ white c).
Definition header_ok (h : bytes * bytes) (name value : text) : Prop :=
  fst h <> [] /\ (forall c, In c (fst h) -> c <> 58 /\ ~ white c) /\ ~ In 10 (snd h) /\
  encode name = Ok (lower (fst h)) /\ exists w, trimmed (snd h) w /\ encode value = Ok w.
Lemma white_spec c : white c <-> bspace c = true.
Proof. unfold white, bspace. lia. Qed.
Lemma trimmed_strip v w : trimmed v w -> stripf bspace v = w.
Proof.
  intros (a & b & -> & A & B & F & L).
  assert (forall l, Forall white l -> forallb bspace l = true) as K by (intros l H; apply forallb_forall; intros c I; rewrite Forall_forall in H; apply white_spec; auto).
  rewrite stripf_pre, stripf_post by auto. apply stripf_clean.
  assert (forall c, ~ white c -> bspace c = false) as N by (intros c H; destruct (bspace c) eqn:E; auto; apply white_spec in E; contradiction).
  split.
  - destruct w as [|c r]; auto. apply N. eapply F. reflexivity.
  - destruct (rev w) as [|c r] eqn:E; auto. apply N. apply (L (rev r)). rewrite <- (rev_involutive w), E. reflexivity.
Qed.
Lemma header_ok_old h name value : header_ok h name value -> header_ok' h name value.
Proof.
  intros (H1 & H2 & H3 & H4 & w & T & H5). split; auto. split; [|split; auto; split; auto; rewrite (trimmed_strip _ _ T); auto].
  intros c I. apply H2 in I as (I & N). split; auto. destruct (bspace c) eqn:E; auto. apply white_spec in E. contradiction.
Qed.
(** A block of headers is read as the dictionary of its values by names in lower case, later
    ones in place of earlier ones; an interim answer before it is passed over. *)
Theorem C125_headers status hs pairs :
  ~ In 10 status -> startswith (lower status) (u "http/1.1 100 ") = false ->
  Forall2 (fun h nv => header_ok h (fst nv) (snd nv)) hs pairs ->
  let d := fold_left (fun d nv => dset text_eqb (fst nv) (snd nv) d) pairs [] in
  parseHeaders (block status hs) = inl (Ok d) /\
  forall interim, ~ In 10 interim -> startswith (lower interim) (u "http/1.1 100 ") = true ->
    parseHeaders (interim ++ CRLF ++ CRLF ++ block status hs) = inl (Ok d).
Proof.
  intros Hs H1 F' d.
  assert (Forall2 (fun h nv => header_ok' h (fst nv) (snd nv)) hs pairs) as F by (clear - F'; induction F'; constructor; auto using header_ok_old).
  assert (file_lines CRLF = [CRLF]) as FC by reflexivity.
  assert (forall ls : list bytes, rev (map (stripf bspace) (ls ++ [CRLF])) = [] :: rev (map (stripf bspace) ls)) as R.
  { intros ls. rewrite map_app, rev_app_distr. reflexivity. }
  assert (file_lines (block status hs) = (status ++ CRLF) :: map header_line hs ++ [CRLF]) as B.
  { unfold block. rewrite crlf_line by auto. rewrite (block_lines hs pairs _ F), FC. auto. }
  assert (forall l, startswith (lower (l ++ CRLF)) (u "http/1.1 100 ") = startswith (lower l) (u "http/1.1 100 ")) as S.
  { intros l. unfold lower. rewrite map_app. apply startswith_crlf; vm_compute; intuition discriminate. }
  split.
  - unfold parseHeaders. rewrite B, S, H1, R. cbn [truthy]. rewrite rev_involutive, map_map.
    apply (header_dict_ok hs pairs [] F).
  - intros interim Hi Ei. unfold parseHeaders. rewrite crlf_line by auto.
    change (CRLF ++ block status hs) with ([] ++ CRLF ++ block status hs). rewrite crlf_line by (intros []).
    rewrite B, S, Ei. cbn [skipn app]. rewrite R. cbn [truthy]. rewrite rev_involutive, map_map.
    apply (header_dict_ok hs pairs [] F).
Qed.
Print Assumptions C125_headers.
(** In whatever is read, names are in lower case and there is one value for each. *)
Lemma encode_ascii_In t b c : encode t = Ok b -> In c t -> c < 128 -> In c b.
Proof.
  revert b. induction t as [|x t IH]; intros b H I L; [destruct I|]. simpl in H.
  destruct (enc1 x) as [e1|] eqn:E; [|discriminate H]. binv H. inv H. apply in_or_app.
  destruct I as [->|I]; [left|right; eauto]. unfold enc1 in E. assert (c <? 128 = true) as K by lia. rewrite K in E. inv E. left. auto.
Qed.
Theorem C125_lower_names file d : parseHeaders file = inl (Ok d) ->
  NoDup (dkeys d) /\ forall name, In name (dkeys d) -> lower name = name.
Proof.
  assert (forall lines d0 d, header_dict lines d0 = inl (Ok d) ->
            NoDup (dkeys d0) -> (forall name, In name (dkeys d0) -> lower name = name) ->
            NoDup (dkeys d) /\ forall name, In name (dkeys d) -> lower name = name) as A.
  { induction lines as [|l ls IH]; intros d0 d1 H N L; cbn [header_dict] in H; [inv H; auto|].
    destruct (cut 58 l) as [[name value]|]; [|discriminate H].
    destruct (Utf8.decode (stripf bspace value)) as [v|]; [|discriminate H].
    destruct (Utf8.decode (lower name)) as [n|] eqn:En; [|discriminate H].
    apply IH in H; auto; [apply (NoDup_dset text_eqb text_eqb_eq); auto|].
    intros k K. apply (In_dkeys_dset text_eqb text_eqb_eq) in K as [->|K]; auto.
    apply encode_decode in En. unfold lower. rewrite <- (map_id n) at 2. apply map_ext_in. intros c Hc. unfold lowerc.
    destruct ((65 <=? c) && (c <=? 90)) eqn:Ec; auto. exfalso.
    assert (In c (lower name)) as Hl by (eapply encode_ascii_In; eauto; lia).
    apply in_map_iff in Hl as (x & Hx & _). unfold lowerc in Hx. destruct ((65 <=? x) && (x <=? 90)) eqn:Ex; lia. }
  unfold parseHeaders. destruct (rev _) as [|e ls]; [discriminate|]. destruct (truthy e); [discriminate|].
  intros H. apply (A _ _ _ H); [constructor|intros ? []].
Qed.
Print Assumptions C125_lower_names.
Example C125_example :
  parseHeaders (u "HTTP/1.1 200 OK" ++ CRLF ++ u "Content-Type:  text/html " ++ CRLF ++ u "X-XRDS-Location: a:b" ++ CRLF ++ u "content-type: c" ++ CRLF ++ CRLF)
    = inl (Ok [(u "content-type", u "c"); (u "x-xrds-location", u "a:b")]) /\
  parseHeaders (u "HTTP/1.1 100 Continue" ++ CRLF ++ CRLF ++ u "HTTP/1.1 200 OK" ++ CRLF ++ u "A: b" ++ CRLF ++ CRLF) = inl (Ok [(u "a", u "b")]) /\
  parseHeaders (u "HTTP/1.1 200 OK" ++ CRLF ++ u "A: b" ++ CRLF) = inr FHTTPError /\
  parseHeaders (u "HTTP/1.1 200 OK" ++ CRLF ++ u "A b" ++ CRLF ++ CRLF) = inr FHTTPError /\
  parseHeaders [] = inl (Raise IndexError) /\
  block (u "S") [(u "A", u "b")] = u "S" ++ CRLF ++ u "A: b" ++ CRLF ++ CRLF /\ header_ok (u "A", u "b ") (u "a") (u "b").
Proof.
  split; [vm_compute; reflexivity|]. split; [vm_compute; reflexivity|]. split; [vm_compute; reflexivity|].
  split; [vm_compute; reflexivity|]. split; [vm_compute; reflexivity|]. split; [vm_compute; reflexivity|].
  split; [discriminate|]. split; [intros c [<-|[]]; split; [discriminate|intros H; apply white_spec in H; discriminate H]|].
  split; [vm_compute; intuition discriminate|]. split; [vm_compute; reflexivity|]. exists (u "b"). split; [|vm_compute; reflexivity].
  exists [], (u " "). split; [reflexivity|]. split; [constructor|]. split; [constructor; [right; reflexivity|constructor]|].
  split; intros x y E H; [injection E as <- _|destruct x as [|z [|w x]]; [injection E as <-| |]; try discriminate E]; apply white_spec in H; discriminate H.
Qed.
(** A 100 answer with headers of its own is not passed over: the blank line that ends them is
    taken for a header. *)
Theorem C126_interim_refuted : exists interim d,
  parseHeaders (block (u "HTTP/1.1 200 OK") [(u "a", u "b")]) = inl (Ok d) /\
  parseHeaders (block (u "HTTP/1.1 100 Continue") [interim] ++ block (u "HTTP/1.1 200 OK") [(u "a", u "b")]) = inr FHTTPError.
Proof. exists (u "x", u "y"), [(u "a", u "b")]. vm_compute. auto. Qed.
Print Assumptions C126_interim_refuted.

(** ** The size of a body *)
(** All of a body but its last chunk is at most 1024 KB. *)
Lemma write_limit chunks : forall data r, write_chunks data chunks = Some r ->
  forall before c, chunks = before ++ [c] -> len (data ++ List.concat before) <= 1048576.
Proof.
  induction chunks as [|x cs IH]; intros data r H before c E; [destruct before; discriminate E|]. cbn [write_chunks] in H.
  destruct (1024 * MAX_RESPONSE_KB <? len data) eqn:L; [discriminate H|]. unfold MAX_RESPONSE_KB in L.
  destruct before as [|y before]; inv E; [simpl; rewrite app_nil_r; lia|].
  simpl. rewrite app_assoc. eapply IH; eauto.
Qed.
Theorem C127_body_limit env net clock agent fuel url body headers sent r :
  curl_fetch env net clock agent fuel url body headers = Some (sent, Fetched r) ->
  exists t, net sent = Some t /\ r_body r = List.concat (tr_chunks t) /\
            forall before c, tr_chunks t = before ++ [c] -> len (List.concat before) <= 1048576.
Proof.
  intros H. pose proof H as H'. apply C62_curl in H' as (_ & before & rq & t & E & N & _ & _ & _ & _ & B & _).
  exists t. split; auto. split; auto. intros bs c Ec.
  assert (exists body, write_chunks [] (tr_chunks t) = Some body) as (b & W).
  { unfold curl_fetch in H. revert H N. generalize (clock 0%nat + ALLOWED_TIME)%Z as stop. intros stop.
    generalize (@nil request) 1%nat ALLOWED_TIME url body. clear.
    induction fuel as [|fuel IH]; intros s now off url body H N; [discriminate H|]. cbn [curl_loop] in H.
    destruct (off <=? 0)%Z; [discriminate H|]. destruct (negb (allowedURL url)); [discriminate H|].
    destruct (urinorm env url) as [norm|]; [|discriminate H]. cbv zeta in H.
    destruct (net (s ++ _)) as [t'|] eqn:E; [|discriminate H].
    destruct (write_chunks [] (tr_chunks t')) as [b|] eqn:W; [|discriminate H].
    destruct (parseHeaders _) as [[hs|]|]; try discriminate H.
    destruct (is_redirect _); [|inv H; assert (t' = t) as -> by congruence; eauto].
    destruct (dget _ _ hs) as [url2|]; [|discriminate H]. eapply IH; eauto. }
  apply (write_limit _ _ _ W bs c Ec).
Qed.
Print Assumptions C127_body_limit.
Definition ascii_env : uenv := mkUenv (fun _ => false) (fun _ => false) (fun _ => None).
Definition page (code : N) (hs : list (bytes * bytes)) (body : bytes) : transfer := mkTransfer [body] (block (u "HTTP/1.1 x") hs) code.
(** A chain of redirects: a POST, then a GET, with the time left. *)
Example C62_example :
  let net sent := match List.length sent with
                  | 1%nat => Some (page 302 [(u "Location", u "HTTPS://B.example")] [])
                  | 2%nat => Some (page 301 [(u "LOCATION", u "https://B.example:443/x/../y?q=1#f")] [])
                  | _ => Some (page 404 [(u "A", u "b")] (u "body"))
                  end in
  let net2 sent := match List.length sent with
                   | 1%nat => Some (page 302 [(u "Location", u "https://B.example")] [])
                   | 2%nat => Some (page 301 [(u "LOCATION", u "https://B.example:443/x/../y?q=1#f")] [])
                   | _ => Some (page 404 [(u "A", u "b")] (u "body"))
                   end in
  let clock n := match n with 0%nat => 1000 | 1%nat => 1003 | 2%nat => 1003 | _ => 1008 end%Z in
  let ua := [(u "User-Agent", u "curl")] in
  (* the scheme of a redirect must be in lower case *)
  curl_fetch ascii_env net clock (u "curl") 5 (u "http://A.example/login") (Some (u "x=1")) []
    = Some ([mkRequest (u "http://a.example/login") (Some (u "x=1")) ua (Some 20%Z)], Failed FHTTPError) /\
  curl_fetch ascii_env net2 clock (u "curl") 5 (u "http://A.example/login") (Some (u "x=1")) []
    = Some ([mkRequest (u "http://a.example/login") (Some (u "x=1")) ua (Some 20%Z);
             mkRequest (u "https://b.example/") None ua (Some 17%Z);
             mkRequest (u "https://b.example/y?q=1#f") None ua (Some 17%Z)],
            Fetched (mkResp (u "https://B.example:443/x/../y?q=1#f") 404 [(u "a", u "b")] (u "body"))) /\
  curl_fetch ascii_env net2 (fun n => 10 * Z.of_nat n)%Z (u "curl") 5 (u "http://A.example/login") None []
    = Some ([mkRequest (u "http://a.example/login") None ua (Some 20%Z);
             mkRequest (u "https://b.example/") None ua (Some 10%Z)], Failed FHTTPError) /\
  curl_fetch ascii_env net2 clock (u "curl") 5 (u "file:///etc/passwd") None [] = Some ([], Failed FHTTPError).
Proof. vm_compute. auto. Qed.

(** A body can be longer than 1024 KB: the size is looked at before a chunk is added. *)
Theorem C128_body_refuted : exists net sent r,
  curl_fetch ascii_env net (fun _ => 0%Z) [] 1 (u "http://a.example/") None [] = Some (sent, Fetched r) /\
  1024 * MAX_RESPONSE_KB < len (r_body r).
Proof.
  assert (forall c, curl_fetch ascii_env (fun _ => Some (page 200 [] c)) (fun _ => 0%Z) [] 1 (u "http://a.example/") None []
            = Some ([mkRequest (u "http://a.example/") None [(u "User-Agent", [])] (Some 20%Z)], Fetched (mkResp (u "http://a.example/") 200 [] c))) as H
    by (intros c; vm_compute; reflexivity).
  eexists. do 2 eexists. split; [apply (H (repeat 120 (N.to_nat 2000000)))|].
  cbn [r_body]. unfold len. rewrite repeat_length, N2Nat.id. reflexivity.
Qed.
Print Assumptions C128_body_refuted.

(** The final URL of an answer need not be the URL that was asked for: an empty parameter is
    left out of the request. *)
Theorem C129_final_url_refuted : exists net url sent rq r,
  curl_fetch ascii_env net (fun _ => 0%Z) [] 1 url None [] = Some (sent, Fetched r) /\ sent = [rq] /\
  r_final_url r = u "http://a.example/?user=&x=1" /\ rq_url rq = u "http://a.example/?x=1".
Proof.
  exists (fun _ => Some (page 200 [] [])), (u "http://a.example/?user=&x=1"). do 3 eexists.
  split; [vm_compute; reflexivity|]. split; [reflexivity|]. split; reflexivity.
Qed.
Print Assumptions C129_final_url_refuted.

(** Nothing but the time limits how many redirects are followed. *)
Theorem C130_redirects_refuted : forall n, exists net clock url sent r fuel,
  (forall i, (clock i <= clock (S i))%Z) /\
  curl_fetch ascii_env net clock [] fuel url None [] = Some (sent, r) /\ (n < List.length sent)%nat.
Proof.
  intros n. set (url := u "http://a.example/"). set (N := S n).
  set (net := fun _ : list request => Some (page 302 [(u "Location", url)] [])).
  set (clock := fun i => if (i <? N)%nat then 0%Z else 20%Z).
  set (rq := mkRequest url None [(u "User-Agent", [])] (Some 20%Z)).
  assert (forall m sent now, (now + m = N)%nat ->
            curl_loop ascii_env net clock (S (S m)) [(u "User-Agent", [])] 20 None url 20 sent now =
            Some (sent ++ repeat rq (S m), Failed FHTTPError)) as L.
  { assert (forall fuel sent now, curl_loop ascii_env net clock (S fuel) [(u "User-Agent", [])] 20 None url 20 sent now =
              curl_loop ascii_env net clock fuel [(u "User-Agent", [])] 20 None url (20 - clock now) (sent ++ [rq]) (S now)) as Step.
    { intros fuel sent now. cbn [curl_loop]. 
      assert (allowedURL url = true) as -> by (vm_compute; reflexivity).
      assert (urinorm ascii_env url = Ok url) as -> by (vm_compute; reflexivity).
      cbn [Z.leb Z.compare negb]. cbv zeta. fold rq. unfold net at 1.
      assert (write_chunks [] (tr_chunks (page 302 [(u "Location", url)] [])) = Some []) as -> by reflexivity.
      assert (parseHeaders (tr_header (page 302 [(u "Location", url)] [])) = inl (Ok [(u "location", url)])) as -> by (vm_compute; reflexivity).
      reflexivity. }
    induction m as [|m IH]; intros sent now E.
    - rewrite Step. assert (clock now = 20%Z) as -> by (unfold clock; assert ((now <? N)%nat = false) as -> by lia; auto).
      reflexivity.
    - rewrite Step. assert (clock now = 0%Z) as -> by (unfold clock; assert ((now <? N)%nat = true) as -> by lia; auto).
      change (20 - 0)%Z with 20%Z. rewrite IH by lia. rewrite <- app_assoc. reflexivity. }
  exists net, clock, url, (repeat rq (S n)), (Failed FHTTPError), (S (S n)).
  split; [|split; [|rewrite repeat_length; lia]].
  - intros i. unfold clock. destruct (Nat.ltb_spec i N), (Nat.ltb_spec (S i) N); lia.
  - unfold curl_fetch. change (setdefault [] (u "User-Agent") []) with [(u "User-Agent", @nil BinNums.N)].
    assert (clock 0%nat = 0%Z) as -> by reflexivity. apply (L n [] 1%nat). reflexivity.
Qed.
Print Assumptions C130_redirects_refuted.

(** A redirect to a relative URL, which HTTP allows, is not followed. *)
Theorem C131_relative_refuted : exists net sent,
  net [mkRequest (u "http://a.example/") None [(u "User-Agent", [])] (Some 20%Z)] = Some (page 302 [(u "Location", u "/login")] []) /\
  curl_fetch ascii_env net (fun _ => 0%Z) [] 5 (u "http://a.example/") None [] = Some (sent, Failed FHTTPError) /\ List.length sent = 1%nat.
Proof.
  exists (fun _ => Some (page 302 [(u "Location", u "/login")] [])). eexists. split; [reflexivity|]. split; [vm_compute; reflexivity|reflexivity].
Qed.
Print Assumptions C131_relative_refuted.

(** ** The other fetchers *)
(** The fetchers on urllib and httplib2 make one request, for a web URL, or none; the body
    and the headers given go with it. *)
Theorem C132_libraries lib previous agent url body headers :
  (web url ->
   fst (urllib2_fetch lib agent url body headers) = [mkRequest url body (setdefault headers (u "User-Agent") agent) None] /\
   exists post, fst (httplib2_fetch lib previous url body headers) = [mkRequest url post headers None] /\
     (body <> Some [] -> post = body)) /\
  (~ web url ->
   urllib2_fetch lib agent url body headers = ([], Failed (FPython ValueError)) /\
   httplib2_fetch lib previous url body headers = ([], Failed (FPython ValueError))).
Proof.
  unfold urllib2_fetch, httplib2_fetch. fold (allowedURL url). split; intros H.
  - apply allowed_web in H. rewrite H. split; auto. exists (method_body body). split; auto.
    destruct body as [[|x b]|]; auto. intros K. destruct K. reflexivity.
  - destruct (allowedURL url) eqn:E; [apply allowed_web in E; tauto|]. auto.
Qed.
Print Assumptions C132_libraries.
(** What they return is what the library brought: for urllib the first 1024 KB of the body,
    for httplib2 with the URL at last, or the one asked for where there was no redirect. *)
Theorem C132_answers lib previous agent url body headers r :
  (snd (urllib2_fetch lib agent url body headers) = Fetched r ->
   exists rq r', fst (urllib2_fetch lib agent url body headers) = [rq] /\ lib rq = Fetched r' /\
     r_final_url r = r_final_url r' /\ r_status r = r_status r' /\ r_headers r = r_headers r' /\
     len (r_body r) <= 1048576 /\ exists rest, r_body r' = r_body r ++ rest /\ (rest <> [] -> len (r_body r) = 1048576)) /\
  (snd (httplib2_fetch lib previous url body headers) = Fetched r ->
   exists rq r', fst (httplib2_fetch lib previous url body headers) = [rq] /\ lib rq = Fetched r' /\
     r_status r = r_status r' /\ r_headers r = r_headers r' /\ r_body r = r_body r' /\
     (dget text_eqb (u "content-location") (r_headers r) = Some (r_final_url r) \/
      dget text_eqb (u "content-location") (r_headers r) = None /\ r_final_url r = url /\ previous rq = false /\ r_status r <> 200)).
Proof.
  split; intros H.
  - unfold urllib2_fetch in *. destruct (negb (allowedURL url)); [discriminate H|]. cbn [fst snd] in *.
    assert (N.of_nat (N.to_nat (MAX_RESPONSE_KB * 1024)) = 1048576) as Hn by (rewrite N2Nat.id; reflexivity).
    set (n := N.to_nat (MAX_RESPONSE_KB * 1024)) in *. clearbody n.
    set (rq := mkRequest _ _ _ _) in *. destruct (lib rq) as [r'|] eqn:E; [|discriminate H]. inv H. exists rq, r'.
    cbn [r_final_url r_status r_headers r_body]. split; auto. split; auto. split; auto. split; auto. split; auto.
    unfold len. split; [rewrite firstn_length; lia|]. exists (skipn n (r_body r')). split; [symmetry; apply firstn_skipn|].
    intros K. rewrite firstn_length. destruct (Nat.le_gt_cases (List.length (r_body r')) n) as [L|L]; [|lia].
    destruct K. apply skipn_all2. lia.
  - unfold httplib2_fetch in *. destruct (negb _); [discriminate H|]. cbn [fst snd] in *.
    set (rq := mkRequest _ _ _ _) in *. destruct (lib rq) as [r'|] eqn:E; [|discriminate H]. exists rq, r'.
    destruct (dget text_eqb (u "content-location") (r_headers r')) as [f|] eqn:C.
    + inv H. cbn [r_final_url r_status r_headers r_body]. auto 10.
    + destruct (previous rq || (r_status r' =? 200)) eqn:P; inv H. apply orb_false_iff in P as (P1 & P2).
      cbn [r_final_url r_status r_headers r_body]. do 5 (split; auto). right. repeat split; auto. lia.
Qed.
Print Assumptions C132_answers.
Example C132_example :
  let lib rq := Fetched (mkResp (u "http://b.example/") 200 [(u "content-location", u "http://c.example/")] (rq_url rq)) in
  urllib2_fetch lib (u "ua") (u "http://a.example/") (Some (u "x")) []
    = ([mkRequest (u "http://a.example/") (Some (u "x")) [(u "User-Agent", u "ua")] None],
       Fetched (mkResp (u "http://b.example/") 200 [(u "content-location", u "http://c.example/")] (u "http://a.example/"))) /\
  snd (httplib2_fetch lib (fun _ => false) (u "http://a.example/") None [])
    = Fetched (mkResp (u "http://c.example/") 200 [(u "content-location", u "http://c.example/")] (u "http://a.example/")) /\
  fst (httplib2_fetch lib (fun _ => false) (u "ftp://a.example/") None []) = [].
Proof. vm_compute. auto. Qed.
(** The fetcher on requests asks for any URL. *)
Theorem C133_requests_scheme_refuted : exists lib url rq,
  fst (requests_fetch lib url None []) = [rq] /\ rq_url rq = url /\ url = u "file:///etc/passwd" /\ ~ web url.
Proof.
  exists (fun _ => Failed FLibrary), (u "file:///etc/passwd"). eexists. split; [reflexivity|]. split; [reflexivity|]. split; [reflexivity|].
  intros H. apply allowed_web in H. vm_compute in H. discriminate H.
Qed.
Print Assumptions C133_requests_scheme_refuted.
(** An empty body is sent with POST by Curl and urllib, with GET by the others. *)
Theorem C134_empty_body_refuted : exists net lib previous url sent r,
  curl_fetch ascii_env net (fun _ => 0%Z) [] 1 url (Some []) [] = Some (sent, r) /\ map rq_post sent = [Some []] /\
  map rq_post (fst (urllib2_fetch lib [] url (Some []) [])) = [Some []] /\
  map rq_post (fst (httplib2_fetch lib previous url (Some []) [])) = [None] /\
  map rq_post (fst (requests_fetch lib url (Some []) [])) = [None].
Proof.
  exists (fun _ => Some (page 200 [] [])), (fun _ => Failed FLibrary), (fun _ => false), (u "http://a.example/"). do 2 eexists.
  split; [vm_compute; reflexivity|]. vm_compute. auto.
Qed.
Print Assumptions C134_empty_body_refuted.
(** The fetcher on urllib keeps the names of headers as the server wrote them, and discovery
    looks for them in lower case. *)
Theorem C135_header_names_refuted : exists lib r loc,
  snd (urllib2_fetch lib [] (u "http://a.example/") None []) = Fetched r /\
  In (u "X-XRDS-Location", loc) (r_headers r) /\ dget text_eqb YADIS_HEADER_NAME_lower (r_headers r) = None.
Proof.
  exists (fun _ => Fetched (mkResp (u "http://a.example/") 200 [(u "X-XRDS-Location", u "http://a.example/xrds")] [])).
  do 2 eexists. split; [vm_compute; reflexivity|]. split; [left; reflexivity|]. vm_compute. reflexivity.
Qed.
Print Assumptions C135_header_names_refuted.

(** ** The default fetcher *)
(** The first library that is there in the order requests, pycurl, httplib2, urllib. *)
Theorem C136_preference i :
  exists k, createHTTPFetcher i = Plain k /\
    (k = KRequests <-> has_requests i = true) /\
    (k = KCurl <-> has_requests i = false /\ has_pycurl i = true) /\
    (k = KHTTPLib2 <-> has_requests i = false /\ has_pycurl i = false /\ has_httplib2 i = true) /\
    (k = KUrllib2 <-> has_requests i = false /\ has_pycurl i = false /\ has_httplib2 i = false).
Proof.
  destruct i as [[] [] []]; eexists; (split; [reflexivity|]); repeat split; intros; repeat match goal with H : _ /\ _ |- _ => destruct H end; auto; discriminate.
Qed.
Print Assumptions C136_preference.
(** Any sequence of settings and uses of the default fetcher. *)
Inductive call := CSet (f : option fetcher) (wrap : bool) | CGet.
Definition step (i : imports) (s : option fetcher) (c : call) : option fetcher :=
  match c with CSet f w => setDefaultFetcher f w | CGet => snd (getDefaultFetcher i s) end.
(** The last setting decides; after None, or with none, the default one is made, wrapped. *)
Definition last_set (calls : list call) : option fetcher * bool :=
  fold_left (fun a c => match c with CSet f w => (f, w) | CGet => a end) calls (None, true).
Definition in_use (i : imports) (calls : list call) : fetcher :=
  match last_set calls with
  | (None, _) => Wrapped (createHTTPFetcher i)
  | (Some f, true) => Wrapped f
  | (Some f, false) => f
  end.
Theorem C136_default i calls :
  fst (getDefaultFetcher i (fold_left (step i) calls None)) = Some (in_use i calls) /\
  forall plain, (forall f, last_set calls <> (Some f, false)) ->
    match fetch_with plain (in_use i calls) with
    | Failed (FFetchingError _) | Fetched _ => True
    | _ => False
    end.
Proof.
  assert (forall s a, fst (getDefaultFetcher i s) = Some match a with (None, _) => Wrapped (createHTTPFetcher i) | (Some f, true) => Wrapped f | (Some f, false) => f end ->
            fst (getDefaultFetcher i (fold_left (step i) calls s)) =
            Some match fold_left (fun a c => match c with CSet f w => (f, w) | CGet => a end) calls a with
                 | (None, _) => Wrapped (createHTTPFetcher i) | (Some f, true) => Wrapped f | (Some f, false) => f end) as G.
  { induction calls as [|c calls IH]; intros s a H; auto. simpl. apply IH. destruct c as [f w|].
    - destruct f as [f|], w; reflexivity.
    - simpl. rewrite <- H. destruct s; reflexivity. }
  split; [apply (G None (None, true)); reflexivity|].
  intros plain H. unfold in_use. destruct (last_set calls) as [[f|] [|]] eqn:E; try (exfalso; eapply H; reflexivity); simpl.
  - destruct (fetch_with plain f); auto.
  - destruct (fetch_with plain _); auto.
  - destruct (fetch_with plain _); auto.
Qed.
Print Assumptions C136_default.
(** [usingCurl] says whether the fetcher in use is the Curl one. *)
Theorem C136_using_curl i calls :
  usingCurl i (fold_left (step i) calls None) = true <->
  in_use i calls = Plain KCurl \/ in_use i calls = Wrapped (Plain KCurl).
Proof.
  unfold usingCurl. destruct (C136_default i calls) as (-> & _).
  destruct (in_use i calls) as [[]|[[]|]]; split; intros H; auto; try discriminate H; destruct H as [H|H]; discriminate H.
Qed.
Print Assumptions C136_using_curl.
Example C136_example :
  let i := mkImports false true true in
  in_use i [] = Wrapped (Plain KCurl) /\ usingCurl i None = true /\
  in_use i [CSet (Some (Plain KOther)) false; CGet] = Plain KOther /\
  in_use i [CSet (Some (Plain KOther)) false; CSet None false] = Wrapped (Plain KCurl) /\
  fetch_with (fun _ => Failed (FPython ValueError)) (in_use i []) = Failed (FFetchingError (FPython ValueError)).
Proof. vm_compute. auto. Qed.
