(** C188: which URIs urinorm accepts. *)
From Coq Require Import Lia ZifyBool ZifyN ZifyNat.
From Verif Require Import Py PyFacts Utf8 Utf8Facts UrlLib UrlLibFacts UriNorm UriNormFacts UriNormStable Prop_Uri TrustRootFacts.
Local Arguments u : simpl never.

(** ** Specification *)
(** A Unicode character: not half of a surrogate pair. *)
Definition sayable (c : N) : Prop := c < 55296 \/ 57343 < c /\ c < 1114112.
(** A character of a URI (RFC 3986, section 2), or the percent sign. *)
Definition uri_char (c : N) : Prop :=
  48 <= c <= 57 \/ 65 <= c <= 90 \/ 97 <= c <= 122 \/ In c (u "-._~" ++ u ":/?#[]@" ++ u "!$&'()*+,;=" ++ u "%").
(** A domain name: labels of 1 to 63 characters, each followed by a dot, and a last one that may be empty. *)
Definition dns_name (h : text) : Prop :=
  exists labels last, h = List.concat (map (fun l => l ++ u ".") labels) ++ last /\
    Forall (fun l => ~ In 46 l /\ 1 <= len l <= 63) labels /\ ~ In 46 last /\ len last <= 63.
(** The value of a decimal number. *)
Definition value (s : text) : N := fold_left (fun n c => 10 * n + (c - 48)) s 0.
Record acceptable (e : uenv) (s : split_result) : Prop := {
  acc_scheme : lower (sp_scheme s) = u "http" \/ lower (sp_scheme s) = u "https";
  acc_netloc : sp_netloc s <> [];
  (** The host, with escapes decoded, is a domain name, or one that the codec can encode. *)
  acc_host : forall h, h = unquote (lower (match hostname_of (sp_netloc s) with Some h => h | None => [] end)) ->
    (Forall (fun c => c < 128) h -> dns_name h /\ Forall uri_char h) /\
    (~ Forall (fun c => c < 128) h -> exists h', ue_idna e h = Some h' /\ Forall uri_char h');
  acc_port : forall p, snd (hostinfo_of (sp_netloc s)) = Some p -> Forall (fun c => 48 <= c <= 57) p /\ value p <= 65535;
  acc_user : forall user rest, rcut 64 (sp_netloc s) = Some (user, rest) -> Forall uri_char user;
  acc_path : Forall sayable (sp_path s);
  (** Arguments without a value are dropped from the query, whatever their name is. *)
  acc_query : forall arg, In arg (splitc 38 (sp_query s)) ->
    Forall sayable arg \/ ~ In 61 arg \/ exists name, arg = name ++ u "=" /\ ~ In 61 name;
  acc_fragment : Forall uri_char (unquote (sp_fragment s)) }.

(** ** Characters *)
Lemma uri_char_iff c : allowed_char c = true <-> uri_char c.
Proof.
  unfold allowed_char, uri_char, GEN_DELIMS, SUB_DELIMS, isalphac, isdigitc. rewrite !orb_true_iff, !memc_In, !in_app_iff, N.eqb_eq.
  change (u "%") with [37]. cbn [In]. rewrite !andb_true_iff, !N.leb_le. intuition.
Qed.
Lemma uri_chars s : forallb allowed_char s = true <-> Forall uri_char s.
Proof. rewrite forallb_forall, Forall_forall. split; intros H c I; apply uri_char_iff; auto. Qed.
Lemma check_iff s : check_disallowed_characters s = Ok tt <-> Forall uri_char s.
Proof. rewrite check_Ok_iff, uri_chars. intuition. Qed.
Lemma isascii_iff s : isascii s = true <-> Forall (fun c => c < 128) s.
Proof. unfold isascii. rewrite forallb_forall, Forall_forall. split; intros H c I; specialize (H c I); lia. Qed.

(** ** Encoding *)
Lemma enc1_sayable c : (exists b, enc1 c = Some b) <-> sayable c.
Proof.
  unfold enc1, sayable. destruct (c <? 128) eqn:E1; [split; [lia|eauto]|]. destruct (c <? 2048) eqn:E2; [split; [lia|eauto]|].
  destruct (c <? 65536) eqn:E3.
  - destruct ((55296 <=? c) && (c <=? 57343)) eqn:E4; (split; [intros (b & H); try discriminate; lia|]); intros H; eauto. lia.
  - destruct (c <? 1114112) eqn:E4; (split; [intros (b & H); try discriminate; lia|]); intros H; eauto. lia.
Qed.
Lemma encode_iff s : (exists b, encode s = Ok b) <-> Forall sayable s.
Proof.
  induction s as [|c s IH]; cbn [encode].
  - split; eauto.
  - split.
    + intros (b & H). destruct (enc1 c) as [x|] eqn:E; [|discriminate]. binv H. constructor; [apply enc1_sayable; eauto|]. apply IH. eauto.
    + intros H. inversion H as [|? ? Hc Hs]; subst. apply enc1_sayable in Hc as (x & ->). apply IH in Hs as (b & ->). cbn [bind]. eauto.
Qed.
Lemma decode_replace_sayable : forall n b, (List.length b <= n)%nat -> Forall sayable (decode_replace b).
Proof.
  assert (sayable REPL) as R by (unfold sayable, REPL; lia).
  induction n as [|n IH]; intros b L; [destruct b; [constructor|cbn in L; lia]|]. destruct b as [|a r]; cbn [decode_replace]; [constructor|]. cbn [List.length] in L.
  destruct (a <? 128) eqn:E1; [constructor; [unfold sayable; lia|apply IH; lia]|].
  destruct (a <? 194) eqn:E2; [constructor; [auto|apply IH; lia]|].
  destruct (a <? 224) eqn:E3.
  { destruct r as [|b r1]; [constructor; auto|]. cbn [List.length] in L. destruct (cont b) eqn:C; unfold cont in C; constructor; auto; try (apply IH; cbn [List.length]; lia). unfold sayable. lia. }
  destruct (a <? 240) eqn:E4.
  { destruct r as [|b r1]; [constructor; auto|]. cbn [List.length] in L. destruct (negb (cont b) || _) eqn:C; [constructor; auto; apply IH; cbn [List.length]; lia|].
    apply orb_false_iff in C as (C1 & C2). apply negb_false_iff in C1. unfold cont in C1.
    destruct r1 as [|c r2]; [constructor; auto|]. cbn [List.length] in L. destruct (cont c) eqn:C; unfold cont in C; constructor; auto; try (apply IH; cbn [List.length]; lia).
    unfold sayable. destruct (b <? 160) eqn:C3; lia. }
  destruct (a <? 245) eqn:E5; [|constructor; auto; apply IH; lia].
  destruct r as [|b r1]; [constructor; auto|]. cbn [List.length] in L. destruct (negb (cont b) || _) eqn:C; [constructor; auto; apply IH; cbn [List.length]; lia|].
  apply orb_false_iff in C as (C1 & C2). apply negb_false_iff in C1. unfold cont in C1.
  destruct r1 as [|c r2]; [constructor; auto|]. cbn [List.length] in L. destruct (cont c) eqn:C; unfold cont in C; [|constructor; auto; apply IH; cbn [List.length]; lia].
  destruct r2 as [|d r3]; [constructor; auto|]. cbn [List.length] in L. destruct (cont d) eqn:D; unfold cont in D; constructor; auto; try (apply IH; cbn [List.length]; lia).
  unfold sayable. destruct (b <? 144) eqn:C3; lia.
Qed.
Lemma runs_sayable s : forall acc, Forall sayable (unquote_runs acc s) <-> Forall sayable s.
Proof.
  induction s as [|c s IH]; intros acc; cbn [unquote_runs].
  - split; [constructor|]. intros _. eapply decode_replace_sayable; eauto.
  - destruct (c <? 128) eqn:E.
    + rewrite IH. split; [intros H; constructor; auto; unfold sayable; lia|intros H; inversion H; auto].
    + rewrite Forall_app. split.
      * intros (_ & H). inversion H as [|? ? Hc Hs]; subst. constructor; auto. apply (IH []). auto.
      * intros H. inversion H as [|? ? Hc Hs]; subst. split; [eapply decode_replace_sayable; eauto|]. constructor; auto. apply IH. auto.
Qed.
Lemma unquote_sayable s : Forall sayable (unquote s) <-> Forall sayable s.
Proof. unfold unquote. destruct (memc 37 s); [apply runs_sayable|tauto]. Qed.
Lemma unquote_plus_sayable s : Forall sayable (unquote_plus s) <-> Forall sayable s.
Proof.
  unfold unquote_plus. rewrite unquote_sayable. unfold replace_char. rewrite Forall_map, !Forall_forall.
  split; intros H c I; specialize (H c I); destruct (c =? 43) eqn:E; auto; unfold sayable; lia.
Qed.

(** ** The parts *)
Lemma dns_iff h : (match rev (splitc 46 h) with last :: front => forallb label_ok front && (len last <? 64) = true | [] => False end) <-> dns_name h.
Proof.
  assert (forall labels last, Forall (fun l => ~ In 46 l) labels -> ~ In 46 last -> splitc 46 (List.concat (map (fun l => l ++ u ".") labels) ++ last) = labels ++ [last]) as S.
  { intros labels last Hl Hn. induction Hl as [|l labels Hl' Hl IH]; cbn [map List.concat app]; [apply splitc_nin; auto|].
    rewrite <- !app_assoc. change (u ".") with [46] at 1. cbn [app]. rewrite splitc_app by auto. rewrite IH. auto. }
  split.
  - pose proof (join_splitc 46 h) as J. pose proof (splitc_pieces 46 h) as P. destruct (rev (splitc 46 h)) as [|last front] eqn:R; [contradiction|].
    apply (f_equal (@rev text)) in R. rewrite rev_involutive in R. cbn [rev] in R. rewrite R in J, P. intros H. rewrite andb_true_iff in H. destruct H as (H & L).
    apply Forall_app in P as (P & Pl). inversion Pl as [|? ? Pl' _]; subst. exists (rev front), last. split; [|split; [|split; [auto|lia]]].
    + rewrite <- (join_splitc 46 (join [46] (rev front ++ [last]))). rewrite <- (join_splitc 46 (List.concat _ ++ _)). f_equal.
      rewrite S by auto. apply splitc_join; [destruct (rev front); discriminate|]. apply Forall_app. auto.
    + rewrite Forall_forall in *. intros l I. split; auto. rewrite forallb_forall in H. apply in_rev in I. apply H in I. unfold label_ok, truthy in I. destruct l; [discriminate|]. cbn [List.length]. unfold len in *. cbn [List.length] in *. lia.
  - intros (labels & last & -> & F & N & L). rewrite S; auto.
    + rewrite rev_app_distr. cbn [rev app]. rewrite andb_true_iff. split; [|lia]. rewrite forallb_forall. intros l I. apply in_rev in I. rewrite Forall_forall in F. destruct (F l I) as (_ & B).
      unfold label_ok, truthy. destruct l; [unfold len in B; cbn in B; lia|]. cbn [andb]. lia.
    + rewrite Forall_forall in *. intros l I. apply F. auto.
Qed.
Lemma dns_nil : dns_name [].
Proof. exists [], []. repeat split; auto. unfold len. cbn. lia. Qed.
Lemma host_iff e netloc : (exists h, norm_host e netloc = Ok h) <->
  forall h, h = unquote (lower (match hostname_of netloc with Some h => h | None => [] end)) ->
    (Forall (fun c => c < 128) h -> dns_name h /\ Forall uri_char h) /\
    (~ Forall (fun c => c < 128) h -> exists h', ue_idna e h = Some h' /\ Forall uri_char h').
Proof.
  unfold norm_host. replace (match hostname_of netloc with Some h => lower h | None => [] end) with (lower (match hostname_of netloc with Some h => h | None => [] end)) by (destruct (hostname_of netloc); auto).
  set (h := unquote _). clearbody h. unfold idna. split.
  - intros (r & H) h' ->. binv H. binv H. injection H as ->. rewrite check_Ok_iff, uri_chars in E0. destruct E0 as (E0 & _).
    destruct (truthy h) eqn:T.
    + destruct (isascii h) eqn:A.
      * pose proof (proj1 (isascii_iff h) A) as A'. split; [intros _|contradiction]. rewrite <- dns_iff. destruct (rev (splitc 46 h)) as [|last front] eqn:R.
        { apply (f_equal (@rev text)) in R. rewrite rev_involutive in R. apply splitc_nonempty in R. contradiction. }
        destruct (_ && _); [|discriminate]. injection E as <-. auto.
      * split; [intros A'; apply isascii_iff in A'; congruence|]. intros _. destruct (ue_idna e h) as [t|]; [|discriminate]. injection E as <-. eauto.
    + destruct h; [|discriminate]. split; [intros _; split; [apply dns_nil|auto]|]. intros N. destruct N. constructor.
  - intros H. destruct (H h eq_refl) as (H1 & H2). destruct (truthy h) eqn:T.
    + destruct (isascii h) eqn:A.
      * apply isascii_iff in A. destruct (H1 A) as (D & F). apply dns_iff in D. destruct (rev (splitc 46 h)) as [|last front]; [contradiction|]. rewrite D. cbn [bind].
        exists h. rewrite (proj2 (check_iff h)) by auto. auto.
      * assert (~ Forall (fun c => c < 128) h) as A' by (intros X; apply isascii_iff in X; congruence). destruct (H2 A') as (t & -> & F). cbn [bind]. exists t. rewrite (proj2 (check_iff t)) by auto. auto.
    + exists []. reflexivity.
Qed.
Lemma digit_cases c : 48 <= c <= 57 -> c = 48 \/ c = 49 \/ c = 50 \/ c = 51 \/ c = 52 \/ c = 53 \/ c = 54 \/ c = 55 \/ c = 56 \/ c = 57.
Proof. lia. Qed.
Definition value_from (n : N) (s : text) : N := fold_left (fun n c => 10 * n + (c - 48)) s n.
Lemma digits_value s : s <> [] -> Forall (fun c => 48 <= c <= 57) s ->
  exists d, digits s = Some d /\ N.of_uint d = value_from 0 s /\ forall p, N.pos (Pos.of_uint_acc d p) = value_from (N.pos p) s.
Proof.
  induction s as [|c s IH]; [contradiction|]. intros _ F. inversion F as [|? ? Hc Hs]; subst.
  assert (exists d, match s with [] => True | c' :: _ => (c' =? 95) = false /\ digits s = Some d end /\ N.of_uint d = value_from 0 s /\
    (forall p, N.pos (Pos.of_uint_acc d p) = value_from (N.pos p) s) /\ digits (c :: s) = match digit_of c with Some D => Some (D d) | None => None end) as (d & _ & V0 & V & Ed).
  { destruct s as [|c' s].
    - exists Decimal.Nil. repeat split; auto.
    - destruct (IH ltac:(discriminate) Hs) as (d & E & V0 & V). assert ((c' =? 95) = false) as E95 by (inversion Hs; lia). exists d. split; auto. split; auto. split; auto.
      change (digits (c :: c' :: s)) with (match digit_of c with None => None | Some D => if c' =? 95 then match digits s with Some d => Some (D d) | None => None end else match digits (c' :: s) with Some d => Some (D d) | None => None end end).
      rewrite E95, E. auto. }
  rewrite Ed. clear Ed IH F.
  apply digit_cases in Hc. unfold value_from in *. cbn [fold_left].
  repeat (destruct Hc as [->|Hc]; [cbn [digit_of]; eexists; split; [reflexivity|]; split; [|intros p; cbn [Pos.of_uint_acc]; rewrite V; f_equal; lia];
    try (exact V0); cbn [N.of_uint Pos.of_uint]; rewrite V; reflexivity|]).
  subst. cbn [digit_of]; eexists; split; [reflexivity|]; split; [|intros p; cbn [Pos.of_uint_acc]; rewrite V; f_equal; lia]. cbn [N.of_uint Pos.of_uint]; rewrite V; reflexivity.
Qed.
Lemma hostinfo_port netloc p : snd (hostinfo_of netloc) = Some p -> p <> [].
Proof.
  unfold hostinfo_of. destruct (match cut 91 _ with Some _ => _ | None => _ end) as (h & port). cbn [snd]. destruct port; cbn [truthy]; [discriminate|]. intros H. inv H. discriminate.
Qed.
Lemma port_iff scheme netloc : (exists p, norm_port scheme netloc = Ok p) <->
  forall p, snd (hostinfo_of netloc) = Some p -> Forall (fun c => 48 <= c <= 57) p /\ value p <= 65535.
Proof.
  unfold norm_port, port_of. pose proof (hostinfo_port netloc) as Ne. destruct (snd (hostinfo_of netloc)) as [p|]; [|cbn [bind]; split; [discriminate|eauto]]. specialize (Ne p eq_refl).
  assert (forallb isdigitc p = true <-> Forall (fun c => 48 <= c <= 57) p) as D. { rewrite forallb_forall, Forall_forall. unfold isdigitc. split; intros H c I; specialize (H c I); lia. }
  destruct (forallb isdigitc p) eqn:E.
  - pose proof (proj1 D eq_refl) as F. destruct (digits_value p Ne F) as (d & Ed & V & _). rewrite (int_of_digits p d) by auto. cbn [bind]. rewrite V. unfold value_from.
    split.
    + intros (r & H) p' X. injection X as <-. split; auto. unfold value. match type of H with context [(?a <=? ?b)%Z] => destruct (a <=? b)%Z eqn:L end; [lia|discriminate].
    + intros H. destruct (H p eq_refl) as (_ & L). unfold value in L. match goal with |- context [(?a <=? ?b)%Z] => replace (a <=? b)%Z with true by lia end. cbn [bind]. eauto.
  - cbn [bind]. split; [intros (r & H); discriminate|]. intros H. destruct (H p eq_refl) as (X & _). apply D in X. discriminate.
Qed.
Lemma safe_uri c : always_safe c = true -> uri_char c.
Proof.
  unfold always_safe, isalphac, isdigitc, uri_char. rewrite !orb_true_iff, !andb_true_iff, !N.leb_le, !N.eqb_eq.
  intros [[[[[[X|X]|X]|X]|X]|X]|X]; auto; right; right; right; subst; apply memc_In; reflexivity.
Qed.
Lemma path_iff p : (exists r, norm_path p = Ok r) <-> Forall sayable p.
Proof.
  unfold norm_path. fold path_safe. unfold quote. rewrite <- unquote_sayable, <- encode_iff. split.
  - intros (r & H). destruct (encode (unquote p)) as [b|]; [eauto|discriminate].
  - intros (b & E). pose proof (rds_canon (quote_from_bytes path_safe b)) as C. rewrite E. cbn [bind]. destruct (rds_total (quote_from_bytes path_safe b)) as (r & Er & _). rewrite Er. cbn [bind].
    destruct (C r) as (t & Ht); auto. { exists (unquote p). unfold quote. rewrite E. auto. }
    exists (if truthy r then r else [47]). rewrite (proj2 (check_iff _)); auto. destruct (truthy r); [|constructor; [|constructor]; right; right; right; apply memc_In; reflexivity].
    apply Forall_forall. intros c I. destruct (quote_chars _ _ _ _ Ht I) as [X|[X| ->]].
    + apply safe_uri. auto.
    + unfold path_safe, SUB_DELIMS in X. right. right. right. destruct X as [<-|X]; [apply memc_In; reflexivity|]. rewrite !in_app_iff. auto.
    + right. right. right. apply memc_In. reflexivity.
Qed.
Lemma urlencode_iff d : (exists q, urlencode d = Ok q) <-> Forall (fun kv => Forall sayable (fst kv) /\ Forall sayable (snd kv)) d.
Proof.
  split.
  - intros (q & H). apply urlencode_Ok in H as (db & F & _). induction F as [|kv b d db (A & B) F IH]; constructor; auto. split; apply encode_iff; eauto.
  - intros F. unfold urlencode. assert (exists l, mapM (fun kv => k <- quote_plus (fst kv) ;; v <- quote_plus (snd kv) ;; Ok (k ++ 61 :: v)) d = Ok l) as (l & ->); [|cbn [bind]; eauto].
    induction F as [|[k v] d (A & B) F IH]; cbn [mapM]; [eauto|]. cbn [fst snd] in *. apply encode_iff in A as (a & Ea). apply encode_iff in B as (b & Eb). unfold quote_plus. rewrite Ea, Eb. cbn [bind].
    destruct IH as (l & E). unfold quote_plus in E. rewrite E. cbn [bind]. eauto.
Qed.
Lemma In_join c sep l : In c (join sep l) -> In c sep \/ exists x, In x l /\ In c x.
Proof.
  induction l as [|x l IH]; cbn [join]; [contradiction|]. destruct l as [|y l]; [intros I; right; exists x; cbn; auto|].
  rewrite !in_app_iff. intros [I|[I|I]]; auto; [right; exists x; cbn; auto|]. destruct (IH I) as [J|(z & J1 & J2)]; auto. right. exists z. split; [right; auto|auto].
Qed.
Lemma urlencode_chars d q : urlencode d = Ok q -> Forall uri_char q.
Proof.
  intros H. apply urlencode_Ok in H as (db & F & ->). apply Forall_forall. intros c I. apply In_join in I as [[<-|[]]|(x & I & J)]; [right; right; right; apply memc_In; reflexivity|].
  apply in_map_iff in I as ((k & v) & <- & I). assert (is_bytes k /\ is_bytes v) as (Bk & Bv).
  { clear - F I. induction F as [|kv b d db (A & B) F IH]; [contradiction|]. destruct I as [->|I]; auto. cbn in *. split; eapply encode_bytes; eauto. }
  assert (forall b, is_bytes b -> In c (quote_plus_bytes b) -> uri_char c) as X.
  { intros b Bb Ib. destruct (quote_plus_chars b c Bb Ib) as [X|[->| ->]]; [apply safe_uri; auto| |]; right; right; right; apply memc_In; reflexivity. }
  unfold enc_pair in J. cbn [fst snd] in J. apply in_app_iff in J as [J|[<-|J]]; [apply (X k); auto| |apply (X v); auto]. right; right; right; apply memc_In; reflexivity.
Qed.
Lemma sayable_cut c a b : sayable c -> Forall sayable (a ++ c :: b) <-> Forall sayable a /\ Forall sayable b.
Proof. intros S. rewrite Forall_app. split; [intros (A & B); inversion B; auto|intros (A & B); split; auto]. Qed.
Lemma arg_iff arg : Forall (fun kv => Forall sayable (fst kv) /\ Forall sayable (snd kv)) (parse_qsl1 false arg) <->
  Forall sayable arg \/ ~ In 61 arg \/ exists name, arg = name ++ u "=" /\ ~ In 61 name.
Proof.
  assert (sayable 61) as S61 by (unfold sayable; lia). unfold parse_qsl1. destruct (truthy arg) eqn:T; [|destruct arg; [|discriminate]; split; [auto|constructor]].
  destruct (partition 61 arg) as (name & v) eqn:P. apply partition_spec in P as (N & [->|(-> & ->)]).
  - destruct v as [|x v]; cbn [truthy orb].
    + split; [|constructor]. intros _. right. right. exists name. auto.
    + split.
      * intros H. inversion H as [|? ? (A & B) _]; subst. cbn [fst snd] in *. rewrite unquote_plus_sayable in A, B. left. apply sayable_cut; auto.
      * intros [H|[H|(n & H & Nn)]].
        { apply sayable_cut in H as (A & B); auto. constructor; [|constructor]. cbn [fst snd]. rewrite !unquote_plus_sayable. auto. }
        { destruct H. apply in_or_app. right. left. auto. }
        { exfalso. apply (f_equal (partition 61)) in H. rewrite partition_app in H by auto. change (u "=") with [61] in H. rewrite partition_app in H by auto. discriminate. }
  - cbn [truthy orb]. split; [auto|constructor].
Qed.
Lemma query_iff q : (exists r, norm_query q = Ok r) <->
  forall arg, In arg (splitc 38 q) -> Forall sayable arg \/ ~ In 61 arg \/ exists name, arg = name ++ u "=" /\ ~ In 61 name.
Proof.
  assert ((exists r, norm_query q = Ok r) <-> (exists x, urlencode (parse_qsl false q) = Ok x)) as ->.
  { unfold norm_query. split; [intros (r & H); binv H; eauto|]. intros (x & H). rewrite H. cbn [bind]. rewrite (proj2 (check_iff x)) by (eapply urlencode_chars; eauto). cbn [bind]. eauto. }
  rewrite urlencode_iff, parse_qsl_flat. split.
  - intros H arg I. apply arg_iff. rewrite Forall_forall in *. intros kv J. apply H, in_flat_map. eauto.
  - intros H. rewrite Forall_forall. intros kv J. apply in_flat_map in J as (arg & I & J). apply H, arg_iff in I. rewrite Forall_forall in I. auto.
Qed.

(** C188: urinorm accepts exactly the acceptable URIs. *)
Theorem C188_accepts : forall e uri, (exists r, urinorm e uri = Ok r) <-> exists s, urlsplit e uri = Ok s /\ acceptable e s.
Proof.
  intros e uri. unfold urinorm. destruct (urlsplit e uri) as [s|x]; cbn [bind]; [|split; [intros (r & H)|intros (s & H & _)]; discriminate].
  assert (mem_text (lower (sp_scheme s)) [u "http"; u "https"] = true <-> lower (sp_scheme s) = u "http" \/ lower (sp_scheme s) = u "https") as Sc.
  { unfold mem_text. cbn [existsb]. rewrite !orb_true_iff, !text_eqb_eq. intuition. discriminate. }
  split.
  - intros (r & H). exists s. split; auto. destruct (mem_text _ _); [|discriminate]. destruct (truthy (sp_netloc s)) eqn:T; [|discriminate]. cbn [negb] in H.
    binv H. binv H. binv H. binv H. clear H. apply norm_netloc_eq in E as (h & p & Hh & Hp & Hu & _). constructor.
    + apply Sc. auto.
    + intros X. rewrite X in T. discriminate.
    + apply (host_iff e (sp_netloc s)). eauto.
    + apply (port_iff (lower (sp_scheme s)) (sp_netloc s)). eauto.
    + intros user rest R. apply uri_chars, Hu. rewrite user_text_eq, R. auto.
    + apply path_iff. eauto.
    + apply query_iff. eauto.
    + unfold norm_fragment in E2. binv E2. apply check_Ok_iff in E as (E & _). apply uri_chars. auto.
  - intros (s' & Es & A). injection Es as <-. destruct A as [A1 A2 A3 A4 A5 A6 A7 A8]. apply Sc in A1. rewrite A1. cbn [negb].
    assert (truthy (sp_netloc s) = true) as ->. { destruct (sp_netloc s); [contradiction|auto]. } cbn [negb].
    apply host_iff in A3 as (h & Hh). apply (port_iff (lower (sp_scheme s))) in A4 as (p & Hp).
    assert (norm_netloc e (lower (sp_scheme s)) (sp_netloc s) = Ok (with_user (user_text (sp_netloc s)) (host_port h p))) as ->.
    { apply norm_netloc_eq. exists h, p. split; auto. split; auto. split; auto. intros t Ht. rewrite user_text_eq in Ht. destruct (rcut 64 (sp_netloc s)) as [(user & rest)|] eqn:R; [|discriminate].
      injection Ht as <-. apply uri_chars. eauto. }
    apply path_iff in A6 as (pa & ->). apply query_iff in A7 as (q & ->). cbn [bind]. unfold norm_fragment. rewrite (proj2 (check_iff _)) by auto. cbn [bind]. eauto.
Qed.
Print Assumptions C188_accepts.

(** C188: and refuses the others with a ValueError, as its documentation says. *)
Theorem C188_refuses : forall e uri x, urinorm e uri = Raise x -> x = ValueError \/ x = UnicodeEncodeError.
Proof.
  intros e uri x H. unfold urinorm in H. destruct (urlsplit e uri) as [s|] eqn:E; cbn [bind] in H; [|apply urlsplit_err in E; inv H; auto].
  destruct (negb _); [inv H; auto|]. destruct (negb _); [inv H; auto|].
  destruct (norm_netloc _ _ _) eqn:E1; cbn [bind] in H; [|apply norm_netloc_err in E1; inv H; auto].
  destruct (norm_path _) eqn:E2; cbn [bind] in H.
  2:{ unfold norm_path, quote in E2. inv H. destruct (encode _) eqn:E3; cbn [bind] in E2; [|apply encode_Raise in E3; inv E2; auto].
      destruct (rds_total (quote_from_bytes (47 :: SUB_DELIMS) a0)) as (r & Er & _). rewrite Er in E2. cbn [bind] in E2.
      match type of E2 with bind (check_disallowed_characters ?t) _ = _ => destruct (check_disallowed_characters t) eqn:E4 end; cbn [bind] in E2; [discriminate|]. apply check_err in E4. inv E2. auto. }
  destruct (norm_query _) eqn:E3; cbn [bind] in H.
  2:{ unfold norm_query in E3. inv H. destruct (urlencode _) eqn:E4; cbn [bind] in E3; [|apply urlencode_err in E4; inv E3; auto].
      match type of E3 with bind (check_disallowed_characters ?t) _ = _ => destruct (check_disallowed_characters t) eqn:E5 end; cbn [bind] in E3; [discriminate|]. apply check_err in E5. inv E3. auto. }
  unfold norm_fragment in H.
  match type of H with context [check_disallowed_characters ?t] => destruct (check_disallowed_characters t) eqn:E4 end; cbn [bind] in H; [discriminate|]. apply check_err in E4. inv H. auto.
Qed.
Print Assumptions C188_refuses.
Definition label63 : text := repeat 97 63.
Example C188_example :
  urinorm plain_env (u "http://" ++ label63 ++ u ".example/") = Ok (u "http://" ++ label63 ++ u ".example/") /\
  urinorm plain_env (u "http://" ++ (97 :: label63) ++ u ".example/") = Raise ValueError /\
  urinorm plain_env (u "http://a." ++ (97 :: label63) ++ u "/") = Raise ValueError /\
  urinorm plain_env (u "http://a..b/") = Raise ValueError /\ urinorm plain_env (u "http://a.b./") = Ok (u "http://a.b./") /\
  urinorm plain_env (u "http://a:65535/") = Ok (u "http://a:65535/") /\ urinorm plain_env (u "http://a:65536/") = Raise ValueError /\
  urinorm plain_env (u "http://a/" ++ [55296]) = Raise UnicodeEncodeError /\
  urinorm plain_env (u "http://a/?" ++ [55296] ++ u "=&b=1") = Ok (u "http://a/?b=1") /\
  urinorm plain_env (u "ftp://a/") = Raise ValueError /\ urinorm plain_env (u "http://a/#%20") = Raise ValueError.
Proof. vm_compute. repeat split. Qed.
