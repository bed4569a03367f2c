(** Lemmas about [UriNorm]: the normal form and its stability. *)
From Coq Require Import Lia ZifyBool ZifyN ZifyNat.
From Verif Require Import Py PyFacts Utf8 Utf8Facts UrlLib UrlLibFacts UriNorm UriNormFacts.
Local Arguments u : simpl never.
Local Ltac Zify.zify_post_hook ::= Z.div_mod_to_equations.

(** ** Paths *)
Definition path_safe : text := 47 :: SUB_DELIMS.
Lemma path_safe_ok : safe_ok path_safe.
Proof. split; [reflexivity|]. apply memc_false. reflexivity. Qed.
Definition canon (r : text) : Prop := exists t, quote path_safe t = Ok r.
Lemma quote_app safe a b qa qb : quote safe a = Ok qa -> quote safe b = Ok qb -> quote safe (a ++ b) = Ok (qa ++ qb).
Proof.
  unfold quote. intros H1 H2. binv H1. inv H1. binv H2. inv H2. rewrite encode_app, E, E0. cbn [bind].
  unfold quote_from_bytes. rewrite map_app, concat_app. auto.
Qed.
Lemma canon_app a b : canon a -> canon b -> canon (a ++ b).
Proof. intros (t1 & H1) (t2 & H2). exists (t1 ++ t2). apply quote_app; auto. Qed.
Lemma canon_nil : canon []. Proof. exists []. reflexivity. Qed.
Lemma canon_slash : canon [47]. Proof. exists [47]. reflexivity. Qed.
Lemma canon_fix r : canon r -> quote path_safe (unquote r) = Ok r.
Proof. intros (t & H). rewrite (unquote_quote path_safe t r path_safe_ok H). auto. Qed.

Lemma quote_byte_slash b : b < 256 -> In 47 (quote_byte path_safe b) -> b = 47.
Proof.
  intros Hb H. unfold quote_byte in H. destruct (always_safe b || memc b path_safe).
  - destruct H as [H|[]]; auto.
  - exfalso. assert (47 <> hexdigit (b / 16) /\ 47 <> hexdigit (b mod 16)) as [X Y].
    { unfold hexdigit. split; destruct (_ <? 10) eqn:Q; lia. }
    destruct H as [H|[H|[H|[]]]]; [discriminate|congruence|congruence].
Qed.
Lemma quote_bytes_split bs : forall a b, is_bytes bs -> quote_from_bytes path_safe bs = a ++ 47 :: b ->
  exists b1 b2, bs = b1 ++ 47 :: b2 /\ quote_from_bytes path_safe b1 = a /\ quote_from_bytes path_safe b2 = b.
Proof.
  induction bs as [|x bs IH]; intros a b B H. { destruct a; discriminate. }
  inv B. unfold quote_from_bytes in H. cbn [map List.concat] in H. fold (quote_from_bytes path_safe bs) in H.
  destruct (x =? 47) eqn:Ex.
  - apply N.eqb_eq in Ex. subst x. change (quote_byte path_safe 47) with [47] in H. cbn [app] in H. destruct a as [|c a].
    + injection H as H. exists [], bs. auto.
    + injection H as <- H. apply IH in H as (b1 & b2 & -> & E1 & E2); auto. exists (47 :: b1), b2. split; auto. split; auto.
      unfold quote_from_bytes. cbn [map List.concat]. change (quote_byte path_safe 47) with [47]. cbn [app]. f_equal. auto.
  - assert (~ In 47 (quote_byte path_safe x)) as Nx. { intros I. apply quote_byte_slash in I; auto. lia. }
    assert (exists a', a = quote_byte path_safe x ++ a' /\ quote_from_bytes path_safe bs = a' ++ 47 :: b) as (a' & -> & H').
    { clear -H Nx. revert a H. induction (quote_byte path_safe x) as [|y q IHq]; intros a H; cbn [app] in H; [exists a; auto|].
      destruct a as [|z a]; cbn [app] in H; injection H as E H; [subst; exfalso; apply Nx; left; auto|]. subst z.
      destruct (IHq (fun I => Nx (or_intror I)) a H) as (a' & -> & H'). exists a'. auto. }
    apply IH in H' as (b1 & b2 & -> & E1 & E2); auto. exists (x :: b1), b2. split; auto. split; auto.
    unfold quote_from_bytes. cbn [map List.concat]. f_equal. auto.
Qed.
Lemma enc1_slash c b : enc1 c = Some b -> (c = 47 /\ b = [47]) \/ ~ In 47 b.
Proof.
  unfold enc1. intros H. destruct (c <? 128) eqn:E1.
  { inv H. destruct (N.eq_dec c 47) as [->|]; auto. right. intros [X|[]]. lia. }
  right. destruct (c <? 2048) eqn:E2. { inv H. intros [X|[X|[]]]; lia. }
  destruct (c <? 65536) eqn:E3. { destruct (_ && _); inv H. intros [X|[X|[X|[]]]]; lia. }
  destruct (c <? 1114112); inv H. intros [X|[X|[X|[X|[]]]]]; lia.
Qed.
Lemma encode_split t : forall b1 b2, encode t = Ok (b1 ++ 47 :: b2) ->
  exists t1 t2, t = t1 ++ 47 :: t2 /\ encode t1 = Ok b1 /\ encode t2 = Ok b2.
Proof.
  induction t as [|c t IH]; intros b1 b2 H; cbn [encode] in H. { inv H. destruct b1; discriminate. }
  destruct (enc1 c) as [bc|] eqn:Ec; [|discriminate]. binv H. injection H as H.
  destruct (enc1_slash c bc Ec) as [[-> ->]|Nb].
  - cbn [app] in H. destruct b1 as [|x b1]; injection H as H.
    + subst. exists [], t. auto.
    + subst. apply IH in E as (t1 & t2 & -> & E1 & E2). exists (47 :: t1), t2. split; auto. split; auto. cbn [encode]. rewrite Ec, E1. auto.
  - assert (exists b1', b1 = bc ++ b1' /\ a = b1' ++ 47 :: b2) as (b1' & -> & ->).
    { clear -H Nb. revert b1 H. induction bc as [|y q IHq]; intros b1 H; cbn [app] in H; [exists b1; auto|].
      destruct b1 as [|z b1]; cbn [app] in H; injection H as E H; [subst; exfalso; apply Nb; left; auto|]. subst z.
      destruct (IHq (fun I => Nb (or_intror I)) b1 H) as (b' & -> & H'). exists b'. auto. }
    apply IH in E as (t1 & t2 & -> & E1 & E2). exists (c :: t1), t2. split; auto. split; auto. cbn [encode]. rewrite Ec, E1. auto.
Qed.
Lemma canon_split a b : canon (a ++ 47 :: b) -> canon a /\ canon b.
Proof.
  intros (t & H). unfold quote in H. binv H. inv H. rename H1 into Q.
  apply quote_bytes_split in Q as (b1 & b2 & -> & Q1 & Q2); [|eapply encode_bytes; eauto].
  apply encode_split in E as (t1 & t2 & -> & E1 & E2). unfold canon, quote. split; [exists t1; rewrite E1|exists t2; rewrite E2]; cbn [bind]; subst; auto.
Qed.
Lemma canon_pieces n : forall q, (List.length q <= n)%nat -> canon q -> Forall canon (splitc 47 q).
Proof.
  induction n as [|n IH]; intros q Hn H.
  - destruct q; [|cbn in Hn; lia]. constructor; auto using canon_nil.
  - destruct (first_seg q) as (a & Ha & [(-> & E)|(r & -> & E)]); rewrite E.
    + constructor; auto.
    + apply canon_split in H as [H1 H2]. constructor; auto. apply IH; auto. rewrite app_length in Hn. cbn in Hn. lia.
Qed.
Lemma dots_canon segs : forall st, Forall canon segs -> Forall canon st -> Forall canon (dots segs st).
Proof.
  assert (forall s, canon s -> canon (47 :: s)) as C by (intros s H; apply (canon_app [47] s); auto using canon_slash).
  assert (forall st : list text, Forall canon st -> Forall canon (tl st)) as T by (intros st H; destruct H; cbn; auto).
  induction segs as [|s segs IH]; intros st F H; auto. inv F. destruct segs as [|s2 segs].
  - cbn [dots]. destruct (dot s), (dotdot s); auto using canon_slash.
  - rewrite dots_cons by discriminate. destruct (dot s), (dotdot s); auto.
Qed.
Lemma canon_concat l : Forall canon l -> canon (List.concat l).
Proof. induction 1; cbn; auto using canon_nil, canon_app. Qed.
Lemma dots_nonempty segs st : segs <> [] -> dots segs st <> [].
Proof.
  revert st. induction segs as [|s segs IH]; intros st H; [contradiction|]. destruct segs as [|s2 segs].
  - cbn [dots]. destruct (dot s), (dotdot s); discriminate.
  - rewrite dots_cons by discriminate. destruct (dot s), (dotdot s); apply IH; discriminate.
Qed.
Lemma dots_good segs : forall st, Forall (fun s => ~ In 47 s) segs -> Forall good_seg st -> Forall good_seg (dots segs st).
Proof.
  assert (forall st : list text, Forall good_seg st -> Forall good_seg (tl st)) as T by (intros st H; destruct H; cbn; auto).
  induction segs as [|s segs IH]; intros st F H; auto. inv F.
  assert (dot s = false -> dotdot s = false -> good_seg (47 :: s)) as G.
  { intros D1 D2. exists s. split; auto. split; auto. split; apply text_eqb_neq; auto. }
  destruct segs as [|s2 segs].
  - cbn [dots]. destruct (dot s) eqn:D1, (dotdot s) eqn:D2; constructor; auto using good_slash.
  - rewrite dots_cons by discriminate. destruct (dot s) eqn:D1, (dotdot s) eqn:D2; auto.
Qed.
(** An absolute path stays absolute. *)
Lemma rds_abs_abs r : exists r', remove_dot_segments (47 :: r) = Ok (47 :: r') /\ no_dots (47 :: r').
Proof.
  rewrite rds_abs_path. set (d := dots (splitc 47 r) []).
  assert (Forall good_seg d) as G by (apply dots_good; auto; apply splitc_pieces).
  assert (no_dots (List.concat (rev d))) as Nd.
  { apply stack_no_dots. exists d, []. rewrite app_nil_r. auto. }
  assert (d <> []) as Ne by (apply dots_nonempty, splitc_nonempty).
  apply Forall_rev in G. assert (rev d <> []) as Ne' by (intros X; apply Ne; rewrite <- (rev_involutive d), X; auto).
  destruct (rev d) as [|g l]; [contradiction|]. inv G. destruct H1 as (a & -> & _). cbn [List.concat app] in *. eexists. split; eauto.
Qed.
(** In general: the result is the path with dots removed, in canonical form. *)
Lemma rds_canon q r : canon q -> remove_dot_segments q = Ok r -> canon r.
Proof.
  intros C H. remember (List.length q) as n. revert q r C H Heqn. induction n as [n IH] using lt_wf_ind. intros q r C H Hn.
  destruct q as [|c p]. { cbn in H. inv H. auto. }
  destruct (span_until 47 (c :: p)) as [a b] eqn:E. apply span_until_spec in E as (E & Ha & Hb).
  destruct a as [|x a].
  - cbn [app] in E. destruct Hb as [->|(s & ->)]; [discriminate|]. injection E as -> ->. rewrite rds_abs_path in H. injection H as <-.
    apply canon_concat, Forall_rev, dots_canon; auto. apply (canon_split [] s) in C as [_ C]. eapply canon_pieces; eauto.
  - rewrite E in *. destruct (dot (x :: a)) eqn:D1.
    { apply text_eqb_eq in D1. rewrite u_dot in D1. injection D1 as -> ->. destruct Hb as [->|(s & ->)].
      - cbn in H. inv H. auto using canon_nil.
      - cbn [app] in *. rewrite rds_dotslash in H. apply (canon_split [46] s) in C as [_ C]. eapply IH; eauto. subst n. cbn. lia. }
    destruct (dotdot (x :: a)) eqn:D2.
    { apply text_eqb_eq in D2. rewrite u_dotdot in D2. injection D2 as -> ->. destruct Hb as [->|(s & ->)].
      - cbn in H. inv H. auto using canon_nil.
      - cbn [app] in *. rewrite rds_dotdotslash in H. apply (canon_split [46; 46] s) in C as [_ C]. eapply IH; eauto. subst n. cbn. lia. }
    assert (rel_start (x :: a)) as R by (split; [discriminate|auto]).
    unfold remove_dot_segments in H. rewrite rds_rel_step in H by auto. destruct Hb as [->|(s & ->)].
    + cbn in H. injection H as <-. auto.
    + rewrite rds_abs in H by (rewrite app_length; cbn [List.length]; lia). cbn [bind] in H. injection H as <-.
      apply canon_split in C as [C1 C2]. apply canon_concat, Forall_rev, dots_canon; auto. eapply canon_pieces; eauto.
Qed.

Lemma check_Ok_iff p r : check_disallowed_characters p = Ok r <-> forallb allowed_char p = true /\ r = tt.
Proof. unfold check_disallowed_characters. destruct (forallb allowed_char p), r; split; intros H; auto; try discriminate; destruct H; discriminate. Qed.
Lemma check_true p : forallb allowed_char p = true -> check_disallowed_characters p = Ok tt.
Proof. intros H. apply check_Ok_iff. auto. Qed.

Lemma decode_replace_47 r : decode_replace (47 :: r) = 47 :: decode_replace r.
Proof. reflexivity. Qed.
Lemma unquote_slash p : match unquote (47 :: p) with [] => False | c :: _ => c = 47 end.
Proof.
  unfold unquote. destruct (memc 37 (47 :: p)); auto. cbn [unquote_runs]. change (47 <? 128) with true. cbn [rev].
  assert (forall s acc, match unquote_runs (acc ++ [47]) s with [] => False | c :: _ => c = 47 end) as G.
  { clear. induction s as [|c s IH]; intros acc; cbn [unquote_runs].
    - rewrite rev_app_distr. cbn [rev app unquote_to_bytes]. change (47 =? 37) with false. cbv iota.
      rewrite decode_replace_47. auto.
    - destruct (c <? 128); [apply (IH (c :: acc))|]. rewrite rev_app_distr. cbn [rev app unquote_to_bytes]. change (47 =? 37) with false.
      cbv iota. rewrite decode_replace_47. cbn [app]. auto. }
  apply (G p []).
Qed.
Lemma quote_slash t q : quote path_safe (47 :: t) = Ok q -> exists r, q = 47 :: r.
Proof. unfold quote. cbn [encode]. change (enc1 47) with (Some [47]). intros H. binv H. binv E. inv E. inv H. exists (quote_from_bytes path_safe a0). reflexivity. Qed.
Lemma no_dots_slash : no_dots [47].
Proof. constructor; [split; discriminate|]. constructor; auto. split; discriminate. Qed.
(** Paths of authorities: empty or absolute. *)
Lemma norm_path_spec p r : p = [] \/ (exists p', p = 47 :: p') -> norm_path p = Ok r ->
  (exists r', r = 47 :: r') /\ no_dots r /\ forallb allowed_char r = true /\ canon r.
Proof.
  intros Hp H. unfold norm_path in H. fold path_safe in H. binv H. binv H. binv H. injection H as <-. apply check_Ok_iff in E1 as [E1 _].
  destruct Hp as [->|(p' & ->)].
  - cbn in E. inv E. cbn in E0. inv E0. cbn [truthy] in *. split; eauto. split; [apply no_dots_slash|]. auto using canon_slash.
  - pose proof (unquote_slash p') as U. destruct (unquote (47 :: p')) as [|c t]; [contradiction|]. subst c.
    assert (canon a) as C by (exists (47 :: t); auto). apply quote_slash in E as (s & ->).
    pose proof (rds_canon _ _ C E0). destruct (rds_abs_abs s) as (r' & E2 & N). rewrite E2 in E0. injection E0 as <-. cbn [truthy] in *. eauto.
Qed.
Lemma norm_path_fix r r' : r = 47 :: r' -> no_dots r -> forallb allowed_char r = true -> canon r -> norm_path r = Ok r.
Proof.
  intros E Nd A C. unfold norm_path. fold path_safe. rewrite canon_fix by auto. cbn [bind]. rewrite rds_plain by auto. cbn [bind].
  rewrite E at 1 2. cbn [truthy]. rewrite <- E at 1. rewrite check_true by auto. rewrite E. reflexivity.
Qed.
Lemma canon_chars r c : canon r -> In c r -> c < 128 /\ c <> 63 /\ c <> 35.
Proof.
  intros (t & H) I. destruct (quote_chars _ _ _ _ H I) as [X|[X|X]].
  - apply always_safe_spec in X. tauto.
  - assert (forallb (fun c => (c <? 128) && negb (c =? 63) && negb (c =? 35)) path_safe = true) as A by reflexivity.
    rewrite forallb_forall in A. apply A in X. lia.
  - lia.
Qed.

(** ** Query *)
Lemma unquote_runs_nil s : forall acc, unquote_runs acc s = [] -> acc = [] /\ s = [].
Proof.
  assert (forall s, unquote_to_bytes s = [] -> s = []) as U.
  { clear s. intros [|c s]; auto. cbn [unquote_to_bytes]. destruct (c =? 37); [|discriminate]. destruct s as [|a [|b s]]; try discriminate.
    destruct (hexval a), (hexval b); discriminate. }
  induction s as [|c s IH]; intros acc; cbn [unquote_runs]; intros H.
  - apply decode_replace_nil, U in H. split; auto. rewrite <- (rev_involutive acc), H. auto.
  - destruct (c <? 128); [apply IH in H as [H _]; discriminate|]. destruct (decode_replace _); discriminate.
Qed.
Lemma unquote_plus_nil s : unquote_plus s = [] -> s = [].
Proof.
  unfold unquote_plus, unquote. destruct (memc 37 _); intros H.
  - apply unquote_runs_nil in H as [_ H]. apply map_eq_nil in H. auto.
  - apply map_eq_nil in H. auto.
Qed.
Lemma parse_qsl_nonempty q : Forall (fun kv => snd kv <> []) (parse_qsl false q).
Proof.
  rewrite parse_qsl_flat. rewrite Forall_forall. intros kv H. apply in_flat_map in H as (nv & _ & H). unfold parse_qsl1 in H.
  destruct (truthy nv); [|destruct H]. destruct (partition 61 nv) as [n v]. rewrite orb_false_r in H. destruct (truthy v) eqn:T; [|destruct H].
  destruct H as [<-|[]]. cbn. intros X. apply unquote_plus_nil in X. apply truthy_true in T. contradiction.
Qed.
Lemma norm_query_fix q r : norm_query q = Ok r -> norm_query r = Ok r /\ forallb allowed_char r = true /\ ~ In 35 r.
Proof.
  unfold norm_query. intros H. binv H. binv H. injection H as <-. apply check_Ok_iff in E0 as [E0 _].
  destruct (urlencode_Ok _ _ E) as (db & F & Q). split; [|split; auto].
  - rewrite Q at 1. rewrite (parse_qsl_enc false _ db F) by (right; apply parse_qsl_nonempty). rewrite E. cbn [bind]. rewrite check_true by auto. auto.
  - rewrite Q. apply urlencode_free; auto. clear -F. induction F as [|x y l l' [H1 H2] F IH]; constructor; auto. split; eapply encode_bytes; eauto.
Qed.

(** ** Characters *)
Lemma allowed_range c : allowed_char c = true -> 33 <= c /\ c < 127 /\ c <> 9 /\ c <> 10 /\ c <> 13.
Proof.
  unfold allowed_char. intros H.
  assert (forallb (fun c => (33 <=? c) && (c <? 127)) (u "-._~" ++ GEN_DELIMS ++ SUB_DELIMS) = true) as A by reflexivity.
  rewrite !forallb_app in A. apply andb_prop in A as [A1 A]. apply andb_prop in A as [A2 A3].
  rewrite forallb_forall in A1, A2, A3.
  apply orb_prop in H as [H|H]; [|lia]. apply orb_prop in H as [H|H]; [|apply memc_In, A3 in H; lia].
  apply orb_prop in H as [H|H]; [|apply memc_In, A2 in H; lia]. apply orb_prop in H as [H|H]; [|apply memc_In, A1 in H; lia].
  unfold isalphac, isdigitc in H. lia.
Qed.
Lemma allowed_clean s : forallb allowed_char s = true -> url_clean s = s.
Proof.
  intros H. unfold url_clean. rewrite forallb_forall in H. rewrite lstripf_fix.
  - assert (forall c, In c s -> negb ((c =? 9) || (c =? 10) || (c =? 13)) = true) as K.
    { intros c Hc. apply H, allowed_range in Hc. lia. }
    clear H. induction s as [|c s IH]; auto. cbn [filter]. rewrite K by (left; auto). f_equal. apply IH. intros x Hx. apply K. right. auto.
  - destruct s as [|c s]; auto. pose proof (allowed_range c (H c (or_introl eq_refl))). lia.
Qed.
Lemma allowed_ascii s : forallb allowed_char s = true -> isascii s = true.
Proof. unfold isascii. rewrite !forallb_forall. intros H c I. apply H, allowed_range in I. lia. Qed.

(** ** Splitting a normal form *)
Record nf (scheme netloc path query fragment : text) : Prop := {
  nf_scheme : scheme = u "http" \/ scheme = u "https";
  nf_netloc : netloc <> [];
  nf_nend : forallb (fun c => negb (netloc_end c)) netloc = true;
  nf_path : exists r, path = 47 :: r;
  nf_pathc : ~ In 63 path /\ ~ In 35 path;
  nf_query : ~ In 35 query;
  nf_allowed : forallb allowed_char (netloc ++ path ++ query ++ fragment) = true
}.
Definition tail (query fragment : text) : text :=
  (if truthy query then 63 :: query else []) ++ (if truthy fragment then 35 :: fragment else []).
Lemma unsplit_nf scheme netloc path query fragment : nf scheme netloc path query fragment ->
  urlunsplit (mkSplit scheme netloc path query fragment) = scheme ++ 58 :: 47 :: 47 :: netloc ++ path ++ tail query fragment.
Proof.
  intros [S N _ (r & ->) _ _ _]. unfold urlunsplit. cbn [sp_scheme sp_netloc sp_path sp_query sp_fragment].
  assert (truthy netloc = true) as -> by (apply truthy_true; auto). cbn [orb]. change (47 =? 47) with true. change (u "//") with [47; 47].
  assert (truthy scheme = true) as -> by (destruct S as [-> | ->]; reflexivity).
  unfold tail. destruct (truthy query), (truthy fragment); cbn [app]; rewrite ?app_nil_r; cbn [app];
    repeat (rewrite <- ?app_assoc; cbn [app]); auto.
Qed.
Lemma split_nf e scheme netloc path query fragment : nf scheme netloc path query fragment -> netloc_ok e netloc = true ->
  urlsplit e (urlunsplit (mkSplit scheme netloc path query fragment)) = Ok (mkSplit scheme netloc path query fragment).
Proof.
  intros F B. rewrite (unsplit_nf _ _ _ _ _ F). destruct F as [S N Ne (r & Hr) [P1 P2] Q A].
  assert (forallb allowed_char scheme = true) as As by (destruct S as [-> | ->]; reflexivity).
  rewrite !forallb_app in A. apply andb_prop in A as [A1 A]. apply andb_prop in A as [A2 A]. apply andb_prop in A as [A3 A4].
  unfold urlsplit. rewrite allowed_clean.
  2:{ rewrite forallb_app. cbn [forallb]. rewrite !forallb_app. rewrite As, A1, A2. change (allowed_char 58) with true. change (allowed_char 47) with true. cbn [andb].
      unfold tail. rewrite forallb_app. destruct (truthy query), (truthy fragment); cbn [forallb]; rewrite ?A3, ?A4; reflexivity. }
  assert (split_scheme (scheme ++ 58 :: 47 :: 47 :: netloc ++ path ++ tail query fragment) = (scheme, 47 :: 47 :: netloc ++ path ++ tail query fragment)) as ->.
  { unfold split_scheme. rewrite cut_app by (destruct S as [-> | ->]; vm_compute; intuition discriminate). destruct S as [-> | ->]; reflexivity. }
  change (u "//") with [47; 47]. cbn [startswith skipn]. change (47 =? 47) with true. cbn [andb].
  rewrite splitnetloc_app; auto; [|rewrite Hr; reflexivity]. rewrite B. cbn [bind].
  rewrite (allowed_ascii netloc) by auto. cbn [orb]. unfold tail.
  destruct (truthy query) eqn:T1.
  - assert (~ In 35 (path ++ 63 :: query)) as N1.
    { intros I. apply in_app_or in I as [I|[I|I]]; auto. discriminate. }
    destruct (truthy fragment) eqn:T2.
    + replace (path ++ (63 :: query) ++ 35 :: fragment) with ((path ++ 63 :: query) ++ 35 :: fragment) by (rewrite <- app_assoc; auto).
      rewrite partition_app by auto. rewrite partition_app by auto. auto.
    + apply truthy_false in T2. subst fragment. rewrite app_nil_r. rewrite partition_nin by auto. rewrite partition_app by auto. auto.
  - apply truthy_false in T1. subst query. cbn [app]. destruct (truthy fragment) eqn:T2.
    + rewrite partition_app by auto. rewrite partition_nin by auto. auto.
    + apply truthy_false in T2. subst fragment. rewrite app_nil_r, partition_nin by auto. rewrite partition_nin by auto. auto.
Qed.

(** ** The authority *)
(** A plain host: lower case, no delimiters. *)
Definition plain_host (h : text) : Prop :=
  h <> [] /\ lower h = h /\ forall c, In c (u "/?#@:[]%") -> ~ In c h.
(** The codec's results are fixed by the codec (true of CPython's: its result is
    an ASCII name with labels of 1 to 63 characters). *)
Definition idna_stable (e : uenv) : Prop := forall s t, ue_idna e s = Some t -> idna e t = Ok t.
Lemma idna_fix e s t : idna_stable e -> idna e s = Ok t -> idna e t = Ok t.
Proof.
  intros St H. destruct (truthy s) eqn:T; [|unfold idna in H; rewrite T in H; inv H; reflexivity].
  destruct (isascii s) eqn:A.
  - assert (s = t) as <-; auto. unfold idna in H. rewrite T, A in H. destruct (rev (splitc 46 s)); [congruence|]. destruct (_ && _); congruence.
  - unfold idna in H. rewrite T, A in H. destruct (ue_idna e s) eqn:U; [|discriminate]. injection H as <-. apply St in U. auto.
Qed.
Lemma isdigit_same c : isdigitc c = isdigit c. Proof. reflexivity. Qed.
Lemma str_of_N_digitc n : forallb isdigitc (str_of_N n) = true.
Proof. apply (str_of_N_isdigit n). Qed.
Definition port_text_ok (scheme p : text) : Prop :=
  p = [] \/ exists n, 0 < n <= 65535 /\ p = str_of_N n /\ (scheme = u "http" -> n <> 80) /\ (scheme = u "https" -> n <> 443).
Lemma norm_port_spec scheme netloc p : norm_port scheme netloc = Ok p -> port_text_ok scheme p.
Proof.
  unfold norm_port, port_of. intros H. binv H. destruct a as [n|]; [|inv H; left; auto].
  destruct (snd (hostinfo_of netloc)) as [x|]; [|inv E]. destruct (forallb isdigitc x); [|discriminate]. binv E. destruct (_ <=? _)%Z eqn:L; inv E.
  injection H as <-. destruct (_ || (_ =? 0)) eqn:D; [left; auto|]. right. exists (Z.to_N a). apply orb_false_elim in D as [D1 D2]. apply orb_false_elim in D1 as [D0 D1].
  split; [lia|]. split; auto. split; intros ->; rewrite text_eqb_refl in *; lia.
Qed.
Lemma port_text_no c p scheme : isdigitc c = false -> port_text_ok scheme p -> ~ In c p.
Proof.
  intros Hc [->|(n & _ & -> & _)]; auto. intros I. pose proof (str_of_N_digitc n) as D. rewrite forallb_forall in D. apply D in I. congruence.
Qed.
Lemma port_text_allowed p scheme : port_text_ok scheme p -> forallb allowed_char p = true.
Proof.
  intros [->|(n & _ & -> & _)]; auto. apply forallb_forall. intros c I. pose proof (str_of_N_digitc n) as D. rewrite forallb_forall in D. apply D in I.
  unfold allowed_char. rewrite I, orb_true_r. auto.
Qed.
Lemma norm_host_chars e netloc h : norm_host e netloc = Ok h -> forallb allowed_char h = true.
Proof. unfold norm_host. intros H. binv H. binv H. injection H as <-. apply check_Ok_iff in E0 as [E0 _]. auto. Qed.

Definition host_port (h p : text) : text := if truthy p then h ++ 58 :: p else h.
Definition with_user (ui : option text) (n : text) : text := match ui with None => n | Some t => t ++ 64 :: n end.
Definition user_text (netloc : text) : option text :=
  match userinfo_of netloc with (None, _) => None | (Some a, None) => Some a | (Some a, Some b) => Some (a ++ 58 :: b) end.
Lemma user_text_eq netloc : user_text netloc = match rcut 64 netloc with Some (ui, _) => Some ui | None => None end.
Proof.
  unfold user_text, userinfo_of. destruct (rcut 64 netloc) as [[ui h]|]; auto. destruct (cut 58 ui) as [[a b]|] eqn:E; auto.
  apply cut_Some in E as [-> _]. auto.
Qed.
Lemma norm_netloc_eq e scheme netloc n : norm_netloc e scheme netloc = Ok n <->
  exists h p, norm_host e netloc = Ok h /\ norm_port scheme netloc = Ok p /\
    (forall t, user_text netloc = Some t -> forallb allowed_char t = true) /\
    n = with_user (user_text netloc) (host_port h p).
Proof.
  unfold norm_netloc, user_text, host_port. split.
  - intros H. binv H. binv H. exists a, a0. split; auto. split; auto. destruct (userinfo_of netloc) as [[us|] pw].
    + binv H. injection H as <-. apply check_Ok_iff in E1 as [E1 _]. destruct pw; (split; [intros x Hx; inv Hx; auto|auto]).
    + injection H as <-. split; [discriminate|auto].
  - intros (h & p & -> & -> & A & ->). cbn [bind]. destruct (userinfo_of netloc) as [[us|] pw]; auto.
    destruct pw; rewrite check_true by auto; auto.
Qed.
Lemma rcut_user (ui : option text) hp : ~ In 64 hp -> rcut 64 (with_user ui hp) = match ui with None => None | Some t => Some (t, hp) end.
Proof.
  intros H. destruct ui as [t|]; cbn [with_user].
  - apply rcut_Some. auto.
  - apply rcut_None. auto.
Qed.
Lemma host_port_In c h p : In c (host_port h p) -> In c h \/ c = 58 \/ In c p.
Proof. unfold host_port. destruct (truthy p); auto. intros H. apply in_app_or in H as [H|[H|H]]; auto. Qed.
Lemma hostinfo_nf ui h p : ~ In 64 h -> ~ In 91 h -> ~ In 58 h -> ~ In 64 p -> ~ In 91 p ->
  hostinfo_of (with_user ui (host_port h p)) = (h, if truthy p then Some p else None).
Proof.
  intros H1 H2 H3 P1 P2. unfold hostinfo_of. rewrite rcut_user.
  2:{ intros I. apply host_port_In in I as [I|[I|I]]; auto. discriminate. }
  assert (cut 91 (host_port h p) = None) as C.
  { apply cut_None. intros I. apply host_port_In in I as [I|[I|I]]; auto. discriminate. }
  destruct ui; cbn [with_user]; rewrite C; clear C; unfold host_port; (destruct (truthy p) eqn:T;
    [rewrite partition_app by auto; rewrite T; auto|rewrite partition_nin by auto; auto]).
Qed.
Lemma str_of_N_Z n : str_of_Z (Z.of_N n) = str_of_N n.
Proof. destruct n; reflexivity. Qed.
Lemma norm_port_fix scheme ui h p : ~ In 64 h -> ~ In 91 h -> ~ In 58 h -> port_text_ok scheme p ->
  norm_port scheme (with_user ui (host_port h p)) = Ok p.
Proof.
  intros H1 H2 H3 P. unfold norm_port, port_of. rewrite hostinfo_nf; auto; try (eapply port_text_no; eauto; reflexivity). cbn [snd].
  destruct P as [->|(n & Hn & -> & N1 & N2)]; auto.
  assert (truthy (str_of_N n) = true) as -> by (apply truthy_true, str_of_N_nonnil). rewrite str_of_N_digitc.
  rewrite <- (str_of_N_Z n) at 1. rewrite int_of_str. cbn [bind]. replace (Z.of_N n <=? 65535)%Z with true by lia. cbn [bind]. rewrite N2Z.id.
  assert ((text_eqb scheme (u "http") && (n =? 80)) || (text_eqb scheme (u "https") && (n =? 443)) || (n =? 0) = false) as ->; auto.
  replace (n =? 0) with false by lia. rewrite orb_false_r. apply orb_false_iff. split.
  - destruct (text_eqb scheme (u "http")) eqn:E; auto. apply text_eqb_eq in E. apply N1 in E. cbn [andb]. lia.
  - destruct (text_eqb scheme (u "https")) eqn:E; auto. apply text_eqb_eq in E. apply N2 in E. cbn [andb]. lia.
Qed.
Lemma unquote_plain s : ~ In 37 s -> unquote s = s.
Proof. intros H. unfold unquote. apply memc_false in H. rewrite H. auto. Qed.
Lemma plain_no h c : plain_host h -> memc c (u "/?#@:[]%") = true -> ~ In c h.
Proof. intros (_ & _ & H) M. apply H. apply memc_In. auto. Qed.
Lemma norm_host_fix e ui netloc h p scheme : idna_stable e -> plain_host h -> port_text_ok scheme p -> norm_host e netloc = Ok h ->
  norm_host e (with_user ui (host_port h p)) = Ok h.
Proof.
  intros St Ph Pp H. pose proof (norm_host_chars _ _ _ H) as A. unfold norm_host in *. binv H. binv H. injection H as ->.
  unfold hostname_of. rewrite hostinfo_nf; try (apply (plain_no h); auto); try (eapply port_text_no; eauto; reflexivity). cbn [fst].
  destruct Ph as (P1 & P2 & P3). assert (truthy h = true) as -> by (apply truthy_true; auto).
  assert (cut 37 h = None) as -> by (apply cut_None; apply P3; vm_compute; tauto).
  rewrite P2, P2, unquote_plain by (apply P3; vm_compute; tauto).
  rewrite (idna_fix _ _ _ St E). cbn [bind]. rewrite check_true by auto. auto.
Qed.
Lemma netloc_fix e scheme netloc n h : idna_stable e -> norm_netloc e scheme netloc = Ok n -> norm_host e netloc = Ok h -> plain_host h ->
  norm_netloc e scheme n = Ok n.
Proof.
  intros St H Hh Ph. apply norm_netloc_eq in H as (h' & p & H1 & H2 & H3 & ->). assert (h' = h) as -> by congruence.
  pose proof (norm_port_spec _ _ _ H2) as Pp.
  set (ui := user_text netloc) in *. assert (user_text (with_user ui (host_port h p)) = ui) as U.
  { rewrite user_text_eq, rcut_user; [destruct ui; auto|]. intros I. apply host_port_In in I as [I|[I|I]]; [|discriminate|].
    - revert I. apply (plain_no h); auto.
    - revert I. eapply port_text_no; eauto. }
  apply norm_netloc_eq. exists h, p. split; [|split; [|split]].
  - eapply norm_host_fix; eauto.
  - apply norm_port_fix; auto; apply (plain_no h); auto.
  - rewrite U. auto.
  - rewrite U. auto.
Qed.
(** No brackets in the user information. *)
Definition user_unbracketed (netloc : text) : Prop := forall t, user_text netloc = Some t -> ~ In 91 t /\ ~ In 93 t.
Lemma netloc_nf e scheme netloc n h : norm_netloc e scheme netloc = Ok n -> norm_host e netloc = Ok h -> plain_host h ->
  forallb (fun c => negb (netloc_end c)) netloc = true -> user_unbracketed netloc ->
  n <> [] /\ forallb (fun c => negb (netloc_end c)) n = true /\ forallb allowed_char n = true /\ netloc_ok e n = true.
Proof.
  intros H Hh Ph Hn B. apply norm_netloc_eq in H as (h' & p & H1 & H2 & H3 & ->). assert (h' = h) as -> by congruence.
  pose proof (norm_port_spec _ _ _ H2) as Pp. pose proof (norm_host_chars _ _ _ Hh) as A.
  assert (forall t, user_text netloc = Some t -> forall c, In c t -> In c netloc) as U.
  { intros t Ht c Hc. rewrite user_text_eq in Ht. destruct (rcut 64 netloc) as [[x y]|] eqn:R; inv Ht. apply rcut_Some in R as [-> _].
    apply in_or_app. auto. }
  assert (forall c, In c (with_user (user_text netloc) (host_port h p)) -> (exists t, user_text netloc = Some t /\ In c t) \/ c = 64 \/ In c h \/ c = 58 \/ In c p) as I.
  { intros c I. destruct (user_text netloc) as [t|]; cbn [with_user] in I.
    - apply in_app_or in I as [I|[I|I]]; eauto. apply host_port_In in I. tauto.
    - apply host_port_In in I. tauto. }
  split; [|split; [|split]].
  - destruct Ph as (P & _). destruct (user_text netloc) as [t|]; cbn [with_user]; [destruct t; discriminate|].
    unfold host_port. destruct (truthy p); auto. destruct h; discriminate.
  - apply forallb_forall. intros c Hc. apply I in Hc as [(t & Ht & Hc)|[->|[Hc|[->|Hc]]]]; auto.
    + rewrite forallb_forall in Hn. apply Hn. eapply U; eauto.
    + destruct (netloc_end c) eqn:E; auto. exfalso. revert Hc. apply (plain_no h); auto. unfold netloc_end in E.
      apply orb_prop in E as [E|E]; [apply orb_prop in E as [E|E]|]; apply N.eqb_eq in E; subst; reflexivity.
    + destruct (netloc_end c) eqn:E; auto. exfalso. revert Hc. eapply port_text_no; eauto. unfold netloc_end in E. unfold isdigitc. lia.
  - apply forallb_forall. intros c Hc. apply I in Hc as [(t & Ht & Hc)|[->|[Hc|[->|Hc]]]]; auto.
    + specialize (H3 t Ht). rewrite forallb_forall in H3. auto.
    + rewrite forallb_forall in A. auto.
    + pose proof (port_text_allowed _ _ Pp) as X. rewrite forallb_forall in X. auto.
  - assert (forall b, b = 91 \/ b = 93 -> memc b (with_user (user_text netloc) (host_port h p)) = false) as M.
    { intros b Hb. apply memc_false. intros Hc. apply I in Hc as [(t & Ht & Hc)|[->|[Hc|[->|Hc]]]]; try lia.
      - destruct (B t Ht) as [B1 B2]. destruct Hb; subst; contradiction.
      - revert Hc. apply (plain_no h); auto. destruct Hb; subst; reflexivity.
      - revert Hc. eapply port_text_no; eauto. destruct Hb; subst; reflexivity. }
    unfold netloc_ok. rewrite (M 91), (M 93) by auto. reflexivity.
Qed.

(** ** The whole *)
Lemma urlsplit_shape e url s : urlsplit e url = Ok s -> sp_netloc s <> [] ->
  forallb (fun c => negb (netloc_end c)) (sp_netloc s) = true /\ netloc_ok e (sp_netloc s) = true /\
  (sp_path s = [] \/ exists r, sp_path s = 47 :: r) /\ ~ In 63 (sp_path s) /\ ~ In 35 (sp_path s) /\ ~ In 35 (sp_query s).
Proof.
  unfold urlsplit. intros H Hn. destruct (split_scheme (url_clean url)) as [sch x]. binv H. destruct a as [netloc rest].
  destruct (partition 35 rest) as [y frag] eqn:P1. destruct (partition 63 y) as [z q] eqn:P2. destruct (_ || _); [|discriminate]. injection H as <-.
  cbn [sp_netloc sp_path sp_query] in *. destruct (startswith x (u "//")); [|injection E as <- <-; contradiction].
  destruct (splitnetloc (skipn 2 x)) as [n r] eqn:Sn. destruct (netloc_ok e n) eqn:B; [|discriminate]. injection E as -> ->.
  apply splitnetloc_spec in Sn as (_ & S1 & S2). apply partition_spec in P1 as (P1 & P1'). apply partition_spec in P2 as (P2 & P2').
  split; auto. split; auto.
  assert (~ In 35 z /\ ~ In 35 q) as [Z Q].
  { destruct P2' as [->|[-> ->]]; split; auto; intros I; apply P1; apply in_or_app; auto. right. right. auto. }
  split; auto. destruct z as [|c z]; auto. right. exists z. f_equal. 
  assert (netloc_end c = true) as Nc.
  { destruct P2' as [->|[-> _]]; destruct P1' as [->|[-> _]]; exact S2. }
  unfold netloc_end in Nc. assert (c <> 63) by (intros ->; apply P2; left; auto). assert (c <> 35) by (intros ->; apply Z; left; auto). lia.
Qed.
Lemma urinorm_inv e uri r : urinorm e uri = Ok r -> exists s scheme netloc path query fragment,
  urlsplit e uri = Ok s /\ scheme = lower (sp_scheme s) /\ (scheme = u "http" \/ scheme = u "https") /\ sp_netloc s <> [] /\
  norm_netloc e scheme (sp_netloc s) = Ok netloc /\ norm_path (sp_path s) = Ok path /\ norm_query (sp_query s) = Ok query /\
  norm_fragment (sp_fragment s) = Ok fragment /\ r = urlunsplit (mkSplit scheme netloc path query fragment).
Proof.
  unfold urinorm. intros H. binv H. destruct (mem_text _ _) eqn:M; [|discriminate]. cbn [negb] in H. apply mem_text_In in M.
  destruct (truthy (sp_netloc a)) eqn:T; [|discriminate]. cbn [negb] in H. apply truthy_true in T. binv H. binv H. binv H. binv H. injection H as <-.
  exists a, (lower (sp_scheme a)), a0, a1, a2, a3. split; auto. split; auto. split; [|auto 10].
  destruct M as [<-|[<-|[]]]; auto.
Qed.
Lemma norm_fragment_spec f r : norm_fragment f = Ok r <-> r = unquote f /\ forallb allowed_char r = true.
Proof.
  unfold norm_fragment. split.
  - intros H. binv H. injection H as <-. apply check_Ok_iff in E as [E _]. auto.
  - intros [-> H]. rewrite check_true by auto. auto.
Qed.
Lemma lower_scheme scheme : scheme = u "http" \/ scheme = u "https" -> lower scheme = scheme.
Proof. intros [-> | ->]; reflexivity. Qed.
Lemma mem_scheme scheme : scheme = u "http" \/ scheme = u "https" -> mem_text scheme [u "http"; u "https"] = true.
Proof. intros [-> | ->]; reflexivity. Qed.
Lemma urinorm_nf e uri r s h : idna_stable e -> urinorm e uri = Ok r -> urlsplit e uri = Ok s ->
  norm_host e (sp_netloc s) = Ok h -> plain_host h -> user_unbracketed (sp_netloc s) ->
  exists scheme netloc path query fragment,
    nf scheme netloc path query fragment /\ netloc_ok e netloc = true /\ r = urlunsplit (mkSplit scheme netloc path query fragment) /\
    scheme = lower (sp_scheme s) /\ norm_netloc e scheme (sp_netloc s) = Ok netloc /\
    norm_netloc e scheme netloc = Ok netloc /\ norm_path path = Ok path /\ norm_query query = Ok query /\
    fragment = unquote (sp_fragment s) /\ forallb allowed_char fragment = true.
Proof.
  intros St H Es Hh Ph B. apply urinorm_inv in H as (s' & scheme & netloc & path & query & fragment & E & -> & Hs & Hn & N & P & Q & F & ->).
  assert (s' = s) as -> by congruence. destruct (urlsplit_shape e uri s Es Hn) as (U1 & U2 & U3 & _).
  destruct (netloc_nf e _ _ netloc h N Hh Ph U1 B) as (N1 & N2 & N3 & N4).
  destruct (norm_path_spec _ _ U3 P) as ((r' & Hr') & P1 & P2 & P3). destruct (norm_query_fix _ _ Q) as (Q1 & Q2 & Q3).
  apply norm_fragment_spec in F as (F1 & F2).
  exists (lower (sp_scheme s)), netloc, path, query, fragment. split; [|split; [|split; [|split; [|split; [|split; [|split; [|split; [|split]]]]]]]]; auto.
  - constructor; auto.
    + eauto.
    + split; intros I; apply (canon_chars _ _ P3) in I; tauto.
    + rewrite !forallb_app, N3, P2, Q2, F2. auto.
  - eapply netloc_fix; eauto.
  - eapply norm_path_fix; eauto.
Qed.
Lemma urinorm_stable e uri r s h : idna_stable e -> urinorm e uri = Ok r -> urlsplit e uri = Ok s ->
  norm_host e (sp_netloc s) = Ok h -> plain_host h -> user_unbracketed (sp_netloc s) -> ~ In 37 (unquote (sp_fragment s)) ->
  urinorm e r = Ok r.
Proof.
  intros St H Es Hh Ph B F.
  destruct (urinorm_nf e uri r s h St H Es Hh Ph B) as (scheme & netloc & path & query & fragment & Nf & Nb & -> & Hs & _ & N & P & Q & Fe & Fa).
  unfold urinorm. rewrite (split_nf e _ _ _ _ _ Nf Nb). cbn [bind sp_scheme sp_netloc sp_path sp_query sp_fragment].
  pose proof (nf_scheme _ _ _ _ _ Nf) as S. rewrite (lower_scheme _ S), (mem_scheme _ S). cbn [negb].
  assert (truthy netloc = true) as -> by (apply truthy_true; apply (nf_netloc _ _ _ _ _ Nf)). cbn [negb].
  rewrite N, P, Q. cbn [bind]. assert (norm_fragment fragment = Ok fragment) as ->; auto.
  apply norm_fragment_spec. split; auto. symmetry. apply unquote_plain. subst. auto.
Qed.
