(** Lemmas about [OidUtil]. *)
From Coq Require Import Lia ZifyBool ZifyN ZifyNat Permutation.
From Verif Require Import Py PyFacts Utf8 Utf8Facts UrlLib UrlLibFacts Message OidUtil.
Local Arguments u : simpl never.

Definition enc_rel (kv : text * text) (b : bytes * bytes) : Prop := encode (fst kv) = Ok (fst b) /\ encode (snd kv) = Ok (snd b).
Lemma enc_args args bargs : mapM (fun kv => k <- encode (fst kv) ;; v <- encode (snd kv) ;; Ok (k, v)) args = Ok bargs -> Forall2 enc_rel args bargs.
Proof.
  revert bargs. induction args as [|[k v] args IH]; cbn [mapM]; intros bargs H. { inv H. constructor. }
  binv H. binv H. inv H. cbn [fst snd] in E. binv E. binv E. inv E. constructor; auto. split; auto.
Qed.
Lemma enc_rel_bytes args bargs : Forall2 enc_rel args bargs -> Forall (fun b => is_bytes (fst b) /\ is_bytes (snd b)) bargs.
Proof. induction 1 as [|x y l l' [H1 H2] F IH]; constructor; auto. split; eapply encode_bytes; eauto. Qed.
Lemma appendArgs_Ok url args r : appendArgs url args = Ok r -> args <> [] ->
  exists q bargs, r = url ++ (if memc 63 url then 38 else 63) :: q /\ q = join [38] (map enc_pair bargs) /\ Forall2 enc_rel args bargs.
Proof.
  intros H Ha. unfold appendArgs in H. destruct args as [|a args]; [contradiction|]. binv H. inv H. exists (urlencode_bytes a0), a0.
  split; auto. split; auto. apply enc_args. auto.
Qed.

(** Unicode scalar values: what UTF-8 can encode. *)
Definition scalar (c : N) : Prop := c < 55296 \/ 57343 < c < 1114112.
Lemma encode_scalar s : Forall scalar s <-> exists b, encode s = Ok b.
Proof.
  induction s as [|c s IH]; cbn [encode].
  - split; [exists []; auto|constructor].
  - assert (scalar c <-> enc1 c <> None) as X.
    { unfold scalar, enc1. destruct (c <? 128) eqn:E1; [split; [discriminate|lia]|]. destruct (c <? 2048) eqn:E2; [split; [discriminate|lia]|].
      destruct (c <? 65536) eqn:E3.
      - destruct ((55296 <=? c) && (c <=? 57343)) eqn:E4; split; try discriminate; try lia. intros H; contradiction H; auto.
      - destruct (c <? 1114112) eqn:E4; split; try discriminate; try lia. intros H; contradiction H; auto. }
    split.
    + intros F. inv F. apply X in H1. destruct (enc1 c); [|contradiction]. apply IH in H2 as (b2 & ->). cbn. eauto.
    + intros (b & H). destruct (enc1 c) eqn:E; [|discriminate]. binv H. constructor; [apply X; discriminate|]. apply IH; eauto.
Qed.
Definition sendable (args : list (text * text)) : Prop := Forall (fun kv => Forall scalar (fst kv) /\ Forall scalar (snd kv)) args.
Lemma enc_args_iff args : sendable args <-> exists bargs, mapM (fun kv => k <- encode (fst kv) ;; v <- encode (snd kv) ;; Ok (k, v)) args = Ok bargs.
Proof.
  induction args as [|[k v] args IH]; cbn [mapM].
  - split; [exists []; auto|constructor].
  - split.
    + intros F. inv F. destruct H1 as [H1 H3]. apply encode_scalar in H1 as (kb & E1), H3 as (vb & E2). apply IH in H2 as (bs & E3).
      cbn [fst snd] in *. rewrite E1, E2. cbn [bind]. rewrite E3. cbn. eauto.
    + intros (bs & H). binv H. binv H. cbn [fst snd] in E. binv E. binv E. constructor; [split; apply encode_scalar; cbn [fst snd]; eauto|]. apply IH; eauto.
Qed.
Lemma appendArgs_total url args : (exists r, appendArgs url args = Ok r) <-> sendable args.
Proof.
  rewrite enc_args_iff. unfold appendArgs. destruct args as [|a args]. { cbn. split; eauto. }
  destruct (mapM _ (a :: args)) eqn:E; cbn [bind]; split; intros (r & H); eauto; discriminate.
Qed.
Lemma sorted_items_perm d : Permutation d (sorted_items d).
Proof. apply sort_perm. Qed.
Lemma sendable_perm a b : Permutation a b -> sendable a -> sendable b.
Proof. intros P H. unfold sendable in *. rewrite Forall_forall in *. intros x Hx. apply H. eapply Permutation_in; [symmetry; eauto|auto]. Qed.

(** ** Splitting the result *)
Lemma enc_chars bargs : Forall (fun b => is_bytes (fst b) /\ is_bytes (snd b)) bargs ->
  forall c, In c (join [38] (map enc_pair bargs)) -> 33 <= c < 127 /\ c <> 35 /\ c <> 63 /\ c <> 47 /\ c <> 58.
Proof.
  assert (forall bs c, is_bytes bs -> In c (quote_plus_bytes bs) -> 33 <= c < 127 /\ c <> 35 /\ c <> 63 /\ c <> 47 /\ c <> 58) as Q.
  { intros bs c B I. apply quote_plus_chars in I; auto. destruct I as [I|[I|I]]; try lia. unfold always_safe, isalphac, isdigitc in I. lia. }
  intros F. induction F as [|[kb vb] db [H1 H2] F IH]; [intros c []|]. cbn [fst snd] in *.
  assert (forall c, In c (enc_pair (kb, vb)) -> 33 <= c < 127 /\ c <> 35 /\ c <> 63 /\ c <> 47 /\ c <> 58) as X.
  { intros c I. unfold enc_pair in I. apply in_app_or in I as [I|[I|I]]; [apply (Q kb); auto|subst; cbn; lia|apply (Q vb); auto]. }
  cbn [map join]. destruct (map enc_pair db) as [|p ps]; auto. intros c I. apply in_app_or in I as [I|I]; auto. destruct I as [I|I]; auto. lia.
Qed.
Lemma filter_id {A} (f : A -> bool) l : (forall x, In x l -> f x = true) -> filter f l = l.
Proof. induction l as [|x l IH]; cbn; auto. intros H. rewrite H by auto. f_equal. apply IH. auto. Qed.
Lemma clean_app url x : (forall c, In c x -> 33 <= c) -> x <> [] -> url_clean (url ++ x) = url_clean url ++ x.
Proof.
  intros H Hx. unfold url_clean.
  assert (lstripf (fun c => c <=? 32) (url ++ x) = lstripf (fun c => c <=? 32) url ++ x) as ->.
  { induction url as [|c url IH]; cbn [app lstripf].
    - destruct x as [|c x]; [contradiction|]. cbn [lstripf]. assert (33 <= c) by (apply H; left; auto). replace (c <=? 32) with false by lia. auto.
    - destruct (c <=? 32); auto. }
  rewrite filter_app. f_equal. apply filter_id. intros c Hc. apply H in Hc. lia.
Qed.
Lemma clean_In c url : 33 <= c -> In c (url_clean url) <-> In c url.
Proof.
  intros Hc. unfold url_clean. rewrite filter_In.
  assert (In c (lstripf (fun c => c <=? 32) url) <-> In c url) as ->.
  { induction url as [|x url IH]; cbn [lstripf]; [tauto|]. destruct (x <=? 32) eqn:E; [|tauto]. rewrite IH. split; [right; auto|]. intros [->|X]; auto. lia. }
  split; [tauto|]. intros H; split; auto. lia.
Qed.
Lemma split_scheme_app url x sch rest : ~ In 58 x -> split_scheme url = (sch, rest) -> split_scheme (url ++ x) = (sch, rest ++ x).
Proof.
  intros Hx. unfold split_scheme. destruct (cut 58 url) as [[a b]|] eqn:C.
  - apply cut_Some in C as [-> C]. rewrite <- app_assoc. cbn [app]. rewrite cut_app by auto. destruct a as [|c a]; [intros H; inv H; auto|].
    destruct (isalphac c && forallb scheme_char (c :: a)); intros H; inv H; rewrite <- ?app_assoc; cbn [app]; rewrite <- ?app_assoc; auto.
  - intros H; inv H. apply cut_None in C. assert (cut 58 (rest ++ x) = None) as ->; auto. apply cut_None. intros I. apply in_app_or in I as [I|I]; auto.
Qed.
Lemma split_scheme_63 url sch rest : split_scheme url = (sch, rest) -> In 63 url -> In 63 rest.
Proof.
  unfold split_scheme. intros H I. destruct (cut 58 url) as [[a b]|] eqn:C; [|inv H; auto]. apply cut_Some in C as [-> C].
  destruct a as [|c a]; [inv H; auto|]. destruct (isalphac c && forallb scheme_char (c :: a)) eqn:E; inv H; auto.
  apply in_app_or in I as [I|[I|I]]; auto; [|discriminate]. apply andb_prop in E as [_ E]. rewrite forallb_forall in E. apply E in I. discriminate.
Qed.
Lemma split_scheme_sub url sch rest c : split_scheme url = (sch, rest) -> In c rest -> In c url.
Proof.
  unfold split_scheme. intros H I. destruct (cut 58 url) as [[a b]|] eqn:C; [|inv H; auto]. apply cut_Some in C as [-> C].
  destruct a as [|x a]; [inv H; auto|]. destruct (isalphac x && _); inv H; auto. apply in_or_app. right. right. auto.
Qed.
Lemma splitnetloc_ext s x n r : splitnetloc s = (n, r) -> (exists c, In c s /\ netloc_end c = true) \/ (match x with [] => True | c :: _ => netloc_end c = true end) ->
  splitnetloc (s ++ x) = (n, r ++ x).
Proof.
  intros H Hx. apply splitnetloc_spec in H as (-> & N & R). rewrite <- app_assoc. apply splitnetloc_app; auto.
  destruct r as [|c r]; auto. destruct Hx as [(c & I & E)|]; auto. rewrite app_nil_r in I. rewrite forallb_forall in N. apply N in I. rewrite E in I. discriminate.
Qed.
Lemma partition_ext c s x a b : ~ In c x -> In c s -> partition c s = (a, b) -> partition c (s ++ x) = (a, b ++ x).
Proof.
  intros Hx Hs. unfold partition. destruct (cut c s) as [[y z]|] eqn:E.
  - intros H; inv H. apply cut_Some in E as [-> E]. rewrite <- app_assoc. cbn [app]. rewrite cut_app; auto.
  - apply cut_None in E. contradiction.
Qed.
Lemma starts_app s x : match x with [] => True | c :: _ => c <> 47 end -> startswith (s ++ x) [47; 47] = startswith s [47; 47].
Proof.
  intros H. destruct s as [|a [|b s]]; cbn [app startswith].
  - destruct x as [|c x]; auto. replace (c =? 47) with false by lia. auto.
  - destruct x as [|c x]; auto. replace (c =? 47) with false by lia. rewrite !andb_false_r. auto.
  - auto.
Qed.
(** Appending "?q" to a URL without '?', or "&q" to one with, and no '#'. *)
Lemma urlsplit_append e url s q : urlsplit e url = Ok s -> ~ In 35 url ->
  (forall c, In c q -> 33 <= c < 127 /\ c <> 35 /\ c <> 63 /\ c <> 47 /\ c <> 58) ->
  urlsplit e (url ++ (if memc 63 url then 38 else 63) :: q) =
  Ok (mkSplit (sp_scheme s) (sp_netloc s) (sp_path s) (if memc 63 url then sp_query s ++ 38 :: q else q) []) /\
  (memc 63 url = false -> sp_query s = []) /\ sp_fragment s = [].
Proof.
  intros H N35 Hq. unfold urlsplit in *. set (sep := if memc 63 url then 38 else 63).
  assert (sep = 38 \/ sep = 63) as Hsep by (unfold sep; destruct (memc 63 url); auto).
  rewrite clean_app; [|intros c [<-|I]; [lia|apply Hq in I; lia]|discriminate].
  destruct (split_scheme (url_clean url)) as [sch rest] eqn:Es.
  rewrite (split_scheme_app _ (sep :: q) sch rest); auto.
  2:{ intros [X|X]; [lia|apply Hq in X; lia]. }
  change (u "//") with [47; 47] in *. rewrite starts_app by lia.
  binv H. destruct a as [netloc r].
  assert (~ In 35 rest) as R35.
  { intros I. apply N35. apply (clean_In 35); [lia|]. eapply split_scheme_sub; eauto. }
  assert (memc 63 url = true -> In 63 rest) as R63.
  { intros M. apply memc_In in M. eapply split_scheme_63; eauto. apply clean_In; [lia|auto]. }
  assert (In 63 rest -> memc 63 url = true) as R63'.
  { intros M. apply memc_In. apply (clean_In 63); [lia|]. eapply split_scheme_sub; eauto. }
  (* the authority *)
  assert ((if startswith rest [47; 47] then let (n, r0) := splitnetloc (skipn 2 (rest ++ sep :: q)) in if netloc_ok e n then Ok (n, r0) else Raise ValueError
           else Ok ([], rest ++ sep :: q)) = Ok (netloc, r ++ sep :: q) /\ (In 63 rest -> In 63 r) /\ (forall c, In c r -> In c rest)) as (E1 & E2 & E3).
  { destruct (startswith rest [47; 47]) eqn:St.
    - apply startswith_spec in St as (t & ->). cbn [app skipn] in *. destruct (splitnetloc t) as [n r0] eqn:Sn. destruct (netloc_ok e n) eqn:No; [|discriminate].
      injection E as -> ->. rewrite (splitnetloc_ext _ (sep :: q) _ _ Sn).
      + rewrite No. split; auto. apply splitnetloc_spec in Sn as (-> & S1 & S2). split.
        * intros [X|[X|I]]; try discriminate. apply in_app_or in I as [I|I]; auto. rewrite forallb_forall in S1. apply S1 in I. discriminate.
        * intros c I. right. right. apply in_or_app. auto.
      + destruct (memc 63 url) eqn:M; [left; exists 63; split; auto|right; reflexivity].
        destruct (R63 eq_refl) as [X|[X|I]]; auto; discriminate.
    - injection E as <- <-. split; auto. }
  match goal with |- bind ?m _ = _ /\ _ => replace m with (Ok (netloc, r ++ sep :: q) : res (text * text)) by (symmetry; exact E1) end.
  cbn [bind]. rewrite partition_nin in H by auto.
  rewrite partition_nin by (intros I; apply in_app_or in I as [I|[I|I]]; [auto|lia|apply Hq in I; lia]).
  destruct (partition 63 r) as [p qq] eqn:P. destruct (isascii netloc || ue_nfkc e netloc); [|discriminate]. injection H as <-.
  cbn [sp_scheme sp_netloc sp_path sp_query sp_fragment].
  destruct (memc 63 url) eqn:M.
  - rewrite (partition_ext 63 r _ p qq); auto; [|intros [X|X]; [discriminate X|apply Hq in X; lia]]. split; auto. split; [discriminate|auto].
  - assert (~ In 63 r) as Nr by (intros I; apply E3, R63' in I; congruence). unfold sep. rewrite partition_app by auto.
    rewrite partition_nin in P by auto. inv P. auto.
Qed.
