(** Lemmas about the [urllib.parse] functions of [UrlLib]. *)
From Coq Require Import Lia ZifyBool ZifyN ZifyNat.
From Verif Require Import Py PyFacts Utf8 Utf8Facts UrlLib.
Local Arguments u : simpl never.

Local Ltac Zify.zify_post_hook ::= Z.div_mod_to_equations.

(** ** Decoding with replacement *)
Lemma decode_replace_enc1 c b rest : enc1 c = Some b -> decode_replace (b ++ rest) = c :: decode_replace rest.
Proof.
  unfold enc1. intros H.
  destruct (c <? 128) eqn:E1; [injection H as <-|].
  { cbn [decode_replace app]. rewrite E1. reflexivity. }
  destruct (c <? 2048) eqn:E2; [injection H as <-|].
  { cbn [decode_replace app].
    replace (192 + c / 64 <? 128) with false by lia.
    replace (192 + c / 64 <? 194) with false by lia.
    replace (192 + c / 64 <? 224) with true by lia.
    replace (cont (128 + c mod 64)) with true by (unfold cont; lia). f_equal. lia. }
  destruct (c <? 65536) eqn:E3.
  { destruct ((55296 <=? c) && (c <=? 57343)) eqn:E4; [discriminate|]. injection H as <-.
    cbn [decode_replace app].
    replace (224 + c / 4096 <? 128) with false by lia.
    replace (224 + c / 4096 <? 194) with false by lia.
    replace (224 + c / 4096 <? 224) with false by lia.
    replace (224 + c / 4096 <? 240) with true by lia.
    replace (cont (128 + c mod 64)) with true by (unfold cont; lia).
    replace (cont (128 + (c / 64) mod 64)) with true by (unfold cont; lia). cbn [negb orb].
    replace (if 128 + (c / 64) mod 64 <? 160 then 224 + c / 4096 =? 224 else 224 + c / 4096 =? 237) with false.
    - f_equal. lia.
    - destruct (128 + (c / 64) mod 64 <? 160) eqn:F; lia. }
  destruct (c <? 1114112) eqn:E4; [injection H as <-|discriminate].
  cbn [decode_replace app].
  replace (240 + c / 262144 <? 128) with false by lia.
  replace (240 + c / 262144 <? 194) with false by lia.
  replace (240 + c / 262144 <? 224) with false by lia.
  replace (240 + c / 262144 <? 240) with false by lia.
  replace (240 + c / 262144 <? 245) with true by lia.
  replace (cont (128 + c mod 64)) with true by (unfold cont; lia).
  replace (cont (128 + (c / 64) mod 64)) with true by (unfold cont; lia).
  replace (cont (128 + (c / 4096) mod 64)) with true by (unfold cont; lia). cbn [negb orb].
  replace (if 128 + (c / 4096) mod 64 <? 144 then 240 + c / 262144 =? 240 else 240 + c / 262144 =? 244) with false.
  - f_equal. lia.
  - destruct (128 + (c / 4096) mod 64 <? 144) eqn:F; lia.
Qed.
Lemma decode_replace_encode s b : encode s = Ok b -> decode_replace b = s.
Proof.
  revert b. induction s as [|c s IH]; cbn [encode]; intros b H.
  - inv H. reflexivity.
  - destruct (enc1 c) as [bc|] eqn:E; [|discriminate]. binv H. inv H. rewrite (decode_replace_enc1 c) by auto. f_equal. auto.
Qed.
Lemma decode_replace_nil b : decode_replace b = [] -> b = [].
Proof.
  destruct b as [|a r]; auto. cbn [decode_replace]. intros H. exfalso.
  repeat match type of H with
         | context [if ?x then _ else _] => destruct x
         | context [match ?r with [] => _ | _ :: _ => _ end] => destruct r
         end; discriminate.
Qed.
Lemma isascii_In s c : isascii s = true -> In c s -> c < 128.
Proof. unfold isascii. rewrite forallb_forall. intros H I. apply H in I. lia. Qed.
Lemma isascii_app a b : isascii (a ++ b) = isascii a && isascii b.
Proof. apply forallb_app. Qed.

(** ** quote and unquote *)
Definition safe_ok (safe : text) : Prop := isascii safe = true /\ ~ In 37 safe.
Lemma always_safe_spec c : always_safe c = true -> c < 128 /\ c <> 37 /\ c <> 43 /\ c <> 32 /\ c <> 38 /\ c <> 61 /\ c <> 35 /\ c <> 63 /\ c <> 47.
Proof. unfold always_safe, isalphac, isdigitc. lia. Qed.
Lemma hexdigit_val n : n < 16 -> hexval (hexdigit n) = Some n.
Proof.
  intros H. unfold hexdigit, hexval. destruct (n <? 10) eqn:E.
  - replace ((48 <=? 48 + n) && (48 + n <=? 57)) with true by lia. f_equal. lia.
  - replace ((48 <=? 55 + n) && (55 + n <=? 57)) with false by lia.
    replace ((65 <=? 55 + n) && (55 + n <=? 70)) with true by lia. f_equal. lia.
Qed.
Lemma hexdigit_safe n : n < 16 -> always_safe (hexdigit n) = true.
Proof. intros H. unfold always_safe, isalphac, isdigitc, hexdigit. destruct (n <? 10) eqn:E; lia. Qed.
Lemma unquote_quote_byte safe b rest : safe_ok safe -> b < 256 ->
  unquote_to_bytes (quote_byte safe b ++ rest) = b :: unquote_to_bytes rest.
Proof.
  intros [S1 S2] H. unfold quote_byte. destruct (always_safe b || memc b safe) eqn:E; cbn [app unquote_to_bytes].
  - replace (b =? 37) with false; auto. symmetry. apply N.eqb_neq. intros ->. apply orb_prop in E as [E|E].
    + apply always_safe_spec in E. tauto.
    + apply memc_In in E. contradiction.
  - replace (37 =? 37) with true by lia. rewrite !hexdigit_val by (zify; lia). f_equal. lia.
Qed.
Lemma unquote_quote_bytes safe bs : safe_ok safe -> Forall (fun b => b < 256) bs ->
  unquote_to_bytes (quote_from_bytes safe bs) = bs.
Proof.
  intros S H. unfold quote_from_bytes. induction H as [|b bs Hb H IH]; auto. cbn [map List.concat].
  rewrite unquote_quote_byte by auto. f_equal. auto.
Qed.
(** The characters of a quoted text. *)
Lemma quote_byte_chars safe b c : b < 256 -> In c (quote_byte safe b) -> always_safe c = true \/ In c safe \/ c = 37.
Proof.
  intros Hb. unfold quote_byte. destruct (always_safe b || memc b safe) eqn:E; intros H.
  - destruct H as [<-|[]]. apply orb_prop in E as [E|E]; auto. apply memc_In in E. auto.
  - destruct H as [<-|[<-|[<-|[]]]]; auto; left; apply hexdigit_safe; zify; lia.
Qed.
Lemma quote_bytes_chars safe bs c : Forall (fun b => b < 256) bs -> In c (quote_from_bytes safe bs) ->
  always_safe c = true \/ In c safe \/ c = 37.
Proof.
  intros H I. unfold quote_from_bytes in I. apply in_concat in I as (x & I1 & I2). apply in_map_iff in I1 as (b & <- & I1).
  rewrite Forall_forall in H. eapply quote_byte_chars; eauto.
Qed.
Lemma quote_bytes_ascii safe bs : isascii safe = true -> Forall (fun b => b < 256) bs -> isascii (quote_from_bytes safe bs) = true.
Proof.
  intros S H. apply forallb_forall. intros c I. apply quote_bytes_chars in I; auto.
  destruct I as [I|[I|I]]; [apply always_safe_spec in I; lia|apply (isascii_In _ _ S) in I; lia|lia].
Qed.
Lemma unquote_runs_ascii s : forall acc, isascii s = true -> unquote_runs acc s = decode_replace (unquote_to_bytes (rev acc ++ s)).
Proof.
  induction s as [|c s IH]; intros acc H; cbn [unquote_runs].
  - rewrite app_nil_r. auto.
  - cbn in H. apply andb_true_iff in H as [H1 H2]. rewrite H1, IH by auto. simpl. rewrite <- app_assoc. auto.
Qed.
Lemma unquote_to_bytes_plain s : ~ In 37 s -> unquote_to_bytes s = s.
Proof.
  induction s as [|c s IH]; auto. intros H. cbn [unquote_to_bytes]. replace (c =? 37) with false.
  - f_equal. apply IH. intros X. apply H. right. auto.
  - symmetry. apply N.eqb_neq. intros ->. apply H. left. auto.
Qed.
Lemma decode_replace_ascii s : isascii s = true -> decode_replace s = s.
Proof. intros H. apply decode_replace_encode. apply encode_ascii. auto. Qed.
Lemma unquote_ascii s : isascii s = true -> unquote s = decode_replace (unquote_to_bytes s).
Proof.
  intros H. unfold unquote. destruct (memc 37 s) eqn:E.
  - rewrite unquote_runs_ascii; auto.
  - apply memc_false in E. rewrite unquote_to_bytes_plain, decode_replace_ascii; auto.
Qed.
Lemma unquote_quote safe s q : safe_ok safe -> quote safe s = Ok q -> unquote q = s.
Proof.
  intros S H. unfold quote in H. binv H. inv H. pose proof (encode_bytes _ _ E) as B.
  rewrite unquote_ascii by (apply quote_bytes_ascii; auto; apply S). rewrite unquote_quote_bytes by auto.
  apply decode_replace_encode; auto.
Qed.
Lemma quote_chars safe s q c : quote safe s = Ok q -> In c q -> always_safe c = true \/ In c safe \/ c = 37.
Proof. intros H I. unfold quote in H. binv H. inv H. apply (quote_bytes_chars safe a); auto. eapply encode_bytes; eauto. Qed.

(** quote_plus: no space is left, and unquote_plus gives the text back. *)
Lemma quote_plus_bytes_alt bs : Forall (fun b => b < 256) bs ->
  quote_plus_bytes bs = List.concat (map (fun b => if b =? 32 then [43] else quote_byte [] b) bs).
Proof.
  intros H. unfold quote_plus_bytes. destruct (memc 32 bs) eqn:E.
  - unfold quote_from_bytes, replace_char. rewrite concat_map, map_map. f_equal. apply map_ext_in. intros b Hb.
    destruct (b =? 32) eqn:Eb.
    + apply N.eqb_eq in Eb. subst. reflexivity.
    + rewrite Forall_forall in H. apply H in Hb. unfold quote_byte.
      assert (memc b [32] = false) as -> by (cbn; rewrite Eb; auto). cbn [memc existsb]. rewrite orb_false_r.
      destruct (always_safe b); cbn [map]; [rewrite Eb; auto|].
      assert (hexdigit (b / 16) =? 32 = false) as -> by (unfold hexdigit; destruct (_ <? 10); lia).
      assert (hexdigit (b mod 16) =? 32 = false) as -> by (unfold hexdigit; destruct (_ <? 10); lia). reflexivity.
  - unfold quote_from_bytes. f_equal. apply map_ext_in. intros b Hb. apply memc_false in E.
    replace (b =? 32) with false; auto. symmetry. apply N.eqb_neq. intros ->. contradiction.
Qed.
Lemma quote_plus_chars bs c : Forall (fun b => b < 256) bs -> In c (quote_plus_bytes bs) -> always_safe c = true \/ c = 43 \/ c = 37.
Proof.
  intros H I. rewrite quote_plus_bytes_alt in I by auto. apply in_concat in I as (x & I1 & I2). apply in_map_iff in I1 as (b & <- & I1).
  rewrite Forall_forall in H. apply H in I1. destruct (b =? 32).
  - destruct I2 as [<-|[]]; auto.
  - apply quote_byte_chars in I2 as [I2|[[]|I2]]; auto.
Qed.
Lemma quote_plus_ascii bs : Forall (fun b => b < 256) bs -> isascii (quote_plus_bytes bs) = true.
Proof.
  intros H. apply forallb_forall. intros c I. apply quote_plus_chars in I; auto.
  destruct I as [I|[I|I]]; [apply always_safe_spec in I; lia|lia|lia].
Qed.
Lemma unquote_plus_quote_plus_bytes bs s : encode s = Ok bs -> unquote_plus (quote_plus_bytes bs) = s.
Proof.
  intros E. pose proof (encode_bytes _ _ E) as B. unfold unquote_plus.
  assert (isascii (replace_char 43 32 (quote_plus_bytes bs)) = true) as A.
  { apply forallb_forall. intros c I. unfold replace_char in I. apply in_map_iff in I as (x & <- & I).
    pose proof (isascii_In _ _ (quote_plus_ascii bs B) I). destruct (x =? 43); lia. }
  rewrite unquote_ascii by auto.
  assert (unquote_to_bytes (replace_char 43 32 (quote_plus_bytes bs)) = bs) as ->; [|apply decode_replace_encode; auto].
  rewrite quote_plus_bytes_alt by auto. unfold replace_char. clear E A. induction B as [|b bs Hb B IH]; auto.
  cbn [map List.concat]. rewrite map_app. destruct (b =? 32) eqn:Eb.
  - apply N.eqb_eq in Eb. subst. cbn [map app]. replace (43 =? 43) with true by lia. cbn [unquote_to_bytes].
    replace (32 =? 37) with false by lia. f_equal. auto.
  - assert (map (fun x => if x =? 43 then 32 else x) (quote_byte [] b) = quote_byte [] b) as ->.
    { rewrite <- (map_id (quote_byte [] b)) at 2. apply map_ext_in. intros c I. apply quote_byte_chars in I; auto.
      replace (c =? 43) with false; auto. symmetry. apply N.eqb_neq. intros ->. destruct I as [I|[[]|I]]; [|discriminate].
      apply always_safe_spec in I. tauto. }
    rewrite unquote_quote_byte; [f_equal; auto| |auto]. split; auto.
Qed.
Lemma quote_plus_nil bs : Forall (fun b => b < 256) bs -> quote_plus_bytes bs = [] -> bs = [].
Proof.
  intros B H. rewrite quote_plus_bytes_alt in H by auto. destruct bs as [|b bs]; auto. exfalso. cbn [map List.concat] in H.
  destruct (b =? 32); [discriminate|]. unfold quote_byte in H. destruct (_ || _); discriminate.
Qed.
Lemma encode_nil s : encode s = Ok [] -> s = [].
Proof. intros H. apply decode_encode in H. inv H. auto. Qed.

(** ** Query strings *)
Lemma parse_qsl_flat keep q : parse_qsl keep q = flat_map (parse_qsl1 keep) (splitc 38 q).
Proof. destruct q; reflexivity. Qed.
Lemma parse_qsl_app keep a b : parse_qsl keep (a ++ 38 :: b) = parse_qsl keep a ++ parse_qsl keep b.
Proof.
  rewrite !parse_qsl_flat. assert (forall a b, splitc 38 (a ++ 38 :: b) = splitc 38 a ++ splitc 38 b) as E.
  { clear. intros a b. induction a as [|c a IH]; cbn [app splitc].
    - replace (38 =? 38) with true by lia. auto.
    - rewrite IH. destruct (c =? 38); auto. pose proof (splitc_nonempty 38 a). destruct (splitc 38 a); [contradiction|auto]. }
  rewrite E, flat_map_app. auto.
Qed.
Definition enc_pair (kv : bytes * bytes) : text := quote_plus_bytes (fst kv) ++ 61 :: quote_plus_bytes (snd kv).
Definition is_bytes (b : bytes) : Prop := Forall (fun x => x < 256) b.
Lemma quote_plus_free bs c : is_bytes bs -> c = 38 \/ c = 61 \/ c = 35 \/ c = 63 \/ c = 47 -> ~ In c (quote_plus_bytes bs).
Proof.
  intros H Hc I. apply quote_plus_chars in I; auto. destruct I as [I|[I|I]]; [apply always_safe_spec in I; lia|lia|lia].
Qed.
Lemma parse_qsl1_enc keep k v kb vb : encode k = Ok kb -> encode v = Ok vb -> (keep = true \/ v <> []) ->
  parse_qsl1 keep (enc_pair (kb, vb)) = [(k, v)].
Proof.
  intros Ek Ev H. unfold parse_qsl1, enc_pair. cbn [fst snd].
  assert (truthy (quote_plus_bytes kb ++ 61 :: quote_plus_bytes vb) = true) as -> by (destruct (quote_plus_bytes kb); auto).
  unfold partition. rewrite cut_app by (apply quote_plus_free; [eapply encode_bytes; eauto|auto]).
  rewrite (unquote_plus_quote_plus_bytes kb k), (unquote_plus_quote_plus_bytes vb v) by auto.
  destruct H as [->|H]; [rewrite orb_true_r; auto|].
  assert (truthy (quote_plus_bytes vb) = true) as ->; auto.
  apply truthy_true. intros X. apply quote_plus_nil in X; [|eapply encode_bytes; eauto]. subst. apply encode_nil in Ev. contradiction.
Qed.
Lemma enc_pair_free kb vb c : is_bytes kb -> is_bytes vb -> c = 38 \/ c = 35 \/ c = 63 \/ c = 47 -> ~ In c (enc_pair (kb, vb)).
Proof.
  intros H1 H2 Hc I. unfold enc_pair in I. apply in_app_or in I as [I|[I|I]]; cbn [fst snd] in I.
  - revert I. apply quote_plus_free; auto; tauto.
  - lia.
  - revert I. apply quote_plus_free; auto; tauto.
Qed.
Lemma parse_qsl_enc keep d db :
  Forall2 (fun kv b => encode (fst kv) = Ok (fst b) /\ encode (snd kv) = Ok (snd b)) d db ->
  (keep = true \/ Forall (fun kv => snd kv <> []) d) ->
  parse_qsl keep (join [38] (map enc_pair db)) = d.
Proof.
  intros F H. rewrite parse_qsl_flat. destruct db as [|b0 db0] eqn:Edb.
  - inv F. destruct keep; auto.
  - rewrite <- Edb in F. rewrite <- Edb at 1. assert (db <> []) as Ne by (rewrite Edb; discriminate). clear Edb b0 db0. rewrite splitc_join.
    + clear Ne. induction F as [|[k v] [kb vb] d db [E1 E2] F IH]; auto. cbn [map flat_map fst snd] in *.
      rewrite (parse_qsl1_enc keep k v); auto.
      * cbn [app]. f_equal. apply IH. destruct H as [H|H]; auto. inv H. auto.
      * destruct H as [H|H]; auto. inv H. auto.
    + destruct db; [contradiction|discriminate].
    + clear Ne H. induction F as [|[k v] [kb vb] d db [E1 E2] F IH]; cbn [map]; constructor; auto. cbn [fst snd] in *.
      apply enc_pair_free; auto; eapply encode_bytes; eauto.
Qed.
Lemma urlencode_Ok d q : urlencode d = Ok q -> exists db,
  Forall2 (fun kv b => encode (fst kv) = Ok (fst b) /\ encode (snd kv) = Ok (snd b)) d db /\ q = join [38] (map enc_pair db).
Proof.
  unfold urlencode. intros H. binv H. inv H.
  assert (exists db, Forall2 (fun kv b => encode (fst kv) = Ok (fst b) /\ encode (snd kv) = Ok (snd b)) d db /\ a = map enc_pair db) as (db & F & ->); [|eauto].
  revert a E. induction d as [|[k v] d IH]; cbn [mapM]; intros a E.
  - inv E. exists []. auto.
  - binv E. binv E. inv E. binv E0. binv E0. inv E0. unfold quote_plus in *. binv E. inv E. binv E2. inv E2. cbn [fst snd] in *.
    destruct (IH _ E1) as (db & F & ->). exists ((a0, a) :: db). split; auto.
Qed.
Lemma encode_all s : (exists b, encode s = Ok b) \/ encode s = Raise UnicodeEncodeError.
Proof. destruct (encode s) eqn:E; eauto. apply encode_Raise in E as ->. auto. Qed.
Lemma urlencode_err d e : urlencode d = Raise e -> e = UnicodeEncodeError.
Proof.
  unfold urlencode. intros H. assert (forall e, mapM (fun kv => k <- quote_plus (fst kv) ;; v <- quote_plus (snd kv) ;; Ok (k ++ 61 :: v)) d = Raise e -> e = UnicodeEncodeError) as K.
  { clear. induction d as [|[k v] d IH]; intros e H; [discriminate|]. cbn [mapM fst snd] in H. unfold quote_plus in H at 1 2.
    destruct (encode_all k) as [[kb E1]|E1]; rewrite E1 in H; cbn [bind] in H; [|inv H; auto].
    destruct (encode_all v) as [[vb E2]|E2]; rewrite E2 in H; cbn [bind] in H; [|inv H; auto].
    destruct (mapM _ d); cbn [bind] in H; [discriminate|]. inv H. auto. }
  destruct (mapM _ d) eqn:E; cbn [bind] in H; [discriminate|]. inv H. auto.
Qed.
Lemma urlencode_free db c : Forall (fun b => is_bytes (fst b) /\ is_bytes (snd b)) db -> c = 35 \/ c = 63 \/ c = 47 ->
  ~ In c (join [38] (map enc_pair db)).
Proof.
  intros F Hc. induction F as [|[kb vb] db [H1 H2] F IH]; [intros []|]. cbn [map join].
  assert (~ In c (enc_pair (kb, vb))) as X by (apply enc_pair_free; auto; tauto).
  destruct (map enc_pair db) as [|p ps]; auto. intros I. apply in_app_or in I as [I|I]; auto. destruct I as [I|I]; auto. lia.
Qed.

(** ** Splitting URLs *)
Lemma splitnetloc_app n r : forallb (fun c => negb (netloc_end c)) n = true -> match r with [] => True | c :: _ => netloc_end c = true end ->
  splitnetloc (n ++ r) = (n, r).
Proof.
  intros H R. induction n as [|c n IH]; cbn [app].
  - destruct r as [|c r]; auto. cbn [splitnetloc]. rewrite R. auto.
  - cbn in H. apply andb_true_iff in H as [H1 H2]. apply negb_true_iff in H1. cbn [splitnetloc]. rewrite H1, IH; auto.
Qed.
Lemma splitnetloc_spec s n r : splitnetloc s = (n, r) -> s = n ++ r /\ forallb (fun c => negb (netloc_end c)) n = true /\
  match r with [] => True | c :: _ => netloc_end c = true end.
Proof.
  revert n r. induction s as [|c s IH]; cbn [splitnetloc]; intros n r H.
  - inv H. auto.
  - destruct (netloc_end c) eqn:E.
    + inv H. auto.
    + destruct (splitnetloc s) as [a b]. inv H. destruct (IH a r eq_refl) as (-> & H1 & H2). cbn [app forallb]. rewrite E, H1. auto.
Qed.
Lemma partition_app c a b : ~ In c a -> partition c (a ++ c :: b) = (a, b).
Proof. intros H. unfold partition. rewrite cut_app; auto. Qed.
Lemma partition_nin c a : ~ In c a -> partition c a = (a, []).
Proof. intros H. unfold partition. apply cut_None in H. rewrite H. auto. Qed.
Lemma partition_spec c s a b : partition c s = (a, b) -> ~ In c a /\ (s = a ++ c :: b \/ (s = a /\ b = [])).
Proof.
  unfold partition. destruct (cut c s) as [[x y]|] eqn:E; intros H; inv H.
  - apply cut_Some in E as [-> E]. auto.
  - apply cut_None in E. auto.
Qed.
