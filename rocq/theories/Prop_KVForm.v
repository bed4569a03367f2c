(** C01, C02: Key-Value form. *)
From Coq Require Import Permutation Lia ZifyBool ZifyN ZifyNat.
From Verif Require Import Py PyFacts Utf8 Utf8Facts KVForm KVFormFacts.

(** Specification, written without the model's helpers. *)
Definition white_chars : text :=               (* str.strip: what Unicode takes for white space *)
  [9; 10; 11; 12; 13; 28; 29; 30; 31; 32; 133; 160; 5760; 8192; 8193; 8194; 8195; 8196; 8197; 8198; 8199;
   8200; 8201; 8202; 8232; 8233; 8239; 8287; 12288].
Definition sp_ws (s : text) : Prop :=          (* leading or trailing white space *)
  (exists c r, s = c :: r /\ In c white_chars) \/ (exists c r, s = r ++ [c] /\ In c white_chars).
Definition writable (kv : text * text) : Prop :=
  ~ In 10 (fst kv) /\ ~ In 58 (fst kv) /\ ~ In 10 (snd kv).
Definition tidy (kv : text * text) : Prop := ~ sp_ws (fst kv) /\ ~ sp_ws (snd kv).
(** "key:value\n" for each pair in order. *)
Fixpoint kv_text (seq : list (text * text)) : text :=
  match seq with
  | [] => []
  | (k, v) :: r => k ++ u ":" ++ v ++ [10] ++ kv_text r
  end.

Theorem C02_white : forall c, isspace c = true <-> In c white_chars.
Proof. intros c. unfold isspace, white_chars. cbn [In]. lia. Qed.
Print Assumptions C02_white.
Lemma sp_ws_clean s : clean isspace s <-> ~ sp_ws s.
Proof.
  assert (sp_ws s <-> (exists c r, s = c :: r /\ isspace c = true) \/ (exists c r, s = r ++ [c] /\ isspace c = true)) as ->.
  { unfold sp_ws. setoid_rewrite C02_white. tauto. }
  split.
  - intros H [(c & r & -> & Hc)|(c & r & -> & Hc)].
    + destruct H as [H _]. congruence.
    + destruct H as [_ H]. rewrite rev_app_distr in H. simpl in H. congruence.
  - intros H. split.
    + destruct s as [|x s]; auto. destruct (isspace x) eqn:E; auto. exfalso; apply H. left; eauto.
    + destruct (rev s) as [|x r] eqn:R; auto. destruct (isspace x) eqn:E; auto. exfalso; apply H. right.
      exists x, (rev r). split; auto. rewrite <- (rev_involutive s), R. auto.
Qed.
Lemma pair_ok_spec strict kv : pair_ok strict kv <-> writable kv /\ (strict = true -> tidy kv).
Proof. unfold pair_ok, writable, tidy. rewrite <- !sp_ws_clean. tauto. Qed.
Lemma kv_text_lines seq : kv_text seq = List.concat (map kv_line seq).
Proof.
  induction seq as [|[k v] r IH]; auto. simpl. rewrite IH. unfold kv_line; simpl.
  repeat (rewrite <- app_assoc; simpl). auto.
Qed.

(** ** C01: two different sequences never serialise to the same bytes. *)
Theorem C01_kv_injective :
  forall strict1 strict2 seq1 seq2 t1 t2 b,
    seqToKV strict1 seq1 = Ok t1 -> encode t1 = Ok b ->
    seqToKV strict2 seq2 = Ok t2 -> encode t2 = Ok b ->
    seq1 = seq2.
Proof.
  intros * H1 E1 H2 E2. eapply seqToKV_inj; eauto. rewrite H2. f_equal. eapply encode_inj; eauto.
Qed.
Print Assumptions C01_kv_injective.

Example C01_example :
  exists t b, seqToKV false [(u "a", u "b:c"); (u "a", []); ([], u " x ")] = Ok t /\ encode t = Ok b.
Proof. eexists; eexists; split; vm_compute; reflexivity. Qed.

(** ** C02: which sequences are accepted, what is written, and the only exception. *)
Theorem C02_kv_accepts_exactly :
  forall strict seq,
    (Forall (fun kv => writable kv /\ (strict = true -> tidy kv)) seq ->
       seqToKV strict seq = Ok (kv_text seq)) /\
    (~ Forall (fun kv => writable kv /\ (strict = true -> tidy kv)) seq ->
       seqToKV strict seq = Raise KVFormError).
Proof.
  intros strict seq.
  assert (forall l, Forall (fun kv => writable kv /\ (strict = true -> tidy kv)) l <-> Forall (pair_ok strict) l) as W.
  { intros l. rewrite !Forall_forall. split; intros H x Hx; apply pair_ok_spec; auto. }
  rewrite W. split.
  - intros H. apply seqToKV_Ok. split; auto. apply kv_text_lines.
  - intros H. destruct (seqToKV strict seq) as [t|e] eqn:E.
    + apply seqToKV_Ok in E. tauto.
    + apply seqToKV_Raise in E. congruence.
Qed.
Print Assumptions C02_kv_accepts_exactly.

Example C02_accepts_example :
  Forall (fun kv => writable kv /\ (true = true -> tidy kv)) [(u "mode", u "a: b"); (u "x", [])] /\
  ~ Forall (fun kv => writable kv /\ (true = true -> tidy kv)) [(u "mode ", u "b")].
Proof.
  split.
  - rewrite Forall_forall. intros x Hx. apply (pair_ok_spec true). revert x Hx. rewrite <- Forall_forall.
    apply (proj1 (seqToKV_Ok true _ (kv_text [(u "mode", u "a: b"); (u "x", [])]))). vm_compute. reflexivity.
  - intros H. rewrite Forall_forall in H. specialize (H (u "mode ", u "b") (or_introl eq_refl)) as [_ H].
    destruct (H eq_refl) as [H1 _]. apply H1. right. exists 32, (u "mode"). split; [reflexivity|apply C02_white; reflexivity].
Qed.

(** Reading back what was written gives the same sequence. *)
Theorem C02_kv_round_trip :
  forall strict seq t,
    Forall tidy seq ->
    seqToKV strict seq = Ok t ->
    kvToSeq false t = Ok seq /\
    (Forall (fun kv => fst kv <> []) seq -> kvToSeq true t = Ok seq).
Proof.
  intros strict seq t HT H. apply seqToKV_Ok in H as (HF & ->).
  assert (Forall (pair_ok true) seq) as HF'.
  { rewrite Forall_forall in *. intros x Hx. apply pair_ok_spec. specialize (HF x Hx).
    apply pair_ok_spec in HF. split; [tauto|auto]. }
  split; [apply kvToSeq_pairs; auto; discriminate | intros; apply kvToSeq_pairs; auto].
Qed.
Print Assumptions C02_kv_round_trip.

Example C02_round_trip_example :
  Forall tidy [(u "mode", u "a: b"); (u "mode", []); (u "x", u "y")] /\
  seqToKV true [(u "mode", u "a: b"); (u "mode", []); (u "x", u "y")] <> Raise KVFormError.
Proof.
  split; [|vm_compute; discriminate].
  apply (Forall_impl _ (P := pair_ok true)). { intros a H. apply pair_ok_spec in H. apply H; auto. }
  apply (proj1 (seqToKV_Ok true _ (kv_text [(u "mode", u "a: b"); (u "mode", []); (u "x", u "y")]))).
  vm_compute. reflexivity.
Qed.

(** The lenient parser accepts every text, and its result is a fixed point of
    writing and reading again. *)
Theorem C02_kv_parse_total_and_stable :
  forall data, exists ps,
    kvToSeq false data = Ok ps /\
    seqToKV true ps = Ok (kv_text ps) /\
    kvToSeq false (kv_text ps) = Ok ps.
Proof.
  intros data. destruct (kvToSeq_false_total data) as (ps & H). exists ps. split; auto.
  pose proof (kvToSeq_out _ _ _ H) as Ho. rewrite kv_text_lines. split.
  - apply seqToKV_Ok. auto.
  - apply kvToSeq_pairs; auto. discriminate.
Qed.
Print Assumptions C02_kv_parse_total_and_stable.

(** The strict parser accepts only texts that the strict writer produces (blank
    lines aside). *)
Theorem C02_kv_strict_parse_exact :
  forall data ps,
    kvToSeq true data = Ok ps ->
    (forall l, In l (removelast (splitc 10 data)) -> exists c, In c l /\ ~ In c white_chars) ->
    data = kv_text ps.
Proof.
  intros data ps H Hb.
  assert (Forall (fun l => strip l <> []) (removelast (splitc newline data))) as HF.
  { rewrite Forall_forall. intros l Hl. destruct (Hb l Hl) as (c & Hc & Hs). intros E. apply stripf_nil in E.
    rewrite forallb_forall in E. apply Hs, C02_white, E, Hc. }
  apply (kvToSeq_strict_exact data ps H) in HF. apply seqToKV_Ok in HF as (_ & ->).
  symmetry. apply kv_text_lines.
Qed.
Print Assumptions C02_kv_strict_parse_exact.

Example C02_strict_parse_example :
  exists ps, kvToSeq true (u "a:b" ++ [10] ++ u "c:" ++ [10]) = Ok ps /\ List.length ps = 2%nat.
Proof. eexists. split; vm_compute; reflexivity. Qed.

(** Dictionaries: the text does not depend on insertion order, and reading it back
    gives the same mapping. *)
Theorem C02_kv_dict :
  forall d d' t,
    NoDup (map fst d) -> Permutation d d' -> Forall tidy d ->
    dictToKV d = Ok t ->
    dictToKV d' = Ok t /\
    exists e, kvToDict t = Ok e /\
              (forall k v, In (k, v) e <-> In (k, v) d).
Proof.
  intros d d' t Hn P HT H. split; [rewrite <- H; symmetry; apply dictToKV_perm; auto|].
  destruct (kvToDict_dictToKV d t) as (e & E & He); auto.
  { eapply Forall_impl; [|exact HT]. intros a [A B]. rewrite !sp_ws_clean. auto. }
  exists e. split; auto. intros k v.
  assert (NoDup (dkeys e)) as Hne.
  { unfold kvToDict in E. binv E. injection E as <-. apply NoDup_dict_of, text_eqb_eq. }
  split; intros Hin.
  - apply (In_dget text_eqb text_eqb_eq) in Hin; auto. rewrite He in Hin.
    apply (dget_In text_eqb text_eqb_eq) in Hin; auto.
  - apply (In_dget text_eqb text_eqb_eq) in Hin; auto. rewrite <- He in Hin.
    apply (dget_In text_eqb text_eqb_eq) in Hin; auto.
Qed.
Print Assumptions C02_kv_dict.

Example C02_dict_example :
  dictToKV [(u "b", u "1"); (u "a", u "2")] = Ok (u "a:2" ++ [10] ++ u "b:1" ++ [10]).
Proof. vm_compute. reflexivity. Qed.
