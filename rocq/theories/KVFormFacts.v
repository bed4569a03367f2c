(** Proofs about [KVForm]. *)
From Coq Require Import Lia ZifyBool Permutation Sorted.
From Verif Require Import Py PyFacts KVForm.

#[local] Arguments seqToKV_line : simpl never.
#[local] Arguments kvToSeq_line : simpl never.

Definition pair_ok (strict : bool) (kv : text * text) : Prop :=
  ~ In newline (fst kv) /\ ~ In colon (fst kv) /\ ~ In newline (snd kv) /\
  (strict = true -> clean isspace (fst kv) /\ clean isspace (snd kv)).

Lemma strip_eqb_clean s : text_eqb (strip s) s = true <-> clean isspace s.
Proof. rewrite text_eqb_eq. apply stripf_fix_iff. Qed.

Lemma seqToKV_line_ok strict k v :
  pair_ok strict (k, v) -> seqToKV_line strict (k, v) = Ok (k ++ [colon] ++ v ++ [newline]).
Proof.
  unfold pair_ok, seqToKV_line; simpl. intros (H1 & H2 & H3 & H4).
  apply memc_false in H1, H2, H3. rewrite H1, H2, H3.
  destruct strict; simpl; auto.
  destruct H4 as [H4 H5]; auto. apply strip_eqb_clean in H4, H5. rewrite H4, H5. auto.
Qed.

Lemma seqToKV_line_inv strict k v r :
  seqToKV_line strict (k, v) = r ->
  (r = Ok (k ++ [colon] ++ v ++ [newline]) /\ pair_ok strict (k, v)) \/
  (r = Raise KVFormError /\ ~ pair_ok strict (k, v)).
Proof.
  unfold pair_ok, seqToKV_line; simpl. intros <-.
  destruct (memc newline k) eqn:E1. { right. split; auto. apply memc_In in E1. tauto. }
  destruct (memc colon k) eqn:E2. { right. split; auto. apply memc_In in E2. tauto. }
  destruct (strict && negb (text_eqb (strip k) k)) eqn:E3.
  { right. split; auto. apply andb_prop in E3 as [-> E3]. intros (_ & _ & _ & H).
    destruct H as [H _]; auto. apply strip_eqb_clean in H. rewrite H in E3. discriminate. }
  destruct (memc newline v) eqn:E4. { right. split; auto. apply memc_In in E4. tauto. }
  destruct (strict && negb (text_eqb (strip v) v)) eqn:E5.
  { right. split; auto. apply andb_prop in E5 as [-> E5]. intros (_ & _ & _ & H).
    destruct H as [_ H]; auto. apply strip_eqb_clean in H. rewrite H in E5. discriminate. }
  left. split; auto. apply memc_false in E1, E2, E4. repeat split; auto;
    subst strict; simpl in *; apply strip_eqb_clean.
  all: apply Bool.negb_false_iff; auto.
Qed.

Definition kv_line (kv : text * text) : text := fst kv ++ colon :: snd kv ++ [newline].

Lemma seqToKV_Ok strict seq t :
  seqToKV strict seq = Ok t <-> Forall (pair_ok strict) seq /\ t = List.concat (map kv_line seq).
Proof.
  unfold seqToKV. revert t; induction seq as [|[k v] seq IH]; intros t; simpl.
  - split; [intros H; inv H; auto | intros (_ & ->); auto].
  - destruct (seqToKV_line_inv strict k v _ eq_refl) as [[E Hp]|[E Hp]]; rewrite E; simpl.
    + destruct (mapM (seqToKV_line strict) seq) as [ls|e] eqn:M; simpl in *.
      * split.
        -- intros H; inv H. destruct (proj1 (IH (List.concat ls)) eq_refl) as (HF & ->).
           split; [constructor; auto|]. unfold kv_line; simpl. rewrite <- !app_assoc. simpl. rewrite <- app_assoc. auto.
        -- intros (HF & ->). inv HF.
           assert (Ok (List.concat ls) = Ok (List.concat (map kv_line seq))) as K.
           { apply IH. auto. }
           inv K. unfold kv_line; simpl. rewrite H0. repeat (rewrite <- app_assoc; simpl). auto.
      * split; [discriminate|]. intros (HF & _). inv HF.
        assert (@Raise text e = Ok (List.concat (map kv_line seq))) as K by (apply IH; auto). discriminate.
    + split; [discriminate|]. intros (HF & _). inv HF. contradiction.
Qed.

Lemma seqToKV_Raise strict seq e : seqToKV strict seq = Raise e -> e = KVFormError.
Proof.
  unfold seqToKV. induction seq as [|[k v] seq IH]; simpl; [discriminate|].
  destruct (seqToKV_line_inv strict k v _ eq_refl) as [[E Hp]|[E Hp]]; rewrite E; simpl.
  - destruct (mapM (seqToKV_line strict) seq); simpl in *; [discriminate|auto].
  - congruence.
Qed.

Lemma kv_line_inj kv kv' r r' :
  pair_ok false kv -> pair_ok false kv' ->
  kv_line kv ++ r = kv_line kv' ++ r' -> kv = kv' /\ r = r'.
Proof.
  destruct kv as [k v], kv' as [k' v']. unfold pair_ok, kv_line; simpl.
  intros (H1 & H2 & H3 & _) (H1' & H2' & H3' & _) E.
  repeat (rewrite <- app_assoc in E; simpl in E).
  pose proof (cut_app colon k (v ++ newline :: r) H2) as C.
  pose proof (cut_app colon k' (v' ++ newline :: r') H2') as C'.
  rewrite E, C' in C. injection C as -> E'.
  pose proof (cut_app newline v r H3) as D.
  pose proof (cut_app newline v' r' H3') as D'.
  rewrite <- E', D' in D. injection D as -> ->. auto.
Qed.

Lemma seqToKV_inj st st' s1 s2 t : seqToKV st s1 = Ok t -> seqToKV st' s2 = Ok t -> s1 = s2.
Proof.
  intros H1 H2. apply seqToKV_Ok in H1 as (F1 & ->). apply seqToKV_Ok in H2 as (F2 & E).
  assert (forall l, pair_ok st l -> pair_ok false l) as W1 by (unfold pair_ok; intuition discriminate).
  assert (forall l, pair_ok st' l -> pair_ok false l) as W2 by (unfold pair_ok; intuition discriminate).
  assert (Forall (pair_ok false) s1) as G1 by (eapply Forall_impl; [|exact F1]; auto).
  assert (Forall (pair_ok false) s2) as G2 by (eapply Forall_impl; [|exact F2]; auto).
  clear F1 F2 W1 W2. revert s2 G2 E.
  induction G1 as [|x s1 Hx G1 IH]; intros [|y s2] G2 E; auto.
  - simpl in E. destruct y as [k v]. unfold kv_line in E. simpl in E. destruct k; discriminate.
  - simpl in E. destruct x as [k v]. unfold kv_line in E. simpl in E. destruct k; discriminate.
  - inv G2. simpl in E. apply kv_line_inj in E as (-> & E); auto. f_equal. auto.
Qed.

(** ** Parsing *)
Lemma catSome_app {A} (a b : list (option A)) : catSome (a ++ b) = catSome a ++ catSome b.
Proof. apply flat_map_app. Qed.

Lemma kvLines_false data : exists ls, kvLines false data = Ok ls /\ Forall (fun p => ~ In newline p) ls.
Proof.
  unfold kvLines. pose proof (splitc_pieces newline data) as HF.
  destruct (last (splitc newline data) []).
  - eexists; split; eauto. rewrite Forall_forall in *. intros x Hx. apply HF.
    pose proof (splitc_nonempty newline data) as Hne.
    rewrite (app_removelast_last [] Hne). apply in_or_app; auto.
  - eexists; split; eauto.
Qed.

Lemma kvLines_terminated strict ls :
  Forall (fun p => ~ In newline p) ls ->
  kvLines strict (List.concat (map (fun l => l ++ [newline]) ls)) = Ok ls.
Proof.
  intros HF. unfold kvLines.
  assert (splitc newline (List.concat (map (fun l => l ++ [newline]) ls)) = ls ++ [[]]) as ->.
  { induction HF as [|l ls Hl HF IH]; simpl; auto. rewrite <- app_assoc. simpl.
    rewrite splitc_app by auto. rewrite IH. auto. }
  rewrite last_last, removelast_last. auto.
Qed.

Lemma kvToSeq_line_false line : exists o, kvToSeq_line false line = Ok o.
Proof.
  unfold kvToSeq_line. destruct (negb (truthy (strip line))); eauto.
  destruct (cut colon line) as [[k v]|]; simpl; eauto.
Qed.

Lemma kvToSeq_false_total data : exists ps, kvToSeq false data = Ok ps.
Proof.
  unfold kvToSeq. destruct (kvLines_false data) as (ls & -> & _). simpl.
  assert (exists os, mapM (kvToSeq_line false) ls = Ok os) as (os & ->).
  { clear. induction ls as [|l ls (os & IH)]; simpl; eauto.
    destruct (kvToSeq_line_false l) as (o & ->). simpl. rewrite IH. simpl. eauto. }
  simpl. eauto.
Qed.

Lemma clean_not_newline s : clean isspace s -> forall c, isspace c = true -> hd 0 s = c -> s = [].
Proof. destruct s as [|x s]; auto. intros (H & _) c Hc Hh. simpl in *. congruence. Qed.

Lemma kvToSeq_line_pair strict k v :
  pair_ok true (k, v) -> (strict = true -> k <> []) ->
  kvToSeq_line strict (k ++ colon :: v) = Ok (Some (k, v)).
Proof.
  unfold pair_ok; simpl. intros (H1 & H2 & H3 & H4) Hs. destruct H4 as [Ck Cv]; auto.
  unfold kvToSeq_line.
  assert (truthy (strip (k ++ colon :: v)) = true) as ->.
  { apply truthy_true. unfold strip. rewrite stripf_nil. rewrite forallb_app. simpl.
    change (isspace colon) with false. rewrite andb_false_r. discriminate. }
  simpl. rewrite cut_app by auto.
  assert (strip k = k) as -> by (apply stripf_clean; auto).
  assert (strip v = v) as -> by (apply stripf_clean; auto).
  rewrite !text_eqb_refl. simpl. rewrite !andb_false_r.
  destruct strict; simpl; auto. destruct k; auto. exfalso; apply Hs; auto.
Qed.

Lemma kvToSeq_pairs strict ps :
  Forall (pair_ok true) ps -> (strict = true -> Forall (fun p => fst p <> []) ps) ->
  kvToSeq strict (List.concat (map kv_line ps)) = Ok ps.
Proof.
  intros HF Hs. unfold kvToSeq.
  replace (map kv_line ps) with (map (fun l => l ++ [newline]) (map (fun p => fst p ++ colon :: snd p) ps)).
  2:{ rewrite map_map. apply map_ext. intros [k v]. unfold kv_line. simpl. rewrite <- app_assoc. auto. }
  rewrite kvLines_terminated.
  2:{ rewrite Forall_map. eapply Forall_impl; eauto. intros [k v]. unfold pair_ok; simpl.
      intros (H1 & H2 & H3 & _) Hin. apply in_app_or in Hin as [|[Hc|]]; auto.
      unfold colon, newline in Hc. discriminate. }
  simpl.
  assert (mapM (kvToSeq_line strict) (map (fun p => fst p ++ colon :: snd p) ps) = Ok (map Some ps)) as ->.
  { clear -HF Hs. induction HF as [|[k v] ps Hp HF IH]; simpl; auto.
    rewrite kvToSeq_line_pair; auto.
    - simpl. rewrite IH; auto. intros E. specialize (Hs E). inv Hs; auto.
    - intros E. specialize (Hs E). inv Hs; auto. }
  simpl. f_equal. clear. induction ps; simpl; congruence.
Qed.

Lemma kvToSeq_line_out strict line k v :
  ~ In newline line -> kvToSeq_line strict line = Ok (Some (k, v)) -> pair_ok true (k, v).
Proof.
  unfold kvToSeq_line. intros Hn. destruct (negb (truthy (strip line))); [discriminate|].
  destruct (cut colon line) as [[k0 v0]|] eqn:C; [|destruct strict; discriminate].
  apply cut_Some in C as (-> & Hc).
  repeat match goal with |- context [if ?b then _ else _] => destruct b; try discriminate end.
  intros H; inv H. unfold pair_ok; simpl. repeat split; try apply clean_stripf;
    intros Hin; apply stripf_In in Hin; auto; apply Hn, in_or_app; simpl; auto.
Qed.

Lemma kvToSeq_out strict data ps : kvToSeq strict data = Ok ps -> Forall (pair_ok true) ps.
Proof.
  unfold kvToSeq. intros H. binv H. binv H. injection H as <-.
  assert (Forall (fun p => ~ In newline p) a) as HF.
  { destruct strict.
    - unfold kvLines in E. destruct (last (splitc newline data) []); [|discriminate]. injection E as <-.
      pose proof (splitc_pieces newline data) as HF. pose proof (splitc_nonempty newline data) as Hne.
      rewrite (app_removelast_last [] Hne) in HF. apply Forall_app in HF. tauto.
    - destruct (kvLines_false data) as (ls & E' & HF). congruence. }
  apply mapM_Ok_Forall2 in E0. clear E.
  induction E0 as [|l o ls os Hl H2 IH]; simpl; [constructor|]. inv HF.
  destruct o as [[k v]|]; simpl; auto. constructor; auto. eapply kvToSeq_line_out; eauto.
Qed.

Lemma kvToSeq_stable strict data ps :
  kvToSeq strict data = Ok ps ->
  exists t, seqToKV true ps = Ok t /\ kvToSeq false t = Ok ps.
Proof.
  intros H. apply kvToSeq_out in H. exists (List.concat (map kv_line ps)). split.
  - apply seqToKV_Ok. auto.
  - apply kvToSeq_pairs; auto. discriminate.
Qed.

(** Strict parsing of text without blank lines is exact. *)
Lemma kvToSeq_strict_exact data ps :
  kvToSeq true data = Ok ps ->
  Forall (fun l => strip l <> []) (removelast (splitc newline data)) ->
  seqToKV true ps = Ok data.
Proof.
  intros H HF. pose proof (kvToSeq_out _ _ _ H) as Ho. apply seqToKV_Ok. split; auto.
  unfold kvToSeq in H. binv H. binv H. injection H as <-.
  unfold kvLines in E. pose proof (splitc_nonempty newline data) as Hne.
  destruct (last (splitc newline data) []) eqn:L; [|discriminate]. injection E as <-.
  rewrite <- (join_splitc newline data) at 1. replace (splitc newline data) with (removelast (splitc newline data) ++ [[]]).
  2:{ rewrite (app_removelast_last [] Hne) at 2. f_equal. f_equal. symmetry. exact L. }
  remember (removelast (splitc newline data)) as ls eqn:Els. clear Els L Hne Ho.
  apply mapM_Ok_Forall2 in E0.
  transitivity (List.concat (map (fun l => l ++ [newline]) ls)).
  { clear. induction ls as [|l ls IH]; auto. simpl. rewrite <- IH. destruct ls; simpl; rewrite <- ?app_assoc; auto. }
  induction E0 as [|l o ls os Hl H2 IH]; auto. inv HF. simpl. rewrite IH by auto.
  unfold kvToSeq_line in Hl. destruct (truthy (strip l)) eqn:T; [|apply truthy_false in T; contradiction].
  simpl in Hl. destruct (cut colon l) as [[k v]|] eqn:C; [|discriminate].
  destruct (text_eqb (strip k) k) eqn:E1; [|discriminate].
  destruct (truthy (strip k)); [|discriminate].
  destruct (text_eqb (strip v) v) eqn:E2; [|discriminate]. simpl in Hl. injection Hl as <-.
  apply text_eqb_eq in E1, E2. apply cut_Some in C as (-> & _). simpl. rewrite E1, E2.
  unfold kv_line; simpl. repeat (rewrite <- app_assoc; simpl). auto.
Qed.

(** ** Dictionaries *)
Lemma pair_leb_total a b : pair_leb a b = true \/ pair_leb b a = true.
Proof.
  unfold pair_leb. rewrite (text_eqb_sym (fst b)). destruct (text_eqb (fst a) (fst b)); apply text_leb_total.
Qed.
Lemma pair_leb_trans a b c : pair_leb a b = true -> pair_leb b c = true -> pair_leb a c = true.
Proof.
  unfold pair_leb. destruct (text_eqb (fst a) (fst b)) eqn:E1; destruct (text_eqb (fst b) (fst c)) eqn:E2.
  - apply text_eqb_eq in E1, E2. rewrite E1, E2, text_eqb_refl. apply text_leb_trans.
  - apply text_eqb_eq in E1. rewrite E1, E2. auto.
  - apply text_eqb_eq in E2. rewrite <- E2, E1. auto.
  - intros H1 H2. destruct (text_eqb (fst a) (fst c)) eqn:E3.
    + apply text_eqb_eq in E3. apply text_eqb_neq in E1. rewrite E3 in *. exfalso. apply E1.
      apply text_leb_antisym; auto.
    + eapply text_leb_trans; eauto.
Qed.
Lemma pair_leb_antisym a b : pair_leb a b = true -> pair_leb b a = true -> a = b.
Proof.
  unfold pair_leb. rewrite (text_eqb_sym (fst b)). destruct (text_eqb (fst a) (fst b)) eqn:E.
  - apply text_eqb_eq in E. intros. destruct a, b; simpl in *. f_equal; auto. apply text_leb_antisym; auto.
  - intros H1 H2. apply text_eqb_neq in E. exfalso; apply E, text_leb_antisym; auto.
Qed.
Lemma sort_pair_perm (d d' : list (text * text)) :
  Permutation d d' -> sort pair_leb d = sort pair_leb d'.
Proof.
  intros P. apply (sorted_perm_eq pair_leb); auto using pair_leb_antisym.
  - apply sort_strongly_sorted; eauto using pair_leb_total, pair_leb_trans.
  - apply sort_strongly_sorted; eauto using pair_leb_total, pair_leb_trans.
  - rewrite <- !sort_perm. auto.
Qed.

Lemma dget_perm (d d' : list (text * text)) k :
  NoDup (dkeys d) -> Permutation d d' -> dget text_eqb k d = dget text_eqb k d'.
Proof.
  intros Hn P. assert (NoDup (dkeys d')) as Hn'.
  { unfold dkeys. eapply Permutation_NoDup; [|eauto]. apply Permutation_map; auto. }
  destruct (dget text_eqb k d) eqn:E.
  - symmetry. apply In_dget; auto using text_eqb_eq. apply dget_In in E; auto using text_eqb_eq.
    eapply Permutation_in; eauto.
  - symmetry. apply dget_None; auto using text_eqb_eq. apply dget_None in E; auto using text_eqb_eq.
    intros Hin. apply E. unfold dkeys in *. eapply Permutation_in; [|eauto].
    apply Permutation_map. symmetry; auto.
Qed.

Lemma kvToDict_dictToKV d t :
  NoDup (dkeys d) -> Forall (fun p => clean isspace (fst p) /\ clean isspace (snd p)) d ->
  dictToKV d = Ok t ->
  exists d', kvToDict t = Ok d' /\ forall k, dget text_eqb k d' = dget text_eqb k d.
Proof.
  unfold dictToKV, kvToDict. intros Hn HF H. apply seqToKV_Ok in H as (Hp & ->).
  rewrite kvToSeq_pairs.
  - simpl. eexists; split; eauto. intros k. rewrite dget_dict_of by apply text_eqb_eq.
    pose proof (sort_perm pair_leb d) as P.
    rewrite assoc_last_NoDup.
    + symmetry. apply dget_perm; auto.
    + apply text_eqb_eq.
    + unfold dkeys. eapply Permutation_NoDup; [|exact Hn]. apply Permutation_map; auto.
  - rewrite Forall_forall in *. intros p Hin. specialize (Hp p Hin). apply sort_In in Hin.
    specialize (HF p Hin). unfold pair_ok in *. tauto.
  - discriminate.
Qed.

Lemma dictToKV_perm d d' : Permutation d d' -> dictToKV d = dictToKV d'.
Proof. intros P. unfold dictToKV. rewrite (sort_pair_perm d d'); auto. Qed.
