(** Content negotiation (accept.py).

    The specification says what a header offers, how a type is rated by the ranges offered,
    and in which order the types with a rating come. *)
From Coq Require Import Lia ZifyBool ZifyN ZifyNat Sorting.Permutation Sorting.Sorted.
From Verif Require Import Py PyFacts Accept AcceptFacts.
Local Arguments u : simpl never.

(** ** What a header says *)
Section Offers.
  Variable fl : text -> option float.
  (** A parameter that gives a quality: [q=...] with a number. *)
  Definition gives (p : text) (q : float) : Prop := exists v, strip p = u "q=" ++ v /\ fl v = Some q.
  (** The quality of a range with these parameters: the first given, or 1. *)
  Inductive weighs : list text -> float -> Prop :=
  | weighs_none ps : (forall p q, In p ps -> ~ gives p q) -> weighs ps fone
  | weighs_first before p after q :
      (forall p' q', In p' before -> ~ gives p' q') -> gives p q -> weighs (before ++ p :: after) q.
  (** A piece of a text between separators. *)
  Definition piece (c : N) (s p : text) : Prop :=
    ~ In c p /\ exists a b, s = a ++ p ++ b /\ (a = [] \/ exists a', a = a' ++ [c]) /\ (b = [] \/ exists b', b = c :: b').
  (** The header has a part [main/sub;param;...] whose quality is [q]. *)
  Definition offers (header main sub : text) (q : float) : Prop :=
    exists part ty params,
      piece 44 header part /\ part = ty ++ flat_map (cons 59) params /\ Forall (fun p => ~ In 59 p) (ty :: params) /\
      strip ty = main ++ u "/" ++ sub /\ ~ In 47 main /\ weighs params q.
End Offers.

(** ** How a type is rated *)
Definition greatest (P : float -> Prop) (q : float) : Prop :=
  (q = fzero \/ P q) /\ SFltb q fzero = false /\ forall x, P x -> SFltb q x = false.
(** The most specific ranges that match decide: those for the type itself, else those for its
    main type, else those for everything; a header that offers nothing accepts everything. *)
Definition rates (offer : text -> text -> float -> Prop) (main sub : text) (q : float) : Prop :=
  let exactly x := main <> star /\ sub <> star /\ offer main sub x in
  let mainly x := main <> star /\ offer main star x in
  let anyhow x := exists s, offer star s x in
  ((exists x, exactly x) /\ greatest exactly q) \/
  ((forall x, ~ exactly x) /\ (exists x, mainly x) /\ greatest mainly q) \/
  ((forall x, ~ exactly x) /\ (forall x, ~ mainly x) /\ (exists m s x, offer m s x) /\ greatest anyhow q) \/
  ((forall m s x, ~ offer m s x) /\ q = fone).

(** The order of a result: smaller 1 - q first, then the order of the types available. *)
Definition ahead (qual : nat -> float) (i j : nat) : Prop :=
  SFltb (distance (qual i)) (distance (qual j)) = true \/
  (SFeqb (distance (qual i)) (distance (qual j)) = true /\ (i < j)%nat).
(** Greater quality first, then the order of the types available. *)
Definition preferred (qual : nat -> float) (i j : nat) : Prop :=
  SFltb (qual j) (qual i) = true \/ (SFeqb (qual i) (qual j) = true /\ (i < j)%nat).
(** [l] is the list of the types with a rating other than 0, in order. *)
Definition negotiated (order : (nat -> float) -> nat -> nat -> Prop) (offer : text -> text -> float -> Prop)
  (have : list text) (l : list (text * float)) : Prop :=
  exists (qual : nat -> float) (p : list nat),
    (forall i main sub, nth_error have i = Some (main ++ u "/" ++ sub) -> rates offer main sub (qual i)) /\
    l = map (fun i => (nth i have [], qual i)) p /\
    (forall i, In i p <-> (i < List.length have)%nat /\ ftrue (qual i) = true) /\
    StronglySorted (order qual) p.

(** ** Reading *)
Lemma lstripf_pre f l s : forallb f l = true -> lstripf f (l ++ s) = lstripf f s.
Proof. induction l as [|x l IH]; simpl; intros H; auto. apply andb_true_iff in H as (-> & H). auto. Qed.
Lemma strip_pre l s : forallb isspace l = true -> strip (l ++ s) = strip s.
Proof. intros H. unfold strip, stripf. rewrite lstripf_pre by auto. auto. Qed.
Lemma strip_post s r : forallb isspace r = true -> strip (s ++ r) = strip s.
Proof.
  intros H. unfold strip, stripf. destruct (lstripf isspace s) as [|x t] eqn:E.
  - apply lstripf_nil in E. assert (lstripf isspace (s ++ r) = []) as -> by (apply lstripf_nil; rewrite forallb_app, E, H; auto). auto.
  - rewrite (lstripf_app _ _ r x t E), E, rev_app_distr. rewrite lstripf_pre; auto.
    rewrite forallb_forall in *. intros y Hy. apply H, in_rev; auto.
Qed.
Lemma parts_strip c : map strip (splitc 59 (strip c)) = map strip (splitc 59 c).
Proof.
  destruct (stripf_split isspace c) as (l & r & E & Hl & Hr). fold strip in E.
  assert (forall l s, forallb isspace l = true -> map strip (splitc 59 (l ++ s)) = map strip (splitc 59 s)) as A.
  { clear. induction l as [|x l IH]; simpl; intros s H; auto. apply andb_true_iff in H as (Hx & H).
    destruct (x =? 59) eqn:E; [apply N.eqb_eq in E; subst; discriminate Hx|].
    rewrite <- (IH s H). pose proof (splitc_nonempty 59 (l ++ s)). destruct (splitc 59 (l ++ s)) as [|p ps]; [congruence|].
    simpl. f_equal. apply (strip_pre [x]). simpl. rewrite Hx. auto. }
  rewrite E at 2. rewrite A by auto. rewrite splitc_length_app.
  rewrite (splitc_nin 59 r); [|intros K; rewrite forallb_forall in Hr; apply Hr in K; discriminate K].
  simpl. rewrite map_app. simpl. rewrite strip_post by auto.
  pose proof (splitc_nonempty 59 (strip c)).
  rewrite (app_removelast_last [] H) at 1. rewrite map_app. auto.
Qed.
Lemma join_flat c t ps : join [c] (t :: ps) = t ++ flat_map (cons c) ps.
Proof.
  revert t. induction ps as [|p ps IH]; intros t; [simpl; rewrite app_nil_r; auto|].
  change (join [c] (t :: p :: ps)) with (t ++ [c] ++ join [c] (p :: ps)). rewrite IH. auto.
Qed.
Lemma splitc_piece c s p : In p (splitc c s) <-> piece c s p.
Proof.
  split.
  - intros H. split; [pose proof (splitc_pieces c s) as F; rewrite Forall_forall in F; auto|].
    apply in_split in H as (l1 & l2 & E). pose proof (join_splitc c s) as J. rewrite E in J. clear E.
    exists (flat_map (fun x => x ++ [c]) l1), (flat_map (cons c) l2). split; [|split].
    + rewrite <- J. clear J. induction l1 as [|x l1 IH].
      * rewrite app_nil_l. apply join_flat.
      * rewrite <- app_comm_cons, join_flat. simpl flat_map. rewrite <- !app_assoc. f_equal. simpl. f_equal.
        rewrite <- IH. destruct l1; [simpl app; rewrite join_flat; auto|].
        rewrite <- app_comm_cons, join_flat. auto.
    + destruct l1 as [|x l1] using rev_ind; auto. right. rewrite flat_map_app. simpl. rewrite app_nil_r, app_assoc. eauto.
    + destruct l2; simpl; eauto.
  - intros (Hp & a & b & -> & Ha & Hb). 
    assert (In p (splitc c (p ++ b))) as K.
    { destruct Hb as [->|(b' & ->)]; [rewrite app_nil_r, splitc_nin by auto; left; auto|].
      rewrite splitc_app by auto. left. auto. }
    destruct Ha as [->|(a' & ->)]; auto. rewrite <- app_assoc. simpl.
    rewrite splitc_length_app. simpl. rewrite N.eqb_refl. simpl.
    apply in_or_app. right. right. auto.
Qed.
Section Reads.
  Variable fl : text -> option float.
  Lemma read_weighs ps : weighs fl ps (read_q fl (map strip ps)).
  Proof using.
    induction ps as [|p ps IH]; [apply weighs_none; intros ? ? []|]. simpl.
    assert (forall v, cut 61 (strip p) = Some (u "q", v) <-> strip p = u "q=" ++ v) as C.
    { intros v. rewrite cut_Some. split; [intros (-> & _); auto|]. intros ->. split; auto.
      intros [K|[]]; discriminate K. }
    assert ((forall q, ~ gives fl p q) -> weighs fl (p :: ps) (read_q fl (map strip ps))) as N.
    { intros H. inversion IH as [? K E1 E2|before p' after q' K1 K2 E1 E2].
      - apply weighs_none. intros p' q' [<-|Hp]; [apply H|apply K; auto].
      - apply (weighs_first fl (p :: before)); auto. intros p'' q'' [<-|Hp]; [apply H|apply K1; auto]. }
    destruct (cut 61 (strip p)) as [[k v]|] eqn:E.
    - destruct (text_eqb k (u "q")) eqn:Ek.
      + apply text_eqb_eq in Ek. subst k. assert (strip p = u "q=" ++ v) as E1 by (apply C; auto). destruct (fl v) as [q|] eqn:F.
        * apply (weighs_first fl []); [intros ? ? []|]. exists v. auto.
        * apply N. intros q (v' & E' & F'). rewrite E1 in E'. apply app_inv_head in E'. congruence.
      + apply N. intros q (v' & E' & F'). apply C in E'. try rewrite E in E'. inv E'. rewrite text_eqb_refl in Ek. discriminate.
    - apply N. intros q (v' & E' & F'). apply C in E'. discriminate.
  Qed.
  Lemma gives_fun p q q' : gives fl p q -> gives fl p q' -> q = q'.
  Proof using. intros (v & E & F) (v' & E' & F'). rewrite E in E'. apply app_inv_head in E'. congruence. Qed.
  Lemma weighs_fun ps q q' : weighs fl ps q -> weighs fl ps q' -> q = q'.
  Proof using.
    intros H. revert q'. inversion H as [? K E1 E2|before p after q0 K1 K2 E1 E2]; subst; intros q' H'.
    - inversion H' as [|before p after q0 K1 K2 E1 E2]; subst; auto. exfalso. eapply K; eauto.
      apply in_or_app. right. left. auto.
    - clear H. revert K1 H'. induction before as [|x before IH]; simpl; intros K1 H'.
      + inversion H' as [? K E1 E2|before p' after' q0 K1' K2' E1 E2]; subst.
        * exfalso. eapply K; eauto. left. auto.
        * destruct before as [|y before]; inv E1; [eapply gives_fun; eauto|].
          exfalso. apply (K1' _ _ (or_introl eq_refl) K2).
      + apply IH; auto. inversion H' as [? K E1 E2|before' p' after' q0 K1' K2' E1 E2]; subst.
        * apply weighs_none. intros; apply K; right; auto.
        * destruct before' as [|y before']; inv E1; [exfalso; apply (K1 _ _ (or_introl eq_refl) K2')|].
          apply weighs_first; auto. intros; apply K1'; right; auto.
  Qed.
  Lemma read_chunk_spec c main sub q :
    read_chunk fl c = Some (main, sub, q) <->
    exists ty params, c = ty ++ flat_map (cons 59) params /\ Forall (fun p => ~ In 59 p) (ty :: params) /\
                      strip ty = main ++ u "/" ++ sub /\ ~ In 47 main /\ weighs fl params q.
  Proof using.
    unfold read_chunk. rewrite parts_strip. split.
    - destruct (splitc 59 c) as [|ty params] eqn:E; [discriminate|]. simpl. intros H.
      destruct (cut 47 (strip ty)) as [[m s]|] eqn:C; [|discriminate]. inv H.
      apply cut_Some in C as (C & Cn). exists ty, params. rewrite <- join_flat, <- E, join_splitc. repeat split; auto.
      + pose proof (splitc_pieces 59 c) as F; rewrite E in F; exact F.
      + apply read_weighs.
    - intros (ty & params & -> & F & E & Hn & W). rewrite <- join_flat, splitc_join by (auto; discriminate).
      simpl. rewrite E. change (main ++ u "/" ++ sub) with (main ++ 47 :: sub). rewrite cut_app by auto.
      f_equal. f_equal. eapply weighs_fun; eauto. apply read_weighs.
  Qed.

  Variable nan_order : list range -> list range.
  Hypothesis nan_perm : forall l, Permutation (nan_order l) l.
  Lemma parse_offers header main sub q :
    In (main, sub, q) (parseAcceptHeader fl nan_order header) <-> offers fl header main sub q.
  Proof using nan_perm.
    unfold parseAcceptHeader. set (l := flat_map _ _).
    assert (forall x, In x (sort_ranges nan_order l) <-> In x l) as P.
    { intros x. unfold sort_ranges. match goal with |- context [existsb ?f l] => destruct (existsb f l) end; [|apply sort_In].
      split; apply Permutation_in; auto. symmetry. auto. }
    rewrite P. unfold l. rewrite in_flat_map. unfold offers. split.
    - intros (c & Hc & H). destruct (read_chunk fl c) as [r|] eqn:E; [|destruct H]. destruct H as [->|[]].
      apply read_chunk_spec in E as (ty & params & E & K). exists c, ty, params. split; [apply splitc_piece; auto|tauto].
    - intros (c & ty & params & Hc & K). exists c. split; [apply splitc_piece; auto|].
      assert (read_chunk fl c = Some (main, sub, q)) as -> by (apply read_chunk_spec; eauto). left. auto.
  Qed.
End Reads.

(** ** Rating *)
Lemma any_q_In x l : In x (any_q l) <-> exists s, In (star, s, x) l.
Proof.
  unfold any_q. rewrite in_map_iff. split.
  - intros ([[m s] q] & E & H). apply filter_In in H as (H & K). apply text_eqb_eq in K. simpl in *. subst. eauto.
  - intros (s & H). exists (star, s, x). split; auto. apply filter_In. split; auto. 
Qed.
Lemma main_q_In main x l : In x (main_q main l) <-> main <> star /\ In (main, star, x) l.
Proof.
  unfold main_q. rewrite in_map_iff. split.
  - intros ([[m s] q] & E & H). apply filter_In in H as (H & K). simpl in *.
    apply andb_true_iff in K as (K & K3). apply andb_true_iff in K as (K1 & K2).
    apply text_eqb_eq in K2, K3. subst. split; auto. intros ->. rewrite text_eqb_refl in K1. discriminate.
  - intros (N & H). exists (main, star, x). split; auto. apply filter_In. split; auto. simpl.
    rewrite !text_eqb_refl. destruct (text_eqb main star) eqn:E; [apply text_eqb_eq in E; congruence|]. auto.
Qed.
Lemma sub_q_In main sub x l : In x (sub_q main sub l) <-> main <> star /\ sub <> star /\ In (main, sub, x) l.
Proof.
  unfold sub_q. rewrite in_map_iff. split.
  - intros ([[m s] q] & E & H). apply filter_In in H as (H & K). simpl in *.
    apply andb_true_iff in K as (K & K3). apply andb_true_iff in K as (K1 & K2).
    apply pair_eqb_eq in K3. inv K3. repeat split; auto; intros ->; rewrite text_eqb_refl in *; discriminate.
  - intros (N & N' & H). exists (main, sub, x). split; auto. apply filter_In. split; auto. simpl.
    destruct (text_eqb main star) eqn:E; [apply text_eqb_eq in E; congruence|].
    destruct (text_eqb sub star) eqn:E'; [apply text_eqb_eq in E'; congruence|].
    apply pair_eqb_eq. auto.
Qed.
Lemma quality_rates (l : list range) main sub :
  num (quality_of (table_of l) main sub) /\
  rates (fun m s q => In (m, s, q) l) main sub (quality_of (table_of l) main sub).
Proof.
  rewrite quality_table.
  assert (forall (P : float -> Prop) qs, (forall x, In x qs <-> P x) ->
            num (fold_left fmax qs fzero) /\ greatest P (fold_left fmax qs fzero)) as G.
  { intros P qs HP. destruct (fmax_fold qs fzero) as (A & B & C & D); [discriminate|].
    split; auto. split; [rewrite <- HP; auto|]. split; auto. intros x Hx. apply D, HP; auto. }
  pose proof (fun x => sub_q_In main sub x l) as S. destruct (sub_q main sub l) as [|x qs] eqn:E1.
  - pose proof (fun x => main_q_In main x l) as M. destruct (main_q main l) as [|x qs] eqn:E2.
    + destruct l as [|r l].
      * split; [discriminate|]. right. right. right. split; auto.
      * pose proof (fun x => any_q_In x (r :: l)) as A. destruct (G _ _ A) as (N & Q). split; auto.
        right. right. left. split; [|split; [|split; [|exact Q]]].
        -- intros x H. apply S in H. destruct H.
        -- intros x H. apply M in H. destruct H.
        -- destruct r as [[m s] q]. exists m, s, q. left. auto.
    + destruct (G _ _ M) as (N & Q). split; auto. right. left. split; [|split; [|exact Q]].
      * intros y H. apply S in H. destruct H.
      * exists x. apply M. left. auto.
  - destruct (G _ _ S) as (N & Q). split; auto. left. split; auto. exists x. apply S. left. auto.
Qed.

(** ** The order *)
(** The positions of the types with a rating. *)
Definition kept (qual : nat -> float) (n : nat) : list nat := filter (fun i => ftrue (qual i)) (seq 0 n).
Definition one_slash (t : text) : Prop := exists main sub, t = main ++ u "/" ++ sub /\ ~ In 47 main /\ ~ In 47 sub.
Lemma one_slash_split t : one_slash t -> exists main sub, t = main ++ u "/" ++ sub /\ splitc 47 t = [main; sub].
Proof.
  intros (main & sub & -> & H1 & H2). exists main, sub. split; auto.
  change (main ++ u "/" ++ sub) with (main ++ 47 :: sub). rewrite splitc_app by auto. rewrite splitc_nin by auto. auto.
Qed.
Lemma slash_unique a b c d : ~ In 47 a -> ~ In 47 b -> a ++ u "/" ++ b = c ++ u "/" ++ d -> a = c /\ b = d.
Proof.
  intros Ha Hb E. change (u "/") with [47] in E. simpl in E. pose proof (cut_app 47 a b Ha) as C.
  assert (~ In 47 c) as Hc.
  { intros K. apply in_split in K as (x & y & ->). rewrite <- app_assoc in E. simpl in E.
    assert (splitc 47 (a ++ 47 :: b) = [a; b]) as S by (rewrite splitc_app, splitc_nin; auto).
    rewrite E in S. rewrite splitc_length_app in S. simpl in S. rewrite splitc_length_app in S. simpl in S.
    match type of S with ?z = _ => assert (List.length z = 2%nat) as L2 by (rewrite S; auto) end.
    rewrite app_length in L2. simpl in L2. rewrite app_length in L2. simpl in L2.
    pose proof (splitc_nonempty 47 d). destruct (splitc 47 d); [congruence|]. simpl in L2. lia. }
  rewrite E, (cut_app 47 c d Hc) in C. inv C. auto.
Qed.
Lemma accepted_spec t have : Forall one_slash have -> forall k,
  exists qual : nat -> float,
    (forall i main sub, ~ In 47 main -> ~ In 47 sub -> nth_error have i = Some (main ++ u "/" ++ sub) -> qual i = quality_of t main sub) /\
    accepted t k have =
      Ok (map (fun ki => (distance (qual (snd ki)), fst ki, qual (snd ki), nth (snd ki) have []))
              (combine (seq k (List.length (kept qual (List.length have)))) (kept qual (List.length have)))).
Proof.
  induction 1 as [|ty have Hty F IH]; intros k.
  - exists (fun _ => fzero). split; auto. intros [|i] ? ? _ _ H; discriminate.
  - pose proof Hty as (main0 & sub0 & E0 & Hm0 & Hs0).
    assert (splitc 47 ty = [main0; sub0]) as S0.
    { rewrite E0. change (main0 ++ u "/" ++ sub0) with (main0 ++ 47 :: sub0). rewrite splitc_app, splitc_nin; auto. }
    set (q := quality_of t main0 sub0).
    destruct (IH (if ftrue q then S k else k)) as (qual & Q & A).
    exists (fun i => match i with O => q | S j => qual j end). split.
    + intros [|i] main sub Hm Hs H; simpl in H; [|eauto]. inv H. apply slash_unique in H1 as (-> & ->); auto.
    + cbn [accepted List.length]. rewrite S0. fold q. unfold kept. cbn [seq filter].
      assert (forall n, filter (fun i => ftrue match i with O => q | S j => qual j end) (seq 1 n) = map S (kept qual n)) as K.
      { intros n. unfold kept. rewrite <- seq_shift. clear. induction (seq 0 n) as [|x l IH]; auto.
        simpl. rewrite IH. destruct (ftrue (qual x)); auto. }
      assert (forall (l ks : list nat), map (fun ki : nat * nat => (distance match snd ki with O => q | S j => qual j end, fst ki, match snd ki with O => q | S j => qual j end, nth (snd ki) (ty :: have) []))
                (combine ks (map S l)) = map (fun ki : nat * nat => (distance (qual (snd ki)), fst ki, qual (snd ki), nth (snd ki) have [])) (combine ks l)) as M.
      { clear. induction l as [|x l IH]; intros [|k ks]; auto. simpl. f_equal. auto. }
      rewrite K. destruct (ftrue q) eqn:Eq.
      * rewrite A. simpl. rewrite map_length. f_equal. f_equal. rewrite M. auto.
      * rewrite A. rewrite map_length, M. auto.
Qed.
Lemma combine_seq_incr l : StronglySorted lt l -> forall k a i b j,
  In (a, i) (combine (seq k (List.length l)) l) -> In (b, j) (combine (seq k (List.length l)) l) ->
  ((a <= b)%nat <-> (i <= j)%nat).
Proof.
  induction 1 as [|x l H IH F]; intros k a i b j H1 H2; [destruct H1|].
  simpl in H1, H2. rewrite Forall_forall in F.
  assert (forall a i, In (a, i) (combine (seq (S k) (List.length l)) l) -> (k < a)%nat /\ (x < i)%nat) as B.
  { intros a0 i0 K. split; [apply in_combine_l, in_seq in K; lia|apply in_combine_r in K; auto]. }
  destruct H1 as [E1|H1], H2 as [E2|H2]; try inv E1; try inv E2.
  - lia.
  - apply B in H2. lia.
  - apply B in H1. lia.
  - eapply IH; eauto.
Qed.
Lemma seq_sorted n : forall k, StronglySorted lt (seq k n).
Proof. induction n; intros k; simpl; constructor; auto. apply Forall_forall. intros x Hx. apply in_seq in Hx. lia. Qed.
Lemma filter_sorted {A} (R : A -> A -> Prop) f l : StronglySorted R l -> StronglySorted R (filter f l).
Proof.
  induction 1 as [|x l H IH F]; simpl; [constructor|]. destruct (f x); auto. constructor; auto.
  rewrite Forall_forall in *. intros y Hy. apply filter_In in Hy. apply F. tauto.
Qed.
Lemma NoDup_combine_r {A B} (l : list A) (l' : list B) : NoDup l' -> NoDup (combine l l').
Proof.
  intros H. revert l. induction H as [|x l' Hx H IH]; intros [|a l]; simpl; constructor; auto.
  intros K. apply in_combine_r in K. auto.
Qed.
Lemma map_snd_combine {A B} (l : list A) (l' : list B) : List.length l = List.length l' -> map snd (combine l l') = l'.
Proof. revert l'. induction l as [|x l IH]; intros [|y l'] H; inv H; simpl; auto. rewrite IH; auto. Qed.
Lemma match_negotiated (l : list range) have : Forall one_slash have ->
  exists r, matchTypes l have = Ok r /\ negotiated ahead (fun m s q => In (m, s, q) l) have r.
Proof.
  intros F. destruct (accepted_spec (table_of l) have F 0) as (qual & Q & A).
  unfold matchTypes. rewrite A. cbn [bind]. set (ks := kept qual (List.length have)) in *.
  set (C := combine (seq 0 (List.length ks)) ks). set (f := fun ki : nat * nat => _).
  eexists. split; [reflexivity|].
  assert (forall i, (i < List.length have)%nat -> num (qual i)) as Hnum.
  { intros i Hi. destruct (nth_error have i) as [ty|] eqn:E; [|apply nth_error_None in E; lia].
    rewrite Forall_forall in F. destruct (F ty) as (main & sub & -> & Hm & Hs); [eapply nth_error_In; eauto|].
    rewrite (Q i main sub Hm Hs E). apply quality_rates. }
  set (key := fun ki : nat * nat => distance (qual (snd ki))).
  assert (forall a b, entry_leb (f a) (f b) = kp_leb key fst a b) as L by reflexivity.
  rewrite sort_map. rewrite (sort_ext _ (kp_leb key fst)) by auto. rewrite map_map. unfold f. cbn [fst snd].
  exists qual, (map snd (sort (kp_leb key fst) C)). split; [|split; [|split]].
  - intros i main sub E. assert (one_slash (main ++ u "/" ++ sub)) as (m & s & E' & Hm & Hs).
    { rewrite Forall_forall in F. apply F. eapply nth_error_In; eauto. }
    destruct (slash_unique m s main sub Hm Hs (eq_sym E')) as (-> & ->).
    rewrite (Q i main sub Hm Hs E). apply quality_rates.
  - rewrite map_map. auto.
  - intros i. transitivity (In i ks).
    + rewrite <- (map_snd_combine (seq 0 (List.length ks)) ks) by (apply seq_length). fold C.
      split; apply Permutation_in, Permutation_map; [symmetry|]; apply sort_perm.
    + unfold ks, kept. rewrite filter_In, in_seq. simpl. split; intros (? & ?); split; auto; lia.
  - assert (forall c, In c C -> num (key c)) as HC.
    { intros [k i] Hc. apply in_combine_r in Hc. unfold ks, kept in Hc. apply filter_In in Hc as (Hc & _).
      apply in_seq in Hc. apply distance_num. apply Hnum. simpl in *. lia. }
    pose proof (kp_sorted key fst C HC) as S.
    assert (NoDup (sort (kp_leb key fst) C)) as ND.
    { eapply Permutation_NoDup; [apply sort_perm|]. apply NoDup_combine_r. apply NoDup_filter, seq_NoDup. }
    assert (StronglySorted lt ks) as Ks by (apply filter_sorted, seq_sorted).
    assert (forall c, In c (sort (kp_leb key fst) C) -> In c C) as I.
    { intros c. apply Permutation_in. symmetry. apply sort_perm. }
    revert ND I. induction S as [|x r S IH Fx]; intros ND I; [constructor|]. cbn [map]. inv ND.
    constructor; [apply IH; auto; intros; apply I; right; auto|].
    rewrite Forall_forall in *. intros j Hj. apply in_map_iff in Hj as (y & <- & Hy).
    specialize (Fx y Hy). unfold kp_leb, key in Fx. apply orb_true_iff in Fx as [Fx|Fx]; [left; auto|].
    apply andb_true_iff in Fx as (Fx & Fy). apply Nat.leb_le in Fy. right. split; auto.
    destruct x as [k i], y as [k' j]. cbn [fst snd] in *.
    pose proof (combine_seq_incr ks Ks 0 k i k' j (I _ (or_introl eq_refl)) (I _ (or_intror Hy))) as O.
    pose proof (combine_seq_incr ks Ks 0 k' j k i (I _ (or_intror Hy)) (I _ (or_introl eq_refl))) as O'.
    assert (i <> j); [|lia]. intros ->. assert (k = k') by lia. subst. auto.
Qed.

Lemma rates_ext (o o' : text -> text -> float -> Prop) : (forall m s q, o m s q <-> o' m s q) ->
  forall main sub q, rates o main sub q -> rates o' main sub q.
Proof.
  intros E main sub q. unfold rates, greatest.
  assert (forall m s q, o m s q -> o' m s q) as A by (intros; apply E; auto).
  assert (forall m s q, o' m s q -> o m s q) as B by (intros; apply E; auto).
  intros [((x & X1 & X2 & X3) & (Q1 & Q2 & Q3))|[(N & (x & X1 & X2) & (Q1 & Q2 & Q3))|[(N & N' & (m & s & x & X) & (Q1 & Q2 & Q3))|(N & ->)]]].
  - left. split; [exists x; auto|]. split; [|split; auto].
    + destruct Q1 as [|(? & ? & ?)]; auto.
    + intros y (? & ? & ?). apply Q3. auto.
  - right. left. split; [intros y (? & ? & ?); apply (N y); auto|]. split; [exists x; auto|]. split; [|split; auto].
    + destruct Q1 as [|(? & ?)]; auto.
    + intros y (? & ?). apply Q3. auto.
  - right. right. left. split; [intros y (? & ? & ?); apply (N y); auto|].
    split; [intros y (? & ?); apply (N' y); auto|]. split; [exists m, s, x; auto|]. split; [|split; auto].
    + destruct Q1 as [|(s' & ?)]; auto. right. exists s'. auto.
    + intros y (s' & ?). apply Q3. exists s'. auto.
  - right. right. right. split; auto. intros m s x H. apply (N m s x). auto.
Qed.
Lemma accepted_error t have : forall k, ~ Forall one_slash have -> accepted t k have = Raise ValueError.
Proof.
  induction have as [|ty have IH]; intros k H; [destruct H; constructor|]. cbn [accepted].
  destruct (splitc 47 ty) as [|m [|s [|]]] eqn:E; auto.
  assert (one_slash ty) as O.
  { exists m, s. pose proof (splitc_pieces 47 ty) as P. rewrite E in P. inv P. inv H3.
    split; auto. rewrite <- (join_splitc 47 ty), E. auto. }
  assert (~ Forall one_slash have) by (intros K; apply H; constructor; auto).
  match goal with |- context [ftrue ?x] => destruct (ftrue x) end; rewrite IH; auto.
Qed.

(** ** Theorems *)
(** The types a provider of documents has, rated by a header: exactly those with a rating
    other than 0 are returned, each once, in the order of 1 - quality and then as given.  The
    only error is that some type has not exactly one slash. *)
Theorem C51_acceptable fl nan_order header have :
  (forall l, Permutation (nan_order l) l) ->
  (Forall one_slash have ->
   exists l, matchTypes (parseAcceptHeader fl nan_order header) have = Ok l /\
             negotiated ahead (offers fl header) have l /\
             getAcceptable fl nan_order header have = Ok (map fst l)) /\
  (~ Forall one_slash have -> getAcceptable fl nan_order header have = Raise ValueError).
Proof.
  intros P. split; intros F.
  - destruct (match_negotiated (parseAcceptHeader fl nan_order header) have F) as (r & E & qual & p & Q & N).
    exists r. split; auto. split.
    + exists qual, p. split; auto. intros i main sub H. eapply rates_ext; [|eauto].
      intros m s q. apply parse_offers; auto.
    + unfold getAcceptable. rewrite E. auto.
  - unfold getAcceptable, matchTypes. rewrite accepted_error; auto.
Qed.
Print Assumptions C51_acceptable.

Lemma sorted_on {A} (leb leb' : A -> A -> bool) l :
  (forall x y, In x l -> In y l -> leb x y = leb' x y) ->
  (forall a b, leb' a b = true \/ leb' b a = true) ->
  (forall a b c, leb' a b = true -> leb' b c = true -> leb' a c = true) ->
  StronglySorted (fun a b => leb a b = true) (sort leb l).
Proof.
  intros E T R. rewrite (sort_ext leb leb' l E).
  pose proof (sort_strongly_sorted leb' T R l) as K.
  assert (forall x, In x (sort leb' l) -> In x l) as I.
  { intros x. apply Permutation_in. symmetry. apply sort_perm. }
  revert I. induction K as [|x r K IH F]; intros I; constructor.
  - apply IH. intros; apply I; right; auto.
  - rewrite Forall_forall in *. intros y Hy. rewrite E; auto; apply I; [left|right]; auto.
Qed.
(** Best first: by quality, then main type, then subtype, all decreasing. *)
Definition best_first (a b : range) : Prop :=
  let '(m, s, q) := a in let '(m', s', q') := b in
  SFltb q' q = true \/
  (SFeqb q' q = true /\ ((m' <> m /\ text_leb m' m = true) \/ (m' = m /\ text_leb s' s = true))).
Lemma key_leb_best a b : key_leb b a = true <-> best_first a b.
Proof.
  destruct a as [[m s] q], b as [[m' s'] q']. unfold key_leb, best_first.
  rewrite orb_true_iff, andb_true_iff, orb_true_iff, andb_true_iff, text_eqb_eq.
  assert (negb (text_leb m m') = true <-> m' <> m /\ text_leb m' m = true) as ->; [|tauto].
  destruct (text_leb m m') eqn:E; simpl.
  - split; [discriminate|]. intros (N & L). destruct N. apply text_leb_antisym; auto.
  - split; auto. intros _. destruct (text_leb_total m m') as [T|T]; [congruence|]. split; auto. intros ->. congruence.
Qed.
(** A header is read as what it offers, best first. *)
Theorem C51_parse fl nan_order header :
  (forall l, Permutation (nan_order l) l) ->
  let l := parseAcceptHeader fl nan_order header in
  (forall main sub q, In (main, sub, q) l <-> offers fl header main sub q) /\
  ((forall main sub, ~ offers fl header main sub S754_nan) -> StronglySorted best_first l).
Proof.
  intros P l. split; [intros; apply parse_offers; auto|]. intros F. 
  assert (forall x, In x l -> num (snd x)) as Hn.
  { intros [[m s] q] Hx K. simpl in K. subst q. apply (F m s). apply (parse_offers fl nan_order P). auto. }
  revert Hn. unfold l, parseAcceptHeader, sort_ranges. set (r := flat_map _ _). intros Hn.
  destruct (existsb (fun r => is_nan (snd r)) r) eqn:E.
  - exfalso. apply existsb_exists in E as (x & Hx & E).
    apply (Hn x); [eapply Permutation_in; [symmetry; apply P|]; auto|]. destruct (snd x); auto; discriminate E.
  - assert (StronglySorted (fun a b => key_leb b a = true) (sort (fun a b => key_leb b a) r)) as S.
    { pose (fix_ := fun q : float => if is_nan q then fzero else q).
      pose (fixr := fun x : range => (fst x, fix_ (snd x))).
      assert (forall q, num (fix_ q)) as Hf by (intros []; discriminate).
      assert (forall x y, key_leb (fixr y) (fixr x) = true <-> best_first (fixr x) (fixr y)) as KB by (intros; apply key_leb_best).
      apply (sorted_on _ (fun a b => key_leb (fixr b) (fixr a))).
      - assert (forall x, In x r -> fixr x = x) as I.
        { intros x Hx. unfold fixr, fix_. assert (num (snd x)) as N by (apply Hn, sort_In; auto).
          destruct x as [ms q]. simpl in *. destruct q; auto. congruence. }
        intros x y Hx Hy. rewrite !I by auto. auto.
      - intros a b. rewrite !KB. destruct a as [[m s] q], b as [[m' s'] q']. unfold fixr, best_first. simpl.
        destruct (SF_total _ _ (Hf q) (Hf q')) as [T|[T|T]]; auto.
        rewrite (SFeqb_sym (fix_ q')), T.
        destruct (text_eqb m m') eqn:Em; [apply text_eqb_eq in Em; subst|].
        + destruct (text_leb_total s s'); [right|left]; right; split; auto.
        + assert (m <> m') by (intros ->; rewrite text_eqb_refl in Em; discriminate).
          destruct (text_leb_total m m'); [right|left]; right; split; auto; left; auto.
      - intros a b c. rewrite !KB. destruct a as [[m s] q], b as [[m' s'] q'], c as [[m2 s2] q2]. unfold fixr, best_first. simpl.
        intros [H1|(H1 & K1)] [H2|(H2 & K2)].
        + left. eapply SFltb_trans; eauto.
        + left. eapply SFeqb_lt; eauto.
        + left. eapply SF_lt_eqb; eauto.
        + right. split; [eapply SFeqb_trans; eauto|].
          destruct K1 as [(N1 & L1)|(-> & L1)], K2 as [(N2 & L2)|(-> & L2)].
          * left. split; [|eapply text_leb_trans; eauto]. intros ->. apply N1. apply text_leb_antisym; auto.
          * left; auto.
          * left; auto.
          * right. split; auto. eapply text_leb_trans; eauto. }
    revert S. clear. induction 1 as [|x l S IH F]; constructor; auto.
    rewrite Forall_forall in *. intros y Hy. apply key_leb_best; auto.
Qed.
Print Assumptions C51_parse.

(** *** The order for the qualities of HTTP *)
(** A quality of HTTP has at most three digits after its point. *)
Definition thousandth (k : nat) : float := decimal_float (Z.of_nat k) (-3).
Definition http_quality (q : float) : Prop := exists k, (k <= 1000)%nat /\ q = thousandth k.
Lemma thousandths_step : forallb (fun k => SFltb (thousandth k) (thousandth (S k)) &&
                                           SFltb (distance (thousandth (S k))) (distance (thousandth k))) (seq 0 1000) = true.
Proof. vm_compute. reflexivity. Qed.
Lemma thousandths_lt i j : (i < j <= 1000)%nat ->
  SFltb (thousandth i) (thousandth j) = true /\ SFltb (distance (thousandth j)) (distance (thousandth i)) = true.
Proof.
  intros (H & K). induction H as [|j H IH].
  - pose proof thousandths_step as S. rewrite forallb_forall in S. apply andb_true_iff, S, in_seq. lia.
  - destruct IH as (A & B); [lia|].
    pose proof thousandths_step as S. rewrite forallb_forall in S.
    assert (In j (seq 0 1000)) as Hj by (apply in_seq; lia). apply S, andb_true_iff in Hj as (C & D).
    split; eapply SFltb_trans; eauto.
Qed.
Lemma thousandths_refl k : (k <= 1000)%nat -> SFeqb (thousandth k) (thousandth k) = true.
Proof.
  intros H. assert (forallb (fun k => SFeqb (thousandth k) (thousandth k)) (seq 0 1001) = true) as S by (vm_compute; reflexivity).
  rewrite forallb_forall in S. apply S, in_seq. lia.
Qed.
Lemma ahead_preferred qual i j : http_quality (qual i) -> http_quality (qual j) -> ahead qual i j -> preferred qual i j.
Proof.
  unfold ahead, preferred. intros (a & Ha & ->) (b & Hb & ->) [H|(H & K)].
  - left. destruct (Nat.lt_trichotomy a b) as [L|[L|L]].
    + exfalso. destruct (thousandths_lt a b) as (_ & D); [lia|].
      pose proof (SFltb_trans _ _ _ H D) as C. rewrite SFltb_irrefl in C. discriminate C.
    + subst. rewrite SFltb_irrefl in H. discriminate H.
    + apply thousandths_lt. lia.
  - right. split; auto. destruct (Nat.lt_trichotomy a b) as [L|[L|L]].
    + exfalso. destruct (thousandths_lt a b) as (_ & D); [lia|].
      pose proof (SFeqb_lt _ _ _ H D) as C. rewrite SFltb_irrefl in C. discriminate C.
    + subst. apply thousandths_refl. auto.
    + exfalso. destruct (thousandths_lt b a) as (_ & D); [lia|].
      rewrite SFeqb_sym in H. pose proof (SFeqb_lt _ _ _ H D) as C. rewrite SFltb_irrefl in C. discriminate C.
Qed.
Lemma rates_http (offer : text -> text -> float -> Prop) main sub q :
  (forall m s x, offer m s x -> http_quality x) -> rates offer main sub q -> http_quality q.
Proof.
  intros H. assert (http_quality fzero) as Z by (exists 0%nat; split; [lia|vm_compute; reflexivity]).
  intros [(_ & Q & _)|[(_ & _ & Q & _)|[(_ & _ & _ & Q & _)|(_ & ->)]]].
  - destruct Q as [->|(_ & _ & Q)]; eauto.
  - destruct Q as [->|(_ & Q)]; eauto.
  - destruct Q as [->|(s & Q)]; eauto.
  - exists 1000%nat. split; [lia|vm_compute; reflexivity].
Qed.
(** With the qualities of HTTP, of at most three digits, the result is by decreasing quality
    and then as given. *)
Theorem C51_decreasing fl nan_order header have :
  (forall l, Permutation (nan_order l) l) -> Forall one_slash have ->
  (forall main sub q, offers fl header main sub q -> http_quality q) ->
  exists l, getAcceptable fl nan_order header have = Ok (map fst l) /\
            negotiated preferred (offers fl header) have l.
Proof.
  intros P F H. destruct (C51_acceptable fl nan_order header have P) as (A & _).
  destruct (A F) as (l & _ & (qual & p & Q & E & I & S) & G). exists l. split; auto.
  exists qual, p. split; auto. split; auto. split; auto.
  assert (forall i, In i p -> http_quality (qual i)) as Hq.
  { intros i Hi. apply I in Hi as (Hi & _). destruct (nth_error have i) as [ty|] eqn:N; [|apply nth_error_None in N; lia].
    rewrite Forall_forall in F. destruct (F ty) as (m & s & -> & _); [eapply nth_error_In; eauto|].
    eapply rates_http; [|apply (Q i m s N)]. eauto. }
  revert Hq S. clear. induction p as [|i p IH]; intros Hq S; constructor; inv S.
  - apply IH; auto. intros; apply Hq; right; auto.
  - rewrite Forall_forall in *. intros j Hj. apply ahead_preferred; auto; apply Hq; [left|right]; auto.
Qed.
Print Assumptions C51_decreasing.

Definition keep (l : list range) : list range := l.
Example C51_example :
  let have := [u "text/html"; u "application/xrds+xml"; u "image/png"; u "text/plain"] in
  getAcceptable float_of_text keep (u "text/*;q=0.3, text/html ; level=1; q=0.7,application/xrds+xml, */*;q=0, bad") have
    = Ok [u "application/xrds+xml"; u "text/html"; u "text/plain"] /\
  getAcceptable float_of_text keep [] have = Ok have /\
  getAcceptable float_of_text keep (u "*/*;q=0.5, image/*;q=0.9, image/png;q=0") have
    = Ok [u "text/html"; u "application/xrds+xml"; u "text/plain"] /\
  getAcceptable float_of_text keep [] [u "text/html"; u "text"] = Raise ValueError.
Proof. vm_compute. repeat split. Qed.
(** The premises of the last theorem are met. *)
Example C51_quality_example : http_quality (decimal_float 7 (-1)) /\ float_of_text (u "0.7") = Some (thousandth 700) /\
  float_of_text (u "0.125") = Some (thousandth 125) /\ float_of_text (u "1") = Some (thousandth 1000).
Proof. split; [exists 700%nat; split; [lia|]|split; [|split]]; vm_compute; reflexivity. Qed.

Lemma two_preferred have (a b : text * float) qual p :
  [a; b] = map (fun i => (nth i have [], qual i)) p -> StronglySorted (preferred qual) p ->
  SFltb (snd b) (snd a) = true \/ SFeqb (snd a) (snd b) = true.
Proof.
  intros E S. destruct p as [|i [|j [|]]]; inv E.
  apply StronglySorted_inv in S as (_ & S). rewrite Forall_forall in S. specialize (S j (or_introl eq_refl)).
  unfold preferred in S. simpl. tauto.
Qed.
(** Without the limit to three digits the order can fail: qualities so small that 1 less them
    is 1 are taken for equal, and the order given decides. *)
Theorem C121_decreasing_refuted : exists header have l,
  Forall one_slash have /\
  getAcceptable float_of_text keep header have = Ok (map fst l) /\
  matchTypes (parseAcceptHeader float_of_text keep header) have = Ok l /\
  ~ negotiated preferred (offers float_of_text header) have l.
Proof.
  exists (u "text/html;q=1e-20, text/plain;q=1e-19"), [u "text/html"; u "text/plain"],
    [(u "text/html", decimal_float 1 (-20)); (u "text/plain", decimal_float 1 (-19))].
  split; [|split; [|split; [vm_compute; reflexivity|]]].
  - repeat constructor; [exists (u "text"), (u "html")|exists (u "text"), (u "plain")]; split; auto;
      split; vm_compute; intuition discriminate.
  - vm_compute. reflexivity.
  - intros (qual & p & _ & E & _ & S).
    apply (two_preferred _ _ _ _ _ E) in S. destruct S as [S|S]; vm_compute in S; discriminate S.
Qed.
Print Assumptions C121_decreasing_refuted.

(** ** Generating *)
(** The tenth [k] nearest to a positive finite float, the even one of two. *)
Definition nearest_tenth (q : float) (k : nat) : Prop :=
  exists m e, q = S754_finite false m e /\ (e < 0)%Z /\
              let err := (2 * Z.abs (10 * Z.pos m - Z.of_nat k * 2 ^ (- e)))%Z in
              (err < 2 ^ (- e) \/ err = 2 ^ (- e) /\ Nat.even k = true)%Z.
(** A float greater than 0 and not greater than 1, in its only representation. *)
Definition quality (q : float) : Prop :=
  valid_binary prec emax q = true /\ SFltb fzero q = true /\ SFltb fone q = false.
Lemma digits2_bound m : (Z.pos m < 2 ^ Z.pos (digits2_pos m))%Z.
Proof.
  induction m as [m IH|m IH|]; simpl digits2_pos; [| |reflexivity];
    rewrite Pos2Z.inj_succ, Z.pow_succ_r by lia; lia.
Qed.
Lemma quality_finite q : quality q -> exists m e, q = S754_finite false m e /\ (-1074 <= e <= -52)%Z /\ (Z.pos m <= 2 ^ (- e))%Z.
Proof.
  intros (V & L & U). destruct q as [[]|[]| |[] m e]; try discriminate L; try discriminate U.
  exists m, e. split; auto. unfold valid_binary, bounded in V. apply andb_true_iff in V as (V & _).
  unfold canonical_mantissa in V. apply Zeq_bool_eq in V. unfold fexp, emin, prec, emax in V.
  pose proof (digits2_bound m) as D. set (d := Z.pos (digits2_pos m)) in *.
  unfold SFltb, SFcompare, fone in U.
  destruct (Z.compare_spec (-52) e) as [E|E|E]; try discriminate U.
  - subst e. split; [lia|]. change (- -52)%Z with 52%Z.
    change (2 ^ 52)%Z with (Z.pos 4503599627370496). 
    change (Pos.compare_cont Eq 4503599627370496 m) with (Pos.compare 4503599627370496 m) in U.
    destruct (Pos.compare 4503599627370496 m) eqn:C; [| |]; [|discriminate U|]; clear - C;
      apply Pos2Z.pos_le_pos; apply Pos.ge_le; intros K; rewrite K in C; discriminate C.
  - split; [lia|]. apply Z.lt_le_incl. eapply Z.lt_le_trans; [exact D|].
    apply Z.pow_le_mono_r; lia.
Qed.
Lemma half_even_spec n d : (0 <= n)%Z -> (0 < d)%Z -> 
  (0 <= half_even n d)%Z /\
  let err := (2 * Z.abs (n - half_even n d * d))%Z in
  (err < d \/ err = d /\ Z.even (half_even n d) = true)%Z.
Proof.
  intros Hn Hd. unfold half_even. pose proof (Z_div_mod n d) as D. destruct (Z.div_eucl n d) as (t, r).
  destruct D as (E & R); [lia|]. assert (0 <= t)%Z as Ht by nia.
  destruct (Z.compare_spec (2 * r) d) as [C|C|C].
  - destruct (Z.even t) eqn:Ev; (split; [lia|]); right; (split; [lia|]); auto.
    rewrite Z.even_add, Ev. auto.
  - split; [lia|]. left. lia.
  - split; [lia|]. left. lia.
Qed.
Lemma quality_tenths q : quality q -> exists k, (k <= 10)%nat /\ nearest_tenth q k /\
  format1 q = match k with 10%nat => u "1.0" | _ => u "0." ++ str_of_N (N.of_nat k) end.
Proof.
  intros H. destruct (quality_finite q H) as (m & e & -> & (He1 & He) & Hm). clear H.
  assert (0 < 2 ^ (- e))%Z as Hp by (apply Z.pow_pos_nonneg; lia).
  destruct (half_even_spec (10 * Z.pos m) (2 ^ (- e))) as (T0 & T); [lia|auto|].
  set (t := half_even (10 * Z.pos m) (2 ^ (- e))) in *. cbv zeta in T.
  assert (t <= 10)%Z as T1 by nia.
  exists (Z.to_nat t). split; [lia|]. split.
  - exists m, e. split; auto. split; [lia|]. cbv zeta. rewrite Z2Nat.id by auto.
    destruct T as [T|(T & Ev)]; [left; auto|right]. split; auto.
    rewrite <- Ev. rewrite <- (Z2Nat.id t) at 2 by auto. generalize (Z.to_nat t) as n. clear. intros n.
    destruct (Nat.even n) eqn:E.
    + apply Nat.even_spec in E as (k & ->). symmetry. apply Z.even_spec. exists (Z.of_nat k). lia.
    + rewrite <- Nat.negb_odd in E. apply negb_false_iff, Nat.odd_spec in E as (k & ->).
      symmetry. rewrite <- Z.negb_odd. apply negb_false_iff, Z.odd_spec. exists (Z.of_nat k). lia.
  - unfold format1, tenths. assert ((0 <=? e)%Z = false) as -> by lia. fold t.
    clearbody t. clear - T0 T1.
    assert (t = 0 \/ t = 1 \/ t = 2 \/ t = 3 \/ t = 4 \/ t = 5 \/ t = 6 \/ t = 7 \/ t = 8 \/ t = 9 \/ t = 10)%Z as C by lia.
    repeat (destruct C as [->|C]; [vm_compute; reflexivity|]). subst. vm_compute. reflexivity.
Qed.
Lemma nearest_tenth_fun q k k' : nearest_tenth q k -> nearest_tenth q k' -> k = k'.
Proof.
  intros (m & e & -> & He & A) (m' & e' & E & _ & B). inv E. cbv zeta in *.
  assert (0 < 2 ^ (- e'))%Z as Hp by (apply Z.pow_pos_nonneg; lia). set (P := (2 ^ (- e'))%Z) in *. clearbody P.
  destruct (Nat.lt_trichotomy k k') as [L|[L|L]]; auto; exfalso.
  - assert (k' = S k \/ Z.of_nat k' >= Z.of_nat k + 2)%Z as [->|G] by lia; [|nia].
    destruct A as [A|(A & A')]; [nia|]. destruct B as [B|(B & B')]; [nia|].
    rewrite Nat.even_succ, <- Nat.negb_even, A' in B'. discriminate B'.
  - assert (k = S k' \/ Z.of_nat k >= Z.of_nat k' + 2)%Z as [->|G] by lia; [|nia].
    destruct A as [A|(A & A')]; [nia|]. destruct B as [B|(B & B')]; [nia|].
    rewrite Nat.even_succ, <- Nat.negb_even, B' in A'. discriminate A'.
Qed.
Definition tenth (k : nat) : float := decimal_float (Z.of_nat k) (-1).
(** A type that can stand in a header: one slash, no separators, no space around it. *)
Definition clean (ty : text) : Prop := one_slash ty /\ ~ In 44 ty /\ ~ In 59 ty /\ strip ty = ty.
Definition type_of (e : text + text * float) : text := match e with inl ty => ty | inr (ty, _) => ty end.
Definition valid (e : text + text * float) : Prop := match e with inl _ => True | inr (_, q) => quality q end.
(** The quality an element is sent with: 1 for a bare type, else the nearest tenth. *)
Definition sent (e : text + text * float) (q : float) : Prop :=
  match e with inl _ => q = fone | inr (_, x) => exists k, nearest_tenth x k /\ q = tenth k end.

Lemma join_comma x xs : join (u ", ") (x :: xs) = join [44] (x :: map (cons 32) xs).
Proof.
  revert x. induction xs as [|y ys IH]; intros x; auto.
  change (join (u ", ") (x :: y :: ys)) with (x ++ u ", " ++ join (u ", ") (y :: ys)).
  rewrite IH. simpl map. change (join [44] (x :: (32 :: y) :: map (cons 32) ys)) with (x ++ [44] ++ join [44] ((32 :: y) :: map (cons 32) ys)).
  f_equal. destruct ys; auto.
Qed.
Lemma offers_chunks fl h main sub q :
  offers fl h main sub q <-> exists c, In c (splitc 44 h) /\ read_chunk fl c = Some (main, sub, q).
Proof.
  unfold offers. split.
  - intros (c & ty & params & Hc & K). exists c. split; [apply splitc_piece; auto|]. apply read_chunk_spec. eauto.
  - intros (c & Hc & E). apply read_chunk_spec in E as (ty & params & E & K). exists c, ty, params.
    split; [apply splitc_piece; auto|tauto].
Qed.
Lemma read_space fl c : read_chunk fl (32 :: c) = read_chunk fl c.
Proof. unfold read_chunk. change (32 :: c) with ([32] ++ c). rewrite strip_pre; auto. Qed.
Lemma offers_joined fl cs main sub q : Forall (fun c => ~ In 44 c) cs ->
  offers fl (join (u ", ") cs) main sub q <-> exists c, In c cs /\ read_chunk fl c = Some (main, sub, q).
Proof.
  intros F. rewrite offers_chunks. destruct cs as [|x xs].
  - split; [|intros (c & [] & _)]. intros (c & [<-|[]] & E). vm_compute in E. discriminate E.
  - rewrite join_comma, splitc_join; [|discriminate|].
    + simpl. split.
      * intros (c & [<-|H] & E); [eauto|]. apply in_map_iff in H as (y & <- & Hy). rewrite read_space in E. eauto.
      * intros (c & [<-|H] & E); [eauto|]. exists (32 :: c). split; [right; apply in_map; auto|]. rewrite read_space. auto.
    + inv F. constructor; auto. rewrite Forall_forall in *. intros y Hy. apply in_map_iff in Hy as (z & <- & Hz).
      intros [K|K]; [discriminate K|]. apply (H2 z); auto.
Qed.
Lemma type_cut ty main sub : one_slash ty -> cut 47 ty = Some (main, sub) <-> ty = main ++ u "/" ++ sub.
Proof.
  intros (m & s & E & Hm & Hs). rewrite cut_Some. split; [intros (-> & _); auto|]. intros E'. split; auto.
  rewrite E in E'. apply slash_unique in E' as (-> & _); auto.
Qed.
Lemma read_bare fl ty main sub q : clean ty ->
  read_chunk fl ty = Some (main, sub, q) <-> ty = main ++ u "/" ++ sub /\ q = fone.
Proof.
  intros (O & _ & N & S). unfold read_chunk. rewrite S, splitc_nin by auto. simpl. rewrite S.
  rewrite <- (type_cut ty main sub O). destruct (cut 47 ty) as [[m s]|].
  - split; [intros K; inv K; auto|]. intros (K & ->). inv K. auto.
  - split; [discriminate|]. intros (K & _). discriminate K.
Qed.
Lemma read_param fl ty s x main sub q : clean ty -> strip (u " q=" ++ s) = u "q=" ++ s -> ~ In 59 s -> fl s = Some x ->
  read_chunk fl (ty ++ u "; q=" ++ s) = Some (main, sub, q) <-> ty = main ++ u "/" ++ sub /\ q = x.
Proof.
  intros (O & _ & N & S) Es Ns F. unfold read_chunk. rewrite parts_strip.
  assert (exists v, v = u " q=" ++ s) as (v & Ev) by eauto. rewrite <- Ev in Es.
  assert (ty ++ u "; q=" ++ s = ty ++ 59 :: v) as -> by (rewrite Ev; reflexivity). rewrite splitc_app by auto.
  rewrite splitc_nin; [|rewrite Ev; intros K; apply in_app_or in K as [K|K]; auto; vm_compute in K; intuition discriminate].
  simpl map. rewrite S, Es. rewrite <- (type_cut ty main sub O).
  assert (read_q fl [u "q=" ++ s] = x) as Rq.
  { unfold read_q. change (u "q=" ++ s) with (u "q" ++ 61 :: s). rewrite cut_app; [|vm_compute; intuition discriminate].
    rewrite text_eqb_refl, F. auto. }
  match goal with |- context [read_q fl ?z] => replace (read_q fl z) with x by (symmetry; exact Rq) end.
  destruct (cut 47 ty) as [[m s']|].
  - split; [intros K; inv K; auto|]. intros (K & ->). inv K. auto.
  - split; [discriminate|]. intros (K & _). discriminate K.
Qed.
Lemma below_ten (P : nat -> Prop) : P 0%nat -> P 1%nat -> P 2%nat -> P 3%nat -> P 4%nat -> P 5%nat -> P 6%nat -> P 7%nat -> P 8%nat -> P 9%nat ->
  forall k, (k <= 9)%nat -> P k.
Proof. intros. do 10 (destruct k; auto). lia. Qed.
Lemma accept_part_valid e : valid e -> exists s,
  accept_part e = Ok (s, type_of e) /\
  ((s = u "1.0" /\ forall q, sent e q <-> q = fone) \/
   exists k, (k <= 9)%nat /\ s = u "0." ++ str_of_N (N.of_nat k) /\ forall q, sent e q <-> q = tenth k).
Proof.
  destruct e as [ty|[ty x]]; simpl.
  - intros _. exists (u "1.0"). split; auto. left. split; auto. tauto.
  - intros Q. destruct (quality_tenths x Q) as (k & Hk & Nk & F). exists (format1 x). split.
    + destruct Q as (_ & L & U). rewrite U.
      assert (SFleb x fzero = false) as ->; auto. destruct x as [[]|[]| |[] m e]; auto; discriminate L.
    + assert (forall q, (exists k', nearest_tenth x k' /\ q = tenth k') <-> q = tenth k) as S.
      { intros q. split; [|intros ->; eauto]. intros (k' & N' & ->). f_equal. eapply nearest_tenth_fun; eauto. }
      destruct (Nat.eq_dec k 10) as [->|N].
      * left. split; [exact F|exact S].
      * right. exists k. split; [lia|]. split; [|exact S]. rewrite F.
        assert (k <= 9)%nat as K by lia. revert K. generalize k. apply below_ten; reflexivity.
Qed.
Lemma mapM_valid es : Forall valid es -> exists parts, mapM accept_part es = Ok parts.
Proof.
  induction 1 as [|e es H F (parts & IH)]; [exists []; auto|].
  destruct (accept_part_valid e H) as (s & E & _). simpl. rewrite E, IH. simpl. eauto.
Qed.
(** A generated header offers exactly the types given, each with its quality to the nearest
    tenth.  It is refused exactly when some quality is above 1 or not above 0. *)
Theorem C122_generate fl es :
  (forall k, (k <= 9)%nat -> fl (u "0." ++ str_of_N (N.of_nat k)) = Some (tenth k)) ->
  Forall (fun e => clean (type_of e)) es -> Forall valid es ->
  exists h, generateAcceptHeader es = Ok h /\
            forall main sub q, offers fl h main sub q <-> exists e, In e es /\ type_of e = main ++ u "/" ++ sub /\ sent e q.
Proof.
  intros Hfl C V. destruct (mapM_valid es V) as (parts & M). unfold generateAcceptHeader. rewrite M. cbn [bind].
  eexists. split; [reflexivity|]. intros main sub q.
  apply mapM_Ok_Forall2 in M.
  assert (forall e p, clean (type_of e) -> valid e -> accept_part e = Ok p ->
            ~ In 44 (accept_chunk p) /\
            (read_chunk fl (accept_chunk p) = Some (main, sub, q) <-> type_of e = main ++ u "/" ++ sub /\ sent e q)) as R.
  { intros e p Ce Ve E. destruct (accept_part_valid e Ve) as (s & E' & S). rewrite E in E'. inv E'.
    unfold accept_chunk. cbn [fst snd]. destruct S as [(-> & S)|(k & Hk & -> & S)].
    - rewrite text_eqb_refl. split; [apply Ce|]. rewrite S. apply read_bare; auto.
    - set (s := u "0." ++ str_of_N (N.of_nat k)) in *.
      assert (text_eqb s (u "1.0") = false /\ strip (u " q=" ++ s) = u "q=" ++ s /\ memc 59 s = false /\ memc 44 (u "; q=" ++ s) = false) as (N1 & N2 & N3 & N4).
      { unfold s. revert Hk. generalize k. apply below_ten; vm_compute; auto. }
      rewrite N1. split.
      + intros K. apply in_app_or in K as [K|K]; [destruct Ce as (_ & Ce & _); auto|].
        apply (memc_In 44) in K. rewrite K in N4. discriminate N4.
      + rewrite S. apply read_param; auto; [|apply Hfl; auto]. intros K. apply (memc_In 59) in K. rewrite K in N3. discriminate N3. }
  rewrite offers_joined.
  - split.
    + intros (c & Hc & E). apply in_map_iff in Hc as (p & <- & Hp). apply sort_In in Hp.
      rewrite Forall_forall in C, V.
      assert (exists e, In e es /\ accept_part e = Ok p) as (e & He & Ep).
      { clear - M Hp. induction M as [|e p' es ps Hep M IH]; [destruct Hp|].
        destruct Hp as [<-|Hp]; [exists e; split; auto; left; auto|]. destruct (IH Hp) as (e' & ? & ?). exists e'. split; auto. right. auto. }
      exists e. split; auto. apply (proj2 (R e p (C e He) (V e He) Ep)); auto.
    + intros (e & He & Te & Se). rewrite Forall_forall in C, V.
      assert (exists p, In p parts /\ accept_part e = Ok p) as (p & Hp & Ep).
      { clear - M He. induction M as [|e' p' es ps Hep M IH]; [destruct He|].
        destruct He as [<-|He]; [exists p'; split; auto; left; auto|]. destruct (IH He) as (p & ? & ?). exists p. split; auto. right. auto. }
      exists (accept_chunk p). split; [apply in_map, sort_In; auto|]. apply (proj2 (R e p (C e He) (V e He) Ep)); auto.
  - apply Forall_forall. intros c Hc. apply in_map_iff in Hc as (p & <- & Hp). apply sort_In in Hp.
    rewrite Forall_forall in C, V.
    assert (exists e, In e es /\ accept_part e = Ok p) as (e & He & Ep).
    { clear - M Hp. induction M as [|e p' es ps Hep M IH]; [destruct Hp|].
      destruct Hp as [<-|Hp]; [exists e; split; auto; left; auto|]. destruct (IH Hp) as (e' & ? & ?). exists e'. split; auto. right. auto. }
    apply (R e p (C e He) (V e He) Ep).
Qed.
Print Assumptions C122_generate.
Theorem C122_refused es :
  generateAcceptHeader es = Raise ValueError <->
  exists ty q, In (inr (ty, q)) es /\ (SFltb fone q = true \/ SFleb q fzero = true).
Proof.
  unfold generateAcceptHeader. induction es as [|e es IH].
  - split; [discriminate|]. intros (? & ? & [] & _).
  - cbn [mapM]. destruct (accept_part e) as [p|x] eqn:E; cbn [bind].
    + assert (forall ty q, e = inr (ty, q) -> SFltb fone q || SFleb q fzero = false) as N.
      { intros ty q ->. simpl in E. destruct (SFltb fone q || SFleb q fzero); auto; discriminate E. }
      transitivity (exists ty q, In (inr (ty, q)) es /\ (SFltb fone q = true \/ SFleb q fzero = true)).
      * rewrite <- IH. destruct (mapM accept_part es); cbn [bind]; split; intros H; auto; discriminate H.
      * split; intros (ty & q & H & K); exists ty, q; split; auto; [right; auto|].
        destruct H as [H|H]; auto. apply N in H. apply orb_false_iff in H as (H1 & H2).
        rewrite H1, H2 in K. destruct K; discriminate.
    + assert (x = ValueError) as -> by (destruct e as [?|[? q]]; simpl in E; [discriminate|];
        destruct (SFltb fone q || SFleb q fzero); inv E; auto).
      split; auto. intros _. destruct e as [ty|[ty q]]; [discriminate E|]. exists ty, q. split; [left; auto|].
      simpl in E. destruct (SFltb fone q || SFleb q fzero) eqn:B; [|discriminate E]. apply orb_true_iff in B. auto.
Qed.
Print Assumptions C122_refused.
Example C122_example :
  generateAcceptHeader [inl (u "text/html"); inr (u "application/xrds+xml", decimal_float 25 (-2)); inr (u "text/plain", decimal_float 35 (-2)); inr (u "a/b", fone)]
    = Ok (u "application/xrds+xml; q=0.2, text/plain; q=0.3, a/b, text/html") /\
  generateAcceptHeader [inr (u "text/html", decimal_float 11 (-1))] = Raise ValueError /\
  forallb (fun k => match float_of_text (u "0." ++ str_of_N (N.of_nat k)) with Some q => SFeqb q (tenth k) | None => false end) (seq 0 10) = true.
Proof. vm_compute. auto. Qed.

(** A small quality is sent as 0, and the type is then not acceptable at all. *)
Theorem C123_positive_refuted : exists ty q h,
  quality q /\ generateAcceptHeader [inr (ty, q)] = Ok h /\ h = u "text/html; q=0.0" /\
  getAcceptable float_of_text keep h [ty] = Ok [].
Proof.
  exists (u "text/html"), (decimal_float 4 (-2)), (u "text/html; q=0.0"). split; [|vm_compute; auto].
  vm_compute. auto.
Qed.
Print Assumptions C123_positive_refuted.
(** A NaN is neither above 1 nor at most 0, so it is let through. *)
Theorem C124_range_refuted : exists ty q,
  SFltb fzero q = false /\ generateAcceptHeader [inr (ty, q)] = Ok (ty ++ u "; q=nan").
Proof. exists (u "text/html"), S754_nan. vm_compute. auto. Qed.
Print Assumptions C124_range_refuted.
