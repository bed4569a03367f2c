(** Lemmas about [UriNorm]: dot segments. *)
From Coq Require Import Lia ZifyBool ZifyN ZifyNat.
From Verif Require Import Py PyFacts Utf8 Utf8Facts UrlLib UrlLibFacts UriNorm.
Local Arguments u : simpl never.

Lemma span_until_spec c s a b : span_until c s = (a, b) -> s = a ++ b /\ ~ In c a /\ (b = [] \/ exists r, b = c :: r).
Proof.
  revert a b. induction s as [|x s IH]; cbn [span_until]; intros a b H.
  - inv H. auto.
  - destruct (x =? c) eqn:E.
    + apply N.eqb_eq in E. inv H. split; auto. split; auto. right. eauto.
    + destruct (span_until c s) as [a' b']. inv H. destruct (IH a' b eq_refl) as (-> & H1 & H2).
      split; auto. split; auto. intros [->|H]; auto. apply N.eqb_neq in E. contradiction.
Qed.
Lemma splitc_cons_sep c r : splitc c (c :: r) = [] :: splitc c r.
Proof. cbn [splitc]. rewrite N.eqb_refl. auto. Qed.

(** What dot segment removal does to the list of segments of an absolute path
    (RFC 3986, 5.2.4): '.' is dropped, '..' removes the previous segment, and at
    the end both leave a trailing slash. *)
Definition dot (s : text) : bool := text_eqb s (u ".").
Definition dotdot (s : text) : bool := text_eqb s (u "..").
Fixpoint dots (segs : list text) (st : list text) : list text :=
  match segs with
  | [] => st
  | [s] => if dot s then [47] :: st else if dotdot s then [47] :: tl st else (47 :: s) :: st
  | s :: rest => if dot s then dots rest st else if dotdot s then dots rest (tl st) else dots rest ((47 :: s) :: st)
  end.
Lemma dots_cons s rest st : rest <> [] ->
  dots (s :: rest) st = if dot s then dots rest st else if dotdot s then dots rest (tl st) else dots rest ((47 :: s) :: st).
Proof. destruct rest; [contradiction|]. auto. Qed.

(** The first segment of what follows a slash. *)
Lemma first_seg r : exists a, ~ In 47 a /\
  ((r = a /\ splitc 47 r = [a]) \/ exists r', r = a ++ 47 :: r' /\ splitc 47 r = a :: splitc 47 r').
Proof.
  destruct (span_until 47 r) as [a b] eqn:E. apply span_until_spec in E as (-> & H & [->|(r' & ->)]); exists a; split; auto.
  - left. rewrite app_nil_r. split; auto. apply splitc_nin; auto.
  - right. exists r'. split; auto. apply splitc_app; auto.
Qed.
Lemma span_until_plain a : ~ In 47 a -> span_until 47 a = (a, []).
Proof.
  induction a as [|x a IH]; auto. intros H. cbn [span_until]. replace (x =? 47) with false.
  - rewrite IH; auto. intros X. apply H. right. auto.
  - symmetry. apply N.eqb_neq. intros ->. apply H. left. auto.
Qed.
Lemma span_until_app a r : ~ In 47 a -> span_until 47 (a ++ 47 :: r) = (a, 47 :: r).
Proof.
  induction a as [|x a IH]; cbn [app span_until].
  - intros _. rewrite N.eqb_refl. auto.
  - intros H. replace (x =? 47) with false.
    + rewrite IH; auto. intros X. apply H. right. auto.
    + symmetry. apply N.eqb_neq. intros ->. apply H. left. auto.
Qed.

Lemma u_dot : u "." = [46]. Proof. reflexivity. Qed.
Lemma u_dotdot : u ".." = [46; 46]. Proof. reflexivity. Qed.
Lemma rds_abs_step fuel r st a : ~ In 47 a -> r = a \/ (exists r', r = a ++ 47 :: r') ->
  rds_loop (S fuel) (47 :: r) st =
  match skipn (List.length a) r with
  | [] => if dot a then rds_loop fuel [47] st else if dotdot a then rds_loop fuel [47] (tl st) else rds_loop fuel [] ((47 :: a) :: st)
  | r' => if dot a then rds_loop fuel r' st else if dotdot a then rds_loop fuel r' (tl st) else rds_loop fuel r' ((47 :: a) :: st)
  end.
Proof.
  intros Ha Hr. cbn [rds_loop]. unfold dot, dotdot. rewrite u_dot, u_dotdot.
  change (u "../") with [46; 46; 47]. change (u "./") with [46; 47]. change (u "/./") with [47; 46; 47]. change (u "/.") with [47; 46].
  change (u "/../") with [47; 46; 46; 47]. change (u "/..") with [47; 46; 46]. change (u "/") with [47].
  unfold text_eqb. cbn [startswith list_eqb skipn tl].
  change (47 =? 46) with false. change (47 =? 47) with true. cbn [andb orb].
  assert (forall c : N, In c a -> c =? 47 = false) as Hn by (intros c Hc; apply N.eqb_neq; intros ->; contradiction).
  destruct a as [|a1 [|a2 [|a3 a']]].
  - (* empty segment *)
    cbn [app List.length skipn list_eqb]. destruct Hr as [->|(r' & ->)]; cbn [startswith list_eqb andb orb span_until app]; auto.
  - assert (a1 =? 47 = false) as N1 by (apply Hn; simpl; auto).
    cbn [app List.length skipn list_eqb]. destruct Hr as [->|(r' & ->)]; cbn [startswith list_eqb andb orb span_until app skipn];
      rewrite ?N1; change (47 =? 46) with false; change (47 =? 47) with true; rewrite ?andb_true_r, ?andb_false_r; cbn [andb orb];
      destruct (a1 =? 46); cbn [andb orb]; auto; cbn [span_until]; rewrite ?N.eqb_refl; auto.
  - assert (a1 =? 47 = false) as N1 by (apply Hn; simpl; auto). assert (a2 =? 47 = false) as N2 by (apply Hn; simpl; auto).
    cbn [app List.length skipn list_eqb]. destruct Hr as [->|(r' & ->)]; cbn [startswith list_eqb andb orb span_until app skipn];
      rewrite ?N1, ?N2; change (47 =? 46) with false; change (47 =? 47) with true; rewrite ?andb_true_r, ?andb_false_r; cbn [andb orb];
      destruct (a1 =? 46), (a2 =? 46); cbn [andb orb]; auto; cbn [span_until]; rewrite ?N.eqb_refl; auto.
  - assert (a1 =? 47 = false) as N1 by (apply Hn; simpl; auto). assert (a2 =? 47 = false) as N2 by (apply Hn; simpl; auto).
    assert (a3 =? 47 = false) as N3 by (apply Hn; simpl; auto).
    assert (~ In 47 (a1 :: a2 :: a3 :: a')) as Ha' by auto.
    destruct Hr as [->|(r' & ->)].
    + rewrite span_until_plain by auto. cbn [startswith list_eqb List.length app]. rewrite N2, N3, ?andb_false_r. cbn [andb].
      rewrite skipn_all2 by (simpl; lia). rewrite ?andb_false_r. auto.
    + rewrite span_until_app by auto. cbn [startswith list_eqb List.length app]. rewrite N2, N3, ?andb_false_r. cbn [andb skipn].
      rewrite skipn_app, skipn_all, Nat.sub_diag. cbn [skipn app]. rewrite ?andb_false_r. auto.
Qed.
Lemma rds_abs : forall fuel r st, (S (List.length r) < fuel)%nat -> rds_loop fuel (47 :: r) st = Ok (dots (splitc 47 r) st).
Proof.
  induction fuel as [|fuel IH]; intros r st Hf; [lia|]. destruct (first_seg r) as (a & Ha & H).
  rewrite (rds_abs_step fuel r st a Ha) by (destruct H as [(H & _)|(r' & H & _)]; eauto).
  destruct fuel as [|fuel]; [lia|].
  assert (forall st, rds_loop (S fuel) [] st = Ok st) as Z by reflexivity.
  assert (forall st, r <> [] -> rds_loop (S fuel) [47] st = Ok ([47] :: st)) as Z1.
  { intros st0 Hr. destruct r; [contradiction|]. rewrite IH by (cbn [List.length] in *; lia). auto. }
  destruct H as [(-> & E)|(r' & -> & E)]; rewrite E.
  - rewrite skipn_all. cbn [dots]. unfold dot, dotdot in *.
    destruct (text_eqb a (u ".")) eqn:D; [apply text_eqb_eq in D; apply Z1; rewrite D; discriminate|].
    destruct (text_eqb a (u "..")) eqn:D'; [apply text_eqb_eq in D'; apply Z1; rewrite D'; discriminate|]. auto.
  - rewrite skipn_app, skipn_all, Nat.sub_diag. cbn [skipn app]. rewrite dots_cons by apply splitc_nonempty.
    rewrite app_length in Hf. cbn [List.length] in Hf.
    destruct (dot a) eqn:D; [apply IH; lia|]. destruct (dotdot a) eqn:D'; [apply IH; lia|].
    apply IH. lia.
Qed.
Lemma rds_abs_path r : remove_dot_segments (47 :: r) = Ok (List.concat (rev (dots (splitc 47 r) []))).
Proof. unfold remove_dot_segments. rewrite rds_abs by (cbn [List.length]; lia). auto. Qed.

(** Relative paths. *)
Definition rel_start (a : text) : Prop := a <> [] /\ ~ In 47 a /\ dot a = false /\ dotdot a = false.
Lemma rds_rel_step fuel a b st : rel_start a -> b = [] \/ (exists r, b = 47 :: r) ->
  rds_loop (S fuel) (a ++ b) st = rds_loop fuel b (a :: st).
Proof.
  intros (Hne & Hs & D1 & D2) Hb. destruct a as [|c a]; [contradiction|].
  assert (c =? 47 = false) as Nc by (apply N.eqb_neq; intros ->; apply Hs; left; auto).
  assert (span_until 47 ((c :: a) ++ b) = (c :: a, b)) as Sp.
  { destruct Hb as [->|(r & ->)]; [rewrite app_nil_r; apply span_until_plain; auto|apply span_until_app; auto]. }
  cbn [rds_loop app] in *. rewrite Sp. rewrite Nc. unfold dot, dotdot in *. rewrite u_dot, u_dotdot in *.
  change (u "../") with [46; 46; 47]. change (u "./") with [46; 47]. change (u "/./") with [47; 46; 47]. change (u "/.") with [47; 46].
  change (u "/../") with [47; 46; 46; 47]. change (u "/..") with [47; 46; 46].
  unfold text_eqb in *. cbn [startswith list_eqb] in *. rewrite Nc. cbn [andb].
  destruct a as [|c2 a]; cbn [list_eqb app] in *.
  - rewrite andb_true_r in D1. rewrite D1. cbn [andb orb]. auto.
  - assert (c2 =? 47 = false) as Nc2 by (apply N.eqb_neq; intros ->; apply Hs; right; left; auto). rewrite Nc2.
    rewrite ?andb_false_r, ?andb_false_l, ?orb_false_r. destruct a as [|c3 a]; cbn [list_eqb app] in *.
    + rewrite andb_true_r in D2. rewrite andb_assoc, D2. cbn [andb orb]. destruct b; cbn [list_eqb]; rewrite ?andb_false_r, ?andb_true_r, ?D2; auto.
    + assert (c3 =? 47 = false) as Nc3 by (apply N.eqb_neq; intros ->; apply Hs; right; right; left; auto). rewrite Nc3.
      rewrite ?andb_false_r, ?andb_false_l, ?orb_false_r. auto.
Qed.
Lemma rds_rel a b : rel_start a -> b = [] \/ (exists r, b = 47 :: r) ->
  remove_dot_segments (a ++ b) = Ok (a ++ match b with [] => [] | _ :: r => List.concat (tl (rev (dots (splitc 47 r) [a]))) end) \/
  (exists r, b = 47 :: r /\ remove_dot_segments (a ++ b) = Ok (List.concat (rev (dots (splitc 47 r) [a])))).
Proof.
  intros Ha Hb. unfold remove_dot_segments. rewrite rds_rel_step by auto. destruct Hb as [->|(r & ->)].
  - left. destruct Ha as (Hne & _). destruct a; [contradiction|]. cbn. rewrite !app_nil_r. auto.
  - right. exists r. split; auto. rewrite rds_abs; [auto|]. rewrite app_length. destruct Ha as (Hne & _). destruct a; [contradiction|]. cbn [List.length]. lia.
Qed.
Lemma rds_more : forall f1 f2 p st, (List.length p < f1)%nat -> (List.length p < f2)%nat -> rds_loop f1 p st = rds_loop f2 p st.
Proof.
  induction f1 as [|f1 IH]; intros f2 p st H1 H2; [lia|]. destruct f2 as [|f2]; [lia|]. cbn [rds_loop]. destruct p as [|c r]; auto.
  cbn [List.length] in *.
  repeat match goal with |- (if ?x then _ else _) = _ => destruct x eqn:? end.
  1-3: apply IH; rewrite skipn_length; cbn [List.length]; lia.
  - apply text_eqb_eq in Heqb2. apply (f_equal (@List.length N)) in Heqb2. cbn [List.length] in Heqb2.
    change (List.length (u "/.")) with 2%nat in Heqb2. change (u "/") with [47]. apply IH; cbn [List.length]; lia.
  - apply IH; rewrite skipn_length; cbn [List.length]; lia.
  - apply text_eqb_eq in Heqb4. apply (f_equal (@List.length N)) in Heqb4. cbn [List.length] in Heqb4.
    change (List.length (u "/..")) with 3%nat in Heqb4. change (u "/") with [47]. apply IH; cbn [List.length]; lia.
  - apply IH; cbn; lia.
  - destruct (span_until 47 r) as [a b] eqn:E. apply span_until_spec in E as (-> & _). rewrite app_length in *. apply IH; lia.
  - destruct (span_until 47 (c :: r)) as [a b] eqn:E. pose proof E as E'. apply span_until_spec in E as (E & _ & Hb).
    destruct a as [|x a].
    + exfalso. cbn [span_until] in E'. rewrite Heqb6 in E'. destruct (span_until 47 r). discriminate.
    + apply (f_equal (@List.length N)) in E. rewrite app_length in E. cbn [List.length] in E. apply IH; lia.
Qed.
Lemma rds_step_dot f p st : rds_loop (S f) (46 :: 47 :: p) st = rds_loop f p st.
Proof. reflexivity. Qed.
Lemma rds_step_dotdot f p st : rds_loop (S f) (46 :: 46 :: 47 :: p) st = rds_loop f p st.
Proof. reflexivity. Qed.
Lemma rds_dotslash p : remove_dot_segments (46 :: 47 :: p) = remove_dot_segments p.
Proof.
  unfold remove_dot_segments. rewrite rds_step_dot.
  rewrite (rds_more _ (S (List.length p))) by (cbn [List.length]; lia). auto.
Qed.
Lemma rds_dotdotslash p : remove_dot_segments (46 :: 46 :: 47 :: p) = remove_dot_segments p.
Proof.
  unfold remove_dot_segments. rewrite rds_step_dotdot.
  rewrite (rds_more _ (S (List.length p))) by (cbn [List.length]; lia). auto.
Qed.

(** Paths without dot segments. *)
Definition no_dots (p : text) : Prop := Forall (fun s => s <> u "." /\ s <> u "..") (splitc 47 p).
Lemma dot_false s : s <> u "." -> dot s = false. Proof. apply text_eqb_neq. Qed.
Lemma dotdot_false s : s <> u ".." -> dotdot s = false. Proof. apply text_eqb_neq. Qed.
Lemma dots_plain segs : forall st, Forall (fun s => s <> u "." /\ s <> u "..") segs ->
  dots segs st = rev (map (cons 47) segs) ++ st.
Proof.
  induction segs as [|s segs IH]; intros st H; auto. inv H. destruct H2 as [H1 H2]. apply dot_false in H1. apply dotdot_false in H2.
  destruct segs as [|s2 segs].
  - cbn [dots]. rewrite H1, H2. auto.
  - rewrite dots_cons by discriminate. rewrite H1, H2, IH by auto. cbn [map rev]. rewrite <- !app_assoc. auto.
Qed.
Lemma concat_slash segs : segs <> [] -> List.concat (map (cons 47) segs) = 47 :: join [47] segs.
Proof.
  induction segs as [|s segs IH]; [contradiction|]. intros _. cbn [map List.concat join]. destruct segs as [|s2 segs].
  - cbn. rewrite app_nil_r. auto.
  - rewrite IH by discriminate. cbn [app]. auto.
Qed.
Lemma rds_abs_plain r : no_dots (47 :: r) -> remove_dot_segments (47 :: r) = Ok (47 :: r).
Proof.
  unfold no_dots. rewrite splitc_cons_sep. intros H. inv H. rewrite rds_abs_path, dots_plain by auto. rewrite app_nil_r, rev_involutive.
  rewrite concat_slash by apply splitc_nonempty. rewrite join_splitc. auto.
Qed.
Lemma rds_plain p : no_dots p -> remove_dot_segments p = Ok p.
Proof.
  intros H. destruct p as [|c p]; [reflexivity|]. destruct (span_until 47 (c :: p)) as [a b] eqn:E. apply span_until_spec in E as (E & Ha & Hb).
  destruct a as [|x a].
  - cbn [app] in E. destruct Hb as [->|(r & ->)]; [discriminate|]. injection E as -> ->. apply rds_abs_plain. auto.
  - assert (In (x :: a) (splitc 47 (c :: p))) as I.
    { rewrite E. destruct Hb as [->|(r & ->)]; [rewrite app_nil_r, splitc_nin by auto; left; auto|rewrite splitc_app by auto; left; auto]. }
    unfold no_dots in H. rewrite Forall_forall in H. pose proof (H _ I) as [D1 D2].
    assert (rel_start (x :: a)) as R by (split; [discriminate|]; split; auto; split; [apply dot_false|apply dotdot_false]; auto).
    rewrite E. destruct Hb as [->|(r & ->)].
    + unfold remove_dot_segments. rewrite rds_rel_step by auto. rewrite app_nil_r. cbn. rewrite app_nil_r. auto.
    + unfold remove_dot_segments. rewrite rds_rel_step by eauto. rewrite rds_abs by (rewrite app_length; cbn [List.length]; lia). cbn [bind].
      rewrite dots_plain.
      * rewrite rev_app_distr, rev_involutive, concat_app, concat_slash by apply splitc_nonempty. rewrite join_splitc. cbn [rev app List.concat]. rewrite app_nil_r. auto.
      * rewrite Forall_forall. intros s Hs. apply H. rewrite E, splitc_app by auto. right. auto.
Qed.

(** The result has no dot segments. *)
Definition good_seg (s : text) : Prop := exists a, s = 47 :: a /\ ~ In 47 a /\ a <> u "." /\ a <> u "..".
Definition stack_ok (st : list text) : Prop :=
  exists front base, st = front ++ base /\ Forall good_seg front /\ (base = [] \/ exists f, base = [f] /\ rel_start f).
Lemma stack_ok_tl st : stack_ok st -> stack_ok (tl st).
Proof.
  intros (front & base & -> & F & B). destruct front as [|g front].
  - destruct B as [->|(f & -> & R)]; exists [], []; auto.
  - inv F. exists front, base. auto.
Qed.
Lemma stack_ok_push st g : good_seg g -> stack_ok st -> stack_ok (g :: st).
Proof. intros G (front & base & -> & F & B). exists (g :: front), base. auto. Qed.
Lemma good_slash : good_seg [47].
Proof. exists []. split; auto. split; auto. split; discriminate. Qed.
Lemma dots_ok segs : forall st, Forall (fun s => ~ In 47 s) segs -> stack_ok st -> stack_ok (dots segs st).
Proof.
  induction segs as [|s segs IH]; intros st F H; auto. inv F.
  assert (dot s = false -> dotdot s = false -> good_seg (47 :: s)) as G.
  { intros D1 D2. exists s. split; auto. split; auto. split; apply text_eqb_neq; auto. }
  destruct segs as [|s2 segs].
  - cbn [dots]. destruct (dot s) eqn:D1; [apply stack_ok_push; auto using good_slash|].
    destruct (dotdot s) eqn:D2; apply stack_ok_push; auto using good_slash, stack_ok_tl.
  - rewrite dots_cons by discriminate. destruct (dot s) eqn:D1; auto. destruct (dotdot s) eqn:D2; apply IH; auto using stack_ok_tl, stack_ok_push.
Qed.
Lemma good_concat l : Forall good_seg l -> forall a, ~ In 47 a ->
  splitc 47 (a ++ List.concat l) = a :: map (@tl N) l.
Proof.
  induction 1 as [|s l (b & -> & Hb & _) H IH]; intros a Ha; cbn [List.concat map].
  - rewrite app_nil_r. apply splitc_nin; auto.
  - cbn [app]. rewrite splitc_app by auto. cbn [tl]. f_equal. apply IH. auto.
Qed.
Lemma stack_no_dots st : stack_ok st -> no_dots (List.concat (rev st)).
Proof.
  intros (front & base & -> & F & B). rewrite rev_app_distr, concat_app. unfold no_dots.
  assert (Forall good_seg (rev front)) as F' by (apply Forall_rev; auto).
  assert (Forall (fun s : text => s <> u "." /\ s <> u "..") (map (@tl N) (rev front))) as T.
  { rewrite Forall_forall in *. intros s Hs. apply in_map_iff in Hs as (g & <- & Hg). apply F' in Hg as (b & -> & _ & X). exact X. }
  destruct B as [->|(f & -> & (_ & R1 & R2 & R3))].
  - cbn [rev app List.concat]. rewrite <- (app_nil_l (List.concat _)), good_concat by auto. constructor; auto. split; discriminate.
  - cbn [rev app List.concat]. rewrite app_nil_r, good_concat by auto. constructor; auto. split; apply text_eqb_neq; auto.
Qed.
Lemma rds_total p : exists q, remove_dot_segments p = Ok q /\ no_dots q.
Proof.
  remember (List.length p) as n. revert p Heqn. induction n as [n IH] using lt_wf_ind. intros p Hn.
  destruct p as [|c p]. { exists []. split; [reflexivity|]. constructor; auto. split; discriminate. }
  destruct (span_until 47 (c :: p)) as [a b] eqn:E. apply span_until_spec in E as (E & Ha & Hb).
  assert (forall r, Forall (fun s => ~ In 47 s) (splitc 47 r)) as P by (intros; apply splitc_pieces).
  destruct a as [|x a].
  - cbn [app] in E. destruct Hb as [->|(r & ->)]; [discriminate|]. injection E as -> ->. rewrite rds_abs_path. eexists. split; eauto.
    apply stack_no_dots, dots_ok; auto. exists [], []. auto.
  - destruct (dot (x :: a)) eqn:D1.
    { apply text_eqb_eq in D1. rewrite u_dot in D1. injection D1 as -> ->. rewrite E. destruct Hb as [->|(r & ->)].
      - exists []. split; [reflexivity|]. constructor; auto. split; discriminate.
      - cbn [app]. rewrite rds_dotslash. eapply IH; [|reflexivity]. subst n. rewrite E. cbn. lia. }
    destruct (dotdot (x :: a)) eqn:D2.
    { apply text_eqb_eq in D2. rewrite u_dotdot in D2. injection D2 as -> ->. rewrite E. destruct Hb as [->|(r & ->)].
      - exists []. split; [reflexivity|]. constructor; auto. split; discriminate.
      - cbn [app]. rewrite rds_dotdotslash. eapply IH; [|reflexivity]. subst n. rewrite E. cbn. lia. }
    assert (rel_start (x :: a)) as R by (split; [discriminate|auto]).
    rewrite E. destruct (rds_rel (x :: a) b R Hb) as [X|(r & -> & X)].
    + destruct Hb as [->|(r & ->)].
      * eexists. split; [exact X|]. rewrite app_nil_r. unfold no_dots. rewrite splitc_nin by auto. constructor; auto. split; apply text_eqb_neq; auto.
      * unfold remove_dot_segments. rewrite rds_rel_step by eauto. rewrite rds_abs by (rewrite app_length; cbn [List.length]; lia). cbn [bind].
        eexists. split; eauto. apply stack_no_dots, dots_ok; auto. exists [], [x :: a]. split; auto. split; auto. right. eauto.
    + rewrite X. eexists. split; eauto. apply stack_no_dots, dots_ok; auto. exists [], [x :: a]. split; auto. split; auto. right. eauto.
Qed.
