(** C163-C166: overlapping processes on the file store, one system call at a time. *)
From Coq Require Import Lia ZifyBool ZifyN ZifyNat.
From Verif Require Import Py PyFacts Utf8 Utf8Facts CryptUtil CryptUtilFacts Association Nonce Store StoreSpec StoreFacts FileStore FileStoreFacts.
From Verif Require Import Prop_KVForm Prop_StoreMem Prop_StoreSql Prop_FileNames Prop_StoreFile FileSys FileAtomic FileSysFacts.
Open Scope Z_scope.
Local Arguments u : simpl never.

(** ** What the programs do, whatever happens meanwhile *)
Section Programs.
  Variable sha1 : bytes -> bytes.
  Hypothesis digest : digest20 sha1.
  Variable replaces : bool.
  Variable T : list text.
  Hypothesis distinct : distinct_on sha1 T.
  Variable faulty : sc -> Prop.
  Definition oserr (x : exn) : Prop := x = OSError /\ exists c, faulty c.
  Lemma oserr_i c : faulty c -> oserr OSError. Proof using. split; eauto. Qed.
  Local Hint Extern 1 (oserr _) => (eapply oserr_i; eassumption) : core.
  Definition stuck : Prop := exists fd, faulty (UnlinkTemp fd).
  Notation good := (good sha1 T).
  Notation file_of := (file_of sha1 T).
  Notation targets := (targets sha1).

  Definition later (g g' : ghost) : Prop := g_now g <= g_now g' /\ incl (g_log g) (g_log g') /\ g_own g' = g_own g.
  Lemma later_refl g : later g g. Proof using. split; [apply Z.le_refl|]. split; auto. apply incl_refl. Qed.
  Lemma later_trans g1 g2 g3 : later g1 g2 -> later g2 g3 -> later g1 g3.
  Proof using. intros (A & B & E) (C & D & F). split; [eapply Z.le_trans; eauto|]. split; [eapply incl_tran; eauto|congruence]. Qed.
  Lemma later_same g g' : g_now g <= g_now g' -> incl (g_log g) (g_log g') -> same g g' -> later g g'.
  Proof using. intros A B (_ & C & _). split; auto. Qed.
  Lemma good_path log name data : good log name data -> path_ok name = true.
  Proof using digest. intros (url & a & _ & F). apply (file_of_path sha1 digest T url a (name, data) F). Qed.
  Lemma recorded_mono log log' url a : incl log log' -> recorded log url a -> recorded log' url a.
  Proof using. intros I (i & t & H). exists i, t. auto. Qed.

  Section Me.
  Variable me : op.
  Notation rely := (rely sha1 replaces T faulty me).
  Notation guard := (guard sha1 replaces T me).
  Notation wp := (wp rely guard).
  (** The answer that the machine has given when a file has been looked for. *)
  Definition finds (r : option assoc) : option out :=
    if free me then None else
    match me with GetA _ _ => Some (Got r) | RemoveA _ _ => match r with None => Some (Flag false) | Some _ => None end | _ => None end.
  Definition looks (name : text) : Prop := free me = true \/ (targets me name = true /\ exists url h, me = GetA url (Some h) \/ me = RemoveA url h).
  (** A file that has been read. *)
  Definition known (g : ghost) (name : text) (a : assoc) : Prop := exists url data, recorded (g_log g) url a /\ file_of url a (name, data).
  Lemma known_later g g' name a : incl (g_log g) (g_log g') -> known g name a -> known g' name a.
  Proof using. intros I (url & data & A & B). exists url, data. split; auto. eapply recorded_mono; eauto. Qed.
  Definition found (t : Z) (g : ghost) (name : text) (a : assoc) : Prop :=
    known g name a /\ exists t', t <= t' /\ t' <= g_now g /\ expired a t' = false.
  Lemma looks_open name g r : looks name -> g_ans g = None ->
    ans_open sha1 me g name r = finds r.
  Proof using.
    intros L A. unfold ans_open, finds. rewrite A. destruct L as [->|(Tg & url & h & E)]; auto. destruct (free me) eqn:F; auto. rewrite Tg.
    destruct E as [-> | ->]; auto; destruct r; auto.
  Qed.
  Lemma looks_now name g fd data a t : looks name -> g_ans g = finds (Some a) -> g_open g = Some (fd, name, data) -> read_assoc data = Ok (Some a) ->
    ans_now sha1 me g t = finds (if expired a t then None else Some a).
  Proof using.
    intros L A O Rd. unfold ans_now. rewrite A. unfold finds. destruct L as [->|(Tg & url & h & E)]; [destruct (expired a t); auto|]. destruct (free me) eqn:F; [destruct (expired a t); auto|].
    destruct E as [-> | ->]; [destruct (expired a t); auto|]. rewrite O, Tg, Rd. destruct (expired a t); auto.
  Qed.
  Lemma finds_unsettled r : settled me (finds r) = false.
  Proof using. unfold finds, settled. destruct (free me), me; auto; destruct r; auto. Qed.
  Lemma none_unsettled : settled me None = false.
  Proof using. unfold settled. destruct me; auto. Qed.
  Lemma finds_acts g name : g_ans g = finds None -> acts sha1 me g name = false.
  Proof using. intros A. unfold acts. rewrite A. unfold finds. destruct me as [url a|url h|url h|url ts salt| |]; auto. destruct (free (RemoveA url h)); auto. Qed.
  Lemma wp_getFile name g : path_ok name = true -> looks name -> g_ans g = None ->
    wp (fun g' r => later g g' /\ match r with
      | Ok o => g_ans g' = finds o /\ match o with Some a => found (g_now g) g' name a | None => True end
      | Raise x => oserr x /\ settled me (g_ans g') = false end) g (p_getFile name).
  Proof using.
    intros P Lk An. split; auto. intros r g1 (R1 & R2 & R3).
    destruct R3 as [(F & -> & Sm)|[(fd & data & url & a & -> & Rc & Ff & O & Ow & A)|(-> & O & Ow & A)]]; cbn -[p_judge].
    - split; [apply later_same; auto|]. destruct Sm as (_ & _ & ->). rewrite An. split; auto. apply none_unsettled.
    - rewrite (looks_open name g _ Lk An) in A. split; [exists name, data; auto|]. intros r g2 (S1 & S2 & S3).
      assert (later g g1) as L1 by (split; auto).
      destruct S3 as [(F & -> & Sm)|(name' & data' & O' & -> & Sm)].
      { cbn. split; [eapply later_trans; eauto; apply later_same; auto|]. destruct Sm as (_ & _ & ->). rewrite A. split; auto. apply finds_unsettled. }
      rewrite O in O'. inv O'. assert (later g g2) as L2 by (eapply later_trans; eauto; apply later_same; auto). destruct Sm as (M1 & M2 & M3).
      unfold p_judge. pose proof Ff as (_ & _ & _ & _ & _ & Rd). cbn [snd] in Rd. rewrite Rd. cbn [lift pbind].
      split; [exact Logic.I|]. intros r g3 (U1 & U2 & U3). destruct U3 as [(F & -> & Sm)|(-> & N1 & N2 & N3)].
      { cbn. split; [eapply later_trans; eauto; apply later_same; auto|]. destruct Sm as (_ & _ & ->). rewrite M3, A. split; auto. apply finds_unsettled. }
      rewrite (looks_now name' g2 fd data' a (g_now g3) Lk) in N3; try congruence.
      assert (later g g3) as L3 by (eapply later_trans; eauto; split; auto).
      assert (known g3 name' a) as Kn by (exists url, data'; split; auto; eapply recorded_mono; [|exact Rc]; eapply incl_tran; eauto).
      cbn. destruct (expired a (g_now g3)) eqn:X.
      + cbn. split.
        { split; auto. right. left. destruct Kn as (url' & d & K1 & K2). exists url', a, d. auto. }
        intros r g4 (X1 & X2 & X3). destruct X3 as [(F & -> & Sm)|(D & N4 & N5 & N6)].
        { cbn. split; [eapply later_trans; eauto; apply later_same; auto|]. destruct Sm as (_ & _ & ->). rewrite N3. split; auto. apply finds_unsettled. }
        rewrite finds_acts in N6 by auto. assert (later g g4) as L4 by (eapply later_trans; eauto; split; auto).
        destruct D as [->| ->]; cbn; split; auto; split; auto; congruence.
      + cbn. split; auto. split; auto. split; auto. exists (g_now g3). split; [apply L3|]. split; [apply Z.le_refl|auto].
    - rewrite (looks_open name g _ Lk An) in A. split; [split; auto|]. auto.
  Qed.
  Lemma found_later t t' g g' name a : t' <= t -> g_now g <= g_now g' -> incl (g_log g) (g_log g') -> found t g name a -> found t' g' name a.
  Proof using.
    intros L1 L2 I (A & x & B & C & D). split; [eapply known_later; eauto|]. exists x. split; [eapply Z.le_trans; eauto|]. split; [eapply Z.le_trans; eauto|auto].
  Qed.
  Lemma wp_getFiles names : free me = true -> forall acc g, Forall (fun n => path_ok n = true) names -> g_ans g = None ->
    wp (fun g' r => later g g' /\ match r with
      | Ok l => g_ans g' = None /\ exists more, l = acc ++ more /\ Forall (fun a => exists n, In n names /\ found (g_now g) g' n a) more
      | Raise x => oserr x /\ settled me (g_ans g') = false end) g (p_getFiles names acc).
  Proof using.
    intros Fr. assert (forall r, finds r = None) as Fn by (intros r; unfold finds; rewrite Fr; auto).
    induction names as [|n names IH]; intros acc g F An; cbn [p_getFiles].
    - cbn. split; [apply later_refl|]. split; auto. exists []. rewrite app_nil_r. auto.
    - inv F. eapply wp_bind; [apply (wp_getFile n g); auto; left; auto| |].
      + cbn. intros g1 o (L & A1 & Fo). rewrite Fn in A1. eapply wp_mono; [|apply IH; auto]. cbn. intros g2 r (L2 & R). split; [eapply later_trans; eauto|].
        destruct r as [l|x]; auto. destruct R as (A2 & more & -> & Fm). split; auto.
        assert (Forall (fun a => exists n', In n' (n :: names) /\ found (g_now g) g2 n' a) more) as Fm'.
        { eapply Forall_impl; [|exact Fm]. intros a (n' & I1 & I2). exists n'. split; [right; auto|]. eapply found_later; [|apply Z.le_refl|apply incl_refl|exact I2]. apply L. }
        destruct o as [a|]; [|eauto]. exists (a :: more). rewrite <- app_assoc. split; auto. constructor; auto. exists n. split; [left; auto|].
        eapply found_later; [apply Z.le_refl| | |exact Fo]; apply L2.
      + cbn. intros g1 x (L & R). auto.
  Qed.
  Lemma good_fun url a name data url' h : file_of url a (name, data) -> In url' T -> In h T -> getAssociationFilename sha1 url' h = Ok name -> url = url' /\ a_handle a = h.
  Proof using digest distinct.
    intros (_ & _ & T1 & T2 & N & _) U H N'. cbn in N. eapply (fname_inj sha1 digest T distinct); eauto.
  Qed.
  (** Only what was stored for this URL and handle, and is still good at some moment of the call. *)
  Definition got (t : Z) (g : ghost) (url : text) (h : option text) (a : assoc) : Prop :=
    recorded (g_log g) url a /\ (forall x, h = Some x -> x <> [] -> a_handle a = x) /\ exists t', t <= t' /\ t' <= g_now g /\ expired a t' = false.
  Lemma wp_get url h g : fop T (GetA url h) -> (me = GetA url h \/ exists x, h = Some x /\ me = RemoveA url x) -> g_ans g = None ->
    wp (fun g' r => later g g' /\ match r with
      | Ok o => g_ans g' = finds o /\ match o with Some a => got (g_now g) g' url h a | None => True end
      | Raise x => (oserr x /\ settled me (g_ans g') = false) \/ (handle_of h = [] /\ x = TypeError /\ g_ans g' = None) end) g (p_getAssociation sha1 url h).
  Proof using digest distinct.
    intros ((Hu & Hh) & Ht) Me An. unfold p_getAssociation. fold (handle_of h).
    assert (In url T) as Tu by (apply Ht; destruct h; left; auto).
    assert (sendable (handle_of h)) as Sh. { destruct h as [x|]; [apply Hh; auto|exists []; reflexivity]. }
    destruct (fname_ok sha1 digest url (handle_of h) Hu Sh) as (name & N & P). rewrite N. cbn [lift pbind].
    destruct (truthy (handle_of h)) eqn:Tr.
    - assert (exists x, h = Some x) as (x & ->) by (destruct h; [eauto|discriminate]). cbn [handle_of] in *.
      assert (looks name) as Lk.
      { right. unfold FileSysFacts.targets. destruct Me as [-> |(x' & E & ->)]; [|injection E as <-]; cbn [target]; rewrite N; (split; [apply text_eqb_eq; auto|eauto]). }
      eapply wp_mono; [|apply wp_getFile; auto]. cbn. intros g' [o|y] (L & R); split; auto. destruct R as (A & R). split; auto. destruct o as [a|]; auto.
      destruct R as ((url' & data & B1 & B2) & C).
      destruct (good_fun url' a name data url x B2 Tu) as (-> & E); auto. { apply Ht. right. left. auto. }
      split; auto. split; auto. intros y Q _. inv Q. auto.
    - assert (handle_of h = []) as E by (destruct (handle_of h); [auto|discriminate]). rewrite E in *.
      assert (free me = true) as Fr. { destruct Me as [-> |(x & -> & ->)]; [destruct h as [y|]; cbn in E; subst; auto|cbn in E; subst; auto]. }
      assert (forall r, finds r = None) as Fn by (intros r; unfold finds; rewrite Fr; auto).
      split; [exact Logic.I|]. intros r g1 (R1 & R2 & R3).
      destruct R3 as [(F & -> & Sm)|(l & -> & Fl & Sm)].
      { cbn. split; [apply later_same; auto|]. destruct Sm as (_ & _ & ->). rewrite An. left. split; auto. apply none_unsettled. }
      assert (later g g1) as L1 by (apply later_same; auto). destruct Sm as (_ & _ & A1).
      eapply wp_bind; [apply (wp_getFiles _ Fr [] g1); [|congruence]| |].
      + apply Forall_forall. intros n Hn. apply filter_In in Hn as (Hn & _). rewrite Forall_forall in Fl. destruct (Fl n Hn) as (data & Go). eapply good_path; eauto.
      + cbn. intros g2 l' (L & A2 & more & -> & Fm). assert (later g g2) as L' by (eapply later_trans; eauto).
        apply wp_lift. split; auto. cbn [app]. pose proof (sorted_last_spec more) as SL. destruct (sorted_last more) as [[a|]|x]; rewrite ?Fn; auto.
        * split; auto. destruct SL as (I & _). rewrite Forall_forall in Fm. destruct (Fm a I) as (n & In_ & Fo). apply filter_In in In_ as (In_ & SW).
          pose proof (found_later (g_now g1) (g_now g) g2 g2 n a R1 (Z.le_refl _) (incl_refl _) Fo) as ((url' & data & A & B) & C).
          rewrite (basename_path name P) in SW. pose proof B as (Hu' & _ & T1 & _ & N' & _). cbn in N'.
          apply (fname_prefix sha1 digest T distinct url url' (a_handle a) name n Tu T1 Hu Hu' N N') in SW. subst url'.
          split; auto. split; auto. intros x -> Ne. cbn in E. contradiction.
        * right. split; auto. split; auto. apply SL.
      + cbn. intros g2 x (L & R). split; [eapply later_trans; eauto|auto].
  Qed.
  Lemma wp_removeA url h g : fop T (RemoveA url h) -> me = RemoveA url h -> g_ans g = None ->
    wp (fun g' r => later g g' /\ match r with
      | Ok b => answers me (g_ans g') (Flag b)
      | Raise x => (oserr x /\ settled me (g_ans g') = false) \/ (h = [] /\ x = TypeError /\ g_ans g' = None) end) g (p_removeAssociation sha1 url h).
  Proof using digest distinct.
    intros ((Hu & Hh) & Ht) Me An. unfold p_removeAssociation. eapply wp_bind; [apply (wp_get url (Some h) g); eauto| |].
    - split; [split; auto; intros x Q; inv Q; auto|auto].
    - cbn beta iota. intros g1 o (L & A & R). unfold finds in A.
      assert (o = None -> answers me (g_ans g1) (Flag false)) as Nf.
      { intros ->. rewrite A. unfold answers. rewrite Me. destruct (free (RemoveA url h)); auto. }
      destruct o as [a|]; [|cbn; auto]. assert (g_ans g1 = None) as A1 by (rewrite A, Me; destruct (free (RemoveA url h)); auto). clear A Nf.
      destruct (fname_ok sha1 digest url h Hu Hh) as (name & N & P). rewrite N. cbn [lift pbind].
      assert (targets me name = true) as Tg by (unfold FileSysFacts.targets; rewrite Me; cbn [target]; rewrite N; apply text_eqb_eq; auto).
      assert (acts sha1 me g1 name = negb (free me)) as Ac by (unfold acts; rewrite A1, Tg, Me, andb_true_r; auto).
      split.
      + split; auto. rewrite Ac. destruct (free me) eqn:Fr; [|left; auto]. right. right. left. exists url. rewrite Me in Fr. destruct h; [auto|discriminate].
      + intros r g2 (S1 & S2 & S3). destruct S3 as [(F & -> & Sm)|(D & N4 & N5 & N6)].
        { cbn. split; [eapply later_trans; eauto; apply later_same; auto|]. destruct Sm as (_ & _ & ->). rewrite A1. left. split; auto. apply none_unsettled. }
        rewrite Ac in N6. assert (later g g2) as L2 by (eapply later_trans; eauto; split; auto). unfold answers. destruct (free me) eqn:Fr; cbn [negb] in N6.
        * destruct D as [->| ->]; cbn; rewrite N6, A1; auto.
        * destruct D as [->| ->]; cbn; rewrite N6; auto.
    - cbn. auto.
  Qed.

  (** *** storeAssociation *)
  Lemma wp_removeTemp fd g : owns g fd ->
    wp (fun g' r => g_ans g' = g_ans g /\ match r with Ok _ => g_own g' = None | Raise x => oserr x /\ stuck end) g (p_removeTemp fd).
  Proof using. intros O. split; auto. intros r g' (R1 & R2 & R3). destruct R3 as [(F & -> & _ & _ & A)|(-> & _ & E & A)]; cbn; auto. split; auto. split; auto. exists fd. auto. Qed.
  Lemma wp_plain c g (Q : ghost -> res unit -> Prop) : guard g c ->
    (forall r g', rely g c r g' -> Q g' (match r with RErr _ => Raise OSError | _ => Ok tt end)) -> wp Q g (plain c).
  Proof using. intros H1 H2. split; auto. intros r g' R. specialize (H2 r g' R). destruct r; auto. Qed.
  Lemma wp_mktemp g : is_store me = true -> g_own g = None ->
    wp (fun g' r => g_ans g' = g_ans g /\ match r with Ok fd => g_own g' = Some (fd, [], false) | Raise x => oserr x /\ (g_own g' = None \/ stuck) end) g p_mktemp.
  Proof using.
    intros Me O. split; [split; auto|]. intros r g1 (R1 & R2 & R3). destruct R3 as [(F & -> & _ & E & A)|(fd & -> & _ & E & A)]; [cbn; split; auto; split; auto; left; congruence|].
    eapply (wp_try _ _ (fun g' r => g_ans g' = g_ans g /\ g_own g' = Some (fd, [], false) /\ match r with Ok x => x = fd | Raise x => oserr x end)).
    - eapply wp_bind; [apply (wp_plain _ g1 (fun g' r => g_ans g' = g_ans g /\ g_own g' = Some (fd, [], false) /\ match r with Ok _ => True | Raise x => oserr x end))| |].
      + exists [], false. auto.
      + intros r g2 (S1 & S2 & S3). destruct S3 as [(F & -> & _ & S3 & S4)|(-> & _ & S3 & S4)]; (split; [congruence|]; split; [congruence|auto]).
      + cbn. tauto.
      + cbn. auto.
    - cbn. intros g' x (A' & B & ->). auto.
    - cbn beta iota. intros g' x (A' & B & F). eapply wp_bind; [apply wp_removeTemp; exists [], false; auto| |].
      + cbn. intros g2 y (Y1 & Y2). split; [congruence|auto].
      + cbn. intros g2 y (Y1 & Y2 & Y3). split; [congruence|auto].
  Qed.
  Lemma wp_writing fd s data g : g_own g = Some (fd, [], false) -> encode s = Ok data ->
    wp (fun g' r => g_ans g' = g_ans g /\ match r with Ok _ => g_own g' = Some (fd, data, true) | Raise x => oserr x /\ owns g' fd end) g (p_writing fd s).
  Proof using.
    intros O E. unfold p_writing. rewrite E. cbn [lift pbind].
    eapply (wp_finally _ _ (fun g' r => g_ans g' = g_ans g /\ match r with Ok _ => exists c, g_own g' = Some (fd, data, c) | Raise x => oserr x /\ owns g' fd end)).
    - eapply wp_bind; [apply (wp_plain _ g (fun g' r => g_ans g' = g_ans g /\ match r with Ok _ => exists c, g_own g' = Some (fd, data, c) | Raise x => oserr x /\ owns g' fd end))| |].
      + exists [], false. auto.
      + intros r g1 (R1 & R2 & R3). destruct R3 as [(F & -> & _ & E' & A)|(d & c & -> & Og & _ & E' & A)].
        * split; auto. split; auto. exists [], false. rewrite E'. exact O.
        * rewrite O in Og. inv Og. split; auto. exists false. auto.
      + cbn beta iota. intros g1 [] (A1 & c & O1). apply wp_plain; [exists data, c; auto|]. intros r g2 (S1 & S2 & S3). destruct S3 as [(F & -> & _ & S3 & S4)|(-> & _ & S3 & S4)]; cbn.
        * split; [congruence|]. split; auto. exists data, c. congruence.
        * split; [congruence|]. exists c. congruence.
      + cbn. auto.
    - intros g1 r (A1 & Hr). assert (owns g1 fd) as (d & c & O1). { destruct r as [[]|x]; [destruct Hr as (c & Hr); exists data, c; auto|apply Hr]. }
      apply wp_plain; [exists d, c; auto|]. intros r' g2 (S1 & S2 & S3). destruct S3 as [(F & -> & _ & E' & A)|(d' & c' & -> & Og & _ & E' & A)]; cbn.
      + split; [congruence|]. split; auto. exists d, c. congruence.
      + rewrite O1 in Og. inv Og. destruct r as [[]|x].
        * destruct Hr as (c & Hr). rewrite O1 in Hr. inv Hr. split; [congruence|auto].
        * destruct Hr as (F & _). split; [congruence|]. split; auto. exists d', true. auto.
  Qed.
  (** On Windows another process may put its file there between the removal and the second attempt. *)
  Definition storeerr (x : exn) : Prop := oserr x \/ (replaces = false /\ x = OSError).
  Lemma wp_renaming fd name data url a g : me = StoreA url a -> g_own g = Some (fd, data, true) -> path_ok name = true -> file_of url a (name, data) -> g_ans g = None ->
    wp (fun g' r => match r with Ok _ => g_own g' = None /\ g_ans g' = Some Done | Raise x => storeerr x /\ owns g' fd /\ g_ans g' = None end) g (p_renaming fd name).
  Proof using.
    intros Me O P Go An. split; [exists data, url, a; auto|]. intros r g1 (R1 & R2 & R3). destruct R3 as [(F & -> & _ & E & A)|[(-> & _ & E & A)|(-> & Rp & _ & E & A)]].
    - unfold storeerr. cbn. split; auto. split; [exists data, true|]; congruence.
    - cbn. auto.
    - rewrite O in E. rewrite An in A. split; [split; [exact P|right; right; right; exact Rp]|]. intros r g2 (S1 & S2 & S3).
      assert (forall g2, g_own g2 = Some (fd, data, true) -> g_ans g2 = None ->
        wp (fun g' r => match r with Ok _ => g_own g' = None /\ g_ans g' = Some Done | Raise x => storeerr x /\ owns g' fd /\ g_ans g' = None end) g2 (plain (Rename fd name))) as W.
      { intros g3 O3 A3. apply wp_plain; [exists data, url, a; auto|]. intros r' g4 (U1 & U2 & U3). unfold storeerr. destruct U3 as [(F & -> & _ & E' & A')|[(-> & _ & E' & A')|(-> & _ & _ & E' & A')]]; auto;
        (split; [auto|]; split; [exists data, true|]; congruence). }
      destruct S3 as [(F & -> & _ & E' & A')|(D & _ & E' & A')].
      + unfold storeerr. cbn. split; auto. split; [exists data, true|]; congruence.
      + assert (acts sha1 me g1 name = false) as Ac by (unfold acts; rewrite Me; auto). rewrite Ac in A'.
        destruct D as [->| ->]; apply W; congruence.
  Qed.
  Lemma wp_store url a g : me = StoreA url a -> fop T (StoreA url a) -> g_own g = None -> g_ans g = None ->
    wp (fun g' r => match r with Ok _ => g_own g' = None /\ g_ans g' = Some Done | Raise x => storeerr x /\ (g_own g' = None \/ stuck) /\ g_ans g' = None end) g (p_storeAssociation sha1 url a).
  Proof using digest.
    intros Me ((Hu & Ha) & Ht) O An. assert (In url T) as Tu by (apply Ht; left; auto). assert (In (a_handle a) T) as Th by (apply Ht; right; left; auto).
    destruct (store_plan_ok sha1 digest T url a Hu Ha Tu Th) as ([name data] & SP & P & F). cbn [fst] in P.
    unfold store_plan in SP. binv SP. binv SP. binv SP. injection SP as -> ->. unfold p_storeAssociation. rewrite E, E0. cbn [lift pbind].
    eapply wp_bind; [apply wp_mktemp; auto; rewrite Me; auto| |].
    2: { unfold storeerr. cbn. intros g1 x (A1 & B1 & C1). split; auto. split; auto. congruence. }
    cbn beta iota. intros g1 fd (A1 & O1).
    eapply (wp_try _ _ (fun g' r => match r with Ok _ => g_own g' = None /\ g_ans g' = Some Done | Raise x => storeerr x /\ owns g' fd /\ g_ans g' = None end)).
    - eapply wp_bind; [apply (wp_writing fd a0 data); auto| |].
      + cbn beta iota. intros g2 [] (A2 & O2). apply (wp_renaming fd name data url a); auto. congruence.
      + unfold storeerr. cbn. intros g2 x (A2 & B2 & C2). split; auto. split; auto. congruence.
    - auto.
    - cbn beta iota. intros g2 x (Fa & Ow & A2). eapply wp_bind; [apply wp_removeTemp; auto| |].
      + cbn. intros g3 b (A3 & O3). split; auto. split; auto. congruence.
      + unfold storeerr. cbn. intros g3 y (A3 & O3 & S3). split; auto. split; auto. congruence.
  Qed.

  (** *** cleanupAssociations *)
  Lemma free_open g name r : free me = true -> g_ans g = None -> ans_open sha1 me g name r = None.
  Proof using. intros F A. unfold ans_open. rewrite A, F. auto. Qed.
  Lemma free_now g t : free me = true -> ans_now sha1 me g t = g_ans g.
  Proof using. intros F. unfold ans_now. rewrite F. auto. Qed.
  Lemma free_acts g name : free me = true -> acts sha1 me g name = false.
  Proof using. intros F. unfold acts. destruct me; auto. rewrite F. destruct (g_ans g); auto. Qed.
  Definition quiet (g g' : ghost) : Prop := later g g' /\ g_ans g' = None.
  Definition all_known (g : ghost) (l : list (text * assoc)) : Prop := Forall (fun n => known g (fst n) (snd n)) l.
  Lemma all_known_later g g' l : incl (g_log g) (g_log g') -> all_known g l -> all_known g' l.
  Proof using. intros I. apply Forall_impl. intros n. apply known_later. auto. Qed.
  Lemma wp_allAssocs names : free me = true -> forall acc g, Forall (fun n => path_ok n = true) names -> all_known g acc -> g_ans g = None ->
    wp (fun g' r => quiet g g' /\ match r with Ok l => all_known g' l | Raise x => oserr x end) g (p_allAssocs names acc).
  Proof using.
    intros Fr. induction names as [|n names IH]; intros acc g F A An; [cbn; split; auto; split; auto; apply later_refl|]. inv F.
    assert (forall acc g1, quiet g g1 -> all_known g1 acc ->
      wp (fun g' r => quiet g g' /\ match r with Ok l => all_known g' l | Raise x => oserr x end) g1 (p_allAssocs names acc)) as IH'.
    { intros acc' g1 (L & A1) A'. eapply wp_mono; [|apply IH; auto]. cbn. intros g2 r ((L2 & A2) & R). split; auto. split; auto. eapply later_trans; eauto. }
    cbn [p_allAssocs]. split; auto. intros r g1 (R1 & R2 & R3).
    destruct R3 as [(F & -> & Sm)|[(fd & data & url & a & -> & Rc & Ff & O & Ow & A1)|(-> & O & Ow & A1)]].
    - cbn. split; auto. split; [apply later_same; auto|]. destruct Sm as (_ & _ & ->). auto.
    - rewrite free_open in A1 by auto. assert (quiet g g1) as Q1 by (split; auto; split; auto).
      split; [exists n, data; auto|]. intros r g2 (S1 & S2 & S3).
      assert (forall g2, g_now g1 <= g_now g2 -> incl (g_log g1) (g_log g2) -> same g1 g2 -> quiet g g2) as Q2.
      { intros g3 X1 X2 X3. split; [eapply later_trans; [apply Q1|apply later_same; auto]|]. destruct X3 as (_ & _ & ->). auto. }
      destruct S3 as [(F & -> & Sm)|(name' & data' & O' & -> & Sm)]; [cbn; auto|].
      rewrite O in O'. inv O'. pose proof Ff as (_ & _ & _ & _ & _ & Rd). cbn [snd] in Rd. rewrite Rd. cbn [lift pbind]. apply IH'; auto.
      apply Forall_app. split; [eapply all_known_later; [|exact A]; eapply incl_tran; eauto|]. constructor; auto. exists url, data'. split; auto. eapply recorded_mono; eauto.
    - rewrite free_open in A1 by auto. apply IH'; [split; auto; split; auto|]. eapply all_known_later; eauto.
  Qed.
  Lemma wp_cleanAssocs l : free me = true -> Forall (fun n => path_ok (fst n) = true) l -> forall n g, all_known g l -> g_ans g = None ->
    wp (fun g' r => quiet g g' /\ match r with Ok _ => True | Raise x => oserr x end) g (p_cleanAssocs l n).
  Proof using.
    intros Fr Pk. induction l as [|[m a] l IH]; intros n g F An; [cbn; split; auto; split; auto; apply later_refl|]. inversion F as [|x l' F1 F2]. clear F. inv Pk.
    assert (forall n g1, quiet g g1 -> wp (fun g' r => quiet g g' /\ match r with Ok _ => True | Raise x => oserr x end) g1 (p_cleanAssocs l n)) as IH'.
    { intros n' g1 (L & A1). eapply wp_mono; [|apply IH; auto]. cbn. intros g2 r ((L2 & A2) & R). split; auto. split; auto. eapply later_trans; eauto. eapply all_known_later; [|exact F2]. apply L. }
    cbn [p_cleanAssocs]. split; [exact Logic.I|]. intros r g1 (R1 & R2 & R3). destruct R3 as [(F & -> & Sm)|(-> & N1 & N2 & N3)].
    { cbn. split; auto. split; [apply later_same; auto|]. destruct Sm as (_ & _ & ->). auto. }
    rewrite free_now in N3 by auto. assert (quiet g g1) as Q1 by (split; [split; auto|congruence]).
    destruct (expired a (g_now g1)) eqn:X; [|apply IH'; auto]. cbn [fst] in *.
    split. { split; auto. right. left. cbn in F1. destruct F1 as (url & data & K1 & K2). exists url, a, data. split; auto. eapply recorded_mono; eauto. }
    intros r g2 (X1 & X2 & X3). destruct X3 as [(F & -> & Sm)|(D & N4 & N5 & N6)].
    { cbn. split; auto. split; [eapply later_trans; [apply Q1|apply later_same; auto]|]. destruct Sm as (_ & _ & ->). apply Q1. }
    rewrite free_acts in N6 by auto. assert (quiet g g2) as Q2 by (split; [eapply later_trans; [apply Q1|split; auto]|rewrite N6; apply Q1]).
    destruct D as [->| ->]; apply IH'; auto.
  Qed.
  Lemma wp_cleanA g : free me = true -> g_ans g = None -> wp (fun g' r => quiet g g' /\ match r with Ok _ => True | Raise x => oserr x end) g p_cleanupAssociations.
  Proof using digest.
    intros Fr An. split; [exact Logic.I|]. intros r g1 (R1 & R2 & R3).
    destruct R3 as [(F & -> & Sm)|(l & -> & Fl & Sm)]; (assert (quiet g g1) as Q1 by (split; [apply later_same; auto|destruct Sm as (_ & _ & ->); auto])); [cbn; auto|].
    eapply wp_bind; [apply wp_allAssocs| |]; auto.
    - eapply Forall_impl; [|exact Fl]. intros n (data & Go). eapply good_path; eauto.
    - constructor.
    - apply Q1.
    - cbn beta iota. intros g2 l' ((L2 & A2) & H). eapply wp_mono; [|apply wp_cleanAssocs; auto].
      + cbn. intros g3 r ((L3 & A3) & R). split; auto. split; auto. eapply later_trans; [|eauto]. eapply later_trans; [apply Q1|eauto].
      + eapply Forall_impl; [|exact H]. intros n (url & data & _ & B). apply (file_of_path sha1 digest T url (snd n) (fst n, data) B).
    - cbn. intros g2 x ((L2 & A2) & R). split; auto. split; auto. eapply later_trans; [apply Q1|eauto].
  Qed.

  (** *** Nonces *)
  Lemma wp_useN url ts salt g : me = UseN url ts salt -> fop T (UseN url ts salt) -> g_ans g = None ->
    wp (fun g' r => later g g' /\ match r with
      | Ok b => g_ans g' = Some (Flag b) /\ (b = true -> exists t', g_now g <= t' /\ t' <= g_now g' /\ skewed ts t' = false)
      | Raise x => oserr x end) g (p_useNonce sha1 url ts salt).
  Proof using digest.
    intros Me ((Hu & Ht & Hs) & Ti) An. split; [exact Logic.I|]. intros r g1 (R1 & R2 & R3).
    destruct R3 as [(F & -> & Sm)|(-> & N1 & N2 & N3)]; [cbn; split; auto; apply later_same; auto|]. assert (later g g1) as L1 by (split; auto).
    unfold ans_now in N3. rewrite Me, An in N3. cbn [free] in N3. destruct (skewed ts (g_now g1)) eqn:Sk; [cbn; split; auto; split; auto; discriminate|].
    destruct (nname_ok sha1 digest url ts salt Hu Ht Hs) as (name & N & P & R). rewrite N. cbn [lift pbind].
    split.
    { split; auto. exists url, ts, salt. split; auto. split; [|unfold skewed, SKEW in Sk; clear - Sk; lia].
      split; auto. split; auto. split; auto. split; [apply Ti; cbn; auto|]. split; [apply Ti; cbn; auto|auto]. }
    intros r g2 (S1 & S2 & S3). destruct S3 as [(F & -> & Sm)|(D & M1 & M2 & M3)]; [cbn; split; auto; eapply later_trans; eauto; apply later_same; auto|].
    assert (later g g2) as L2 by (eapply later_trans; eauto; split; auto).
    destruct D as [->| ->]; [|cbn; split; auto; split; auto; discriminate]. split; [exact Logic.I|]. intros r g3 (U1 & U2 & U3).
    destruct U3 as [(F & -> & Sm)|(-> & Sm)]; (assert (later g g3) as L3 by (eapply later_trans; eauto; apply later_same; auto)); cbn; auto.
    split; auto. destruct Sm as (_ & _ & ->). split; auto. intros _. exists (g_now g1). split; auto. split; auto. eapply Z.le_trans; eauto.
  Qed.
  Lemma wp_cleanNonces names t0 now : me = CleanN -> t0 <= now -> forall n g, now <= g_now g -> Forall (ngood t0) names -> g_ans g = None ->
    wp (fun g' r => quiet g g' /\ match r with Ok _ => True | Raise x => oserr x end) g (p_cleanNonces names now n).
  Proof using.
    intros Me Le. induction names as [|m names IH]; intros n g Ln F An; [cbn; split; auto; split; auto; apply later_refl|]. inversion F as [|x l' (P & ts & R & Lt) H2]. subst x l'. clear F. cbn [p_cleanNonces]. rewrite R. cbn [lift pbind].
    destruct (skewed ts now) eqn:Sk; [|apply IH; auto].
    split. { split; auto. split; auto. exists ts. split; auto. unfold skewed, SKEW in Sk. clear - Sk Lt Le Ln. lia. }
    intros r g2 (X1 & X2 & X3). destruct X3 as [(F & -> & Sm)|(D & Sm)]; (assert (quiet g g2) as Q2 by (split; [apply later_same; auto|destruct Sm as (_ & _ & ->); auto])); [cbn; auto|].
    assert (forall n, wp (fun g' r => quiet g g' /\ match r with Ok _ => True | Raise x => oserr x end) g2 (p_cleanNonces names now n)) as IH'.
    { intros n'. eapply wp_mono; [|apply IH; auto]. cbn. intros g3 r' ((L2 & A2) & R'). split; auto. split; auto. eapply later_trans; [apply Q2|eauto]. clear - Ln X1. lia. apply Q2. }
    destruct D as [->| ->]; apply IH'.
  Qed.
  Lemma wp_cleanN g : me = CleanN -> g_ans g = None -> wp (fun g' r => quiet g g' /\ match r with Ok _ => True | Raise x => oserr x end) g p_cleanupNonces.
  Proof using.
    intros Me An. split; [exact Logic.I|]. intros r g1 (R1 & R2 & R3).
    destruct R3 as [(F & -> & Sm)|(l & -> & Fl & Sm)]; (assert (quiet g g1) as Q1 by (split; [apply later_same; auto|destruct Sm as (_ & _ & ->); auto])); [cbn; auto|].
    split; [exact Logic.I|]. intros r g2 (S1 & S2 & S3). destruct S3 as [(F & -> & Sm')|(-> & N1 & N2 & N3)].
    { cbn. split; auto. split; [eapply later_trans; [apply Q1|apply later_same; auto]|]. destruct Sm' as (_ & _ & ->). apply Q1. }
    rewrite free_now in N3 by (rewrite Me; auto). assert (quiet g g2) as Q2 by (split; [eapply later_trans; [apply Q1|split; auto]|rewrite N3; apply Q1]).
    eapply wp_mono; [|apply (wp_cleanNonces l (g_now g1)); auto; [apply Z.le_refl|apply Q2]]. cbn. intros g3 r ((L3 & A3) & R). split; auto. split; auto. eapply later_trans; [apply Q2|eauto].
  Qed.

  End Me.

  (** *** Every call *)
  Definition promise (o : op) (t : Z) (g : ghost) (r : out) : Prop :=
    (g_own g = None \/ stuck) /\ answers o (g_ans g) r /\
    match r with
    | Err x => match o with
               | StoreA _ _ => storeerr x
               | GetA _ h => oserr x \/ (handle_of h = [] /\ x = TypeError)
               | RemoveA _ h => oserr x \/ (h = [] /\ x = TypeError)
               | _ => oserr x
               end
    | Got (Some a) => match o with GetA url h => got t g url h a | _ => False end
    | Flag true => match o with UseN _ ts _ => exists t', t <= t' /\ t' <= g_now g /\ skewed ts t' = false | _ => True end
    | _ => True
    end.
  Lemma promises o t log : fop T o ->
    wp (rely sha1 replaces T faulty o) (guard sha1 replaces T o) (fun g r => promise o t g (out_of r)) (mkGhost t log None None None) (program sha1 o).
  Proof using digest distinct.
    intros O. set (g0 := mkGhost t log None None None). unfold promise.
    assert (forall g, later g0 g -> g_own g = None) as Lo by (intros g (_ & _ & L); exact L).
    assert (forall x, oserr x -> Err x = Err OSError) as Oe by (intros x (-> & _); auto).
    destruct o as [url a|url h|url h|url ts salt| |]; cbn [program].
    - eapply wp_bind; [apply (wp_store _ url a g0); auto| |]; cbn.
      + intros g [] (A & B). split; auto. split; auto. left. auto.
      + intros g x (A & B & C). split; auto. split; auto. right. left. rewrite C. split; auto. destruct A as [A|(_ & ->)]; auto.
    - eapply wp_bind; [apply (wp_get _ url h g0); auto| |]; cbn.
      + intros g o (L & A & R). split; auto. split.
        * unfold finds in A. rewrite A. unfold answers. destruct (free (GetA url h)) eqn:F; auto.
        * destruct o; auto.
      + intros g x (L & [(A & B)|(A & B & C)]); (split; auto; split); auto.
        * right. left. split; auto.
        * right. right. split; auto. destruct h as [[|]|]; cbn in A |- *; auto; discriminate.
    - eapply wp_bind; [apply (wp_removeA _ url h g0); auto| |]; cbn.
      + intros g b (L & A). split; auto. split; auto. destruct b; auto.
      + intros g x (L & [(A & B)|(-> & B & C)]); (split; auto; split); auto.
        * right. left. split; auto.
        * right. right. split; auto.
    - eapply wp_bind; [apply (wp_useN _ url ts salt g0); auto| |]; cbn.
      + intros g b (L & A & B). split; auto. split; [left; auto|]. destruct b; auto.
      + intros g x (L & A). split; auto. split; auto. right. left. split; auto.
    - eapply wp_bind; [apply (wp_cleanN _ g0); auto| |]; cbn.
      + intros g b ((L & A) & _). split; auto. split; auto. right. right. auto.
      + intros g x ((L & A) & B). split; auto. split; auto. right. left. rewrite A. auto.
    - eapply wp_bind; [apply (wp_cleanA _ g0); auto| |]; cbn.
      + intros g b ((L & A) & _). split; auto. split; auto. right. right. auto.
      + intros g x ((L & A) & B). split; auto. split; auto. right. left. rewrite A. auto.
  Qed.
End Programs.

(** ** Runs *)
Definition sys_ok (ls : list label) : Prop := Forall (fun l => match l with Start _ o => file_op o | _ => True end) ls.
Definition sys_texts (ls : list label) : list text := flat_map (fun l => match l with Start _ o => op_texts o | _ => [] end) ls.
(** No other system calls fail than those in P. *)
Fixpoint fails_only (sha1 : bytes -> bytes) (replaces : bool) (P : sc -> Prop) (s : sys) (ls : list label) : Prop :=
  match ls with
  | [] => True
  | l :: r =>
      match l with
      | Fail i => forall p c k, s_procs s i = Some p -> p_prog p = Call c k -> P c
      | _ => True
      end /\ fails_only sha1 replaces P (exec sha1 replaces s l) r
  end.
Definition no_crash (ls : list label) : Prop := Forall (fun l => match l with Crash _ => False | _ => True end) ls.

Lemma sys_run sha1 replaces T (faulty : sc -> Prop) (leaky : Prop) now : digest20 sha1 -> distinct_on sha1 T -> (forall fd, faulty (UnlinkTemp fd) -> leaky) -> forall ls s gs,
  sys_inv sha1 replaces T faulty leaky now (promise replaces faulty) s gs ->
  sys_ok ls -> incl (sys_texts ls) T -> fails_only sha1 replaces faulty s ls -> (no_crash ls \/ leaky) ->
  exists gs', sys_inv sha1 replaces T faulty leaky now (promise replaces faulty) (run sha1 replaces s ls) gs'.
Proof.
  intros D X Lk. induction ls as [|l ls IH]; intros s gs I O C F N; [eauto|]. cbn [run fold_left] in *. fold (run sha1 replaces (exec sha1 replaces s l) ls) in *.
  inv O. destruct F as (F1 & F2).
  assert (incl (sys_texts ls) T) as C' by (intros x Hx; apply C; unfold sys_texts; simpl; apply in_or_app; auto).
  assert (exists gs', sys_inv sha1 replaces T faulty leaky now (promise replaces faulty) (exec sha1 replaces s l) gs') as (gs' & I').
  { apply (exec_inv sha1 D replaces T X faulty leaky now (promise replaces faulty)) with (gs := gs); auto.
    - intros o t g r (P1 & P2 & _). split; auto. destruct P1 as [P1|(fd & P1)]; auto. left. eapply Lk; eauto.
    - intros o t i log _ Fo. apply promises; auto.
    - destruct l as [i o|i|i n|i n|i name|i|i|d]; cbn; auto.
      + intros Idle. split; auto. intros x Hx. apply C. unfold sys_texts. simpl. apply in_or_app. auto.
      + destruct N as [N|N]; auto. inv N. contradiction. }
  apply (IH _ gs'); auto. destruct N as [N|N]; auto. inv N. auto.
Qed.
Lemma fails_any sha1 replaces ls : forall s, fails_only sha1 replaces (fun _ => True) s ls.
Proof. induction ls as [|l ls IH]; intros s; cbn; auto. split; auto. destruct l; auto. Qed.
(** What is promised at the end of a call. *)
Lemma at_the_end sha1 replaces (faulty : sc -> Prop) (leaky : Prop) now ls : digest20 sha1 -> sys_ok ls -> distinct_on sha1 (sys_texts ls) -> (forall fd, faulty (UnlinkTemp fd) -> leaky) ->
  fails_only sha1 replaces faulty (sys_init now) ls -> (no_crash ls \/ leaky) ->
  forall l2 i t o r l1, s_log (run sha1 replaces (sys_init now) ls) = l2 ++ Ended i t o r :: l1 ->
  exists t0 g, In (Began i t0 o) l1 /\ g_now g <= t /\ incl (g_log g) l1 /\ promise replaces faulty o t0 g r.
Proof.
  intros D O X Lk F N l2 i t o r l1 E.
  destruct (sys_run sha1 replaces (sys_texts ls) faulty leaky now D X Lk ls (sys_init now) (fun _ => mkGhost now [] None None None)) as (gs & _ & _ & _ & _ & _ & (I & _) & _); auto.
  - apply init_inv.
  - apply incl_refl.
  - apply (I l2 i t o r l1). exact E.
Qed.

(** C163: whatever the processes do at the same time, and whichever calls fail or processes
    die: an association that getAssociation answers has been handed to storeAssociation before,
    for this URL; it has the handle asked for; and there was a moment during the call at which
    it had not expired. *)
Theorem C163_answers_stored :
  forall sha1, digest20 sha1 -> forall replaces now ls, sys_ok ls -> distinct_on sha1 (sys_texts ls) ->
    forall later i t url h a before, s_log (run sha1 replaces (sys_init now) ls) = later ++ Ended i t (GetA url h) (Got (Some a)) :: before ->
      (exists j t', In (Began j t' (StoreA url a)) before) /\
      (forall x, h = Some x -> x <> [] -> a_handle a = x) /\
      exists t0 t', In (Began i t0 (GetA url h)) before /\ t0 <= t' <= t /\ t' < a_issued a + a_lifetime a.
Proof.
  intros sha1 D replaces now ls O X l2 i t url h a l1 E.
  destruct (at_the_end sha1 replaces (fun _ => True) True now ls D O X) with (l2 := l2) (i := i) (t := t) (o := GetA url h) (r := Got (Some a)) (l1 := l1) as (t0 & g & A & B & C & P); auto.
  - apply fails_any.
  - destruct P as (_ & _ & S & H & t' & P1 & P2 & P3). split; [|split; auto].
    + destruct S as (j & t1 & S). exists j, t1. auto.
    + exists t0, t'. split; auto. split; [lia|]. rewrite expired_spec in P3. lia.
Qed.
Print Assumptions C163_answers_stored.

(** C164: if no system call fails, and renaming replaces, no call ends with an exception, except
    that two associations with the same issue time cannot be ordered. *)
Theorem C164_no_exceptions :
  forall sha1, digest20 sha1 -> forall now ls, sys_ok ls -> distinct_on sha1 (sys_texts ls) ->
    fails_only sha1 true (fun _ => False) (sys_init now) ls ->
    forall i t o x, In (Ended i t o (Err x)) (s_log (run sha1 true (sys_init now) ls)) ->
      x = TypeError /\ exists url, o = GetA url None \/ o = GetA url (Some []) \/ o = RemoveA url [].
Proof.
  intros sha1 D now ls O X F i t o x H. apply in_split in H as (l2 & l1 & E).
  destruct (at_the_end sha1 true (fun _ => False) True now ls D O X) with (l2 := l2) (i := i) (t := t) (o := o) (r := Err x) (l1 := l1) as (t0 & g & A & B & C & P); auto.
  destruct P as (_ & _ & P). assert (forall x, oserr (fun _ => False) x -> False) as No by (intros y (_ & c & []); auto).
  destruct o as [url a|url h|url h|url ts salt| |]; try (exfalso; apply (No x P)).
  - destruct P as [P|(P & _)]; [destruct (No x P)|discriminate].
  - destruct P as [P|(P & ->)]; [destruct (No x P)|]. split; auto. exists url. destruct h as [y|]; cbn in P; [subst|]; auto.
  - destruct P as [P|(-> & ->)]; [destruct (No x P)|]. split; auto. exists url. auto.
Qed.
Print Assumptions C164_no_exceptions.

(** C165: whatever else fails, as long as temporary files can be removed and nobody is killed,
    a temporary file is there only while its writer is still storing, and nobody has two. *)
Theorem C165_no_litter :
  forall sha1, digest20 sha1 -> forall replaces now ls, sys_ok ls -> distinct_on sha1 (sys_texts ls) -> no_crash ls ->
    fails_only sha1 replaces (fun c => forall fd, c <> UnlinkTemp fd) (sys_init now) ls ->
    let s := run sha1 replaces (sys_init now) ls in
    exists writer : nat -> nat -> Prop,
      (forall fd, In fd (s_temp s) -> exists i p url a, writer fd i /\ s_procs s i = Some p /\ p_op p = StoreA url a) /\
      (forall fd fd' i, writer fd i -> writer fd' i -> fd = fd').
Proof.
  intros sha1 D replaces now ls O X N F s.
  destruct (sys_run sha1 replaces (sys_texts ls) (fun c => forall fd, c <> UnlinkTemp fd) False now D X) with (ls := ls) (s := sys_init now) (gs := fun _ : nat => mkGhost now [] None None None) as (gs & _ & I & _); auto.
  - intros fd H. apply (H fd). auto.
  - apply init_inv.
  - apply incl_refl.
  - exists (fun fd i => owns (gs i) fd). split.
    + intros fd H. destruct (I fd H) as (_ & [[]|(i & p & A & B & C)]). exists i, p. destruct (p_op p) as [url a|url h|url h|url ts salt| |] eqn:E; try discriminate. exists url, a. auto.
    + intros fd fd' i (d & c & A) (d' & c' & B). congruence.
Qed.
Print Assumptions C165_no_litter.

(** C166: where renaming replaces, the calls could have had their effects one at a time: for every
    run, with failing system calls and dying processes, the machine of FileAtomic.v has a run
    with the same calls, times and answers in the same order. *)
Theorem C166_atomic :
  forall sha1, digest20 sha1 -> forall now ls, sys_ok ls -> distinct_on sha1 (sys_texts ls) ->
    exists A, asteps (a_init now) A /\ a_log A = s_log (run sha1 true (sys_init now) ls).
Proof.
  intros sha1 D now ls O X.
  destruct (sys_run sha1 true (sys_texts ls) (fun _ => True) True now D X (fun _ _ => Logic.I) ls (sys_init now) (fun _ => mkGhost now [] None None None)) as (gs & _ & _ & _ & _ & _ & _ & I); auto.
  - apply init_inv.
  - apply incl_refl.
  - apply fails_any.
  - destruct (I eq_refl) as (A & S & _ & L & _). eauto.
Qed.
Print Assumptions C166_atomic.
