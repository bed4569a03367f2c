(** Lemmas on FileSys.v: programs whose calls keep to a guard, given what others guarantee. *)
From Coq Require Import Lia ZifyBool ZifyN ZifyNat.
From Verif Require Import Py PyFacts Utf8 Utf8Facts CryptUtil CryptUtilFacts Association Nonce Store StoreSpec StoreFacts FileStore FileStoreFacts.
From Verif Require Import Prop_KVForm Prop_StoreMem Prop_StoreSql Prop_FileNames Prop_StoreFile FileSys FileAtomic.
Open Scope Z_scope.
Local Arguments u : simpl never.

(** ** Programs *)
Section Wp.
  Context {G : Type}.
  Variable rely : G -> sc -> reply -> G -> Prop.
  Variable guard : G -> sc -> Prop.
  Fixpoint wp {A} (post : G -> res A -> Prop) (g : G) (p : prog A) : Prop :=
    match p with
    | Ret a => post g (Ok a)
    | Throw x => post g (Raise x)
    | Call c k => guard g c /\ forall r g', rely g c r g' -> wp post g' (k r)
    end.
  Lemma wp_mono {A} (P Q : G -> res A -> Prop) p : forall g, (forall g r, P g r -> Q g r) -> wp P g p -> wp Q g p.
  Proof using. induction p as [a|x|c k IH]; intros g H W; cbn in *; auto. destruct W as (W1 & W2). split; auto. Qed.
  Lemma wp_bind {A B} (P : G -> res A -> Prop) (Q : G -> res B -> Prop) p f : forall g,
    wp P g p -> (forall g a, P g (Ok a) -> wp Q g (f a)) -> (forall g x, P g (Raise x) -> Q g (Raise x)) -> wp Q g (pbind p f).
  Proof using. induction p as [a|x|c k IH]; intros g W H1 H2; cbn in *; auto. destruct W as (W1 & W2). split; auto. Qed.
  Lemma wp_try {A} (P Q : G -> res A -> Prop) p h : forall g,
    wp P g p -> (forall g a, P g (Ok a) -> Q g (Ok a)) -> (forall g x, P g (Raise x) -> wp Q g (h x)) -> wp Q g (ptry p h).
  Proof using. induction p as [a|x|c k IH]; intros g W H1 H2; cbn in *; auto. destruct W as (W1 & W2). split; auto. Qed.
  Lemma wp_finally {A} (P Q : G -> res A -> Prop) p q : forall g,
    wp P g p -> (forall g r, P g r -> wp (fun g' r' => Q g' (match r' with Ok _ => r | Raise x => Raise x end)) g q) -> wp Q g (pfinally p q).
  Proof using.
    induction p as [a|x|c k IH]; intros g W H; cbn in *; auto.
    - eapply wp_bind; [apply (H _ _ W)|intros g' r; cbn; auto|intros g' x; cbn; auto].
    - eapply wp_bind; [apply (H _ _ W)|intros g' r; cbn; auto|intros g' y; cbn; auto].
    - destruct W as (W1 & W2). split; auto.
  Qed.
  Lemma wp_lift {A} (P : G -> res A -> Prop) g r : P g r -> wp P g (lift r).
  Proof using. destruct r; auto. Qed.
End Wp.

Lemma set_nth_length {A} n (x : A) l : length (set_nth n x l) = length l.
Proof. revert n. induction l as [|y l IH]; intros [|n]; cbn; auto. Qed.
Lemma nth_set_nth {A} n m (x d : A) l : nth m (set_nth n x l) d = if (Nat.eqb m n && (n <? length l)%nat)%bool then x else nth m l d.
Proof.
  revert n m. induction l as [|y l IH]; intros n m; cbn [set_nth].
  - destruct n, m; cbn; auto; rewrite ?andb_false_r; auto.
  - destruct n as [|n], m as [|m]; cbn [set_nth nth Nat.eqb length]; auto. rewrite IH. destruct (Nat.eqb m n); cbn [andb]; auto.
Qed.

(** ** The system *)
Lemma ddel_In {V} name (d : list (text * V)) x : In x (ddel text_eqb name d) -> In x d.
Proof. induction d as [|[k v] d IH]; cbn; auto. destruct (text_eqb name k); cbn; [auto|intros [<-|H]; auto]. Qed.
Lemma dset_In {V} name v (d : list (text * V)) x : In x (dset text_eqb name v d) -> x = (name, v) \/ In x d.
Proof.
  induction d as [|[k w] d IH]; cbn; [intros [<-|[]]; auto|]. destruct (text_eqb name k) eqn:E; cbn; intros [<-|H]; auto.
  - left. apply text_eqb_eq in E. subst. auto.
  - destruct (IH H); auto.
Qed.
Definition recorded (log : list event) (url : text) (a : assoc) : Prop := exists i t, In (Began i t (StoreA url a)) log.
Definition is_store (o : op) : bool := match o with StoreA _ _ => true | _ => false end.
Definition is_ok (r : reply) : bool := match r with ROk => true | _ => false end.

Section System.
  Variable sha1 : bytes -> bytes.
  Hypothesis digest : digest20 sha1.
  Variable replaces : bool.
  Variable T : list text.
  Hypothesis distinct : distinct_on sha1 T.
  Variable faulty : sc -> Prop.            (* the calls that may fail *)
  Variable leaky : Prop.                   (* temporary files may be left behind *)
  Variable now0 : Z.                       (* when it all began *)
  Notation file_of := (file_of sha1 T).
  (** A file that storeAssociation writes. *)
  Definition good (log : list event) (name : text) (data : bytes) : Prop := exists url a, recorded log url a /\ file_of url a (name, data).
  (** A name that useNonce makes, as far as cleanupNonces cares. *)
  Definition ngood (t : Z) (name : text) : Prop := path_ok name = true /\ exists ts, nonce_file_ts name = Ok ts /\ ts <= t + 18000.
  Definition listed (log : list event) (t : Z) (w : where_) (name : text) : Prop :=
    match w with Assocs => exists data, good log name data | Nonces => ngood t name end.
  (** What a process knows: a time and a log that have been, the file it has open for reading, with
      its name and content, the file it writes, with what has been written to it and whether it
      has been closed, and the answer that the atomic machine has given. *)
  Record ghost := mkGhost { g_now : Z; g_log : list event; g_open : option (nat * text * bytes); g_own : option (nat * bytes * bool); g_ans : option out }.
  Definition owns (g : ghost) (fd : nat) : Prop := exists data closed, g_own g = Some (fd, data, closed).
  Definition same (g g' : ghost) : Prop := g_open g' = g_open g /\ g_own g' = g_own g /\ g_ans g' = g_ans g.

  (** *** What the atomic machine does at a system call *)
  Definition target (o : op) : option (text * text) :=
    match o with StoreA url a => Some (url, a_handle a) | GetA url (Some h) => Some (url, h) | RemoveA url h => Some (url, h) | _ => None end.
  Definition targets (o : op) (name : text) : bool :=
    match target o with
    | Some (url, h) => match getAssociationFilename sha1 url h with Ok n => text_eqb n name | Raise _ => false end
    | None => false
    end.
  Definition ans_open (o : op) (g : ghost) (name : text) (found : option assoc) : option out :=
    match g_ans g with
    | Some r => Some r
    | None => if free o then None else if targets o name then
                match o, found with
                | GetA _ _, _ => Some (Got found)
                | RemoveA _ _, None => Some (Flag false)
                | _, _ => None
                end else None
    end.
  Definition ans_now (o : op) (g : ghost) (now : Z) : option out :=
    if free o then g_ans g else
    match o, g_ans g with
    | GetA _ _, Some (Got (Some a)) => if expired a now then Some (Got None) else g_ans g
    | RemoveA _ _, None =>
        match g_open g with
        | Some (_, name, data) =>
            if targets o name then match read_assoc data with Ok (Some a) => if expired a now then Some (Flag false) else None | _ => None end else None
        | None => None
        end
    | UseN _ ts _, None => if skewed ts now then Some (Flag false) else None
    | _, x => x
    end.
  Definition acts (o : op) (g : ghost) (name : text) : bool :=
    match o, g_ans g with RemoveA _ _, None => negb (free o) && targets o name | _, _ => false end.
  Definition doomed (g : ghost) (name : text) : Prop :=
    exists url a data, recorded (g_log g) url a /\ file_of url a (name, data) /\ expired a (g_now g) = true.
  Definition wipes (o : op) (g : ghost) (name : text) : Prop :=
    exists url, o = RemoveA url [] /\ getAssociationFilename sha1 url [] = Ok name /\ g_ans g = None.

  Definition guard (o : op) (g : ghost) (c : sc) : Prop :=
    match c with
    | Fdopen fd | Write fd _ | Fsync fd | Close fd | UnlinkTemp fd => owns g fd
    | Mkstemp => g_own g = None /\ is_store o = true
    | Rename fd name => exists data url a, g_own g = Some (fd, data, true) /\ o = StoreA url a /\ file_of url a (name, data) /\ g_ans g = None
    | Unlink Assocs name => path_ok name = true /\ (acts o g name = true \/ doomed g name \/ wipes o g name \/ replaces = false)
    | Unlink Nonces name => path_ok name = true /\ o = CleanN /\ exists ts, nonce_file_ts name = Ok ts /\ ts + 18000 < g_now g
    | OpenR name => path_ok name = true
    | ReadAll fd => exists name data, g_open g = Some (fd, name, data)
    | Create name => g_ans g = None /\ exists url ts salt, o = UseN url ts salt /\ nonce_of sha1 T url ts salt name /\ ts <= g_now g + 18000
    | _ => True
    end.
  Definition does (o : op) (g : ghost) (c : sc) (r : reply) (g' : ghost) : Prop :=
    match c with
    | Now => r = RTime (g_now g') /\ g_open g' = g_open g /\ g_own g' = g_own g /\ g_ans g' = ans_now o g (g_now g')
    | Mkstemp => exists fd, r = RFd fd /\ g_open g' = g_open g /\ g_own g' = Some (fd, [], false) /\ g_ans g' = g_ans g
    | Fdopen _ | Fsync _ | CloseNew => r = ROk /\ same g g'
    | Write fd b => exists data closed, r = ROk /\ g_own g = Some (fd, data, closed) /\ g_open g' = g_open g /\ g_own g' = Some (fd, data ++ b, false) /\ g_ans g' = g_ans g
    | Close fd => exists data closed, r = ROk /\ g_own g = Some (fd, data, closed) /\ g_open g' = g_open g /\ g_own g' = Some (fd, data, true) /\ g_ans g' = g_ans g
    | Rename fd name => (r = ROk /\ g_open g' = g_open g /\ g_own g' = None /\ g_ans g' = Some Done) \/ (r = RErr EEXIST /\ replaces = false /\ same g g')
    | UnlinkTemp fd => r = ROk /\ g_open g' = g_open g /\ g_own g' = None /\ g_ans g' = g_ans g
    | Unlink Assocs name => (r = ROk \/ r = RErr ENOENT) /\ g_open g' = g_open g /\ g_own g' = g_own g /\
        g_ans g' = (if acts o g name then Some (Flag (is_ok r)) else g_ans g)
    | Unlink Nonces name => (r = ROk \/ r = RErr ENOENT) /\ same g g'
    | Listdir w => exists l, r = RNames l /\ Forall (listed (g_log g') (g_now g') w) l /\ same g g'
    | OpenR name =>
        (exists fd data url a, r = RFd fd /\ recorded (g_log g') url a /\ file_of url a (name, data) /\
           g_open g' = Some (fd, name, data) /\ g_own g' = g_own g /\ g_ans g' = ans_open o g name (Some a)) \/
        (r = RErr ENOENT /\ g_open g' = g_open g /\ g_own g' = g_own g /\ g_ans g' = ans_open o g name None)
    | ReadAll fd => exists name data, g_open g = Some (fd, name, data) /\ r = RBytes data /\ same g g'
    | Create _ => (r = ROk \/ r = RErr EEXIST) /\ g_open g' = g_open g /\ g_own g' = g_own g /\ g_ans g' = Some (Flag (is_ok r))
    end.
  Definition rely (o : op) (g : ghost) (c : sc) (r : reply) (g' : ghost) : Prop :=
    g_now g <= g_now g' /\ incl (g_log g) (g_log g') /\ ((faulty c /\ r = RErr Other /\ same g g') \/ does o g c r g').
  Notation wp o := (wp (rely o) (guard o)).

  (** What the calls promise: [t] is when the call began. *)
  Variable post : op -> Z -> ghost -> out -> Prop.
  Definition out_of (r : res out) : out := match r with Ok o => o | Raise x => Err x end.
  Definition answers (o : op) (ans : option out) (r : out) : Prop :=
    ans = Some r \/ (r = Err OSError /\ settled o ans = false) \/ (ans = None /\ free o = true).
  Hypothesis post_own : forall o t g r, post o t g r -> (leaky \/ g_own g = None) /\ answers o (g_ans g) r.
  Hypothesis programs : forall o t i log, In (Began i t o) log -> fop T o ->
    wp o (fun g r => post o t g (out_of r)) (mkGhost t log None None None) (program sha1 o).

  (** *** Invariant *)
  Definition unowned (gs : nat -> ghost) (fd : nat) : Prop := forall j, ~ owns (gs j) fd.
  Definition sealed (s : sys) (gs : nat -> ghost) (fd : nat) (name : text) (data : bytes) : Prop :=
    (fd < length (s_files s))%nat /\ content (file_at s fd) = data /\ good (s_log s) name data /\ unowned gs fd.
  Definition view (s : sys) (gs : nat -> ghost) (g : ghost) : Prop :=
    g_now g <= s_clock s /\ incl (g_log g) (s_log s) /\
    (forall fd name data, g_open g = Some (fd, name, data) -> sealed s gs fd name data) /\
    (forall fd data closed, g_own g = Some (fd, data, closed) -> (fd < length (s_files s))%nat /\ In fd (s_temp s) /\
       content (file_at s fd) ++ buffer (file_at s fd) = data /\ (closed = true -> buffer (file_at s fd) = [])).
  Definition pending (p : proc) : option sc := match p_prog p with Call c _ => Some c | _ => None end.
  Definition run_inv (s : sys) (g : ghost) (i : nat) (p : proc) : Prop :=
    fop T (p_op p) /\
    (forall fd, pending p = Some (ReadAll fd) -> exists rest, content (file_at s fd) = p_bytes p ++ rest) /\
    (forall w, pending p = Some (Listdir w) -> Forall (listed (s_log s) (s_clock s) w) (p_names p)) /\
    (exists t, In (Began i t (p_op p)) (s_log s) /\ wp (p_op p) (fun g r => post (p_op p) t g (out_of r)) g (p_prog p)).
  Definition log_inv (log : list event) : Prop :=
    forall l2 i t o r l1, log = l2 ++ Ended i t o r :: l1 -> exists t0 g, In (Began i t0 o) l1 /\ g_now g <= t /\ incl (g_log g) l1 /\ post o t0 g r.
  (** A temporary file has a process that writes it. *)
  Definition held (s : sys) (gs : nat -> ghost) (fd : nat) : Prop := leaky \/ exists i p, s_procs s i = Some p /\ is_store (p_op p) = true /\ owns (gs i) fd.
  Definition kept (s : sys) (gs : nat -> ghost) (i : nat) (o : op) (g' : ghost) (fd : nat) : Prop :=
    leaky \/ (is_store o = true /\ owns g' fd) \/ exists j p, j <> i /\ s_procs s j = Some p /\ is_store (p_op p) = true /\ owns (gs j) fd.
  Lemma held_kept s gs i o g' fd : held s gs fd -> (forall p, s_procs s i = Some p -> p_op p = o) -> (owns (gs i) fd -> owns g' fd) -> kept s gs i o g' fd.
  Proof using.
    intros [H|(j & p & H1 & H2 & H3)] Op O; [left; auto|right]. destruct (Nat.eq_dec j i) as [->|N]; [left; rewrite <- (Op p H1); auto|right; exists j, p; auto].
  Qed.
  Definition rest_inv (s : sys) : Prop := log_inv (s_log s) /\ Forall (ngood (s_clock s)) (s_nonces s) /\ NoDup (dkeys (s_assocs s)).
  (** The atomic machine has come along. *)
  Definition stored (s : sys) (name : text) : option assoc :=
    match dget text_eqb name (s_assocs s) with
    | Some fd => match read_assoc (content (file_at s fd)) with Ok o => o | Raise _ => None end
    | None => None
    end.
  Definition linked (s : sys) (calls : nat -> option (op * option out)) (A : amach) : Prop :=
    a_clock A = s_clock s /\ a_log A = s_log s /\ (forall i, a_call A i = calls i) /\
    (forall url h name, In url T -> In h T -> getAssociationFilename sha1 url h = Ok name -> a_reg A url h = stored s name) /\
    (forall name, In name (s_nonces s) <-> exists url ts salt, nonce_of sha1 T url ts salt name /\ a_used A url ts salt = true).
  Definition sim (s : sys) (calls : nat -> option (op * option out)) : Prop := replaces = true -> exists A, asteps (a_init now0) A /\ linked s calls A.
  Definition calls_of (s : sys) (gs : nat -> ghost) (i : nat) : option (op * option out) :=
    match s_procs s i with Some p => Some (p_op p, g_ans (gs i)) | None => None end.
  Definition sys_inv (s : sys) (gs : nat -> ghost) : Prop :=
    (forall name fd, In (name, fd) (s_assocs s) -> sealed s gs fd name (content (file_at s fd))) /\
    (forall fd, In fd (s_temp s) -> (fd < length (s_files s))%nat /\ held s gs fd) /\
    (forall i, view s gs (gs i)) /\
    (forall i p, s_procs s i = Some p -> run_inv s (gs i) i p) /\
    (forall i j fd, i <> j -> owns (gs i) fd -> ~ owns (gs j) fd) /\
    rest_inv s /\ sim s (calls_of s gs).

  (** *** The atomic machine *)
  Lemma sim_ext s c1 c2 : (forall i, c1 i = c2 i) -> sim s c1 -> sim s c2.
  Proof using. intros E S R. destruct (S R) as (A & S1 & L1 & L2 & L3 & L4). exists A. split; auto. split; auto. split; auto. split; auto. intros i. rewrite <- E. auto. Qed.
  Lemma sim_same s s1 c : s_clock s1 = s_clock s -> s_log s1 = s_log s -> s_nonces s1 = s_nonces s -> (forall name, stored s1 name = stored s name) -> sim s c -> sim s1 c.
  Proof using.
    intros E1 E2 E3 E4 S R. destruct (S R) as (A & S1 & L1 & L2 & L3 & L4 & L5). exists A. split; auto. split; [congruence|]. split; [congruence|]. split; auto.
    split; [|rewrite E3; auto]. intros. rewrite E4. auto.
  Qed.
  Lemma set_call_same f i v : set_call f i v i = v.
  Proof using. unfold set_call. rewrite Nat.eqb_refl. auto. Qed.
  Lemma stored_keep s s1 : s_assocs s1 = s_assocs s -> (forall name fd, In (name, fd) (s_assocs s) -> file_at s1 fd = file_at s fd) -> forall name, stored s1 name = stored s name.
  Proof using.
    intros E F name. unfold stored. rewrite E. destruct (dget text_eqb name (s_assocs s)) as [fd|] eqn:D; auto.
    apply (dget_In text_eqb text_eqb_eq) in D. rewrite (F name fd D). auto.
  Qed.
  Lemma sim_late s c i o ans r : sim s c -> c i = Some (o, ans) -> (forall A, a_clock A = s_clock s -> a_log A = s_log s -> too_late A o ans r) -> sim s (set_call c i (Some (o, Some r))).
  Proof using.
    intros S C H R. destruct (S R) as (A & S1 & L1 & L2 & L3 & L4). eexists. split.
    - eapply as_step; [exact S1|]. apply (a_late A i o ans r); [rewrite L3; auto|apply H; auto].
    - split; auto. split; auto. split; auto. intros j. cbn. unfold set_call. destruct (Nat.eqb j i); auto.
  Qed.
  Lemma sim_act s s1 c i o r : sim s c -> c i = Some (o, None) -> s_clock s1 = s_clock s -> s_log s1 = s_log s ->
    (forall A, linked s c A -> exists B, effect A o = Some (B, r) /\ linked s1 (a_call A) B) -> sim s1 (set_call c i (Some (o, Some r))).
  Proof using.
    intros S C E1 E2 H R. destruct (S R) as (A & S1 & L). destruct (H A L) as (B & E & L1 & L2 & L3 & L4). eexists. split.
    - eapply as_step; [exact S1|]. eapply (a_act A i o B r); auto. destruct L as (_ & _ & L & _). rewrite L. auto.
    - split; auto. split; auto. split; auto. intros j. cbn. unfold set_call. destruct (Nat.eqb j i); auto. rewrite L3. apply L.
  Qed.
  (** The other steps that change only what is stored. *)
  Lemma sim_other s s1 c : sim s c -> (forall A, linked s c A -> exists B, astep A B /\ linked s1 c B) -> sim s1 c.
  Proof using. intros S H R. destruct (S R) as (A & S1 & L). destruct (H A L) as (B & E & L'). exists B. split; auto. eapply as_step; eauto. Qed.
  Lemma put_same reg url h v : put reg url h v url h = v.
  Proof using. unfold put. rewrite !(proj2 (text_eqb_eq _ _) eq_refl). auto. Qed.
  Lemma put_other reg url h v url' h' : ~ (url' = url /\ h' = h) -> put reg url h v url' h' = reg url' h'.
  Proof using. intros N. unfold put. destruct (text_eqb url' url) eqn:E1, (text_eqb h' h) eqn:E2; auto. apply text_eqb_eq in E1, E2. tauto. Qed.
  Lemma put_stored s s1 reg url h name v : In url T -> In h T -> getAssociationFilename sha1 url h = Ok name ->
    (forall url h name, In url T -> In h T -> getAssociationFilename sha1 url h = Ok name -> reg url h = stored s name) ->
    (forall n, stored s1 n = if text_eqb n name then v else stored s n) ->
    forall url' h' name', In url' T -> In h' T -> getAssociationFilename sha1 url' h' = Ok name' -> put reg url h v url' h' = stored s1 name'.
  Proof using digest distinct.
    intros U H N L S url' h' name' U' H' N'. rewrite S. destruct (text_eqb name' name) eqn:E.
    - apply text_eqb_eq in E. subst name'. destruct (fname_inj sha1 digest T distinct url' h' url h name) as (-> & ->); auto. apply put_same.
    - rewrite put_other; auto. intros (-> & ->). apply text_eqb_neq in E. congruence.
  Qed.
  Lemma stored_ddel s name temp : NoDup (dkeys (s_assocs s)) -> forall n, stored (set_assocs s (ddel text_eqb name (s_assocs s)) temp) n = if text_eqb n name then None else stored s n.
  Proof using.
    intros N n. unfold stored. cbn [s_assocs set_assocs]. rewrite (dget_ddel text_eqb text_eqb_eq) by auto. destruct (text_eqb n name); auto.
  Qed.
  Lemma stored_absent s name : dget text_eqb name (s_assocs s) = None -> forall n, stored s n = if text_eqb n name then None else stored s n.
  Proof using. intros D n. destruct (text_eqb n name) eqn:E; auto. apply text_eqb_eq in E. subst. unfold stored. rewrite D. auto. Qed.
  Lemma targets_key o name : fop T o -> targets o name = true -> exists url h, target o = Some (url, h) /\ In url T /\ In h T /\ getAssociationFilename sha1 url h = Ok name.
  Proof using.
    intros (_ & I) H. unfold targets in H. destruct o as [url a|url [h|]|url h|url ts salt| |]; cbn in H; try discriminate;
    (destruct (getAssociationFilename sha1 url _) eqn:E; [|discriminate]); apply text_eqb_eq in H; subst; eexists _, _; (split; [reflexivity|]);
    (split; [apply I; left; auto|]; split; [apply I; right; left; auto|auto]).
  Qed.

  (** *** One process makes a step *)
  Definition upd (gs : nat -> ghost) (i : nat) (g : ghost) (j : nat) : ghost := if Nat.eqb j i then g else gs j.
  Lemma upd_same gs i g : upd gs i g i = g.
  Proof using. unfold upd. rewrite Nat.eqb_refl. auto. Qed.
  Lemma upd_other gs i g j : j <> i -> upd gs i g j = gs j.
  Proof using. intros H. unfold upd. destruct (Nat.eqb j i) eqn:E; auto. apply Nat.eqb_eq in E. contradiction. Qed.
  Lemma good_mono log log' name data : incl log log' -> good log name data -> good log' name data.
  Proof using. intros I (url & a & (i & t & R) & F). exists url, a. split; auto. exists i, t. auto. Qed.
  Lemma ngood_mono t t' name : t <= t' -> ngood t name -> ngood t' name.
  Proof using. intros L (P & ts & A & B). split; auto. exists ts. split; auto. clear - L B. lia. Qed.
  Lemma listed_mono log log' t t' w name : incl log log' -> t <= t' -> listed log t w name -> listed log' t' w name.
  Proof using. intros I L. destruct w; cbn; [|apply ngood_mono; auto]. intros (data & G). exists data. eapply good_mono; eauto. Qed.
  (** Files that process i does not write stay as they are. *)
  Definition keeps (s s1 : sys) (g : ghost) : Prop :=
    s_clock s <= s_clock s1 /\ (length (s_files s) <= length (s_files s1))%nat /\
    (forall fd, (fd < length (s_files s))%nat -> ~ owns g fd -> file_at s1 fd = file_at s fd /\ (In fd (s_temp s) -> In fd (s_temp s1))) /\
    incl (s_log s) (s_log s1).
  (** What process i comes to write is new. *)
  Definition fresh_own (s : sys) (g g' : ghost) : Prop := forall fd, owns g' fd -> owns g fd \/ (length (s_files s) <= fd)%nat.
  Section Frame.
    Variables (s s1 : sys) (gs : nat -> ghost) (i : nat) (g' : ghost).
    Hypothesis K : keeps s s1 (gs i).
    Hypothesis F : fresh_own s (gs i) g'.
    Lemma unowned_frame fd : (fd < length (s_files s))%nat -> unowned gs fd -> unowned (upd gs i g') fd.
    Proof using F.
      intros L U j O. unfold upd in O. destruct (Nat.eqb j i) eqn:E; [|apply (U j); auto].
      destruct (F fd O) as [O'|O']; [apply (U i); auto|]. clear - L O'. lia.
    Qed.
    Lemma sealed_frame fd name data : sealed s gs fd name data -> sealed s1 (upd gs i g') fd name data.
    Proof using K F.
      intros (S1 & S2 & S3 & S4). destruct K as (K1 & K2 & K3 & K4). destruct (K3 fd S1 (S4 i)) as (E & _).
      split; [clear - S1 K2; lia|]. rewrite E. split; auto. split; [eapply good_mono; eauto|]. apply unowned_frame; auto.
    Qed.
    Lemma sealed_assoc fd name : sealed s gs fd name (content (file_at s fd)) -> sealed s1 (upd gs i g') fd name (content (file_at s1 fd)).
    Proof using K F.
      intros S. pose proof (sealed_frame _ _ _ S) as S'. destruct S' as (_ & E & _). rewrite E. apply sealed_frame, S.
    Qed.
    Lemma view_frame j : j <> i -> (forall j fd, i <> j -> owns (gs i) fd -> ~ owns (gs j) fd) -> view s gs (gs j) -> view s1 (upd gs i g') (gs j).
    Proof using K F.
      intros Ne D (V1 & V2 & V3 & V4). destruct K as (K1 & K2 & K3 & K4). split; [clear - V1 K1; lia|]. split; [eapply incl_tran; eauto|].
      split; [intros fd name data H; apply sealed_frame; auto|].
      intros fd data closed H. destruct (V4 fd data closed H) as (W1 & W2 & W3 & W4).
      destruct (K3 fd W1) as (E & Te). { intros O. apply (D j fd); auto. exists data, closed. auto. }
      rewrite E. split; [clear - W1 K2; lia|]. auto.
    Qed.
    Lemma run_frame j p : j <> i -> view s gs (gs j) -> run_inv s (gs j) j p -> run_inv s1 (gs j) j p.
    Proof using K.
      intros Ne (V1 & V2 & V3 & V4) (R0 & R1 & R2 & t & R3 & R4). destruct K as (K1 & K2 & K3 & K4). split; auto. split; [|split; [|exists t; auto]].
      - intros fd H. destruct (R1 fd H) as (rest & R). exists rest. rewrite <- R. f_equal.
        unfold pending in H. destruct (p_prog p) as [|x|c k]; try discriminate. injection H as ->. cbn in R4. destruct R4 as ((name & data & O) & _).
        destruct (V3 fd name data O) as (S1 & S2 & S3 & S4). apply (K3 fd S1 (S4 i)).
      - intros w H. eapply Forall_impl; [|apply (R2 w H)]. intros n. apply listed_mono; auto.
    Qed.
  End Frame.
  Lemma log_cons e log : log_inv log -> (forall i t o r, e = Ended i t o r -> exists t0 g, In (Began i t0 o) log /\ g_now g <= t /\ incl (g_log g) log /\ post o t0 g r) -> log_inv (e :: log).
  Proof using.
    intros L H l2 i t o r l1 E. destruct l2 as [|e' l2]; cbn in E; injection E as -> ->; [apply H; auto|]. eapply L. reflexivity.
  Qed.
  (** The program goes on after the call, or ends. *)
  Lemma settle_inv s s1 gs i g' o p t :
    sys_inv s gs -> keeps s s1 (gs i) -> fresh_own s (gs i) g' -> s_procs s1 = s_procs s -> rest_inv s1 ->
    (forall name fd, In (name, fd) (s_assocs s1) -> sealed s1 (upd gs i g') fd name (content (file_at s1 fd))) ->
    (forall fd, In fd (s_temp s1) -> (fd < length (s_files s1))%nat /\ kept s gs i o g' fd) ->
    view s1 (upd gs i g') g' -> fop T o ->
    In (Began i t o) (s_log s1) -> wp o (fun g r => post o t g (out_of r)) g' p ->
    sim s1 (set_call (calls_of s gs) i (Some (o, g_ans g'))) ->
    exists gs', sys_inv (settle s1 i o p) gs'.
  Proof using post_own.
    intros (I1 & I2 & I3 & I4 & I5 & I6 & I7) K F P L A B V Fo H W Sm.
    assert (forall j, j <> i -> view s1 (upd gs i g') (gs j)) as Vj by (intros j Ne; eapply view_frame; eauto; intros; apply (I5 i); auto).
    assert (forall j p, j <> i -> s_procs s j = Some p -> run_inv s1 (gs j) j p) as Rj by (intros j q Ne Hq; eapply run_frame; eauto).
    assert (forall a b fd, a <> b -> owns (upd gs i g' a) fd -> ~ owns (upd gs i g' b) fd) as Dj.
    { assert (forall b fd, b <> i -> owns g' fd -> owns (gs b) fd -> False) as X.
      { intros b fd Nb O O'. destruct (F fd O) as [O2|O2]; [apply (I5 i b fd); auto|]. destruct (I3 b) as (_ & _ & _ & V3). destruct O' as (d & c & O').
        destruct (V3 fd d c O') as (L' & _). clear - L' O2. lia. }
      intros a b fd Ne O O'. unfold upd in O, O'. destruct (Nat.eqb a i) eqn:Ea, (Nat.eqb b i) eqn:Eb.
      - apply Nat.eqb_eq in Ea, Eb. congruence.
      - apply Nat.eqb_neq in Eb. eapply X; eauto.
      - apply Nat.eqb_neq in Ea. eapply X; eauto.
      - apply (I5 a b fd); auto. }
    pose proof V as (V1 & V2 & V3 & V4).
    assert (forall r, post o t g' r -> exists gs', sys_inv (set_proc (note s1 (Ended i (s_clock s1) o r)) i None) gs') as En.
    { intros r Hr. destruct (post_own _ _ _ _ Hr) as (Le & An). set (e := Ended i (s_clock s1) o r).
      assert (incl (s_log s1) (e :: s_log s1)) as In1 by (intros x Hx; right; auto).
      exists (upd gs i g').
      assert (forall fd name data, sealed s1 (upd gs i g') fd name data -> sealed (set_proc (note s1 e) i None) (upd gs i g') fd name data) as Se.
      { intros fd name data (S1 & S2 & S3 & S4). split; [exact S1|]. split; [exact S2|]. split; [eapply good_mono; eauto|exact S4]. }
      split; [intros name fd Hn; apply Se, A, Hn|]. split.
      { intros fd Hf. destruct (B fd Hf) as (B1 & B2). split; [exact B1|]. destruct B2 as [B2|[(_ & d & c & B2)|(j & q & B2 & B3 & B4)]]; [left; auto|destruct Le; [left; auto|congruence]|].
        right. exists j, q. cbn. apply Nat.eqb_neq in B2. unfold upd. rewrite B2, P. auto. }
      assert (forall g, view s1 (upd gs i g') g -> view (set_proc (note s1 e) i None) (upd gs i g') g) as Ve.
      { intros g (X1 & X2 & X3 & X4). split; [exact X1|]. split; [eapply incl_tran; eauto|]. split; [auto|exact X4]. }
      split; [|split; [|split; [exact Dj|split]]].
      - intros j. apply Ve. destruct (Nat.eq_dec j i) as [->|Ne]; [rewrite upd_same; exact V|rewrite upd_other by auto; apply (Vj j Ne)].
      - intros j q. cbn. destruct (Nat.eqb j i) eqn:E; [discriminate|]. rewrite P. intros Hq. apply Nat.eqb_neq in E. rewrite upd_other by auto.
        destruct (Rj j q E Hq) as (R0 & R1 & R2 & t' & R3 & R4). split; [exact R0|]. split; [exact R1|]. split; [|exists t'; split; [right; exact R3|exact R4]].
        intros w Hw. eapply Forall_impl; [|apply (R2 w Hw)]. intros n. apply listed_mono; [exact In1|apply Z.le_refl].
      - destruct L as (L1 & L2 & L3). split; [|split; auto]. cbn. apply log_cons; auto.
        intros i' t' o' r' Q. injection Q as <- <- <- <-. exists t, g'. auto.
      - intros R. destruct (Sm R) as (M & M1 & M2 & M3 & M4 & M5 & M6).
        assert (a_call M i = Some (o, g_ans g')) as Mi by (rewrite M4; apply set_call_same).
        set (M' := mkA (a_clock M) (a_reg M) (a_used M) (set_call (a_call M) i None) (Ended i (a_clock M) o r :: a_log M)).
        exists M'. split.
        + eapply as_step; [exact M1|]. unfold M'. destruct An as [An|[(-> & An)|(An & An2)]].
          * apply a_end. congruence.
          * apply (a_fail M i o (g_ans g')); auto.
          * apply a_free; auto. congruence.
        + split; [exact M2|]. split; [cbn; unfold e; congruence|]. split; [|split; auto].
          intros j. cbn. unfold set_call, calls_of. cbn. destruct (Nat.eqb j i) eqn:E; auto. rewrite M4. unfold set_call, calls_of, upd. rewrite E, P. auto. }
    unfold settle. destruct p as [r|x|c k].
    - apply En. exact W.
    - apply En. exact W.
    - exists (upd gs i g'). split; [exact A|]. split.
      { intros fd Hf. destruct (B fd Hf) as (B1 & B2). split; [exact B1|]. destruct B2 as [B2|[B2|(j & q & B2 & B3 & B4)]]; [left; auto| |]; right.
        - exists i. eexists. cbn. rewrite Nat.eqb_refl, upd_same. split; [reflexivity|exact B2].
        - exists j, q. cbn. apply Nat.eqb_neq in B2. unfold upd. rewrite B2, P. auto. }
      split; [|split; [|split; [exact Dj|split; [exact L|]]]].
      + intros j. destruct (Nat.eq_dec j i) as [->|Ne]; [rewrite upd_same; exact V|rewrite upd_other by auto; apply (Vj j Ne)].
      + intros j q. cbn. destruct (Nat.eqb j i) eqn:E.
        * intros Q. injection Q as <-. apply Nat.eqb_eq in E. subst j. rewrite upd_same. split; [exact Fo|]. split; [|split].
          -- intros fd _. cbn. eauto.
          -- intros w _. constructor.
          -- exists t. auto.
        * rewrite P. intros Hq. apply Nat.eqb_neq in E. rewrite upd_other by auto. exact (Rj j q E Hq).
      + apply (sim_ext _ (set_call (calls_of s gs) i (Some (o, g_ans g')))).
        * intros j. unfold set_call, calls_of, upd. cbn. destruct (Nat.eqb j i); auto. rewrite P. auto.
        * apply (sim_same s1); auto.
  Qed.
  Lemma file_at_set s fd f fd' : (fd < length (s_files s))%nat -> file_at (set_file s fd f) fd' = if Nat.eqb fd' fd then f else file_at s fd'.
  Proof using.
    intros H. unfold file_at, set_file. cbn [s_files]. rewrite nth_set_nth. apply Nat.ltb_lt in H. rewrite H, andb_true_r. auto.
  Qed.
  Lemma keeps_same s g : keeps s s g.
  Proof using. split; [apply Z.le_refl|]. split; [apply le_n|]. split; [auto|apply incl_refl]. Qed.
  Lemma keeps_set s fd f g : owns g fd -> keeps s (set_file s fd f) g.
  Proof using.
    intros O. split; [apply Z.le_refl|]. split; [cbn; rewrite set_nth_length; apply le_n|]. split; [|apply incl_refl].
    intros fd' L N. split; auto. unfold file_at, set_file. cbn [s_files]. rewrite nth_set_nth. destruct (Nat.eqb fd' fd) eqn:E; auto.
    apply Nat.eqb_eq in E. subst. contradiction.
  Qed.
  Lemma fresh_same s g g' : g_own g' = g_own g -> fresh_own s g g'.
  Proof using. intros E fd O. left. unfold owns in *. rewrite E in O. auto. Qed.
  (** A call that changes nothing. *)
  Lemma quiet_inv s gs i g' o p t : sys_inv s gs -> (forall p, s_procs s i = Some p -> p_op p = o) -> g_own g' = g_own (gs i) ->
    (g_open g' = g_open (gs i) \/ exists fd name data, g_open g' = Some (fd, name, data) /\ sealed s gs fd name data) ->
    g_now g' <= s_clock s -> incl (g_log g') (s_log s) -> fop T o -> In (Began i t o) (s_log s) -> wp o (fun g r => post o t g (out_of r)) g' p ->
    sim s (set_call (calls_of s gs) i (Some (o, g_ans g'))) ->
    exists gs', sys_inv (settle s i o p) gs'.
  Proof using post_own.
    intros I Op O P N Lg Fo H W Sm. pose proof I as (I1 & I2 & I3 & I4 & I5 & I6 & I7). pose proof (fresh_same s _ _ O) as F. pose proof (keeps_same s (gs i)) as K.
    assert (forall fd, owns (gs i) fd -> owns g' fd) as Oo by (intros fd; unfold owns; rewrite O; auto).
    apply (settle_inv s s gs i g' o p t); auto.
    2: intros fd Hf; destruct (I2 fd Hf) as (B1 & B2); split; [exact B1|]; apply held_kept; auto.
    - intros name fd Hn. apply (sealed_frame s s gs i g' K F); auto.
    - destruct (I3 i) as (V1 & V2 & V3 & V4). split; auto. split; auto. split; [|rewrite O; auto]. intros fd name data E. apply (sealed_frame s s gs i g' K F).
      destruct P as [P|(fd' & name' & data' & P & S)]; [apply V3; congruence|]. rewrite P in E. inv E. auto.
  Qed.

  Lemma calls_here s gs i p : s_procs s i = Some p -> forall j, set_call (calls_of s gs) i (Some (p_op p, g_ans (gs i))) j = calls_of s gs j.
  Proof using.
    intros Hp j. unfold set_call. destruct (Nat.eqb j i) eqn:E; auto. apply Nat.eqb_eq in E. subst j. unfold calls_of. rewrite Hp. auto.
  Qed.
  Lemma calls_at s gs i p : s_procs s i = Some p -> calls_of s gs i = Some (p_op p, g_ans (gs i)).
  Proof using. intros Hp. unfold calls_of. rewrite Hp. auto. Qed.
  (** The machine at a reading of the clock. *)
  Lemma now_sim s gs i p : sys_inv s gs -> s_procs s i = Some p -> fop T (p_op p) ->
    sim s (set_call (calls_of s gs) i (Some (p_op p, ans_now (p_op p) (gs i) (s_clock s)))).
  Proof using digest distinct.
    intros (I1 & I2 & I3 & I4 & I5 & I6 & I7) Hp Fo. pose proof (calls_at s gs i p Hp) as C.
    assert (sim s (set_call (calls_of s gs) i (Some (p_op p, g_ans (gs i))))) as Same.
    { apply (sim_ext _ (calls_of s gs)); auto. intros j. rewrite calls_here; auto. }
    unfold ans_now. destruct (free (p_op p)) eqn:Fr; auto. destruct (p_op p) as [url a|url [h|]|url h|url ts salt| |] eqn:Eo; auto; try discriminate.
    - destruct (g_ans (gs i)) as [[|[a|]| | |]|] eqn:Ea; auto. destruct (expired a (s_clock s)) eqn:X; auto.
      eapply sim_late; eauto. intros A E1 E2. split; auto. exists a. split; auto. congruence.
    - destruct (g_ans (gs i)) as [r|] eqn:Ea; auto. destruct (g_open (gs i)) as [[[fd name] data]|] eqn:Og; auto.
      destruct (targets (RemoveA url h) name) eqn:Tg; auto. destruct (read_assoc data) as [[a|]|] eqn:Rd; auto. destruct (expired a (s_clock s)) eqn:X; auto.
      eapply sim_late; eauto. intros A E1 E2. split; auto. split; auto.
      destruct (I3 i) as (_ & _ & V3 & _). destruct (V3 fd name data Og) as (_ & _ & (url' & a' & (i' & t' & R) & Ff) & _).
      destruct (targets_key _ _ Fo Tg) as (url1 & h1 & Q & U1 & H1 & N1). cbn in Q. inv Q.
      pose proof Ff as (_ & _ & T1 & T2 & N & Rd'). cbn in N, Rd'. rewrite Rd in Rd'. inv Rd'.
      destruct (fname_inj sha1 digest T distinct url' (a_handle a') url1 h1 name) as (-> & E); auto.
      exists a', i', t'. rewrite E1, E2. auto.
    - destruct (g_ans (gs i)) as [r|] eqn:Ea; auto. destruct (skewed ts (s_clock s)) eqn:X; auto.
      eapply sim_late; eauto. intros A E1 E2. split; auto. split; auto. congruence.
  Qed.
  (** The machine when a file is opened for reading. *)
  Lemma open_sim s gs i p name : sys_inv s gs -> s_procs s i = Some p -> fop T (p_op p) ->
    sim s (set_call (calls_of s gs) i (Some (p_op p, ans_open (p_op p) (gs i) name (stored s name)))).
  Proof using digest distinct.
    intros (I1 & I2 & I3 & I4 & I5 & I6 & I7) Hp Fo. pose proof (calls_at s gs i p Hp) as C.
    assert (sim s (set_call (calls_of s gs) i (Some (p_op p, g_ans (gs i))))) as Same.
    { apply (sim_ext _ (calls_of s gs)); auto. intros j. rewrite calls_here; auto. }
    unfold ans_open. destruct (g_ans (gs i)) as [r|] eqn:Ea; auto. destruct (free (p_op p)) eqn:Fr; auto. destruct (targets (p_op p) name) eqn:Tg; auto.
    destruct (targets_key _ _ Fo Tg) as (url1 & h1 & Q & U1 & H1 & N1).
    destruct (p_op p) as [url a|url [h|]|url h|url ts salt| |] eqn:Eo; auto; cbn in Q; inv Q; try discriminate.
    - apply (sim_act s); auto. intros A (L1 & L2 & L3 & L4 & L5). exists A. unfold effect. rewrite Fr. rewrite (L4 url1 h1 name) by auto. split; auto.
      split; [|split; [|split]]; auto.
    - destruct (stored s name) as [a|] eqn:St; auto. apply (sim_act s); auto. intros A (L1 & L2 & L3 & L4 & L5).
      eexists. unfold effect. rewrite Fr. rewrite (L4 url1 h1 name), St by auto. split; [reflexivity|].
      split; auto. split; auto. split; auto. split; auto. cbn. apply (put_stored s s (a_reg A) url1 h1 name None); auto.
      intros n. destruct (text_eqb n name) eqn:E; auto. apply text_eqb_eq in E. subst. auto.
  Qed.
  Lemma step_inv s gs i p c k : sys_inv s gs -> s_procs s i = Some p -> p_prog p = Call c k -> at_end s p c = true ->
    exists gs', sys_inv (let '(s', r) := syscall replaces s p c in settle s' i (p_op p) (k r)) gs'.
  Proof using post_own digest distinct.
    intros I Hp Ep E. pose proof I as (I1 & I2 & I3 & I4 & I5 & I6 & I7). destruct (I4 i p Hp) as (Fo & R1 & R2 & t & R3 & R4).
    destruct (I3 i) as (V1 & V2 & V3 & V4). unfold pending in R1, R2. rewrite Ep in R1, R2, R4. cbn in R4. destruct R4 as (Gd & W).
    assert (forall q, s_procs s i = Some q -> p_op q = p_op p) as Op by (intros q Hq; congruence).
    pose proof (calls_at s gs i p Hp) as Ci.
    assert (sim s (set_call (calls_of s gs) i (Some (p_op p, g_ans (gs i))))) as Same.
    { apply (sim_ext _ (calls_of s gs)); auto. intros j. rewrite calls_here; auto. }
    set (g' := mkGhost (s_clock s) (s_log s) (g_open (gs i)) (g_own (gs i)) (g_ans (gs i))).
    assert (same (gs i) g') as Sg by (repeat split).
    assert (forall r, does (p_op p) (gs i) c r g' -> exists gs', sys_inv (settle s i (p_op p) (k r)) gs') as Q.
    { intros r Hr. apply (quiet_inv s gs i g' _ _ t); auto; [apply Z.le_refl|apply incl_refl|]. apply W. split; [exact V1|]. split; [exact V2|]. auto. }
    destruct c as [| |fd|fd b|fd|fd|fd name|fd|w name|w|name|fd|name|]; cbn [syscall].
    - (* Now *)
      set (g1 := mkGhost (s_clock s) (s_log s) (g_open (gs i)) (g_own (gs i)) (ans_now (p_op p) (gs i) (s_clock s))).
      apply (quiet_inv s gs i g1 _ _ t); auto; [apply Z.le_refl|apply incl_refl| |].
      + apply W. split; [exact V1|]. split; [exact V2|]. right. cbn. auto.
      + apply now_sim; auto.
    - (* Mkstemp *)
      set (fd := length (s_files s)). set (s1 := mkSys _ _ _ _ _ _ _). set (g1 := mkGhost (s_clock s) (s_log s) (g_open (gs i)) (Some (fd, [], false)) (g_ans (gs i))).
      assert (forall fd', (fd' < fd)%nat -> file_at s1 fd' = file_at s fd') as Fa.
      { intros fd' L. unfold file_at, s1. cbn [s_files]. rewrite app_nth1; auto. }
      assert (keeps s s1 (gs i)) as K.
      { split; [apply Z.le_refl|]. split; [cbn; rewrite app_length; clear; lia|]. split; [|apply incl_refl]. intros fd' L _. split; auto. intros H. right. auto. }
      assert (fresh_own s (gs i) g1) as F.
      { intros fd' (d & cl & O). cbn in O. inv O. right. apply le_n. }
      apply (settle_inv s s1 gs i g1 _ _ t); auto.
      + intros n f H. apply (sealed_assoc s s1 gs i g1 K F). apply (I1 n f H).
      + intros f. cbn. rewrite app_length. cbn. intros [<-|H].
        * split; [unfold fd; clear; lia|]. right. left. split; [apply Gd|exists [], false; auto].
        * destruct (I2 f H) as (J1 & J2). split; [clear - J1; lia|]. destruct J2 as [J2|(j & q & J2 & J3)]; [left; auto|].
          destruct (Nat.eq_dec j i) as [->|Ne]; [destruct J3 as (_ & d & c & J3), Gd as (Gd & _); congruence|right; right; exists j, q; auto].
      + split; [apply Z.le_refl|]. split; [apply incl_refl|]. split.
        * intros f n d O. apply (sealed_frame s s1 gs i g1 K F). apply V3. exact O.
        * intros f d cl O. cbn in O. inv O. cbn [s_files s1 s_temp]. rewrite app_length. split; [unfold fd; cbn; clear; lia|]. split; [left; auto|].
          unfold file_at, s1. cbn [s_files]. rewrite app_nth2 by (unfold fd; apply le_n). unfold fd. rewrite Nat.sub_diag. cbn. auto.
      + apply W. split; [exact V1|]. split; [exact V2|]. right. cbn. exists fd. auto.
      + apply (sim_same s); auto. apply stored_keep; auto. intros n f H. apply Fa. apply (I1 n f H).
    - apply Q. split; auto.
    - (* Write *)
      destruct Gd as (data & cl & O). destruct (V4 fd data cl O) as (W1 & W2 & W3 & W4).
      set (f1 := mkFile _ _). set (g1 := mkGhost (s_clock s) (s_log s) (g_open (gs i)) (Some (fd, data ++ b, false)) (g_ans (gs i))).
      assert (owns (gs i) fd) as Ow by (exists data, cl; auto).
      assert (keeps s (set_file s fd f1) (gs i)) as K by (apply keeps_set; auto).
      assert (fresh_own s (gs i) g1) as F. { intros fd' (d & c' & O'). cbn in O'. inv O'. auto. }
      apply (settle_inv s _ gs i g1 _ _ t); auto.
      + intros n f H. apply (sealed_assoc s _ gs i g1 K F). apply (I1 n f H).
      + intros f H. destruct (I2 f H) as (J1 & J2). cbn. rewrite set_nth_length. split; [exact J1|]. apply held_kept; auto.
        intros (d & c' & O'). rewrite O in O'. injection O' as <- _ _. eexists _, _. reflexivity.
      + split; [apply Z.le_refl|]. split; [apply incl_refl|]. split.
        * intros f n d O'. apply (sealed_frame s _ gs i g1 K F). apply V3. exact O'.
        * intros f d c' O'. cbn in O'. inv O'. cbn [s_files set_file s_temp]. rewrite set_nth_length. split; auto. split; auto.
          rewrite file_at_set, Nat.eqb_refl by auto. cbn. rewrite app_assoc. split; auto. discriminate.
      + apply W. split; [exact V1|]. split; [exact V2|]. right. exists data, cl. auto.
      + apply (sim_same s); auto. apply stored_keep; auto. intros n f H. apply K; destruct (I1 n f H) as (S1 & S2 & S3 & S4); auto.
    - apply Q. split; auto.
    - (* Close *)
      destruct Gd as (data & cl & O). destruct (V4 fd data cl O) as (W1 & W2 & W3 & W4).
      set (f1 := mkFile _ _). set (g1 := mkGhost (s_clock s) (s_log s) (g_open (gs i)) (Some (fd, data, true)) (g_ans (gs i))).
      assert (owns (gs i) fd) as Ow by (exists data, cl; auto).
      assert (keeps s (set_file s fd f1) (gs i)) as K by (apply keeps_set; auto).
      assert (fresh_own s (gs i) g1) as F. { intros fd' (d & c' & O'). cbn in O'. inv O'. auto. }
      apply (settle_inv s _ gs i g1 _ _ t); auto.
      + intros n f H. apply (sealed_assoc s _ gs i g1 K F). apply (I1 n f H).
      + intros f H. destruct (I2 f H) as (J1 & J2). cbn. rewrite set_nth_length. split; [exact J1|]. apply held_kept; auto.
        intros (d & c' & O'). rewrite O in O'. injection O' as <- _ _. eexists _, _. reflexivity.
      + split; [apply Z.le_refl|]. split; [apply incl_refl|]. split.
        * intros f n d O'. apply (sealed_frame s _ gs i g1 K F). apply V3. exact O'.
        * intros f d c' O'. cbn in O'. inv O'. cbn [s_files set_file s_temp]. rewrite set_nth_length. split; auto. split; auto.
          rewrite file_at_set, Nat.eqb_refl by auto. cbn. rewrite app_nil_r. auto.
      + apply W. split; [exact V1|]. split; [exact V2|]. right. exists data, cl. auto.
      + apply (sim_same s); auto. apply stored_keep; auto. intros n f H. apply K; destruct (I1 n f H) as (S1 & S2 & S3 & S4); auto.
    - (* Rename *)
      destruct Gd as (data & url & a & O & Eo & Ff & An). destruct (V4 fd data true O) as (W1 & W2 & W3 & W4).
      pose proof (file_of_path sha1 digest T url a (name, data) Ff) as Pk. cbn [fst] in Pk. rewrite Pk. cbn [negb].
      assert (existsb (is_fd fd) (s_temp s) = true) as ->. { apply existsb_exists. exists fd. split; auto. apply Nat.eqb_refl. }
      cbn [negb]. destruct (negb replaces && dhas text_eqb name (s_assocs s)) eqn:B.
      + apply Q. right. split; auto. split; auto. apply andb_true_iff in B as (B & _). destruct replaces; [discriminate B|auto].
      + set (s1 := set_assocs _ _ _). set (g1 := mkGhost (s_clock s) (s_log s) (g_open (gs i)) None (Some Done)).
        assert (owns (gs i) fd) as Ow by (exists data, true; auto).
        assert (keeps s s1 (gs i)) as K.
        { split; [apply Z.le_refl|]. split; [apply le_n|]. split; [|apply incl_refl]. intros f L N. split; auto. intros H. cbn. apply filter_In. split; auto.
          unfold is_fd. destruct (Nat.eqb fd f) eqn:Q'; auto. apply Nat.eqb_eq in Q'. subst. contradiction. }
        assert (fresh_own s (gs i) g1) as F. { intros fd' (d & c' & O'). discriminate. }
        assert (content (file_at s fd) = data) as Cd by (rewrite (W4 eq_refl), app_nil_r in W3; auto).
        pose proof Ff as (_ & _ & T1 & T2 & Nm & Rd). cbn [fst snd] in Nm, Rd.
        apply (settle_inv s s1 gs i g1 _ _ t); auto.
        * destruct I6 as (L1 & L2 & L3). split; auto. split; auto. cbn. apply (NoDup_dset text_eqb text_eqb_eq). auto.
        * intros n f H. cbn in H. apply dset_In in H as [H|H]; [|apply (sealed_assoc s _ gs i g1 K F); auto]. injection H as -> ->.
          split; auto. split; auto. split; [|intros j Oj].
          -- exists url, a. split; [|change (file_at s1 fd) with (file_at s fd); rewrite Cd; exact Ff]. exists i, t. rewrite <- Eo. exact R3.
          -- unfold upd in Oj. destruct (Nat.eqb j i) eqn:Ej; [destruct Oj as (? & ? & Oj); discriminate|]. apply Nat.eqb_neq in Ej. apply (I5 i j fd); auto.
        * intros f H. cbn in H. apply filter_In in H as (H & Nf). destruct (I2 f H) as (J1 & J2). split; [exact J1|]. apply held_kept; auto.
          intros (d & c' & O'). rewrite O in O'. injection O' as <- _ _. unfold is_fd in Nf. rewrite Nat.eqb_refl in Nf. discriminate.
        * split; [apply Z.le_refl|]. split; [apply incl_refl|]. split; [|discriminate]. intros f n d O'. apply (sealed_frame s _ gs i g1 K F). apply V3. exact O'.
        * apply W. split; [exact V1|]. split; [exact V2|]. right. left. auto.
        * rewrite An in Ci. cbn [g_ans g1]. rewrite Eo in *. apply (sim_act s); auto. intros A (L1 & L2 & L3 & L4 & L5). eexists. split; [reflexivity|].
          split; auto. split; auto. split; auto. split; auto. cbn. apply (put_stored s s1 (a_reg A) url (a_handle a) name (Some a)); auto.
          intros n. unfold stored, s1. cbn [s_assocs set_assocs]. rewrite (dget_dset text_eqb text_eqb_eq). destruct (text_eqb n name); auto.
          change (file_at _ fd) with (file_at s fd). rewrite Cd, Rd. auto.
    - (* UnlinkTemp *)
      destruct Gd as (data & cl & O). destruct (V4 fd data cl O) as (W1 & W2 & W3 & W4).
      assert (existsb (is_fd fd) (s_temp s) = true) as ->. { apply existsb_exists. exists fd. split; auto. apply Nat.eqb_refl. }
      set (s1 := set_assocs _ _ _). set (g1 := mkGhost (s_clock s) (s_log s) (g_open (gs i)) None (g_ans (gs i))).
      assert (keeps s s1 (gs i)) as K.
      { split; [apply Z.le_refl|]. split; [apply le_n|]. split; [|apply incl_refl]. intros f L N. split; auto. intros H. cbn. apply filter_In. split; auto.
        unfold is_fd. destruct (Nat.eqb fd f) eqn:Q'; auto. apply Nat.eqb_eq in Q'. subst f. destruct N. exists data, cl. auto. }
      assert (fresh_own s (gs i) g1) as F. { intros fd' (d & c' & O'). discriminate. }
      apply (settle_inv s s1 gs i g1 _ _ t); auto.
      + intros n f H. apply (sealed_assoc s _ gs i g1 K F). apply (I1 n f H).
      + intros f H. cbn in H. apply filter_In in H as (H & Nf). destruct (I2 f H) as (J1 & J2). split; [exact J1|]. apply held_kept; auto.
        intros (d & c' & O'). rewrite O in O'. injection O' as <- _ _. unfold is_fd in Nf. rewrite Nat.eqb_refl in Nf. discriminate.
      + split; [apply Z.le_refl|]. split; [apply incl_refl|]. split; [|discriminate]. intros f n d O'. apply (sealed_frame s _ gs i g1 K F). apply V3. exact O'.
      + apply W. split; [exact V1|]. split; [exact V2|]. right. cbn. auto.
    - (* Unlink *)
      destruct w; cbn in Gd.
      + destruct Gd as (Pk & Gd). rewrite Pk. cbn [negb].
        set (g1 := fun r => mkGhost (s_clock s) (s_log s) (g_open (gs i)) (g_own (gs i)) (if acts (p_op p) (gs i) name then Some (Flag (is_ok r)) else g_ans (gs i))).
        assert (acts (p_op p) (gs i) name = true -> exists url h, p_op p = RemoveA url h /\ free (RemoveA url h) = false /\ g_ans (gs i) = None /\ In url T /\ In h T /\ getAssociationFilename sha1 url h = Ok name) as Act.
        { unfold acts. destruct (p_op p) as [url a|url oh|url h|url ts salt| |] eqn:Eo; try discriminate. destruct (g_ans (gs i)); [discriminate|].
          intros X. apply andb_true_iff in X as (X1 & X2). apply negb_true_iff in X1. destruct (targets_key _ _ Fo X2) as (url1 & h1 & Q1 & U1 & H1 & N1). cbn in Q1. inv Q1.
          exists url1, h1. auto 6. }
        destruct (dhas text_eqb name (s_assocs s)) eqn:Dh.
        * set (s1 := set_assocs _ _ _).
          assert (keeps s s1 (gs i)) as K by (split; [apply Z.le_refl|]; split; [apply le_n|]; split; [auto|apply incl_refl]).
          assert (fresh_own s (gs i) (g1 ROk)) as F by (apply fresh_same; auto).
          pose proof I6 as (L1 & L2 & L3). pose proof (stored_ddel s name (s_temp s) L3) as Sd. fold s1 in Sd.
          apply (settle_inv s s1 gs i (g1 ROk) _ _ t); auto.
          -- split; auto. split; auto. cbn. apply (NoDup_ddel text_eqb). auto.
          -- intros n f H. cbn in H. apply ddel_In in H. apply (sealed_assoc s _ gs i (g1 ROk) K F); auto.
          -- intros f H. destruct (I2 f H) as (J1 & J2). split; [exact J1|]. apply held_kept; auto.
          -- split; [apply Z.le_refl|]. split; [apply incl_refl|]. split; [|exact V4]. intros f n d O'. apply (sealed_frame s _ gs i (g1 ROk) K F). apply V3. exact O'.
          -- apply W. split; [exact V1|]. split; [exact V2|]. right. cbn. auto.
          -- cbn [g_ans g1 is_ok]. destruct (acts (p_op p) (gs i) name) eqn:Ac.
             ++ destruct (Act eq_refl) as (url & h & Eo & Fr & An & U & H & N). rewrite An in Ci. rewrite Eo in *. apply (sim_act s); auto.
                intros A (M1 & M2 & M3 & M4 & M5). eexists. unfold effect. rewrite Fr, (M4 url h name) by auto.
                assert (exists a, stored s name = Some a) as (a & ->).
                { unfold stored. unfold dhas in Dh. destruct (dget text_eqb name (s_assocs s)) as [fd|] eqn:D; [|discriminate].
                  apply (dget_In text_eqb text_eqb_eq) in D. destruct (I1 name fd D) as (_ & _ & (url' & a' & _ & Ff) & _). pose proof Ff as (_ & _ & _ & _ & _ & Rd).
                  cbn in Rd. rewrite Rd. eauto. }
                split; [reflexivity|]. split; auto. split; auto. split; auto. split; auto. cbn. apply (put_stored s s1 (a_reg A) url h name None); auto.
             ++ apply (sim_ext _ (calls_of s gs)); [intros j; rewrite calls_here; auto|]. destruct replaces eqn:Er; [|intros R; congruence].
                destruct Gd as [Gd|[(url & a & data & (i' & t' & Rc) & Ff & X)|[(url & Eo & N & An)|Gd]]]; [discriminate| | |discriminate].
                ** apply (sim_other s); auto. intros A (M1 & M2 & M3 & M4 & M5). eexists. split.
                   { apply (a_drop A url a i' t'); [rewrite M2; auto|]. rewrite M1. eapply expired_mono; eauto. }
                   pose proof Ff as (_ & _ & T1 & T2 & Nm & _). cbn in Nm.
                   split; auto. split; auto. split; auto. split; auto. cbn. apply (put_stored s s1 (a_reg A) url (a_handle a) name None); auto.
                ** apply (sim_other s); auto. intros A (M1 & M2 & M3 & M4 & M5). eexists. split.
                   { apply (a_wipe A i url). rewrite M3, Ci. congruence. }
                   rewrite Eo in Fo. destruct Fo as (_ & Inc).
                   split; auto. split; auto. split; auto. split; auto. cbn. apply (put_stored s s1 (a_reg A) url [] name None); auto; apply Inc; cbn; auto.
        * unfold dhas in Dh. destruct (dget text_eqb name (s_assocs s)) as [fd|] eqn:D; [discriminate|].
          apply (quiet_inv s gs i (g1 (RErr ENOENT)) _ _ t); auto; [apply Z.le_refl|apply incl_refl| |].
          -- apply W. split; [exact V1|]. split; [exact V2|]. right. cbn. auto.
          -- cbn [g_ans g1 is_ok]. destruct (acts (p_op p) (gs i) name) eqn:Ac; [|auto].
             destruct (Act eq_refl) as (url & h & Eo & Fr & An & U & H & N). rewrite An in Ci. rewrite Eo in *. apply (sim_act s); auto.
             intros A (M1 & M2 & M3 & M4 & M5). eexists. unfold effect. rewrite Fr, (M4 url h name) by auto.
             assert (stored s name = None) as -> by (unfold stored; rewrite D; auto).
             split; [reflexivity|]. split; auto. split; auto. split; auto. split; auto. cbn. apply (put_stored s s (a_reg A) url h name None); auto. apply stored_absent; auto.
      + destruct Gd as (Pk & Eo & ts & Nt & Old). rewrite Pk. cbn [negb]. destruct (mem_text name (s_nonces s)) eqn:Mt; [|apply Q; split; auto].
        apply mem_text_In in Mt. set (s1 := set_nonces s _).
        assert (keeps s s1 (gs i)) as K by (split; [apply Z.le_refl|]; split; [apply le_n|]; split; [auto|apply incl_refl]).
        assert (fresh_own s (gs i) g') as F by (apply fresh_same; auto).
        apply (settle_inv s s1 gs i g' _ _ t); auto.
        * destruct I6 as (L1 & L2 & L3). split; auto. split; auto. apply Forall_forall. intros n H. cbn in H. apply filter_In in H as (H & _). rewrite Forall_forall in L2. apply (L2 n H).
        * intros n f H. apply (sealed_assoc s _ gs i g' K F); auto.
        * intros f H. destruct (I2 f H) as (J1 & J2). split; [exact J1|]. apply held_kept; auto.
        * split; [apply Z.le_refl|]. split; [apply incl_refl|]. split; [|exact V4]. intros f n d O'. apply (sealed_frame s _ gs i g' K F). apply V3. exact O'.
        * apply W. split; [exact V1|]. split; [exact V2|]. right. cbn. auto.
        * cbn [g_ans g']. apply (sim_ext _ (calls_of s gs)); [intros j; rewrite calls_here; auto|]. apply (sim_other s); auto. intros A (M1 & M2 & M3 & M4 & M5).
          destruct (proj1 (M5 name) Mt) as (url & ts0 & salt & No & Us). pose proof (nonce_of_ts sha1 digest T _ _ _ _ No) as Nt'. rewrite Nt in Nt'. injection Nt' as <-.
          eexists. split. { apply (a_forget A url ts salt i (g_ans (gs i))); [rewrite M3, Ci; congruence|]. rewrite M1. clear - Old V1. lia. }
          split; auto. split; auto. split; auto. split; auto. intros n. cbn. rewrite filter_In. unfold not_name. rewrite negb_true_iff, text_eqb_neq, M5. unfold mark. split.
          -- intros ((url' & ts' & salt' & No' & Us') & Ne). exists url', ts', salt'. split; auto.
             destruct (text_eqb url' url && (ts' =? ts) && text_eqb salt' salt) eqn:Eq; auto. exfalso. apply Ne. rewrite !andb_true_iff, !text_eqb_eq, Z.eqb_eq in Eq. destruct Eq as [[-> ->] ->].
             destruct No as (_ & _ & _ & _ & _ & No), No' as (_ & _ & _ & _ & _ & No'). congruence.
          -- intros (url' & ts' & salt' & No' & Us'). destruct (text_eqb url' url && (ts' =? ts) && text_eqb salt' salt) eqn:Eq; [discriminate|]. split; [eauto|].
             intros ->. destruct (nonce_of_inj sha1 digest T distinct _ _ _ _ _ _ _ No No') as (-> & -> & ->).
             rewrite !(proj2 (text_eqb_eq _ _) eq_refl), Z.eqb_refl in Eq. discriminate.
    - apply Q. exists (p_names p). split; auto.
    - (* OpenR *)
      cbn in Gd. rewrite Gd. cbn [negb]. pose proof (open_sim s gs i p name I Hp Fo) as Os. unfold stored in Os.
      destruct (dget text_eqb name (s_assocs s)) as [fd|] eqn:D.
      + apply (dget_In text_eqb text_eqb_eq) in D. destruct (I1 name fd D) as (S1 & _ & (url & a & Rc & Ff) & S4). pose proof Ff as (_ & _ & _ & _ & _ & Rd). cbn in Rd. rewrite Rd in Os.
        apply (quiet_inv s gs i (mkGhost (s_clock s) (s_log s) (Some (fd, name, content (file_at s fd))) (g_own (gs i)) (ans_open (p_op p) (gs i) name (Some a))) _ _ t); auto; [|apply Z.le_refl|apply incl_refl|].
        * right. exists fd, name, (content (file_at s fd)). auto.
        * apply W. split; [exact V1|]. split; [exact V2|]. right. left. exists fd, (content (file_at s fd)), url, a. auto 8.
      + apply (quiet_inv s gs i (mkGhost (s_clock s) (s_log s) (g_open (gs i)) (g_own (gs i)) (ans_open (p_op p) (gs i) name None)) _ _ t); auto; [apply Z.le_refl|apply incl_refl|].
        apply W. split; [exact V1|]. split; [exact V2|]. right. right. auto.
    - (* ReadAll *)
      destruct Gd as (name & data & O). destruct (V3 fd name data O) as (S1 & S2 & S3 & S4). destruct (R1 fd eq_refl) as (rest & R). cbn in E. apply Nat.leb_le in E.
      assert (rest = []) as -> by (rewrite R, app_length in E; destruct rest; auto; cbn in E; exfalso; clear - E; lia).
      rewrite app_nil_r in R. rewrite R in S2. apply Q. exists name, data. split; auto. split; auto. congruence.
    - (* Create *)
      destruct Gd as (An & url & ts & salt & Eo & No & Le).
      pose proof No as (N1 & N2 & N3 & _ & _ & N4). destruct (nname_ok sha1 digest url ts salt N1 N2 N3) as (name' & N5 & Pk & Nt). assert (name' = name) as -> by congruence.
      rewrite Pk. cbn [negb]. set (g1 := fun b => mkGhost (s_clock s) (s_log s) (g_open (gs i)) (g_own (gs i)) (Some (Flag b))). rewrite An in Ci.
      destruct (mem_text name (s_nonces s)) eqn:Mt.
      + apply mem_text_In in Mt. apply (quiet_inv s gs i (g1 false) _ _ t); auto; [apply Z.le_refl|apply incl_refl| |].
        * apply W. split; [exact V1|]. split; [exact V2|]. right. cbn. auto.
        * cbn [g_ans g1]. rewrite Eo in *. apply (sim_act s); auto. intros A (M1 & M2 & M3 & M4 & M5).
          destruct (proj1 (M5 name) Mt) as (url' & ts' & salt' & No' & Us). destruct (nonce_of_inj sha1 digest T distinct _ _ _ _ _ _ _ No No') as (<- & <- & <-).
          eexists. unfold effect. cbn [free]. rewrite Us. split; [reflexivity|]. split; auto. split; auto. split; auto. split; auto. intros n. cbn. rewrite M5.
          unfold mark. split; intros (url' & ts' & salt' & X & Y); exists url', ts', salt'; (split; [exact X|]); destruct (text_eqb url' url && (ts' =? ts) && text_eqb salt' salt) eqn:Eq; auto.
          rewrite !andb_true_iff, !text_eqb_eq, Z.eqb_eq in Eq. destruct Eq as [[-> ->] ->]. auto.
      + set (s1 := set_nonces s _).
        assert (keeps s s1 (gs i)) as K by (split; [apply Z.le_refl|]; split; [apply le_n|]; split; [auto|apply incl_refl]).
        assert (fresh_own s (gs i) (g1 true)) as F by (apply fresh_same; auto).
        apply (settle_inv s s1 gs i (g1 true) _ _ t); auto.
        * destruct I6 as (L1 & L2 & L3). split; auto. split; auto. cbn. constructor; auto. split; auto. exists ts. split; auto. clear - Le V1. lia.
        * intros n f H. apply (sealed_assoc s _ gs i (g1 true) K F); auto.
        * intros f H. destruct (I2 f H) as (J1 & J2). split; [exact J1|]. apply held_kept; auto.
        * split; [apply Z.le_refl|]. split; [apply incl_refl|]. split; [|exact V4]. intros f n d O'. apply (sealed_frame s _ gs i (g1 true) K F). apply V3. exact O'.
        * apply W. split; [exact V1|]. split; [exact V2|]. right. cbn. auto.
        * cbn [g_ans g1]. rewrite Eo in *. apply (sim_act s); auto. intros A (M1 & M2 & M3 & M4 & M5).
          assert (a_used A url ts salt = false) as Us.
          { destruct (a_used A url ts salt) eqn:Us; auto. exfalso. apply mem_text_false in Mt. apply Mt. apply M5. exists url, ts, salt. auto. }
          eexists. unfold effect. cbn [free]. rewrite Us. split; [reflexivity|]. split; auto. split; auto. split; auto. split; auto. intros n. cbn. rewrite M5.
          unfold mark. split.
          -- intros [<-|(url' & ts' & salt' & X & Y)].
             ++ exists url, ts, salt. split; auto. rewrite !(proj2 (text_eqb_eq _ _) eq_refl), Z.eqb_refl. auto.
             ++ exists url', ts', salt'. split; auto. destruct (text_eqb url' url && (ts' =? ts) && text_eqb salt' salt); auto.
          -- intros (url' & ts' & salt' & X & Y). destruct (text_eqb url' url && (ts' =? ts) && text_eqb salt' salt) eqn:Eq; [|right; eauto].
             rewrite !andb_true_iff, !text_eqb_eq, Z.eqb_eq in Eq. destruct Eq as [[-> ->] ->]. left. destruct X as (_ & _ & _ & _ & _ & X). congruence.
    - apply Q. split; auto.
  Qed.
  (** *** Any step *)
  Definition started (s : sys) (l : label) : Prop :=
    match l with
    | Start i o => s_procs s i = None -> fop T o
    | Fail i => forall p c k, s_procs s i = Some p -> p_prog p = Call c k -> faulty c
    | Crash _ => leaky
    | _ => True
    end.
  Lemma same_inv s s1 gs : sys_inv s gs -> s_clock s <= s_clock s1 -> s_files s1 = s_files s -> s_assocs s1 = s_assocs s -> s_temp s1 = s_temp s -> s_nonces s1 = s_nonces s ->
    s_log s1 = s_log s -> (forall i p, s_procs s i = Some p -> leaky \/ exists q, s_procs s1 i = Some q /\ p_op q = p_op p) ->
    (forall i p, s_procs s1 i = Some p -> run_inv s1 (gs i) i p) -> sim s1 (calls_of s1 gs) -> sys_inv s1 gs.
  Proof using.
    intros (I1 & I2 & I3 & I4 & I5 & I6 & I7) C F A Te Nn L Ps P Sm.
    assert (forall fd, file_at s1 fd = file_at s fd) as Fa by (intros fd; unfold file_at; rewrite F; auto).
    assert (forall fd name data, sealed s gs fd name data -> sealed s1 gs fd name data) as Se by (intros fd name data; unfold sealed; rewrite F, Fa, L; auto).
    split; [rewrite A; intros name fd H; rewrite Fa; auto|]. split.
    { rewrite Te, F. intros fd Hf. destruct (I2 fd Hf) as (J1 & J2). split; auto. destruct J2 as [J2|(j & q & J2 & J3)]; [left; auto|].
      destruct (Ps j q J2) as [J4|(q' & J4 & J5)]; [left; auto|right; exists j, q'; rewrite J5; auto]. }
    split; [|split; [|split; [|split]]]; auto.
    - intros i. destruct (I3 i) as (V1 & V2 & V3 & V4). split; [eapply Z.le_trans; eauto|]. split; [rewrite L; auto|]. split; [auto|].
      intros fd data cl O. rewrite Fa, F, Te. auto.
    - destruct I6 as (L1 & L2 & L3). unfold rest_inv. rewrite L, Nn, A. split; auto. split; auto. eapply Forall_impl; [|exact L2]. intros n. apply ngood_mono. auto.
  Qed.
  (** Bytes or names arrive. *)
  Lemma arrive_inv s gs i p q : sys_inv s gs -> s_procs s i = Some p -> p_op q = p_op p -> (run_inv s (gs i) i q) -> sys_inv (set_proc s i (Some q)) gs.
  Proof using.
    intros I Hp Eo R. pose proof I as (I1 & I2 & I3 & I4 & I5 & I6 & I7).
    apply (same_inv s); auto; [apply Z.le_refl| | |].
    - intros j x Hx. cbn. right. destruct (Nat.eqb j i) eqn:Ej; [|eauto]. apply Nat.eqb_eq in Ej. subst j. exists q. split; [auto|congruence].
    - intros j x. cbn. destruct (Nat.eqb j i) eqn:Ej; [|intros Hx; apply (I4 j x Hx)]. apply Nat.eqb_eq in Ej. subst j. intros Q. injection Q as <-. exact R.
    - apply (sim_same s); auto. apply (sim_ext _ (calls_of s gs)); auto. intros j. unfold calls_of. cbn. destruct (Nat.eqb j i) eqn:Ej; auto.
      apply Nat.eqb_eq in Ej. subst j. rewrite Hp. congruence.
  Qed.
  Lemma exec_inv s gs l : sys_inv s gs -> started s l -> exists gs', sys_inv (exec sha1 replaces s l) gs'.
  Proof using programs post_own digest distinct.
    intros I O. pose proof I as (I1 & I2 & I3 & I4 & I5 & I6 & I7). destruct l as [i o|i|i n|i n|i name|i|i|d]; cbn [exec].
    - destruct (s_procs s i) as [p|] eqn:Hp; [eauto|]. pose proof (O Hp) as Fo. set (s1 := note s _). set (g1 := mkGhost (s_clock s) (s_log s1) None None None).
      assert (incl (s_log s) (s_log s1)) as In1 by (intros e H; right; auto).
      assert (keeps s s1 (gs i)) as K by (split; [apply Z.le_refl|]; split; [apply le_n|]; split; auto).
      assert (fresh_own s (gs i) g1) as F by (intros fd (d & c & Q); discriminate).
      apply (settle_inv s s1 gs i g1 o _ (s_clock s)); auto.
      + destruct I6 as (L & Ln & Ld). split; auto. cbn. apply log_cons; auto. discriminate.
      + intros n f H. apply (sealed_assoc s _ gs i g1 K F). apply (I1 n f H).
      + intros f H. destruct (I2 f H) as (J1 & J2). split; [exact J1|]. destruct J2 as [J2|(j & q & J2 & J3)]; [left; auto|].
        right. right. exists j, q. split; auto. congruence.
      + split; [apply Z.le_refl|]. split; [apply incl_refl|]. split; discriminate.
      + left. auto.
      + apply (programs o (s_clock s) i); auto. left. auto.
      + intros R. destruct (I7 R) as (A & S1 & L1 & L2 & L3 & L4 & L5). eexists. split.
        * eapply as_step; [exact S1|]. apply (a_begin A i o). rewrite L3. unfold calls_of. rewrite Hp. auto.
        * split; auto. split; [cbn; congruence|]. split; [|split; auto]. intros j. cbn. unfold set_call. destruct (Nat.eqb j i); auto.
    - destruct (s_procs s i) as [p|] eqn:Hp; [|eauto]. destruct (p_prog p) as [|x|c k] eqn:Ep; eauto. destruct (at_end s p c) eqn:E; [|eauto].
      eapply step_inv; eauto.
    - destruct (s_procs s i) as [p|] eqn:Hp; [|eauto]. destruct (p_prog p) as [|x|[| | | | | | | | | | |fd| |] k] eqn:Ep; eauto.
      exists gs. apply (arrive_inv s gs i p); auto. destruct (I4 i p Hp) as (R0 & R1 & R2 & R3). unfold pending in R1, R2. rewrite Ep in R1, R2, R3.
      split; [exact R0|]. split; [|split]; unfold pending; cbn [p_prog p_bytes p_names p_op]; auto. intros fd' Q. injection Q as <-. destruct (R1 fd eq_refl) as (rest & R).
      rewrite R. rewrite skipn_app, skipn_all, Nat.sub_diag. cbn [app skipn].
      exists (skipn n rest). rewrite <- app_assoc, firstn_skipn. auto.
    - (* Flush *)
      destruct (s_procs s i) as [p|] eqn:Hp; [|eauto].
      assert (forall fd, owns (gs i) fd -> exists gs', sys_inv
        (set_file s fd (mkFile (content (file_at s fd) ++ firstn n (buffer (file_at s fd))) (skipn n (buffer (file_at s fd))))) gs') as Fl.
      { intros fd Ow. pose proof Ow as (data & cl & Og). destruct (I3 i) as (V1 & V2 & V3 & V4). destruct (V4 fd data cl Og) as (W1 & W2 & W3 & W4).
        set (f1 := mkFile _ _). exists gs. pose proof (keeps_set s fd f1 (gs i) Ow) as K.
        assert (forall fd', unowned gs fd' -> (fd' < length (s_files s))%nat -> file_at (set_file s fd f1) fd' = file_at s fd') as Fa.
        { intros fd' U L. destruct K as (_ & _ & K & _). apply (K fd' L (U i)). }
        assert (forall fd' name data, sealed s gs fd' name data -> sealed (set_file s fd f1) gs fd' name data) as Se.
        { intros fd' name d (S1 & S2 & S3 & S4). split; [cbn; rewrite set_nth_length; auto|]. rewrite Fa by auto. auto. }
        split; [intros nm f H; pose proof (I1 nm f H) as Sl; pose proof Sl as (S1 & _ & _ & S4); rewrite Fa by auto; apply Se, Sl|].
        split; [intros f H; cbn; rewrite set_nth_length; apply (I2 f H)|].
        split; [|split; [|split; [|split]]]; auto.
        - intros j. destruct (I3 j) as (X1 & X2 & X3 & X4). split; auto. split; auto. split; [auto|]. intros fd' d c Hd. destruct (X4 fd' d c Hd) as (Y1 & Y2 & Y3 & Y4).
          split; [cbn; rewrite set_nth_length; auto|]. split; auto. rewrite file_at_set by auto. destruct (Nat.eqb fd' fd) eqn:E; auto.
          apply Nat.eqb_eq in E. subst fd'. cbn. rewrite <- app_assoc, firstn_skipn. split; auto. intros Hc. rewrite (Y4 Hc). destruct n; auto.
        - intros j q Hq. change (s_procs s j = Some q) in Hq. destruct (Nat.eq_dec j i) as [->|Ne].
          + assert (q = p) as -> by congruence. destruct (I4 i p Hp) as (R0 & R1 & R2 & t & R3 & R4). split; [exact R0|]. split; [|split; [auto|exists t; auto]].
            intros fd' Hr. destruct (R1 fd' Hr) as (rest & R). exists rest. rewrite file_at_set by auto. destruct (Nat.eqb fd' fd) eqn:E; auto.
            apply Nat.eqb_eq in E. subst fd'. exfalso. unfold pending in Hr. destruct (p_prog p) as [|x|c k]; try discriminate. injection Hr as ->.
            destruct R4 as ((nm & d & Rg) & _). destruct (V3 fd nm d Rg) as (_ & _ & _ & U). apply (U i Ow).
          + apply (run_frame s (set_file s fd f1) gs i K j q Ne (I3 j) (I4 j q Hq)).
        - apply (sim_same s); auto. apply stored_keep; auto. intros nm f H. pose proof (I1 nm f H) as (S1 & _ & _ & S4). apply Fa; auto. }
      destruct (I4 i p Hp) as (R0 & R1 & R2 & t & R3 & R4). destruct (p_prog p) as [|x|[| | | |fd|fd| | | | | | | |] k] eqn:Ep; eauto; apply Fl; apply R4.
    - destruct (s_procs s i) as [p|] eqn:Hp; [|eauto]. destruct (p_prog p) as [|x|[| | | | | | | | |w| | | |] k] eqn:Ep; eauto.
      destruct (mem_text name (names_of s w)) eqn:M; [|eauto].
      exists gs. apply (arrive_inv s gs i p); auto. destruct (I4 i p Hp) as (R0 & R1 & R2 & R3). unfold pending in R1, R2. rewrite Ep in R1, R2, R3.
      split; [exact R0|]. split; [|split]; unfold pending; cbn [p_prog p_bytes p_names p_op]; auto. intros w' Q. injection Q as <-.
      apply Forall_app. split; auto. constructor; auto. apply mem_text_In in M. destruct w; cbn in M |- *.
      + apply in_map_iff in M as ([n' fd] & <- & M). cbn. destruct (I1 n' fd M) as (_ & _ & S & _). eauto.
      + destruct I6 as (_ & Ln & _). rewrite Forall_forall in Ln. auto.
    - destruct (s_procs s i) as [p|] eqn:Hp; [|eauto]. destruct (p_prog p) as [|x|c k] eqn:Ep; eauto.
      destruct (I4 i p Hp) as (R0 & R1 & R2 & t & R3 & R4). rewrite Ep in R4. destruct R4 as (Gd & W). destruct (I3 i) as (V1 & V2 & _).
      apply (quiet_inv s gs i (gs i) _ _ t); auto; [intros q Hq; congruence| |].
      + apply W. split; [apply Z.le_refl|]. split; [apply incl_refl|]. left. split; [apply (O p c k); auto|]. repeat split.
      + apply (sim_ext _ (calls_of s gs)); auto. intros j. rewrite (calls_here s gs i p Hp). auto.
    - exists gs. apply (same_inv s); auto; [apply Z.le_refl| |].
      + intros j q. cbn. destruct (Nat.eqb j i); [discriminate|]. apply I4.
      + intros R. destruct (I7 R) as (A & S1 & L1 & L2 & L3 & L4 & L5). eexists. split; [eapply as_step; [exact S1|]; apply (a_crash A i)|].
        split; auto. split; auto. split; [|split; auto]. intros j. cbn. unfold set_call, calls_of. cbn. destruct (Nat.eqb j i); auto. apply L3.
    - exists gs. apply (same_inv s); auto; [cbn; clear; lia|eauto| |].
      + intros j q Hq. destruct (I4 j q Hq) as (R0 & R1 & R2 & R3). split; auto. split; auto. split; auto. intros w Hw. eapply Forall_impl; [|apply (R2 w Hw)].
        intros n. apply listed_mono; [apply incl_refl|cbn; clear; lia].
      + intros R. destruct (I7 R) as (A & S1 & L1 & L2 & L3 & L4 & L5). eexists. split; [eapply as_step; [exact S1|]; apply (a_tick A d)|].
        split; [cbn; congruence|]. split; auto.
  Qed.
  Lemma init_inv : sys_inv (sys_init now0) (fun _ => mkGhost now0 [] None None None).
  Proof using.
    split; [intros ? ? []|]. split; [intros ? []|]. split; [|split; [|split; [|split]]].
    - intros i. split; [apply Z.le_refl|]. split; [apply incl_refl|]. split; discriminate.
    - discriminate.
    - intros i j fd _ (d & c & O). discriminate.
    - split; [|split; constructor]. intros l2 i t o r l1 E. destruct l2; discriminate.
    - intros R. exists (a_init now0). split; [constructor|]. split; auto. split; auto. split; auto. split; auto.
      intros name. split; [intros []|]. intros (url & ts & salt & _ & H). discriminate.
  Qed.
End System.
