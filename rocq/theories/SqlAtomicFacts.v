(** The SQL stores used by several processes at the same time (SqlConc.v) and the machine of
    FileAtomic.v in which every call has its effect at one moment. *)
From Coq Require Import Lia ZifyBool ZifyN ZifyNat Permutation.
From Verif Require Import Py PyFacts Utf8 Utf8Facts Association AssociationFacts Prop_Association Nonce Store StoreSpec StoreFacts FileStore FileSys FileAtomic.
From Verif Require Import Prop_StoreMem Prop_StoreSql SqlTxn Prop_SqlTxn SqlConc Prop_SqlConc.
Import Py Store SqlTxn SqlConc.
Open Scope Z_scope.
Local Arguments u : simpl never.

(** ** What a run looks like from outside *)
(** A call that raised an error of the database. *)
Definition told (a : ans) : out := match a with Out o => o | DbError _ => Err OSError end.
Definition ended (i : nat) (s s' : sys) : list event :=
  match s_answers s' with
  | (o, a) :: _ => if Nat.eqb (length (s_answers s')) (S (length (s_answers s))) then [Ended i (s_clock s) o (told a)] else []
  | [] => []
  end.
Definition events (d : dialect) (procs : list nat) (s : sys) (l : label) : list event :=
  let s' := step d procs s l in
  match l with
  | Call i _ => match s_proc s i, s_proc s' i with Idle, Start o => [Began i (s_clock s) o] | _, _ => [] end
  | Step i | Fail i _ | Lose i _ => ended i s s'
  | Crash _ | Tick _ => []
  end.
(** The calls and the answers, newest first. *)
Fixpoint trace (d : dialect) (procs : list nat) (s : sys) (ls : list label) (log : list event) : list event :=
  match ls with
  | [] => log
  | l :: r => trace d procs (step d procs s l) r (events d procs s l ++ log)
  end.

(** What can be sent to the database. *)
Definition sent_op (o : op) : Prop :=
  match o with
  | StoreA url a => sendable url /\ sendable (a_handle a) /\ known_type (a_type a)
  | GetA url h => sendable url /\ forall x, h = Some x -> sendable x
  | RemoveA url h => sendable url /\ sendable h
  | UseN url ts salt => sendable url /\ sendable salt
  | CleanN | CleanA => True
  end.
(** A failure that is not mistaken for a duplicate key. *)
Definition other (d : dialect) (why : text) : Prop := d_reads d = true -> not_unique why = false.
(** Calls that can be sent; failures are not mistaken; and no commit is reported as failed after
    it has been carried out. *)
Definition label_ok (d : dialect) (l : label) : Prop :=
  match l with
  | Call _ o => sent_op o
  | Fail _ why => other d why
  | Lose _ _ => False
  | _ => True
  end.

Section Atomic.
  Variable d : dialect.
  Variable procs : list nat.
  Hypothesis replace : d_replace d = true.
  Hypothesis whole_pk : forall x y, d_pk d x = d_pk d y -> x = y.
  Hypothesis refusing : refuses d.

  Definition dbe (e : err) : Prop := exists why, e = Operational why /\ other d why.
  Definition doomed (log : list event) (t : Z) (bu bh : bytes) : Prop :=
    exists url a i t', encode url = Ok bu /\ encode (a_handle a) = Ok bh /\ In (Began i t' (StoreA url a)) log /\ expired a t = true.
  Definition doomed_w (log : list event) (t : Z) (w : write) : Prop :=
    match w with DelA l => forall r, In r l -> doomed log t (r_url r) (r_handle r) | _ => False end.
  (** The rest of a lookup that has read its rows. *)
  Fixpoint rest_ok (log : list event) (t : Z) (good : out -> Prop) (p : prog out) : Prop :=
    match p with
    | Ret a => good a
    | Throw e => dbe e \/ good (Err TypeError) /\ e = Python TypeError
    | Exec (Remove_assoc bu bh) k => doomed log t bu bh /\ forall r, (forall e, r = inl e -> dbe e) -> rest_ok log t good (k r)
    | Exec _ _ => False
    end.
  Definition run_ok (c : option (op * option out)) (log : list event) (t : Z) (db : sql) (o : op) (p : prog out) (w : list write) : Prop :=
    (w = [] /\ c = Some (o, None) /\ exists t', t' <= t /\ p = prog_of d t' o /\ (forall url ts salt, o = UseN url ts salt -> skewed ts t' = false)) \/
    (exists ans e, c = Some (o, ans) /\ settled o ans = false /\ p = Throw e /\ dbe e) \/
    match o with
    | StoreA url a => exists r, row_of url a r /\ p = Ret Done /\ w = [PutA r] /\ c = Some (o, None)
    | GetA url h =>
        Forall (doomed_w log t) w /\
        exists ans, c = Some (o, ans) /\ (free o = true -> ans = None) /\ rest_ok log t (fun r => if free o then True else ans = Some r) p
    | RemoveA url h =>
        (exists r, In r (q_assocs db) /\ encode url = Ok (r_url r) /\ encode h = Ok (r_handle r) /\ p = Ret (Flag true) /\ w = [DelA [r]] /\ c = Some (o, None)) \/
        (w = [DelA []] /\ exists ans, c = Some (o, ans) /\ p = Ret (Flag false) /\ if free o then ans = None else ans = Some (Flag false))
    | UseN url ts salt =>
        (exists bu bs, encode url = Ok bu /\ encode salt = Ok bs /\ ~ In (bu, ts, bs) (q_nonces db) /\ p = Ret (Flag true) /\ w = [AddN (bu, ts, bs)] /\ c = Some (o, None)) \/
        (w = [] /\ c = Some (o, Some (Flag false)) /\ (p = Ret (Flag false) \/ exists why, p = Throw (Operational why) /\ d_reads d = true /\ not_unique why = true))
    | CleanN => exists l n, p = Ret (Count n) /\ w = [DelN l] /\ c = Some (o, None) /\ forall x, In x l -> snd (fst x) + 18000 < t
    | CleanA => exists l n, p = Ret (Count n) /\ w = [DelA l] /\ c = Some (o, None) /\ forall r, In r l -> doomed log t (r_url r) (r_handle r)
    end.
  Definition proc_rel (c : option (op * option out)) (log : list event) (t : Z) (db : sql) (p : proc) : Prop :=
    match p with
    | Idle => c = None
    | Start o => sent_op o /\ (exists j t', In (Began j t' o) log) /\ c = Some (o, None)
    | Run o q w => sent_op o /\ (exists j t', In (Began j t' o) log) /\ run_ok c log t db o q w
    end.
  Definition db_rel (db : sql) (A : amach) : Prop :=
    NoDup (map rkey (q_assocs db)) /\
    (forall r, In r (q_assocs db) -> exists url a, row_of url a r /\ a_reg A url (a_handle a) = Some a) /\
    (forall url h a, a_reg A url h = Some a ->
       a_handle a = h /\ (exists i t, In (Began i t (StoreA url a)) (a_log A)) /\ exists r, In r (q_assocs db) /\ row_of url a r) /\
    (forall url ts salt bu bs, encode url = Ok bu -> encode salt = Ok bs -> In (bu, ts, bs) (q_nonces db) -> a_used A url ts salt = true) /\
    (forall url ts salt, a_used A url ts salt = true -> exists bu bs, encode url = Ok bu /\ encode salt = Ok bs /\ In (bu, ts, bs) (q_nonces db)).
  Definition held (p : proc) : list key := flat_map (locks d) (pending p).
  Definition sim (s : sys) (A : amach) : Prop :=
    a_clock A = s_clock s /\ db_rel (s_db s) A /\
    (forall i, proc_rel (a_call A i) (a_log A) (s_clock s) (s_db s) (s_proc s i)) /\
    (forall i j k, i <> j -> In k (held (s_proc s i)) -> ~ In k (held (s_proc s j))) /\
    (forall i, s_proc s i <> Idle -> In i procs).

  (** ** Monotony *)
  Lemma doomed_later log log' t t' bu bh : incl log log' -> t <= t' -> doomed log t bu bh -> doomed log' t' bu bh.
  Proof using.
    clear. intros I L (url & a & i & t0 & E1 & E2 & H & X). exists url, a, i, t0. repeat split; auto. rewrite expired_spec in *. lia.
  Qed.
  Lemma rest_later log log' t t' good p : incl log log' -> t <= t' -> rest_ok log t good p -> rest_ok log' t' good p.
  Proof using.
    intros I L. induction p as [a|e|st k IH]; cbn [rest_ok]; auto. destruct st; auto. intros (H1 & H2). split; [eapply doomed_later; eauto|]. intros r Hr. apply IH, H2, Hr.
  Qed.
  Lemma run_later c log log' t t' db db' o p w : incl log log' -> t <= t' ->
    (forall r, In (akey d r) (flat_map (locks d) w) -> In r (q_assocs db) -> In r (q_assocs db')) ->
    (forall n, In (nkey d n) (flat_map (locks d) w) -> In n (q_nonces db') -> In n (q_nonces db)) ->
    run_ok c log t db o p w -> run_ok c log' t' db' o p w.
  Proof using.
    intros I L KA KN [(W & C & t0 & T & P)|[H|H]].
    - left. split; auto. split; auto. exists t0. split; [clear - T L; lia|exact P].
    - right. left. exact H.
    - right. right. destruct o as [url a|url h|url h|url ts salt| |]; auto.
      + destruct H as (H & ans & C & F & Q). split; [|exists ans; split; [exact C|split; [exact F|eapply rest_later; eauto]]].
        eapply Forall_impl; [|exact H]. intros x. destruct x; cbn; auto. intros Hx r Hr. eapply doomed_later; eauto.
      + destruct H as [(r & R & E1 & E2 & P & W & C)|H]; [left|right; exact H]. exists r. repeat split; auto. apply KA; auto. subst w. left. reflexivity.
      + destruct H as [(bu & bs & E1 & E2 & N & P & W & C)|H]; [left|right; exact H]. exists bu, bs. repeat split; auto. intros Hn. apply N. apply KN; auto. subst w. left. reflexivity.
      + destruct H as (l & n & P & W & C & Q). exists l, n. repeat split; auto. intros x Hx. specialize (Q x Hx). clear - Q L. lia.
      + destruct H as (l & n & P & W & C & Q). exists l, n. repeat split; auto. intros r Hr. eapply doomed_later; eauto.
  Qed.
  Lemma proc_later c log log' t t' db db' p : incl log log' -> t <= t' ->
    (forall r, In (akey d r) (held p) -> In r (q_assocs db) -> In r (q_assocs db')) ->
    (forall n, In (nkey d n) (held p) -> In n (q_nonces db') -> In n (q_nonces db)) ->
    proc_rel c log t db p -> proc_rel c log' t' db' p.
  Proof using.
    intros I L KA KN. destruct p as [|o|o p w]; auto; intros (S & (j & t0 & B) & H); (split; [auto|]; split; [exists j, t0; auto|]); auto. eapply run_later; eauto.
  Qed.
  (** One process and the tables change. *)
  Lemma sim_mk s A i p A' db answers lost : sim s A -> a_clock A' = s_clock s -> incl (a_log A) (a_log A') ->
    (forall j, j <> i -> a_call A' j = a_call A j) ->
    proc_rel (a_call A' i) (a_log A') (s_clock s) db p -> db_rel db A' ->
    (forall k, In k (held p) -> In k (held (s_proc s i)) \/ locked d procs s i k = false) ->
    (forall r, In r (q_assocs (s_db s)) -> In r (q_assocs db) \/ In (akey d r) (held (s_proc s i))) ->
    (forall n, In n (q_nonces db) -> In n (q_nonces (s_db s)) \/ In (nkey d n) (held (s_proc s i))) ->
    (p <> Idle -> In i procs) ->
    sim (mkSys (s_clock s) db (set_proc (s_proc s) i p) answers lost) A'.
  Proof using.
    intros (C0 & D0 & P0 & L0 & I0) C1 I1 Oth Pi Db Lk Ra Rn Ip.
    assert (forall k, locked d procs s i k = false -> forall j, j <> i -> ~ In k (held (s_proc s j))) as Free.
    { intros k F j N H. unfold locked in F. assert (existsb (fun j => negb (Nat.eqb j i) && existsb (key_eqb k) (flat_map (locks d) (pending (s_proc s j)))) procs = true); [|congruence].
      apply existsb_exists. exists j. split; [apply I0; intros E; rewrite E in H; destruct H|]. apply andb_true_iff. split; [apply negb_true_iff, Nat.eqb_neq; auto|].
      apply existsb_exists. exists k. split; [exact H|apply key_eqb_refl]. }
    split; [exact C1|]. split; [exact Db|]. cbn [s_clock s_db s_proc]. split; [|split].
    - intros j. destruct (Nat.eq_dec j i) as [->|N]; [rewrite set_same; exact Pi|rewrite set_other, Oth by auto].
      eapply proc_later; [exact I1|apply Z.le_refl| | |apply P0].
      + intros r Hr Hin. destruct (Ra r Hin) as [?|Hk]; auto. destruct (L0 j i _ N Hr Hk).
      + intros n Hn Hin. destruct (Rn n Hin) as [?|Hk]; auto. destruct (L0 j i _ N Hn Hk).
    - intros j j' k N. destruct (Nat.eq_dec j i) as [->|Nj].
      + rewrite set_same, set_other by auto. intros H. destruct (Lk k H) as [H'|H']; [apply (L0 i j' k); auto|apply Free; auto].
      + rewrite set_other by auto. destruct (Nat.eq_dec j' i) as [->|Nj'].
        * rewrite set_same. intros H H2. destruct (Lk k H2) as [H'|H']; [apply (L0 j i k N H H')|apply (Free k H' j Nj H)].
        * rewrite set_other by auto. apply L0; auto.
    - intros j. destruct (Nat.eq_dec j i) as [->|N]; [rewrite set_same; auto|rewrite set_other; auto].
  Qed.

  (** ** Tables *)
  Lemma akey_rkey x r : key_eqb (akey d x) (akey d r) = true <-> rkey x = rkey r.
  Proof using whole_pk.
    rewrite key_eqb_eq. unfold akey, rkey. split; intros H; injection H as H1 H2; [apply whole_pk in H1|]; congruence.
  Qed.
  Lemma nkey_eq n m : nkey d n = nkey d m <-> n = m.
  Proof using whole_pk.
    destruct n as [[u1 t1] s1], m as [[u2 t2] s2]. unfold nkey. cbn. split; intros H; injection H as H1 H2 H3; [apply whole_pk in H1|]; congruence.
  Qed.
  Lemma put_eq reg url h v url' h' : put reg url h v url' h' = if text_eqb url' url && text_eqb h' h then v else reg url' h'.
  Proof using. reflexivity. Qed.
  Definition with_reg (A : amach) reg := mkA (a_clock A) reg (a_used A) (a_call A) (a_log A).
  Definition with_used (A : amach) used := mkA (a_clock A) (a_reg A) used (a_call A) (a_log A).
  Lemma del_rel db A url h bu bh (p : arow -> bool) : db_rel db A -> encode url = Ok bu -> encode h = Ok bh ->
    (forall x, In x (q_assocs db) -> p x = false <-> rkey x = (bu, bh)) ->
    db_rel (mkSql (filter p (q_assocs db)) (q_nonces db)) (with_reg A (put (a_reg A) url h None)).
  Proof using.
    intros (D1 & D2 & D3 & D4 & D5) Eu Eh Hp. split; [apply NoDup_map_filter; auto|]. split; [|split; [|split]]; auto.
    - intros r Hr. apply filter_In in Hr as (Hr & Pr). destruct (D2 r Hr) as (url' & a & R & G). exists url', a. split; auto. cbn [with_reg a_reg]. rewrite put_eq.
      destruct (text_eqb url' url && text_eqb (a_handle a) h) eqn:Q; auto. exfalso. rewrite andb_true_iff, !text_eqb_eq in Q. destruct Q as (-> & Q).
      destruct R as (R1 & R2 & _). assert (p r = false); [|congruence]. apply Hp; auto. unfold rkey. congruence.
    - intros url' h' a. cbn [with_reg a_reg a_log]. rewrite put_eq. destruct (text_eqb url' url && text_eqb h' h) eqn:Q; [discriminate|]. intros G.
      destruct (D3 _ _ _ G) as (G1 & G2 & r & G3 & R). split; auto. split; auto. exists r. split; auto. apply filter_In. split; auto. destruct (p r) eqn:Pr; auto. exfalso.
      apply Hp in Pr; auto. destruct R as (R1 & R2 & _). unfold rkey in Pr. injection Pr as Q1 Q2. rewrite Q1 in R1. rewrite Q2 in R2.
      rewrite (encode_inj _ _ _ R1 Eu), <- G1, (encode_inj _ _ _ R2 Eh), !text_eqb_refl in Q. discriminate.
  Qed.
  Lemma put_rel db A url a r i t : db_rel db A -> row_of url a r -> In (Began i t (StoreA url a)) (a_log A) ->
    db_rel (apply d db [PutA r]) (with_reg A (put (a_reg A) url (a_handle a) (Some a))).
  Proof using whole_pk.
    intros (D1 & D2 & D3 & D4 & D5) R Lg. cbn [apply fold_left apply1].
    assert (forall x, negb (key_eqb (akey d x) (akey d r)) = false <-> rkey x = rkey r) as Hk by (intros x; rewrite negb_false_iff; apply akey_rkey).
    pose proof R as (R1 & R2 & _). split; [|split; [|split; [|split]]]; auto; cbn [q_assocs].
    - rewrite map_app. apply NoDup_app_snoc; [apply NoDup_map_filter; auto|]. intros H. apply in_map_iff in H as (y & E & H). apply filter_In in H as (_ & H).
      apply Hk in E. congruence.
    - intros x Hx. apply in_app_iff in Hx as [Hx|[<-|[]]].
      + apply filter_In in Hx as (Hx & Nx). destruct (D2 x Hx) as (url' & a' & Rx & G). exists url', a'. split; auto. cbn [with_reg a_reg]. rewrite put_eq.
        destruct (text_eqb url' url && text_eqb (a_handle a') (a_handle a)) eqn:Q; auto. exfalso. rewrite andb_true_iff, !text_eqb_eq in Q. destruct Q as (-> & Q).
        destruct Rx as (Rx1 & Rx2 & _). rewrite Q in Rx2. assert (rkey x = rkey r) as K by (unfold rkey; congruence). apply Hk in K. congruence.
      + exists url, a. split; auto. cbn [with_reg a_reg]. rewrite put_eq, !text_eqb_refl. reflexivity.
    - intros url' h' a'. cbn [with_reg a_reg a_log]. rewrite put_eq. destruct (text_eqb url' url && text_eqb h' (a_handle a)) eqn:Q.
      + intros E. injection E as <-. rewrite andb_true_iff, !text_eqb_eq in Q. destruct Q as (-> & ->). split; auto. split; [eauto|]. exists r. split; auto. apply in_app_iff. right. left. auto.
      + intros G. destruct (D3 _ _ _ G) as (G1 & G2 & x & G3 & Rx). split; auto. split; auto. exists x. split; auto. apply in_app_iff. left. apply filter_In. split; auto.
        destruct (negb _) eqn:Nx; auto. exfalso. apply Hk in Nx. unfold rkey in Nx. injection Nx as N1 N2. destruct Rx as (Rx1 & Rx2 & _). rewrite N1 in Rx1. rewrite N2 in Rx2.
        rewrite (encode_inj _ _ _ Rx1 R1), <- G1, (encode_inj _ _ _ Rx2 R2), !text_eqb_refl in Q. discriminate.
  Qed.
  (** The machine moves to a state that differs in what is stored only. *)
  Definition quietly (A A' : amach) : Prop :=
    asteps A A' /\ a_clock A' = a_clock A /\ a_call A' = a_call A /\ a_log A' = a_log A.
  Lemma asteps_trans A B C : asteps A B -> asteps B C -> asteps A C.
  Proof using. clear. intros H1 H2. induction H2 as [|A0 B C S IH St]; auto. apply (as_step A B C); auto. Qed.
  Lemma asteps_one A B : astep A B -> asteps A B.
  Proof using. clear. intros H. econstructor; [constructor|exact H]. Qed.
  Lemma quietly_refl A : quietly A A.
  Proof using. clear. split; [constructor|auto]. Qed.
  Lemma quietly_trans A B C : quietly A B -> quietly B C -> quietly A C.
  Proof using. clear. intros (H1 & H2 & H3 & H4) (K1 & K2 & K3 & K4). split; [eapply asteps_trans; eauto|]. repeat split; congruence. Qed.
  Lemma drop_rel db : forall l A, db_rel db A -> (forall r, In r l -> doomed (a_log A) (a_clock A) (r_url r) (r_handle r)) ->
    exists A', quietly A A' /\ db_rel (apply1 d db (DelA l)) A'.
  Proof using whole_pk.
    intros l. revert db. induction l as [|r l IH]; intros db A Db Dm.
    - exists A. split; [apply quietly_refl|]. cbn [apply1]. destruct db as [qa qn]. cbn [q_assocs q_nonces existsb negb]. replace (filter _ qa) with qa; auto. clear. induction qa as [|x l IH]; [reflexivity|]. cbn [filter]. f_equal. exact IH.
    - destruct (Dm r (or_introl eq_refl)) as (url & a & i & t & Eu & Eh & Lg & Ex).
      set (A1 := with_reg A (put (a_reg A) url (a_handle a) None)).
      assert (quietly A A1) as S1 by (split; [apply asteps_one; apply (a_drop A url a i t Lg Ex)|auto]).
      set (p := fun x => negb (key_eqb (akey d x) (akey d r))).
      assert (db_rel (mkSql (filter p (q_assocs db)) (q_nonces db)) A1) as D1.
      { apply del_rel with (bu := r_url r) (bh := r_handle r); auto. intros x _. unfold p. rewrite negb_false_iff. apply akey_rkey. }
      destruct (IH _ A1 D1) as (A2 & S2 & D2).
      { intros x Hx. apply Dm. right. auto. }
      exists A2. split; [eapply quietly_trans; eauto|]. cbn [apply1 q_assocs q_nonces] in *. rewrite filter_filter in D2.
      replace (filter (fun x => negb (existsb (fun r0 => key_eqb (akey d x) (akey d r0)) (r :: l))) (q_assocs db)) with (filter (fun x => p x && negb (existsb (fun r0 => key_eqb (akey d x) (akey d r0)) l)) (q_assocs db)); auto.
      apply filter_ext. intros x. cbn [existsb]. rewrite negb_orb. reflexivity.
  Qed.
  Lemma drops_rel : forall ws db A, db_rel db A -> Forall (doomed_w (a_log A) (a_clock A)) ws ->
    exists A', quietly A A' /\ db_rel (apply d db ws) A'.
  Proof using whole_pk.
    induction ws as [|w ws IH]; intros db A Db Dm; [exists A; split; [apply quietly_refl|exact Db]|]. inv Dm. destruct w as [n|l|r|l]; try contradiction.
    destruct (drop_rel db l A Db H1) as (A1 & S1 & D1). destruct (IH _ A1 D1) as (A2 & S2 & D2).
    { destruct S1 as (_ & E1 & _ & E2). rewrite E1, E2. exact H2. }
    exists A2. split; [eapply quietly_trans; eauto|exact D2].
  Qed.
  Lemma mark_eq used url ts salt b url' ts' salt' : mark used url ts salt b url' ts' salt' = if text_eqb url' url && (ts' =? ts) && text_eqb salt' salt then b else used url' ts' salt'.
  Proof using. reflexivity. Qed.
  Lemma add_rel db A url ts salt bu bs : db_rel db A -> encode url = Ok bu -> encode salt = Ok bs ->
    db_rel (apply d db [AddN (bu, ts, bs)]) (with_used A (mark (a_used A) url ts salt true)).
  Proof using.
    intros (D1 & D2 & D3 & D4 & D5) Eu Es. split; [|split; [|split; [|split]]]; auto; cbn [apply fold_left apply1 q_nonces with_used a_used].
    - intros url' ts' salt' bu' bs' E1 E2 H. rewrite mark_eq. destruct (_ && _) eqn:Q; auto. apply in_app_iff in H as [H|[H|[]]]; [eapply D4; eauto|]. exfalso. injection H as <- <- <-.
      rewrite (encode_inj _ _ _ E1 Eu), (encode_inj _ _ _ E2 Es), !text_eqb_refl, Z.eqb_refl in Q. discriminate.
    - intros url' ts' salt'. rewrite mark_eq. destruct (_ && _) eqn:Q.
      + rewrite !andb_true_iff, !text_eqb_eq, Z.eqb_eq in Q. destruct Q as ((-> & ->) & ->). intros _. exists bu, bs. repeat split; auto. apply in_app_iff. right. left. auto.
      + intros H. destruct (D5 _ _ _ H) as (bu' & bs' & E1 & E2 & H'). exists bu', bs'. repeat split; auto. apply in_app_iff. auto.
  Qed.
  Lemma forget_rel i ans : forall l db A, db_rel db A -> a_call A i = Some (CleanN, ans) -> (forall x, In x l -> snd (fst x) + 18000 < a_clock A) ->
    exists A', quietly A A' /\ db_rel (apply1 d db (DelN l)) A'.
  Proof using.
    induction l as [|[[bu ts] bs] l IH]; intros db A Db C Old.
    - exists A. split; [apply quietly_refl|]. cbn [apply1]. destruct db as [qa qn]. cbn [q_assocs q_nonces existsb negb]. replace (filter _ qn) with qn; auto. clear. induction qn as [|x l IH]; [reflexivity|]. cbn [filter]. f_equal. exact IH.
    - set (p := fun x => negb (nrow_eqb x (bu, ts, bs))).
      assert (exists A1, quietly A A1 /\ db_rel (mkSql (q_assocs db) (filter p (q_nonces db))) A1) as (A1 & S1 & D1).
      { assert (forall x, p x = false <-> x = (bu, ts, bs)) as Hp by (intros x; unfold p; rewrite negb_false_iff; apply nrow_eqb_eq).
        destruct Db as (D1 & D2 & D3 & D4 & D5).
        destruct (decode bu) as [url|e] eqn:Eu; [destruct (decode bs) as [salt|e] eqn:Es|].
        - pose proof (encode_decode _ _ Eu) as Eu'. pose proof (encode_decode _ _ Es) as Es'.
          exists (with_used A (mark (a_used A) url ts salt false)). split; [split; [apply asteps_one; eapply a_forget; eauto; apply (Old _ (or_introl eq_refl))|auto]|].
          split; [|split; [|split; [|split]]]; auto; cbn [q_nonces with_used a_used].
          + intros url' ts' salt' bu2 bs2 E1 E2 H. apply filter_In in H as (H & Np). rewrite mark_eq. destruct (_ && _) eqn:Q; [|eapply D4; eauto]. exfalso.
            rewrite !andb_true_iff, !text_eqb_eq, Z.eqb_eq in Q. destruct Q as ((-> & ->) & ->). assert ((bu2, ts, bs2) = (bu, ts, bs)) as X by congruence. apply Hp in X. congruence.
          + intros url' ts' salt'. rewrite mark_eq. destruct (_ && _) eqn:Q; [discriminate|]. intros H. destruct (D5 _ _ _ H) as (bu2 & bs2 & E1 & E2 & H'). exists bu2, bs2. repeat split; auto.
            apply filter_In. split; auto. destruct (p _) eqn:P; auto. exfalso. apply Hp in P. injection P as -> -> ->. apply decode_encode in E1, E2.
            rewrite E1 in Eu. rewrite E2 in Es. injection Eu as ->. injection Es as ->. rewrite !text_eqb_refl, Z.eqb_refl in Q. discriminate.
        - exists A. split; [apply quietly_refl|]. split; [|split; [|split; [|split]]]; auto; cbn [q_nonces].
          + intros url' ts' salt' bu2 bs2 E1 E2 H. apply filter_In in H as (H & _). eapply D4; eauto.
          + intros url' ts' salt' H. destruct (D5 _ _ _ H) as (bu2 & bs2 & E1 & E2 & H'). exists bu2, bs2. repeat split; auto. apply filter_In. split; auto.
            destruct (p _) eqn:P; auto. exfalso. apply Hp in P. injection P as -> -> ->. apply decode_encode in E1, E2. congruence.
        - exists A. split; [apply quietly_refl|]. split; [|split; [|split; [|split]]]; auto; cbn [q_nonces].
          + intros url' ts' salt' bu2 bs2 E1 E2 H. apply filter_In in H as (H & _). eapply D4; eauto.
          + intros url' ts' salt' H. destruct (D5 _ _ _ H) as (bu2 & bs2 & E1 & E2 & H'). exists bu2, bs2. repeat split; auto. apply filter_In. split; auto.
            destruct (p _) eqn:P; auto. exfalso. apply Hp in P. injection P as -> -> ->. apply decode_encode in E1, E2. congruence. }
      pose proof S1 as (_ & T1 & T2 & _). destruct (IH _ A1 D1) as (A2 & S2 & D2).
      { rewrite T2. exact C. }
      { intros x Hx. rewrite T1. apply Old. right. auto. }
      exists A2. split; [eapply quietly_trans; eauto|]. cbn [apply1 q_assocs q_nonces] in *. rewrite filter_filter in D2.
      replace (filter (fun x => negb (existsb (nrow_eqb x) ((bu, ts, bs) :: l))) (q_nonces db)) with (filter (fun x => p x && negb (existsb (nrow_eqb x) l)) (q_nonces db)); auto.
      apply filter_ext. intros x. cbn [existsb]. rewrite negb_orb. reflexivity.
  Qed.

  (** ** Programs *)
  Definition k_of {A} (f : reply -> prog A) (r : err + reply) : prog A := match r with inl e => Throw e | inr v => f v end.
  Definition get_k (now : Z) (url : text) (x : err + reply) : prog out :=
    pbind (k_of (fun r => match fst r with
                          | [] => Ret None
                          | rows => pbind (p_rows now url [] rows) (fun l =>
                                    match sorted_last l with Ok a => Ret a | Raise x => Throw (Python x) end)
                          end) x) (fun a => Ret (Got a)).
  Lemma init_prog o t : sent_op o -> (forall url ts salt, o = UseN url ts salt -> skewed ts t = false) ->
    match o with
    | StoreA url a => exists r, row_of url a r /\ prog_of d t o = Exec (Replace_assoc r) (fun x => pbind (k_of (fun _ => Ret tt) x) (fun _ => Ret Done))
    | GetA url (Some h) => exists bu bh, encode url = Ok bu /\ encode h = Ok bh /\
        prog_of d t o = Exec (Get_assoc bu bh) (get_k t url)
    | GetA url None => exists bu, encode url = Ok bu /\ prog_of d t o = Exec (Get_assocs bu) (get_k t url)
    | RemoveA url h => exists bu bh, encode url = Ok bu /\ encode h = Ok bh /\
        prog_of d t o = Exec (Remove_assoc bu bh) (fun x => pbind (k_of (fun r => Ret (0 <? Z.of_nat (snd r))) x) (fun b => Ret (Flag b)))
    | UseN url ts salt => exists bu bs, encode url = Ok bu /\ encode salt = Ok bs /\ prog_of d t o = Exec (Add_nonce (bu, ts, bs)) use_k
    | CleanN => prog_of d t o = Exec (Clean_nonce (t - SKEW)) (fun x => pbind (k_of (fun r => Ret (snd r)) x) (fun n => Ret (Count n)))
    | CleanA => prog_of d t o = Exec (Clean_assoc t) (fun x => pbind (k_of (fun r => Ret (snd r)) x) (fun n => Ret (Count n)))
    end.
  Proof using replace.
    intros S W. destruct o as [url a|url [h|]|url h|url ts salt| |]; cbn [prog_of sent_op] in *.
    - destruct S as ((bu & Eu) & (bh & Eh) & K). assert (exists bt, encode (a_type a) = Ok bt) as (bt & Et) by (destruct K as [->| ->]; eexists; vm_compute; reflexivity).
      exists (mkRow bu bh (a_secret a) (a_issued a) (a_lifetime a) bt). split; [repeat split; auto|]. unfold p_storeAssociation, p_set_assoc. rewrite replace. unfold enc. rewrite Eu, Eh, Et. reflexivity.
    - destruct S as ((bu & Eu) & Sh). destruct (Sh h eq_refl) as (bh & Eh). exists bu, bh. repeat split; auto. unfold p_getAssociation, enc. rewrite Eu, Eh. reflexivity.
    - destruct S as ((bu & Eu) & _). exists bu. split; auto. unfold p_getAssociation, enc. rewrite Eu. reflexivity.
    - destruct S as ((bu & Eu) & bh & Eh). exists bu, bh. repeat split; auto. unfold p_removeAssociation, enc. rewrite Eu, Eh. reflexivity.
    - destruct S as ((bu & Eu) & bs & Es). exists bu, bs. repeat split; auto. unfold p_useNonce, enc. rewrite (W _ _ _ eq_refl), Eu, Es. reflexivity.
    - reflexivity.
    - reflexivity.
  Qed.
  (** Going through rows: expired ones are removed. *)
  Lemma rows_rest log t good now url (f : list assoc -> prog out) : now <= t -> forall rows acc,
    (forall r, In r rows -> exists a i t', row_of url a r /\ In (Began i t' (StoreA url a)) log) ->
    (forall l, rest_ok log t good (f l)) ->
    rest_ok log t good (pbind (p_rows now url acc rows) f).
  Proof using.
    intros L. induction rows as [|r rows IH]; intros acc Hr Hf; [cbn; auto|]. cbn [p_rows].
    destruct (Hr r (or_introl eq_refl)) as (a & i & t' & R & Lg). rewrite (row_assoc_of _ _ _ R). destruct (expired a now) eqn:E.
    - pose proof R as (R1 & R2 & _). unfold p_removeAssociation, enc, ex. rewrite R1, R2. cbn [pbind rest_ok]. split.
      + exists url, a, i, t'. repeat split; auto. rewrite expired_spec in *. clear - E L. lia.
      + intros [e|v] Hx; cbn [pbind rest_ok]; [left; apply Hx; auto|]. apply IH; auto. intros x Hi. apply Hr. right. auto.
    - apply IH; auto. intros x Hi. apply Hr. right. auto.
  Qed.
  Lemma pbind_pbind_rest {A B} log t good (p : prog A) (f : A -> prog B) (g : B -> prog out) :
    rest_ok log t good (pbind p (fun a => pbind (f a) g)) -> rest_ok log t good (pbind (pbind p f) g).
  Proof using.
    clear. induction p as [a|e|st k IH]; cbn [pbind rest_ok]; auto. destruct st; auto. intros (H1 & H2). split; auto.
  Qed.
  Lemma get_rest log t (good : out -> Prop) now url rows n : now <= t ->
    (forall r, In r rows -> exists a i t', row_of url a r /\ In (Began i t' (StoreA url a)) log) ->
    (forall x, good x) -> rest_ok log t good (get_k now url (inr (rows, n))).
  Proof using.
    intros L Hr G. unfold get_k, k_of. cbn [fst]. destruct rows as [|r rows]; [cbn; apply G|]. apply pbind_pbind_rest, rows_rest; auto.
    intros l. unfold sorted_last. destruct (ties l); cbn; auto.
  Qed.
  Lemma get_rest_one log t (good : out -> Prop) now url a r n i t' : now <= t -> row_of url a r -> In (Began i t' (StoreA url a)) log ->
    good (Got (if expired a now then None else Some a)) -> rest_ok log t good (get_k now url (inr ([r], n))).
  Proof using.
    intros L R Lg G. unfold get_k, k_of. cbn [fst]. apply pbind_pbind_rest. cbn [p_rows]. rewrite (row_assoc_of _ _ _ R). destruct (expired a now) eqn:E.
    - pose proof R as (R1 & R2 & _). unfold p_removeAssociation, enc, ex. rewrite R1, R2. cbn [pbind rest_ok]. split.
      + exists url, a, i, t'. repeat split; auto. rewrite expired_spec in *. clear - E L. lia.
      + intros [e|v] Hx; cbn [pbind rest_ok]; [left; apply Hx; auto|exact G].
    - exact G.
  Qed.
  Lemma run_call c log t db o p w : run_ok c log t db o p w -> exists ans, c = Some (o, ans) /\ settled o ans = false.
  Proof using.
    intros [(_ & C & _)|[(ans & e & C & S & _)|H]]; [exists None; split; auto; destruct o; reflexivity|exists ans; auto|].
    destruct o as [url a|url h|url h|url ts salt| |].
    - destruct H as (r & _ & _ & _ & C). exists None. auto.
    - destruct H as (_ & ans & C & _). exists ans. auto.
    - destruct H as [(r & _ & _ & _ & _ & _ & C)|(_ & ans & C & _ & F)]; [exists None; auto|]. exists ans. split; auto. destruct (free _); subst; reflexivity.
    - destruct H as [(bu & bs & _ & _ & _ & _ & _ & C)|(_ & C & _)]; eexists; split; eauto; reflexivity.
    - destruct H as (l & n & _ & _ & C & _). exists None. auto.
    - destruct H as (l & n & _ & _ & C & _). exists None. auto.
  Qed.
  Lemma set_call_same f i v : set_call f i v i = v.
  Proof using. clear. unfold set_call. rewrite Nat.eqb_refl. reflexivity. Qed.
  Lemma set_call_other f i v j : j <> i -> set_call f i v j = f j.
  Proof using. clear. intros N. unfold set_call. apply Nat.eqb_neq in N. rewrite N. reflexivity. Qed.
  Lemma ended_none i s s' : s_answers s' = s_answers s -> ended i s s' = [].
  Proof using. clear. intros E. unfold ended. rewrite E. destruct (s_answers s) as [|[o a] l]; auto. cbn [length]. replace (Nat.eqb _ _) with false; auto. symmetry. apply Nat.eqb_neq. lia. Qed.
  Lemma ended_one i s s' o a : s_answers s' = (o, a) :: s_answers s -> ended i s s' = [Ended i (s_clock s) o (told a)].
  Proof using. clear. intros E. unfold ended. rewrite E. cbn [length]. rewrite Nat.eqb_refl. reflexivity. Qed.
  Lemma told_fail o e : dbe e -> told (reported d o (inl e)) = Err OSError.
  Proof using.
    clear. intros (why & -> & O). destruct o; try reflexivity. cbn [reported]. destruct (d_reads d) eqn:R; [|reflexivity]. rewrite (O R). reflexivity.
  Qed.
  Lemma db_rel_log db A log call clock : db_rel db A -> incl (a_log A) log -> db_rel db (mkA clock (a_reg A) (a_used A) call log).
  Proof using.
    clear. intros (D1 & D2 & D3 & D4 & D5) I. split; [|split; [|split; [|split]]]; auto. intros url h a G. destruct (D3 _ _ _ G) as (G1 & (i & t & G2) & G3). split; auto. split; eauto.
  Qed.
  Lemma rel_same db A B : db_rel db A -> (forall url h, a_reg B url h = a_reg A url h) -> (forall url ts salt, a_used B url ts salt = a_used A url ts salt) -> incl (a_log A) (a_log B) -> db_rel db B.
  Proof using.
    clear. intros (D1 & D2 & D3 & D4 & D5) R U I. split; [|split; [|split; [|split]]]; auto.
    - intros r Hr. destruct (D2 r Hr) as (url & a & H1 & H2). exists url, a. rewrite R. auto.
    - intros url h a. rewrite R. intros G. destruct (D3 _ _ _ G) as (G1 & (i & t & G2) & G3). split; auto. split; eauto.
    - intros url ts salt bu bs E1 E2 H. rewrite U. eauto.
    - intros url ts salt. rewrite U. auto.
  Qed.

  (** ** Steps *)
  Lemma apply_keeps ws r : forall db, In r (q_assocs db) -> In r (q_assocs (apply d db ws)) \/ In (akey d r) (flat_map (locks d) ws).
  Proof using.
    clear. induction ws as [|w ws IH]; intros db H; [left; exact H|]. cbn [flat_map]. unfold apply. cbn [fold_left]. fold (apply d (apply1 d db w) ws).
    assert (In r (q_assocs (apply1 d db w)) \/ In (akey d r) (locks d w)) as [K|K]; [|destruct (IH _ K) as [?|?]; [left; auto|right; apply in_or_app; auto]|right; apply in_or_app; auto].
    destruct w as [n|l|x|l]; cbn [apply1 q_assocs locks]; auto.
    - destruct (key_eqb (akey d r) (akey d x)) eqn:E; [right; left; symmetry; apply key_eqb_eq; auto|left; apply in_or_app; left; apply filter_In; rewrite E; auto].
    - destruct (existsb (fun y => key_eqb (akey d r) (akey d y)) l) eqn:E; [right|left; apply filter_In; rewrite E; auto].
      apply existsb_exists in E as (y & Hy & E). apply key_eqb_eq in E. rewrite E. apply in_map. auto.
  Qed.
  Lemma apply_adds ws n : forall db, In n (q_nonces (apply d db ws)) -> In n (q_nonces db) \/ In (nkey d n) (flat_map (locks d) ws).
  Proof using.
    clear. induction ws as [|w ws IH]; intros db; [left; auto|]. cbn [flat_map]. unfold apply. cbn [fold_left]. fold (apply d (apply1 d db w) ws). intros H.
    destruct (IH _ H) as [K|K]; [|right; apply in_or_app; auto]. destruct w as [m|l|x|l]; cbn [apply1 q_nonces locks] in *; auto.
    - apply in_app_iff in K as [K|[->|[]]]; auto. right. left. reflexivity.
    - apply filter_In in K as (K & _). auto.
  Qed.
  Lemma close_sim s A i o r w db A' answers lost : sim s A -> s_proc s i = Run o r w \/ (w = [] /\ s_proc s i = Start o) -> db = apply d (s_db s) w \/ db = s_db s ->
    a_clock A' = a_clock A -> incl (a_log A) (a_log A') ->
    (forall j, a_call A' j = set_call (a_call A) i None j) -> db_rel db A' ->
    sim (mkSys (s_clock s) db (set_proc (s_proc s) i Idle) answers lost) A'.
  Proof using.
    intros S Hp Hd C L Ca D. pose proof S as (C0 & _).
    assert (held (s_proc s i) = flat_map (locks d) w) as Hh by (destruct Hp as [Hp|(-> & Hp)]; rewrite Hp; reflexivity).
    apply (sim_mk s A); auto.
    - congruence.
    - intros j N. rewrite Ca. apply set_call_other. auto.
    - rewrite Ca, set_call_same. reflexivity.
    - intros k [].
    - intros x Hx. rewrite Hh. destruct Hd as [->| ->]; auto. apply apply_keeps. auto.
    - intros n Hn. rewrite Hh. destruct Hd as [->| ->]; auto. apply apply_adds. auto.
    - congruence.
  Qed.
  Lemma fail_sim s A i o ans e p w : sim s A -> s_proc s i = Run o p w \/ (w = [] /\ s_proc s i = Start o) ->
    a_call A i = Some (o, ans) -> settled o ans = false -> dbe e ->
    exists A', asteps A A' /\ a_log A' = Ended i (s_clock s) o (told (reported d o (inl e))) :: a_log A /\ sim (finish d s i o (inl e)) A'.
  Proof using.
    intros S Hp C Se De. rewrite (told_fail o e De). pose proof S as (C0 & D0 & _).
    exists (mkA (a_clock A) (a_reg A) (a_used A) (set_call (a_call A) i None) (Ended i (a_clock A) o (Err OSError) :: a_log A)).
    split; [apply asteps_one; eapply a_fail; eauto|]. cbn [a_log]. rewrite C0. split; auto. unfold finish.
    eapply close_sim; eauto; cbn [a_clock a_log]; auto using incl_tl, incl_refl. apply db_rel_log; auto using incl_tl, incl_refl.
  Qed.
  Lemma end_sim s A i o a w A1 : sim s A -> s_proc s i = Run o (Ret a) w ->
    quietly A A1 -> db_rel (apply d (s_db s) w) A1 -> (a_call A i = Some (o, Some a) \/ a_call A i = Some (o, None) /\ free o = true) ->
    exists A', asteps A A' /\ a_log A' = Ended i (s_clock s) o (told (reported d o (inr a))) :: a_log A /\
      sim (finish d (mkSys (s_clock s) (apply d (s_db s) w) (s_proc s) (s_answers s) (s_lost s)) i o (inr a)) A'.
  Proof using.
    intros S Hp (Q1 & Q2 & Q3 & Q4) D C. replace (told (reported d o (inr a))) with a by (destruct o; reflexivity). pose proof S as (C0 & _).
    exists (mkA (a_clock A1) (a_reg A1) (a_used A1) (set_call (a_call A1) i None) (Ended i (a_clock A1) o a :: a_log A1)). split; [|split].
    - eapply asteps_trans; [exact Q1|apply asteps_one]. destruct C as [C|(C & F)]; [eapply a_end|eapply a_free]; eauto; rewrite Q3; exact C.
    - cbn [a_log]. congruence.
    - unfold finish. cbn [s_clock s_db s_proc s_answers s_lost]. eapply close_sim; eauto; cbn [a_clock a_log a_call].
      + rewrite Q4. auto using incl_tl, incl_refl.
      + rewrite Q3. auto.
      + apply db_rel_log; auto using incl_tl, incl_refl.
  Qed.
  (** A call that has its effect when it is committed. *)
  Lemma act_sim s A i o a w B : sim s A -> s_proc s i = Run o (Ret a) w -> a_call A i = Some (o, None) ->
    effect A o = Some (B, a) -> db_rel (apply d (s_db s) w) B ->
    exists A', asteps A A' /\ a_log A' = Ended i (s_clock s) o (told (reported d o (inr a))) :: a_log A /\
      sim (finish d (mkSys (s_clock s) (apply d (s_db s) w) (s_proc s) (s_answers s) (s_lost s)) i o (inr a)) A'.
  Proof using.
    intros S Hp C E D. replace (told (reported d o (inr a))) with a by (destruct o; reflexivity). pose proof S as (C0 & _).
    assert (a_clock B = a_clock A /\ a_log B = a_log A /\ a_call B = a_call A) as (Q2 & Q4 & Q3).
    { clear - E. unfold effect in E. destruct (free o); [discriminate|]. destruct o as [url x|url [h|]|url h|url ts salt| |]; inv E; auto. }
    set (A1 := mkA (a_clock B) (a_reg B) (a_used B) (set_call (a_call B) i (Some (o, Some a))) (a_log B)).
    exists (mkA (a_clock A1) (a_reg A1) (a_used A1) (set_call (a_call A1) i None) (Ended i (a_clock A1) o a :: a_log A1)). split; [|split].
    - apply (as_step A A1); [apply asteps_one; apply (a_act A i o B a C E)|]. apply a_end. cbn. apply set_call_same.
    - cbn. congruence.
    - unfold finish. cbn [s_clock s_db s_proc s_answers s_lost]. eapply close_sim; eauto; cbn [a_clock a_log a_call A1].
      + rewrite Q4. auto using incl_tl, incl_refl.
      + intros j. rewrite Q3. unfold set_call. destruct (Nat.eqb j i); auto.
      + apply db_rel_log; [exact D|auto using incl_tl, incl_refl].
  Qed.
  (** A process goes on, and the machine may have moved. *)
  Lemma go_sim s A i p A' : sim s A -> s_proc s i <> Idle -> p <> Idle -> a_clock A' = a_clock A -> a_log A' = a_log A ->
    (forall j, j <> i -> a_call A' j = a_call A j) -> db_rel (s_db s) A' ->
    proc_rel (a_call A' i) (a_log A') (s_clock s) (s_db s) p ->
    (forall k, In k (held p) -> In k (held (s_proc s i)) \/ locked d procs s i k = false) ->
    sim (go s i p) A'.
  Proof using.
    intros S N1 N2 C L Ca D P K. pose proof S as (C0 & _ & _ & _ & I0). unfold go. apply (sim_mk s A); auto; [congruence|]. rewrite L. apply incl_refl.
  Qed.

  Lemma commit_sim s A i o a w : sim s A -> s_proc s i = Run o (Ret a) w ->
    exists A', asteps A A' /\ a_log A' = Ended i (s_clock s) o (told (reported d o (inr a))) :: a_log A /\
      sim (finish d (mkSys (s_clock s) (apply d (s_db s) w) (s_proc s) (s_answers s) (s_lost s)) i o (inr a)) A'.
  Proof using replace whole_pk.
    intros S Hp. pose proof S as (C0 & D0 & P0 & _). pose proof D0 as (D1 & D2 & D3 & D4 & D5). specialize (P0 i). rewrite Hp in P0.
    destruct P0 as (So & (j & t0 & Bg) & [(_ & _ & t' & _ & P & Sk)|[(ans & e & _ & _ & P & _)|H]]); [exfalso|discriminate|].
    { pose proof (init_prog o t' So Sk) as I. rewrite <- P in I. destruct o as [url x|url [h|]|url h|url ts salt| |]; [destruct I as (? & _ & I)|destruct I as (? & ? & _ & _ & I)|destruct I as (? & _ & I)|destruct I as (? & ? & _ & _ & I)|destruct I as (? & ? & _ & _ & I)| |]; discriminate. }
    destruct o as [url x|url h|url h|url ts salt| |].
    - destruct H as (r & R & P & W & C). injection P as ->. subst w. eapply act_sim; eauto; [reflexivity|]. apply (put_rel (s_db s) A url x r j t0); auto.
    - destruct H as (W & ans & C & F & P). cbn [rest_ok] in P. rewrite <- C0 in W. destruct (drops_rel w (s_db s) A D0 W) as (A1 & Q & D). eapply end_sim; eauto.
      destruct (free (GetA url h)) eqn:Fr; [right; split; auto; rewrite C, (F eq_refl); reflexivity|left; rewrite C, P; reflexivity].
    - destruct H as [(r & Hr & Eu & Eh & P & W & C)|(W & ans & C & P & F)]; injection P as ->; subst w.
      + assert (db_rel (apply d (s_db s) [DelA [r]]) (with_reg A (put (a_reg A) url h None))) as D.
        { cbn [apply fold_left apply1]. apply del_rel with (bu := r_url r) (bh := r_handle r); auto. intros x _. cbn [existsb]. rewrite orb_false_r, negb_false_iff. apply akey_rkey. }
        destruct (D2 r Hr) as (url' & x & (R1 & R2 & _) & G). rewrite (encode_inj _ _ _ R1 Eu) in G. rewrite (encode_inj _ _ _ R2 Eh) in G. destruct h as [|c h].
        * eapply end_sim; [exact S|exact Hp| |exact D|right; split; [exact C|reflexivity]]. split; [apply asteps_one; eapply a_wipe; eauto|auto].
        * eapply act_sim; eauto. unfold effect. cbn [free]. rewrite G. reflexivity.
      + destruct (drop_rel (s_db s) [] A D0) as (A1 & Q & D); [intros r []|]. eapply end_sim; eauto. destruct (free (RemoveA url h)) eqn:Fr; [right|left]; rewrite C, F; auto.
    - destruct H as [(bu & bs & Eu & Es & N & P & W & C)|(W & C & P)]; subst w.
      + injection P as ->. eapply act_sim; eauto; [|apply add_rel; eauto]. unfold effect. cbn [free]. replace (a_used A url ts salt) with false; [reflexivity|].
        destruct (a_used A url ts salt) eqn:U; auto. exfalso. destruct (D5 _ _ _ U) as (bu' & bs' & E1 & E2 & Hin). apply N. congruence.
      + destruct P as [P|(why & P & _)]; [injection P as ->|discriminate]. eapply end_sim; eauto. apply quietly_refl.
    - destruct H as (l & n & P & W & C & Old). injection P as ->. subst w. rewrite <- C0 in Old. destruct (forget_rel i None l (s_db s) A D0 C Old) as (A1 & Q & D). eapply end_sim; eauto.
    - destruct H as (l & n & P & W & C & Dm). injection P as ->. subst w. rewrite <- C0 in Dm. destruct (drop_rel (s_db s) l A D0 Dm) as (A1 & Q & D). eapply end_sim; eauto.
  Qed.
  Lemma throw_sim s A i o e w : sim s A -> s_proc s i = Run o (Throw e) w ->
    exists A', asteps A A' /\ a_log A' = Ended i (s_clock s) o (told (reported d o (inl e))) :: a_log A /\ sim (finish d s i o (inl e)) A'.
  Proof using replace.
    intros S Hp. pose proof S as (C0 & D0 & P0 & _). specialize (P0 i). rewrite Hp in P0.
    destruct P0 as (So & (j & t0 & Bg) & [(_ & _ & t' & _ & P & Sk)|[(ans & e' & C & Se & P & De)|H]]); [exfalso| |].
    { pose proof (init_prog o t' So Sk) as I. rewrite <- P in I. destruct o as [url x|url [h|]|url h|url ts salt| |]; [destruct I as (? & _ & I)|destruct I as (? & ? & _ & _ & I)|destruct I as (? & _ & I)|destruct I as (? & ? & _ & _ & I)|destruct I as (? & ? & _ & _ & I)| |]; discriminate. }
    { injection P as ->. eapply fail_sim; eauto. }
    destruct o as [url x|url h|url h|url ts salt| |].
    - destruct H as (r & R & P & W & C). discriminate.
    - destruct H as (W & ans & C & F & P). cbn [rest_ok] in P. destruct P as [De|(G & ->)]; [eapply fail_sim; eauto|].
      assert (a_call A i = Some (GetA url h, Some (Err TypeError)) \/ a_call A i = Some (GetA url h, None) /\ free (GetA url h) = true) as Ca.
      { destruct (free (GetA url h)) eqn:Fr; [right; split; auto; rewrite C, (F eq_refl); reflexivity|left; rewrite C, G; reflexivity]. }
      exists (mkA (a_clock A) (a_reg A) (a_used A) (set_call (a_call A) i None) (Ended i (a_clock A) (GetA url h) (Err TypeError) :: a_log A)). split; [|split].
      + apply asteps_one. destruct Ca as [Ca|(Ca & Fr)]; [eapply a_end|eapply a_free]; eauto.
      + cbn. rewrite C0. reflexivity.
      + unfold finish. eapply close_sim; eauto; cbn [a_clock a_log]; auto using incl_tl, incl_refl. apply db_rel_log; auto using incl_tl, incl_refl.
    - destruct H as [(r & _ & _ & _ & P & _)|(_ & ans & _ & P & _)]; discriminate.
    - destruct H as [(bu & bs & _ & _ & _ & P & _)|(W & C & P)]; [discriminate|]. destruct P as [P|(why & P & Rd & Nu)]; [discriminate|]. injection P as ->.
      assert (told (reported d (UseN url ts salt) (inl (Operational why))) = Flag false) as -> by (cbn [reported]; rewrite Rd, Nu; reflexivity).
      exists (mkA (a_clock A) (a_reg A) (a_used A) (set_call (a_call A) i None) (Ended i (a_clock A) (UseN url ts salt) (Flag false) :: a_log A)). split; [|split].
      + apply asteps_one. eapply a_end; eauto.
      + cbn. rewrite C0. reflexivity.
      + unfold finish. eapply close_sim; eauto; cbn [a_clock a_log]; auto using incl_tl, incl_refl. apply db_rel_log; auto using incl_tl, incl_refl.
    - destruct H as (l & n & P & _). discriminate.
    - destruct H as (l & n & P & _). discriminate.
  Qed.

  Lemma get_one db A url h bu bh : db_rel db A -> encode url = Ok bu -> encode h = Ok bh ->
    match a_reg A url h with
    | None => db_get_assoc (q_assocs db) bu bh = []
    | Some a => a_handle a = h /\ (exists i t, In (Began i t (StoreA url a)) (a_log A)) /\ exists r, row_of url a r /\ In r (q_assocs db) /\ db_get_assoc (q_assocs db) bu bh = [r]
    end.
  Proof using.
    intros (D1 & D2 & D3 & _) Eu Eh.
    assert (forall x, In x (db_get_assoc (q_assocs db) bu bh) -> In x (q_assocs db) /\ rkey x = (bu, bh)) as In1.
    { intros x H. apply filter_In in H as (H & Q). rewrite andb_true_iff, !text_eqb_eq in Q. destruct Q. split; auto. unfold rkey. congruence. }
    destruct (a_reg A url h) as [a|] eqn:G.
    - destruct (D3 _ _ _ G) as (G1 & G2 & r & G3 & R). split; auto. split; auto. exists r. split; auto. split; auto. pose proof R as (R1 & R2 & _).
      assert (In r (db_get_assoc (q_assocs db) bu bh)) as Hr.
      { apply filter_In. split; auto. rewrite andb_true_iff, !text_eqb_eq. split; congruence. }
      assert (NoDup (map rkey (db_get_assoc (q_assocs db) bu bh))) as Nd by (apply NoDup_map_filter; auto).
      destruct (db_get_assoc (q_assocs db) bu bh) as [|x [|y l]]; [destruct Hr|destruct Hr as [->|[]]; auto|]. exfalso. inv Nd. apply H1. left.
      rewrite (proj2 (In1 x (or_introl eq_refl))), (proj2 (In1 y (or_intror (or_introl eq_refl)))). reflexivity.
    - destruct (db_get_assoc (q_assocs db) bu bh) as [|x l]; auto. exfalso. destruct (In1 x (or_introl eq_refl)) as (Hx & K). destruct (D2 x Hx) as (url' & a & (R1 & R2 & _) & G').
      unfold rkey in K. injection K as K1 K2. rewrite K1 in R1. rewrite K2 in R2. rewrite (encode_inj _ _ _ R1 Eu), (encode_inj _ _ _ R2 Eh) in G'. congruence.
  Qed.
  Lemma removed_count l bu bh : (length l - length (db_remove_assoc l bu bh) = length (db_get_assoc l bu bh))%nat.
  Proof using.
    clear. unfold db_remove_assoc, db_get_assoc. destruct (filter_count (fun x => text_eqb (r_url x) bu && text_eqb (r_handle x) bh) l) as (P & _). apply Permutation_length in P. rewrite app_length in P. lia.
  Qed.
  Lemma exec_sim s A i o st k w : sim s A -> s_proc s i = Run o (Exec st k) w ->
    exists A', asteps A A' /\ a_log A' = a_log A /\ sim (exec_step d procs s i) A'.
  Proof using replace whole_pk refusing.
    intros S Hp. unfold exec_step. rewrite Hp. set (view := apply d (s_db s) w).
    destruct (existsb (locked d procs s i) (wanted d view st)) eqn:Lk; [exists A; split; [constructor|auto]|].
    assert (forall x, In x (wanted d view st) -> locked d procs s i x = false) as Fr.
    { intros x Hx. destruct (locked d procs s i x) eqn:E; auto. assert (existsb (locked d procs s i) (wanted d view st) = true) by (apply existsb_exists; eauto). congruence. }
    assert (forall q x, In x (held (Run o q (w ++ writes view st))) -> In x (held (s_proc s i)) \/ locked d procs s i x = false) as Hold.
    { intros q x Hx. unfold held in Hx. cbn [pending] in Hx. rewrite flat_map_app in Hx. apply in_app_iff in Hx as [Hx|Hx]; [left; rewrite Hp; exact Hx|right; apply Fr; exact Hx]. }
    assert (s_proc s i <> Idle) as Nid by (rewrite Hp; discriminate).
    pose proof S as (C0 & D0 & P0 & _). pose proof D0 as (D1 & D2 & D3 & D4 & D5). specialize (P0 i). rewrite Hp in P0.
    destruct P0 as (So & Bg & [(W & C & t' & Lt & P & Sk)|[(ans & e' & _ & _ & P & _)|H]]); [|discriminate|].
    - pose proof (init_prog o t' So Sk) as I. rewrite <- P in I. clear P. subst w. change (apply d (s_db s) []) with (s_db s) in view. subst view.
      destruct o as [url x|url [h|]|url h|url ts salt| |].
      + destruct I as (r & R & I). injection I as -> ->. cbn [exec]. exists A. split; [constructor|]. split; auto. refine (go_sim s A i _ A S Nid _ eq_refl eq_refl (fun _ _ => eq_refl) D0 _ (Hold _)); [discriminate|].
        split; auto. split; auto. right. right. exists r. auto.
      + destruct I as (bu & bh & Eu & Eh & I). injection I as -> ->. cbn [exec]. pose proof (get_one _ _ _ _ _ _ D0 Eu Eh) as G.
        destruct (free (GetA url (Some h))) eqn:F.
        * exists A. split; [constructor|]. split; auto. refine (go_sim s A i _ A S Nid _ eq_refl eq_refl (fun _ _ => eq_refl) D0 _ (Hold _)); [discriminate|]. split; auto. split; auto. right. right. split; [constructor|]. exists None.
          split; auto. split; auto. rewrite F. apply get_rest; auto. intros r Hr. destruct (a_reg A url h) as [a|]; [|rewrite G in Hr; destruct Hr].
          destruct G as (_ & (j & t & G) & x & R & _ & Gr). rewrite Gr in Hr. destruct Hr as [<-|[]]. exists a, j, t. auto.
        * set (A1 := mkA (a_clock A) (a_reg A) (a_used A) (set_call (a_call A) i (Some (GetA url (Some h), Some (Got (a_reg A url h))))) (a_log A)).
          assert (astep A A1) as S1 by (apply (a_act A i (GetA url (Some h)) A); auto; unfold effect; rewrite F; reflexivity).
          destruct (a_reg A url h) as [a|] eqn:Rg; [destruct (expired a t') eqn:Ex|].
          -- destruct G as (G1 & (j & t & G2) & r & R & Hr & Gr). rewrite Gr.
             set (A2 := mkA (a_clock A) (a_reg A) (a_used A) (set_call (a_call A1) i (Some (GetA url (Some h), Some (Got None)))) (a_log A)).
             assert (astep A1 A2) as S2.
             { apply (a_late A1 i (GetA url (Some h)) (Some (Got (Some a))) (Got None)); [apply set_call_same|]. split; auto. exists a. split; auto. cbn [a_clock A1]. rewrite expired_spec in *. clear - Ex Lt C0. lia. }
             exists A2. split; [apply (as_step A A1); [apply asteps_one; auto|auto]|]. split; auto. refine (go_sim s A i _ A2 S Nid _ eq_refl eq_refl _ D0 _ (Hold _)); [discriminate| |].
             ++ intros m N. cbn [a_call A2 A1]. rewrite !set_call_other by auto. reflexivity.
             ++ split; auto. split; auto. right. right. split; [constructor|]. exists (Some (Got None)). cbn [a_call A2]. rewrite set_call_same. split; auto. rewrite F. split; [discriminate|].
                eapply get_rest_one; eauto. rewrite Ex. reflexivity.
          -- destruct G as (G1 & (j & t & G2) & r & R & Hr & Gr). rewrite Gr. exists A1. split; [apply asteps_one; auto|]. split; auto. refine (go_sim s A i _ A1 S Nid _ eq_refl eq_refl _ D0 _ (Hold _)); [discriminate| |].
             ++ intros m N. cbn [a_call A1]. rewrite !set_call_other by auto. reflexivity.
             ++ split; auto. split; auto. right. right. split; [constructor|]. exists (Some (Got (Some a))). cbn [a_call A1]. rewrite set_call_same. split; auto. rewrite F. split; [discriminate|].
                eapply get_rest_one; eauto. rewrite Ex. reflexivity.
          -- rewrite G. exists A1. split; [apply asteps_one; auto|]. split; auto. refine (go_sim s A i _ A1 S Nid _ eq_refl eq_refl _ D0 _ (Hold _)); [discriminate| |].
             ++ intros m N. cbn [a_call A1]. rewrite !set_call_other by auto. reflexivity.
             ++ split; auto. split; auto. right. right. split; [constructor|]. exists (Some (Got None)). cbn [a_call A1]. rewrite set_call_same. split; auto. rewrite F. split; [discriminate|reflexivity].
      + destruct I as (bu & Eu & I). injection I as -> ->. cbn [exec]. exists A. split; [constructor|]. split; auto. refine (go_sim s A i _ A S Nid _ eq_refl eq_refl (fun _ _ => eq_refl) D0 _ (Hold _)); [discriminate|].
        split; auto. split; auto. right. right. split; [constructor|]. exists None. split; auto. split; auto. cbn [free]. apply get_rest; auto.
        intros r Hr. apply filter_In in Hr as (Hr & Q). apply text_eqb_eq in Q. destruct (D2 r Hr) as (url' & a & R & G). pose proof R as (R1 & _). rewrite Q in R1. rewrite (encode_inj _ _ _ R1 Eu) in *.
        destruct (D3 _ _ _ G) as (_ & (j & t & L) & _). exists a, j, t. auto.
      + destruct I as (bu & bh & Eu & Eh & I). injection I as -> ->. cbn [exec]. pose proof (get_one _ _ _ _ _ _ D0 Eu Eh) as G. cbn [k_of pbind snd]. rewrite removed_count.
        destruct (a_reg A url h) as [a|] eqn:Rg.
        * destruct G as (G1 & G2 & r & (R1 & R2 & _) & Hr & Gr). rewrite Gr. cbn [length Z.of_nat Z.ltb Z.compare]. cbn [app writes] in *. rewrite Gr in *.
          exists A. split; [constructor|]. split; auto. refine (go_sim s A i _ A S Nid _ eq_refl eq_refl (fun _ _ => eq_refl) D0 _ (Hold _)); [discriminate|]. split; auto. split; auto. right. right. left. exists r. subst h. repeat split; auto.
        * rewrite G. cbn [length Z.of_nat Z.ltb Z.compare]. cbn [app writes] in *. rewrite G in *. destruct (free (RemoveA url h)) eqn:F.
          -- exists A. split; [constructor|]. split; auto. refine (go_sim s A i _ A S Nid _ eq_refl eq_refl (fun _ _ => eq_refl) D0 _ (Hold _)); [discriminate|]. split; auto. split; auto. right. right. right. split; auto. exists None. rewrite F. auto.
          -- set (A1 := mkA (a_clock A) (put (a_reg A) url h None) (a_used A) (set_call (a_call A) i (Some (RemoveA url h, Some (Flag false)))) (a_log A)).
             assert (astep A A1) as S1.
             { apply (a_act A i (RemoveA url h) (mkA (a_clock A) (put (a_reg A) url h None) (a_used A) (a_call A) (a_log A))); auto. unfold effect. rewrite F, Rg. reflexivity. }
             exists A1. split; [apply asteps_one; auto|]. split; auto. refine (go_sim s A i _ A1 S Nid _ eq_refl eq_refl _ _ _ (Hold _)); [discriminate| | |].
             ++ intros m N. cbn [a_call A1]. rewrite !set_call_other by auto. reflexivity.
             ++ apply (rel_same (s_db s) A); auto; [|apply incl_refl]. intros url' h'. cbn [a_reg A1]. rewrite put_eq. destruct (_ && _) eqn:Q; auto. rewrite andb_true_iff, !text_eqb_eq in Q. destruct Q as (-> & ->). auto.
             ++ split; auto. split; auto. right. right. right. split; auto. exists (Some (Flag false)). cbn [a_call A1]. rewrite set_call_same, F. auto.
      + destruct I as (bu & bs & Eu & Es & I). injection I as -> ->. cbn [exec]. unfold db_add_nonce.
        assert (existsb (fun x => text_eqb (d_pk d (fst (fst x))) (d_pk d (fst (fst (bu, ts, bs)))) && (snd (fst x) =? snd (fst (bu, ts, bs))) && text_eqb (snd x) (snd (bu, ts, bs))) (q_nonces (s_db s)) = true <-> In (bu, ts, bs) (q_nonces (s_db s))) as Ex.
        { rewrite existsb_exists. cbn [fst snd]. split.
          - intros (((bu' & ts') & bs') & Hx & Q). cbn [fst snd] in Q. rewrite !andb_true_iff, !text_eqb_eq, Z.eqb_eq in Q. destruct Q as ((Q1 & ->) & ->). apply whole_pk in Q1. subst. auto.
          - intros Hx. exists (bu, ts, bs). split; auto. cbn [fst snd]. rewrite !text_eqb_refl, Z.eqb_refl. reflexivity. }
        clear Lk. destruct (existsb _ _).
        * pose proof (D4 _ _ _ _ _ Eu Es (proj1 Ex eq_refl)) as U.
          set (A1 := mkA (a_clock A) (a_reg A) (mark (a_used A) url ts salt true) (set_call (a_call A) i (Some (UseN url ts salt, Some (Flag false)))) (a_log A)).
          assert (astep A A1) as S1.
          { apply (a_act A i (UseN url ts salt) (mkA (a_clock A) (a_reg A) (mark (a_used A) url ts salt true) (a_call A) (a_log A))); auto. unfold effect. cbn [free]. rewrite U. reflexivity. }
          exists A1. split; [apply asteps_one; auto|]. split; auto. refine (go_sim s A i _ A1 S Nid _ eq_refl eq_refl _ _ _ _); [discriminate| | | |].
          -- intros m N. cbn [a_call A1]. rewrite !set_call_other by auto. reflexivity.
          -- apply (rel_same (s_db s) A); auto; [|apply incl_refl]. intros url' ts' salt'. cbn [a_used A1]. rewrite mark_eq. destruct (_ && _) eqn:Q; auto. rewrite !andb_true_iff, !text_eqb_eq, Z.eqb_eq in Q. destruct Q as ((-> & ->) & ->). auto.
          -- split; auto. split; auto. right. right. right. split; auto. cbn [a_call A1]. rewrite set_call_same. split; auto. unfold use_k. destruct refusing as [->|(why & -> & Rd & Nu)]; [left; reflexivity|right; exists why; auto].
          -- intros x [].
        * exists A. split; [constructor|]. split; auto. refine (go_sim s A i _ A S Nid _ eq_refl eq_refl (fun _ _ => eq_refl) D0 _ (Hold _)); [discriminate|]. split; auto. split; auto. right. right. left. exists bu, bs. repeat split; auto.
          intros Hin. apply Ex in Hin. discriminate.
      + injection I as -> ->. cbn [exec]. exists A. split; [constructor|]. split; auto. refine (go_sim s A i _ A S Nid _ eq_refl eq_refl (fun _ _ => eq_refl) D0 _ (Hold _)); [discriminate|]. split; auto. split; auto. right. right.
        eexists _, _. split; [reflexivity|]. split; [reflexivity|]. split; auto. intros x Hx. apply filter_In in Hx as (_ & Hx). unfold SKEW in Hx. clear - Hx Lt. lia.
      + injection I as -> ->. cbn [exec]. exists A. split; [constructor|]. split; auto. refine (go_sim s A i _ A S Nid _ eq_refl eq_refl (fun _ _ => eq_refl) D0 _ (Hold _)); [discriminate|]. split; auto. split; auto. right. right.
        eexists _, _. split; [reflexivity|]. split; [reflexivity|]. split; auto. intros r Hr. apply filter_In in Hr as (Hr & Q). destruct (D2 r Hr) as (url & a & R & G).
        destruct (D3 _ _ _ G) as (_ & (j & t & L) & _). pose proof R as (R1 & R2 & _ & _ & _ & R3 & R4). exists url, a, j, t. repeat split; auto. rewrite expired_spec, <- R3, <- R4. clear - Q Lt. lia.
    - destruct o as [url x|url h|url h|url ts salt| |].
      + destruct H as (r & _ & P & _). discriminate.
      + destruct H as (W & ans & C & F & P). cbn [rest_ok] in P. destruct st as [r0|r0|secret issued lifetime ty b1 b2|b1|b1 b2|bu bh|now|n|before]; try contradiction. destruct P as (Dm & P). cbn [exec].
        exists A. split; [constructor|]. split; auto. refine (go_sim s A i _ A S Nid _ eq_refl eq_refl (fun _ _ => eq_refl) D0 _ (Hold _)); [discriminate|]. split; auto. split; auto. right. right. split; [|exists ans; split; auto; split; auto; apply P; discriminate].
        apply Forall_app. split; auto. constructor; [|constructor]. cbn [doomed_w]. intros r Hr. apply filter_In in Hr as (_ & Q). rewrite andb_true_iff, !text_eqb_eq in Q. destruct Q as (-> & ->). exact Dm.
      + destruct H as [(r & _ & _ & _ & P & _)|(_ & ans & _ & P & _)]; discriminate.
      + destruct H as [(bu & bs & _ & _ & _ & P & _)|(_ & _ & [P|(why & P & _)])]; discriminate.
      + destruct H as (l & n & P & _). discriminate.
      + destruct H as (l & n & P & _). discriminate.
  Qed.

  Lemma failing_k o t st k e : sent_op o -> (forall url ts salt, o = UseN url ts salt -> skewed ts t = false) ->
    Exec st k = prog_of d t o -> dbe e -> k (inl e) = Throw e.
  Proof using replace.
    intros So Sk P (why & -> & _). pose proof (init_prog o t So Sk) as I. rewrite <- P in I.
    destruct o as [url x|url [h|]|url h|url ts salt| |]; [destruct I as (? & _ & I)|destruct I as (? & ? & _ & _ & I)|destruct I as (? & _ & I)|destruct I as (? & ? & _ & _ & I)|destruct I as (? & ? & _ & _ & I)| |]; injection I as -> ->; reflexivity.
  Qed.
  Lemma step_sim s A l : label_ok d l -> sim s A ->
    exists A', asteps A A' /\ a_log A' = events d procs s l ++ a_log A /\ sim (step d procs s l) A'.
  Proof using replace whole_pk refusing.
    intros Ok S. pose proof S as (C0 & D0 & P0 & L0 & I0).
    assert (forall es, es = [] -> exists A', asteps A A' /\ a_log A' = es ++ a_log A /\ sim s A') as Same.
    { intros es ->. exists A. split; [constructor|auto]. }
    destruct l as [i o|i|i why|i why|i|n]; unfold events; cbn [step].
    - destruct (s_proc s i) eqn:Hp; try (apply Same; reflexivity). destruct (existsb (Nat.eqb i) procs) eqn:E; [|rewrite Hp; apply Same; reflexivity].
      cbn [go s_proc]. rewrite set_same. apply existsb_exists in E as (j & Hj & E). apply Nat.eqb_eq in E. subst j.
      pose proof (P0 i) as Pi. rewrite Hp in Pi. cbn [proc_rel] in Pi.
      exists (mkA (a_clock A) (a_reg A) (a_used A) (set_call (a_call A) i (Some (o, None))) (Began i (a_clock A) o :: a_log A)). split; [apply asteps_one, a_begin; auto|]. split; [cbn; rewrite C0; reflexivity|].
      unfold go. apply (sim_mk s A); cbn [a_clock a_log a_call]; auto using incl_tl, incl_refl.
      + intros j N. apply set_call_other. auto.
      + rewrite set_call_same. split; auto. split; auto. exists i, (a_clock A). left. auto.
      + apply db_rel_log; auto using incl_tl, incl_refl.
      + intros k [].
    - destruct (s_proc s i) as [|o|o p w] eqn:Hp.
      + unfold exec_step. rewrite Hp. apply Same, ended_none. reflexivity.
      + assert (exec_step d procs s i = go s i (Run o (prog_of d (s_clock s) o) [])) as -> by (unfold exec_step; rewrite Hp; reflexivity).
        rewrite ended_none by reflexivity. cbn [app]. pose proof (P0 i) as Pi. rewrite Hp in Pi. destruct Pi as (So & Bg & C).
        assert (s_proc s i <> Idle) as Nid by (rewrite Hp; discriminate).
        destruct (match o with UseN _ ts _ => skewed ts (s_clock s) | _ => false end) eqn:Sk.
        * destruct o as [url x|url h|url h|url ts salt| |]; try discriminate.
          set (A1 := mkA (a_clock A) (a_reg A) (a_used A) (set_call (a_call A) i (Some (UseN url ts salt, Some (Flag false)))) (a_log A)).
          exists A1. split; [apply asteps_one; apply (a_late A i (UseN url ts salt) None (Flag false) C); split; auto; split; auto; rewrite C0; exact Sk|]. split; auto.
          refine (go_sim s A i _ A1 S Nid _ eq_refl eq_refl _ D0 _ _); [discriminate| | |intros k []].
          -- intros j N. cbn [a_call A1]. apply set_call_other. auto.
          -- split; auto. split; auto. right. right. right. split; auto. cbn [a_call A1]. rewrite set_call_same. split; auto. left. cbn [prog_of]. unfold p_useNonce. rewrite Sk. reflexivity.
        * exists A. split; [constructor|]. split; auto. refine (go_sim s A i _ A S Nid _ eq_refl eq_refl (fun _ _ => eq_refl) D0 _ _); [discriminate| |intros k []].
          split; auto. split; auto. left. split; auto. split; auto. exists (s_clock s). split; [apply Z.le_refl|]. split; auto. intros url ts salt ->. exact Sk.
      + destruct p as [a|e|st k].
        * assert (exec_step d procs s i = finish d (mkSys (s_clock s) (apply d (s_db s) w) (s_proc s) (s_answers s) (s_lost s)) i o (inr a)) as -> by (unfold exec_step; rewrite Hp; reflexivity).
          rewrite (ended_one i s _ o (reported d o (inr a))) by reflexivity. apply commit_sim; auto.
        * assert (exec_step d procs s i = finish d s i o (inl e)) as -> by (unfold exec_step; rewrite Hp; reflexivity).
          rewrite (ended_one i s _ o (reported d o (inl e))) by reflexivity. eapply throw_sim; eauto.
        * rewrite ended_none; [apply (exec_sim s A i o st k w S Hp)|]. unfold exec_step. rewrite Hp. cbv zeta. destruct (existsb _ _); auto. destruct (exec _ _ _) as [e|(q & r)]; reflexivity.
    - assert (dbe (Operational why)) as De by (exists why; auto).
      destruct (s_proc s i) as [|o|o p w] eqn:Hp.
      + apply Same, ended_none. reflexivity.
      + rewrite (ended_one i s _ o (reported d o (inl (Operational why)))) by reflexivity. pose proof (P0 i) as Pi. rewrite Hp in Pi. destruct Pi as (So & Bg & C).
        refine (fail_sim s A i o None (Operational why) (Ret Done) [] S (or_intror (conj eq_refl Hp)) C _ De). destruct o; reflexivity.
      + pose proof (P0 i) as Pi. rewrite Hp in Pi. destruct Pi as (So & Bg & Ro). destruct (run_call _ _ _ _ _ _ _ Ro) as (ans & C & Se).
        assert (s_proc s i <> Idle) as Nid by (rewrite Hp; discriminate).
        destruct p as [a|e|st k].
        * rewrite (ended_one i s _ o (reported d o (inl (Operational why)))) by reflexivity. eapply fail_sim; eauto.
        * rewrite (ended_one i s _ o (reported d o (inl (Operational why)))) by reflexivity. eapply fail_sim; eauto.
        * rewrite ended_none by reflexivity. cbn [app]. exists A. split; [constructor|]. split; auto. refine (go_sim s A i _ A S Nid _ eq_refl eq_refl (fun _ _ => eq_refl) D0 _ _); [discriminate| |].
          -- split; auto. split; auto. destruct Ro as [(W & _ & t' & Lt & P & Sk)|[(ans' & e' & _ & _ & P & _)|H]]; [|discriminate|].
             ++ right. left. exists ans, (Operational why). repeat split; auto. eapply failing_k; eauto.
             ++ destruct o as [url x|url h|url h|url ts salt| |].
                ** destruct H as (r & _ & P & _). discriminate.
                ** destruct H as (W & ans' & C' & F & P). cbn [rest_ok] in P. destruct st; try contradiction. destruct P as (Dm & P). right. right. split; auto. exists ans'. split; auto. split; auto.
                   apply P. intros e E. injection E as <-. exact De.
                ** destruct H as [(r & _ & _ & _ & P & _)|(_ & ans' & _ & P & _)]; discriminate.
                ** destruct H as [(bu & bs & _ & _ & _ & P & _)|(_ & _ & [P|(why' & P & _)])]; discriminate.
                ** destruct H as (l & n & P & _). discriminate.
                ** destruct H as (l & n & P & _). discriminate.
          -- intros x Hx. left. rewrite Hp. exact Hx.
    - destruct Ok.
    - cbn [app]. set (A1 := mkA (a_clock A) (a_reg A) (a_used A) (set_call (a_call A) i None) (a_log A)). exists A1. split; [apply asteps_one, a_crash|]. split; auto.
      unfold go. apply (sim_mk s A); cbn [a_clock a_log a_call A1]; auto using incl_refl.
      + intros j N. apply set_call_other. auto.
      + rewrite set_call_same. reflexivity.
      + intros k [].
    - cbn [app]. set (A1 := mkA (a_clock A + Z.of_N n) (a_reg A) (a_used A) (a_call A) (a_log A)). exists A1. split; [apply asteps_one, a_tick|]. split; auto.
      split; [cbn; congruence|]. split; [exact D0|]. cbn [s_clock s_db s_proc]. split; [|split; auto].
      intros i. eapply proc_later; [apply incl_refl| | | |apply P0]; auto. clear. lia.
  Qed.
  Lemma init_sim now : sim (sys_init now) (a_init now).
  Proof using.
    clear. split; auto. split; [|split; [|split]].
    - split; [constructor|]. split; [intros r []|]. split; [discriminate|]. split; [intros url ts salt bu bs _ _ []|discriminate].
    - intros i. reflexivity.
    - intros i j k _ [].
    - intros i H. destruct H. reflexivity.
  Qed.
  Lemma run_sim ls : Forall (label_ok d) ls -> forall s A, sim s A ->
    exists A', asteps A A' /\ a_log A' = trace d procs s ls (a_log A) /\ sim (run_sys d procs s ls) A'.
  Proof using replace whole_pk refusing.
    induction 1 as [|l ls Hl Hls IH]; intros s A S; [exists A; split; [constructor|auto]|].
    destruct (step_sim s A l Hl S) as (A1 & S1 & L1 & Q1). destruct (IH _ A1 Q1) as (A2 & S2 & L2 & Q2). exists A2. split; [eapply asteps_trans; eauto|]. cbn [trace]. rewrite <- L1. split; auto.
  Qed.
End Atomic.
