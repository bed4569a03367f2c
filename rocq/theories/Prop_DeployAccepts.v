(** C190: the first use of a nonce is accepted, and overlapping processes of a consumer accept
    the genuine responses that they are sent. *)
From Coq Require Import Lia ZifyBool ZifyN ZifyNat.
From Verif Require Import Py PyFacts Utf8 KVForm CryptUtil DH Message MessageFacts MessageWire MessageParse MessageSpec MessageRound Prop_Message.
From Verif Require Import Association AssociationFacts Prop_Association UrlLib UriNorm OidUtil OidUtilFacts Nonce NonceFacts Store StoreSpec StoreFacts.
From Verif Require Import FileStore FileSys FileAtomic Prop_FileNames Prop_FileSys Prop_FileAtomic SqlTxn SqlConc SqlAtomicFacts Prop_SqlAtomic DeployStores Deploy DeployFacts Prop_DeployFinds.
From Verif Require Import ServerFacts Prop_ServerDecode Endpoint Consumer ConsumerFacts Prop_Consumer Prop_ConsumerOnce Prop_ConsumerAccepts Conc ConcFacts ConsumerConc Prop_ConsumerConc Prop_DeployRP Prop_EndToEnd Prop_DeployOP Prop_DeployBoth.
Import Py Store.
Open Scope Z_scope.
Local Arguments u : simpl never.

(** ** The first use of a nonce *)
Section First.
  Variable url : text. Variable ts : Z. Variable salt : text.
  Notation me := (UseN url ts salt).
  (** Only process i begins to use the nonce, once, and not too early. *)
  Definition single (i : nat) (log : list event) : Prop :=
    forall p2 k t p1, log = p2 ++ Began k t me :: p1 -> k = i /\ ts - 18000 <= t /\ forall k' t', ~ In (Began k' t' me) p1.
  Lemma single_cons i ev log : single i (ev :: log) -> single i log.
  Proof using. intros H p2 k t p1 E. apply (H (ev :: p2) k t p1). rewrite E. auto. Qed.
  Lemma single_in i log k t : single i log -> In (Began k t me) log -> k = i /\ ts - 18000 <= t.
  Proof using. intros H I. apply in_split in I as (l2 & l1 & E). destruct (H _ _ _ _ E) as (A & B & _). auto. Qed.
  Definition finv (i : nat) (A : amach) : Prop :=
    calls_run A /\ (forall k t o, In (Began k t o) (a_log A) -> t <= a_clock A) /\
    (single i (a_log A) ->
      ((forall k t, ~ In (Began k t me) (a_log A)) -> a_used A url ts salt = false) /\
      (a_call A i = Some (me, None) -> a_used A url ts salt = false) /\
      (forall r, a_call A i = Some (me, Some r) -> a_clock A <= ts + 18000 -> r = Flag true) /\
      (forall l2 k t r l1, a_log A = l2 ++ Ended k t me r :: l1 -> t <= ts + 18000 -> r = Flag true \/ r = Err OSError)).
  Lemma mark_other used url' ts' salt' b : UseN url' ts' salt' <> me -> mark used url' ts' salt' b url ts salt = used url ts salt.
  Proof using.
    intros N. unfold mark. destruct (_ && _) eqn:E; auto. exfalso. rewrite !andb_true_iff, !text_eqb_eq, Z.eqb_eq in E. destruct E as [[-> ->] ->]. auto.
  Qed.
  Lemma me_dec o : o = me \/ o <> me.
  Proof using.
    destruct o as [a b|a b|a b|a b c| |]; try (right; discriminate). destruct (text_eq_dec a url) as [->|N]; [|right; congruence].
    destruct (Z.eq_dec b ts) as [->|N]; [|right; congruence]. destruct (text_eq_dec c salt) as [->|N]; [left; auto|right; congruence].
  Qed.
  Lemma used_other A o B r : effect A o = Some (B, r) -> o <> me -> a_used B url ts salt = a_used A url ts salt.
  Proof using.
    intros E N. unfold effect in E. destruct (free o); [discriminate|]. destruct o as [a b|a [b|]|a b|a b c| |]; inv E; auto. cbn [a_used]. apply mark_other; auto.
  Qed.
  Lemma finv_step i A B : finv i A -> astep A B -> finv i B.
  Proof using.
    intros (R & T & I) S. split; [eapply calls_run_step; eauto|].
    assert (forall k ans, single i (a_log A) -> a_call A k = Some (me, ans) -> k = i /\ ts - 18000 <= a_clock A) as Mine.
    { intros k ans H C. destruct (running_began _ _ _ (R _ _ _ C)) as (t & X). destruct (single_in _ _ _ _ H X). split; auto. apply T in X. lia. }
    destruct S as [A d|A k o C|A k o B r C Ef|A k o ans r C Tl|A k o r C|A k o ans C Sd|A k o r C Fr|A k|A url' a k t Rc Ex|A k url' C|A url' ts' salt' k ans C Old]; cbn [a_log a_clock a_reg a_call a_used] in *.
    - split; [intros k t o X; apply T in X; lia|]. intros H. destruct (I H) as (I1 & I2 & I3 & I4). split; auto. split; auto. split; auto. intros r C L. apply I3; auto. lia.
    - split; [intros k' t o' [X|X]; [inv X; lia|eauto]|]. intros H. destruct (I (single_cons _ _ _ H)) as (I1 & I2 & I3 & I4). split; [|split; [|split]].
      + intros N. apply I1. intros k' t X. apply (N k' t). right. auto.
      + intros X. apply set_call_cases in X as [(-> & X)|(_ & X)]; auto. inv X. apply I1. apply (H [] k (a_clock A) (a_log A)). auto.
      + intros r X. apply set_call_cases in X as [(_ & X)|(_ & X)]; [discriminate|auto].
      + intros l2 k' t r l1 X. destruct l2 as [|y l2]; cbn in X; apply cons_eq in X as (X1 & X2); [discriminate|eauto].
    - destruct (effect_keeps _ _ _ _ Ef) as (E1 & E2 & E3). rewrite E1, E2, E3. split; auto. intros H. destruct (I H) as (I1 & I2 & I3 & I4). destruct (me_dec o) as [->|No].
      + destruct (Mine _ _ H C) as (-> & _). split; [|split; [|split]]; auto.
        * intros N. destruct (running_began _ _ _ (R _ _ _ C)) as (t & X). destruct (N _ _ X).
        * intros X. apply set_call_cases in X as [(_ & X)|(X & _)]; [discriminate|congruence].
        * intros r' X _. apply set_call_cases in X as [(_ & X)|(X & _)]; [|congruence]. inv X. unfold effect in Ef. cbn in Ef. inv Ef. rewrite I2 by auto. auto.
      + rewrite (used_other _ _ _ _ Ef No). split; [|split; [|split]]; auto.
        * intros X. apply set_call_cases in X as [(_ & X)|(_ & X)]; [discriminate|auto].
        * intros r' X. apply set_call_cases in X as [(_ & X)|(_ & X)]; [congruence|auto].
    - split; auto. intros H. destruct (I H) as (I1 & I2 & I3 & I4). split; [|split; [|split]]; auto.
      + intros X. apply set_call_cases in X as [(_ & X)|(_ & X)]; [discriminate|auto].
      + intros r' X L. apply set_call_cases in X as [(-> & X)|(_ & X)]; [|auto]. inv X. exfalso. destruct (Mine _ _ H C) as (_ & G).
        cbn [too_late] in Tl. destruct Tl as (_ & _ & Tl). unfold skewed in Tl. assert (SKEW = 18000) as K by reflexivity. rewrite K in Tl. lia.
    - split; [intros k' t o' [X|X]; [discriminate|eauto]|]. intros H. destruct (I (single_cons _ _ _ H)) as (I1 & I2 & I3 & I4). split; [|split; [|split]].
      + intros N. apply I1. intros k' t X. apply (N k' t). right. auto.
      + intros X. apply set_call_cases in X as [(_ & X)|(_ & X)]; [discriminate|auto].
      + intros r' X. apply set_call_cases in X as [(_ & X)|(_ & X)]; [discriminate|auto].
      + intros l2 k' t r' l1 X L. destruct l2 as [|y l2]; cbn in X; apply cons_eq in X as (X1 & X2); [|eauto]. inv X1. left.
        destruct (Mine _ _ (single_cons _ _ _ H) C) as (-> & _). auto.
    - split; [intros k' t o' [X|X]; [discriminate|eauto]|]. intros H. destruct (I (single_cons _ _ _ H)) as (I1 & I2 & I3 & I4). split; [|split; [|split]].
      + intros N. apply I1. intros k' t X. apply (N k' t). right. auto.
      + intros X. apply set_call_cases in X as [(_ & X)|(_ & X)]; [discriminate|auto].
      + intros r' X. apply set_call_cases in X as [(_ & X)|(_ & X)]; [discriminate|auto].
      + intros l2 k' t r' l1 X L. destruct l2 as [|y l2]; cbn in X; apply cons_eq in X as (X1 & X2); [|eauto]. inv X1. auto.
    - split; [intros k' t o' [X|X]; [discriminate|eauto]|]. intros H. destruct (I (single_cons _ _ _ H)) as (I1 & I2 & I3 & I4). split; [|split; [|split]].
      + intros N. apply I1. intros k' t X. apply (N k' t). right. auto.
      + intros X. apply set_call_cases in X as [(_ & X)|(_ & X)]; [discriminate|auto].
      + intros r' X. apply set_call_cases in X as [(_ & X)|(_ & X)]; [discriminate|auto].
      + intros l2 k' t r' l1 X L. destruct l2 as [|y l2]; cbn in X; apply cons_eq in X as (X1 & X2); [|eauto]. inv X1. discriminate.
    - split; auto. intros H. destruct (I H) as (I1 & I2 & I3 & I4). split; [|split; [|split]]; auto.
      + intros X. apply set_call_cases in X as [(_ & X)|(_ & X)]; [discriminate|auto].
      + intros r' X. apply set_call_cases in X as [(_ & X)|(_ & X)]; [discriminate|auto].
    - split; auto.
    - split; auto.
    - split; auto. intros H. destruct (I H) as (I1 & I2 & I3 & I4).
      assert (a_used A url ts salt = false -> mark (a_used A) url' ts' salt' false url ts salt = false) as M by (unfold mark; destruct (_ && _); auto).
      split; [|split; [|split]]; auto.
  Qed.
  Lemma finv_all i now A : asteps (a_init now) A -> finv i A.
  Proof using.
    intros S. apply (asteps_ind2 (finv i) now); auto; [|intros; eapply finv_step; eauto].
    split; [intros j o ans H; discriminate|]. split; [intros k t o []|]. intros _. split; auto. split; auto. split; [discriminate|]. intros [|] k t r l1 H; discriminate.
  Qed.

  (** C190: a nonce that one process begins to use, once, is accepted, unless the call fails: if
      it begins no earlier than five hours before the nonce's time, and ends no later than five hours after. *)
  Theorem C190_first_use : forall log i t r, store_log log -> single i log -> In (Ended i t me r) log -> t <= ts + 18000 -> r = Flag true \/ r = Err OSError.
  Proof using.
    intros log i t r SL H I L. destruct (store_log_atomic log SL) as (now & A & S & La). destruct (finv_all i now A S) as (_ & _ & J).
    rewrite La in J. destruct (J H) as (_ & _ & _ & K). apply in_split in I as (l2 & l1 & E). eapply K; eauto.
  Qed.
End First.
Print Assumptions C190_first_use.

(** ** A lookup of what nobody has stored *)
Definition kinv (url h : text) (A : amach) : Prop :=
  (forall i r, a_call A i = Some (GetA url (Some h), Some r) -> exists o, r = Got o) /\
  (forall i t r, In (Ended i t (GetA url (Some h)) r) (a_log A) -> (exists o, r = Got o) \/ r = Err OSError).
Lemma kinv_step url h A B : h <> [] -> kinv url h A -> astep A B -> kinv url h B.
Proof.
  intros Ne (I1 & I2) S.
  destruct S as [A d|A k o C|A k o B r C Ef|A k o ans r C Tl|A k o r C|A k o ans C Sd|A k o r C Fr|A k|A url' a k t Rc Ex|A k url' C|A url' ts' salt' k ans C Old]; cbn [a_log a_clock a_reg a_call a_used] in *; split; cbn [a_log a_call]; auto.
  - intros i r X. apply set_call_cases in X as [(_ & X)|(_ & X)]; [discriminate|eauto].
  - intros i t r [X|X]; [discriminate|eauto].
  - destruct (effect_keeps _ _ _ _ Ef) as (_ & _ & E3). rewrite E3. intros i r' X. apply set_call_cases in X as [(_ & X)|(_ & X)]; [|eauto]. inv X.
    unfold effect in Ef. rewrite (get_free url h Ne) in Ef. inv Ef. eauto.
  - destruct (effect_keeps _ _ _ _ Ef) as (_ & E2 & _). rewrite E2. auto.
  - intros i r' X. apply set_call_cases in X as [(_ & X)|(_ & X)]; [|eauto]. inv X. destruct Tl as (-> & _). eauto.
  - intros i r' X. apply set_call_cases in X as [(_ & X)|(_ & X)]; [discriminate|eauto].
  - intros i t r' [X|X]; [|eauto]. inv X. left. eauto.
  - intros i r' X. apply set_call_cases in X as [(_ & X)|(_ & X)]; [discriminate|eauto].
  - intros i t r' [X|X]; [|eauto]. inv X. auto.
  - intros i r' X. apply set_call_cases in X as [(_ & X)|(_ & X)]; [discriminate|eauto].
  - intros i t r' [X|X]; [|eauto]. inv X. rewrite (get_free url h Ne) in Fr. discriminate.
  - intros i r' X. apply set_call_cases in X as [(_ & X)|(_ & X)]; [discriminate|eauto].
Qed.
Lemma lookup_nothing log i t url (h : text) r : store_log log -> h <> [] -> (forall k t b, In (Began k t (StoreA url b)) log -> a_handle b <> h) ->
  In (Ended i t (GetA url (Some h)) r) log -> r = Got None \/ r = Err OSError.
Proof.
  intros SL Ne N I. destruct (store_log_atomic log SL) as (now & A & S & La).
  assert (kinv url h A) as (_ & K). { apply (asteps_ind2 (kinv url h) now); auto; [|intros; eapply kinv_step; eauto]. split; [discriminate|intros i' t' r' []]. }
  rewrite La in K. destruct (K _ _ _ I) as [([a|] & ->)|X]; auto. exfalso. apply in_split in I as (l2 & l1 & E).
  destruct (found_stored now A S l2 i t url h a l1 Ne) as (X & k & t' & Y); [rewrite La; exact E|]. apply (N k t' a); auto. rewrite E. apply in_or_app. right. right. exact Y.
Qed.

(** ** A visit as a tree of calls, on a script and on another store *)
Section Other.
  Context {O : Type} (ostep : O -> Z -> op -> O * out).
  Hypothesis timeless : forall s now o, ostep s now o = ostep s 0 o.
  Fixpoint scale {A} (t : tree A) (s : O) : O * res A :=
    match t with Leaf r => (s, r) | Node o k => let '(s', a) := ostep s 0 o in scale (k a) s' end.
  Lemma scale_graft {A B} (t : tree A) (k : A -> tree B) : forall s,
    scale (graft t k) s = match scale t s with (s', Ok a) => scale (k a) s' | (s', Raise x) => (s', Raise x) end.
  Proof using. induction t as [[a|x]|o f IH]; intros s; cbn [graft scale]; auto. destruct (ostep s 0 o) as (s', a). apply IH. Qed.
  Definition ctree2 {A} (m : @cm script A) (n : @cm O A) : Type :=
    forall p, { t : tree (list post * res A) |
      (forall s, exists s' p' r, climb t s = (s', Ok (p', r)) /\ m (mkCst (Some s) p) = (mkCst (Some s') p', r)) /\
      (forall s, exists s' p' r, scale t s = (s', Ok (p', r)) /\ n (mkCst (Some s) p) = (mkCst (Some s') p', r)) }.
  Lemma c2_ret {A} (r : res A) : ctree2 (cret r) (cret r).
  Proof using. intros p. exists (Leaf (Ok (p, r))). split; intros s; exists s, p, r; auto. Qed.
  Lemma c2_bind {A B} (m : cm A) (n : cm A) (k : A -> @cm script B) (l : A -> @cm O B) : ctree2 m n -> (forall a, ctree2 (k a) (l a)) -> ctree2 (cbind m k) (cbind n l).
  Proof using.
    intros M K p. destruct (M p) as (t & H1 & H2).
    exists (graft t (fun x => match snd x with Ok a => proj1_sig (K a (fst x)) | Raise e => Leaf (Ok (fst x, Raise e)) end)). split.
    - intros s. destruct (H1 s) as (s' & p' & r & C & E). rewrite climb_graft, C. cbn [fst snd]. unfold cbind. rewrite E. destruct r as [a|x]; [|cbn; eauto].
      apply (proj1 (proj2_sig (K a p'))).
    - intros s. destruct (H2 s) as (s' & p' & r & C & E). rewrite scale_graft, C. cbn [fst snd]. unfold cbind. rewrite E. destruct r as [a|x]; [|cbn; eauto].
      apply (proj2 (proj2_sig (K a p'))).
  Qed.
  Lemma c2_try {A} (m : cm A) (n : cm A) (h : exn -> option (@cm script A)) (g : exn -> option (@cm O A)) : ctree2 m n ->
    (forall x, match h x, g x with Some k, Some l => ctree2 k l | None, None => unit | _, _ => Empty_set end) -> ctree2 (ctry m h) (ctry n g).
  Proof using.
    intros M K p. destruct (M p) as (t & H1 & H2).
    exists (graft t (fun x => match snd x with Ok a => Leaf (Ok (fst x, Ok a)) | Raise e =>
      match h e as o, g e as o' return match o, o' with Some k, Some l => ctree2 k l | None, None => unit | _, _ => Empty_set end -> _ with
      | Some k, Some l => fun T => proj1_sig (T (fst x)) | _, _ => fun _ => Leaf (Ok (fst x, Raise e)) end (K e) end)). split.
    - intros s. destruct (H1 s) as (s' & p' & r & C & E). rewrite climb_graft, C. cbn [fst snd]. unfold ctry. rewrite E. destruct r as [a|x]; [cbn; eauto|].
      generalize (K x). destruct (h x) as [k|], (g x) as [l|]; intros T; [apply (proj1 (proj2_sig (T p')))|destruct T|destruct T|cbn; eauto].
    - intros s. destruct (H2 s) as (s' & p' & r & C & E). rewrite scale_graft, C. cbn [fst snd]. unfold ctry. rewrite E. destruct r as [a|x]; [cbn; eauto|].
      generalize (K x). destruct (h x) as [k|], (g x) as [l|]; intros T; [apply (proj2 (proj2_sig (T p')))|destruct T|destruct T|cbn; eauto].
  Qed.
  Lemma c2_has : ctree2 has_store has_store.
  Proof using. intros p. exists (Leaf (Ok (p, Ok true))). split; intros s; exists s, p, (Ok true); auto. Qed.
  Lemma c2_call now o : ctree2 (Consumer.call script_step now o) (Consumer.call ostep now o).
  Proof using timeless.
    intros p. exists (Node o (fun a => Leaf (Ok (p, match a with Err x => Raise x | _ => Ok a end)))). split; intros s; unfold Consumer.call; cbn [c_store c_posts climb scale].
    - unfold script_step. destruct (to_come s) as [|a r]; [|destruct a]; do 3 eexists; split; reflexivity.
    - rewrite (timeless s now o). destruct (ostep s 0 o) as (s', a). destruct a; do 3 eexists; split; reflexivity.
  Qed.
  Lemma c2_post reg net m url : ctree2 (makeKVPost reg net m url) (makeKVPost reg net m url).
  Proof using.
    unfold makeKVPost. apply c2_bind; [apply c2_ret|]. intros body p.
    exists (Leaf (Ok ((url, body) :: p, match net ((url, body) :: p) with None => Raise HTTPFetchingError | Some (status, b) => httpResponseToMessage reg status b end))).
    split; intros s; do 3 eexists; split; reflexivity.
  Qed.
  Ltac ctrees2 :=
    repeat match goal with
    | |- ctree2 (cret _) (cret _) => apply c2_ret
    | |- ctree2 (cbind _ _) (cbind _ _) => apply c2_bind; [|intros]
    | |- ctree2 has_store has_store => apply c2_has
    | |- ctree2 (Consumer.call _ _ _) (Consumer.call _ _ _) => apply c2_call
    | |- ctree2 (makeKVPost _ _ _ _) (makeKVPost _ _ _ _) => apply c2_post
    | |- ctree2 (ctry _ _) (ctry _ _) => apply c2_try; [|intros]
    | |- ctree2 ?m _ => match m with context [match ?x with _ => _ end] => destruct x end
    end.
  Ltac chandlers2 := match goal with x : exn |- _ => destruct x end; cbn; try exact tt; ctrees2.
  Variable e : uenv.
  Variable reg : dict text text.
  Variable hmac : text -> bytes -> bytes -> bytes.
  Variable udigit : N -> option Z.
  Lemma c2_signature net now m url : ctree2 (idResCheckSignature reg hmac net script_step now m url) (idResCheckSignature reg hmac net ostep now m url).
  Proof using timeless. unfold idResCheckSignature, checkAuth, processCheckAuthResponse. ctrees2. all: chandlers2. Qed.
  Lemma c2_nonce now m ep : ctree2 (idResCheckNonce udigit script_step now m ep) (idResCheckNonce udigit ostep now m ep).
  Proof using timeless. unfold idResCheckNonce. ctrees2. Qed.
  Lemma c2_complete net discover now m ep url :
    ctree2 (complete e reg hmac udigit net discover script_step now m ep url) (complete e reg hmac udigit net discover ostep now m ep url).
  Proof using timeless.
    pose proof (c2_signature net now m) as T1. pose proof (c2_nonce now m) as T2.
    unfold complete, complete_id_res, doIdRes. ctrees2; auto. all: try chandlers2; auto.
  Qed.
End Other.

(** A store that answers from a list, except for the calls of which [known] has the answer. *)
Definition mstep (known : op -> option out) (outs : list out) (now : Z) (o : op) : list out * out :=
  (tl outs, match known o with Some r => r | None => match outs with a :: _ => a | [] => Done end end).
Lemma agree {A} known (t : tree A) : forall outs acc, here (walk t outs) = None ->
  (forall k o r r', nth_error (asked (fst (climb t (mkScript outs acc)))) (List.length acc + k) = Some o -> nth_error outs k = Some r -> known o = Some r' -> r = r') ->
  snd (climb t (mkScript outs acc)) = snd (scale (mstep known) t outs).
Proof.
  induction t as [r|o f IH]; intros outs acc H K; [reflexivity|]. destruct outs as [|a outs]; [discriminate|]. cbn [walk] in H.
  assert (nth_error (asked (fst (climb (Node o f) (mkScript (a :: outs) acc)))) (List.length acc + 0) = Some o) as N0. { rewrite climb_asked by (cbn; lia). auto. }
  assert (mstep known (a :: outs) 0 o = (outs, a)) as M.
  { unfold mstep. cbn [tl]. f_equal. destruct (known o) as [r'|] eqn:E; auto. symmetry. apply (K 0%nat o a r'); auto. }
  cbn [scale]. rewrite M. change (climb (Node o f) (mkScript (a :: outs) acc)) with (climb (f a) (mkScript outs (acc ++ [o]))) in *. apply IH; auto.
  intros k o' r r' X Y Z. apply (K (S k) o' r r'); auto. rewrite app_length in X. cbn in X. rewrite <- X. f_equal. lia.
Qed.

(** ** Consumers *)
Section RP.
  Variable e : uenv.
  Variable reg : dict text text.
  Variable hmac : text -> bytes -> bytes -> bytes.
  Variable udigit : N -> option Z.
  Notation visit_with := (visit_with e reg hmac udigit).
  Notation visit_next := (visit_next e reg hmac udigit).
  Notation visit_done := (visit_done e reg hmac udigit).
  Variable visits : list visit.

  (** A visit gives the same result on the other store, if it has had the same answers. *)
  Lemma done_on known v m outs r : fromPostArgs reg (v_query v) = Ok m -> visit_done v outs = Some r ->
    (forall k o x y, nth_error (asked (fst (visit_with v outs))) k = Some o -> nth_error outs k = Some x -> known o = Some y -> x = y) ->
    exists c, complete e reg hmac udigit (v_net v) (v_discover v) (mstep known) (v_now v) m (v_session v) (v_url v) (mkCst (Some outs) []) = (c, r).
  Proof using.
    intros F D K.
    destruct (c2_complete (mstep known) (fun _ _ _ => eq_refl) e reg hmac udigit (v_net v) (v_discover v) (v_now v) m (v_session v) (v_url v) []) as (t & H1 & H2).
    destruct (H1 (mkScript outs [])) as (s' & p' & r1 & C1 & E1). destruct (H2 outs) as (s2 & p2 & r2 & C2 & E2).
    assert (visit_with v outs = (s', r1)) as W. { unfold ConsumerConc.visit_with, respond. rewrite F, E1. auto. }
    unfold ConsumerConc.visit_done, ConsumerConc.visit_next in D. rewrite W in D, K. cbn [fst snd] in D, K.
    assert (s' = fst (climb t (mkScript outs []))) as Es by (rewrite C1; auto).
    assert (here (walk t outs) = None) as N.
    { pose proof (climb_asked0 t outs (List.length outs) (Nat.le_refl _)) as X. rewrite firstn_all, <- Es in X. destruct (nth_error (asked s') (List.length outs)); [discriminate|auto]. }
    assert (snd (climb t (mkScript outs [])) = snd (scale (mstep known) t outs)) as Q.
    { apply agree; auto. rewrite <- Es. exact K. }
    rewrite C1, C2 in Q. cbn [snd] in Q. injection Q as _ Q. subst r2. exists (mkCst (Some s2) p2). rewrite E2. f_equal.
    rewrite Es in D. rewrite climb_asked0, firstn_all, N in D by auto. congruence.
  Qed.

  (** What the store answers, if all is well. *)
  Definition well (server h : text) (a : assoc) (nserver : text) (ts : Z) (salt : text) (o : op) : option out :=
    match o with
    | GetA s (Some h') => if text_eqb s server && text_eqb h' h then Some (Got (Some a)) else None
    | UseN s t x => if text_eqb s nserver && (t =? ts) && text_eqb x salt then Some (Flag true) else None
    | _ => None
    end.

  Lemma answers_well l n2 k0 t0 a x n1 i v server nserver ts salt :
    let log := l ++ n2 ++ Ended k0 t0 (StoreA server a) x :: n1 in let h := a_handle a in
    store_log log -> obeys visit_next visits log -> nth_error visits i = Some v ->
    (forall y, x <> Err y) -> h <> [] ->
    running (n2 ++ Ended k0 t0 (StoreA server a) x :: n1) i = None -> answers_in i (n2 ++ Ended k0 t0 (StoreA server a) x :: n1) = [] ->
    (forall k t o, In (Began k t o) n1 -> touches server h o = true -> k = k0 /\ o = StoreA server a) ->
    (forall k t o, In (Began k t o) (l ++ n2) -> touches server h o = false) ->
    (forall t o, In (Ended i t (GetA server (Some h)) o) log -> t < a_issued a + a_lifetime a) ->
    single nserver ts salt i log -> (forall t o, In (Ended i t (UseN nserver ts salt) o) log -> t <= ts + 18000) ->
    (forall t o y, ~ In (Ended i t o (Err y)) log) ->
    forall k o y z, nth_error (asked (fst (visit_with v (answers_in i log)))) k = Some o -> nth_error (answers_in i log) k = Some y -> well server h a nserver ts salt o = Some z -> y = z.
  Proof using.
    intros log h SL O Nv Nx Ne Ri Ai Be Af Fr Si Nt Ok1.
    destruct (store_log_atomic log SL) as (now0 & A & S & La). destruct (ends_ok_all now0 A S) as (_ & E). rewrite La in E.
    intros k o y z Ka Ky W. destruct (visit_kth _ _ _ _ _ _ _ _ _ _ _ E O Nv Ka Ky) as (p2 & t & p1 & El & _ & Ru).
    assert (In (Ended i t o y) log) as Iy. { rewrite El. apply in_or_app. right. left. auto. }
    destruct o as [s b|s [h'|]|s b|s t' y'| |]; try discriminate; cbn [well] in W.
    + destruct (_ && _) eqn:Q'; [|discriminate]. apply andb_true_iff in Q' as (Q1 & Q2). apply text_eqb_eq in Q1, Q2. subst s h'. injection W as <-.
      destruct (ended_after i l (n2 ++ Ended k0 t0 (StoreA server a) x :: n1) p2 t _ _ p1 El Ai) as (q & -> & ->).
      destruct (lookup_finds log k0 t0 server a x p2 i t y q n2 n1) as [X|X]; auto.
      * intros k' t' o' I. apply (Af k' t'). rewrite <- app_assoc. apply in_or_app. right. right. auto.
      * apply (Fr t y). auto.
      * exfalso. subst y. eapply Ok1; eauto.
    + destruct (_ && _) eqn:Q'; [|discriminate]. rewrite !andb_true_iff, !text_eqb_eq, Z.eqb_eq in Q'. destruct Q' as [[-> ->] ->]. injection W as <-.
      destruct (C190_first_use nserver ts salt log i t y SL Si Iy) as [X|X]; auto; [eapply Nt; eauto|]. exfalso. subst y. eapply Ok1; eauto.
  Qed.

  (** C190: a visit with a genuine response ends with a success, if the association has been put
      into the store and the visit begins afterwards; if nobody stores or removes anything else under
      its handle, and it has not run out; if the visit is the only one to use the nonce, begins to use it once, and in time;
      and if no call of its fails. *)
  Theorem C190_accepted : forall l n2 k0 t0 a x n1 i v m ep0 ep' rto server signed sig nserver nonce ts salt r,
    let log := l ++ n2 ++ Ended k0 t0 (StoreA server a) x :: n1 in let h := a_handle a in let query := v_query v in
    store_log log -> obeys visit_next visits log -> nth_error visits i = Some v ->
    (* the response *)
    fair_query reg query -> fromPostArgs reg query = Ok m -> wire_value query (u "ns") <> Some THE_OTHER_OPENID1_NS ->
    wire_value query (u "mode") = Some (u "id_res") -> (asks_v2 query = false -> wire_value query (u "user_setup_url") = None) ->
    wire_value query (u "return_to") = Some rto -> wire_value query (u "assoc_handle") = Some h ->
    wire_value query (u "signed") = Some signed -> wire_value query (u "sig") = Some sig ->
    (forall k, In k (to_sign (asks_v2 query)) -> wire_value query k <> None -> In k (splitc 44 signed)) ->
    returned e (v_url v) rto query -> session_matches e (v_discover v) query (v_session v) ep0 ep' server ->
    mac_valid hmac a query signed sig -> mac_bytes hmac -> v_now v < a_issued a + a_lifetime a ->
    nonce_of query = Some (nserver, nonce) -> Nonce.split udigit nonce = Ok (ts, salt) ->
    (* the association *)
    (forall y, x <> Err y) -> h <> [] ->
    running (n2 ++ Ended k0 t0 (StoreA server a) x :: n1) i = None -> answers_in i (n2 ++ Ended k0 t0 (StoreA server a) x :: n1) = [] ->
    (forall k t o, In (Began k t o) n1 -> touches server h o = true -> k = k0 /\ o = StoreA server a) ->
    (forall k t o, In (Began k t o) (l ++ n2) -> touches server h o = false) ->
    (forall t o, In (Ended i t (GetA server (Some h)) o) log -> t < a_issued a + a_lifetime a) ->
    (* the nonce *)
    single nserver ts salt i log -> (forall t o, In (Ended i t (UseN nserver ts salt) o) log -> t <= ts + 18000) ->
    (forall t o y, ~ In (Ended i t o (Err y)) log) ->
    visit_done v (answers_in i log) = Some r -> r = Ok (Success ep' m (map (fun k => u "openid." ++ k) (splitc 44 signed))).
  Proof using.
    intros l n2 k0 t0 a x n1 i v m ep0 ep' rto server signed sig nserver nonce ts salt r log h query SL O Nv Q F Ho Hm Su Hr Hh Hs Hg Sg Rt Se Mv Mb Ex No Sp Nx Ne Ri Ai Be Af Fr Si Nt Ok1 D.
    destruct (store_log_atomic log SL) as (now0 & A & S & La). destruct (ends_ok_all now0 A S) as (_ & E). rewrite La in E.
    destruct (done_on (well server h a nserver ts salt) v m (answers_in i log) r F D) as (c & C).
    - eapply answers_well; eauto.
    - destruct (C58_consumer_accepts e reg hmac udigit (v_net v) (v_discover v) (mstep (well server h a nserver ts salt)) (v_now v) query m (v_session v) ep0 ep' (v_url v) rto server h signed sig nserver nonce ts salt (fun _ => False) (mkCst (Some (answers_in i log)) [])) as (s' & K); auto.
      + eapply (by_key _ _ _ _ _ _ _ _ _ _ _ _ (answers_in i log)); [reflexivity| |exact Ex|exact Mv|exact Mb]. unfold mstep, well. rewrite !text_eqb_refl. reflexivity.
      + intros st X. injection X as <-. intros os _. split; [|intros ? ? []]. eexists. unfold mstep at 1.
        assert (well server h a nserver ts salt (UseN nserver ts salt) = Some (Flag true)) as -> by (cbn [well]; rewrite !text_eqb_refl, Z.eqb_refl; reflexivity). reflexivity.
      + rewrite K in C. congruence.
  Qed.

  (** What the store answers, if the association is not there. *)
  Definition bare (server h nserver : text) (ts : Z) (salt : text) (o : op) : option out :=
    match o with
    | GetA s (Some h') => if text_eqb s server && text_eqb h' h then Some (Got None) else None
    | UseN s t x => if text_eqb s nserver && (t =? ts) && text_eqb x salt then Some (Flag true) else None
    | _ => None
    end.
  Lemma rest_not_err known os : forall st now y, Forall (fun r => forall y, r <> Err y) st ->
    Forall (fun r => forall y, r <> Err y) (calls_on (mstep known) now os st) /\
    (forall o, known o = None -> snd (mstep known (calls_on (mstep known) now os st) now o) <> Err y).
  Proof using.
    intros st now y F. assert (Forall (fun r => forall y, r <> Err y) (calls_on (mstep known) now os st)) as X.
    { unfold calls_on. revert st F. induction os as [|o os IH]; intros st F; cbn [fold_left]; auto. apply IH. cbn. destruct F; auto; constructor. }
    split; auto. intros o N. unfold mstep at 1. cbn [snd]. rewrite N. destruct X; [discriminate|auto].
  Qed.

  (** C190: likewise without an association: nobody has begun to store one under the handle, and
      the provider, asked about the response, says that it is valid. *)
  Theorem C190_confirmed : forall log i v m ep0 ep' rto server h signed sig nserver nonce ts salt r,
    let query := v_query v in
    store_log log -> obeys visit_next visits log -> nth_error visits i = Some v ->
    fair_query reg query -> fromPostArgs reg query = Ok m -> wire_value query (u "ns") <> Some THE_OTHER_OPENID1_NS ->
    wire_value query (u "mode") = Some (u "id_res") -> (asks_v2 query = false -> wire_value query (u "user_setup_url") = None) ->
    wire_value query (u "return_to") = Some rto -> wire_value query (u "assoc_handle") = Some h -> h <> [] ->
    wire_value query (u "signed") = Some signed -> wire_value query (u "sig") = Some sig ->
    (forall k, In k (to_sign (asks_v2 query)) -> wire_value query k <> None -> In k (splitc 44 signed)) ->
    returned e (v_url v) rto query -> session_matches e (v_discover v) query (v_session v) ep0 ep' server ->
    OidUtilFacts.sendable query -> (forall k, In k (splitc 44 signed) -> wire_value query k <> None /\ startswith k (u "ns.") = false) ->
    confirms reg (v_net v) query [] server (fun _ => True) ->
    nonce_of query = Some (nserver, nonce) -> Nonce.split udigit nonce = Ok (ts, salt) ->
    (forall k t b, In (Began k t (StoreA server b)) log -> a_handle b <> h) ->
    single nserver ts salt i log -> (forall t o, In (Ended i t (UseN nserver ts salt) o) log -> t <= ts + 18000) ->
    (forall t o y, ~ In (Ended i t o (Err y)) log) ->
    visit_done v (answers_in i log) = Some r -> r = Ok (Success ep' m (map (fun k => u "openid." ++ k) (splitc 44 signed))).
  Proof using.
    intros log i v m ep0 ep' rto server h signed sig nserver nonce ts salt r query SL O Nv Q F Ho Hm Su Hr Hh Ne Hs Hg Sg Rt Se Sd Ar Cf No Sp Nb Si Nt Ok1 D.
    destruct (store_log_atomic log SL) as (now0 & A & S & La). destruct (ends_ok_all now0 A S) as (_ & E). rewrite La in E.
    destruct (done_on (bare server h nserver ts salt) v m (answers_in i log) r F D) as (c & C).
    - intros k o y z Ka Ky W. destruct (visit_kth _ _ _ _ _ _ _ _ _ _ _ E O Nv Ka Ky) as (p2 & t & p1 & El & _ & Ru).
      assert (In (Ended i t o y) log) as Iy. { rewrite El. apply in_or_app. right. left. auto. }
      destruct o as [s b|s [h'|]|s b|s t' y'| |]; try discriminate; cbn [bare] in W.
      + destruct (_ && _) eqn:Q'; [|discriminate]. apply andb_true_iff in Q' as (Q1 & Q2). apply text_eqb_eq in Q1, Q2. subst s h'. injection W as <-.
        destruct (lookup_nothing log i t server h y SL Ne Nb Iy) as [X|X]; auto. exfalso. subst y. eapply Ok1; eauto.
      + destruct (_ && _) eqn:Q'; [|discriminate]. rewrite !andb_true_iff, !text_eqb_eq, Z.eqb_eq in Q'. destruct Q' as [[-> ->] ->]. injection W as <-.
        destruct (C190_first_use nserver ts salt log i t y SL Si Iy) as [X|X]; auto; [eapply Nt; eauto|]. exfalso. subst y. eapply Ok1; eauto.
    - assert (Forall (fun r => forall y, r <> Err y) (answers_in i log)) as Fe.
      { apply Forall_forall. intros y I z ->. apply In_nth_error in I as (k & K). assert (k < List.length (answers_in i log))%nat as L by (apply nth_error_Some; congruence).
        destruct (nth_ended _ visits i v Nv log k E O L) as (l2 & t & o' & r' & l1 & El & _ & B & _). assert (r' = Err z) as -> by congruence. apply (Ok1 t o' z). rewrite El. apply in_or_app. right. left. auto. }
      destruct (C58_consumer_accepts e reg hmac udigit (v_net v) (v_discover v) (mstep (bare server h nserver ts salt)) (v_now v) query m (v_session v) ep0 ep' (v_url v) rto server h signed sig nserver nonce ts salt (fun _ => True) (mkCst (Some (answers_in i log)) [])) as (s' & K); auto.
      + apply by_server; auto. right. exists (answers_in i log), (tl (answers_in i log)). split; [reflexivity|]. unfold mstep, bare. rewrite !text_eqb_refl. reflexivity.
      + intros st X. injection X as <-. intros os _. split.
        * eexists. unfold mstep at 1. assert (bare server h nserver ts salt (UseN nserver ts salt) = Some (Flag true)) as -> by (cbn [bare]; rewrite !text_eqb_refl, Z.eqb_refl; reflexivity). reflexivity.
        * intros h' y _. apply rest_not_err; auto.
      + rewrite K in C. congruence.
  Qed.
End RP.
Print Assumptions C190_accepted.
Print Assumptions C190_confirmed.

(** The visit of C182_example that succeeds, by itself: the premises of C190_first_use and what C190_accepted
    says about the store; the nonce is accepted, and so is the response. *)
Definition rp_run1 : list SqlConc.label :=
  [SqlConc.Call 2 (StoreA ex_server ex_assoc)] ++ whole_call 2 ++
  [SqlConc.Call 0 (GetA ex_server (Some (u "h1"))); SqlConc.Step 0; SqlConc.Step 0; SqlConc.Step 0; SqlConc.Tick 1;
   SqlConc.Call 0 (UseN ex_server 1001 (u "salt")); SqlConc.Step 0; SqlConc.Step 0; SqlConc.Step 0].
Definition rp_log1 : list event := trace sqlite [0; 1; 2]%nat (SqlConc.sys_init 1000) rp_run1 [].
Example C190_example :
  store_log rp_log1 /\ obeys next0 both rp_log1 /\ single ex_server 1001 (u "salt") 0 rp_log1 /\
  (exists t, In (Ended 0 t (UseN ex_server 1001 (u "salt")) (Flag true)) rp_log1 /\ t <= 1001 + 18000) /\
  (exists l t n1, rp_log1 = l ++ [] ++ Ended 2 t (StoreA ex_server ex_assoc) Done :: n1 /\
     running (Ended 2 t (StoreA ex_server ex_assoc) Done :: n1) 0 = None /\ answers_in 0 (Ended 2 t (StoreA ex_server ex_assoc) Done :: n1) = [] /\
     (forall k t o, In (Began k t o) (l ++ []) -> touches ex_server (a_handle ex_assoc) o = false)) /\
  match visit_done plain_env [] toy_hmac (fun _ => None) (nth 0 both (ex_visit 0 [] [])) (answers_in 0 rp_log1) with
  | Some (Ok (Success _ _ _)) => True | _ => False end.
Proof.
  split; [|split; [|split; [|split; [|split]]]].
  - apply by_sql; [apply sqlite_keyed|]. repeat (apply Forall_cons || apply Forall_nil); cbn [SqlAtomicFacts.label_ok sent_op]; auto.
    + split; [exists ex_server; reflexivity|]. split; [exists (u "h1"); reflexivity|left; reflexivity].
    + split; [exists ex_server; reflexivity|]. intros x E. injection E as <-. exists (u "h1"). reflexivity.
    + split; [exists ex_server; reflexivity|exists (u "salt"); reflexivity].
  - let l := eval vm_compute in rp_log1 in change (obeys next0 both l).
    cbn [obeys]. repeat match goal with |- _ /\ _ => split end; try exact I; intros v E; cbn [nth_error both] in E; first [discriminate E|injection E as <-; vm_compute; reflexivity].
  - let l := eval vm_compute in rp_log1 in change (single ex_server 1001 (u "salt") 0 l).
    intros p2 k t p1 E.
    repeat match type of E with
    | [] = _ => exfalso; destruct p2; discriminate E
    | _ => let E1 := fresh "E1" in let y := fresh "y" in let p2' := fresh "p2" in destruct p2 as [|y p2']; cbn [app] in E; apply cons_eq in E as (E1 & E);
           [first [discriminate E1|injection E1 as <- <-; subst p1; split; [reflexivity|]; split; [lia|]; intros k' t' I; cbn [In] in I; intuition discriminate]|clear E1; rename p2' into p2]
    end.
  - exists 1001. split; [vm_compute; left; reflexivity|lia].
  - let l := eval vm_compute in rp_log1 in change rp_log1 with l.
    eexists [_; _; _; _], _, [_]. cbn [app]. split; [reflexivity|]. split; [reflexivity|]. split; [reflexivity|].
    intros k t o I. cbn [In] in I. destruct I as [I|[I|[I|[I|[]]]]]; first [discriminate I|injection I as _ _ <-; reflexivity].
  - vm_compute. exact I.
Qed.

(** The visit of C187_example, which has no association and asks the provider: the premises of C190_confirmed about the store. *)
Example C190_confirmed_example :
  single op_url 1700000000 (u "salt42") 0 rp187_log /\
  (forall k t b, In (FileSys.Began k t (StoreA op_url b)) rp187_log -> a_handle b <> a_handle op_assoc) /\
  (forall t o y, ~ In (FileSys.Ended 0 t o (Err y)) rp187_log) /\
  (exists t, In (FileSys.Ended 0 t (GetA op_url (Some (a_handle op_assoc))) (Got None)) rp187_log) /\
  exists ep, success_in plain_env [] long_mac (fun _ => None) [visit187 net187] rp187_log 0 (visit187 net187) ep.
Proof.
  split; [|split; [|split; [|split]]].
  - let l := eval vm_compute in rp187_log in change (single op_url 1700000000 (u "salt42") 0 l).
    intros p2 k t p1 E.
    repeat match type of E with
    | [] = _ => exfalso; destruct p2; discriminate E
    | _ => let E1 := fresh "E1" in let y := fresh "y" in let p2' := fresh "p2" in destruct p2 as [|y p2']; cbn [app] in E; apply cons_eq in E as (E1 & E);
           [first [discriminate E1|injection E1 as <- <-; subst p1; split; [reflexivity|]; split; [lia|]; intros k' t' I; cbn [In] in I; intuition discriminate]|clear E1; rename p2' into p2]
    end.
  - intros k t b H. exfalso.
    assert (forallb (fun ev => match ev with FileSys.Began _ _ (StoreA _ _) => false | _ => true end) rp187_log = true) as D by (vm_compute; reflexivity).
    rewrite forallb_forall in D. apply D in H. discriminate H.
  - intros t o y H.
    assert (forallb (fun ev => match ev with FileSys.Ended _ _ _ (Err _) => false | _ => true end) rp187_log = true) as D by (vm_compute; reflexivity).
    rewrite forallb_forall in D. apply D in H. discriminate H.
  - exists 1700000005. vm_compute. do 4 right. left. reflexivity.
  - destruct visit187_succeeds as (ep & Su & _). exists ep. exact Su.
Qed.
