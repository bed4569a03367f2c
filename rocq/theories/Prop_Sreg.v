(** Property C54: simple registration (openid/extensions/sreg.py). *)
From Verif Require Import Py PyFacts Message MessageSpec MessageFacts MessageWire MessageParse MessageRound Prop_Message
  Endpoint Consumer ExtFacts Sreg.

Local Arguments u : simpl never.

(** ** Specification *)
(** The first occurrences in a list. *)
Fixpoint firsts (l : list text) : list text :=
  match l with [] => [] | x :: r => x :: filter (fun y => negb (text_eqb x y)) (firsts r) end.
Definition defined (f : text) : bool := mem_text f data_fields.
(** The fields named in a comma separated list. *)
Definition listed (o : option text) : list text := match o with Some t => splitc 44 t | None => [] end.
(** What a list asks for: its defined fields, once each, in order. *)
Definition asked (o : option text) : list text := firsts (filter defined (listed o)).
Definition none_of (xs : list text) (f : text) : bool := negb (mem_text f xs).

(** Requests the class can hold. *)
Definition valid_request (r : sreg_request) : Prop :=
  NoDup (sq_required r ++ sq_optional r) /\ forall f, In f (sq_required r ++ sq_optional r) -> In f data_fields.
Definition nonempty (o : option text) : option text := match o with Some (_ :: _) => o | _ => None end.

(** ** Lemmas *)
Lemma filter_ext' {A} (f g : A -> bool) l : (forall x, In x l -> f x = g x) -> filter f l = filter g l.
Proof. apply filter_ext_in. Qed.
Lemma filter_filter' {A} (f g : A -> bool) l : filter f (filter g l) = filter (fun x => g x && f x) l.
Proof. induction l as [|x l IH]; auto. simpl. destruct (g x) eqn:G; simpl; [destruct (f x); rewrite IH; auto|auto]. Qed.
Lemma In_firsts l x : In x (firsts l) <-> In x l.
Proof.
  induction l as [|y l IH]; [tauto|]. cbn [firsts In]. rewrite filter_In, IH. destruct (text_eqb y x) eqn:E.
  - apply text_eqb_eq in E. subst. tauto.
  - apply text_eqb_neq in E. simpl. tauto.
Qed.
Lemma NoDup_firsts l : NoDup (firsts l).
Proof.
  induction l as [|y l IH]; [constructor|]. cbn [firsts]. constructor; [|apply NoDup_filter; auto].
  rewrite filter_In, text_eqb_refl. intros [_ K]. discriminate K.
Qed.
Lemma firsts_NoDup l : NoDup l -> firsts l = l.
Proof.
  induction 1 as [|y l N1 N2 IH]; auto. cbn [firsts]. rewrite IH. f_equal.
  clear -N1. induction l as [|x l IH]; auto. cbn [filter]. destruct (text_eqb y x) eqn:E.
  - apply text_eqb_eq in E. subst. exfalso. apply N1. left; auto.
  - cbn [negb]. f_equal. apply IH. intros K. apply N1. right; auto.
Qed.
Lemma filter_all {A} (f : A -> bool) l : (forall x, In x l -> f x = true) -> filter f l = l.
Proof. induction l as [|x l IH]; intros H; auto. simpl. rewrite H by (left; auto). f_equal. apply IH. intros y Hy. apply H. right; auto. Qed.
Lemma remove_first_filter x l : NoDup l -> remove_first x l = filter (fun y => negb (text_eqb x y)) l.
Proof.
  induction 1 as [|y l N1 N2 IH]; auto. cbn [remove_first filter]. destruct (text_eqb x y) eqn:E; cbn [negb].
  - apply text_eqb_eq in E. subst. symmetry. apply filter_all. intros z Hz. apply negb_true_iff, text_eqb_neq. intros ->. contradiction.
  - rewrite IH. reflexivity.
Qed.
Lemma NoDup_snoc {A} (l : list A) x : NoDup l -> ~ In x l -> NoDup (l ++ [x]).
Proof. intros N H. apply NoDup_rev in N. rewrite <- (rev_involutive (l ++ [x])). apply NoDup_rev. rewrite rev_app_distr. simpl. constructor; auto. rewrite <- in_rev. auto. Qed.
Lemma NoDup_app_inv {A} (a b : list A) : NoDup (a ++ b) <-> NoDup a /\ NoDup b /\ forall x, In x a -> ~ In x b.
Proof.
  induction a as [|x a IH]; cbn [app].
  - split; [intros N; split; [constructor|auto]|tauto].
  - split.
    + intros N. inversion N as [|? ? N1 N2]; subst. apply IH in N2 as (M1 & M2 & M3). rewrite in_app_iff in N1. split; [constructor; tauto|]. split; [auto|].
      intros y [<-|Hy]; auto.
    + intros (N1 & N2 & N3). inversion N1; subst. constructor.
      * rewrite in_app_iff. intros [K|K]; auto. apply (N3 x); [left; auto|auto].
      * apply IH. split; [auto|]. split; [auto|]. intros y Hy. apply N3. right; auto.
Qed.
Lemma mem_text_app x a b : mem_text x (a ++ b) = mem_text x a || mem_text x b.
Proof. unfold mem_text. apply existsb_app. Qed.

(** One list of a request, not strict, as [parseExtensionArgs] adds it to a new object. *)
Definition lenient (required : bool) (r : sreg_request) (n : text) : res sreg_request :=
  match requestField r n required false with
  | Raise x => if isValueError x then if false then Raise x else Ok r else Raise x
  | ok => ok
  end.
Lemma none_of_snoc xs x f : none_of (xs ++ [x]) f = none_of xs f && negb (text_eqb x f).
Proof. unfold none_of. rewrite mem_text_app. cbn [mem_text existsb]. rewrite orb_false_r, negb_orb, (text_eqb_sym f x). reflexivity. Qed.
Lemma step_firsts (P : list text) x l : none_of P x = true ->
  (P ++ [x]) ++ filter (none_of (P ++ [x])) (firsts l) = P ++ filter (none_of P) (firsts (x :: l)).
Proof.
  intros M. cbn [firsts filter]. rewrite M, <- app_assoc. cbn [app]. do 2 f_equal. rewrite filter_filter'. apply filter_ext'. intros f _.
  rewrite none_of_snoc. apply andb_comm.
Qed.
Lemma skip_firsts (P : list text) x l : none_of P x = false ->
  filter (none_of P) (firsts (x :: l)) = filter (none_of P) (firsts l).
Proof.
  intros M. cbn [firsts filter]. rewrite M, filter_filter'. apply filter_ext'. intros f _.
  destruct (text_eqb x f) eqn:E; [|reflexivity]. apply text_eqb_eq in E. subst f. rewrite M. reflexivity.
Qed.
Lemma none_of_mem xs x : none_of xs x = negb (mem_text x xs).
Proof. reflexivity. Qed.

Lemma add_required l : forall R p ns,
  foldM (lenient true) (mkSReq R [] p ns) l = Ok (mkSReq (R ++ filter (none_of R) (firsts (filter defined l))) [] p ns).
Proof.
  induction l as [|x l IH]; intros R p ns.
  - cbn [foldM filter firsts]. rewrite app_nil_r. reflexivity.
  - cbn [foldM filter]. unfold lenient at 1. unfold requestField, checkFieldName. fold (defined x). destruct (defined x) eqn:D.
    + cbn [bind sq_required sq_optional sq_policy_url sq_ns]. destruct (mem_text x R) eqn:M.
      * cbn [bind]. rewrite IH, skip_firsts by (rewrite none_of_mem, M; reflexivity). reflexivity.
      * cbn [mem_text existsb bind sq_required sq_optional sq_policy_url sq_ns]. rewrite IH, step_firsts by (rewrite none_of_mem, M; reflexivity). reflexivity.
    + cbn [bind isValueError]. apply IH.
Qed.
Lemma add_optional l : forall R O p ns,
  foldM (lenient false) (mkSReq R O p ns) l =
  Ok (mkSReq R (O ++ filter (none_of O) (filter (none_of R) (firsts (filter defined l)))) p ns).
Proof.
  induction l as [|x l IH]; intros R O p ns.
  - cbn [foldM filter firsts]. rewrite app_nil_r. reflexivity.
  - cbn [foldM filter]. unfold lenient at 1. unfold requestField, checkFieldName. fold (defined x). destruct (defined x) eqn:D.
    + cbn [bind sq_required sq_optional sq_policy_url sq_ns]. destruct (mem_text x R) eqn:M.
      * cbn [bind]. rewrite IH, skip_firsts by (rewrite none_of_mem, M; reflexivity). reflexivity.
      * assert (none_of R x = true) as M' by (rewrite none_of_mem, M; reflexivity).
        destruct (mem_text x O) eqn:Mo.
        -- cbn [bind]. rewrite IH. do 2 f_equal. f_equal. cbn [firsts filter]. rewrite M'. cbn [filter]. rewrite none_of_mem, Mo. cbn [negb].
           rewrite !filter_filter'. apply filter_ext'. intros f _. destruct (text_eqb x f) eqn:E; [|reflexivity].
           apply text_eqb_eq in E. subst f. rewrite M', none_of_mem, Mo. reflexivity.
        -- cbn [bind sq_required sq_optional sq_policy_url sq_ns]. rewrite IH. do 2 f_equal. cbn [firsts filter]. rewrite M'. cbn [filter].
           rewrite (none_of_mem O x), Mo. cbn [negb]. rewrite <- app_assoc. cbn [app]. do 2 f_equal. rewrite !filter_filter'. apply filter_ext'. intros f _.
           rewrite none_of_snoc. destruct (none_of R f), (none_of O f), (text_eqb x f); reflexivity.
    + cbn [bind isValueError]. apply IH.
Qed.

Lemma parse_list_eq r o required : parse_list r o required false = foldM (lenient required) r (match o with Some (c :: s) => splitc 44 (c :: s) | _ => [] end).
Proof. destruct o as [[|c s]|]; reflexivity. Qed.
Lemma listed_asked o : firsts (filter defined (match o with Some (c :: s) => splitc 44 (c :: s) | _ => [] end)) = asked o.
Proof. destruct o as [[|c s]|]; reflexivity. Qed.

(** ** C54 *)
(** Reading a request: exactly the defined fields listed, once each and in order; a field listed
    as required is not optional; nothing in the arguments makes it fail. *)
Theorem C54_parse_exact :
  forall p ns args,
    sreg_parseExtensionArgs (mkSReq [] [] p ns) args false =
    Ok (mkSReq (asked (dget text_eqb (u "required") args))
               (filter (none_of (asked (dget text_eqb (u "required") args))) (asked (dget text_eqb (u "optional") args)))
               (dget text_eqb (u "policy_url") args) ns).
Proof.
  intros p ns args. unfold sreg_parseExtensionArgs. rewrite parse_list_eq, add_required, listed_asked. cbn [bind app].
  rewrite (filter_all (none_of [])) by reflexivity.
  rewrite parse_list_eq, add_optional, listed_asked. cbn [bind app sq_required sq_optional sq_ns].
  rewrite (filter_all (none_of [])) by reflexivity. reflexivity.
Qed.
Print Assumptions C54_parse_exact.
Example C54_parse_example :
  sreg_parseExtensionArgs (mkSReq [] [] None sreg_1_1)
    [(u "required", u "email,shoesize,email"); (u "optional", u "nickname,email,,dob"); (u "policy_url", u "http://rp/p")] false =
  Ok (mkSReq [u "email"] [u "nickname"; u "dob"] (Some (u "http://rp/p")) sreg_1_1).
Proof. vm_compute. reflexivity. Qed.

(** Whatever is asked through the interface, the two lists hold what was asked: a field is
    required if it was ever asked for as required, optional if only as optional; the lists have
    no repetitions and only defined fields. *)
Definition request_call := (text * bool * bool)%type.
Definition call (r : sreg_request) (c : request_call) : res sreg_request := requestField r (fst (fst c)) (snd (fst c)) (snd c).
Lemma call_inv cs : forall r r', valid_request r -> foldM call r cs = Ok r' ->
  valid_request r' /\ sq_policy_url r' = sq_policy_url r /\ sq_ns r' = sq_ns r /\
  (forall f, In f (sq_required r') <-> In f (sq_required r) \/ exists s, In (f, true, s) cs) /\
  (forall f, In f (sq_optional r') <->
     (In f (sq_optional r) \/ exists s, In (f, false, s) cs) /\ ~ In f (sq_required r')).
Proof.
  induction cs as [|[[f q] s] cs IH]; intros r r' V H.
  - cbn [foldM] in H. injection H as <-. split; auto. split; auto. split; auto. split; [intros f; split; [auto|intros [|[? []]]; auto]|].
    intros f. split; [|intros [[|[? []]] ?]; auto]. intros Hf. split; auto. intros K. destruct V as [V _].
    apply in_split in K as (a & b & E). rewrite E in V. rewrite <- app_assoc in V. apply NoDup_remove_2 in V. apply V.
    apply in_or_app. right. apply in_or_app. right. exact Hf.
  - cbn [foldM] in H. apply bind_Ok in H as (r1 & H1 & H). unfold call in H1. cbn [fst snd] in H1.
    assert (valid_request r1 /\ sq_policy_url r1 = sq_policy_url r /\ sq_ns r1 = sq_ns r /\
            (forall g, In g (sq_required r1) <-> In g (sq_required r) \/ (g = f /\ q = true)) /\
            (forall g, In g (sq_optional r1) <-> (In g (sq_optional r) \/ (g = f /\ q = false)) /\ ~ In g (sq_required r1))) as (V1 & P1 & N1 & A1 & B1).
    { unfold requestField, checkFieldName in H1. destruct (mem_text f data_fields) eqn:D; [|discriminate H1]. cbn [bind] in H1.
      apply mem_text_In in D. destruct V as [V W].
      assert (forall g, In g (sq_optional r) -> ~ In g (sq_required r)) as Disj.
      { intros g Hg K. apply in_split in K as (a & b & E). rewrite E in V. rewrite <- app_assoc in V. apply NoDup_remove_2 in V. apply V.
        apply in_or_app. right. apply in_or_app. right. exact Hg. }
      assert (NoDup (sq_required r) /\ NoDup (sq_optional r)) as [V1 V2] by (apply NoDup_app_inv in V; tauto).
      assert (forall R O : list text, NoDup R -> NoDup O -> (forall g, In g O -> ~ In g R) -> NoDup (R ++ O)) as ND.
      { clear. intros R O H1 H2 H3. apply NoDup_app_inv. split; [auto|]. split; [auto|]. intros x Hx K. apply (H3 x K Hx). }
      assert (forall O, (forall g, In g O -> In g (sq_optional r)) -> NoDup O -> ~ In f (sq_required r) -> ~ In f O ->
              let a := if q then mkSReq (sq_required r ++ [f]) O (sq_policy_url r) (sq_ns r)
                       else mkSReq (sq_required r) (O ++ [f]) (sq_policy_url r) (sq_ns r) in
              valid_request a /\ sq_policy_url a = sq_policy_url r /\ sq_ns a = sq_ns r /\
              (forall g, In g (sq_required a) <-> In g (sq_required r) \/ (g = f /\ q = true)) /\
              (forall g, In g (sq_optional a) <-> (In g O \/ (g = f /\ q = false)))) as App.
      { intros O HO NO F1 F2 a. unfold a, valid_request. destruct q; cbn [sq_required sq_optional sq_policy_url sq_ns].
        - split; [split|].
          + apply ND; auto.
            * apply NoDup_snoc; auto.
            * intros g Hg K. apply in_app_or in K as [K|[<-|[]]]; auto. apply (Disj g); auto.
          + intros g K. rewrite !in_app_iff in K. simpl in K. destruct K as [[K|[<-|[]]]|K]; auto; apply W; apply in_or_app; auto.
          + split; auto. split; auto. split; intros g.
            * rewrite in_app_iff. simpl. intuition.
            * intuition discriminate.
        - split; [split|].
          + apply ND; auto.
            * apply NoDup_snoc; auto.
            * intros g Hg K. apply in_app_or in Hg as [Hg|[<-|[]]]; auto. apply (Disj g); auto.
          + intros g K. rewrite !in_app_iff in K. simpl in K. destruct K as [K|[K|[<-|[]]]]; auto; apply W; apply in_or_app; auto.
          + split; auto. split; auto. split; intros g.
            * intuition discriminate.
            * rewrite in_app_iff. simpl. intuition. }
      cbv zeta in App.
      assert (forall a, valid_request a -> forall g, In g (sq_optional a) -> ~ In g (sq_required a)) as Disj'.
      { intros a [V' _] g Hg K. apply in_split in K as (x & y & E). rewrite E in V'. rewrite <- app_assoc in V'. apply NoDup_remove_2 in V'. apply V'.
        apply in_or_app. right. apply in_or_app. right. exact Hg. }
      assert (forall (b : bool) (x y : res sreg_request), (if b then x else y) = Ok r1 -> (b = true /\ x = Ok r1) \/ (b = false /\ y = Ok r1)) as IfOk
        by (intros [|]; auto).
      assert (mem_text f (sq_required r) = false -> mem_text f (sq_optional r) = false ->
              (if q then mkSReq (sq_required r ++ [f]) (sq_optional r) (sq_policy_url r) (sq_ns r)
               else mkSReq (sq_required r) (sq_optional r ++ [f]) (sq_policy_url r) (sq_ns r)) = r1 ->
              valid_request r1 /\ sq_policy_url r1 = sq_policy_url r /\ sq_ns r1 = sq_ns r /\
              (forall g, In g (sq_required r1) <-> In g (sq_required r) \/ (g = f /\ q = true)) /\
              (forall g, In g (sq_optional r1) <-> (In g (sq_optional r) \/ (g = f /\ q = false)) /\ ~ In g (sq_required r1))) as Fresh.
      { intros M1 M2 <-. apply mem_text_false in M1, M2. destruct (App (sq_optional r)) as (X1 & X2 & X3 & X4 & X5); auto.
        split; [exact X1|]. split; [exact X2|]. split; [exact X3|]. split; [exact X4|]. intros g. split.
        - intros Hg. split; [apply X5; exact Hg|]. apply Disj'; auto.
        - intros [Hg _]. apply X5. exact Hg. }
      destruct s.
      - destruct (mem_text f (sq_required r)) eqn:M1; [discriminate H1|]. destruct (mem_text f (sq_optional r)) eqn:M2; [discriminate H1|].
        cbn [orb] in H1. injection H1 as H1. apply Fresh; auto.
      - destruct (mem_text f (sq_required r)) eqn:M1.
        { injection H1 as <-. apply mem_text_In in M1. split; [split; auto|]. split; auto. split; auto. split; intros g.
          - split; auto. intros [Hg|[-> _]]; auto.
          - split; [intros Hg; split; auto|]. intros [[Hg|[-> _]] K]; auto. contradiction. }
        destruct (mem_text f (sq_optional r)) eqn:M2.
        + apply mem_text_false in M1. apply mem_text_In in M2. destruct q.
          * cbn [sq_required sq_optional sq_policy_url sq_ns] in H1. injection H1 as <-. rewrite remove_first_filter in * by auto.
            destruct (App (filter (fun y => negb (text_eqb f y)) (sq_optional r))) as (X1 & X2 & X3 & X4 & X5); auto.
            { intros g Hg. apply filter_In in Hg. tauto. }
            { apply NoDup_filter; auto. }
            { rewrite filter_In, text_eqb_refl. intros [_ K]. discriminate K. }
            split; [exact X1|]. split; [exact X2|]. split; [exact X3|]. split; [exact X4|]. intros g. split.
            -- intros Hg. split; [|apply (Disj' _ X1); exact Hg]. apply X5 in Hg. destruct Hg as [Hg|Hg]; [|auto]. apply filter_In in Hg. tauto.
            -- intros [[Hg|[_ K]] K2]; [|discriminate K]. apply X5. left. apply filter_In. split; auto. apply negb_true_iff, text_eqb_neq.
               intros ->. apply K2. apply X4. auto.
          * injection H1 as <-. split; [split; auto|]. split; auto. split; auto. split; intros g.
            -- intuition discriminate.
            -- split; [intros Hg; split; auto|]. intros [[Hg|[-> _]] K]; auto.
        + injection H1 as H1. apply Fresh; auto. }
    destruct (IH r1 r' V1 H) as (V2 & P2 & N2 & A2 & B2).
    split; [exact V2|]. split; [congruence|]. split; [congruence|].
    assert (forall g, In g (sq_required r') <-> In g (sq_required r) \/ (exists s0, In (g, true, s0) ((f, q, s) :: cs))) as A3.
    { intros g. rewrite A2, A1. split.
      - intros [[K|[-> ->]]|[s0 K]]; auto.
        + right. exists s. left. auto.
        + right. exists s0. right. auto.
      - intros [K|[s0 [K|K]]]; auto.
        + injection K as -> -> ->. auto.
        + right. eauto. }
    split; [exact A3|]. intros g. rewrite B2, B1. split.
    + intros [[[[K|[-> ->]] _]|[s0 K]] K2]; split; auto.
      * right. exists s. left. auto.
      * right. exists s0. right. auto.
    + intros [K K2]. split; auto. assert (~ In g (sq_required r1)) as K3 by (intros K3; apply K2, A2; auto).
      destruct K as [K|[s0 [K|K]]]; auto.
      * injection K as -> -> ->. left. split; auto.
      * right. eauto.
Qed.

Theorem C54_request_invariant :
  forall (calls : list request_call) p ns r, foldM call (mkSReq [] [] p ns) calls = Ok r ->
    NoDup (sq_required r ++ sq_optional r) /\
    (forall f, In f (sq_required r ++ sq_optional r) -> In f data_fields) /\
    sq_policy_url r = p /\ sq_ns r = ns /\
    (forall f, In f (sq_required r) <-> exists strict, In (f, true, strict) calls) /\
    (forall f, In f (sq_optional r) <-> (exists strict, In (f, false, strict) calls) /\ forall strict, ~ In (f, true, strict) calls).
Proof.
  intros calls p ns r H. destruct (call_inv calls (mkSReq [] [] p ns) r) as ((V1 & V2) & P & N & A & B); [|exact H|].
  { split; [constructor|]. intros f []. }
  split; [exact V1|]. split; [exact V2|]. split; [exact P|]. split; [exact N|].
  assert (forall f, In f (sq_required r) <-> exists strict, In (f, true, strict) calls) as A'.
  { intros f. rewrite A. split; auto. intros [[]|K]; auto. }
  split; [exact A'|]. intros f. rewrite B, A'. split.
  - intros [[[]|K] K2]. split; auto. intros s Hs. apply K2. eauto.
  - intros [K K2]. split; auto. intros [s Hs]. apply (K2 s Hs).
Qed.
Print Assumptions C54_request_invariant.
Example C54_request_example :
  foldM call (mkSReq [] [] None sreg_1_1) [(u "email", false, true); (u "dob", false, false); (u "email", true, false); (u "email", false, false)] =
  Ok (mkSReq [u "email"] [u "dob"] None sreg_1_1).
Proof. vm_compute. reflexivity. Qed.

(** The constructor takes its two lists as they are, or raises ValueError: if a field is
    undefined or asked for twice. *)
Lemma requestFields_strict (q : bool) (l : list text) : forall r : sreg_request,
  let a := if q then mkSReq (sq_required r ++ l) (sq_optional r) (sq_policy_url r) (sq_ns r)
           else mkSReq (sq_required r) (sq_optional r ++ l) (sq_policy_url r) (sq_ns r) in
  NoDup (sq_required r ++ sq_optional r) ->
  (NoDup (sq_required a ++ sq_optional a) /\ (forall f, In f l -> In f data_fields) /\ requestFields r l q true = Ok a) \/
  (~ (NoDup (sq_required a ++ sq_optional a) /\ (forall f, In f l -> In f data_fields)) /\ requestFields r l q true = Raise ValueError).
Proof.
  induction l as [|x l IH]; intros r a V.
  - left. unfold a. rewrite app_nil_r, app_nil_r. destruct q; cbn [sq_required sq_optional]; (split; [exact V|]); (split; [intros f []|]); destruct r; reflexivity.
  - unfold requestFields. cbn [foldM]. unfold requestField at 1 3, checkFieldName. destruct (mem_text x data_fields) eqn:D.
    2:{ right. split; [|reflexivity]. intros [_ K]. apply mem_text_false in D. apply D, K. left; auto. }
    apply mem_text_In in D. cbn [bind]. destruct (mem_text x (sq_required r) || mem_text x (sq_optional r)) eqn:M.
    + right. split; [|reflexivity]. intros [K _]. apply orb_true_iff in M. rewrite !mem_text_In in M.
      apply NoDup_app_inv in K as (K1 & K2 & K3). unfold a in *. destruct q; cbn [sq_required sq_optional] in *.
      * destruct M as [M|M]; [|apply (K3 x); [apply in_or_app; right; left; auto|auto]].
        apply NoDup_app_inv in K1 as (_ & _ & K1). apply (K1 x M). left; auto.
      * destruct M as [M|M]; [apply (K3 x); [auto|apply in_or_app; right; left; auto]|].
        apply NoDup_app_inv in K2 as (_ & _ & K2). apply (K2 x M). left; auto.
    + apply orb_false_iff in M as [M1 M2]. apply mem_text_false in M1, M2. cbn [bind].
      apply NoDup_app_inv in V as (V1 & V2 & V3).
      set (r1 := if q then mkSReq (sq_required r ++ [x]) (sq_optional r) (sq_policy_url r) (sq_ns r)
                 else mkSReq (sq_required r) (sq_optional r ++ [x]) (sq_policy_url r) (sq_ns r)).
      assert ((if q then mkSReq (sq_required r1 ++ l) (sq_optional r1) (sq_policy_url r1) (sq_ns r1)
           else mkSReq (sq_required r1) (sq_optional r1 ++ l) (sq_policy_url r1) (sq_ns r1)) = a) as E.
      { unfold a, r1. destruct q; cbn [sq_required sq_optional sq_policy_url sq_ns]; rewrite <- app_assoc; reflexivity. }
      destruct (IH r1) as [I|I].
      { unfold r1. apply NoDup_app_inv. destruct q; cbn [sq_required sq_optional].
        - split; [apply NoDup_snoc; auto|]. split; [auto|]. intros y Hy K. apply in_app_or in Hy as [Hy|[<-|[]]]; [apply (V3 y); auto|auto].
        - split; [auto|]. split; [apply NoDup_snoc; auto|]. intros y Hy K. apply in_app_or in K as [K|[<-|[]]]; [apply (V3 y); auto|auto]. }
      * rewrite E in I. destruct I as (I1 & I2 & I3). left. split; [exact I1|]. split; [intros f [<-|Hf]; auto|]. exact I3.
      * rewrite E in I. destruct I as (I1 & I3). right. split; [|exact I3]. intros [K1 K2]. apply I1. split; [exact K1|]. intros f Hf. apply K2. right; auto.
Qed.
Theorem C54_constructor :
  forall required optional p ns,
    (NoDup (required ++ optional) /\ (forall f, In f (required ++ optional) -> In f data_fields) ->
     newSRegRequest required optional p ns = Ok (mkSReq required optional p ns)) /\
    (~ (NoDup (required ++ optional) /\ forall f, In f (required ++ optional) -> In f data_fields) ->
     newSRegRequest required optional p ns = Raise ValueError).
Proof.
  intros rq op p ns. unfold newSRegRequest.
  destruct (requestFields_strict true rq (mkSReq [] [] p ns)) as [(I1 & I2 & I3)|(I1 & I3)]; cbn [sq_required sq_optional sq_policy_url sq_ns app] in *; [constructor| |].
  - rewrite I3. cbn [bind]. destruct (requestFields_strict false op (mkSReq rq [] p ns)) as [(J1 & J2 & J3)|(J1 & J3)]; cbn [sq_required sq_optional sq_policy_url sq_ns app] in *; [auto| |]; rewrite J3.
    + split; [auto|]. intros K. exfalso. apply K. split; [exact J1|]. intros f Hf. apply in_app_or in Hf as [|]; auto.
    + split; [|auto]. intros [K1 K2]. exfalso. apply J1. split; [exact K1|]. intros f Hf. apply K2, in_or_app. auto.
  - rewrite I3. cbn [bind]. split; [|auto]. intros [K1 K2]. exfalso. apply I1. rewrite app_nil_r. split; [apply NoDup_app_inv in K1; tauto|].
    intros f Hf. apply K2, in_or_app. auto.
Qed.
Print Assumptions C54_constructor.
Example C54_constructor_example :
  newSRegRequest [u "email"] [u "dob"] None sreg_1_1 = Ok (mkSReq [u "email"] [u "dob"] None sreg_1_1) /\
  newSRegRequest [u "email"] [u "email"] None sreg_1_1 = Raise ValueError /\ newSRegRequest [u "shoe"] [] None sreg_1_1 = Raise ValueError.
Proof. vm_compute. auto. Qed.

(** Reading back what a request writes. *)
Lemma fields_no_comma f : In f data_fields -> ~ In 44 f.
Proof. intros H. vm_compute in H. repeat (destruct H as [<-|H]; [intros K; vm_compute in K; intuition discriminate|]). destruct H. Qed.
Lemma splitc_join l : l <> [] -> (forall f, In f l -> ~ In 44 f) -> splitc 44 (join [44] l) = l.
Proof.
  induction l as [|x l IH]; intros N H; [contradiction|]. destruct l as [|y l].
  - cbn [join]. apply splitc_nin. apply H. left; auto.
  - assert (join [44] (x :: y :: l) = x ++ 44 :: join [44] (y :: l)) as -> by reflexivity.
    rewrite splitc_app by (apply H; left; auto). f_equal. apply IH; [discriminate|]. intros f Hf. apply H. right; auto.
Qed.
Definition joined (l : list text) : option text := match l with [] => None | _ => Some (join [44] l) end.
Lemma sreg_args_get r :
  dget text_eqb (u "required") (sreg_request_args r) = joined (sq_required r) /\
  dget text_eqb (u "optional") (sreg_request_args r) = joined (sq_optional r) /\
  dget text_eqb (u "policy_url") (sreg_request_args r) = nonempty (sq_policy_url r) /\
  NoDup (dkeys (sreg_request_args r)).
Proof.
  unfold sreg_request_args. destruct (sq_required r) as [|a la], (sq_optional r) as [|b lb], (sq_policy_url r) as [[|c t]|];
    (split; [reflexivity|]); (split; [reflexivity|]); (split; [reflexivity|]);
    repeat constructor; intros K; cbn in K; intuition discriminate.
Qed.
Lemma asked_join l : NoDup l -> (forall f, In f l -> In f data_fields) ->
  asked (joined l) = l.
Proof.
  intros N D. destruct l as [|x l]; [reflexivity|]. unfold asked, listed, joined. rewrite splitc_join; [|discriminate|].
  - rewrite filter_all, firsts_NoDup; auto. intros f Hf. apply mem_text_In. auto.
  - intros f Hf. apply fields_no_comma. auto.
Qed.
Lemma parse_agree r d p : valid_request r -> (forall k, dget text_eqb k d = dget text_eqb k (sreg_request_args r)) -> forall ns,
  sreg_parseExtensionArgs (mkSReq [] [] p ns) d false = Ok (mkSReq (sq_required r) (sq_optional r) (nonempty (sq_policy_url r)) ns).
Proof.
  intros [V W] E ns. rewrite C54_parse_exact, !E. destruct (sreg_args_get r) as (-> & -> & -> & _).
  apply NoDup_app_inv in V as (V1 & V2 & V3). rewrite !asked_join; auto; try (intros f Hf; apply W, in_or_app; auto).
  rewrite filter_all; [reflexivity|]. intros f Hf. unfold none_of. apply negb_true_iff, mem_text_false. intros K. apply (V3 f); auto.
Qed.
Theorem C54_request_round_trip :
  forall r p, valid_request r ->
    sreg_parseExtensionArgs (mkSReq [] [] p (sq_ns r)) (sreg_request_args r) false =
    Ok (mkSReq (sq_required r) (sq_optional r) (nonempty (sq_policy_url r)) (sq_ns r)).
Proof. intros r p V. apply parse_agree; auto. Qed.
Print Assumptions C54_request_round_trip.

(** Reading the request out of a message: the version 1.1 namespace if the message has it, else
    1.0 if it has that, else 1.1.  It fails only if the message has neither and uses the alias
    'sreg' for something else. *)
Definition sreg_namespace (m : msg) : text :=
  match getAlias (mns m) sreg_1_1, getAlias (mns m) sreg_1_0 with None, Some _ => sreg_1_0 | _, _ => sreg_1_1 end.
Lemma getSRegNS_spec m : wf m ->
  let taken := match getAlias (mns m) sreg_1_1, getAlias (mns m) sreg_1_0, getNamespaceURI (mns m) (Al sreg_alias) with
               | None, None, Some _ => true | _, _, _ => false end in
  margs (fst (getSRegNS m)) = margs m /\ getOpenIDNamespace (fst (getSRegNS m)) = getOpenIDNamespace m /\
  snd (getSRegNS m) = if taken then Raise ValueError else Ok (sreg_namespace m).
Proof.
  intros W taken. unfold getSRegNS, sreg_namespace, taken. destruct (getAlias (mns m) sreg_1_1) eqn:E1; [cbn [fst snd]; auto|].
  destruct (getAlias (mns m) sreg_1_0) eqn:E0; [cbn [fst snd]; auto|].
  pose proof (addAlias_Al_null (mns m) sreg_1_1 sreg_alias false) as Nu.
  destruct (addAlias (mns m) sreg_1_1 (Al sreg_alias) false) as [n' r] eqn:E. cbn [fst snd margs] in *. split; [auto|].
  split; [exact Nu|].
  unfold addAlias in E. assert (bad_alias (Al sreg_alias) = false) as Hb by (vm_compute; reflexivity). rewrite Hb in E.
  destruct (getNamespaceURI (mns m) (Al sreg_alias)) as [c|] eqn:G.
  - destruct (text_eqb c sreg_1_1) eqn:Q.
    + apply text_eqb_eq in Q. subst c. apply (wn_inv _ (wm_ns _ W)) in G. congruence.
    + cbn [negb] in E. injection E as _ <-. reflexivity.
  - rewrite E1 in E. destruct (mem_text sreg_1_1 (implicit_ns (mns m))) eqn:Q.
    + exfalso. apply mem_text_In in Q. apply (wn_impl _ (wm_ns _ W)) in Q. contradiction.
    + injection E as _ <-. reflexivity.
Qed.
Lemma sreg_ns_not_sreg m : sreg_namespace m <> u "sreg".
Proof. unfold sreg_namespace. destruct (getAlias (mns m) sreg_1_1), (getAlias (mns m) sreg_1_0); discriminate. Qed.
Lemma getArgs_same m m' n : margs m = margs m' -> getOpenIDNamespace m = getOpenIDNamespace m' -> getArgs m n = getArgs m' n.
Proof. intros A V. unfold getArgs. rewrite A, (fixNS_ext m m' n V). reflexivity. Qed.

Theorem C54_from_request :
  forall reg m, built reg m ->
    exists o, (forall k, getArg m (NS (sreg_namespace m)) k = Ok (o k)) /\
    sreg_fromOpenIDRequest m =
    match getAlias (mns m) sreg_1_1, getAlias (mns m) sreg_1_0, getNamespaceURI (mns m) (Al sreg_alias) with
    | None, None, Some _ => Raise ValueError
    | _, _, _ => Ok (mkSReq (asked (o (u "required"))) (filter (none_of (asked (o (u "required")))) (asked (o (u "optional"))))
                            (o (u "policy_url")) (sreg_namespace m))
    end.
Proof.
  intros reg m B. destruct (getArgs_spec reg m (sreg_namespace m) B (sreg_ns_not_sreg m)) as (d & D1 & _ & D2).
  exists (fun k => dget text_eqb k d). split; [exact D2|]. unfold sreg_fromOpenIDRequest.
  destruct (getSRegNS_spec m (built_wf _ _ B)) as (S1 & S2 & S3). destruct (getSRegNS m) as [m' r]. cbn [fst snd] in *.
  assert (forall r', r' = Ok (sreg_namespace m) ->
            ns <- r' ;; args <- getArgs m' (NS ns) ;; sreg_parseExtensionArgs (mkSReq [] [] None ns) args false =
            Ok (mkSReq (asked (dget text_eqb (u "required") d)) (filter (none_of (asked (dget text_eqb (u "required") d))) (asked (dget text_eqb (u "optional") d)))
                            (dget text_eqb (u "policy_url") d) (sreg_namespace m))) as K.
  { intros r' ->. cbn [bind]. rewrite (getArgs_same m' m _ S1 S2), D1. cbn [bind]. apply C54_parse_exact. }
  destruct (getAlias (mns m) sreg_1_1), (getAlias (mns m) sreg_1_0), (getNamespaceURI (mns m) (Al sreg_alias)); try (apply K; exact S3).
  rewrite S3. reflexivity.
Qed.
Print Assumptions C54_from_request.

(** A request put into a message, sent, received and read is the request that was put in. *)
Lemma no_args reg m uri : built reg m -> uri <> u "sreg" -> getAlias (mns m) uri = None -> forall k, getArg m (NS uri) k = Ok None.
Proof.
  intros B Hs G k. rewrite getArg_ns by exact Hs. destruct (dget akey_eqb (Uri uri, k) (margs m)) eqn:D; auto.
  exfalso. eapply (wm_def _ (built_wf _ _ B)); eauto. apply (dget_In akey_eqb akey_eqb_eq) in D. apply (in_map fst) in D. exact D.
Qed.
Lemma sent_args reg m uri a args m1 m2 :
  built reg m -> good_registry reg -> uri <> u "sreg" -> NoDup (dkeys args) -> getAlias (mns m) uri = None ->
  ext_toMessage m uri a args = Ok m1 -> wire_safe reg m1 -> fromPostArgs reg (toPostArgs m1) = Ok m2 ->
  built reg m2 /\ (forall k, getArg m2 (NS uri) k = Ok (dget text_eqb k args)) /\
  (forall x al, getAlias (mns m2) x = Some al -> x <> uri -> getAlias (mns m) x = Some al) /\
  (forall al, getAlias (mns m2) uri = Some al -> al = Al a) /\
  (args <> [] -> getAlias (mns m2) uri = Some (Al a)) /\
  (forall x, getNamespaceURI (mns m2) (Al a) = Some x -> x = uri).
Proof.
  intros B R Hs N G E S P. destruct (ext_delivers reg m uri a args m1 B Hs N E) as (B1 & _ & A1 & _ & A2 & A3 & _).
  destruct (C15_wire_round_trip reg m1 B1 R S) as (m2' & P' & _ & _ & _ & X & _). assert (m2' = m2) as -> by congruence. clear P'.
  destruct (C15_aliases_survive reg m1 m2 B1 R S P) as (L1 & L2). assert (built reg m2) as B2 by (eapply b_parse; eauto).
  assert (forall k, getArg m2 (NS uri) k = Ok (dget text_eqb k args)) as GA.
  { intros k. rewrite X, A3. rewrite (no_args reg m uri B Hs G). destruct (dget text_eqb k args); reflexivity. }
  split; [exact B2|]. split; [exact GA|]. split; [|split; [|split]].
  - intros x al Hx Nx. apply L1 in Hx. rewrite A2 in Hx by exact Nx. exact Hx.
  - intros al Hx. apply L1 in Hx. congruence.
  - intros Na. apply (L2 _ _ A1). right. destruct args as [|[k v] args]; [contradiction|]. exists k, v.
    rewrite A3. cbn [dget]. rewrite text_eqb_refl. reflexivity.
  - intros x Hx. apply (wn_inv _ (wm_ns _ (built_wf _ _ B2))) in Hx. apply L1 in Hx.
    apply (wn_inv _ (wm_ns _ (built_wf _ _ B1))) in Hx. apply (wn_inv _ (wm_ns _ (built_wf _ _ B1))) in A1. congruence.
Qed.

Theorem C54_request_delivered :
  forall reg m r m1 m2,
    built reg m -> good_registry reg -> valid_request r -> In (sq_ns r) [sreg_1_1; sreg_1_0] ->
    getAlias (mns m) sreg_1_1 = None -> getAlias (mns m) sreg_1_0 = None ->
    ext_toMessage m (sq_ns r) sreg_alias (sreg_request_args r) = Ok m1 ->
    wire_safe reg m1 -> fromPostArgs reg (toPostArgs m1) = Ok m2 ->
    exists r', sreg_fromOpenIDRequest m2 = Ok r' /\
      sq_required r' = sq_required r /\ sq_optional r' = sq_optional r /\ sq_policy_url r' = nonempty (sq_policy_url r) /\
      (sreg_request_args r <> [] -> sq_ns r' = sq_ns r).
Proof.
  intros reg m r m1 m2 B R V Hn G1 G0 E S P. destruct (sreg_args_get r) as (Q1 & Q2 & Q3 & N).
  assert (sq_ns r <> u "sreg") as Hs by (destruct Hn as [<-|[<-|[]]]; discriminate).
  assert (getAlias (mns m) (sq_ns r) = None) as G by (destruct Hn as [<-|[<-|[]]]; auto).
  destruct (sent_args reg m (sq_ns r) sreg_alias _ m1 m2 B R Hs N G E S P) as (B2 & GA & L1 & L2 & L3 & L4).
  assert (forall x, In x [sreg_1_1; sreg_1_0] -> x <> sq_ns r -> getAlias (mns m2) x = None) as L5.
  { intros x Hx Nx. destruct (getAlias (mns m2) x) as [al|] eqn:K; auto. apply L1 in K; [|exact Nx]. destruct Hx as [<-|[<-|[]]]; congruence. }
  destruct (getArgs_spec reg m2 (sreg_namespace m2) B2 (sreg_ns_not_sreg m2)) as (d & D1 & _ & D2).
  assert (sreg_request_args r <> [] -> sreg_namespace m2 = sq_ns r) as Ns.
  { intros Na. specialize (L3 Na). unfold sreg_namespace. destruct Hn as [Hn|[Hn|[]]]; rewrite <- Hn in *.
    - rewrite L3. reflexivity.
    - rewrite L3, (L5 sreg_1_1); [reflexivity|left; reflexivity|discriminate]. }
  assert (forall k, dget text_eqb k d = dget text_eqb k (sreg_request_args r)) as Da.
  { intros k. destruct (sreg_request_args r) as [|e l] eqn:Ea.
    - cbn [dget]. specialize (D2 k). destruct (text_eqb (sreg_namespace m2) (sq_ns r)) eqn:Q.
      + apply text_eqb_eq in Q. rewrite Q in D2. rewrite GA in D2. injection D2 as <-. reflexivity.
      + apply text_eqb_neq in Q. rewrite (no_args reg m2 (sreg_namespace m2) B2 (sreg_ns_not_sreg m2)) in D2.
        * injection D2 as <-. reflexivity.
        * apply L5; auto. unfold sreg_namespace. destruct (getAlias (mns m2) sreg_1_1), (getAlias (mns m2) sreg_1_0); simpl; auto.
    - specialize (D2 k). rewrite Ns in D2 by discriminate. rewrite GA in D2. injection D2 as <-. reflexivity. }
  exists (mkSReq (sq_required r) (sq_optional r) (nonempty (sq_policy_url r)) (sreg_namespace m2)).
  split; [|cbn [sq_required sq_optional sq_policy_url sq_ns]; auto].
  unfold sreg_fromOpenIDRequest. destruct (getSRegNS_spec m2 (built_wf _ _ B2)) as (S1 & S2 & S3). destruct (getSRegNS m2) as [m' res]. cbn [fst snd] in *.
  assert (res = Ok (sreg_namespace m2)) as ->.
  { rewrite S3. destruct (getAlias (mns m2) sreg_1_1) eqn:K1; [reflexivity|]. destruct (getAlias (mns m2) sreg_1_0) eqn:K0; [reflexivity|].
    destruct (getNamespaceURI (mns m2) (Al sreg_alias)) as [x|] eqn:K; [|reflexivity]. exfalso.
    pose proof (L4 x eq_refl) as ->. apply (wn_inv _ (wm_ns _ (built_wf _ _ B2))) in K. destruct Hn as [Hn|[Hn|[]]]; rewrite <- Hn in K; congruence. }
  cbn [bind]. rewrite (getArgs_same m' m2 _ S1 S2), D1. cbn [bind]. apply parse_agree; auto.
Qed.
Print Assumptions C54_request_delivered.

(** The server's answer: the requested fields it has, and no others. *)
Theorem C54_extract_exact :
  forall r data, NoDup (dkeys (sp_data (extractResponse r data))) /\ sp_ns (extractResponse r data) = sq_ns r /\
    forall f, dget text_eqb f (sp_data (extractResponse r data)) =
              if mem_text f (sq_required r) || mem_text f (sq_optional r) then dget text_eqb f data else None.
Proof.
  intros r data. unfold extractResponse, allRequestedFields. cbn [sp_data sp_ns].
  assert (forall l d0, NoDup (dkeys d0) ->
     let d := fold_left (fun d f => match dget text_eqb f data with Some v => dset text_eqb f v d | None => d end) l d0 in
     NoDup (dkeys d) /\ forall f, dget text_eqb f d = if mem_text f l then match dget text_eqb f data with Some v => Some v | None => dget text_eqb f d0 end else dget text_eqb f d0) as K.
  { induction l as [|x l IH]; intros d0 N d; unfold d; cbn [fold_left]; [auto|]. destruct (IH (match dget text_eqb x data with Some v => dset text_eqb x v d0 | None => d0 end)) as (I1 & I2).
    - destruct (dget text_eqb x data); [apply (NoDup_dset text_eqb text_eqb_eq)|]; auto.
    - split; [exact I1|]. intros f. rewrite I2. cbn [mem_text existsb]. destruct (text_eqb f x) eqn:Q.
      + apply text_eqb_eq in Q. subst f. cbn [orb]. destruct (dget text_eqb x data) as [v|] eqn:Dx.
        * rewrite (dget_dset_same text_eqb text_eqb_eq). destruct (mem_text x l); reflexivity.
        * destruct (mem_text x l); reflexivity.
      + cbn [orb]. apply text_eqb_neq in Q. destruct (dget text_eqb x data) as [v|]; [rewrite (dget_dset_other text_eqb text_eqb_eq) by exact Q|]; reflexivity. }
  destruct (K (sq_required r ++ sq_optional r) []) as (K1 & K2); [constructor|]. split; [exact K1|]. split; [reflexivity|].
  intros f. rewrite K2, mem_text_app. destruct (mem_text f _ || mem_text f _); [destruct (dget text_eqb f data)|]; reflexivity.
Qed.
Print Assumptions C54_extract_exact.
Example C54_extract_example :
  sp_data (extractResponse (mkSReq [u "email"] [u "dob"; u "gender"] None sreg_1_1) [(u "gender", u "M"); (u "nickname", u "bob"); (u "email", u "b@x")]) =
  [(u "email", u "b@x"); (u "gender", u "M")].
Proof. vm_compute. reflexivity. Qed.

(** The response as the relying party reads it (by default): only defined fields, with the value
    in the message, and only signed ones. *)
Lemma all_signed_In m signed n : forall keys k, all_signed m signed n keys = Ok true -> In k keys -> isSigned m signed n k = Ok true.
Proof.
  induction keys as [|k' keys IH]; [intros k _ []|]. intros k H. cbn [all_signed] in H. apply bind_Ok in H as (b & H1 & H).
  destruct b; [|discriminate H]. intros [->|I]; auto.
Qed.
Lemma data_of_spec (d : dict text text) f :
  dget text_eqb f (flat_map (fun f => match dget text_eqb f d with Some v => [(f, v)] | None => [] end) data_fields) =
  if mem_text f data_fields then dget text_eqb f d else None.
Proof.
  generalize data_fields. induction l as [|x l IH]; auto. cbn [flat_map mem_text existsb]. destruct (text_eqb f x) eqn:E.
  - apply text_eqb_eq in E. subst x. cbn [orb]. destruct (dget text_eqb f d) eqn:D; cbn [app dget]; [rewrite text_eqb_refl; auto|].
    rewrite IH. destruct (mem_text f l); auto.
  - cbn [orb]. destruct (dget text_eqb x d); cbn [app dget]; rewrite ?E; exact IH.
Qed.

Theorem C54_response_signed :
  forall reg m signed m' resp, built reg m -> sreg_fromSuccessResponse m signed true = (m', Ok (Some resp)) ->
    sp_ns resp = sreg_namespace m /\
    forall f v, dget text_eqb f (sp_data resp) = Some v ->
      In f data_fields /\ getArg m (NS (sp_ns resp)) f = Ok (Some v) /\
      exists name, getKey m (NS (sp_ns resp)) f = Ok (Some name) /\ In name signed.
Proof.
  intros reg m signed m' resp B H. unfold sreg_fromSuccessResponse in H.
  destruct (getSRegNS_spec m (built_wf _ _ B)) as (S1 & S2 & S3). destruct (getSRegNS m) as [m1 r] eqn:G. cbn [fst snd] in *.
  apply pair_equal_spec in H as [<- H]. apply bind_Ok in H as (ns & H1 & H).
  assert (ns = sreg_namespace m) as ->.
  { rewrite H1 in S3. destruct (getAlias (mns m) sreg_1_1), (getAlias (mns m) sreg_1_0), (getNamespaceURI (mns m) (Al sreg_alias)); try discriminate S3; injection S3 as ->; reflexivity. }
  destruct (getArgs_spec reg m (sreg_namespace m) B (sreg_ns_not_sreg m)) as (d & D1 & _ & D2).
  apply bind_Ok in H as (args & H2 & H). unfold getSignedNS in H2. rewrite (getArgs_same m1 m _ S1 S2), D1 in H2. cbn [bind] in H2.
  apply bind_Ok in H2 as (b & H2 & H3). destruct b; [|injection H3 as <-; discriminate H]. injection H3 as <-.
  destruct d as [|e d]; [discriminate H|]. apply (f_equal (fun r => match r with Ok (Some x) => x | _ => resp end)) in H. cbv beta iota in H. rewrite <- H. clear H.
  cbn [sp_ns sp_data]. split; [reflexivity|]. intros f v K. rewrite (data_of_spec (e :: d) f) in K.
  destruct (mem_text f data_fields) eqn:M; [|discriminate K]. apply mem_text_In in M. split; [exact M|]. split; [rewrite D2, K; reflexivity|].
  assert (m1 = m) as ->.
  { unfold getSRegNS in G. destruct (getAlias (mns m) sreg_1_1) eqn:E1; [injection G as <- _; reflexivity|].
    destruct (getAlias (mns m) sreg_1_0) eqn:E0; [injection G as <- _; reflexivity|].
    specialize (D2 f). rewrite (no_args reg m (sreg_namespace m) B (sreg_ns_not_sreg m)) in D2; [congruence|].
    unfold sreg_namespace. rewrite E1, E0. exact E1. }
  assert (isSigned m signed (NS (sreg_namespace m)) f = Ok true) as I.
  { eapply all_signed_In; eauto. apply (dget_In text_eqb text_eqb_eq) in K. apply (in_map fst) in K. exact K. }
  unfold isSigned in I. apply bind_Ok in I as (k & I1 & I2). destruct k as [k|]; [|discriminate I2]. injection I2 as I2.
  exists k. split; [exact I1|]. apply mem_text_In. exact I2.
Qed.
Print Assumptions C54_response_signed.

(** What the provider puts in and signs arrives. *)
Theorem C54_response_delivered :
  forall reg m resp m1 m2 signed,
    built reg m -> good_registry reg -> In (sp_ns resp) [sreg_1_1; sreg_1_0] ->
    getAlias (mns m) sreg_1_1 = None -> getAlias (mns m) sreg_1_0 = None ->
    NoDup (dkeys (sp_data resp)) -> sp_data resp <> [] ->
    ext_toMessage m (sp_ns resp) sreg_alias (sp_data resp) = Ok m1 ->
    wire_safe reg m1 -> fromPostArgs reg (toPostArgs m1) = Ok m2 ->
    (forall f v, dget text_eqb f (sp_data resp) = Some v -> In (u "openid.sreg." ++ f) signed) ->
    exists resp', sreg_fromSuccessResponse m2 signed true = (m2, Ok (Some resp')) /\
      sp_ns resp' = sp_ns resp /\
      forall f, dget text_eqb f (sp_data resp') = if mem_text f data_fields then dget text_eqb f (sp_data resp) else None.
Proof.
  intros reg m resp m1 m2 signed B R Hn G1 G0 N Nd E S P Sg.
  assert (sp_ns resp <> u "sreg") as Hs by (destruct Hn as [<-|[<-|[]]]; discriminate).
  assert (getAlias (mns m) (sp_ns resp) = None) as G by (destruct Hn as [<-|[<-|[]]]; auto).
  destruct (sent_args reg m (sp_ns resp) sreg_alias _ m1 m2 B R Hs N G E S P) as (B2 & GA & L1 & _ & L3 & _). specialize (L3 Nd).
  assert (sreg_namespace m2 = sp_ns resp /\ getSRegNS m2 = (m2, Ok (sp_ns resp))) as [Ns Gs].
  { unfold sreg_namespace, getSRegNS. destruct Hn as [Hn|[Hn|[]]]; rewrite <- Hn in *.
    - rewrite L3. auto.
    - rewrite L3. destruct (getAlias (mns m2) sreg_1_1) as [al|] eqn:K; [|auto]. apply L1 in K; [congruence|discriminate]. }
  unfold sreg_fromSuccessResponse. rewrite Gs. cbn [bind].
  destruct (getArgs_spec reg m2 (sp_ns resp) B2 Hs) as (d & D1 & D3 & D2).
  assert (forall k, dget text_eqb k d = dget text_eqb k (sp_data resp)) as Da.
  { intros k. specialize (D2 k). rewrite GA in D2. injection D2 as <-. reflexivity. }
  assert (all_signed m2 signed (NS (sp_ns resp)) (dkeys d) = Ok true) as As.
  { assert (forall k, In k (dkeys d) -> isSigned m2 signed (NS (sp_ns resp)) k = Ok true) as K.
    { intros k Hk. apply in_map_iff in Hk as ([k' v] & Hk1 & Hk). cbn [fst] in Hk1. subst k'. apply (In_dget text_eqb text_eqb_eq) in Hk; [|exact D3].
      rewrite Da in Hk. unfold isSigned, getKey. rewrite fixNS_uri by exact Hs. cbn [bind]. rewrite L3. cbn [bind].
      apply f_equal, mem_text_In. apply Sg in Hk. exact Hk. }
    clear -K. induction (dkeys d) as [|k l IH]; auto. cbn [all_signed]. rewrite K by (left; auto). cbn [bind]. apply IH. intros k' Hk'. apply K. right; auto. }
  unfold getSignedNS. rewrite D1. cbn [bind]. rewrite As. cbn [bind].
  destruct d as [|e d].
  { exfalso. destruct (sp_data resp) as [|[k v] l]; [contradiction|]. specialize (Da k). cbn [dget] in Da. rewrite text_eqb_refl in Da. discriminate Da. }
  eexists. split; [reflexivity|]. cbn [sp_ns sp_data]. split; [reflexivity|]. intros f. rewrite data_of_spec, Da. reflexivity.
Qed.
Print Assumptions C54_response_delivered.

(** A case of the two delivery theorems. *)
Definition sreg_registry : dict text text := [(sreg_alias, sreg_1_1)].
Definition a_request : sreg_request := mkSReq [u "email"] [u "dob"; u "gender"] (Some (u "http://rp/policy")) sreg_1_1.
Example C54_delivered_example :
  exists m m1, newMessage (Some OPENID2_NS) None = Ok m /\ valid_request a_request /\
    ext_toMessage m sreg_1_1 sreg_alias (sreg_request_args a_request) = Ok m1 /\
    toPostArgs m1 = [(u "openid.ns", OPENID2_NS); (u "openid.ns.sreg", sreg_1_1); (u "openid.sreg.required", u "email");
                     (u "openid.sreg.optional", u "dob,gender"); (u "openid.sreg.policy_url", u "http://rp/policy")] /\
    match fromPostArgs sreg_registry (toPostArgs m1) with Ok m2 => sreg_fromOpenIDRequest m2 | Raise e => Raise e end = Ok a_request.
Proof.
  do 2 eexists. split; [vm_compute; reflexivity|]. split.
  { split; [repeat constructor; intros K; cbn in K; intuition discriminate|]. intros f K. cbn in K. cbn. intuition. }
  split; [vm_compute; reflexivity|]. split; vm_compute; reflexivity.
Qed.
Definition a_response_query : dict text text :=
  [(u "openid.ns", OPENID2_NS); (u "openid.ns.sreg", sreg_1_1); (u "openid.sreg.email", u "b@x"); (u "openid.sreg.shoesize", u "9")].
Example C54_response_example :
  match fromPostArgs sreg_registry a_response_query with
  | Ok m => snd (sreg_fromSuccessResponse m [u "openid.sreg.email"; u "openid.sreg.shoesize"] true) = Ok (Some (mkSResp [(u "email", u "b@x")] sreg_1_1)) /\
            snd (sreg_fromSuccessResponse m [u "openid.sreg.email"] true) = Ok None /\
            snd (sreg_fromSuccessResponse m [] false) = Ok (Some (mkSResp [(u "email", u "b@x")] sreg_1_1))
  | _ => False
  end.
Proof. vm_compute. auto. Qed.

(** In OpenID 1, where the alias is not declared, a version 1.0 request is read as version 1.1. *)
Theorem C111_sreg_version_survives_refuted :
  exists m r m1 m2 r', newMessage (Some OPENID1_NS) None = Ok m /\ valid_request r /\ In (sq_ns r) [sreg_1_1; sreg_1_0] /\
    sreg_request_args r <> [] /\
    ext_toMessage m (sq_ns r) sreg_alias (sreg_request_args r) = Ok m1 /\
    fromPostArgs sreg_registry (toPostArgs m1) = Ok m2 /\ sreg_fromOpenIDRequest m2 = Ok r' /\ sq_ns r' <> sq_ns r.
Proof.
  eexists. exists (mkSReq [u "email"] [] None sreg_1_0). do 3 eexists. split; [vm_compute; reflexivity|]. split.
  { split; [repeat constructor; intros []|]. intros f K. cbn in K. destruct K as [<-|[]]. cbn. auto 10. }
  split; [cbn; auto|]. split; [discriminate|]. split; [vm_compute; reflexivity|]. split; [vm_compute; reflexivity|].
  split; [vm_compute; reflexivity|]. vm_compute. discriminate.
Qed.
Print Assumptions C111_sreg_version_survives_refuted.

(** An endpoint supports simple registration when it lists one of its two versions. *)
Theorem C54_supports ep :
  supportsSReg ep = true <->
  In (u "http://openid.net/extensions/sreg/1.1") (ep_type_uris ep) \/ In (u "http://openid.net/sreg/1.0") (ep_type_uris ep).
Proof. unfold supportsSReg, usesExtension. rewrite orb_true_iff, !mem_text_In. reflexivity. Qed.
Print Assumptions C54_supports.
Example C54_supports_example :
  supportsSReg (mkEndpoint None None [u "x"; u "http://openid.net/sreg/1.0"] None None false None) = true /\
  supportsSReg (mkEndpoint None None [u "x"; u "http://openid.net/sreg/1.2"] None None false None) = false.
Proof. vm_compute. auto. Qed.
