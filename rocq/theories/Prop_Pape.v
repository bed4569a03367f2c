(** Property C56: provider authentication policy (openid/extensions/pape.py, draft/pape2.py). *)
From Coq Require Import Lia ZifyBool ZifyN ZifyNat.
From Verif Require Import Py PyFacts Message MessageSpec MessageFacts MessageWire MessageParse MessageRound Prop_Message Consumer ExtFacts Pape.
From Verif Require Prop_Sreg AxFacts.

Local Arguments u : simpl never.
Import Prop_Sreg(firsts, In_firsts, NoDup_firsts, firsts_NoDup, none_of, step_firsts, skip_firsts, filter_all, sent_args, all_signed_In).

(** ** Specification *)
(** The text [s] consists of the words [ws] with white space around them. *)
Definition spacy (s : text) : Prop := Forall (fun c => isspace c = true) s.
Definition word (w : text) : Prop := w <> [] /\ Forall (fun c => isspace c = false) w.
Inductive spaced : list text -> text -> Prop :=
| sp_none s : spacy s -> spaced [] s
| sp_word b w ws s : spacy b -> word w -> spaced ws s -> (s = [] \/ exists c r, s = c :: r /\ isspace c = true) -> spaced (w :: ws) (b ++ w ++ s).

(** What an alias means in a message: its declaration, or for OpenID 1 one of two known ones. *)
Definition means (args : dict text text) (v1 : bool) (al uri : text) : Prop :=
  dget text_eqb (u "auth_level.ns." ++ al) args = Some uri \/
  dget text_eqb (u "auth_level.ns." ++ al) args = None /\ v1 = true /\ (al = u "nist" /\ uri = LEVELS_NIST \/ al = u "jisa" /\ uri = LEVELS_JISA).
(** A message that gives a known alias another meaning. *)
Definition redefines (args : dict text text) (al : text) : Prop :=
  exists uri, dget text_eqb (u "auth_level.ns." ++ al) args = Some uri /\
    (al = u "nist" /\ uri <> LEVELS_NIST \/ al = u "jisa" /\ uri <> LEVELS_JISA).
Definition nonempty_arg (k : text) (args : dict text text) : option text :=
  match dget text_eqb k args with Some [] => None | o => o end.

(** ** Words *)
Lemma words_spaces b s : spacy b -> words (b ++ s) = words s.
Proof. induction 1 as [|c b H _ IH]; auto. cbn [app words]. rewrite H. exact IH. Qed.
Lemma words_word w s : word w -> (s = [] \/ exists c r, s = c :: r /\ isspace c = true) -> words (w ++ s) = w :: words s.
Proof.
  intros [N F] S. induction w as [|c w IH]; [congruence|]. inversion F as [|? ? Hc F']; subst. destruct w as [|c' w].
  - cbn [app words]. rewrite Hc. destruct S as [->|(d & r & -> & Hd)]; [reflexivity|]. rewrite Hd. reflexivity.
  - inversion F' as [|? ? Hc' _]; subst. specialize (IH ltac:(discriminate) F'). cbn [app] in *. cbn [words]. cbn [words] in IH. rewrite Hc, Hc' in *. rewrite IH. reflexivity.
Qed.
Lemma spaced_words ws s : spaced ws s -> words s = ws.
Proof.
  induction 1 as [s H|b w ws s Hb Hw _ IH Hs].
  - rewrite <- (app_nil_r s), words_spaces; auto.
  - rewrite words_spaces, words_word by auto. f_equal. exact IH.
Qed.
Lemma words_spaced : forall s, spaced (words s) s.
Proof.
  induction s as [|c s IH]; [constructor; constructor|]. cbn [words]. destruct (isspace c) eqn:C.
  - inversion IH as [s' H E|b w ws s' Hb Hw Hr Hs E1 E2].
    + constructor. constructor; auto.
    + apply (sp_word (c :: b)); auto. constructor; auto.
  - destruct s as [|c' s].
    + apply (sp_word [] [c] [] []); [constructor|split; [discriminate|repeat constructor; auto]|constructor; constructor|auto].
    + destruct (isspace c') eqn:C'.
      * apply (sp_word [] [c] _ (c' :: s)); [constructor|split; [discriminate|repeat constructor; auto]|exact IH|right; eauto].
      * inversion IH as [s' H E|b w ws s' Hb Hw Hr Hs E1 E2].
        -- exfalso. inversion H; subst. congruence.
        -- destruct b as [|x b]; [|exfalso; cbn in E2; injection E2 as -> _; inversion Hb; congruence].
           cbn [app]. rewrite (words_word w s' Hw Hs). rewrite (spaced_words _ _ Hr). destruct Hw as [Nw Fw]. cbn [app]. apply (sp_word [] (c :: w) ws s'); [constructor| |auto|auto]. split; [discriminate|constructor; auto].
Qed.
Theorem C56_words : forall s ws, words s = ws <-> spaced ws s.
Proof. intros s ws. split; [intros <-; apply words_spaced|apply spaced_words]. Qed.
Print Assumptions C56_words.
Lemma spaced_tail ws s e : spaced ws s -> spacy e -> spaced ws (s ++ e).
Proof.
  induction 1 as [s H|b w ws s Hb Hw Hr IH Hs]; intros He.
  - constructor. apply Forall_app; auto.
  - rewrite <- !app_assoc. apply sp_word; auto. destruct Hs as [->|(c & r & -> & Hc)].
    + destruct e as [|c e]; [auto|]. inversion He; subst. right. cbn. eauto.
    + right. cbn. eauto.
Qed.
Lemma words_strip s : words (strip s) = words s.
Proof.
  unfold strip. destruct (stripf_split isspace s) as (b & e & E & Hb & He). symmetry. rewrite E at 1. apply spaced_words.
  assert (forall l, forallb isspace l = true -> spacy l) as F. { intros l Hl. apply Forall_forall. intros c Hc. rewrite forallb_forall in Hl. auto. }
  pose proof (words_spaced (stripf isspace s)) as W. apply (spaced_tail _ _ e) in W; auto. remember (stripf isspace s ++ e) as t eqn:Et. clear Et E.
  inversion W as [s' H E1 E2|b' w ws s' Hb' Hw Hr Hs E1 E2].
  - constructor. apply Forall_app. split; [apply F; auto|exact H].
  - rewrite app_assoc. apply sp_word; auto. apply Forall_app. split; [apply F; auto|exact Hb'].
Qed.
Lemma words_join l : Forall word l -> words (join [32] l) = l.
Proof.
  intros F. induction F as [|w l Hw Hl IH]; auto. destruct l as [|w' l].
  - cbn [join]. rewrite <- (app_nil_r w) at 1. rewrite words_word; auto.
  - assert (join [32] (w :: w' :: l) = w ++ 32 :: join [32] (w' :: l)) as -> by reflexivity.
    rewrite words_word; auto; [|right; do 2 eexists; split; reflexivity].
    f_equal. assert (words (32 :: join [32] (w' :: l)) = words (join [32] (w' :: l))) as -> by reflexivity. exact IH.
Qed.

(** ** Aliases *)
Lemma level_alias_spec (m : dict text text) uri :
  (exists a, level_alias m uri = Ok a /\ In (a, uri) m) \/ (level_alias m uri = Raise KeyError /\ forall a, ~ In (a, uri) m).
Proof.
  induction m as [|[a x] m IH]; [right; split; auto|]. cbn [level_alias]. destruct (text_eqb uri x) eqn:E.
  - apply text_eqb_eq in E. subst. left. exists a. split; auto. left; auto.
  - apply text_eqb_neq in E. destruct IH as [(b & H & I)|(H & I)].
    + left. exists b. split; auto. right; auto.
    + right. split; auto. intros b [K|K]; [apply pair_equal_spec in K as [_ K]; congruence|apply (I b K)].
Qed.
Lemma dset_keep (m : dict text text) a uri : NoDup (dkeys m) -> (dget text_eqb a m = None \/ dget text_eqb a m = Some uri) ->
  forall k x, dget text_eqb k m = Some x -> dget text_eqb k (dset text_eqb a uri m) = Some x.
Proof.
  intros N H k x Hk. rewrite (dget_dset text_eqb text_eqb_eq). destruct (text_eqb k a) eqn:E; auto. apply text_eqb_eq in E. subst. destruct H; congruence.
Qed.
Lemma add_alias_spec (m : dict text text) uri al :
  (exists a, addAuthLevelAlias m uri al = Ok (dset text_eqb a uri m) /\ (dget text_eqb a m = None \/ dget text_eqb a m = Some uri \/ In (a, uri) m) /\
     (al = Some a \/ al = None /\ (In (a, uri) m \/ (forall b, ~ In (b, uri) m) /\ exists i, (i < 1000)%nat /\ a = cust i /\ forall j, (j < i)%nat -> In (cust j) (dkeys m)))) \/
  (exists a x, al = Some a /\ dget text_eqb a m = Some x /\ x <> uri /\ addAuthLevelAlias m uri al = Raise KeyError) \/
  (al = None /\ addAuthLevelAlias m uri al = Raise RuntimeError /\ (forall b, ~ In (b, uri) m) /\ forall i, (i < 1000)%nat -> In (cust i) (dkeys m)).
Proof.
  unfold addAuthLevelAlias. destruct al as [a|].
  - destruct (dget text_eqb a m) as [x|] eqn:D.
    + destruct (text_eqb x uri) eqn:E.
      * apply text_eqb_eq in E. subst. left. exists a. cbn [bind]. auto.
      * apply text_eqb_neq in E. right. left. exists a, x. auto.
    + left. exists a. cbn [bind]. auto.
  - destruct (level_alias_spec m uri) as [(a & -> & I)|(-> & I)].
    + left. exists a. cbn [bind]. split; [auto|]. split; auto.
    + unfold generateAlias. assert (forall n k, (forall j, (j < k)%nat -> In (cust j) (dkeys m)) ->
        match find (fun a => negb (dhas text_eqb a m)) (map cust (seq k n)) with
        | Some a => exists i, (k <= i < k + n)%nat /\ a = cust i /\ dget text_eqb a m = None /\ forall j, (j < i)%nat -> In (cust j) (dkeys m)
        | None => forall i, (i < k + n)%nat -> In (cust i) (dkeys m)
        end) as F.
      { induction n as [|n IH]; intros k Hk; cbn [seq map find].
        - intros i Hi. apply Hk. lia.
        - destruct (dhas text_eqb (cust k) m) eqn:D; cbn [negb].
          + assert (forall j, (j < S k)%nat -> In (cust j) (dkeys m)) as Hk'.
            { intros j Hj. destruct (Nat.eq_dec j k) as [->|Nj]; [apply (dhas_In text_eqb text_eqb_eq); auto|apply Hk; lia]. }
            specialize (IH (S k) Hk'). destruct (find _ _).
            * destruct IH as (i & Hi & H). exists i. split; [lia|exact H].
            * intros i Hi. apply IH. lia.
          + exists k. split; [lia|]. split; auto. split; auto. destruct (dget text_eqb (cust k) m) as [x|] eqn:Dx; auto. exfalso.
            apply (dget_In text_eqb text_eqb_eq) in Dx. apply (in_map fst) in Dx. assert (dhas text_eqb (cust k) m = true) by (apply (dhas_In text_eqb text_eqb_eq); exact Dx). congruence. }
      specialize (F 1000%nat 0%nat ltac:(intros j Hj; lia)). destruct (find _ _) as [a|].
      * destruct F as (i & Hi & -> & Da & Hj). left. exists (cust i). cbn [bind]. split; [auto|]. split; [auto|]. right. split; auto. right. split; auto. exists i. repeat split; auto; lia.
      * right. right. cbn [bind]. repeat split; auto.
Qed.

(** Maps of aliases as objects hold them. *)
Record map_ok (m : dict text text) : Prop := {
  mo_keys : NoDup (dkeys m);
  mo_known : forall a x, dget text_eqb a default_aliases = Some x -> dget text_eqb a m = Some x
}.
Lemma default_ok : map_ok default_aliases.
Proof. constructor; auto. unfold dkeys. repeat constructor; cbn; intuition discriminate. Qed.
Lemma default_cases a x : dget text_eqb a default_aliases = Some x <-> a = u "nist" /\ x = LEVELS_NIST \/ a = u "jisa" /\ x = LEVELS_JISA.
Proof.
  unfold default_aliases. cbn [dget]. destruct (text_eqb a (u "nist")) eqn:E1.
  - apply text_eqb_eq in E1. subst. split; [intros K; injection K as <-; auto|intros [[_ ->]|[K _]]; [auto|discriminate K]].
  - apply text_eqb_neq in E1. destruct (text_eqb a (u "jisa")) eqn:E2.
    + apply text_eqb_eq in E2. subst. split; [intros K; injection K as <-; auto|intros [[K _]|[_ ->]]; [contradiction|auto]].
    + apply text_eqb_neq in E2. split; [discriminate|intros [[K _]|[K _]]; contradiction].
Qed.
Lemma level_uri_spec args v1 al uri : level_uri args v1 al = Some uri <-> means args v1 al uri.
Proof.
  unfold level_uri, means, ns_key. destruct (dget text_eqb (u "auth_level.ns." ++ al) args) as [x|].
  - split; [auto|]. intros [K|(K & _)]; [auto|discriminate K].
  - destruct v1.
    + rewrite default_cases. split; [auto|]. intros [K|(_ & _ & K)]; [discriminate K|auto].
    + split; [discriminate|]. intros [K|(_ & K & _)]; [discriminate K|discriminate K].
Qed.
Lemma level_uri_conflict args v1 al uri x : level_uri args v1 al = Some uri -> dget text_eqb al default_aliases = Some x -> x <> uri -> redefines args al.
Proof.
  intros H D N. unfold level_uri in H. destruct (dget text_eqb (ns_key al) args) as [y|] eqn:E.
  - injection H as ->. exists uri. split; [exact E|]. apply default_cases in D. destruct D as [[-> ->]|[-> ->]]; [left|right]; split; auto.
  - destruct v1; [congruence|discriminate H].
Qed.
Lemma redefines_uri args v1 al : redefines args al -> exists uri x, level_uri args v1 al = Some uri /\ dget text_eqb al default_aliases = Some x /\ x <> uri.
Proof.
  intros (uri & D & H). exists uri. unfold level_uri, ns_key. rewrite D.
  destruct H as [[-> N]|[-> N]]; [exists LEVELS_NIST|exists LEVELS_JISA]; repeat split; auto.
Qed.
(** While a message is read, all aliases mean what they mean in the message or are known. *)
Record map_from (args : dict text text) (v1 : bool) (m : dict text text) : Prop := {
  mf_ok : map_ok m;
  mf_from : forall a x, dget text_eqb a m = Some x -> dget text_eqb a default_aliases = Some x \/ level_uri args v1 a = Some x
}.
Lemma map_from_step args v1 m al uri : map_from args v1 m -> level_uri args v1 al = Some uri ->
  (exists m', addAuthLevelAlias m uri (Some al) = Ok m' /\ map_from args v1 m' /\ ~ redefines args al) \/
  (addAuthLevelAlias m uri (Some al) = Raise KeyError /\ redefines args al).
Proof.
  intros [[N K] F] U. unfold addAuthLevelAlias. destruct (dget text_eqb al m) as [x|] eqn:D.
  - destruct (text_eqb x uri) eqn:E.
    + apply text_eqb_eq in E. subst. left. cbn [bind]. eexists. split; [reflexivity|]. split.
      * constructor; [constructor; [apply NoDup_dset; auto; exact text_eqb_eq|intros a x Ha; apply dset_keep; auto]|].
        intros a x. rewrite (dget_dset text_eqb text_eqb_eq). destruct (text_eqb a al) eqn:Ea; [|apply F]. apply text_eqb_eq in Ea. subst. intros Hx. injection Hx as <-. auto.
      * intros R. destruct (redefines_uri args v1 al R) as (y & x & Y1 & Y2 & Y3). apply K in Y2. congruence.
    + apply text_eqb_neq in E. right. cbn [bind]. split; auto. apply F in D as D'. destruct D' as [D'|D']; [|congruence]. eapply level_uri_conflict; eauto.
  - left. cbn [bind]. eexists. split; [reflexivity|]. split.
    + constructor; [constructor; [apply NoDup_dset; auto; exact text_eqb_eq|intros a x Ha; apply dset_keep; auto]|].
      intros a x. rewrite (dget_dset text_eqb text_eqb_eq). destruct (text_eqb a al) eqn:Ea; [|apply F]. apply text_eqb_eq in Ea. subst. intros Hx. injection Hx as <-. auto.
    + intros R. destruct (redefines_uri args v1 al R) as (y & x & Y1 & Y2 & Y3). apply K in Y2. congruence.
Qed.

(** ** Reading requests *)
Definition named (args : dict text text) (v1 : bool) (al : text) : list text := match level_uri args v1 al with Some x => [x] | None => [] end.
Definition type_step (args : dict text text) (v1 strict : bool) (r : pape_request) (al : text) : res pape_request :=
  match level_uri args v1 al with None => if strict then Raise ValueError else Ok r | Some uri => addAuthLevel r uri (Some al) end.
Lemma types_loop args v1 : forall ws p a ty m, map_from args v1 m ->
  (exists m', foldM (type_step args v1 false) (mkPReq p a ty m) ws = Ok (mkPReq p a (fold_left add_once (flat_map (named args v1) ws) ty) m') /\
     map_from args v1 m' /\ forall al, In al ws -> ~ redefines args al) \/
  (foldM (type_step args v1 false) (mkPReq p a ty m) ws = Raise KeyError /\ exists al, In al ws /\ redefines args al).
Proof.
  induction ws as [|al ws IH]; intros p a ty m M.
  - left. exists m. split; [reflexivity|]. split; [auto|intros al []].
  - cbn [foldM flat_map]. unfold type_step at 1 3, named at 1. destruct (level_uri args v1 al) as [uri|] eqn:U.
    + unfold addAuthLevel. cbn [pq_aliases pq_policies pq_age pq_types]. destruct (map_from_step args v1 m al uri M U) as [(m' & -> & M' & R)|(-> & R)].
      * cbn [bind app fold_left]. destruct (IH p a (add_once ty uri) m' M') as [(m2 & E & M2 & R2)|(E & b & I & R2)].
        -- left. exists m2. split; [exact E|]. split; auto. intros b [<-|I]; auto.
        -- right. split; [exact E|]. exists b. split; [right|]; auto.
      * right. cbn [bind]. split; [reflexivity|]. exists al. split; [left|]; auto.
    + cbn [bind app]. destruct (IH p a ty m M) as [(m2 & E & M2 & R2)|(E & b & I & R2)].
      * left. exists m2. split; [exact E|]. split; auto. intros b [<-|I]; auto. intros R. destruct (redefines_uri args v1 _ R) as (y & _ & Y & _). congruence.
      * right. split; [exact E|]. exists b. split; [right|]; auto.
Qed.
Lemma add_once_all l : forall acc, fold_left add_once l acc = acc ++ filter (none_of acc) (firsts l).
Proof.
  induction l as [|x l IH]; intros acc; [cbn; rewrite app_nil_r; reflexivity|]. cbn [fold_left]. unfold add_once at 2. destruct (mem_text x acc) eqn:M.
  - rewrite IH. rewrite skip_firsts; auto. unfold none_of. rewrite M. reflexivity.
  - rewrite IH. apply step_firsts. unfold none_of. rewrite M. reflexivity.
Qed.
Lemma add_once_nil l : fold_left add_once l [] = firsts l.
Proof. rewrite add_once_all. cbn [app]. apply filter_all. reflexivity. Qed.

(** Reading a request, for every dictionary of arguments: without [strict] only the redefinition
    of a known alias raises; otherwise the policies are those of the list, each once, the age is
    the number there, and the types are those of the aliases that mean something, each once. *)
Definition list_of (k : text) (args : dict text text) : list text := match nonempty_arg k args with Some s => splitc 32 s | None => [] end.
Definition wanted (args : dict text text) (ws : list text) : Prop :=
  match nonempty_arg (u "preferred_auth_level_types") args with Some s => spaced ws s | None => ws = [] end.
Definition age_of (args : dict text text) (o : option Z) : Prop :=
  match nonempty_arg (u "max_auth_age") args with
  | None => o = None
  | Some s => match int_of_text s with Ok z => o = Some z | Raise _ => o = None end
  end.
Definition meanings (args : dict text text) (v1 : bool) : list text -> list text -> Prop :=
  fix go ws uris := match ws with
                    | [] => uris = []
                    | al :: ws => (exists x r, means args v1 al x /\ uris = x :: r /\ go ws r) \/ (forall x, ~ means args v1 al x) /\ go ws uris
                    end.
Lemma meanings_named args v1 ws : meanings args v1 ws (flat_map (named args v1) ws).
Proof.
  induction ws as [|al ws IH]; [reflexivity|]. cbn [flat_map meanings]. unfold named at 1 3. destruct (level_uri args v1 al) as [x|] eqn:U.
  - left. exists x, (flat_map (named args v1) ws). split; [apply level_uri_spec; auto|]. split; auto.
  - right. cbn [app]. split; auto. intros x Hx. apply level_uri_spec in Hx. congruence.
Qed.
Lemma int_error s x : int_of_text s = Raise x -> x = ValueError.
Proof.
  unfold int_of_text, nat_of_digits. intros H. destruct (strip s) as [|c r]; [congruence|].
  destruct (c =? 45); [|destruct (c =? 43)]; [destruct (digits r)|destruct (digits r)|destruct (digits (c :: r))]; cbn in H; congruence.
Qed.
Theorem C56_request_parse :
  forall args v1, exists ws, wanted args ws /\
    ((exists al, In al ws /\ redefines args al) /\ pape_request_parse args v1 false = Raise KeyError \/
     (forall al, In al ws -> ~ redefines args al) /\
     exists r uris, pape_request_parse args v1 false = Ok r /\
       pq_policies r = firsts (list_of (u "preferred_auth_policies") args) /\ age_of args (pq_age r) /\
       meanings args v1 ws uris /\ pq_types r = firsts uris /\ map_ok (pq_aliases r)).
Proof.
  intros args v1. unfold pape_request_parse, wanted, list_of, age_of, nonempty_arg.
  set (pol := match dget text_eqb (u "preferred_auth_policies") args with Some (c :: s) => fold_left add_once (splitc 32 (c :: s)) [] | _ => [] end).
  assert (pol = firsts match match dget text_eqb (u "preferred_auth_policies") args with Some [] => None | o => o end with Some s => splitc 32 s | None => [] end) as Ep.
  { unfold pol. destruct (dget text_eqb (u "preferred_auth_policies") args) as [[|c s]|]; [reflexivity|apply add_once_nil|reflexivity]. }
  set (agem := match dget text_eqb (u "max_auth_age") args with Some (c :: s) => _ | _ => _ end).
  assert (exists o, agem = Ok o /\ match match dget text_eqb (u "max_auth_age") args with Some [] => None | o => o end with
          None => o = None | Some s => match int_of_text s with Ok z => o = Some z | Raise _ => o = None end end) as (o & -> & Ho).
  { unfold agem. destruct (dget text_eqb (u "max_auth_age") args) as [[|c s]|]; [eauto| |eauto].
    destruct (int_of_text (c :: s)) as [z|x] eqn:I; [eauto|]. apply int_error in I. subst. cbn [isValueError]. eauto. }
  cbn [bind].
  destruct (dget text_eqb (u "preferred_auth_level_types") args) as [[|c s]|] eqn:T.
  - exists []. split; [reflexivity|]. right. split; [intros al []|]. eexists. exists []. split; [reflexivity|]. cbn [pq_policies pq_age pq_types pq_aliases]. repeat split; auto; apply default_ok.
  - exists (words (c :: s)). split; [apply words_spaced|]. rewrite words_strip.
    assert (map_from args v1 default_aliases) as M0 by (constructor; [apply default_ok|auto]).
    destruct (types_loop args v1 (words (c :: s)) pol o [] default_aliases M0) as [(m' & E & M & R)|(E & al & I & R)].
    + right. split; auto. eexists. exists (flat_map (named args v1) (words (c :: s))). split; [exact E|]. cbn [pq_policies pq_age pq_types pq_aliases].
      split; auto. split; auto. split; [apply meanings_named|]. split; [apply add_once_nil|apply (mf_ok _ _ _ M)].
    + left. split; [eauto|exact E].
  - exists []. split; [reflexivity|]. right. split; [intros al []|]. eexists. exists []. split; [reflexivity|]. cbn [pq_policies pq_age pq_types pq_aliases]. repeat split; auto; apply default_ok.
Qed.
Print Assumptions C56_request_parse.
Example C56_request_parse_ex :
  let args := [(u "preferred_auth_policies", u "urn:p urn:q urn:p"); (u "max_auth_age", u "300"); (u "preferred_auth_level_types", u " x nist  y");
               (u "auth_level.ns.x", u "urn:x"); (u "auth_level.ns.nist", LEVELS_NIST)] in
  (exists r, pape_request_parse args false false = Ok r /\ pq_policies r = [u "urn:p"; u "urn:q"] /\ pq_age r = Some 300%Z /\ pq_types r = [u "urn:x"; LEVELS_NIST]) /\
  pape_request_parse args false true = Raise ValueError /\
  pape_request_parse (dset text_eqb (u "auth_level.ns.nist") (u "urn:n") args) false false = Raise KeyError.
Proof. split; [eexists; split; [vm_compute; reflexivity|vm_compute; auto]|vm_compute; auto]. Qed.

(** With [strict] a request is read exactly when it is read without, its age is a number and all
    aliases mean something; the result is the same. *)
Lemma strict_loop args v1 : forall ws r r', foldM (type_step args v1 true) r ws = Ok r' <->
  foldM (type_step args v1 false) r ws = Ok r' /\ forall al, In al ws -> level_uri args v1 al <> None.
Proof.
  induction ws as [|al ws IH]; intros r r'; cbn [foldM].
  - split; [intros H; split; [auto|intros al []]|intros [H _]; auto].
  - unfold type_step at 1 3. destruct (level_uri args v1 al) as [uri|] eqn:U.
    + destruct (addAuthLevel r uri (Some al)) as [r1|x]; cbn [bind].
      * rewrite IH. split; intros [H1 H2]; (split; [auto|]).
        -- intros b [<-|I]; [congruence|auto].
        -- intros b I. apply H2. right; auto.
      * split; [discriminate|intros [K _]; discriminate K].
    + cbn [bind]. split; [discriminate|]. intros [_ K]. exfalso. apply (K al); [left|]; auto.
Qed.
Theorem C56_request_strict :
  forall args v1 r, pape_request_parse args v1 true = Ok r <->
    pape_request_parse args v1 false = Ok r /\
    (forall s, nonempty_arg (u "max_auth_age") args = Some s -> exists z, int_of_text s = Ok z) /\
    (forall ws al, wanted args ws -> In al ws -> exists uri, means args v1 al uri).
Proof.
  intros args v1 r. unfold pape_request_parse, wanted, nonempty_arg.
  set (pol := match dget text_eqb (u "preferred_auth_policies") args with Some (c :: s) => fold_left add_once (splitc 32 (c :: s)) [] | _ => [] end).
  assert (forall o,
    match dget text_eqb (u "preferred_auth_level_types") args with
    | Some (c :: s) => foldM (type_step args v1 true) (mkPReq pol o [] default_aliases) (words (strip (c :: s)))
    | _ => Ok (mkPReq pol o [] default_aliases) end = Ok r <->
    match dget text_eqb (u "preferred_auth_level_types") args with
    | Some (c :: s) => foldM (type_step args v1 false) (mkPReq pol o [] default_aliases) (words (strip (c :: s)))
    | _ => Ok (mkPReq pol o [] default_aliases) end = Ok r /\
    (forall ws al, match match dget text_eqb (u "preferred_auth_level_types") args with Some [] => None | o => o end with Some s => spaced ws s | None => ws = [] end ->
       In al ws -> exists uri, means args v1 al uri)) as L.
  { intros o. destruct (dget text_eqb (u "preferred_auth_level_types") args) as [[|c s]|].
    - split; [intros H; split; [auto|intros ws al -> []]|tauto].
    - rewrite strict_loop, words_strip. split; intros [H1 H2]; (split; [auto|]).
      + intros ws al W I. apply spaced_words in W. subst. destruct (level_uri args v1 al) as [x|] eqn:U; [exists x; apply level_uri_spec; auto|exfalso; apply (H2 al); auto].
      + intros al I K. destruct (H2 _ al (words_spaced _) I) as (x & Hx). apply level_uri_spec in Hx. congruence.
    - split; [intros H; split; [auto|intros ws al -> []]|tauto]. }
  destruct (dget text_eqb (u "max_auth_age") args) as [[|c s]|]; cbn [bind].
  - rewrite (L None). split; [intros [H1 H2]; split; [auto|split; [discriminate|auto]]|tauto].
  - destruct (int_of_text (c :: s)) as [z|x] eqn:I; cbn [bind].
    + rewrite (L (Some z)). split; [intros [H1 H2]; split; [auto|split; [|auto]]|tauto]. intros s' E. injection E as <-. eauto.
    + apply int_error in I as I'. subst x. cbn [isValueError bind]. split; [discriminate|]. intros (_ & K & _). destruct (K _ eq_refl) as (z & Hz). congruence.
  - rewrite (L None). split; [intros [H1 H2]; split; [auto|split; [discriminate|auto]]|tauto].
Qed.
Print Assumptions C56_request_strict.

(** ** Requests as they are made *)
Inductive req_made : pape_request -> Prop :=
| rm_new p a : req_made (mkPReq p a [] default_aliases)
| rm_ctor p a ty r : newPapeRequest p a ty = Ok r -> req_made r
| rm_policy r p : req_made r -> req_made (req_addPolicyURI r p)
| rm_level r uri al r' : req_made r -> addAuthLevel r uri al = Ok r' -> req_made r'
| rm_parse args v1 strict r : pape_request_parse args v1 strict = Ok r -> req_made r.
Record preq_ok (r : pape_request) : Prop := {
  qo_map : map_ok (pq_aliases r);
  qo_types : NoDup (pq_types r);
  qo_alias : forall t, In t (pq_types r) -> exists a, In (a, t) (pq_aliases r)
}.
Lemma In_dget' (m : dict text text) a x : NoDup (dkeys m) -> In (a, x) m <-> dget text_eqb a m = Some x.
Proof. intros N. split; [apply (In_dget text_eqb text_eqb_eq); auto|apply (dget_In text_eqb text_eqb_eq)]. Qed.
Lemma add_once_In l x y : In y (add_once l x) <-> In y l \/ y = x.
Proof.
  unfold add_once. destruct (mem_text x l) eqn:M; [apply mem_text_In in M; split; [auto|intros [K| ->]; auto]|].
  rewrite in_app_iff. cbn. split; intros [K|K]; auto. destruct K as [->|[]]; auto.
Qed.
Lemma add_once_NoDup l x : NoDup l -> NoDup (add_once l x).
Proof. intros N. unfold add_once. destruct (mem_text x l) eqn:M; auto. apply Prop_Sreg.NoDup_snoc; auto. apply mem_text_false. exact M. Qed.
Lemma add_alias_ok m uri al m' : map_ok m -> addAuthLevelAlias m uri al = Ok m' ->
  map_ok m' /\ (exists a, dget text_eqb a m' = Some uri) /\ forall a x, dget text_eqb a m = Some x -> dget text_eqb a m' = Some x.
Proof.
  intros [N K] H. destruct (add_alias_spec m uri al) as [(a & E & D & _)|[(a & x & _ & _ & _ & E)|(_ & E & _)]]; rewrite E in H; try discriminate H.
  injection H as <-. assert (dget text_eqb a m = None \/ dget text_eqb a m = Some uri) as D'. { destruct D as [D|[D|D]]; auto. right. apply In_dget'; auto. }
  assert (forall k x, dget text_eqb k m = Some x -> dget text_eqb k (dset text_eqb a uri m) = Some x) as P by (apply dset_keep; auto).
  split; [constructor; [apply NoDup_dset; auto; exact text_eqb_eq|auto]|]. split; [|auto]. exists a. apply (dget_dset_same text_eqb text_eqb_eq).
Qed.
Lemma add_level_ok r uri al r' : preq_ok r -> addAuthLevel r uri al = Ok r' -> preq_ok r'.
Proof.
  intros [M T A] H. unfold addAuthLevel in H. apply bind_Ok in H as (m & H1 & H). injection H as <-. destruct (add_alias_ok _ _ _ _ M H1) as (M' & (a & Ha) & K). constructor; cbn [pq_aliases pq_types]; auto.
  - apply add_once_NoDup; auto.
  - intros t I. apply add_once_In in I as [I| ->].
    + destruct (A t I) as (b & Hb). exists b. apply In_dget'; [apply M'|]. apply K. apply In_dget'; [apply M|auto].
    + exists a. apply In_dget'; [apply M'|auto].
Qed.
Lemma add_levels_ok l : forall r r', preq_ok r -> foldM (fun r t => addAuthLevel r t None) r l = Ok r' -> preq_ok r'.
Proof.
  induction l as [|t l IH]; intros r r' R H; cbn [foldM] in H; [injection H as <-; auto|]. apply bind_Ok in H as (r1 & H1 & H). eapply IH; [|exact H]. eapply add_level_ok; eauto.
Qed.
Lemma read_levels_ok args v1 strict l : forall r r', preq_ok r -> foldM (type_step args v1 strict) r l = Ok r' -> preq_ok r'.
Proof.
  induction l as [|t l IH]; intros r r' R H; cbn [foldM] in H; [injection H as <-; auto|]. apply bind_Ok in H as (r1 & H1 & H). eapply IH; [|exact H].
  unfold type_step in H1. destruct (level_uri args v1 t); [eapply add_level_ok; eauto|]. destruct strict; [discriminate H1|injection H1 as <-; auto].
Qed.
Lemma new_ok p a : preq_ok (mkPReq p a [] default_aliases).
Proof. constructor; cbn [pq_aliases pq_types]; [apply default_ok|constructor|intros t []]. Qed.
(** Every request, however made, has each type once, an alias for each, and can be sent. *)
Lemma made_ok r : req_made r -> preq_ok r.
Proof.
  induction 1 as [p a|p a ty r H|r p _ IH|r uri al r' _ IH H|args v1 strict r H].
  - apply new_ok.
  - eapply add_levels_ok; [|exact H]. apply new_ok.
  - destruct IH as [M T A]. constructor; auto.
  - eapply add_level_ok; eauto.
  - unfold pape_request_parse in H. apply bind_Ok in H as (o & _ & H).
    destruct (dget text_eqb (u "preferred_auth_level_types") args) as [[|c s]|]; try (injection H as <-; apply new_ok).
    eapply read_levels_ok; [|exact H]. apply new_ok.
Qed.
Definition args_step (m : dict text text) (s : dict text text * list text) (uri : text) : res (dict text text * list text) :=
  a <- level_alias m uri ;; Ok (dset text_eqb (ns_key a) uri (fst s), snd s ++ [a]).
Lemma ns_key_inj a b : ns_key a = ns_key b -> a = b.
Proof. apply app_inv_head. Qed.
Lemma args_loop m : NoDup (dkeys m) -> forall ts, (forall t, In t ts -> exists a, In (a, t) m) -> forall d acc, NoDup (dkeys d) ->
  exists d' names, foldM (args_step m) (d, acc) ts = Ok (d', acc ++ names) /\ NoDup (dkeys d') /\
    Forall2 (fun t a => In (a, t) m /\ level_alias m t = Ok a) ts names /\
    (forall k, dget text_eqb k d' = dget text_eqb k d \/ exists t a, In t ts /\ In (a, t) m /\ k = ns_key a /\ dget text_eqb k d' = Some t) /\
    (forall t a, In t ts -> level_alias m t = Ok a -> dget text_eqb (ns_key a) d' = Some t).
Proof.
  intros N. induction ts as [|t ts IH]; intros A d acc Nd.
  - exists d, []. rewrite app_nil_r. split; [reflexivity|]. split; auto. split; [constructor|]. split; [auto|intros t a []].
  - cbn [foldM]. unfold args_step at 1. destruct (level_alias_spec m t) as [(a & E & I)|(_ & K)]; [|exfalso; destruct (A t) as (a & Ha); [left; auto|apply (K a Ha)]].
    rewrite E. cbn [bind fst snd].
    destruct (IH ltac:(intros x Hx; apply A; right; auto) (dset text_eqb (ns_key a) t d) (acc ++ [a])) as (d' & names & H1 & H2 & H3 & H4 & H5); [apply NoDup_dset; auto; exact text_eqb_eq|].
    exists d', (a :: names). rewrite H1. split; [rewrite <- app_assoc; reflexivity|]. split; auto. split; [constructor; auto|].
    assert (dget text_eqb (ns_key a) d' = Some t) as Da.
    { destruct (H4 (ns_key a)) as [K|(t' & b & I1 & I2 & I3 & I4)].
      - rewrite K. apply (dget_dset_same text_eqb text_eqb_eq).
      - apply ns_key_inj in I3. subst b. apply In_dget' in I2; auto. apply In_dget' in I; auto. congruence. }
    split.
    + intros k. destruct (H4 k) as [K|(t' & b & I1 & I2 & I3 & I4)]; [|right; exists t', b; split; [right|]; auto].
      rewrite (dget_dset text_eqb text_eqb_eq) in K. destruct (text_eqb k (ns_key a)) eqn:Ek; [|auto]. apply text_eqb_eq in Ek. right. exists t, a. split; [left|]; auto.
    + intros x b [<-|Hx] Hb; [assert (b = a) as -> by congruence; auto|auto].
Qed.
(** Arguments of a request. *)
Lemma request_args r : preq_ok r ->
  exists args names, pape_request_args r = Ok args /\ NoDup (dkeys args) /\ args <> [] /\
    dget text_eqb (u "preferred_auth_policies") args = Some (join [32] (pq_policies r)) /\
    dget text_eqb (u "max_auth_age") args = match pq_age r with Some z => Some (str_of_Z z) | None => None end /\
    dget text_eqb (u "preferred_auth_level_types") args = (match pq_types r with [] => None | _ => Some (join [32] names) end) /\
    Forall2 (fun t a => In (a, t) (pq_aliases r) /\ level_alias (pq_aliases r) t = Ok a) (pq_types r) names /\
    (forall t a, In t (pq_types r) -> level_alias (pq_aliases r) t = Ok a -> dget text_eqb (u "auth_level.ns." ++ a) args = Some t).
Proof.
  intros [M T A]. unfold pape_request_args.
  set (d0 := match pq_age r with Some z => dset text_eqb (u "max_auth_age") (str_of_Z z) [(u "preferred_auth_policies", join [32] (pq_policies r))]
                               | None => [(u "preferred_auth_policies", join [32] (pq_policies r))] end).
  assert (NoDup (dkeys d0) /\ d0 <> [] /\ dget text_eqb (u "preferred_auth_policies") d0 = Some (join [32] (pq_policies r)) /\
          dget text_eqb (u "max_auth_age") d0 = (match pq_age r with Some z => Some (str_of_Z z) | None => None end) /\
          dget text_eqb (u "preferred_auth_level_types") d0 = None) as (N0 & Ne & D1 & D2 & D3).
  { unfold d0. destruct (pq_age r) as [z|].
    - split; [apply NoDup_dset; [exact text_eqb_eq|unfold dkeys; cbn; repeat constructor; intros []]|]. split; [discriminate|]. repeat split; reflexivity.
    - split; [unfold dkeys; cbn; repeat constructor; intros []|]. split; [discriminate|]. repeat split; reflexivity. }
  clearbody d0. destruct (pq_types r) as [|t0 ts] eqn:Ty.
  - exists d0, []. split; [reflexivity|]. do 5 (split; [assumption|]). split; [constructor|intros t a []].
  - destruct (args_loop (pq_aliases r) (mo_keys _ M) (t0 :: ts) A d0 [] N0) as (d' & names & H1 & H2 & H3 & H4 & H5).
    change (foldM (fun s uri => a <- level_alias (pq_aliases r) uri ;; Ok (dset text_eqb (ns_key a) uri (fst s), snd s ++ [a])) (d0, []) (t0 :: ts))
      with (foldM (args_step (pq_aliases r)) (d0, []) (t0 :: ts)). rewrite H1. cbn [bind app].
    do 2 eexists. split; [reflexivity|]. split; [apply NoDup_dset; auto; exact text_eqb_eq|].
    assert (forall k, (forall a, k <> ns_key a) -> dget text_eqb k d' = dget text_eqb k d0) as Kp.
    { intros k Hk. destruct (H4 k) as [K|(t & a & _ & _ & K & _)]; auto. exfalso. apply (Hk a K). }
    split; [intros K; apply (f_equal (dget text_eqb (u "preferred_auth_level_types"))) in K; rewrite (dget_dset_same text_eqb text_eqb_eq) in K; discriminate K|].
    split; [rewrite (dget_dset_other text_eqb text_eqb_eq), Kp by discriminate; auto|].
    split; [rewrite (dget_dset_other text_eqb text_eqb_eq), Kp by discriminate; auto|].
    split; [apply (dget_dset_same text_eqb text_eqb_eq)|]. split; [exact H3|].
    intros t a I E. rewrite (dget_dset_other text_eqb text_eqb_eq) by discriminate. apply (H5 t a I E).
Qed.
Theorem C56_request_total :
  forall r, req_made r -> NoDup (pq_types r) /\ exists args, pape_request_args r = Ok args.
Proof.
  intros r H. apply made_ok in H. split; [apply (qo_types _ H)|]. destruct (request_args r H) as (args & _ & E & _). eauto.
Qed.
Print Assumptions C56_request_total.

(** Requests whose lists can be told apart again: policies without blanks, aliases that are words. *)
Definition list_ok (l : list text) : Prop := l <> [[]] /\ forall p, In p l -> ~ In 32 p.
Lemma list_back l k args : list_ok l -> dget text_eqb k args = Some (join [32] l) -> list_of k args = l.
Proof.
  intros [N H] E. unfold list_of, nonempty_arg. rewrite E. destruct l as [|p l]; [reflexivity|].
  assert (join [32] (p :: l) <> []) as Ne. { destruct p as [|c p]; [destruct l; [exfalso; apply N; reflexivity|discriminate]|destruct l; discriminate]. }
  destruct (join [32] (p :: l)) as [|c s] eqn:J; [congruence|]. rewrite <- J. apply splitc_join; [discriminate|]. apply Forall_forall. exact H.
Qed.
Lemma word_ne_join names : Forall word names -> names <> [] -> join [32] names <> [].
Proof.
  intros F N. destruct names as [|w l]; [congruence|]. inversion F as [|? ? [Hw _] _]; subst. destruct w as [|c w]; [congruence|]. destruct l; discriminate.
Qed.
(** A request comes back with its policies, age and types, whatever the version and with or
    without [strict]. *)
Theorem C56_request_round_trip :
  forall r args args' v1 strict, req_made r -> NoDup (pq_policies r) -> list_ok (pq_policies r) -> (forall a, In a (dkeys (pq_aliases r)) -> word a) ->
    pape_request_args r = Ok args -> (forall k, dget text_eqb k args' = dget text_eqb k args) ->
    exists r', pape_request_parse args' v1 strict = Ok r' /\ pq_policies r' = pq_policies r /\ pq_age r' = pq_age r /\ pq_types r' = pq_types r.
Proof.
  intros r args args' v1 strict Mr Np Lp Wa Ha De. apply made_ok in Mr. destruct (request_args r Mr) as (args0 & names & E & _ & _ & D1 & D2 & D3 & F & D4).
  assert (args0 = args) as -> by congruence. clear E.
  assert (Forall word names) as Wn.
  { apply Forall_forall. intros a I. assert (exists t, In (a, t) (pq_aliases r)) as (t & It). { clear -F I. induction F as [|t b ts ns [H _] _ IH]; [destruct I|]. destruct I as [<-|I]; eauto. }
    apply Wa. apply (in_map fst) in It. exact It. }
  assert (forall ws, wanted args' ws -> ws = names) as Wu.
  { intros ws W. unfold wanted, nonempty_arg in W. rewrite De, D3 in W. destruct (pq_types r) as [|t ts].
    - inversion F; subst. auto.
    - inversion F as [|? a ? ns _ _]; subst. destruct (join [32] (a :: ns)) as [|c s] eqn:J; [exfalso; eapply word_ne_join; eauto; discriminate|].
      rewrite <- J in W. apply spaced_words in W. rewrite words_join in W by auto. auto. }
  assert (forall a, In a names -> exists t, In t (pq_types r) /\ In (a, t) (pq_aliases r) /\ dget text_eqb (u "auth_level.ns." ++ a) args' = Some t) as Dn.
  { intros a I. assert (exists t, In t (pq_types r) /\ In (a, t) (pq_aliases r) /\ level_alias (pq_aliases r) t = Ok a) as (t & I1 & I2 & I3).
    { clear -F I. induction F as [|t b ts ns [H H'] _ IH]; [destruct I|]. destruct I as [<-|I]; [exists t; split; [left|]; auto|destruct (IH I) as (x & Hx & Hy); exists x; split; [right|]; auto]. }
    exists t. rewrite De. auto. }
  destruct (C56_request_parse args' v1) as (ws & W & [((al & I & R) & _)|(_ & r' & uris & P & P1 & P2 & P3 & P4 & _)]).
  - exfalso. apply Wu in W. subst ws. destruct (Dn al I) as (t & _ & It & Dt). destruct R as (x & Dx & Rx). rewrite Dt in Dx. injection Dx as <-. apply In_dget' in It; [|apply (qo_map _ Mr)].
    assert (forall y, dget text_eqb al default_aliases = Some y -> t = y) as Ky. { intros y Hy. apply (mo_known _ (qo_map _ Mr)) in Hy. congruence. }
    destruct Rx as [[-> Rx]|[-> Rx]]; apply Rx; apply Ky; reflexivity.
  - exists r'. pose proof (Wu _ W) as ->. split.
    { destruct strict; [|exact P]. apply C56_request_strict. split; auto. split.
      - intros s Hs. unfold nonempty_arg in Hs. rewrite De, D2 in Hs. destruct (pq_age r) as [z|]; [|discriminate Hs]. exists z. destruct (str_of_Z z) as [|c t] eqn:Ez; [discriminate Hs|]. injection Hs as <-. rewrite <- Ez. apply int_of_str.
      - intros ws al W' I. apply Wu in W'. subst. destruct (Dn al I) as (t & _ & _ & Dt). exists t. left. exact Dt. }
    split; [rewrite P1, (list_back (pq_policies r)); [apply firsts_NoDup; auto|auto|rewrite De; auto]|]. split.
    + unfold age_of, nonempty_arg in P2. rewrite De, D2 in P2. destruct (pq_age r) as [z|]; [|auto]. destruct (str_of_Z z) as [|c t] eqn:Ez; [exfalso; pose proof (int_of_str z) as K; rewrite Ez in K; discriminate K|]. rewrite <- Ez, int_of_str in P2. exact P2.
    + rewrite P4. assert (uris = pq_types r) as ->; [|apply firsts_NoDup; apply (qo_types _ Mr)].
      assert (forall t a, In t (pq_types r) -> level_alias (pq_aliases r) t = Ok a -> dget text_eqb (u "auth_level.ns." ++ a) args' = Some t) as D4' by (intros t a I1 I2; rewrite De; auto).
      clear -F P3 D4'. revert uris P3. induction F as [|t a ts ns [H1 H2] _ IH]; intros uris P3; [exact P3|]. cbn [meanings] in P3.
      assert (means args' v1 a t) as Mt by (left; apply D4'; [left|]; auto).
      destruct P3 as [(x & l & Mx & -> & P3)|(K & _)]; [|exfalso; apply (K t Mt)].
      assert (x = t) as -> by (apply level_uri_spec in Mx; apply level_uri_spec in Mt; congruence). f_equal. apply IH; auto. intros y b I. apply D4'. right; auto.
Qed.
Print Assumptions C56_request_round_trip.
Definition a_pape_request : pape_request :=
  mkPReq [u "urn:p"; u "urn:q"] (Some 0%Z) [u "urn:x"; LEVELS_JISA] [(u "nist", LEVELS_NIST); (u "jisa", LEVELS_JISA); (u "cust0", u "urn:x")].
Example C56_request_round_trip_ex :
  newPapeRequest [u "urn:p"; u "urn:q"] (Some 0%Z) [u "urn:x"; LEVELS_JISA] = Ok a_pape_request /\
  pape_request_args a_pape_request =
  Ok [(u "preferred_auth_policies", u "urn:p urn:q"); (u "max_auth_age", u "0"); (u "auth_level.ns.cust0", u "urn:x"); (u "auth_level.ns.jisa", LEVELS_JISA);
      (u "preferred_auth_level_types", u "cust0 jisa")].
Proof. vm_compute. auto. Qed.

(** It does so through messages. *)
Theorem C56_request_delivered :
  forall reg m r args m1 m2,
    built reg m -> good_registry reg ->
    req_made r -> NoDup (pq_policies r) -> list_ok (pq_policies r) -> (forall a, In a (dkeys (pq_aliases r)) -> word a) ->
    pape_request_args r = Ok args -> getAlias (mns m) pape_ns = None -> ext_toMessage m pape_ns pape_alias args = Ok m1 ->
    wire_safe reg m1 -> fromPostArgs reg (toPostArgs m1) = Ok m2 ->
    exists r', pape_fromOpenIDRequest m2 = Ok (Some r') /\ pq_policies r' = pq_policies r /\ pq_age r' = pq_age r /\ pq_types r' = pq_types r.
Proof.
  intros reg m r args m1 m2 B G Mr Np Lp Wa Ha Ga E S P. destruct (request_args r (made_ok r Mr)) as (args0 & names & E0 & Na & Ne & _). assert (args0 = args) as -> by congruence.
  destruct (sent_args reg m pape_ns pape_alias args m1 m2 B G) as (B2 & GA & _); auto; [discriminate|].
  destruct (getArgs_spec reg m2 pape_ns B2) as (d & D1 & D2 & D3); [discriminate|].
  assert (forall k, dget text_eqb k d = dget text_eqb k args) as De. { intros k. specialize (D3 k). rewrite GA in D3. congruence. }
  destruct (C56_request_round_trip r args d (isOpenID1 m2) false Mr Np Lp Wa Ha De) as (r' & P' & R). exists r'. split; auto.
  unfold pape_fromOpenIDRequest. rewrite D1. cbn [bind]. destruct d as [|e d]; [|rewrite P'; reflexivity]. exfalso. destruct args as [|[k v] args]; [congruence|].
  specialize (De k). cbn [dget] in De. rewrite text_eqb_refl in De. discriminate De.
Qed.
Print Assumptions C56_request_delivered.

(** The supported policies that are wanted, in the order of the provider. *)
Inductive subsequence {A} : list A -> list A -> Prop :=
| ss_nil : subsequence [] []
| ss_keep x l l' : subsequence l l' -> subsequence (x :: l) (x :: l')
| ss_skip x l l' : subsequence l l' -> subsequence l (x :: l').
Theorem C56_preferred :
  forall r supported, subsequence (preferredTypes r supported) supported /\
    forall p, count_occ (list_eq_dec N.eq_dec) (preferredTypes r supported) p =
              if in_dec (list_eq_dec N.eq_dec) p (pq_policies r) then count_occ (list_eq_dec N.eq_dec) supported p else O.
Proof.
  intros r l. unfold preferredTypes. split.
  - induction l as [|x l IH]; [constructor|]. cbn [filter]. destruct (mem_text x (pq_policies r)); constructor; auto.
  - intros p. destruct (in_dec (list_eq_dec N.eq_dec) p (pq_policies r)) as [I|I].
    + induction l as [|x l IH]; auto. cbn [filter]. destruct (mem_text x (pq_policies r)) eqn:M.
      * cbn [count_occ]. rewrite IH. reflexivity.
      * cbn [count_occ]. destruct (list_eq_dec N.eq_dec x p) as [->|_]; [|auto]. exfalso. apply mem_text_false in M. apply M. exact I.
    + apply count_occ_not_In. rewrite filter_In. intros [_ K]. apply mem_text_In in K. apply I. exact K.
Qed.
Print Assumptions C56_preferred.
Example C56_preferred_ex : preferredTypes a_pape_request [u "urn:q"; u "urn:z"; u "urn:p"] = [u "urn:q"; u "urn:p"].
Proof. vm_compute. reflexivity. Qed.

(** Without an alias a level gets the one it has, or the first free one of a thousand. *)
Theorem C56_level_alias :
  forall m uri, map_ok m ->
    (exists a, dget text_eqb a m = Some uri) /\ (exists m', addAuthLevelAlias m uri None = Ok m' /\ forall k, dget text_eqb k m' = dget text_eqb k m) \/
    (forall a, dget text_eqb a m <> Some uri) /\
    ((exists i, (i < 1000)%nat /\ dget text_eqb (u "cust" ++ str_of_N (N.of_nat i)) m = None /\
        (forall j, (j < i)%nat -> dget text_eqb (u "cust" ++ str_of_N (N.of_nat j)) m <> None) /\
        addAuthLevelAlias m uri None = Ok (m ++ [(u "cust" ++ str_of_N (N.of_nat i), uri)])) \/
     (forall i, (i < 1000)%nat -> dget text_eqb (u "cust" ++ str_of_N (N.of_nat i)) m <> None) /\ addAuthLevelAlias m uri None = Raise RuntimeError).
Proof.
  intros m uri [N K]. assert (forall k, In k (dkeys m) -> dget text_eqb k m <> None) as Kn.
  { intros k I H. apply (dget_None text_eqb text_eqb_eq) in H. contradiction. }
  destruct (add_alias_spec m uri None) as [(a & E & D & [F|(_ & [F|(Nu & i & Hi & -> & Hj)])])|[(a & x & F & _)|(_ & E & Nu & Hi)]]; try discriminate F.
  - left. apply In_dget' in F; auto. split; [eauto|]. eexists. split; [exact E|]. intros k. rewrite (dget_dset text_eqb text_eqb_eq).
    destruct (text_eqb k a) eqn:Ek; auto. apply text_eqb_eq in Ek. subst. auto.
  - right. split; [intros b Hb; apply (Nu b); apply In_dget'; auto|]. left. exists i. split; auto.
    assert (dget text_eqb (cust i) m = None) as Dc. { destruct D as [D|[D|D]]; auto; exfalso; [apply In_dget' in D; auto; apply (Nu _ D)|apply (Nu _ D)]. }
    split; [exact Dc|]. split; [intros j Hj'; apply Kn; apply (Hj j Hj')|]. rewrite E. f_equal. apply (dset_fresh text_eqb). exact Dc.
  - right. split; [intros b Hb; apply (Nu b); apply In_dget'; auto|]. right. split; auto. intros i Hi'. apply Kn. apply (Hi i Hi').
Qed.
Print Assumptions C56_level_alias.

(** ** Responses *)
Section Response.
  Variable udec : N -> bool.

  (** Times: the digits of a date and a time, perhaps with a newline after them. *)
  Definition stamp (s : text) : Prop :=
    Forall2 (fun p c => if p =? 48 then decimal udec c = true else c = p) (u "0000-00-00T00:00:00Z") s.
  Lemma time_match_spec pat : forall s, time_match udec pat s = true <->
    exists s', (s = s' \/ s = s' ++ [10]) /\ Forall2 (fun p c => if p =? 48 then decimal udec c = true else c = p) pat s'.
  Proof using.
    induction pat as [|p pat IH]; intros s; cbn [time_match].
    - split.
      + destruct s as [|c [|]]; [exists []; auto| |discriminate]. intros H. apply N.eqb_eq in H. subst. exists []. auto.
      + intros (s' & H & F). inversion F; subst. destruct H as [->| ->]; reflexivity.
    - destruct s as [|c s].
      + split; [discriminate|]. intros (s' & H & F). inversion F as [|? ? ? ? _ _]; subst. destruct H as [H|H]; discriminate H.
      + rewrite andb_true_iff, IH. split.
        * intros [H1 (s' & H2 & F)]. exists (c :: s'). split; [destruct H2 as [->| ->]; auto|]. constructor; auto. destruct (p =? 48); auto. apply N.eqb_eq in H1. auto.
        * intros (s' & H & F). inversion F as [|? c' ? t H1 H2]; subst. assert (c' = c /\ (s = t \/ s = t ++ [10])) as [-> Ht] by (destruct H as [H|H]; injection H as -> ->; auto).
          split; [destruct (p =? 48); auto; apply N.eqb_eq; auto|]. exists t. auto.
  Qed.
  Theorem C56_time : forall s, TIME_VALIDATOR udec s = true <-> exists s', stamp s' /\ (s = s' \/ s = s' ++ [10]).
  Proof using. intros s. unfold TIME_VALIDATOR. rewrite time_match_spec. split; intros (s' & H1 & H2); exists s'; auto. Qed.
  Lemma time_nonempty s : TIME_VALIDATOR udec s = true -> s <> [].
  Proof using. intros H ->. discriminate H. Qed.

  (** *** Reading *)
  (** A level of a message: the value under an alias that is no declaration. *)
  Definition sent_level (args : dict text text) (v1 : bool) (al uri v : text) : Prop :=
    dget text_eqb (u "auth_level." ++ al) args = Some v /\ startswith al (u "ns.") = false /\ means args v1 al uri.
  Definition lev (args : dict text text) (v1 : bool) (e : text * text) : list (text * text) :=
    if startswith (fst e) (u "auth_level.") then
      if startswith (skipn 11 (fst e)) (u "ns.") then []
      else match level_uri args v1 (skipn 11 (fst e)) with Some x => [(x, snd e)] | None => [] end
    else [].
  Definition bad_level (args : dict text text) (l : dict text text) : Prop :=
    exists al v, In (u "auth_level." ++ al, v) l /\ startswith al (u "ns.") = false /\ redefines args al.
  Lemma key_cut key : startswith key (u "auth_level.") = true -> key = u "auth_level." ++ skipn 11 key.
  Proof using. intros H. apply AxFacts.startswith_skipn in H. exact H. Qed.
  Lemma skipn_key al : skipn 11 (u "auth_level." ++ al) = al.
  Proof using. reflexivity. Qed.
  Lemma levels_loop args v1 : forall l p t lv m, map_from args v1 m ->
    (exists m', foldM (level_step args v1 false) (mkPResp p t lv m) l =
                Ok (mkPResp p t (fold_left (fun d e => dset text_eqb (fst e) (snd e) d) (flat_map (lev args v1) l) lv) m') /\ map_from args v1 m' /\ ~ bad_level args l) \/
    (foldM (level_step args v1 false) (mkPResp p t lv m) l = Raise KeyError /\ bad_level args l).
  Proof using.
    induction l as [|[key v] l IH]; intros p t lv m M.
    - left. exists m. split; [reflexivity|]. split; auto. intros (al & v & [] & _).
    - cbn [foldM flat_map]. unfold lev at 1. cbn [fst snd].
      assert (bad_level args l -> bad_level args ((key, v) :: l)) as Up. { intros (al & w & I & H). exists al, w. split; [right; auto|auto]. }
      assert (forall lv' m', map_from args v1 m' -> (~ exists al, key = u "auth_level." ++ al /\ startswith al (u "ns.") = false /\ redefines args al) ->
        (exists m2, foldM (level_step args v1 false) (mkPResp p t lv' m') l =
                Ok (mkPResp p t (fold_left (fun d e => dset text_eqb (fst e) (snd e) d) (flat_map (lev args v1) l) lv') m2) /\ map_from args v1 m2 /\ ~ bad_level args ((key, v) :: l)) \/
        (foldM (level_step args v1 false) (mkPResp p t lv' m') l = Raise KeyError /\ bad_level args ((key, v) :: l))) as Go.
      { intros lv' m' M' Nk. destruct (IH p t lv' m' M') as [(m2 & E & M2 & R)|(E & R)]; [left|right; auto]. exists m2. split; auto. split; auto.
        intros (al & w & [K|K] & H1 & H2); [apply pair_equal_spec in K as [K _]; apply Nk; eauto|apply R; exists al, w; auto]. }
      unfold level_step at 1 3. destruct (startswith key (u "auth_level.")) eqn:Sk.
      + pose proof (key_cut key Sk) as Ek. assert (exists al : text, skipn 11 key = al) as [al Eal] by eauto. rewrite Eal in *. symmetry in Eal. destruct (startswith al (u "ns.")) eqn:Sn.
        * cbn [bind app]. apply Go; auto. intros (b & Eb & Hb & _). assert (al = b) as -> by (rewrite Eal, Eb; reflexivity). congruence.
        * destruct (level_uri args v1 al) as [uri|] eqn:U.
          -- unfold setAuthLevel. cbn [pr_aliases pr_policies pr_time pr_levels]. destruct (map_from_step args v1 m al uri M U) as [(m' & -> & M' & R)|(-> & R)].
             ++ cbn [bind app fold_left fst snd]. apply Go; auto. intros (b & Eb & _ & Rb). assert (al = b) as -> by (rewrite Eal, Eb; reflexivity). contradiction.
             ++ right. cbn [bind]. split; auto. exists al, v. split; [left; rewrite Ek; auto|auto].
          -- cbn [bind app]. apply Go; auto. intros (b & Eb & _ & Rb). assert (al = b) as -> by (rewrite Eal, Eb; reflexivity). destruct (redefines_uri args v1 _ Rb) as (y & _ & Y & _). congruence.
      + cbn [bind app]. apply Go; auto. intros (b & Eb & _). rewrite Eb, startswith_app in Sk. discriminate Sk.
  Qed.
  Lemma dset_fold (l : dict text text) : forall d k v, dget text_eqb k (fold_left (fun d e => dset text_eqb (fst e) (snd e) d) l d) = Some v ->
    In (k, v) l \/ dget text_eqb k d = Some v /\ forall w, ~ In (k, w) l.
  Proof using.
    induction l as [|[a x] l IH]; intros d k v H; cbn [fold_left fst snd] in H; [right; auto|]. apply IH in H as [H|[H Nw]]; [left; right; auto|].
    rewrite (dget_dset text_eqb text_eqb_eq) in H. destruct (text_eqb k a) eqn:E.
    - apply text_eqb_eq in E. injection H as ->. subst. left. left; auto.
    - right. split; auto. intros w [K|K]; [apply pair_equal_spec in K as [-> _]; rewrite text_eqb_refl in E; discriminate E|apply (Nw w K)].
  Qed.
  Lemma dset_fold_has (l : dict text text) : forall d k, ((exists v, In (k, v) l) \/ exists v, dget text_eqb k d = Some v) ->
    exists v, dget text_eqb k (fold_left (fun d e => dset text_eqb (fst e) (snd e) d) l d) = Some v.
  Proof using.
    induction l as [|[a x] l IH]; intros d k H; cbn [fold_left fst snd].
    - destruct H as [(v & [])|H]; auto.
    - apply IH. destruct H as [(v & [K|K])|(v & H)].
      + apply pair_equal_spec in K as [-> ->]. right. rewrite (dget_dset_same text_eqb text_eqb_eq). eauto.
      + left. eauto.
      + right. rewrite (dget_dset text_eqb text_eqb_eq). destruct (text_eqb k a); eauto.
  Qed.
  Lemma lev_In args v1 uri v : NoDup (dkeys args) -> In (uri, v) (flat_map (lev args v1) args) <-> exists al, sent_level args v1 al uri v.
  Proof using.
    intros N. rewrite in_flat_map. split.
    - intros ([key w] & I & H). unfold lev in H. cbn [fst snd] in H. destruct (startswith key (u "auth_level.")) eqn:Sk; [|destruct H].
      destruct (startswith (skipn 11 key) (u "ns.")) eqn:Sn; [destruct H|]. destruct (level_uri args v1 (skipn 11 key)) as [x|] eqn:U; [|destruct H].
      destruct H as [H|[]]. apply pair_equal_spec in H as [-> ->]. exists (skipn 11 key). split; [|split; [auto|apply level_uri_spec; auto]].
      rewrite <- (key_cut key Sk). apply In_dget'; auto.
    - intros (al & D & Sn & Mn). exists (u "auth_level." ++ al, v). split; [apply In_dget'; auto|]. unfold lev. cbn [fst snd]. rewrite startswith_app, skipn_key, Sn.
      apply level_uri_spec in Mn. rewrite Mn. left; auto.
  Qed.
  Definition policies_read (args : dict text text) : list text :=
    filter (fun p => negb (text_eqb p (u "none") || text_eqb p AUTH_NONE)) (list_of (u "auth_policies") args).
  Definition time_read (args : dict text text) (o : option text) : Prop :=
    match nonempty_arg (u "auth_time") args with
    | Some s => (exists s', stamp s' /\ (s = s' \/ s = s' ++ [10])) /\ o = Some s \/ ~ (exists s', stamp s' /\ (s = s' \/ s = s' ++ [10])) /\ o = None
    | None => o = None
    end.
  (** Reading a response, for every dictionary of arguments. *)
  Theorem C56_response_parse :
    forall args v1, NoDup (dkeys args) ->
      bad_level args args /\ pape_response_parse udec args v1 false = Raise KeyError \/
      ~ bad_level args args /\ exists r, pape_response_parse udec args v1 false = Ok r /\
        pr_policies r = policies_read args /\ time_read args (pr_time r) /\ map_ok (pr_aliases r) /\
        (forall uri v, dget text_eqb uri (pr_levels r) = Some v -> exists al, sent_level args v1 al uri v) /\
        (forall al uri v, sent_level args v1 al uri v -> exists w, dget text_eqb uri (pr_levels r) = Some w).
  Proof using.
    intros args v1 N. unfold pape_response_parse.
    set (pm := match dget text_eqb (u "auth_policies") args with Some (c :: s) => Ok (splitc 32 (c :: s)) | _ => if false then Raise ValueError else Ok [] end).
    assert (pm = Ok (list_of (u "auth_policies") args)) as ->.
    { unfold pm, list_of, nonempty_arg. destruct (dget text_eqb (u "auth_policies") args) as [[|c s]|]; reflexivity. }
    cbn [bind]. rewrite andb_false_r, andb_false_r. cbn [andb].
    set (pol := filter _ (list_of (u "auth_policies") args)).
    assert (pol = policies_read args) as Ep.
    { unfold pol, policies_read. apply filter_ext. intros p. cbn [mem_text existsb]. rewrite orb_false_r. reflexivity. }
    assert (map_from args v1 default_aliases) as M0 by (constructor; [apply default_ok|auto]).
    destruct (levels_loop args v1 args pol None [] default_aliases M0) as [(m' & E & M & R)|(E & R)].
    - right. split; auto. rewrite E. cbn [bind]. set (lv := fold_left (fun (d : dict text text) (e : text * text) => dset text_eqb (fst e) (snd e) d) (flat_map (lev args v1) args) []).
      assert ((forall uri v, dget text_eqb uri lv = Some v -> exists al, sent_level args v1 al uri v) /\
              (forall al uri v, sent_level args v1 al uri v -> exists w, dget text_eqb uri lv = Some w)) as [L1 L2].
      { split.
        - intros uri v H. apply dset_fold in H as [H|[H _]]; [apply lev_In in H; auto|discriminate H].
        - intros al uri v H. apply dset_fold_has. left. exists v. apply lev_In; eauto. }
      unfold time_read, nonempty_arg. destruct (dget text_eqb (u "auth_time") args) as [[|c s]|].
      + eexists. split; [reflexivity|]. cbn [pr_policies pr_time pr_levels pr_aliases]. repeat split; auto; apply (mf_ok _ _ _ M).
      + pose proof (C56_time (c :: s)) as Ct. destruct (TIME_VALIDATOR udec (c :: s)).
        * eexists. split; [reflexivity|]. cbn [pr_policies pr_time pr_levels pr_aliases]. split; auto. split; [left; split; [apply Ct|]; auto|]. split; [apply (mf_ok _ _ _ M)|auto].
        * eexists. split; [reflexivity|]. cbn [pr_policies pr_time pr_levels pr_aliases]. split; auto. split; [right; split; [intros K; apply Ct in K; discriminate K|auto]|]. split; [apply (mf_ok _ _ _ M)|auto].
      + eexists. split; [reflexivity|]. cbn [pr_policies pr_time pr_levels pr_aliases]. repeat split; auto; apply (mf_ok _ _ _ M).
    - left. split; auto. rewrite E. reflexivity.
  Qed.
End Response.
Print Assumptions C56_time.
Print Assumptions C56_response_parse.
Definition plain_dec : N -> bool := fun _ => false.
Example C56_response_parse_ex :
  let args := [(u "auth_policies", u "urn:p none urn:p"); (u "auth_level.nist", u "2"); (u "auth_level.x", u "high"); (u "auth_level.ns.x", u "urn:x");
               (u "auth_level.y", u "1"); (u "auth_time", u "2026-11-16T10:00:00Z")] in
  pape_response_parse plain_dec args true false =
    Ok (mkPResp [u "urn:p"; u "urn:p"] (Some (u "2026-11-16T10:00:00Z")) [(LEVELS_NIST, u "2"); (u "urn:x", u "high")]
                [(u "nist", LEVELS_NIST); (u "jisa", LEVELS_JISA); (u "x", u "urn:x")]) /\
  pape_response_parse plain_dec args true true = Raise ValueError /\
  (exists r, pape_response_parse plain_dec args false false = Ok r /\ pr_levels r = [(u "urn:x", u "high")]) /\
  pape_response_parse plain_dec (args ++ [(u "auth_level.ns.nist", u "urn:n")]) true false = Raise KeyError.
Proof. repeat split; try (vm_compute; reflexivity). eexists. split; [vm_compute; reflexivity|reflexivity]. Qed.

Section Response2.
  Variable udec : N -> bool.
  Lemma strict_levels args v1 : forall l r r', foldM (level_step args v1 true) r l = Ok r' <->
    foldM (level_step args v1 false) r l = Ok r' /\ forall al v, In (u "auth_level." ++ al, v) l -> startswith al (u "ns.") = false -> level_uri args v1 al <> None.
  Proof using.
    induction l as [|[key v] l IH]; intros r r'; cbn [foldM].
    - split; [intros H; split; [auto|intros al v []]|intros [H _]; auto].
    - assert (forall b, (level_step args v1 b r (key, v) = Raise ValueError /\ b = true /\ exists al, key = u "auth_level." ++ al /\ startswith al (u "ns.") = false /\ level_uri args v1 al = None) \/
        (exists x, level_step args v1 b r (key, v) = x /\ level_step args v1 false r (key, v) = x /\
           (b = true -> forall al, key = u "auth_level." ++ al -> startswith al (u "ns.") = false -> level_uri args v1 al <> None))) as St.
      { intros b. unfold level_step. destruct (startswith key (u "auth_level.")) eqn:Sk.
        - pose proof (key_cut key Sk) as Ek. assert (forall al, key = u "auth_level." ++ al -> skipn 11 key = al) as Ka by (intros al ->; reflexivity).
          destruct (startswith (skipn 11 key) (u "ns.")) eqn:Sn.
          + right. eexists. split; [reflexivity|]. split; auto. intros _ al Ea Ha. apply Ka in Ea. congruence.
          + destruct (level_uri args v1 (skipn 11 key)) eqn:U.
            * right. eexists. split; [reflexivity|]. split; auto. intros _ al Ea _. apply Ka in Ea. congruence.
            * destruct b; [left; split; auto; split; auto; exists (skipn 11 key); auto|]. right. eexists. split; [reflexivity|]. split; auto. discriminate.
        - right. eexists. split; [reflexivity|]. split; auto. intros _ al -> _. rewrite startswith_app in Sk. discriminate Sk. }
      destruct (St true) as [(-> & _ & al & -> & Sn & U)|(x & -> & Sf & Kn)].
      + cbn [bind]. split; [discriminate|]. intros [_ K]. exfalso. apply (K al v); auto. left; auto.
      + rewrite Sf. destruct x as [r1|x]; cbn [bind].
        * rewrite IH. split; intros [H1 H2]; (split; [auto|]).
          -- intros al w [K|K] Hn; [apply pair_equal_spec in K as [K _]; auto|apply (H2 al w K Hn)].
          -- intros al w K. apply H2 with w. right; auto.
        * split; [discriminate|intros [K _]; discriminate K].
  Qed.
  Definition empty (l : list text) : bool := match l with [] => true | _ => false end.
  Lemma parse_form args v1 b :
    pape_response_parse udec args v1 b =
    let L := list_of (u "auth_policies") args in
    if b && (empty L || (1 <? len L) && mem_text AUTH_NONE L || mem_text (u "none") L) then Raise ValueError
    else r <- foldM (level_step args v1 b) (mkPResp (policies_read args) None [] default_aliases) args ;;
         match nonempty_arg (u "auth_time") args with
         | Some t => if TIME_VALIDATOR udec t then Ok (mkPResp (pr_policies r) (Some t) (pr_levels r) (pr_aliases r)) else if b then Raise ValueError else Ok r
         | None => Ok r
         end.
  Proof using.
    cbv zeta. unfold pape_response_parse, policies_read.
    assert (match dget text_eqb (u "auth_policies") args with Some (c :: s) => Ok (splitc 32 (c :: s)) | _ => if b then Raise ValueError else Ok [] end =
            if b && empty (list_of (u "auth_policies") args) then Raise ValueError else Ok (list_of (u "auth_policies") args)) as ->.
    { unfold list_of, nonempty_arg. destruct (dget text_eqb (u "auth_policies") args) as [[|c s]|]; [destruct b; reflexivity| |destruct b; reflexivity].
      destruct (splitc 32 (c :: s)) eqn:Sp; [exfalso; apply (splitc_nonempty 32 (c :: s) Sp)|]. cbn [empty]. rewrite andb_false_r. reflexivity. }
    set (L := list_of (u "auth_policies") args). destruct b; cbn [andb].
    - destruct (empty L); cbn [orb bind]; [reflexivity|]. rewrite !andb_true_r. destruct ((1 <? len L) && mem_text AUTH_NONE L); cbn [orb]; [reflexivity|].
      destruct (mem_text (u "none") L); [reflexivity|].
      assert (filter (fun p => negb (mem_text p [u "none"; AUTH_NONE])) L = filter (fun p => negb (text_eqb p (u "none") || text_eqb p AUTH_NONE)) L) as ->.
      { apply filter_ext. intros p. cbn [mem_text existsb]. rewrite orb_false_r. reflexivity. }
      destruct (foldM _ _ args) as [r|x]; [|reflexivity]. cbn [bind]. unfold nonempty_arg. destruct (dget text_eqb (u "auth_time") args) as [[|c s]|]; reflexivity.
    - cbn [bind]. rewrite !andb_false_r. cbn [andb].
      assert (filter (fun p => negb (mem_text p [u "none"; AUTH_NONE])) L = filter (fun p => negb (text_eqb p (u "none") || text_eqb p AUTH_NONE)) L) as ->.
      { apply filter_ext. intros p. cbn [mem_text existsb]. rewrite orb_false_r. reflexivity. }
      destruct (foldM _ _ args) as [r|x]; [|reflexivity]. cbn [bind]. unfold nonempty_arg. destruct (dget text_eqb (u "auth_time") args) as [[|c s]|]; reflexivity.
  Qed.
  (** With [strict], exactly the responses are read that name policies, do not mix "none" with
      others, declare the aliases of all levels and have a well-formed time. *)
  Definition well_formed (args : dict text text) (v1 : bool) : Prop :=
    let L := list_of (u "auth_policies") args in
    L <> [] /\ ~ In (u "none") L /\ (In AUTH_NONE L -> L = [AUTH_NONE]) /\
    (forall al v, dget text_eqb (u "auth_level." ++ al) args = Some v -> startswith al (u "ns.") = false -> exists uri, means args v1 al uri) /\
    (forall s, nonempty_arg (u "auth_time") args = Some s -> exists s', stamp udec s' /\ (s = s' \/ s = s' ++ [10])).
  Lemma policies_fine L : (empty L || (1 <? len L) && mem_text AUTH_NONE L || mem_text (u "none") L) = false <->
    L <> [] /\ ~ In (u "none") L /\ (In AUTH_NONE L -> L = [AUTH_NONE]).
  Proof using.
    rewrite !orb_false_iff, mem_text_false. destruct L as [|p [|q L]].
    - cbn. split; [intros [[K _] _]; discriminate K|intros [K _]; congruence].
    - cbn [empty len List.length]. split.
      + intros [_ H]. split; [discriminate|]. split; auto. intros [->|[]]; auto.
      + intros (_ & H & _). auto.
    - cbn [empty]. assert (1 <? len (p :: q :: L) = true) as -> by (unfold len; cbn [List.length]; lia). cbn [andb]. rewrite mem_text_false. split.
      + intros [[_ H1] H2]. split; [discriminate|]. split; auto. intros K. contradiction.
      + intros (_ & H1 & H2). split; auto. split; auto. intros K. specialize (H2 K). discriminate H2.
  Qed.
  Theorem C56_response_strict :
    forall args v1 r, NoDup (dkeys args) ->
      pape_response_parse udec args v1 true = Ok r <-> pape_response_parse udec args v1 false = Ok r /\ well_formed args v1.
  Proof using.
    intros args v1 r N. rewrite !parse_form. cbv zeta. cbn [andb]. unfold well_formed. set (L := list_of (u "auth_policies") args).
    assert ((forall al v, In (u "auth_level." ++ al, v) args -> startswith al (u "ns.") = false -> level_uri args v1 al <> None) <->
            (forall al v, dget text_eqb (u "auth_level." ++ al) args = Some v -> startswith al (u "ns.") = false -> exists uri, means args v1 al uri)) as Lv.
    { split; intros H al v I Sn.
      - apply In_dget' in I; auto. specialize (H al v I Sn). destruct (level_uri args v1 al) as [x|] eqn:U; [exists x; apply level_uri_spec; auto|congruence].
      - apply In_dget' in I; auto. destruct (H al v I Sn) as (x & Hx). apply level_uri_spec in Hx. congruence. }
    destruct (empty L || (1 <? len L) && mem_text AUTH_NONE L || mem_text (u "none") L) eqn:Pf.
    { split; [discriminate|]. intros (_ & H1 & H2 & H3 & _). pose proof (proj2 (policies_fine L) (conj H1 (conj H2 H3))). congruence. }
    apply policies_fine in Pf as (F1 & F2 & F3).
    destruct (foldM (level_step args v1 true) _ args) as [r1|x] eqn:E1.
    - apply strict_levels in E1 as [E0 K]. rewrite E0. cbn [bind]. unfold nonempty_arg. destruct (dget text_eqb (u "auth_time") args) as [[|c s]|].
      + split; [intros H; split; [exact H|]|tauto]. do 3 (split; [assumption|]). split; [apply Lv; auto|discriminate].
      + pose proof (C56_time udec (c :: s)) as Ct. destruct (TIME_VALIDATOR udec (c :: s)).
        * split; [intros H; split; [exact H|]|tauto]. do 3 (split; [assumption|]). split; [apply Lv; auto|]. intros s' Es. injection Es as <-. apply Ct. reflexivity.
        * split; [discriminate|]. intros (_ & _ & _ & _ & _ & K'). specialize (K' _ eq_refl). apply Ct in K'. discriminate K'.
      + split; [intros H; split; [exact H|]|tauto]. do 3 (split; [assumption|]). split; [apply Lv; auto|discriminate].
    - cbn [bind]. split; [discriminate|]. intros (H & _ & _ & _ & K & _). destruct (foldM (level_step args v1 false) _ args) as [r1|x'] eqn:E0; [|discriminate H].
      assert (foldM (level_step args v1 true) (mkPResp (policies_read args) None [] default_aliases) args = Ok r1); [|congruence]. apply strict_levels. split; [exact E0|]. apply Lv. exact K.
  Qed.

  (** *** Responses as they are made *)
  Inductive resp_made : pape_response -> Prop :=
  | sm_ctor p t l r : NoDup (dkeys l) -> newPapeResponse p t l = Ok r -> resp_made r
  | sm_policy r p r' : resp_made r -> resp_addPolicyURI r p = Ok r' -> resp_made r'
  | sm_level r uri v al r' : resp_made r -> setAuthLevel r uri v al = Ok r' -> resp_made r'
  | sm_time r t : resp_made r -> resp_made (mkPResp (pr_policies r) t (pr_levels r) (pr_aliases r))
  | sm_parse args v1 strict r : pape_response_parse udec args v1 strict = Ok r -> resp_made r.
  Record presp_ok (r : pape_response) : Prop := {
    so_map : map_ok (pr_aliases r);
    so_levels : NoDup (dkeys (pr_levels r));
    so_alias : forall t, In t (dkeys (pr_levels r)) -> exists a, In (a, t) (pr_aliases r)
  }.
  Lemma set_level_ok r uri v al r' : presp_ok r -> setAuthLevel r uri v al = Ok r' -> presp_ok r'.
  Proof using.
    intros [M L A] H. unfold setAuthLevel in H. apply bind_Ok in H as (m & H1 & H). injection H as <-. destruct (add_alias_ok _ _ _ _ M H1) as (M' & (a & Ha) & K). constructor; cbn [pr_aliases pr_levels]; auto.
    - apply NoDup_dset; auto. exact text_eqb_eq.
    - intros t I. apply (In_dkeys_dset text_eqb text_eqb_eq) in I as [->|I].
      + exists a. apply In_dget'; [apply M'|auto].
      + destruct (A t I) as (b & Hb). exists b. apply In_dget'; [apply M'|]. apply K. apply In_dget'; [apply M|auto].
  Qed.
  Lemma sets_ok l : forall r r', presp_ok r -> foldM (fun r e => setAuthLevel r (fst e) (snd e) None) r l = Ok r' -> presp_ok r'.
  Proof using.
    induction l as [|t l IH]; intros r r' R H; cbn [foldM] in H; [injection H as <-; auto|]. apply bind_Ok in H as (r1 & H1 & H). eapply IH; [|exact H]. eapply set_level_ok; eauto.
  Qed.
  Lemma read_sets_ok args v1 strict l : forall r r', presp_ok r -> foldM (level_step args v1 strict) r l = Ok r' -> presp_ok r'.
  Proof using.
    induction l as [|[k v] l IH]; intros r r' R H; cbn [foldM] in H; [injection H as <-; auto|]. apply bind_Ok in H as (r1 & H1 & H). eapply IH; [|exact H].
    unfold level_step in H1. destruct (startswith k _); [|injection H1 as <-; auto]. destruct (startswith _ _); [injection H1 as <-; auto|].
    destruct (level_uri _ _ _); [eapply set_level_ok; eauto|]. destruct strict; [discriminate H1|injection H1 as <-; auto].
  Qed.
  Lemma new_resp_ok p t : presp_ok (mkPResp p t [] default_aliases).
  Proof using. constructor; cbn [pr_aliases pr_levels]; [apply default_ok|constructor|intros x []]. Qed.
  Lemma resp_ok r : resp_made r -> presp_ok r.
  Proof using.
    induction 1 as [p t l r N H|r p r' _ IH H|r uri v al r' _ IH H|r t _ IH|args v1 strict r H].
    - eapply sets_ok; [|exact H]. apply new_resp_ok.
    - unfold resp_addPolicyURI in H. destruct (text_eqb p AUTH_NONE); [discriminate H|]. injection H as <-. destruct IH as [M L A]. constructor; auto.
    - eapply set_level_ok; eauto.
    - destruct IH as [M L A]. constructor; auto.
    - rewrite parse_form in H. cbv zeta in H. destruct (strict && _); [discriminate H|]. apply bind_Ok in H as (r1 & H1 & H).
      assert (presp_ok r1) as R1 by (eapply read_sets_ok; [apply new_resp_ok|exact H1]).
      destruct (nonempty_arg (u "auth_time") args) as [t|]; [|injection H as <-; auto]. destruct (TIME_VALIDATOR udec t); [injection H as <-; destruct R1 as [M L A]; constructor; auto|].
      destruct strict; [discriminate H|injection H as <-; auto].
  Qed.
  Definition rargs_step (m : dict text text) (d : dict text text) (e : text * text) : res (dict text text) :=
    a <- level_alias m (fst e) ;; Ok (dset text_eqb (level_key a) (snd e) (dset text_eqb (ns_key a) (fst e) d)).
  Lemma level_ns a b : level_key a = ns_key b -> a = u "ns." ++ b.
  Proof using. unfold level_key, ns_key. assert (u "auth_level.ns." ++ b = u "auth_level." ++ (u "ns." ++ b)) as -> by reflexivity. apply app_inv_head. Qed.
  Lemma rargs_loop m : NoDup (dkeys m) -> forall lv, NoDup (dkeys lv) -> (forall t, In t (dkeys lv) -> exists a, In (a, t) m) -> forall d, NoDup (dkeys d) ->
    exists d', foldM (rargs_step m) d lv = Ok d' /\ NoDup (dkeys d') /\
      (forall k v, dget text_eqb k d' = Some v -> dget text_eqb k d = Some v \/
         exists t w a, In (t, w) lv /\ (In (a, t) m /\ level_alias m t = Ok a) /\ (k = ns_key a /\ v = t \/ k = level_key a /\ v = w)) /\
      (forall k, (forall a, k <> ns_key a /\ k <> level_key a) -> dget text_eqb k d' = dget text_eqb k d) /\
      ((forall a, In a (dkeys m) -> startswith a (u "ns.") = false) ->
       forall t w a, In (t, w) lv -> level_alias m t = Ok a -> dget text_eqb (ns_key a) d' = Some t /\ dget text_eqb (level_key a) d' = Some w).
  Proof using.
    intros N. induction lv as [|[t w] lv IH]; intros Nl A d Nd.
    - exists d. split; [reflexivity|]. split; auto. split; [auto|]. split; auto. intros _ t w a [].
    - unfold dkeys in Nl. cbn [map fst] in Nl. inversion Nl as [|? ? Nt Nl']; subst.
      cbn [foldM]. unfold rargs_step at 1. cbn [fst snd]. destruct (level_alias_spec m t) as [(a & E & I)|(_ & K)]; [|exfalso; destruct (A t) as (a & Ha); [left; auto|apply (K a Ha)]].
      rewrite E. cbn [bind].
      destruct (IH Nl' ltac:(intros x Hx; apply A; right; auto) (dset text_eqb (level_key a) w (dset text_eqb (ns_key a) t d))) as (d' & H1 & H2 & H3 & H4 & H5).
      { apply NoDup_dset; [exact text_eqb_eq|]. apply NoDup_dset; auto. exact text_eqb_eq. }
      exists d'. split; auto. split; auto. split; [|split].
      + intros k v Hk. apply H3 in Hk as [Hk|(t' & w' & b & I1 & I2 & I3)]; [|right; exists t', w', b; split; [right|]; auto].
        rewrite (dget_dset text_eqb text_eqb_eq) in Hk. destruct (text_eqb k (level_key a)) eqn:E1.
        * apply text_eqb_eq in E1. injection Hk as <-. right. exists t, w, a. split; [left; auto|]. auto.
        * rewrite (dget_dset text_eqb text_eqb_eq) in Hk. destruct (text_eqb k (ns_key a)) eqn:E2; [|auto].
          apply text_eqb_eq in E2. injection Hk as <-. right. exists t, w, a. split; [left; auto|]. auto.
      + intros k Hk. rewrite H4 by auto. destruct (Hk a) as [K1 K2]. rewrite !(dget_dset_other text_eqb text_eqb_eq) by auto. reflexivity.
      + intros Hs. assert (level_key a <> ns_key a) as Nk.
        { intros K. apply level_ns in K. apply (f_equal (@List.length _)) in K. rewrite app_length in K. change (List.length (u "ns.")) with 3%nat in K. lia. }
        assert (forall b, In b (dkeys m) -> forall x, level_key b <> ns_key x) as Nx.
        { intros b Ib x K. apply level_ns in K. specialize (Hs b Ib). rewrite K, startswith_app in Hs. discriminate Hs. }
        assert (In a (dkeys m)) as Ia by (apply (in_map fst) in I; exact I).
        assert (forall x, dget text_eqb (ns_key a) d' = Some x -> x = t) as D1.
        { intros x Hx. apply H3 in Hx as [Hx|(t' & w' & b & I1 & [I2 _] & [[I3 ->]|[I3 ->]])].
          - rewrite (dget_dset_other text_eqb text_eqb_eq) in Hx by (intros K; apply Nk; auto). rewrite (dget_dset_same text_eqb text_eqb_eq) in Hx. congruence.
          - apply ns_key_inj in I3. subst b. apply In_dget' in I2; auto. apply In_dget' in I; auto. congruence.
          - exfalso. apply (Nx b) with a; auto. apply (in_map fst) in I2. exact I2. }
        assert (forall x, dget text_eqb (level_key a) d' = Some x -> x = w) as D2.
        { intros x Hx. apply H3 in Hx as [Hx|(t' & w' & b & I1 & [I2 _] & [[I3 ->]|[I3 ->]])].
          - rewrite (dget_dset_same text_eqb text_eqb_eq) in Hx. congruence.
          - exfalso. apply (Nx a Ia b). exact I3.
          - apply app_inv_head in I3. subst b. apply In_dget' in I2; auto. apply In_dget' in I; auto. assert (t' = t) as -> by congruence. exfalso. apply Nt. apply (in_map fst) in I1. exact I1. }
        assert (forall k, In k [ns_key a; level_key a] -> exists x, dget text_eqb k d' = Some x) as Ex.
        { assert (forall l d0 d1 k, foldM (rargs_step m) d0 l = Ok d1 -> (exists x, dget text_eqb k d0 = Some x) -> exists x, dget text_eqb k d1 = Some x) as Grow.
          { induction l as [|[t1 w1] l IHl]; intros d0 d1 k H (x & Hx); cbn [foldM] in H; [injection H as <-; eauto|].
            apply bind_Ok in H as (d2 & G1 & G2). apply (IHl d2 d1 k G2). unfold rargs_step in G1. apply bind_Ok in G1 as (b & _ & G1). injection G1 as <-.
            rewrite !(dget_dset text_eqb text_eqb_eq). destruct (text_eqb k (level_key b)); [eauto|]. destruct (text_eqb k _); eauto. }
          intros k Hk. apply (Grow _ _ _ k H1). rewrite !(dget_dset text_eqb text_eqb_eq). destruct Hk as [<-|[<-|[]]].
          - destruct (text_eqb _ (level_key a)); [eauto|]. rewrite text_eqb_refl. eauto.
          - rewrite text_eqb_refl. eauto. }
        intros t' w' b [K|K] Hb.
        * apply pair_equal_spec in K as [<- <-]. assert (b = a) as -> by congruence. destruct (Ex (ns_key a)) as (x & Hx); [left; auto|]. destruct (Ex (level_key a)) as (y & Hy); [right; left; auto|].
          rewrite Hx, Hy. rewrite (D1 x Hx), (D2 y Hy). auto.
        * apply (H5 Hs t' w' b K Hb).
  Qed.
  Lemma response_args r args : presp_ok r -> pape_response_args udec r = Ok args ->
    NoDup (dkeys args) /\
    dget text_eqb (u "auth_policies") args = Some (match pr_policies r with [] => AUTH_NONE | l => join [32] l end) /\
    dget text_eqb (u "auth_time") args = pr_time r /\ (forall t, pr_time r = Some t -> TIME_VALIDATOR udec t = true) /\
    (forall al v, dget text_eqb (u "auth_level." ++ al) args = Some v -> exists t w a, In (t, w) (pr_levels r) /\ (In (a, t) (pr_aliases r) /\ level_alias (pr_aliases r) t = Ok a) /\ (al = u "ns." ++ a /\ v = t \/ al = a /\ v = w)) /\
    ((forall a, In a (dkeys (pr_aliases r)) -> startswith a (u "ns.") = false) ->
     forall t w a, In (t, w) (pr_levels r) -> level_alias (pr_aliases r) t = Ok a ->
       dget text_eqb (u "auth_level.ns." ++ a) args = Some t /\ dget text_eqb (u "auth_level." ++ a) args = Some w).
  Proof using.
    intros [M L A] H. unfold pape_response_args in H. apply bind_Ok in H as (d & H1 & H).
    destruct (rargs_loop (pr_aliases r) (mo_keys _ M) (pr_levels r) L A [(u "auth_policies", match pr_policies r with [] => AUTH_NONE | l => join [32] l end)]) as (d' & R1 & R2 & R3 & R4 & R5).
    { unfold dkeys. cbn. repeat constructor. intros []. }
    assert (d' = d) as -> by (change (foldM (rargs_step (pr_aliases r)) [(u "auth_policies", match pr_policies r with [] => AUTH_NONE | l => join [32] l end)] (pr_levels r) = Ok d) in H1; congruence).
    assert (forall al v, dget text_eqb (u "auth_level." ++ al) d = Some v -> exists t w a, In (t, w) (pr_levels r) /\ (In (a, t) (pr_aliases r) /\ level_alias (pr_aliases r) t = Ok a) /\ (al = u "ns." ++ a /\ v = t \/ al = a /\ v = w)) as R3'.
    { intros al v Hv. apply R3 in Hv as [Hv|(t & w & a & I1 & I2 & [[I3 I4]|[I3 I4]])]; [discriminate Hv| |]; exists t, w, a; (split; [auto|]); (split; [auto|]).
      - left. split; auto. apply level_ns. exact I3.
      - right. split; auto. apply app_inv_head in I3. exact I3. }
    assert (dget text_eqb (u "auth_policies") d = Some (match pr_policies r with [] => AUTH_NONE | l => join [32] l end)) as Dp.
    { rewrite R4 by (intros a; split; discriminate). reflexivity. }
    assert (dget text_eqb (u "auth_time") d = None) as Dt by (rewrite R4 by (intros a; split; discriminate); reflexivity).
    destruct (pr_time r) as [t|].
    - destruct (TIME_VALIDATOR udec t) eqn:T; [|discriminate H]. injection H as <-. split; [apply NoDup_dset; auto; exact text_eqb_eq|].
      rewrite (dget_dset_other text_eqb text_eqb_eq) by discriminate. split; auto. rewrite (dget_dset_same text_eqb text_eqb_eq). split; auto. split; [congruence|]. split.
      + intros al v. rewrite (dget_dset_other text_eqb text_eqb_eq) by discriminate. apply R3'.
      + intros Hs t0 w a I E. rewrite !(dget_dset_other text_eqb text_eqb_eq) by discriminate. apply (R5 Hs t0 w a I E).
    - injection H as <-. repeat (split; [solve [auto|discriminate]|]). intros Hs t0 w a I E. apply (R5 Hs t0 w a I E).
  Qed.
  (** Sending a response fails for its time only. *)
  Theorem C56_response_total :
    forall r, resp_made r ->
      (exists args, pape_response_args udec r = Ok args) /\ (forall t, pr_time r = Some t -> exists s', stamp udec s' /\ (t = s' \/ t = s' ++ [10])) \/
      pape_response_args udec r = Raise ValueError /\ exists t, pr_time r = Some t /\ ~ exists s', stamp udec s' /\ (t = s' \/ t = s' ++ [10]).
  Proof using.
    intros r Hr. apply resp_ok in Hr as [M L A]. unfold pape_response_args.
    destruct (rargs_loop (pr_aliases r) (mo_keys _ M) (pr_levels r) L A [(u "auth_policies", match pr_policies r with [] => AUTH_NONE | l => join [32] l end)]) as (d' & R1 & _).
    { unfold dkeys. cbn. repeat constructor. intros []. }
    change (foldM (fun d e => a <- level_alias (pr_aliases r) (fst e) ;; Ok (dset text_eqb (level_key a) (snd e) (dset text_eqb (ns_key a) (fst e) d)))
              [(u "auth_policies", match pr_policies r with [] => AUTH_NONE | l => join [32] l end)] (pr_levels r))
      with (foldM (rargs_step (pr_aliases r)) [(u "auth_policies", match pr_policies r with [] => AUTH_NONE | l => join [32] l end)] (pr_levels r)). rewrite R1. cbn [bind].
    destruct (pr_time r) as [t|]; [|left; split; [eauto|discriminate]]. pose proof (C56_time udec t) as Ct. destruct (TIME_VALIDATOR udec t).
    - left. split; [eauto|]. intros t' E. injection E as <-. apply Ct. reflexivity.
    - right. split; auto. exists t. split; auto. intros K. apply Ct in K. discriminate K.
  Qed.
  (** A response comes back with its policies, time and levels. *)
  Theorem C56_response_round_trip :
    forall r args args' v1 strict, resp_made r -> list_ok (pr_policies r) ->
      ~ In (u "none") (pr_policies r) -> ~ In AUTH_NONE (pr_policies r) ->
      (forall a, In a (dkeys (pr_aliases r)) -> startswith a (u "ns.") = false) ->
      pape_response_args udec r = Ok args -> NoDup (dkeys args') -> (forall k, dget text_eqb k args' = dget text_eqb k args) ->
      exists r', pape_response_parse udec args' v1 strict = Ok r' /\ pr_policies r' = pr_policies r /\ pr_time r' = pr_time r /\
        forall uri, dget text_eqb uri (pr_levels r') = dget text_eqb uri (pr_levels r).
  Proof using.
    intros r args args' v1 strict Hr Lp Nn1 Nn2 Hs Ha Na' De. apply resp_ok in Hr. destruct (response_args r args Hr Ha) as (Na & D1 & D2 & D2' & D3 & D4). specialize (D4 Hs).
    assert (forall al v, dget text_eqb (u "auth_level." ++ al) args' = Some v -> startswith al (u "ns.") = false ->
              exists t, In (t, v) (pr_levels r) /\ In (al, t) (pr_aliases r) /\ dget text_eqb (u "auth_level.ns." ++ al) args' = Some t) as Lv.
    { intros al v Hv Sn. rewrite De in Hv. apply D3 in Hv as (t & w & a & I1 & [I2 I3] & [[-> _]|[-> ->]]); [rewrite startswith_app in Sn; discriminate Sn|].
      exists t. rewrite De. split; auto. split; auto. apply (D4 t w a I1 I3). }
    assert (forall t w, In (t, w) (pr_levels r) -> exists a, dget text_eqb (u "auth_level.ns." ++ a) args' = Some t /\ dget text_eqb (u "auth_level." ++ a) args' = Some w /\ startswith a (u "ns.") = false) as Sl.
    { intros t w I. destruct (level_alias_spec (pr_aliases r) t) as [(a & E & I')|(_ & K)]; [|exfalso; apply (in_map fst) in I; destruct (so_alias _ Hr t I) as (a & Ha'); apply (K a Ha')].
      exists a. rewrite !De. destruct (D4 t w a I E) as [E1 E2]. split; auto. split; auto. apply Hs. apply (in_map fst) in I'. exact I'. }
    assert (list_of (u "auth_policies") args' = match pr_policies r with [] => [AUTH_NONE] | l => l end) as Lo.
    { destruct (pr_policies r) as [|p l] eqn:Ep; [unfold list_of, nonempty_arg; rewrite De, D1; reflexivity|]. apply list_back; auto. rewrite De, D1. reflexivity. }
    assert (nonempty_arg (u "auth_time") args' = pr_time r) as Te.
    { unfold nonempty_arg. rewrite De, D2. destruct (pr_time r) as [[|c t]|]; auto. specialize (D2' _ eq_refl). discriminate D2'. }
    assert (forall r', pape_response_parse udec args' v1 false = Ok r' -> pape_response_parse udec args' v1 strict = Ok r') as Str.
    { intros r' P. destruct strict; auto. apply C56_response_strict; auto. split; auto. unfold well_formed. rewrite Lo. split; [destruct (pr_policies r); discriminate|].
      split; [destruct (pr_policies r); [intros [K|[]]; discriminate K|auto]|]. split; [destruct (pr_policies r); [auto|intros K; contradiction]|].
      split; [intros al v Hv Sn; destruct (Lv al v Hv Sn) as (t & _ & _ & Dt); exists t; left; exact Dt|].
      rewrite Te. intros s Es. apply C56_time. apply (D2' s Es). }
    destruct (C56_response_parse udec args' v1 Na') as [((al & v & I & Sn & R) & _)|(_ & r' & P & P1 & P2 & _ & P3 & P4)].
    - exfalso. apply In_dget' in I; auto. destruct (Lv al v I Sn) as (t & _ & It & Dt). destruct R as (x & Dx & Rx). rewrite Dt in Dx. injection Dx as <-. apply In_dget' in It; [|apply (so_map _ Hr)].
      assert (forall y, dget text_eqb al default_aliases = Some y -> t = y) as Ky. { intros y Hy. apply (mo_known _ (so_map _ Hr)) in Hy. congruence. }
      destruct Rx as [[-> Rx]|[-> Rx]]; apply Rx; apply Ky; reflexivity.
    - exists r'. split; [apply Str; exact P|]. split; [|split].
      + rewrite P1. unfold policies_read. rewrite Lo. destruct (pr_policies r) as [|p l] eqn:Ep; [reflexivity|]. apply filter_all. intros q Hq.
        destruct (text_eqb q (u "none")) eqn:E1; [apply text_eqb_eq in E1; subst; contradiction|]. destruct (text_eqb q AUTH_NONE) eqn:E2; [apply text_eqb_eq in E2; subst; contradiction|]. reflexivity.
      + unfold time_read in P2. rewrite Te in P2. destruct (pr_time r) as [t|] eqn:Et; auto. destruct P2 as [[_ P2]|[P2 _]]; auto. exfalso. apply P2. apply C56_time. apply D2'. reflexivity.
      + assert (forall uri v, dget text_eqb uri (pr_levels r') = Some v -> dget text_eqb uri (pr_levels r) = Some v) as Fw.
        { intros uri v Hv. apply P3 in Hv as (al & S1 & S2 & S3). destruct (Lv al v S1 S2) as (t & I1 & _ & Dt).
          assert (t = uri) as ->. { destruct S3 as [S3|(S3 & _)]; congruence. } apply In_dget'; auto. apply (so_levels _ Hr). }
        intros uri. destruct (dget text_eqb uri (pr_levels r)) as [w|] eqn:Dw.
        * apply In_dget' in Dw as Iw; [|apply (so_levels _ Hr)]. destruct (Sl uri w Iw) as (a & S1 & S2 & S3). destruct (P4 a uri w) as (w' & Hw'); [split; auto; split; auto; left; auto|].
          rewrite Hw'. apply Fw in Hw'. congruence.
        * destruct (dget text_eqb uri (pr_levels r')) as [w|] eqn:Dw'; auto. apply Fw in Dw'. congruence.
  Qed.
End Response2.
Print Assumptions C56_response_strict.
Print Assumptions C56_response_total.
Print Assumptions C56_response_round_trip.
Definition a_pape_response : pape_response :=
  mkPResp [u "urn:p"] (Some (u "2026-11-16T10:00:00Z")) [(LEVELS_NIST, u "3"); (u "urn:x", u "high")]
          [(u "nist", LEVELS_NIST); (u "jisa", LEVELS_JISA); (u "cust0", u "urn:x")].
Example C56_response_ex :
  newPapeResponse [u "urn:p"] (Some (u "2026-11-16T10:00:00Z")) [(LEVELS_NIST, u "3"); (u "urn:x", u "high")] = Ok a_pape_response /\
  pape_response_args plain_dec a_pape_response =
    Ok [(u "auth_policies", u "urn:p"); (u "auth_level.ns.nist", LEVELS_NIST); (u "auth_level.nist", u "3"); (u "auth_level.ns.cust0", u "urn:x"); (u "auth_level.cust0", u "high");
        (u "auth_time", u "2026-11-16T10:00:00Z")] /\
  nist_auth_level a_pape_response = Ok (Some 3%Z) /\
  resp_addPolicyURI a_pape_response AUTH_NONE = Raise RuntimeError /\
  pape_response_args plain_dec (mkPResp [] (Some (u "yesterday")) [] default_aliases) = Raise ValueError.
Proof. repeat split; vm_compute; reflexivity. Qed.

Section Messages.
  Variable udec : N -> bool.
  (** Only signed arguments are read. *)
  Theorem C56_response_signed :
    forall reg m signed r, built reg m -> pape_fromSuccessResponse udec m signed = Ok (Some r) ->
      exists d, (forall k, getArg m (NS pape_ns) k = Ok (dget text_eqb k d)) /\
        (forall k v, dget text_eqb k d = Some v -> exists name, getKey m (NS pape_ns) k = Ok (Some name) /\ In name signed) /\
        pr_policies r = policies_read d /\ time_read udec d (pr_time r) /\
        (forall uri v, dget text_eqb uri (pr_levels r) = Some v -> exists al, sent_level d (isOpenID1 m) al uri v).
  Proof using.
    intros reg m signed r B H. unfold pape_fromSuccessResponse in H. apply bind_Ok in H as (o & H1 & H). destruct o as [d|]; [|discriminate H].
    destruct (getArgs_spec reg m pape_ns B) as (d' & D1 & D2 & D3); [discriminate|]. unfold getSignedNS in H1. rewrite D1 in H1. cbn [bind] in H1.
    apply bind_Ok in H1 as (b & H1 & H2). destruct b; [|discriminate H2]. injection H2 as ->. exists d. split; auto. split.
    - intros k v K. assert (isSigned m signed (NS pape_ns) k = Ok true) as I.
      { eapply all_signed_In; eauto. apply (dget_In text_eqb text_eqb_eq) in K. apply (in_map fst) in K. exact K. }
      unfold isSigned in I. apply bind_Ok in I as (k' & I1 & I2). destruct k' as [k'|]; [|discriminate I2]. injection I2 as I2. apply mem_text_In in I2. eauto.
    - apply bind_Ok in H as (r' & H & E). injection E as ->. destruct (C56_response_parse udec d (isOpenID1 m) D2) as [(_ & P)|(_ & r' & P & P1 & P2 & _ & P3 & _)]; [congruence|].
      assert (r' = r) as -> by congruence. auto.
  Qed.
  (** A signed response comes back through messages. *)
  Theorem C56_response_delivered :
    forall reg m r args m1 m2 signed,
      built reg m -> good_registry reg -> resp_made udec r -> list_ok (pr_policies r) ->
      ~ In (u "none") (pr_policies r) -> ~ In AUTH_NONE (pr_policies r) ->
      (forall a, In a (dkeys (pr_aliases r)) -> startswith a (u "ns.") = false) ->
      pape_response_args udec r = Ok args -> getAlias (mns m) pape_ns = None -> ext_toMessage m pape_ns pape_alias args = Ok m1 ->
      wire_safe reg m1 -> fromPostArgs reg (toPostArgs m1) = Ok m2 ->
      (forall k v, dget text_eqb k args = Some v -> In (u "openid.pape." ++ k) signed) ->
      exists r', pape_fromSuccessResponse udec m2 signed = Ok (Some r') /\ pr_policies r' = pr_policies r /\ pr_time r' = pr_time r /\
        forall uri, dget text_eqb uri (pr_levels r') = dget text_eqb uri (pr_levels r).
  Proof using.
    intros reg m r args m1 m2 signed B G Mr Lp N1 N2 Hs Ha Ga E S P Sg. destruct (response_args udec r args (resp_ok udec r Mr) Ha) as (Na & D1 & _).
    assert (args <> []) as Nn by (intros ->; discriminate D1).
    destruct (sent_args reg m pape_ns pape_alias args m1 m2 B G) as (B2 & GA & _ & _ & Al' & _); auto; [discriminate|]. specialize (Al' Nn).
    destruct (getArgs_spec reg m2 pape_ns B2) as (d & E1 & E2 & E3); [discriminate|].
    assert (forall k, dget text_eqb k d = dget text_eqb k args) as De. { intros k. specialize (E3 k). rewrite GA in E3. congruence. }
    destruct (C56_response_round_trip udec r args d (isOpenID1 m2) false Mr Lp N1 N2 Hs Ha E2 De) as (r' & P' & R). exists r'. split; auto.
    unfold pape_fromSuccessResponse, getSignedNS. rewrite E1. cbn [bind].
    assert (forall ks, incl ks (dkeys d) -> all_signed m2 signed (NS pape_ns) ks = Ok true) as Alls.
    { induction ks as [|k ks IH]; intros I; auto. cbn [all_signed].
      assert (isSigned m2 signed (NS pape_ns) k = Ok true) as ->.
      { unfold isSigned. unfold getKey. rewrite fixNS_uri by discriminate. cbn [bind]. rewrite Al'. cbn [bind].
        assert (In k (dkeys d)) as Ik by (apply I; left; auto). destruct (dget text_eqb k d) as [v|] eqn:Dk; [|apply (dget_None text_eqb text_eqb_eq) in Dk; contradiction].
        rewrite De in Dk. apply Sg in Dk. f_equal. apply mem_text_In. exact Dk. }
      cbn [bind]. apply IH. intros x Hx. apply I. right; auto. }
    rewrite (Alls (dkeys d)) by (intros x Hx; exact Hx). cbn [bind]. rewrite P'. reflexivity.
  Qed.

  (** ** draft/pape2.py *)
  Theorem C56_pape2_request :
    forall r args', list_ok (p2q_policies r) -> NoDup (p2q_policies r) -> (forall k, dget text_eqb k args' = dget text_eqb k (pape2_request_args r)) ->
      pape2_request_parse args' = Ok r.
  Proof using.
    intros [p a] args' L N De. unfold pape2_request_parse. cbn [p2q_policies] in *.
    assert (list_of (u "preferred_auth_policies") args' = p) as Lo by (apply list_back; auto; rewrite De; reflexivity).
    assert (match dget text_eqb (u "preferred_auth_policies") args' with Some (c :: s) => fold_left add_once (splitc 32 (c :: s)) [] | _ => [] end = p) as ->.
    { transitivity (firsts p); [|apply firsts_NoDup; auto]. rewrite <- Lo at 1. unfold list_of, nonempty_arg. destruct (dget text_eqb (u "preferred_auth_policies") args') as [[|c s]|]; [reflexivity|apply add_once_nil|reflexivity]. }
    rewrite De. unfold pape2_request_args. cbn [p2q_age p2q_policies]. destruct a as [z|]; [|reflexivity].
    assert (dget text_eqb (u "max_auth_age") ((u "preferred_auth_policies", join [32] p) :: [(u "max_auth_age", str_of_Z z)]) = Some (str_of_Z z)) as -> by reflexivity.
    pose proof (int_of_str z) as I. destruct (str_of_Z z) as [|c s]; [discriminate I|]. rewrite I. reflexivity.
  Qed.
  Lemma pape2_read p t n args' strict :
    list_ok p -> p <> [u "none"] ->
    (forall z, n = Some z -> (0 <=? z)%Z && (z <? 5)%Z = true) -> (forall s, t = Some s -> TIME_VALIDATOR udec s = true) ->
    dget text_eqb (u "auth_policies") args' = Some (match p with [] => u "none" | _ => join [32] p end) ->
    dget text_eqb (u "nist_auth_level") args' = match n with Some z => Some (str_of_Z z) | None => None end ->
    dget text_eqb (u "auth_time") args' = t ->
    pape2_response_parse udec args' strict = Ok (mkP2Resp p t n).
  Proof using.
    intros Lp Np Hn Ht D1 D2 D3. unfold pape2_response_parse. rewrite D2, D3.
    assert (match dget text_eqb (u "auth_policies") args' with Some (c :: s) => if text_eqb (c :: s) (u "none") then [] else splitc 32 (c :: s) | _ => [] end = p) as ->.
    { rewrite D1. destruct p as [|p0 l]; [reflexivity|]. pose proof (list_back (p0 :: l) (u "auth_policies") args' Lp D1) as Lo. unfold list_of, nonempty_arg in Lo. rewrite D1 in Lo.
      destruct (join [32] (p0 :: l)) as [|c s]; [exact Lo|]. destruct (text_eqb (c :: s) (u "none")) eqn:E; [|exact Lo]. apply text_eqb_eq in E. rewrite E in Lo. exfalso. apply Np. rewrite <- Lo. reflexivity. }
    assert (match t with Some (c :: s) => if TIME_VALIDATOR udec (c :: s) then Ok (Some (c :: s)) else if strict then Raise ValueError else Ok None | _ => Ok None end = Ok t) as ->.
    { destruct t as [[|c s]|]; [specialize (Ht _ eq_refl); discriminate Ht|rewrite (Ht _ eq_refl); reflexivity|reflexivity]. }
    destruct n as [z|]; [|reflexivity]. pose proof (int_of_str z) as I. destruct (str_of_Z z) as [|c s]; [discriminate I|]. rewrite I, (Hn z eq_refl). reflexivity.
  Qed.
  (** Draft 2: a response is sent unless its level or time is bad, and comes back unchanged. *)
  Theorem C56_pape2_response :
    forall r,
      (exists args, pape2_response_args udec r = Ok args /\
         forall args' strict, list_ok (p2r_policies r) -> p2r_policies r <> [u "none"] -> (forall k, dget text_eqb k args' = dget text_eqb k args) ->
           pape2_response_parse udec args' strict = Ok r) /\
      (forall z, p2r_nist r = Some z -> (0 <= z < 5)%Z) /\ (forall t, p2r_time r = Some t -> exists s', stamp udec s' /\ (t = s' \/ t = s' ++ [10])) \/
      pape2_response_args udec r = Raise ValueError /\
      ((exists z, p2r_nist r = Some z /\ ~ (0 <= z < 5)%Z) \/ exists t, p2r_time r = Some t /\ ~ exists s', stamp udec s' /\ (t = s' \/ t = s' ++ [10])).
  Proof using.
    intros [p t n]. unfold pape2_response_args. cbn [p2r_policies p2r_time p2r_nist].
    assert (forall z, (0 <=? z)%Z && (z <? 5)%Z = true <-> (0 <= z < 5)%Z) as Hz by (intros z; lia).
    destruct n as [z|].
    - specialize (Hz z). destruct ((0 <=? z)%Z && (z <? 5)%Z) eqn:Z; cbn [bind]; [|right; split; auto; left; exists z; split; auto; intros K; apply Hz in K; discriminate K].
      destruct t as [t|].
      + pose proof (C56_time udec t) as Ct. destruct (TIME_VALIDATOR udec t) eqn:T; cbn [bind].
        * left. split; [|split; [intros z' E; injection E as <-; apply Hz; auto|intros t' E; injection E as <-; apply Ct; auto]].
          eexists. split; [reflexivity|]. intros args' strict Lp Np De. apply pape2_read; auto; [intros z' E; injection E as <-; auto|intros t' E; injection E as <-; auto| | |]; rewrite De; destruct p; reflexivity.
        * right. split; auto. right. exists t. split; auto. intros K. apply Ct in K. discriminate K.
      + cbn [bind]. left. split; [|split; [intros z' E; injection E as <-; apply Hz; auto|discriminate]].
        eexists. split; [reflexivity|]. intros args' strict Lp Np De. apply pape2_read; auto; [intros z' E; injection E as <-; auto|discriminate| | |]; rewrite De; destruct p; reflexivity.
    - cbn [bind]. destruct t as [t|].
      + pose proof (C56_time udec t) as Ct. destruct (TIME_VALIDATOR udec t) eqn:T; cbn [bind].
        * left. split; [|split; [discriminate|intros t' E; injection E as <-; apply Ct; auto]].
          eexists. split; [reflexivity|]. intros args' strict Lp Np De. apply pape2_read; auto; [discriminate|intros t' E; injection E as <-; auto| | |]; rewrite De; destruct p; reflexivity.
        * right. split; auto. right. exists t. split; auto. intros K. apply Ct in K. discriminate K.
      + cbn [bind]. left. split; [|split; discriminate].
        eexists. split; [reflexivity|]. intros args' strict Lp Np De. apply pape2_read; auto; [discriminate|discriminate| | |]; rewrite De; destruct p; reflexivity.
  Qed.
End Messages.
Print Assumptions C56_response_signed.
Print Assumptions C56_response_delivered.
Print Assumptions C56_pape2_request.
Print Assumptions C56_pape2_response.
Example C56_pape2_ex :
  pape2_request_args (mkP2Req [u "urn:p"; u "urn:q"] (Some 60%Z)) = [(u "preferred_auth_policies", u "urn:p urn:q"); (u "max_auth_age", u "60")] /\
  pape2_response_args plain_dec (mkP2Resp [] (Some (u "2026-11-16T10:00:00Z")) (Some 4%Z)) =
    Ok [(u "auth_policies", u "none"); (u "nist_auth_level", u "4"); (u "auth_time", u "2026-11-16T10:00:00Z")] /\
  pape2_response_args plain_dec (mkP2Resp [] None (Some 5%Z)) = Raise ValueError.
Proof. repeat split; vm_compute; reflexivity. Qed.

(** ** What does not hold *)
(** A message without arguments of the extension gives a response, not None. *)
Theorem C116_no_signed_args_refuted :
  exists m r, newMessage (Some OPENID2_NS) None = Ok m /\ getArgs m (NS pape_ns) = Ok [] /\ forall udec, pape_fromSuccessResponse udec m [] = Ok (Some r).
Proof. do 2 eexists. split; [vm_compute; reflexivity|]. split; [vm_compute; reflexivity|]. intros udec. vm_compute. reflexivity. Qed.
Print Assumptions C116_no_signed_args_refuted.
(** Without [strict], malformed input is not always ignored. *)
Theorem C117_lenient_parsing_refuted :
  exists args, pape_request_parse args false false = Raise KeyError /\
  exists args', forall udec, pape_response_parse udec args' false false = Raise KeyError.
Proof.
  exists [(u "preferred_auth_level_types", u "nist"); (u "auth_level.ns.nist", u "urn:n")]. split; [vm_compute; reflexivity|].
  exists [(u "auth_level.nist", u "1"); (u "auth_level.ns.nist", u "urn:n")]. intros udec. vm_compute. reflexivity.
Qed.
Print Assumptions C117_lenient_parsing_refuted.
(** Times that are no times are accepted, and a final newline. *)
Theorem C118_time_format_refuted :
  forall udec, pape_response_parse udec [(u "auth_policies", AUTH_NONE); (u "auth_time", u "2026-13-32T25:61:99Z" ++ [10])] false true =
    Ok (mkPResp [] (Some (u "2026-13-32T25:61:99Z" ++ [10])) [] default_aliases).
Proof. intros udec. vm_compute. reflexivity. Qed.
Print Assumptions C118_time_format_refuted.
(** The accessor of the NIST level raises for a level that is no number. *)
Theorem C119_nist_level_refuted :
  exists r, (forall udec, resp_made udec r) /\ getAuthLevel r LEVELS_NIST = Ok (u "high") /\ nist_auth_level r = Raise ValueError.
Proof.
  eexists. split; [intros udec; apply (sm_ctor udec [] None [(LEVELS_NIST, u "high")]); [unfold dkeys; cbn; repeat constructor; intros []|vm_compute; reflexivity]|].
  split; vm_compute; reflexivity.
Qed.
Print Assumptions C119_nist_level_refuted.
(** A policy can be recorded twice by a response that is read. *)
Theorem C120_policy_once_refuted :
  exists r, (forall udec, pape_response_parse udec [(u "auth_policies", u "urn:p urn:p")] false true = Ok r) /\ ~ NoDup (pr_policies r).
Proof.
  eexists. split; [intros udec; vm_compute; reflexivity|]. cbn [pr_policies]. intros N. inversion N as [|? ? K _]; subst. apply K. left. reflexivity.
Qed.
Print Assumptions C120_policy_once_refuted.
(** ** Where policies are recorded once *)
Theorem C56_policies_once :
  (forall r p, NoDup (pq_policies r) -> NoDup (pq_policies (req_addPolicyURI r p)) /\ In p (pq_policies (req_addPolicyURI r p))) /\
  (forall args v1 strict r, pape_request_parse args v1 strict = Ok r -> NoDup (pq_policies r)) /\
  (forall r p r', resp_addPolicyURI r p = Ok r' -> NoDup (pr_policies r) -> NoDup (pr_policies r') /\ In p (pr_policies r') /\ p <> AUTH_NONE).
Proof.
  split; [|split].
  - intros r p N. split; [apply add_once_NoDup; auto|apply add_once_In; auto].
  - intros args v1 strict r H. assert (pape_request_parse args v1 false = Ok r) as H' by (destruct strict; auto; apply C56_request_strict in H; tauto).
    destruct (C56_request_parse args v1) as (ws & _ & [(_ & P)|(_ & r' & uris & P & P1 & _)]); [congruence|]. assert (r' = r) as -> by congruence. rewrite P1. apply NoDup_firsts.
  - intros r p r' H N. unfold resp_addPolicyURI in H. destruct (text_eqb p AUTH_NONE) eqn:E; [discriminate H|]. injection H as <-. cbn [pr_policies].
    split; [apply add_once_NoDup; auto|]. split; [apply add_once_In; auto|]. apply text_eqb_neq. exact E.
Qed.
Print Assumptions C56_policies_once.
