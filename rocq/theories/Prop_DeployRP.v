(** C182, C183: processes of a consumer on the file or the SQLite store, with the inside of the store. *)
From Coq Require Import Lia ZifyBool ZifyN ZifyNat.
From Verif Require Import Py PyFacts CryptUtil Message Association Prop_Association UrlLib Nonce Store StoreSpec FileStore FileSys FileAtomic Prop_FileAtomic SqlConc SqlTxn SqlAtomicFacts Prop_SqlAtomic DeployStores Deploy DeployFacts.
From Verif Require Import UriNorm Prop_ServerDecode Endpoint Consumer ConsumerFacts Prop_Consumer Prop_ConsumerOnce Conc ConcFacts ConsumerConc Prop_ConsumerConc.
Import Py Store.
Open Scope Z_scope.
Local Arguments u : simpl never.

(** Visit i has ended with a success. *)
Definition success_in e reg hmac udigit (visits : list visit) (log : list event) (i : nat) (v : visit) (ep : endpoint) : Prop :=
  nth_error visits i = Some v /\ fair_query reg (v_query v) /\
  exists m fields, visit_done e reg hmac udigit v (answers_in i log) = Some (Ok (Success ep m fields)).

Lemma visit_kth e reg hmac udigit visits log i v k o r : ends_ok log -> obeys (visit_next e reg hmac udigit) visits log -> nth_error visits i = Some v ->
  nth_error (asked (fst (visit_with e reg hmac udigit v (answers_in i log)))) k = Some o -> nth_error (answers_in i log) k = Some r ->
  exists l2 t l1, log = l2 ++ Ended i t o r :: l1 /\ answers_in i l1 = firstn k (answers_in i log) /\ running l1 i = Some o.
Proof.
  intros E O N K1 K2. assert (k < List.length (answers_in i log))%nat as L by (apply nth_error_Some; congruence).
  destruct (nth_ended _ visits i v N log k E O L) as (l2 & t & o' & r' & l1 & El & A & B & C & D). exists l2, t, l1.
  assert (o' = o) as ->. { pose proof (tree_stable _ _ (visit_tree e reg hmac udigit v) (answers_in i log) k (Nat.lt_le_incl _ _ L)) as T. unfold visit_next, visit_with in *. congruence. }
  assert (r' = r) as -> by congruence. auto.
Qed.
Lemma visit_done_result e reg hmac udigit v outs r : visit_done e reg hmac udigit v outs = Some r -> snd (visit_with e reg hmac udigit v outs) = r.
Proof. unfold visit_done. destruct (visit_next e reg hmac udigit v outs); [discriminate|]. intros X. inv X. auto. Qed.

(** C182: two visits that both succeed, with the same nonce of the same server, do so only after
    somebody who is not one of the visits has begun to clean up nonces, and the second of them more than five hours after the
    nonce's time. *)
Theorem C182_once : forall e reg hmac udigit visits log i j vi vj epi epj server nonce,
  store_log log -> obeys (visit_next e reg hmac udigit) visits log ->
  success_in e reg hmac udigit visits log i vi epi -> success_in e reg hmac udigit visits log j vj epj ->
  uses server nonce vi = true -> uses server nonce vj = true ->
  i = j \/
  exists ts salt k t k' t', Nonce.split udigit nonce = Ok (ts, salt) /\
    In (Ended k t (UseN server ts salt) (Flag true)) log /\ (k = i \/ k = j) /\ ts + 18000 < t /\
    In (Began k' t' CleanN) log /\ nth_error visits k' = None.
Proof.
  intros e reg hmac udigit visits log i j vi vj epi epj server nonce SL O (Ni & Qi & mi & fi & Di) (Nj & Qj & mj & fj & Dj) Ui Uj.
  destruct (Nat.eq_dec i j) as [->|Ne]; [auto|right].
  destruct (store_log_atomic log SL) as (now & A & S & La). destruct (ends_ok_all now A S) as (_ & E). rewrite La in E.
  apply visit_done_result in Di, Dj.
  destruct (success_script e reg hmac udigit vi _ epi mi fi Qi Di) as (s1 & n1 & ts & salt & k1 & P1 & P2 & P3 & P4).
  destruct (success_script e reg hmac udigit vj _ epj mj fj Qj Dj) as (s2 & n2 & ts' & salt' & k2 & R1 & R2 & R3 & R4).
  unfold uses in Ui, Uj. rewrite P1 in Ui. rewrite R1 in Uj. rewrite andb_true_iff, !text_eqb_eq in Ui, Uj. destruct Ui as (-> & ->), Uj as (-> & ->).
  rewrite P2 in R2. injection R2 as <- <-.
  destruct (visit_kth _ _ _ _ _ _ _ _ _ _ _ E O Ni P3 P4) as (l2 & t & l1 & Ei & _).
  destruct (visit_kth _ _ _ _ _ _ _ _ _ _ _ E O Nj R3 R4) as (l2' & t' & l1' & Ej & _).
  assert (forall a b ta tb p q r, log = p ++ Ended a ta (UseN server ts salt) (Flag true) :: q ++ Ended b tb (UseN server ts salt) (Flag true) :: r ->
    ts + 18000 < ta /\ exists k' t', In (Began k' t' CleanN) log /\ nth_error visits k' = None) as Twice.
  { intros a b ta tb p q r L. destruct (ninv_all server ts salt now A S) as (_ & _ & I). rewrite <- La in L. destruct (I p a ta q b tb r L) as (X & k' & t'' & Y).
    split; auto. assert (In (Began k' t'' CleanN) log) as Z. { rewrite <- La, L. apply in_or_app. right. right. exact Y. }
    exists k', t''. split; auto. destruct (began_next _ _ _ _ _ _ O Z) as [Z'|(v & outs & Z1 & Z2)]; auto. exfalso. apply (tree_may _ _ (visit_tree e reg hmac udigit v)) in Z2. exact Z2. }
  assert (exists x, (l2' = l2 ++ x /\ Ended i t (UseN server ts salt) (Flag true) :: l1 = x ++ Ended j t' (UseN server ts salt) (Flag true) :: l1') \/
                    (l2 = l2' ++ x /\ Ended j t' (UseN server ts salt) (Flag true) :: l1' = x ++ Ended i t (UseN server ts salt) (Flag true) :: l1)) as (x & X).
  { assert (forall (A : Type) (a b c d : list A), a ++ b = c ++ d -> exists x, (c = a ++ x /\ b = x ++ d) \/ (a = c ++ x /\ d = x ++ b)) as Sp.
    { clear. induction a as [|y a IH]; intros b [|z c'] d H; cbn in *; eauto. apply cons_eq in H as (-> & H). destruct (IH _ _ _ H) as (x & [(-> & ->)|(-> & ->)]); eauto. }
    apply Sp. congruence. }
  destruct X as [(X1 & X2)|(X1 & X2)]; (destruct x as [|y x]; cbn in X2; apply cons_eq in X2 as (X2 & X3); [congruence|]).
  - subst y l1. destruct (Twice _ _ _ _ _ _ _ Ei) as (T & k' & t'' & C1 & C2). exists ts, salt, i, t, k', t''. split; auto. split; [rewrite Ei; apply in_or_app; right; left; auto|]. auto 10.
  - subst y l1'. destruct (Twice _ _ _ _ _ _ _ Ej) as (T & k' & t'' & C1 & C2). exists ts, salt, j, t', k', t''. split; auto. split; [rewrite Ej; apply in_or_app; right; left; auto|]. auto 10.
Qed.
Print Assumptions C182_once.

(** C182: hence, as long as nobody cleans up, at most one visit succeeds with a nonce. *)
Theorem C182_once_without_cleanup : forall e reg hmac udigit visits log i j vi vj epi epj server nonce,
  store_log log -> obeys (visit_next e reg hmac udigit) visits log -> (forall k t, ~ In (Began k t CleanN) log) ->
  success_in e reg hmac udigit visits log i vi epi -> success_in e reg hmac udigit visits log j vj epj ->
  uses server nonce vi = true -> uses server nonce vj = true -> i = j.
Proof.
  intros e reg hmac udigit visits log i j vi vj epi epj server nonce SL O Nc Si Sj Ui Uj.
  destruct (C182_once _ _ _ _ _ _ _ _ _ _ _ _ _ _ SL O Si Sj Ui Uj) as [H|(ts & salt & k & t & k' & t' & _ & _ & _ & _ & H & _)]; auto. destruct (Nc _ _ H).
Qed.
Print Assumptions C182_once_without_cleanup.

(** C183: a success rests on an association that somebody who is not one of the visits has begun to store
    before the visit looked for it, under the server's URL and the handle of the response; it has not run out and
    verifies the signature.  Or else the server has confirmed the response when asked. *)
Theorem C183_justified : forall e reg hmac udigit visits log i v ep,
  store_log log -> obeys (visit_next e reg hmac udigit) visits log -> success_in e reg hmac udigit visits log i v ep ->
  exists server handle signed sig l2 t o l1,
    ep_server_url ep = Some server /\ wire_value (v_query v) (u "assoc_handle") = Some handle /\
    wire_value (v_query v) (u "signed") = Some signed /\ wire_value (v_query v) (u "sig") = Some sig /\
    log = l2 ++ Ended i t (GetA server (Some handle)) (Got o) :: l1 /\ answers_in i l1 = [] /\
    match o with
    | Some a => v_now v < a_issued a + a_lifetime a /\ mac_valid hmac a (v_query v) signed sig /\
        (handle <> [] -> a_handle a = handle /\ exists k t', In (Began k t' (StoreA server a)) l1 /\ nth_error visits k = None)
    | None => exists body status answer, check_body (v_query v) body /\ v_net v [(server, body)] = Some (status, answer) /\
                (status = 200%N \/ status = 206%N) /\ reply_says answer (u "is_valid") (u "true")
    end.
Proof.
  intros e reg hmac udigit visits log i v ep SL O (N & Q & m & fields & D).
  destruct (store_log_atomic log SL) as (now & A & S & La). destruct (ends_ok_all now A S) as (_ & E). rewrite La in E. apply visit_done_result in D.
  destruct (success_first e reg hmac udigit v _ ep m fields Q D) as (server & handle & signed & sig & o & rest & more & Hs & Hh & Hsn & Hsg & Ou & As & W).
  destruct (visit_kth e reg hmac udigit visits log i v 0 (GetA server (Some handle)) (Got o) E O N) as (l2 & t & l1 & El & An & Ru); [rewrite As; auto|rewrite Ou; auto|].
  exists server, handle, signed, sig, l2, t, o, l1. split; auto. split; auto. split; auto. split; auto. split; auto. split; auto.
  destruct o as [a|]; auto. destruct W as (W1 & W2). split; auto. split; auto. intros Ne. rewrite <- La in El. destruct (found_stored now A S _ _ _ _ _ _ _ Ne El) as (Ha & k & t' & B). split; auto.
  exists k, t'. split; auto. assert (In (Began k t' (StoreA server a)) log) as Z. { rewrite <- La, El. apply in_or_app. right. right. auto. }
  destruct (began_next _ _ _ _ _ _ O Z) as [Z'|(v' & outs & Z1 & Z2)]; auto. exfalso. apply (tree_may _ _ (visit_tree e reg hmac udigit v')) in Z2. exact Z2.
Qed.
Print Assumptions C183_justified.

(** The response of C44_example comes to two processes at the same time, on SQLite; process 2 has
    stored the association.  Process 1 waits for the other's commit, and its visit fails. *)
Definition rp_run : list SqlConc.label :=
  [SqlConc.Call 2 (StoreA ex_server ex_assoc)] ++ whole_call 2 ++
  [SqlConc.Call 0 (GetA ex_server (Some (u "h1"))); SqlConc.Call 1 (GetA ex_server (Some (u "h1"))); SqlConc.Step 0; SqlConc.Step 1; SqlConc.Step 0; SqlConc.Step 1;
   SqlConc.Step 0; SqlConc.Tick 1; SqlConc.Step 1; SqlConc.Call 0 (UseN ex_server 1001 (u "salt")); SqlConc.Call 1 (UseN ex_server 1001 (u "salt"));
   SqlConc.Step 0; SqlConc.Step 1; SqlConc.Step 0; SqlConc.Step 1; SqlConc.Step 0; SqlConc.Step 1; SqlConc.Step 1].
Definition rp_log : list event := trace sqlite [0; 1; 2]%nat (SqlConc.sys_init 1000) rp_run [].
Example C182_example :
  store_log rp_log /\ obeys next0 both rp_log /\
  map (fun e => match e with Ended i _ _ r => Some (i, r) | _ => None end) rp_log =
    [Some (1%nat, Flag false); Some (0%nat, Flag true); None; None; Some (1%nat, Got (Some ex_assoc)); Some (0%nat, Got (Some ex_assoc)); None; None; Some (2%nat, Done); None] /\
  map (fun i => match visit_done plain_env [] toy_hmac (fun _ => None) (nth i both (ex_visit 0 [] [])) (answers_in i rp_log) with
                | Some (Ok (Success _ _ _)) => Some true | Some (Ok (Failure _ _)) => Some false | _ => None end) [0%nat; 1%nat] = [Some true; Some false].
Proof.
  split; [|split; [|split; vm_compute; reflexivity]].
  - apply by_sql; [apply sqlite_keyed|]. repeat (apply Forall_cons || apply Forall_nil); cbn [SqlAtomicFacts.label_ok sent_op]; auto.
    + split; [exists ex_server; reflexivity|]. split; [exists (u "h1"); reflexivity|left; reflexivity].
    + split; [exists ex_server; reflexivity|]. intros x E. injection E as <-. exists (u "h1"). reflexivity.
    + split; [exists ex_server; reflexivity|]. intros x E. injection E as <-. exists (u "h1"). reflexivity.
    + split; [exists ex_server; reflexivity|exists (u "salt"); reflexivity].
    + split; [exists ex_server; reflexivity|exists (u "salt"); reflexivity].
  - let l := eval vm_compute in rp_log in change (obeys next0 both l).
    cbn [obeys]. repeat match goal with |- _ /\ _ => split end; try exact I; intros v E; cbn [nth_error both] in E; first [discriminate E|injection E as <-; vm_compute; reflexivity].
Qed.
(** The visit that succeeds there rests on what process 2 stored. *)
Example C183_example :
  (exists ep, success_in plain_env [] toy_hmac (fun _ => None) both rp_log 0 (nth 0 both (ex_visit 0 [] [])) ep) /\
  exists t, In (Began 2 t (StoreA ex_server ex_assoc)) rp_log /\ nth_error both 2 = None.
Proof.
  split.
  - destruct (visit_done plain_env [] toy_hmac (fun _ => None) (nth 0 both (ex_visit 0 [] [])) (answers_in 0 rp_log)) as [[[ep m fields|?|?|?]|?]|] eqn:D.
    2,3,4,5,6: exfalso; assert (match visit_done plain_env [] toy_hmac (fun _ => None) (nth 0 both (ex_visit 0 [] [])) (answers_in 0 rp_log) with Some (Ok (Success _ _ _)) => true | _ => false end = true) as X by (vm_compute; reflexivity);
      rewrite D in X; discriminate X.
    exists ep. split; [reflexivity|]. split; [|eauto]. split; [|split]; [split; intros; discriminate| |].
    + vm_compute. repeat constructor; cbn; intuition discriminate.
    + intros a I. vm_compute in I. intuition discriminate.
  - exists 1000. split; [|reflexivity]. vm_compute. do 9 right. left. reflexivity.
Qed.
