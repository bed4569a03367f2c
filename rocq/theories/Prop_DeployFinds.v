(** C189: what the processes of a provider have signed, they confirm; and they sign with the association that was asked for. *)
From Coq Require Import Lia ZifyBool ZifyN ZifyNat.
From Verif Require Import Py PyFacts Utf8 KVForm CryptUtil DH Message MessageFacts MessageWire MessageParse MessageSpec MessageRound Prop_Message.
From Verif Require Import FileStore FileSys FileAtomic Prop_FileNames Prop_StoreFile FileSysFacts Prop_FileSys Prop_FileAtomic SqlTxn SqlConc DeployStores Deploy DeployFacts.
From Verif Require Import Association AssociationFacts Prop_Association Nonce Store StoreSpec StoreFacts Server ServerFacts SignatoryFacts Prop_ServerDecode ServerStores Prop_Signatory Prop_EndToEnd Conc ConcFacts ServerConc ServerConcFacts Prop_ServerConc Prop_DeployOP.
Import Py Store Server ServerConc.
Open Scope Z_scope.
Local Arguments u : simpl never.

(** A lookup that began after an association had been stored finds it. *)
Lemma lookup_finds log i t key a x p2 j t2 r q n2 n1 :
  store_log log -> log = p2 ++ Ended j t2 (GetA key (Some (a_handle a))) r :: q ++ n2 ++ Ended i t (StoreA key a) x :: n1 ->
  (forall e, x <> Err e) -> a_handle a <> [] ->
  running (q ++ n2 ++ Ended i t (StoreA key a) x :: n1) j = Some (GetA key (Some (a_handle a))) -> running (n2 ++ Ended i t (StoreA key a) x :: n1) j = None ->
  (forall k t o, In (Began k t o) (q ++ n2) -> touches key (a_handle a) o = false) ->
  (forall k t o, In (Began k t o) n1 -> touches key (a_handle a) o = true -> k = i /\ o = StoreA key a) ->
  t2 < a_issued a + a_lifetime a -> r = Got (Some a) \/ r = Err OSError.
Proof.
  intros SL L Nx Ne Rj Nj St Be Fr. destruct (store_log_atomic log SL) as (now0 & A & S & La). destruct (ends_ok_all now0 A S) as (_ & E). rewrite La, L in E.
  assert (running n1 i = Some (StoreA key a)) as Ri. { apply ends_ok_app in E. destruct E as (E & _). rewrite app_assoc in E. apply ends_ok_app in E. apply E. }
  destruct (running_split n1 i _ Ri) as (m2 & t0 & m1 & -> & _ & Nb & _).
  assert (touches key (a_handle a) (StoreA key a) = true) as To. { cbn. rewrite !text_eqb_refl. auto. }
  apply running_app2 in Rj as [Rj|(Rj & _)]; [|congruence]. destruct (running_split q j _ Rj) as (q2 & t1 & q1 & -> & _ & Nb' & _).
  assert (forall k o, k <> i -> running m1 k = Some o -> touches key (a_handle a) o = false) as Al.
  { intros k o Nk R. destruct (running_began _ _ _ R) as (t' & I). destruct (touches key (a_handle a) o) eqn:T; auto. exfalso. apply Nk. eapply (Be k t' o); auto. apply in_or_app. right. right. auto. }
  pose proof (rlog_all key (a_handle a) i t0 (StoreA key a) m1 Ne To Al now0 A S) as R. cbn [leaves] in R.
  apply (R p2 j t2 r ((q2 ++ Began j t1 (GetA key (Some (a_handle a))) :: q1) ++ n2 ++ Ended i t (StoreA key a) x :: m2)).
  - rewrite La, L, <- !app_assoc. cbn. auto.
  - intros k t' o I. rewrite app_assoc in I. apply in_app_or in I as [I|[I|I]]; [eapply St; eauto|discriminate|].
    destruct (touches key (a_handle a) o) eqn:T; auto. exfalso. destruct (Be k t' o) as (-> & ->); auto; [apply in_or_app; auto|]. eapply Nb; eauto.
  - exists q2, t1, (q1 ++ n2 ++ Ended i t (StoreA key a) x :: m2), t, x. split; [rewrite <- app_assoc; auto|]. split; auto. split; [|auto]. rewrite !in_app_iff. right. right. left. auto.
  - intros k t' b I Hb.
    assert (touches key (a_handle a) (StoreA key b) = true) as Tb. { cbn. rewrite Hb, !text_eqb_refl. auto. }
    assert (StoreA key b = StoreA key a) as Q; [|injection Q as ->; auto].
    assert (In (Began k t' (StoreA key b)) ((q2 ++ Began j t1 (GetA key (Some (a_handle a))) :: q1) ++ n2) \/ In (Began k t' (StoreA key b)) (m2 ++ Began i t0 (StoreA key a) :: m1)) as [I'|I'].
    { clear - I. repeat (rewrite in_app_iff in I || cbn [In] in I). repeat (rewrite in_app_iff || cbn [In]). intuition discriminate. }
    + apply St in I'. congruence.
    + destruct (Be _ _ _ I' Tb) as (_ & Q). auto.
Qed.

Section OP.
  Variable hmac : text -> bytes -> bytes -> bytes.
  Variable pub_ok : Z -> Z -> Z -> bool.
  Variable hash : hash_alg -> bytes -> bytes.
  Notation with_answers := (with_answers hmac pub_ok hash).
  Notation next_call := (next_call hmac pub_ok hash).
  Notation finished := (finished hmac pub_ok hash).
  Variable jobs : list job.

  (** Before a job has had its first answer, it makes its first call only. *)
  Lemma first_only log j J p2 e p1 t o o1 : obeys next_call jobs log -> nth_error jobs j = Some J -> log = p2 ++ e :: p1 -> answers_in j p1 = [] ->
    In (Began j t o) p1 -> next_call J [] = Some o1 -> o = o1.
  Proof using.
    intros O Nj El Ap I N1. apply in_split in I as (x1 & x2 & ->). rewrite El in O. apply obeys_app in O. apply (obeys_app _ _ [e]) in O. apply obeys_app in O.
    cbn in O. destruct O as (_ & O). specialize (O _ Nj). rewrite DeployFacts.answers_app in Ap. apply app_eq_nil in Ap as (Ap & _).
    rewrite DeployFacts.answers_cons, answer_of_rev in Ap. cbn [answer_of] in Ap. rewrite app_nil_r in Ap. rewrite Ap in O. congruence.
  Qed.

  (** C189: an assertion that verifies with a private association is confirmed: if the association
      has been put into the store, and the check begins afterwards; if nobody else has stored
      anything under its handle, and nobody but the check itself stores or removes there
      afterwards; and if it has not run out. *)
  Theorem C189_confirmed : forall l n2 i t a x n1 j now c r,
    let log := l ++ n2 ++ Ended i t (StoreA dumb_key a) x :: n1 in let h := a_handle a in
    store_log log -> obeys next_call jobs log -> nth_error jobs j = Some (JCheck now c) -> ca_assoc_handle c = h -> h <> [] ->
    (forall e, x <> Err e) -> running (n2 ++ Ended i t (StoreA dumb_key a) x :: n1) j = None -> answers_in j (n2 ++ Ended i t (StoreA dumb_key a) x :: n1) = [] ->
    (forall k t o, In (Began k t o) n1 -> touches dumb_key h o = true -> k = i /\ o = StoreA dumb_key a) ->
    (forall k t o, In (Began k t o) (l ++ n2) -> touches dumb_key h o = true -> k = j) ->
    (forall t' o, In (Ended j t' (GetA dumb_key (Some h)) o) log -> t' < a_issued a + a_lifetime a) -> now < a_issued a + a_lifetime a ->
    checkMessageSignature hmac a (ca_signed c) = Ok true ->
    finished (JCheck now c) (answers_in j log) = Some (Ok (AResponse r)) ->
    field_is r (u "is_valid") (Some (u "true")).
  Proof using.
    intros l n2 i t a x n1 j now c r log h SL O Nj Eh Ne Nx Rj Aj Be Af Fr Fn Ck Fi.
    destruct (C184_confirmed hmac pub_ok hash jobs log j now c r SL O Nj Fi) as (v & p2 & t2 & o & p1 & V & El & Ap & Ru & W & _). rewrite Eh in *.
    assert (v = true) as ->; [|exact V]. apply W. exists a. split; [|split; auto].
    destruct (ended_after j l (n2 ++ Ended i t (StoreA dumb_key a) x :: n1) p2 t2 _ _ p1 El Aj) as (q & -> & ->).
    destruct (lookup_finds log i t dumb_key a x p2 j t2 (Got o) q n2 n1) as [H|H]; auto; [| |congruence|discriminate].
    - intros k t' o' I. destruct (touches dumb_key (a_handle a) o') eqn:T; auto. exfalso.
      assert (k = j) as ->. { apply (Af k t' o'); auto. rewrite <- app_assoc. apply in_or_app. right. right. auto. }
      assert (o' = GetA dumb_key (Some (ca_assoc_handle c))) as ->; [|discriminate T].
      apply (first_only log j (JCheck now c) p2 (Ended j t2 (GetA dumb_key (Some (a_handle a))) (Got o)) (q ++ n2 ++ Ended i t (StoreA dumb_key a) x :: n1) t'); auto.
      rewrite app_assoc. apply in_or_app. auto.
    - apply (Fr t2 (Got o)). rewrite El. apply in_or_app. right. left. auto.
  Qed.

  (** C189: and an answer is signed with the shared association that was asked for, unchanged,
      under the same conditions: it has been stored before the signing job begins, nobody else
      stores or removes under its handle, and it has not run out. *)
  Theorem C189_signed : forall l n2 i t a x n1 j now secret uniq r c w,
    let log := l ++ n2 ++ Ended i t (StoreA normal_key a) x :: n1 in let h := a_handle a in
    store_log log -> obeys next_call jobs log -> nth_error jobs j = Some (JSign now secret uniq r) ->
    rs_request r = RCheckID c -> ci_assoc_handle c = Some h -> h <> [] -> field_is r (u "mode") (Some (u "id_res")) ->
    (forall e, x <> Err e) -> running (n2 ++ Ended i t (StoreA normal_key a) x :: n1) j = None -> answers_in j (n2 ++ Ended i t (StoreA normal_key a) x :: n1) = [] ->
    (forall k t o, In (Began k t o) n1 -> touches normal_key h o = true -> k = i /\ o = StoreA normal_key a) ->
    (forall k t o, In (Began k t o) (l ++ n2) -> touches normal_key h o = true -> k = j) ->
    (forall t' o, In (Ended j t' (GetA normal_key (Some h)) o) log -> t' < a_issued a + a_lifetime a) -> now < a_issued a + a_lifetime a ->
    finished (JSign now secret uniq r) (answers_in j log) = Some (Ok (AWeb w)) ->
    exists m, signMessage hmac a (rs_fields r) = Ok m /\ encode_response (mkResponse (RCheckID c) m) = Ok w.
  Proof using.
    intros l n2 i t a x n1 j now secret uniq r c w log h SL O Nj Q Eh Ne M Nx Rj Aj Be Af Fr Fn Fi.
    destruct (store_log_atomic log SL) as (now0 & A & S & La). destruct (ends_ok_all now0 A S) as (_ & E). rewrite La in E.
    assert (needsSigning r = Ok true) as Nd. { unfold needsSigning. rewrite M. cbn [bind opt_eqb]. rewrite text_eqb_refl. auto. }
    destruct (sign_script hmac pub_ok hash now secret uniq r _ w (finished_result _ _ _ _ _ _ Fi) Nd) as (a1 & r1 & m & hd & more & Sm & En & Hd & Cases). cbv zeta in Cases.
    rewrite Q in Hd. cbn in Hd. injection Hd as Hd. rewrite Eh in Hd.
    assert (exists o rest, asked (fst (with_answers (JSign now secret uniq r) (answers_in j log))) = GetA normal_key (Some h) :: more /\ answers_in j log = Got o :: rest /\
      (o = Some a1 /\ r1 = r \/ forall b, o = Some b -> run_out b now = true)) as (o & rest & As & Ou & K).
    { destruct Cases as [(h' & rest & Eh' & _ & As & Ou & _ & ->)|[(h' & o & rest & ty & Eh' & _ & As & Ou & RO & _)|(ty & [X|X] & _)]]; try congruence.
      - exists (Some a1), rest. assert (h' = h) as -> by congruence. auto.
      - exists o, rest. assert (h' = h) as -> by congruence. auto. }
    destruct (job_kth hmac pub_ok hash jobs log j _ 0 _ (GetA normal_key (Some h)) E O Nj Fi) as (p2 & t2 & y & p1 & El & Ap & Ru & Ay & _); [rewrite As; auto|].
    rewrite Ou in Ay. cbn in Ay. injection Ay as <-. cbn [firstn] in Ap.
    destruct (ended_after j l (n2 ++ Ended i t (StoreA normal_key a) x :: n1) p2 t2 _ _ p1 El Aj) as (q & -> & ->).
    assert (next_call (JSign now secret uniq r) [] = Some (GetA normal_key (Some h))) as N1.
    { pose proof (running_next _ _ _ _ _ _ (obeys_app _ _ [_] _ (obeys_app _ _ _ _ (eq_ind _ (obeys next_call jobs) O _ El))) Nj Ru) as X. rewrite Ap in X. exact X. }
    destruct (lookup_finds log i t normal_key a x p2 j t2 (Got o) q n2 n1) as [H|H]; auto; [| |injection H as ->|discriminate].
    - intros k t' o' I. destruct (touches normal_key (a_handle a) o') eqn:T; auto. exfalso.
      assert (k = j) as ->. { apply (Af k t' o'); auto. rewrite <- app_assoc. apply in_or_app. right. right. auto. }
      assert (o' = GetA normal_key (Some h)) as ->; [|discriminate T].
      apply (first_only log j (JSign now secret uniq r) p2 (Ended j t2 (GetA normal_key (Some h)) (Got o)) (q ++ n2 ++ Ended i t (StoreA normal_key a) x :: n1) t'); auto.
      rewrite app_assoc. apply in_or_app. auto.
    - apply (Fr t2 (Got o)). rewrite El. apply in_or_app. right. left. auto.
    - destruct K as [(X & ->)|K].
      + injection X as <-. exists m. rewrite Q in En. auto.
      + specialize (K a eq_refl). assert (run_out a now = false) as Y; [|congruence]. apply run_out_false. cbn. destruct (now <? _) eqn:Z; [auto|lia].
  Qed.
End OP.
Print Assumptions C189_confirmed.
Print Assumptions C189_signed.

(** The jobs of C184_example up to the first check: the premises of C189_confirmed, and its conclusion. *)
Definition op_run3 : list FileSys.label :=
  [FileSys.Start 0 (GetA normal_key (Some (u "h1")))] ++ steps 0 1 ++ [FileSys.Start 0 (StoreA dumb_key op_assoc)] ++ store_steps 0 ++
  [FileSys.Tick 1; FileSys.Start 1 op_get] ++ read_steps 1 ++ [FileSys.Start 1 op_rem] ++ read_steps 1 ++ steps 1 1 ++ [FileSys.Start 1 (GetA normal_key (Some (u "h1")))] ++ steps 1 1.
Definition op_log3 : list FileSys.event := s_log (FileSys.run toy_sha1 true (FileSys.sys_init 1700000000) op_run3).
Example C189_example :
  exists l n1 t now c r, op_log3 = l ++ [] ++ Ended 0 t (StoreA dumb_key op_assoc) Done :: n1 /\
    store_log op_log3 /\ obeys (next_call long_mac no_keys no_hash) three op_log3 /\
    nth_error three 1 = Some (JCheck now c) /\ ca_assoc_handle c = a_handle op_assoc /\ a_handle op_assoc <> [] /\
    running (Ended 0 t (StoreA dumb_key op_assoc) Done :: n1) 1 = None /\ answers_in 1 (Ended 0 t (StoreA dumb_key op_assoc) Done :: n1) = [] /\
    (forall k t o, In (Began k t o) n1 -> touches dumb_key (a_handle op_assoc) o = true -> k = 0%nat /\ o = StoreA dumb_key op_assoc) /\
    (forall k t o, In (Began k t o) (l ++ []) -> touches dumb_key (a_handle op_assoc) o = true -> k = 1%nat) /\
    (forall t' o, In (Ended 1 t' (GetA dumb_key (Some (a_handle op_assoc))) o) op_log3 -> t' < a_issued op_assoc + a_lifetime op_assoc) /\
    now < a_issued op_assoc + a_lifetime op_assoc /\ checkMessageSignature long_mac op_assoc (ca_signed c) = Ok true /\
    finished long_mac no_keys no_hash (JCheck now c) (answers_in 1 op_log3) = Some (Ok (AResponse r)) /\ field_is r (u "is_valid") (Some (u "true")).
Proof.
  destruct (nth_error three 1) as [[now c|? ? ? ?|? ? ? ? ?]|] eqn:E1; try (exfalso; vm_compute in E1; discriminate E1).
  assert (match nth_error three 1 with Some (JCheck now c) =>
              match finished long_mac no_keys no_hash (JCheck now c) (answers_in 1 op_log3) with
              | Some (Ok (AResponse r)) => match getArg (rs_fields r) OPENID_NS (u "is_valid") with Ok v => Some (ca_assoc_handle c, v, now <? a_issued op_assoc + a_lifetime op_assoc, match checkMessageSignature long_mac op_assoc (ca_signed c) with Ok b => b | _ => false end) | _ => None end | _ => None end
            | _ => None end = Some (a_handle op_assoc, Some (u "true"), true, true)) as H by (vm_compute; reflexivity).
  rewrite E1 in H. destruct (finished _ _ _ _ _) as [[[r|?]|?]|] eqn:F; try discriminate H.
  exists (firstn 6 op_log3), (skipn 7 op_log3), 1700000000, now, c, r.
  destruct (getArg (rs_fields r) OPENID_NS (u "is_valid")) as [v|?] eqn:Ev; [|discriminate H].
  destruct (checkMessageSignature long_mac op_assoc (ca_signed c)) as [b|?] eqn:Ck; [|injection H; discriminate].
  apply (f_equal (fun o => match o with Some (w, v, x, y) => (w, v, x, y) | None => ([], None, false, false) end)) in H. cbv beta iota in H.
  assert (ca_assoc_handle c = a_handle op_assoc) as H1 by congruence. assert (v = Some (u "true")) as H2 by congruence. assert ((now <? a_issued op_assoc + a_lifetime op_assoc) = true) as H3 by congruence. assert (b = true) as H4 by congruence. clear H.
  split; [vm_compute; reflexivity|]. split; [|split]; [| |split; [reflexivity|]; split; [exact H1|]; split; [vm_compute; discriminate|]; split; [vm_compute; reflexivity|]; split; [vm_compute; reflexivity|]; split; [|split; [|split; [|split; [apply Z.ltb_lt; exact H3|split; [rewrite H4; reflexivity|split; [exact F|]]]]]]].
  - apply by_files; [apply toy_digest| |].
    + repeat (apply Forall_cons || apply Forall_nil); cbn [file_op]; auto.
      all: try (split; [apply op_key_ok; auto|intros x X; injection X as <-; eexists; reflexivity]).
      * split; [apply op_key_ok; auto|apply op_assoc_ok].
      * split; [apply op_key_ok; auto|eexists; reflexivity].
    + apply op_distinct. intros x H. vm_compute in H. vm_compute. intuition.
  - let l := eval vm_compute in op_log3 in change (obeys (next_call long_mac no_keys no_hash) three l).
    cbn [obeys]. repeat match goal with |- _ /\ _ => split end; try exact I; intros y E; cbn [nth_error three] in E; first [discriminate E|injection E as <-; vm_compute; reflexivity].
  - intros k t o I T.
    assert (forallb (fun ev => match ev with FileSys.Began k _ o => negb (touches dumb_key (a_handle op_assoc) o) || Nat.eqb k 0 && match o with StoreA _ _ => true | _ => false end | _ => true end) (skipn 7 op_log3) = true) as D by (vm_compute; reflexivity).
    rewrite forallb_forall in D. pose proof (D _ I) as D1. cbv beta iota in D1. rewrite T in D1. apply andb_true_iff in D1 as (D1 & D2). apply Nat.eqb_eq in D1. split; [exact D1|].
    destruct o as [url b0|? ?|? ?|? ? ?| |]; try discriminate D2.
    assert (forall ev, In ev (skipn 7 op_log3) -> match ev with FileSys.Began _ _ (StoreA url b) => StoreA url b = StoreA dumb_key op_assoc | _ => True end) as D3; [|exact (D3 _ I)].
    apply Forall_forall. let l := eval vm_compute in (skipn 7 op_log3) in change (skipn 7 op_log3) with l. repeat (apply Forall_cons || apply Forall_nil); first [exact Logic.I|vm_compute; reflexivity].
  - intros k t o I T.
    assert (forallb (fun ev => match ev with FileSys.Began k _ o => negb (touches dumb_key (a_handle op_assoc) o) || Nat.eqb k 1 | _ => true end) (firstn 6 op_log3 ++ []) = true) as D by (vm_compute; reflexivity).
    rewrite forallb_forall in D. apply D in I. cbv beta iota in I. rewrite T in I. apply Nat.eqb_eq in I. auto.
  - intros t' o I.
    assert (forallb (fun ev => match ev with FileSys.Ended _ t _ _ => t <? a_issued op_assoc + a_lifetime op_assoc | _ => true end) op_log3 = true) as D by (vm_compute; reflexivity).
    rewrite forallb_forall in D. apply D in I. apply Z.ltb_lt in I. exact I.
  - unfold field_is. rewrite Ev, H2. reflexivity.
Qed.
