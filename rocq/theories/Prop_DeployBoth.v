(** C187: a relying party and a provider, each in several processes on the file or the SQLite store. *)
From Coq Require Import Lia ZifyBool ZifyN ZifyNat.
From Verif Require Import Py PyFacts Utf8 KVForm CryptUtil DH Message MessageFacts MessageWire MessageParse MessageSpec MessageRound Prop_Message.
From Verif Require Import FileStore FileSys FileAtomic Prop_FileAtomic DeployStores Deploy DeployFacts.
From Verif Require Import Association AssociationFacts Prop_Association UrlLib Nonce Store StoreSpec StoreFacts Endpoint Consumer Prop_Consumer Prop_ConsumerTotal Prop_ConsumerOnce Prop_ConsumerAccepts ConsumerConc Prop_ConsumerConc Prop_DeployRP.
From Verif Require Import Server ServerFacts SignatoryFacts Prop_ServerDecode Prop_ServerAnswer ServerStores Prop_Signatory Prop_EndToEnd Prop_Unforged Conc ConcFacts Prop_Uri.
From Verif Require Import SqlTxn SqlConc SqlAtomicFacts Prop_SqlAtomic Prop_DeployOP.
Import Py Store.
Open Scope Z_scope.
Local Arguments u : simpl never.

Section Both.
  Variable e : uenv.
  Variable reg : dict text text.
  Variable params_ok : Z -> Z -> bool.
  Variable hmac : text -> bytes -> bytes -> bytes.
  Variable pub_ok : Z -> Z -> Z -> bool.
  Variable hash : hash_alg -> bytes -> bytes.
  Variable neg : negotiator.
  Variable udigit : N -> option Z.

  (** A process of the provider takes one request, from decoding it to the encoded answer; it is
      between two calls of the store given by the answers that it has had (as in ServerConc.v). *)
  Definition request_with (x : exchange) (outs : list out) : script * res web :=
    serve script_step e reg params_ok hmac pub_ok hash neg x (mkScript outs []).
  Definition request_next (x : exchange) (outs : list out) : option op := nth_error (asked (fst (request_with x outs))) (List.length outs).
  (** What the j-th request, if it is a direct one with this body, has been answered. *)
  Definition replied (xs : list exchange) (plog : list FileSys.event) (body : text) (r : N * bytes) : Prop :=
    exists j ep x now secret uniq t b, nth_error xs j = Some (Direct (dict_of text_eqb (parse_qsl true body)) ep x now secret uniq) /\
      snd (request_with (Direct (dict_of text_eqb (parse_qsl true body)) ep x now secret uniq) (answers_in j plog)) = Ok (mkWeb (fst r) None (BText t)) /\
      encode t = Ok b /\ snd r = b.
  (** A request has been answered with a signature of b under the key k. *)
  Definition signed_by (xs : list exchange) (plog : list FileSys.event) (ty : text) (k b : bytes) : Prop :=
    exists j x, nth_error xs j = Some x /\ signs script_step e reg params_ok hmac pub_ok hash neg x (mkScript (answers_in j plog) []) ty k b.

  (** The first call of a check_authentication. *)
  Lemma check_first args ep x now secret uniq ca : Server.decode e reg params_ok args ep x = DOk (Some (RCheckAuth ca)) ->
    request_next (Direct args ep x now secret uniq) [] = Some (GetA dumb_key (Some (ca_assoc_handle ca))).
  Proof using. intros D. unfold request_next, request_with, serve, Prop_Unforged.respond. rewrite D. reflexivity. Qed.

  (** C187: what a visit accepts was asserted by the provider's application in answer to one of its requests, provided that
      the keys that have been put into the two stores are secret, the consumer's question goes to
      one of the provider's processes, and nobody but they sign with those keys. *)
  Theorem C187_accepted_was_asserted :
    forall (Secret : text -> bytes -> Prop) visits rlog i v ep xs plog,
      store_log rlog -> obeys (visit_next e reg hmac udigit) visits rlog -> success_in e reg hmac udigit visits rlog i v ep ->
      store_log plog -> obeys request_next xs plog -> Forall proper xs ->
      wire_value (v_query v) (u "assoc_handle") <> Some [] ->
      (forall server k t a, ep_server_url ep = Some server -> In (Began k t (StoreA server a)) rlog -> Secret (a_type a) (a_secret a)) ->
      (forall k t a, In (Began k t (StoreA dumb_key a)) plog -> Secret (a_type a) (a_secret a)) ->
      (forall server body r, ep_server_url ep = Some server -> v_net v [(server, body)] = Some r -> replied xs plog body r) ->
      (forall a signed sig, Secret (a_type a) (a_secret a) ->
         wire_value (v_query v) (u "signed") = Some signed -> wire_value (v_query v) (u "sig") = Some sig -> mac_valid hmac a (v_query v) signed sig ->
         exists b, authenticated (v_query v) signed b /\ signed_by xs plog (a_type a) (a_secret a) b) ->
      asserted e reg params_ok xs (v_query v).
  Proof using.
    intros Secret visits rlog i v ep xs plog Sr Or Su Sp Op P Nh Kr Kp Nt Un.
    destruct (C183_justified _ _ _ _ _ _ _ _ _ Sr Or Su) as (server & hd & signed & sig & l2 & t & o & l1 & Es & Wh & Ws & Wg & El & _ & O).
    assert (hd <> []) as Nhd by (intros ->; apply Nh; exact Wh).
    destruct Su as (Nv & Q & m' & fields & D). apply visit_done_result in D. unfold visit_with, Prop_ConsumerOnce.respond in D.
    destruct (fromPostArgs reg (v_query v)) as [m|y] eqn:F; [|discriminate D].
    destruct (complete e reg hmac udigit (v_net v) (v_discover v) script_step (v_now v) m (v_session v) (v_url v) (mkCst (Some (mkScript (answers_in i rlog) [])) [])) as [c r] eqn:H.
    cbn [snd] in D. subst r.
    destruct (C41_success_is_justified e reg hmac udigit (v_net v) (v_discover v) script_step (v_now v) (v_query v) m _ _ _ _ _ _ _ Q F H)
      as (_ & Hm & _ & rto & server' & hd' & signed' & sig' & Wr & _ & Ws' & _ & _ & _ & Must & _ & _).
    assert (signed' = signed) as -> by congruence.
    destruct (C42_return_to e reg hmac udigit (v_net v) (v_discover v) script_step (v_now v) (v_query v) m _ _ _ _ _ _ _ Q F H) as (rto' & parts & Wr' & _ & (na & nb & _ & _ & _ & _ & Ub & _) & _).
    assert (rto' = rto) as -> by congruence.
    assert (rto <> []) as Nr. { intros ->. vm_compute in Ub. discriminate Ub. }
    assert (exists a, Secret (a_type a) (a_secret a) /\ mac_valid hmac a (v_query v) signed sig) as (a & Sa & Mv).
    { destruct o as [a|].
      - destruct O as (_ & Mv & St). destruct (St Nhd) as (_ & k & t' & B & _). exists a. split; auto. apply (Kr server k t' a Es). rewrite El. apply in_or_app. right. right. auto.
      - destruct O as (body & status & answer & Cb & Nb & _ & Rp). destruct (Nt server body _ Es Nb) as (j & ep1 & x1 & now1 & secret1 & uniq1 & tx & b & Nj & Re & Eb & Ea). cbn [fst snd] in Re, Ea.
        assert (direct_reply script_step e reg params_ok hmac pub_ok hash neg (mkScript (answers_in j plog) []) ep1 x1 now1 secret1 uniq1 body = Some (status, answer)) as Dr.
        { unfold direct_reply. unfold request_with in Re. rewrite Re, Eb. congruence. }
        destruct (confirmed script_step e reg params_ok hmac pub_ok hash neg _ ep1 x1 now1 secret1 uniq1 (v_query v) m signed sig hd body status answer Q F Hm Wh Ws Wg Cb Dr Rp)
          as ((ca & Dc & Hc) & s' & a & G & _ & Mv).
        exists a. split; auto. unfold script_step in G. cbn [to_come] in G.
        destruct (answers_in j plog) as [|a0 rest] eqn:An; [discriminate G|]. injection G as _ ->.
        destruct (store_log_atomic plog Sp) as (now & A & S & La). destruct (ends_ok_all now A S) as (_ & En). rewrite La in En.
        destruct (nth_ended _ xs j _ Nj plog 0 En Op) as (m2 & t2 & o2 & r2 & m1 & Em & _ & N2 & X2 & _); [rewrite An; cbn; lia|].
        rewrite An in N2, X2. cbn [nth_error firstn] in N2, X2. rewrite (check_first _ _ _ _ _ _ _ Dc), Hc in X2. injection X2 as <-. injection N2 as <-.
        rewrite <- La in Em. destruct (found_stored now A S _ _ _ _ _ _ _ Nhd Em) as (_ & k & t' & B). apply (Kp k t'). rewrite <- La, Em. apply in_or_app. right. right. auto. }
    destruct (Un a signed sig Sa Ws Wg Mv) as (b & Au & j & x & Nj & Si).
    assert (In (u "return_to") (splitc 44 signed)) as Ir. { apply Must; [destruct (asks_v2 (v_query v)); left; auto|congruence]. }
    apply nth_error_split in Nj as (before & after & Ex & _).
    assert (Forall proper [x]) as Px. { subst xs. apply Forall_app in P as (_ & P). inversion P; auto. }
    assert (issued script_step e reg params_ok hmac pub_ok hash neg [x] (mkScript (answers_in j plog) []) (a_type a) (a_secret a) b) as Is by (exists [], x, []; split; auto).
    destruct (signs_said script_step e reg params_ok hmac pub_ok hash neg [x] _ _ _ b (v_query v) signed rto Px Is Au Ir Wr Nr) as
      (before' & request & ep1 & x1 & c1 & server_url & identity & claimed & t1 & salt & decorate & now1 & secret1 & uniq1 & after' & return_to & ids & X1 & X2 & X3 & X4 & X5 & Y1 & Y2).
    assert (x = Asked request ep1 x1 true server_url identity claimed t1 salt decorate now1 secret1 uniq1) as ->.
    { destruct before' as [|? [|? ?]]; [|discriminate X1|discriminate X1]. cbn [app] in X1. congruence. }
    exists before, request, ep1, x1, c1, server_url, identity, claimed, t1, salt, decorate, now1, secret1, uniq1, after, return_to, ids.
    split; auto. split; auto. split; auto. split; auto. split; auto. cbv zeta in *. split.
    - specialize (Y1 (u "return_to") (or_introl eq_refl) Ir). unfold value_of in Y1. rewrite Wr in Y1. rewrite Wr. f_equal. exact Y1.
    - assert (forall k, In k core_fields -> dget text_eqb k (base_params return_to (mkNonce t1 salt) (endpoint_param server_url ep1) ids) <> None -> value_of (v_query v) k = match dget text_eqb k (base_params return_to (mkNonce t1 salt) (endpoint_param server_url ep1) ids) with Some v => v | None => [] end) as Z by (intros; apply Y1; auto).
      intros k [I|[I J]]; [|auto].
      assert (In k core_fields) as I'.
      { destruct (asks_v2 (v_query v)); auto. destruct I as [<-|[<-|[]]]; [left|right; left]; auto. }
      destruct (wire_value (v_query v) k) as [w|] eqn:W.
      + apply Y1; auto. apply Must; [|congruence]. destruct (asks_v2 (v_query v)); auto. unfold core_fields in I'. cbn [In] in *. tauto.
      + destruct (dget text_eqb k (base_params return_to (mkNonce t1 salt) (endpoint_param server_url ep1) ids)) as [w|] eqn:Dg.
        * rewrite Z; auto; rewrite Dg; congruence.
        * unfold value_of. rewrite W. auto.
  Qed.
End Both.
Print Assumptions C187_accepted_was_asserted.

(** ** The login of C59_example in processes: the provider's on the file store, as in C184_example; the relying
    party's visit on SQLite. *)
Definition with187 := request_with plain_env [] (fun _ _ => true) long_mac (fun _ _ _ => true) (fun _ b => b) default_negotiator.
Definition next187 := request_next plain_env [] (fun _ _ => true) long_mac (fun _ _ _ => true) (fun _ b => b) default_negotiator.
Definition signing : exchange := hd (Direct [] [] 0 0 secret0 []) one_login.
Definition op_query : dict text text := arrived (mem_init, snd (with187 signing (answers_in 0 op_log))).
Definition visit187 (net : list post -> option (N * bytes)) : visit := mkVisit 1700000005 op_query (Some demo_endpoint) back_url net (fun _ => Raise DiscoveryFailure).
(** What the visit asks the provider, which the provider's second process is asked. *)
Definition question : text :=
  match fromPostArgs [] op_query with
  | Ok m => match c_posts (fst (complete plain_env [] long_mac (fun _ => None) (fun _ => None) (fun _ => Raise DiscoveryFailure) script_step 1700000005 m (Some demo_endpoint) back_url (mkCst (Some (mkScript [Got None] [])) []))) with
            | (_, body) :: _ => body | [] => [] end
  | Raise _ => [] end.
Definition checking : exchange := Direct (dict_of text_eqb (parse_qsl true question)) op_url 1 1700000004 secret0 [1]%N.
Definition reply187 : option (N * bytes) :=
  match snd (with187 checking (answers_in 1 op_log)) with
  | Ok (mkWeb code None (BText t)) => match encode t with Ok b => Some (code, b) | Raise _ => None end
  | _ => None end.
Definition net187 (posts : list post) : option (N * bytes) :=
  match posts with [(_, body)] => if text_eqb body question then reply187 else None | _ => None end.
Definition rp187_run : list SqlConc.label :=
  [SqlConc.Call 0 (GetA op_url (Some (a_handle op_assoc)))] ++ repeat (SqlConc.Step 0) 3 ++ [SqlConc.Call 0 (RemoveA op_url (u "h1"))] ++ repeat (SqlConc.Step 0) 3 ++ [SqlConc.Call 0 (UseN op_url 1700000000 (u "salt42"))] ++ repeat (SqlConc.Step 0) 3.
Definition rp187_log : list FileSys.event := trace sqlite [0]%nat (SqlConc.sys_init 1700000005) rp187_run [].
Definition script_signs (i : exchange) (s : script) (ty : text) (k : bytes) : res bytes :=
  match Prop_Unforged.respond script_step plain_env [] (fun _ _ => true) long_mac (fun _ _ _ => true) (fun _ b => b) default_negotiator i s with
  | (s1, Ok r) =>
      match needsSigning r, sign_response long_mac script_step (time_of i) (secret_of i) (uniq_of i) r s1 with
      | Ok true, (_, Ok r') =>
          let fields := toPostArgs (rs_fields r') in
          match wire_value fields (u "signed") with
          | Some signed => b <- bytes_of fields signed ;;
                           if opt_eqb text_eqb (wire_value fields (u "sig")) (Some (toBase64 (long_mac ty k b))) then Ok b else Raise ValueError
          | None => Raise ValueError
          end
      | _, _ => Raise ValueError
      end
  | _ => Raise ValueError
  end.
Lemma script_signs_ok i s ty k b : script_signs i s ty k = Ok b ->
  signs script_step plain_env [] (fun _ _ => true) long_mac (fun _ _ _ => true) (fun _ b => b) default_negotiator i s ty k b.
Proof.
  unfold script_signs. intros H. destruct (Prop_Unforged.respond _ _ _ _ _ _ _ _ i s) as [s1 [r|]] eqn:R; [|discriminate H].
  destruct (needsSigning r) as [[]|] eqn:N; try discriminate H.
  destruct (sign_response _ _ _ _ _ r s1) as [s2 [r'|]] eqn:Sg; [|discriminate H]. cbv zeta in H.
  destruct (wire_value (toPostArgs (rs_fields r')) (u "signed")) as [signed|] eqn:W; [|discriminate H]. binv H.
  destruct (opt_eqb _ _ _) eqn:O in H; [|discriminate H]. injection H as ->. apply (opt_eqb_eq text_eqb text_eqb_eq) in O.
  exists s1, r, s2, r', signed. split; auto. split; auto. split; auto. cbv zeta. split; auto. split; auto. apply bytes_of_ok. auto.
Qed.
Lemma visit187_succeeds : exists ep, success_in plain_env [] long_mac (fun _ => None) [visit187 net187] rp187_log 0 (visit187 net187) ep /\ ep_server_url ep = Some op_url.
Proof.
  destruct (visit_done plain_env [] long_mac (fun _ => None) (visit187 net187) (answers_in 0 rp187_log)) as [[[ep m fields|?|?|?]|?]|] eqn:D.
  2,3,4,5,6: exfalso; assert (match visit_done plain_env [] long_mac (fun _ => None) (visit187 net187) (answers_in 0 rp187_log) with Some (Ok (Success _ _ _)) => true | _ => false end = true) as X by (vm_compute; reflexivity);
    rewrite D in X; discriminate X.
  assert (match visit_done plain_env [] long_mac (fun _ => None) (visit187 net187) (answers_in 0 rp187_log) with Some (Ok (Success ep _ _)) => ep_server_url ep | _ => None end = Some op_url) as X by (vm_compute; reflexivity).
  rewrite D in X. exists ep. split; auto. split; [reflexivity|]. split; [|eauto].
  split; [|split]; [split; intros; discriminate| |].
  - apply distinct_NoDup. vm_compute. reflexivity.
  - intros a I. vm_compute in I. intuition discriminate.
Qed.
Example C187_example :
  store_log rp187_log /\ obeys (visit_next plain_env [] long_mac (fun _ => None)) [visit187 net187] rp187_log /\
  (exists ep, success_in plain_env [] long_mac (fun _ => None) [visit187 net187] rp187_log 0 (visit187 net187) ep) /\
  store_log op_log /\ obeys next187 [signing; checking] op_log /\
  asserted plain_env [] (fun _ _ => true) [signing; checking] op_query.
Proof.
  assert (store_log rp187_log) as Sr.
  { apply by_sql; [apply sqlite_keyed|]. repeat (apply Forall_cons || apply Forall_nil); cbn [SqlAtomicFacts.label_ok sent_op]; auto.
    - split; [exists op_url; reflexivity|]. intros x E. injection E as <-. exists (a_handle op_assoc). reflexivity.
    - split; [exists op_url; reflexivity|exists (u "h1"); reflexivity].
    - split; [exists op_url; reflexivity|exists (u "salt42"); reflexivity]. }
  assert (obeys (visit_next plain_env [] long_mac (fun _ => None)) [visit187 net187] rp187_log) as Or.
  { let l := eval vm_compute in rp187_log in change (obeys (visit_next plain_env [] long_mac (fun _ => None)) [visit187 net187] l).
    cbn [obeys]. repeat match goal with |- _ /\ _ => split end; try exact I; intros v E; cbn [nth_error] in E; injection E as <-; vm_compute; reflexivity. }
  assert (obeys next187 [signing; checking] op_log) as Op.
  { let l := eval vm_compute in op_log in change (obeys next187 [signing; checking] l).
    cbn [obeys]. repeat match goal with |- _ /\ _ => split end; try exact I; intros v E; cbn [nth_error] in E; first [discriminate E|injection E as <-; vm_compute; reflexivity]. }
  destruct C184_example as (Sp & _). destruct visit187_succeeds as (ep & Su & Es).
  split; [exact Sr|]. split; [exact Or|]. split; [exists ep; exact Su|]. split; [exact Sp|]. split; [exact Op|].
  refine (C187_accepted_was_asserted plain_env [] (fun _ _ => true) long_mac (fun _ _ _ => true) (fun _ b => b) default_negotiator (fun _ => None)
    (fun ty k => ty = u "HMAC-SHA1" /\ k = secret0 20%N) [visit187 net187] rp187_log 0 (visit187 net187) ep [signing; checking] op_log Sr Or Su Sp Op _ _ _ _ _ _).
  - constructor; [|constructor; [|constructor]].
    + split; [apply distinct_NoDup; vm_compute; reflexivity|].
      intros r. destruct (addExtension r SREG_URI (u "sreg") [(u "nickname", u "me")]) as [r'|] eqn:A; [|constructor].
      eapply ext_more; [constructor| | | |exact A]; [vm_compute; discriminate|vm_compute; intuition discriminate|constructor; [intros []|constructor]].
    + apply distinct_NoDup. vm_compute. reflexivity.
  - intros X. vm_compute in X. discriminate X.
  - intros server k t a _ H.
    assert (forallb (fun ev => match ev with FileSys.Began _ _ (StoreA _ _) => false | _ => true end) rp187_log = true) as D by (vm_compute; reflexivity).
    rewrite forallb_forall in D. apply D in H. discriminate H.
  - intros k t a H.
    assert (forallb (fun ev => match ev with FileSys.Began _ _ (StoreA _ a) => text_eqb (a_type a) (u "HMAC-SHA1") && text_eqb (a_secret a) (secret0 20%N) | _ => true end) op_log = true) as D by (vm_compute; reflexivity).
    rewrite forallb_forall in D. apply D in H. apply andb_true_iff in H as (X & Y). split; apply text_eqb_eq; assumption.
  - intros server body r _ H. cbn [v_net visit187] in H. unfold net187 in H. destruct (text_eqb body question) eqn:E; [|discriminate H]. apply text_eqb_eq in E. subst body.
    unfold reply187 in H. destruct (snd (with187 checking (answers_in 1 op_log))) as [[code [h|] [t|?]]|] eqn:W; try discriminate H.
    destruct (encode t) as [b|] eqn:Eb; [|discriminate H]. injection H as <-. exists 1%nat, op_url, 1, 1700000004, secret0, [1]%N, t, b.
    split; [reflexivity|]. split; [exact W|]. split; [exact Eb|reflexivity].
  - intros a signed sig (Ht & Hk) Ws _ _. rewrite Ht, Hk. clear a Ht Hk. cbn [v_query visit187] in *.
    assert (match wire_value op_query (u "signed") with
            | Some s => match bytes_of op_query s, script_signs signing (mkScript (answers_in 0 op_log) []) (u "HMAC-SHA1") (secret0 20%N) with Ok b, Ok b' => text_eqb b b' | _, _ => false end
            | None => false end = true) as X by (vm_compute; reflexivity).
    rewrite Ws in X. destruct (bytes_of op_query signed) as [b|] eqn:B; [|discriminate X].
    destruct (script_signs signing (mkScript (answers_in 0 op_log) []) (u "HMAC-SHA1") (secret0 20%N)) as [b'|] eqn:B'; [|discriminate X]. apply text_eqb_eq in X. subst b'.
    exists b. split; [apply bytes_of_ok; exact B|]. exists 0%nat, signing. split; [reflexivity|]. apply script_signs_ok. exact B'.
Qed.
