(** C191: a whole login with a shared association, through the processes of a provider and the processes of a consumer. *)
From Coq Require Import Permutation Lia ZifyBool ZifyN ZifyNat.
From Verif Require Import Py PyFacts Utf8 KVForm CryptUtil DH Message MessageFacts MessageWire MessageParse MessageSpec MessageRound MessageSimple Prop_Message.
From Verif Require Import FileStore FileSys FileAtomic Prop_FileNames Prop_FileAtomic SqlTxn SqlConc SqlAtomicFacts Prop_SqlAtomic DeployStores Deploy DeployFacts.
From Verif Require Import Association AssociationFacts Prop_Association UrlLib UriNorm Nonce Store StoreSpec StoreFacts Server ServerFacts SignatoryFacts Prop_ServerDecode Prop_ServerAnswer ServerStores Prop_StoreMem Prop_Signatory Prop_EndToEnd.
From Verif Require Prop_Unforged Prop_Uri.
From Verif Require Import Conc ConcFacts ServerConc ServerConcFacts Prop_ServerConc Endpoint Consumer Prop_Consumer Prop_ConsumerOnce Prop_ConsumerAccepts ConsumerConc Prop_DeployOP Prop_DeployRP Prop_DeployBoth Prop_DeployFinds Prop_DeployAccepts.
Import Py Store Server ServerConc.
Open Scope Z_scope.
Local Arguments u : simpl never.

Section Login.
  Variable e : uenv.
  Variable reg : dict text text.
  Variable hmac : text -> bytes -> bytes -> bytes.
  (* the provider *)
  Variable params_ok : Z -> Z -> bool.
  Variable pub_ok : Z -> Z -> Z -> bool.
  Variable hash : hash_alg -> bytes -> bytes.
  Variable jobs : list job.
  Notation next_call := (next_call hmac pub_ok hash).
  Notation finished := (finished hmac pub_ok hash).
  (* the consumer *)
  Variable udigit : N -> option Z.
  Variable visits : list visit.
  Notation visit_next := (visit_next e reg hmac udigit).
  Notation visit_done := (visit_done e reg hmac udigit).

  (** What is signed with an association is what a provider in one process signs, with that association in memory. *)
  Lemma signed_in_memory now secret uniq r c a outs w m : rs_request r = RCheckID c -> ci_assoc_handle c = Some (a_handle a) -> a_handle a <> [] ->
    field_is r (u "mode") (Some (u "id_res")) -> now < a_issued a + a_lifetime a ->
    finished (JSign now secret uniq r) outs = Some (Ok (AWeb w)) ->
    signMessage hmac a (rs_fields r) = Ok m -> encode_response (mkResponse (RCheckID c) m) = Ok w ->
    exists s', encodeResponse hmac mem_step now secret uniq r (after mem_step mem_init [(now, StoreA normal_key a)]) = (s', Ok w).
  Proof using hash hmac params_ok pub_ok.
    intros Q Eh Ne M Fr Fi Sm En.
    assert (needsSigning r = Ok true) as Nd. { unfold needsSigning. rewrite M. cbn [bind opt_eqb]. rewrite text_eqb_refl. auto. }
    assert (hasKey (rs_fields r) OPENID_NS (u "sig") = Ok false) as Hk.
    { apply finished_result in Fi. unfold ServerConc.with_answers, ServerConc.run_job in Fi. destruct (encodeResponse hmac script_step now secret uniq r (mkScript outs [])) as (s & [w'|y]) eqn:E; [|discriminate].
      unfold encodeResponse in E. apply sbind_Ok in E as (n & s1 & E1 & E). apply sret_Ok in E1 as (-> & E1). rewrite Nd in E1. inv E1.
      apply sbind_Ok in E as (r2 & s2 & E2 & _). apply sbind_Ok in E2 as (hs & s3 & E3 & E2). apply sret_Ok in E3 as (-> & E3). destruct hs; [discriminate|auto]. }
    assert (ready (fun _ => True) now [(now, StoreA normal_key a)]) as R. { split; [cbn; split; [lia|auto]|]. constructor; auto. }
    destruct (store_get_spec mem_step mem_init (fun _ => True) keeps_memory now [(now, StoreA normal_key a)] normal_key (a_handle a) R Logic.I) as (o & G & Go & _).
    cbn [stored] in Go. rewrite !text_eqb_refl in Go. cbn [andb] in Go.
    assert (good_at now (Some a) = Some a) as Ga. { cbn. destruct (now <? a_issued a + a_lifetime a) eqn:X; auto. lia. }
    rewrite Ga in Go. assert (o = Some a) as ->. { destruct o as [b|]; [|discriminate]. cbn in Go. destruct (now <? _); [auto|discriminate]. }
    assert (run_out a now = false) as Ro by (apply run_out_false; auto).
    unfold encodeResponse, sbind, sret. rewrite Nd, Hk. unfold sign_response, sbind, sret. rewrite Q. cbn [request_assoc_handle]. rewrite Eh.
    assert (truthy (a_handle a) = true) as -> by (apply truthy_true; auto). unfold getAssociation, sbind, sret. cbn [key_of]. rewrite G.
    rewrite Ro. cbn [andb]. rewrite Ro. cbn [fst snd]. rewrite Sm, Q. rewrite En. eauto.
  Qed.

  (** C191: somebody asks to log in, naming an association; the provider's application says yes,
      and one of its processes signs the answer; the browser takes it to the consumer, one of whose
      processes completes the login.  Both sides have stored the association before these processes begin
      (provider: [lp ++ .. np1], consumer: [lc ++ .. nc1]), nobody else stores or removes anything under its handle, and it has not
      run out; the nonce is used by this visit alone, once, and in time; the consumer's store calls do not
      fail.  Then the login succeeds, and the whole of the response is signed. *)
  Theorem C191_login :
    forall request ep x c server_url identity claimed t salt r now secret uniq w hd a
           lp np2 ip tp xp np1 j
           query rto args ep0 ep' server nserver ts nsalt a'
           lc nc2 ic tc xc nc1 i v rr,
    let oplog := lp ++ np2 ++ Ended ip tp (StoreA normal_key a) xp :: np1 in
    let rplog := lc ++ nc2 ++ Ended ic tc (StoreA server a') xc :: nc1 in
      mac_bytes hmac -> good_registry reg -> NoDup (map fst request) ->
      (* the request and the answer *)
      Server.decode e reg params_ok request ep x = DOk (Some (RCheckID c)) ->
      CheckID_answer e c true server_url identity claimed t salt = Ok r ->
      wire_value request (u "assoc_handle") = Some hd -> hd <> [] -> a_handle a = hd -> known_type (a_type a) ->
      (* the process of the provider *)
      store_log oplog -> obeys next_call jobs oplog -> nth_error jobs j = Some (JSign now secret uniq r) ->
      (forall y, xp <> Err y) -> running (np2 ++ Ended ip tp (StoreA normal_key a) xp :: np1) j = None -> answers_in j (np2 ++ Ended ip tp (StoreA normal_key a) xp :: np1) = [] ->
      (forall k t o, In (Began k t o) np1 -> touches normal_key hd o = true -> k = ip /\ o = StoreA normal_key a) ->
      (forall k t o, In (Began k t o) (lp ++ np2) -> touches normal_key hd o = true -> k = j) ->
      (forall t o, In (Ended j t (GetA normal_key (Some hd)) o) oplog -> t < a_issued a + a_lifetime a) -> now < a_issued a + a_lifetime a ->
      finished (JSign now secret uniq r) (answers_in j oplog) = Some (Ok (AWeb w)) ->
      (* the browser *)
      wire_value request (u "return_to") = Some rto -> clean_return e rto args -> received e query w -> NoDup (map fst query) ->
      (* the process of the consumer *)
      v_query v = query -> same_page e (v_url v) rto ->
      expected (v_discover v) e request ep server_url identity claimed args (v_session v) ep0 ep' server ->
      with_nonce (asks_v2 request) t salt args server nserver ts nsalt ->
      a_handle a' = hd -> a_type a' = a_type a -> a_secret a' = a_secret a -> v_now v < a_issued a' + a_lifetime a' ->
      store_log rplog -> obeys visit_next visits rplog -> nth_error visits i = Some v ->
      (forall y, xc <> Err y) -> running (nc2 ++ Ended ic tc (StoreA server a') xc :: nc1) i = None -> answers_in i (nc2 ++ Ended ic tc (StoreA server a') xc :: nc1) = [] ->
      (forall k t o, In (Began k t o) nc1 -> touches server hd o = true -> k = ic /\ o = StoreA server a') ->
      (forall k t o, In (Began k t o) (lc ++ nc2) -> touches server hd o = false) ->
      (forall t o, In (Ended i t (GetA server (Some hd)) o) rplog -> t < a_issued a' + a_lifetime a') ->
      single nserver ts nsalt i rplog -> (forall t o, In (Ended i t (UseN nserver ts nsalt) o) rplog -> t <= ts + 18000) ->
      (forall t o y, ~ In (Ended i t o (Err y)) rplog) ->
      visit_done v (answers_in i rplog) = Some rr ->
      exists m signed, fromPostArgs reg query = Ok m /\ rr = Ok (Success ep' m (map (fun k => u "openid." ++ k) signed)) /\
        forall k, In k signed <-> wire_value query k <> None /\ k <> u "sig".
  Proof using.
    intros request ep x c server_url identity claimed t salt r now secret uniq w hd a lp np2 ip tp xp np1 j query rto args ep0 ep' server nserver ts nsalt a' lc nc2 ic tc xc nc1 i v rr oplog rplog
      Mb Rg Hn D A Hh Nh Eh Ty SLp Op Njp Nxp Rup Aip Bep Afp Frp Fn Fi Hr Cl Rc Hq Vq Sp Ex Wn Eh' Ty' Sc' Lt SLc Oc Nv Nxc Ric Aic Bec Afc Frc Si Nt Ok1 Dn.
    subst hd.
    destruct (answer_simple e reg params_ok request ep x c server_url identity claimed t salt r Hn D A) as (oid & kvs & Q & Sm0 & Ov).
    pose proof (decoded_ok e reg params_ok request ep x c Hn D) as De. pose proof (de_handle _ _ _ _ De) as Dh. rewrite Hh in Dh.
    assert (field_is r (u "mode") (Some (u "id_res"))) as M.
    { destruct (proj1 (C36_positive_answer e reg params_ok request ep x c server_url identity claimed t salt Hn D (toPostArgs (rs_fields r)))) as (rt & ids & An & Hr' & Ma & Se).
      { exists r. split; [exact A|]. split; auto. }
      fold (base_params rt (mkNonce t salt) (endpoint_param server_url ep) ids) in Se.
      assert (kvs = base_params rt (mkNonce t salt) (endpoint_param server_url ep) ids) as ->.
      { rewrite (si_post _ _ _ _ Sm0) in Se. unfold ns_param in Se. rewrite Ov in Se. apply app_inv_head in Se. apply on_wire_inj. auto. }
      unfold field_is. rewrite (simple_get _ _ _ _ _ Sm0). reflexivity. }
    destruct (C189_signed hmac pub_ok hash jobs lp np2 ip tp a xp np1 j now secret uniq r c w) as (m0 & Sm & En); auto.
    destruct (signed_in_memory now secret uniq r c a _ w m0 Q Dh Nh M Fn Fi Sm En) as (s' & Em).
    assert (ready (fun _ => True) now [(now, StoreA normal_key a)]) as R. { split; [cbn; split; [lia|auto]|]. constructor; auto. }
    assert (good_at now (stored normal_key (a_handle a) [(now, StoreA normal_key a)]) = Some a) as Ga.
    { cbn [stored]. rewrite !text_eqb_refl. cbn [andb good_at]. destruct (now <? a_issued a + a_lifetime a) eqn:X; auto. lia. }
    set (known := well server (a_handle a) a' nserver ts nsalt).
    assert (known (UseN nserver ts nsalt) = Some (Flag true)) as Kn by (unfold known; cbn [well]; rewrite !text_eqb_refl, Z.eqb_refl; reflexivity).
    destruct (C58_shared_association mem_step mem_init (fun _ => True) keeps_memory params_ok (mstep known) udigit (v_net v) (v_discover v) e reg hmac
      request ep x c server_url identity claimed t salt r now secret uniq [(now, StoreA normal_key a)] s' w (a_handle a) a query rto (v_url v) args (v_session v) ep0 ep' server nserver ts nsalt (v_now v)
      (mkCst (Some (answers_in i rplog)) []) (answers_in i rplog) (tl (answers_in i rplog)) a') as (m & signed & cs' & F & Co & Sg); auto.
    - intros k y b X. cbn [stored] in X. destruct (_ && _); [|discriminate]. injection X as <-. auto.
    - split; exact Logic.I.
    - unfold mstep, known, well. rewrite !text_eqb_refl. reflexivity.
    - intros os _. split; [|intros ? ? []]. eexists. unfold mstep at 1. rewrite Kn. reflexivity.
    - exists m, signed. split; auto. split; auto.
      destruct (done_on e reg hmac udigit known v m (answers_in i rplog) rr) as (c' & C); [rewrite Vq; auto|auto| |].
      + unfold known. rewrite <- Eh' in *. apply (answers_well e reg hmac udigit visits lc nc2 ic tc a' xc nc1 i v server nserver ts nsalt); auto.
      + rewrite Co in C. congruence.
  Qed.
End Login.
Print Assumptions C191_login.

(** The login of C58_example that names a shared association, in processes; both sides keep it in SQLite: all premises hold. *)
Definition op191_run : list SqlConc.label :=
  [SqlConc.Call 1 (StoreA normal_key shared_key)] ++ whole_call 1 ++ [SqlConc.Call 0 (GetA normal_key (Some (u "h1")))] ++ whole_call 0.
Definition op191_log : list FileSys.event := trace sqlite [0; 1]%nat (SqlConc.sys_init 1700000000) op191_run [].
Definition job191 : job := JSign 1700000000 secret0 [9; 8; 7; 6]%N the_login.
Definition query191 : dict text text :=
  match finished long_mac no_keys no_hash job191 (answers_in 0 op191_log) with
  | Some (Ok (AWeb w)) => arrived (mem_init, Ok w) | _ => [] end.
Definition visit191 : visit := mkVisit 1700000005 query191 (Some demo_endpoint) back_url (fun _ => None) (fun _ => Raise DiscoveryFailure).
Definition rp191_run : list SqlConc.label :=
  [SqlConc.Call 1 (StoreA op_url shared_key)] ++ whole_call 1 ++ [SqlConc.Call 0 (GetA op_url (Some (u "h1")))] ++ whole_call 0 ++
  [SqlConc.Call 0 (UseN op_url 1700000000 (u "salt42"))] ++ whole_call 0.
Definition rp191_log : list FileSys.event := trace sqlite [0; 1]%nat (SqlConc.sys_init 1700000005) rp191_run [].
Definition op191_new : list FileSys.event :=
  [FileSys.Ended 0 1700000000 (GetA normal_key (Some (u "h1"))) (Got (Some shared_key)); FileSys.Began 0 1700000000 (GetA normal_key (Some (u "h1")))].
Definition rp191_new : list FileSys.event :=
  [FileSys.Ended 0 1700000005 (UseN op_url 1700000000 (u "salt42")) (Flag true); FileSys.Began 0 1700000005 (UseN op_url 1700000000 (u "salt42"));
   FileSys.Ended 0 1700000005 (GetA op_url (Some (u "h1"))) (Got (Some shared_key)); FileSys.Began 0 1700000005 (GetA op_url (Some (u "h1")))].
Example C191_example :
  exists m signed, fromPostArgs [] query191 = Ok m /\
    visit_done Prop_Uri.plain_env [] long_mac (fun _ => None) visit191 (answers_in 0 rp191_log) =
      Some (Ok (Success (with_claimed_id demo_endpoint (Some (u "http://me.example/"))) m (map (fun k => u "openid." ++ k) signed))) /\
    forall k, In k signed <-> wire_value query191 k <> None /\ k <> u "sig".
Proof.
  assert (op191_log = op191_new ++ [] ++ FileSys.Ended 1 1700000000 (StoreA normal_key shared_key) Done :: [FileSys.Began 1 1700000000 (StoreA normal_key shared_key)]) as El by (vm_compute; reflexivity).
  assert (rp191_log = rp191_new ++ [] ++ FileSys.Ended 1 1700000005 (StoreA op_url shared_key) Done :: [FileSys.Began 1 1700000005 (StoreA op_url shared_key)]) as Er by (vm_compute; reflexivity).
  assert (store_log op191_log) as So.
  { apply by_sql; [apply sqlite_keyed|]. repeat (apply Forall_cons || apply Forall_nil); cbn [SqlAtomicFacts.label_ok sent_op]; auto.
    - split; [eexists; reflexivity|]. split; [exists (u "h1"); reflexivity|left; reflexivity].
    - split; [eexists; reflexivity|]. intros x E. injection E as <-. exists (u "h1"). reflexivity. }
  assert (store_log rp191_log) as Sr.
  { apply by_sql; [apply sqlite_keyed|]. repeat (apply Forall_cons || apply Forall_nil); cbn [SqlAtomicFacts.label_ok sent_op]; auto.
    - split; [exists op_url; reflexivity|]. split; [exists (u "h1"); reflexivity|left; reflexivity].
    - split; [exists op_url; reflexivity|]. intros x E. injection E as <-. exists (u "h1"). reflexivity.
    - split; [exists op_url; reflexivity|exists (u "salt42"); reflexivity]. }
  assert (obeys (next_call long_mac no_keys no_hash) [job191] op191_log) as Oo.
  { let l := eval vm_compute in op191_log in change (obeys (next_call long_mac no_keys no_hash) [job191] l).
    cbn [obeys]. repeat match goal with |- _ /\ _ => split end; try exact I; intros v E; cbn [nth_error] in E; first [discriminate E|injection E as <-; vm_compute; reflexivity]. }
  assert (obeys (visit_next Prop_Uri.plain_env [] long_mac (fun _ => None)) [visit191] rp191_log) as Or.
  { let l := eval vm_compute in rp191_log in change (obeys (visit_next Prop_Uri.plain_env [] long_mac (fun _ => None)) [visit191] l).
    cbn [obeys]. repeat match goal with |- _ /\ _ => split end; try exact I; intros v E; cbn [nth_error] in E; first [discriminate E|injection E as <-; vm_compute; reflexivity]. }
  assert (match finished long_mac no_keys no_hash job191 (answers_in 0 op191_log) with
          | Some (Ok (AWeb (mkWeb _ (Some url) _))) => match urlsplit Prop_Uri.plain_env url with Ok sp => parse_qsl true (sp_query sp) = query191 | _ => False end
          | _ => False end) as W by (vm_compute; reflexivity).
  destruct (finished long_mac no_keys no_hash job191 (answers_in 0 op191_log)) as [[[?|[code [url|] body]]|?]|] eqn:Fi. 1,3,4,5: destruct W.
  destruct (urlsplit Prop_Uri.plain_env url) as [sp|?] eqn:Us; [|destruct W].
  assert (match visit_done Prop_Uri.plain_env [] long_mac (fun _ => None) visit191 (answers_in 0 rp191_log) with Some _ => true | None => false end = true) as V by (vm_compute; reflexivity).
  destruct (visit_done Prop_Uri.plain_env [] long_mac (fun _ => None) visit191 (answers_in 0 rp191_log)) as [rr|] eqn:Vd; [|discriminate V].
  destruct C58_example as (_ & _ & _ & _ & _ & Cl & Sp & Ex).
  assert (match decode Prop_Uri.plain_env [] (fun _ _ => true) login_query op_url 1 with DOk (Some (RCheckID c)) => CheckID_answer Prop_Uri.plain_env c true None None None 1700000000 (u "salt42") = Ok the_login | _ => False end) as D by (vm_compute; reflexivity).
  destruct (decode Prop_Uri.plain_env [] (fun _ _ => true) login_query op_url 1) as [q| |] eqn:De. 2,3: destruct D. destruct q as [[c|?|?]|]. 2,3,4: destruct D.
  rewrite El in So, Oo, Fi. rewrite Er in Sr, Or, Vd.
  destruct (C191_login Prop_Uri.plain_env [] long_mac (fun _ _ => true) no_keys no_hash [job191] (fun _ => None) [visit191]
    login_query op_url 1 c None None None 1700000000 (u "salt42") the_login 1700000000 secret0 [9; 8; 7; 6]%N (mkWeb code (Some url) body) (u "h1") shared_key
    op191_new [] 1 1700000000 Done [FileSys.Began 1 1700000000 (StoreA normal_key shared_key)] 0
    query191 back_url [(u "x", u "1")] demo_endpoint (with_claimed_id demo_endpoint (Some (u "http://me.example/"))) op_url op_url 1700000000 (u "salt42") shared_key
    rp191_new [] 1 1700000005 Done [FileSys.Began 1 1700000005 (StoreA op_url shared_key)] 0 visit191 rr) as (m & signed & F & R & Sg).
  - intros t k b. unfold long_mac. split; [intros X; apply app_eq_nil in X as (_ & X); discriminate X|]. apply Forall_app. split.
    + apply Forall_forall. intros x X. assert (In x (rev (map (fun x => x mod 256)%N b))) as Y. { rewrite <- (firstn_skipn 2 (rev _)). apply in_or_app. auto. }
      apply in_rev, in_map_iff in Y as (y & <- & _). unfold CryptUtilFacts.isbyte. apply N.mod_lt. discriminate.
    + constructor; [|constructor]. unfold CryptUtilFacts.isbyte. apply N.mod_lt. discriminate.
  - split; [intros a X; discriminate X|intros a b n X; discriminate X].
  - apply Prop_Unforged.distinct_NoDup. vm_compute. reflexivity.
  - exact De.
  - exact D.
  - reflexivity.
  - discriminate.
  - reflexivity.
  - left. reflexivity.
  - exact So.
  - exact Oo.
  - reflexivity.
  - discriminate.
  - reflexivity.
  - reflexivity.
  - intros k t o [X|[]] _. injection X as <- <- <-. split; reflexivity.
  - intros k t o X _. rewrite app_nil_r in X. destruct X as [X|[X|[]]]; [discriminate X|]. injection X as <- _ _. reflexivity.
  - intros t o X. destruct X as [X|[X|[X|[X|[]]]]]; try discriminate X. injection X as <- _. reflexivity.
  - reflexivity.
  - exact Fi.
  - reflexivity.
  - exact Cl.
  - eapply at_url; [exact Us|]. rewrite W. apply Permutation.Permutation_refl.
  - apply Prop_Unforged.distinct_NoDup. vm_compute. reflexivity.
  - reflexivity.
  - exact Sp.
  - exact Ex.
  - split; [split; vm_compute; discriminate|]. assert (asks_v2 login_query = true) as -> by (vm_compute; reflexivity). split; [reflexivity|split; reflexivity].
  - reflexivity.
  - reflexivity.
  - reflexivity.
  - reflexivity.
  - exact Sr.
  - exact Or.
  - reflexivity.
  - discriminate.
  - reflexivity.
  - reflexivity.
  - intros k t o [X|[]] _. injection X as <- <- <-. split; reflexivity.
  - intros k t o X. rewrite app_nil_r in X. destruct X as [X|[X|[X|[X|[]]]]]; try discriminate X; injection X as _ _ <-; reflexivity.
  - intros t o X. destruct X as [X|[X|[X|[X|[X|[X|[]]]]]]]; try discriminate X. injection X as <- _. reflexivity.
  - intros p2 k t p1 E. unfold rp191_new in E. cbn [app] in E.
    repeat match type of E with
    | [] = _ => exfalso; destruct p2; discriminate E
    | _ => let E1 := fresh "E1" in let y := fresh "y" in let p2' := fresh "p2" in destruct p2 as [|y p2']; cbn [app] in E; apply cons_eq in E as (E1 & E);
           [first [discriminate E1|injection E1 as <- <-; subst p1; split; [reflexivity|]; split; [lia|]; intros k' t' I; cbn [In] in I; intuition discriminate]|clear E1; rename p2' into p2]
    end.
  - intros t o X. destruct X as [X|[X|[X|[X|[X|[X|[]]]]]]]; try discriminate X. injection X as <- _. lia.
  - intros t o y X. destruct X as [X|[X|[X|[X|[X|[X|[]]]]]]]; discriminate X.
  - exact Vd.
  - exists m, signed. split; [exact F|]. split; [rewrite R; reflexivity|exact Sg].
Qed.
