(** C58 with the page in between: what the consumer receives when the browser submits the
    provider's page. *)
From Coq Require Import Permutation.
From Verif Require Import Py PyFacts Utf8 UrlLib Message Server Store Html HtmlSpec HtmlFacts Prop_Html Prop_HtmlSent Prop_TrustRoot Prop_ServerDecode Prop_ServerAnswer Prop_ServerEncode Prop_EndToEnd.
Import Py Store.
Open Scope N_scope.
Local Arguments u : simpl never.

Section Page.
  Context {S : Type} (step : S -> Z -> op -> S * out).
  Variable hmac : text -> bytes -> bytes -> bytes.
  Theorem C58_received_by_page :
    forall e now secret uniq r s s' w f page action body place query,
      encodeResponse hmac step now secret uniq r s = (s', Ok w) -> w_body w = BForm f -> form_page f = Ok page ->
      (* the browser submits the page, and the consumer sees the query of the URL and the body *)
      submission page = Some (action, body) -> urlsplit e action = Ok place ->
      Permutation (parse_qsl true (sp_query place) ++ parse_qsl true body) query ->
      (forall n v, In (n, v) (submits f) -> n <> [] /\ lower n <> u "_charset_" /\ one_line n /\ one_line v) ->
      received e query w.
  Proof using.
    intros e now secret uniq r s s' w f page action body place query E B P Su U Q O.
    assert (exists r', encode_response r' = Ok w) as (r' & E').
    { unfold encodeResponse, sbind, sret in E. destruct (needsSigning r) as [[]|]; [| |discriminate].
      - destruct (hasKey (rs_fields r) OPENID_NS (u "sig")) as [[]|]; [discriminate| |discriminate].
        destruct (sign_response hmac step now secret uniq r s) as [s2 [r2|]]; [|discriminate]. injection E as _ E. eauto.
      - injection E as _ E. eauto. }
    unfold encode_response in E'. binv E'. destruct a.
    - binv E'. injection E' as <-. discriminate.
    - binv E'. injection E' as <-. discriminate.
    - binv E'. injection E' as <-. cbn [w_body] in B. injection B as ->. unfold response_toHTML in E1. binv E1. destruct a as [t|]; [|discriminate]. injection E1 as <-.
      pose proof (form_posts (rs_fields r') t [] (u "Continue")) as FP. rewrite (pt_fields _ _ _ FP) in O.
      destruct (C149_exact (rs_fields r') t [] page (proj1 no_attrs) (proj2 no_attrs) P O) as (body' & S1 & S2).
      rewrite Su in S1. injection S1 as -> ->. apply (at_form e query 200 _ t place); [apply (pt_action _ _ _ FP)|exact U|].
      rewrite (pt_fields _ _ _ FP), <- S2. exact Q.
  Qed.
End Page.
Print Assumptions C58_received_by_page.
(** The refusal of [long_query], received through its page. *)
Definition refusal : response :=
  match decoded_id (long_query (u "http://rp.example/?x=1&y=") 2100) with
  | Some c => match CheckID_answer plain_env c false None None None 1700000000%Z (u "s") with Ok r => r | Raise _ => mkResponse (RCheckID c) empty_msg end
  | None => mkResponse (RCheckID (mkCheckID empty_msg false None None None None None None)) empty_msg
  end.
Example C58_received_by_page_example :
  exists f page body,
    encodeResponse (fun _ _ _ => []) mem_step 1700000000%Z (fun _ => []) [] refusal mem_init = (mem_init, Ok (mkWeb 200 None (BForm f))) /\
    form_page f = Ok page /\ submission page = Some (u "http://rp.example/?x=1&y=" ++ repeat 97 2100, body) /\
    received plain_env ([(u "openid.mode", u "cancel"); (u "x", u "1"); (u "openid.ns", OPENID2_NS); (u "y", repeat 97 2100)]) (mkWeb 200 None (BForm f)).
Proof.
  set (w := snd (encodeResponse (fun _ _ _ => []) mem_step 1700000000%Z (fun _ => []) [] refusal mem_init)).
  set (f := form_of w). set (page := written (form_page f)). exists f, page, (body_of (submission page)).
  assert (encodeResponse (fun _ _ _ => []) mem_step 1700000000%Z (fun _ => []) [] refusal mem_init = (mem_init, Ok (mkWeb 200 None (BForm f)))) as E by (vm_compute; reflexivity).
  assert (form_page f = Ok page) as P by (vm_compute; reflexivity).
  assert (submission page = Some (u "http://rp.example/?x=1&y=" ++ repeat 97 2100, body_of (submission page))) as Q by (vm_compute; reflexivity).
  split; [exact E|]. split; [exact P|]. split; [exact Q|].
  eapply (C58_received_by_page mem_step _ plain_env _ _ _ _ _ _ _ f page _ _ (mkSplit (u "http") (u "rp.example") (u "/") (u "x=1&y=" ++ repeat 97 2100) [])); [exact E|reflexivity|exact P|exact Q|vm_compute; reflexivity| |].
  - assert (parse_qsl true (body_of (submission page)) = [(u "openid.ns", OPENID2_NS); (u "openid.mode", u "cancel")]) as -> by (vm_compute; reflexivity).
    assert (parse_qsl true (sp_query (mkSplit (u "http") (u "rp.example") (u "/") (u "x=1&y=" ++ repeat 97 2100) [])) = [(u "x", u "1"); (u "y", repeat 97 2100)]) as -> by (vm_compute; reflexivity).
    cbn [app]. generalize (u "x", u "1") (u "y", repeat 97 2100) (u "openid.ns", OPENID2_NS) (u "openid.mode", u "cancel"). intros a b c d.
    apply Permutation_sym. change [a; b; c; d] with ([a; b; c] ++ [d]). apply Permutation_cons_app. rewrite app_nil_r. apply perm_skip. apply perm_swap.
  - assert (submits f = [(u "openid.ns", OPENID2_NS); (u "openid.mode", u "cancel")]) as -> by (vm_compute; reflexivity).
    intros n v [I|[I|[]]]; injection I as <- <-; (split; [discriminate|split; [discriminate|split; split; apply memc_false; reflexivity]]).
Qed.
