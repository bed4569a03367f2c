(** Pages the provider and the consumer make: where their forms go and what they carry. *)
From Coq Require Import Lia.
From Verif Require Import Py PyFacts Utf8 UrlLib UriNorm UriNormStable TrustRoot Message MessageParse MessageSpec MessageSimple Prop_Association MessageRound Endpoint Server Consumer ServerFacts.
From Verif Require Import Html HtmlSpec HtmlFacts Prop_Html Prop_TrustRoot Prop_ServerDecode Prop_ServerAnswer Prop_ServerEncode.
Import Py.
Open Scope N_scope.
Local Arguments u : simpl never.

(** ** C155: pages of the library go where they should *)
Lemma no_attrs : NoDup (map fst (@nil (text * text))) /\ lower_names [].
Proof. split; [constructor|intros k v []]. Qed.
Theorem C155_response_page :
  forall r w f page, encode_response r = Ok w -> w_body w = BForm f -> form_page f = Ok page ->
    exists c target body, rs_request r = RCheckID c /\ ci_return_to c = Some target /\
      submission page = Some (target, body) /\ parse_qsl true body = flat_map sent (toPostArgs (rs_fields r)).
Proof.
  intros r w f page H B P. unfold encode_response in H. binv H. destruct a.
  - binv H. injection H as <-. discriminate.
  - binv H. injection H as <-. discriminate.
  - binv H. injection H as <-. cbn [w_body] in B. injection B as ->. unfold response_toHTML in E0. binv E0.
    unfold request_return_to in E1. destruct (rs_request r) as [c| |] eqn:R; try discriminate. injection E1 as <-.
    destruct (ci_return_to c) as [t|] eqn:T; [|discriminate]. injection E0 as <-.
    destruct (C149_posted (rs_fields r) t [] page (proj1 no_attrs) (proj2 no_attrs) P) as (body & S & Q). exists c, t, body. auto.
Qed.
Print Assumptions C155_response_page.
(** The return URL of a request the provider took is a web address. *)
Theorem C155_response_page_web :
  forall e reg params_ok query ep x c r w f page, NoDup (map fst query) -> decode e reg params_ok query ep x = DOk (Some (RCheckID c)) ->
    rs_request r = RCheckID c -> encode_response r = Ok w -> w_body w = BForm f -> form_page f = Ok page ->
    exists target body s, submission page = Some (target, body) /\ wire_value query (u "return_to") = Some target /\
      urlsplit e target = Ok s /\ (lower (sp_scheme s) = u "http" \/ lower (sp_scheme s) = u "https") /\ sp_netloc s <> [].
Proof.
  intros e reg params_ok query ep x c r w f page N D R H B P.
  destruct (C155_response_page r w f page H B P) as (c' & t & body & R' & T & S & _). assert (c' = c) as -> by congruence.
  destruct (C33_decode_sound e reg params_ok query ep x c N D) as (_ & _ & _ & _ & E & _ & _ & _ & W & _).
  rewrite T in E. symmetry in E. destruct (W t E) as ((tr & Pr) & _). unfold parse in Pr. binv Pr. unfold parseURL in E0.
  destruct (urinorm e t) as [z|z] eqn:U; [|destruct (isValueError z); [injection E0 as <-; discriminate|discriminate]].
  destruct (urinorm_inv _ _ _ U) as (s' & scheme & netloc & path & q & fr & Es & -> & Sc & Ne & _).
  exists t, body, s'. auto 6.
Qed.
Print Assumptions C155_response_page_web.
(** Errors go to the return URL that came with the request, whatever it is. *)
Theorem C155_error_page :
  forall reg query m oid cls txt w f page, NoDup (map fst query) -> fromPostArgs reg query = Ok m -> getOpenIDNamespace m = Some oid ->
    encode_error (mkPError cls (Some m) txt) = Ok w -> w_body w = BForm f -> form_page f = Ok page ->
    exists target body, wire_value query (u "return_to") = Some target /\ submission page = Some (target, body) /\
      parse_qsl true body = flat_map sent (ns_param oid ++ on_wire (error_fields txt)).
Proof.
  intros reg query m oid cls txt w f page Hn F V H B P.
  destruct (fromPostArgs_ver _ _ _ F Hn) as (V' & A). assert (oid = oid_of (openid_part query)) as EO by congruence. rewrite <- EO in A. clear EO V'.
  unfold encode_error in H. binv H. destruct a as [[]|].
  - binv H. binv H. injection H as <-. discriminate.
  - binv H. injection H as <-. discriminate.
  - binv H. binv H. destruct a0 as [t|]; [|discriminate]. injection H as <-. cbn [w_body] in B. injection B as <-.
    unfold Server.getReturnTo in E1. cbn [pe_message] in E1. rewrite (field_of reg query m (u "return_to") Hn F) in E1 by simple_key. injection E1 as E1.
    destruct (C149_posted a t [] page (proj1 no_attrs) (proj2 no_attrs) P) as (body & S & Q). exists t, body. split; auto. split; auto.
    rewrite Q. f_equal. unfold error_toMessage in E0. cbn [pe_message pe_text] in E0. rewrite V in E0.
    destruct (simple_new reg oid A) as (m0 & N0 & S0). rewrite N0 in E0. cbn [bind] in E0.
    destruct (simple_set reg m0 oid [] (u "mode") (u "error") S0) as (m1 & N1 & S1); [intros []|discriminate|]. rewrite N1 in E0. cbn [bind] in E0.
    destruct (simple_set reg m1 oid _ (u "error") txt S1) as (m2 & N2 & S2); [intros [X|[]]; discriminate|discriminate|].
    rewrite N2 in E0. injection E0 as <-. apply S2.
  - discriminate.
Qed.
Print Assumptions C155_error_page.
(** The consumer's page goes to the provider's endpoint and carries the request. *)
Theorem C155_request_page :
  forall r realm return_to immediate attrs f page, NoDup (map fst attrs) -> lower_names attrs ->
    formMarkup r realm return_to immediate attrs = Ok f -> form_page f = Ok page ->
    exists m server body, getMessage r realm return_to immediate = Ok m /\ ep_server_url (ar_endpoint r) = Some server /\
      submission page = Some (server, body) /\ parse_qsl true body = flat_map sent (toPostArgs m).
Proof.
  intros r realm rt imm attrs f page N L H P. unfold formMarkup in H. binv H. destruct (ep_server_url (ar_endpoint r)) as [s|]; [|discriminate].
  injection H as <-. destruct (C149_posted a s attrs page N L P) as (body & S & Q). exists a, s, body. auto.
Qed.
Print Assumptions C155_request_page.

Definition long_query (scheme : text) (n : nat) : list (text * text) := with_return_to (scheme ++ repeat 97 n) login_query.
Definition form_of (r : res web) : form := match r with Ok (mkWeb _ _ (BForm f)) => f | _ => mkForm [] [] end.
(** A refusal that goes to the relying party as a page. *)
Definition long_answer : res web := answers (long_query (u "http://rp.example/") 2100) false.
Definition long_page : text := written (form_page (form_of long_answer)).
Example C155_example :
  long_answer = Ok (mkWeb 200 None (BForm (form_of long_answer))) /\ form_page (form_of long_answer) = Ok long_page /\
  submission long_page = Some (u "http://rp.example/" ++ repeat 97 2100,
    u "openid.ns=http%3A%2F%2Fspecs.openid.net%2Fauth%2F2.0&openid.mode=cancel").
Proof. split; [|split]; vm_compute; reflexivity. Qed.

(** ** C156: an answer that is to be sent by form but cannot be written *)
Definition control_query : list (text * text) := long_query (u "http://rp.example/" ++ [1]) 2100.
Theorem C156_answer_can_be_written_refuted :
  exists query f, decoded_id query <> None /\ answers query false = Ok (mkWeb 200 None (BForm f)) /\ form_page f = Raise ValueError.
Proof.
  exists control_query, (form_of (answers control_query false)).
  split; [|split; vm_compute; reflexivity].
  intros H. assert (match decoded_id control_query with Some _ => true | None => false end = true) as X by (vm_compute; reflexivity).
  rewrite H in X. discriminate.
Qed.
Print Assumptions C156_answer_can_be_written_refuted.

(** ** C157: the page of an error may go to anything: here, a script *)
Definition script_query : list (text * text) := long_query (u "javascript:alert(document.cookie)//") 2100.
Definition script_error : perror := mkPError MalformedReturnURL (Some (made (fromPostArgs [] script_query))) (u "bad return_to").
Definition script_page : text := written (form_page (form_of (encode_error script_error))).
Theorem C157_error_page_to_web_refuted :
  exists query m f page body,
    decode plain_env [] (fun _ _ => true) query op 1 = DErr MalformedReturnURL (Some m) /\
    encode_error (mkPError MalformedReturnURL (Some m) (u "bad return_to")) = Ok (mkWeb 200 None (BForm f)) /\
    form_page f = Ok page /\ submits_itself page /\
    submission page = Some (u "javascript:alert(document.cookie)//" ++ repeat 97 2100, body).
Proof.
  exists script_query, (made (fromPostArgs [] script_query)), (form_of (encode_error script_error)), script_page, (body_of (submission script_page)).
  split; [vm_compute; reflexivity|]. split; [vm_compute; reflexivity|].
  assert (form_page (form_of (encode_error script_error)) = Ok script_page) as P by (vm_compute; reflexivity).
  split; [exact P|]. split; [|vm_compute; reflexivity].
  assert (exists reply t, error_toMessage script_error = Ok reply /\ getArg reply BARE_NS (u "submit") = Ok None /\
            form_of (encode_error script_error) = toFormMarkup reply t [] (u "Continue")) as (reply & t & _ & R & F).
  { exists (made (error_toMessage script_error)), (u "javascript:alert(document.cookie)//" ++ repeat 97 2100).
    split; [|split]; vm_compute; reflexivity. }
  rewrite F in P. exact (C150_no_argument_submit reply t [] script_page (proj1 no_attrs) P R).
Qed.
Print Assumptions C157_error_page_to_web_refuted.
