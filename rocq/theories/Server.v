(** Model of /repo/openid/server/server.py.

    A store is the state machine of Store.v, here any [step] on any state space; every
    store call of one server operation is made at the same clock reading [now].  The
    texts of error messages are left out, except where they are sent to the peer and do
    not contain the repr of a message.  Attributes that only emit a deprecation warning
    are not modelled. *)
From Verif Require Import Py Utf8 KVForm CryptUtil DH Message Association UrlLib UriNorm OidUtil TrustRoot Nonce Store.

Open Scope N_scope.

(** server.py:142-152 and message.py:50. *)
Definition HTTP_OK : N := 200.
Definition HTTP_REDIRECT : N := 302.
Definition HTTP_ERROR : N := 400.
Definition BROWSER_REQUEST_MODES : list text := [u "checkid_setup"; u "checkid_immediate"].
Inductive encoding := ENCODE_KVFORM | ENCODE_URL | ENCODE_HTML_FORM.
Definition OPENID1_URL_LIMIT : N := 2047.

(** The outcome of decoding: a value, a ProtocolError (its class, its openid_message) or
    another exception. *)
Inductive dres (A : Type) : Type :=
| DOk (a : A)
| DErr (k : exn) (m : option msg)
| DRaise (e : exn).
Arguments DOk {A} a.
Arguments DErr {A} k m.
Arguments DRaise {A} e.
Definition dbind {A B} (m : dres A) (k : A -> dres B) : dres B :=
  match m with DOk a => k a | DErr x y => DErr x y | DRaise e => DRaise e end.
Definition dlift {A} (m : res A) : dres A := match m with Ok a => DOk a | Raise e => DRaise e end.
Definition dres_res {A} (m : dres A) : res A :=
  match m with DOk a => Ok a | DErr k _ => Raise k | DRaise e => Raise e end.
Notation "x <d- m ;; k" := (dbind m (fun x => k)) (at level 61, m at next level, right associativity).

(** server.py:184-186, 545-578, 205, 430-440: the requests.  [mode] of a check-id request
    follows from [immediate]. *)
Record checkid := mkCheckID {
  ci_message : msg; ci_immediate : bool; ci_identity : option text; ci_claimed_id : option text;
  ci_return_to : option text; ci_trust_root : option text; ci_assoc_handle : option text;
  ci_op_endpoint : option text
}.
Record checkauth := mkCheckAuth {
  ca_message : msg; ca_assoc_handle : text; ca_signed : msg; ca_invalidate_handle : option text
}.
(** server.py:279-409: the sessions. *)
Inductive session := PlainText | DHSession (algorithm : hash_alg) (d : dh) (consumer_public_key : text).
Record associate := mkAssociate { as_message : msg; as_session : session; as_assoc_type : text }.
Inductive request := RCheckID (c : checkid) | RCheckAuth (c : checkauth) | RAssociate (c : associate).

Definition request_message (r : request) : msg :=
  match r with RCheckID c => ci_message c | RCheckAuth c => ca_message c | RAssociate c => as_message c end.
Definition checkid_mode (immediate : bool) : text := if immediate then u "checkid_immediate" else u "checkid_setup".
Definition request_mode (r : request) : text :=
  match r with
  | RCheckID c => checkid_mode (ci_immediate c)
  | RCheckAuth _ => u "check_authentication"
  | RAssociate _ => u "associate"
  end.

(** server.py:975-1006, OpenIDResponse. *)
Record response := mkResponse { rs_request : request; rs_fields : msg }.
Definition OpenIDResponse (r : request) : res response :=
  fields <- newMessage (getOpenIDNamespace (request_message r)) None ;; Ok (mkResponse r fields).
Definition setField (r : response) (key value : text) : res response :=
  m <- setArg (rs_fields r) OPENID_NS key value ;; Ok (mkResponse (rs_request r) m).
Definition updateFields (r : response) (kv : dict text text) : res response :=
  m <- updateArgs (rs_fields r) OPENID_NS kv ;; Ok (mkResponse (rs_request r) m).
(** server.py:1108-1109, addExtension. *)
Definition addExtension (r : response) (ns_uri ns_alias : text) (args : dict text text) : res response :=
  m <- ext_toMessage (rs_fields r) ns_uri ns_alias args ;; Ok (mkResponse (rs_request r) m).

(** message.py:336-379, toFormMarkup: the form as attributes and inputs; how it is written
    out (ElementTree.tostring) is in Html.v. *)
Record form := mkForm { form_attrs : dict text text; form_inputs : list (dict text text) }.
Definition toFormMarkup (m : msg) (action_url : text) (form_tag_attrs : dict text text) (submit_text : text) : form :=
  mkForm
    (dset text_eqb (u "enctype") (u "application/x-www-form-urlencoded")
      (dset text_eqb (u "accept-charset") (u "UTF-8")
        (dset text_eqb (u "method") (u "post")
          (dset text_eqb (u "action") action_url form_tag_attrs))))
    (map (fun nv => [(u "type", u "hidden"); (u "name", fst nv); (u "value", snd nv)]) (toPostArgs m) ++
     [[(u "type", u "submit"); (u "value", submit_text)]]).

(** server.py:1112-1150, WebResponse; a body is a text or the page around a form
    (oidutil.py:19-37, written out in Html.v). *)
Inductive webbody := BText (t : text) | BForm (f : form).
Record web := mkWeb { w_code : N; w_location : option text; w_body : webbody }.

Definition text_or (a b : option text) : option text := if otruthy a then a else b.

Section Server.
  Variable e : uenv.
  Variable reg : dict text text.                       (* message.registered_aliases *)
  Variable hmac : text -> bytes -> bytes -> bytes.
  Variable params_ok : Z -> Z -> bool.
  Variable pub_ok : Z -> Z -> Z -> bool.
  Variable hash : hash_alg -> bytes -> bytes.

  (** server.py:207-236, CheckAuthRequest.fromMessage. *)
  Definition CheckAuth_fromMessage (message : msg) : dres checkauth :=
    assoc_handle <d- dlift (getArg message OPENID_NS (u "assoc_handle")) ;;
    sig <d- dlift (getArg message OPENID_NS (u "sig")) ;;
    invalidate_handle <d- dlift (getArg message OPENID_NS (u "invalidate_handle")) ;;
    match assoc_handle, sig with
    | Some h, Some _ =>
        has_mode <d- dlift (hasKey message OPENID_NS (u "mode")) ;;
        signed <d- (if has_mode then dlift (setArg message OPENID_NS (u "mode") (u "id_res")) else DOk message) ;;
        DOk (mkCheckAuth message h signed invalidate_handle)
    | _, _ => DErr ServerProtocolError (Some message)
    end.

  (** server.py:293-303, 311-334 and 404-409. *)
  Definition session_type (s : session) : text :=
    match s with
    | PlainText => u "no-encryption"
    | DHSession SHA1 _ _ => u "DH-SHA1"
    | DHSession SHA256 _ _ => u "DH-SHA256"
    end.
  Definition allowed_assoc_types (s : session) : list text :=
    match s with
    | PlainText => [u "HMAC-SHA1"; u "HMAC-SHA256"]
    | DHSession SHA1 _ _ => [u "HMAC-SHA1"]
    | DHSession SHA256 _ _ => [u "HMAC-SHA256"]
    end.
  (** server.py:353-392 on a message. *)
  Definition DH_fromMessage (algorithm : hash_alg) (message : msg) (x : Z) : res session :=
    dh_modulus <- getArg message OPENID_NS (u "dh_modulus") ;;
    dh_gen <- getArg message OPENID_NS (u "dh_gen") ;;
    dh_consumer_public <- getArg message OPENID_NS (u "dh_consumer_public") ;;
    ' (d, k) <- server_fromMessage params_ok dh_modulus dh_gen dh_consumer_public x ;;
    Ok (DHSession algorithm d k).
  (** server.py:302-303 and 394-403. *)
  Definition session_answer (s : session) (secret : bytes) : res (dict text text) :=
    match s with
    | PlainText => Ok [(u "mac_key", toBase64 secret)]
    | DHSession algorithm d k =>
        ' (pub, mac) <- server_answer pub_ok hash (d, k) secret algorithm ;;
        Ok [(u "dh_server_public", pub); (u "enc_mac_key", mac)]
    end.

  (** server.py:443-488, AssociateRequest.fromMessage; [x] is the private key drawn. *)
  Definition Associate_fromMessage (message : msg) (x : Z) : dres associate :=
    types <d- (if isOpenID1 message then
                 st <d- dlift (getArg message OPENID_NS (u "session_type")) ;;
                 at_ <d- dlift (getArgDef message OPENID_NS (u "assoc_type") (u "HMAC-SHA1")) ;;
                 DOk (match st with Some t => if truthy t then t else u "no-encryption"
                                  | None => u "no-encryption" end, at_)
               else
                 st <d- dlift (getArg message (NS OPENID2_NS) (u "session_type")) ;;
                 match st with
                 | None => DErr ServerProtocolError (Some message)
                 | Some st =>
                     at_ <d- dlift (getArg message (NS OPENID2_NS) (u "assoc_type")) ;;
                     match at_ with
                     | None => DErr ServerProtocolError (Some message)
                     | Some at_ => DOk (st, at_)
                     end
                 end) ;;
    match (if text_eqb (fst types) (u "no-encryption") then Some (Ok PlainText)
           else if text_eqb (fst types) (u "DH-SHA1") then Some (DH_fromMessage SHA1 message x)
           else if text_eqb (fst types) (u "DH-SHA256") then Some (DH_fromMessage SHA256 message x)
           else None) with
    | None => DErr ServerProtocolError (Some message)
    | Some (Raise ServerProtocolError) => DErr ServerProtocolError (Some message)
    | Some (Raise x) => if isValueError x then DErr ServerProtocolError (Some message) else DRaise x
    | Some (Ok s) =>
        if negb (mem_text (snd types) (allowed_assoc_types s)) then DErr ServerProtocolError (Some message)
        else DOk (mkAssociate message s (snd types))
    end.

  (** server.py:490-518, AssociateRequest.answer. *)
  Definition Associate_answer (c : associate) (a : assoc) (now : Z) : res response :=
    r <- OpenIDResponse (RAssociate c) ;;
    r <- updateFields r [(u "expires_in", str_of_Z (getExpiresIn a now)); (u "assoc_type", as_assoc_type c);
                         (u "assoc_handle", a_handle a)] ;;
    kv <- session_answer (as_session c) (a_secret a) ;;
    r <- updateFields r kv ;;
    if text_eqb (session_type (as_session c)) (u "no-encryption") && isOpenID1 (as_message c) then Ok r
    else setField r (u "session_type") (session_type (as_session c)).

  (** server.py:520-541, answerUnsupported. *)
  Definition answerUnsupported (c : associate) (message : text) (preferred : option (text * text)) : res response :=
    if isOpenID1 (as_message c) then Raise ServerProtocolError
    else
      r <- OpenIDResponse (RAssociate c) ;;
      r <- setField r (u "error_code") (u "unsupported-type") ;;
      r <- setField r (u "error") message ;;
      match preferred with
      | None => Ok r
      | Some (at_, st) =>
          r <- (if truthy at_ then setField r (u "assoc_type") at_ else Ok r) ;;
          if truthy st then setField r (u "session_type") st else Ok r
      end.

  (** server.py:707-722, trustRootValid. *)
  Definition trustRootValid (c : checkid) : dres bool :=
    match ci_trust_root c with
    | Some t =>
        if negb (truthy t) then DOk true
        else
          o <d- dlift (parse e t) ;;
          match o with
          | None => DErr MalformedTrustRoot (Some (ci_message c))
          | Some tr => match ci_return_to c with
                       | Some r => dlift (validateURL e tr r)
                       | None => DOk true
                       end
          end
    | None => DOk true
    end.

  (** server.py:580-640, CheckIDRequest.__init__ and OpenIDRequest.__init__ (165-170). *)
  Definition CheckIDRequest (identity return_to trust_root : option text) (immediate : bool)
    (assoc_handle op_endpoint claimed_id : option text) (message : option msg) : dres checkid :=
    m <d- (match message with Some m => DOk m | None => dlift (newMessage (Some OPENID2_NS) None) end) ;;
    if (if isOpenID1 m then match identity with None => true | Some _ => false end
        else match identity, claimed_id with
             | Some _, None | None, Some _ => true
             | _, _ => false
             end) then DErr ServerProtocolError message
    else if isOpenID2 m && match op_endpoint with None => true | Some _ => false end then DRaise ValueError
    else
      let c := mkCheckID m immediate identity claimed_id return_to (text_or trust_root return_to) assoc_handle op_endpoint in
      wf <d- (match return_to with
              | None => DOk true
              | Some r => o <d- dlift (parse e r) ;; DOk (match o with Some _ => true | None => false end)
              end) ;;
      if negb wf then DErr MalformedReturnURL message
      else
        ok <d- trustRootValid c ;;
        if negb ok then DErr UntrustedReturnURL message else DOk c.

  (** server.py:642-700, CheckIDRequest.fromMessage. *)
  Definition CheckID_fromMessage (message : msg) (op_endpoint : option text) : dres checkid :=
    mode <d- dlift (getArg message OPENID_NS (u "mode")) ;;
    match mode with
    | Some mode =>
        if negb (mem_text mode [u "checkid_immediate"; u "checkid_setup"]) then DRaise AssertionError
        else
          return_to <d- dlift (getArg message OPENID_NS (u "return_to")) ;;
          if isOpenID1 message && negb (otruthy return_to) then DErr ServerProtocolError (Some message)
          else
            identity <d- dlift (getArg message OPENID_NS (u "identity")) ;;
            claimed_id <d- dlift (getArg message OPENID_NS (u "claimed_id")) ;;
            trust_root <d- dlift (getArg message OPENID_NS (if isOpenID1 message then u "trust_root" else u "realm")) ;;
            let trust_root := text_or trust_root return_to in
            if negb (isOpenID1 message) && match return_to, trust_root with None, None => true | _, _ => false end
            then DErr ServerProtocolError (Some message)
            else
              assoc_handle <d- dlift (getArg message OPENID_NS (u "assoc_handle")) ;;
              CheckIDRequest identity return_to trust_root (text_eqb mode (u "checkid_immediate"))
                             assoc_handle op_endpoint claimed_id (Some message)
    | None => DRaise AssertionError
    end.

  (** server.py:702-705. *)
  Definition idSelect (c : checkid) : bool := opt_eqb text_eqb (ci_identity c) (Some IDENTIFIER_SELECT).

  (** message.py:502-519 with values that may be None: string_to_text asserts a text. *)
  Definition updateArgsOpt (m : msg) (kv : list (text * option text)) : res msg :=
    n <- fixNS m OPENID_NS ;;
    foldM (fun m kv => match snd kv with
                       | Some v => setArg m (nsarg_of n) (fst kv) v
                       | None => Raise AssertionError
                       end) m kv.

  (** server.py:912-947, CheckIDRequest.encodeToURL; [ns] is the message it uses. *)
  Definition CheckID_encodeToURL (c : checkid) (server_url : option text) : res text :=
    if negb (otruthy (ci_return_to c)) then Raise NoReturnToError
    else
      let q := [(u "mode", Some (checkid_mode (ci_immediate c))); (u "identity", ci_identity c);
                (u "claimed_id", ci_claimed_id c); (u "return_to", ci_return_to c)] ++
               (if otruthy (ci_trust_root c)
                then [(if isOpenID1 (ci_message c) then u "trust_root" else u "realm", ci_trust_root c)] else []) ++
               (if otruthy (ci_assoc_handle c) then [(u "assoc_handle", ci_assoc_handle c)] else []) in
      m <- newMessage (getOpenIDNamespace (ci_message c)) None ;;
      m <- updateArgsOpt m q ;;
      match server_url with
      | Some s => toURL m s
      | None => Raise AssertionError
      end.

  (** server.py:949-972, getCancelURL. *)
  Definition getCancelURL (c : checkid) : res text :=
    match ci_return_to c with
    | Some r =>
        if negb (truthy r) then Raise NoReturnToError
        else if ci_immediate c then Raise ValueError
        else
          m <- newMessage (getOpenIDNamespace (ci_message c)) None ;;
          m <- setArg m OPENID_NS (u "mode") (u "cancel") ;;
          toURL m r
    | None => Raise NoReturnToError
    end.

  (** server.py:840-870: the identifiers of a positive answer. *)
  Definition answer_ids (c : checkid) (identity claimed_id : option text) : res (option (text * option text)) :=
    if idSelect c then
      match identity with
      | Some i => if truthy i then Ok (Some (i, text_or claimed_id identity)) else Raise ValueError
      | None => Raise ValueError
      end
    else
      match ci_identity c with
      | Some i =>
          if truthy i then
            _ <- (match identity with
                  | Some j =>
                      if truthy j && negb (text_eqb i j) then
                        a <- urinorm e i ;;
                        b <- urinorm e j ;;
                        if text_eqb a b then Ok tt else Raise ValueError
                      else Ok tt
                  | None => Ok tt
                  end) ;;
            Ok (Some (i, ci_claimed_id c))
          else if otruthy identity then Raise ValueError else Ok None
      | None => if otruthy identity then Raise ValueError else Ok None
      end.

  (** server.py:815-829: the mode. *)
  Definition answer_mode (c : checkid) (allow : bool) : text :=
    if allow then u "id_res"
    else if isOpenID1 (ci_message c) then (if ci_immediate c then u "id_res" else u "cancel")
    else (if ci_immediate c then u "setup_needed" else u "cancel").

  (** server.py:752-910, CheckIDRequest.answer; [now] and [salt] make the nonce. *)
  Definition CheckID_answer (c : checkid) (allow : bool) (server_url identity claimed_id : option text)
    (now : Z) (salt : text) : res response :=
    match ci_return_to c with
    | None => Raise NoReturnToError
    | Some return_to =>
        if negb (truthy return_to) then Raise NoReturnToError
        else
          server_url <- (if otruthy server_url then Ok server_url
                         else if negb (isOpenID1 (ci_message c)) && negb (otruthy (ci_op_endpoint c))
                         then Raise RuntimeError
                         else Ok (ci_op_endpoint c)) ;;
          r <- OpenIDResponse (RCheckID c) ;;
          if otruthy claimed_id && isOpenID1 (ci_message c) then Raise VersionError
          else if allow then
            ids <- answer_ids c identity claimed_id ;;
            if isOpenID1 (ci_message c) && match ids with None => true | Some _ => false end then Raise ValueError
            else
              r <- updateFields r [(u "mode", answer_mode c allow); (u "return_to", return_to);
                                   (u "response_nonce", mkNonce now salt)] ;;
              r <- (match server_url with
                    | Some s => if truthy s then setField r (u "op_endpoint") s else Ok r
                    | None => Ok r
                    end) ;;
              match ids with
              | None => Ok r
              | Some (i, cid) =>
                  r <- setField r (u "identity") i ;;
                  if isOpenID2 (ci_message c) then
                    match cid with
                    | Some x => setField r (u "claimed_id") x
                    | None => Raise AssertionError
                    end
                  else Ok r
              end
          else
            r <- setField r (u "mode") (answer_mode c allow) ;;
            if ci_immediate c then
              if isOpenID1 (ci_message c) && negb (otruthy server_url) then Raise ValueError
              else
                s <- dres_res (CheckIDRequest (ci_identity c) (ci_return_to c) (ci_trust_root c) false
                                 (ci_assoc_handle c) (ci_op_endpoint c) (ci_claimed_id c) None) ;;
                let s := mkCheckID (ci_message c) (ci_immediate s) (ci_identity s) (ci_claimed_id s) (ci_return_to s)
                                   (ci_trust_root s) (ci_assoc_handle s) (ci_op_endpoint s) in
                setup_url <- CheckID_encodeToURL s server_url ;;
                setField r (u "user_setup_url") setup_url
            else Ok r
    end.

  (** server.py:1053-1058, needsSigning. *)
  Definition needsSigning (r : response) : res bool :=
    m <- getArg (rs_fields r) OPENID_NS (u "mode") ;; Ok (opt_eqb text_eqb m (Some (u "id_res"))).

  (** [request.return_to] and [request.assoc_handle]: not all requests have them. *)
  Definition request_return_to (r : request) : res (option text) :=
    match r with RCheckID c => Ok (ci_return_to c) | _ => Raise AttributeError end.
  Definition request_assoc_handle (r : request) : res (option text) :=
    match r with
    | RCheckID c => Ok (ci_assoc_handle c)
    | RCheckAuth c => Ok (Some (ca_assoc_handle c))
    | RAssociate _ => Raise AttributeError
    end.

  (** server.py:1079-1087, encodeToURL. *)
  Definition response_encodeToURL (r : response) : res text :=
    o <- request_return_to (rs_request r) ;;
    match o with Some t => toURL (rs_fields r) t | None => Raise AssertionError end.

  (** server.py:1062-1077, whichEncoding. *)
  Definition whichEncoding (r : response) : res encoding :=
    if mem_text (request_mode (rs_request r)) BROWSER_REQUEST_MODES then
      if isOpenID2 (rs_fields r) then
        t <- response_encodeToURL r ;;
        Ok (if OPENID1_URL_LIMIT <? len t then ENCODE_HTML_FORM else ENCODE_URL)
      else Ok ENCODE_URL
    else Ok ENCODE_KVFORM.

  (** server.py:1013-1037, toFormMarkup / toHTML. *)
  Definition response_toHTML (r : response) (form_tag_attrs : dict text text) : res form :=
    o <- request_return_to (rs_request r) ;;
    match o with
    | Some t => Ok (toFormMarkup (rs_fields r) t form_tag_attrs (u "Continue"))
    | None => Raise AssertionError
    end.

  (** server.py:1338-1362, Encoder.encode on a response. *)
  Definition encode_response (r : response) : res web :=
    w <- whichEncoding r ;;
    match w with
    | ENCODE_KVFORM => b <- toKVForm (rs_fields r) ;; Ok (mkWeb HTTP_OK None (BText b))
    | ENCODE_URL => t <- response_encodeToURL r ;; Ok (mkWeb HTTP_REDIRECT (Some t) (BText []))
    | ENCODE_HTML_FORM => f <- response_toHTML r [] ;; Ok (mkWeb HTTP_OK None (BForm f))
    end.

  (** server.py:1633-1768, ProtocolError: class, openid_message and text, without reference
      and contact. *)
  Record perror := mkPError { pe_class : exn; pe_message : option msg; pe_text : text }.
  (** server.py:1658-1673. *)
  Definition getReturnTo (p : perror) : res (option text) :=
    match pe_message p with None => Ok None | Some m => getArg m OPENID_NS (u "return_to") end.
  (** server.py:1675-1690, toMessage. *)
  Definition error_toMessage (p : perror) : res msg :=
    match pe_message p with
    | None => Raise AttributeError
    | Some m =>
        reply <- newMessage (getOpenIDNamespace m) None ;;
        reply <- setArg reply OPENID_NS (u "mode") (u "error") ;;
        setArg reply OPENID_NS (u "error") (pe_text p)
    end.
  (** server.py:1694-1695. *)
  Definition error_encodeToURL (p : perror) : res text :=
    m <- error_toMessage p ;;
    o <- getReturnTo p ;;
    match o with Some t => toURL m t | None => Raise AssertionError end.
  (** server.py:1715-1751, whichEncoding. *)
  Definition error_whichEncoding (p : perror) : res (option encoding) :=
    o <- getReturnTo p ;;
    match o, pe_message p with
    | Some _, Some m =>
        if isOpenID2 m then
          t <- error_encodeToURL p ;;
          Ok (Some (if OPENID1_URL_LIMIT <? len t then ENCODE_HTML_FORM else ENCODE_URL))
        else Ok (Some ENCODE_URL)
    | _, None => Ok None
    | None, Some m =>
        mode <- getArg m OPENID_NS (u "mode") ;;
        match mode with
        | Some t => if truthy t && negb (mem_text t BROWSER_REQUEST_MODES) then Ok (Some ENCODE_KVFORM) else Ok None
        | None => Ok None
        end
    end.
  (** server.py:1338-1362 on a ProtocolError. *)
  Definition encode_error (p : perror) : res web :=
    w <- error_whichEncoding p ;;
    match w with
    | Some ENCODE_KVFORM => m <- error_toMessage p ;; b <- toKVForm m ;; Ok (mkWeb HTTP_ERROR None (BText b))
    | Some ENCODE_URL => t <- error_encodeToURL p ;; Ok (mkWeb HTTP_REDIRECT (Some t) (BText []))
    | Some ENCODE_HTML_FORM =>
        m <- error_toMessage p ;;
        o <- getReturnTo p ;;
        match o with
        | Some t => Ok (mkWeb HTTP_OK None (BForm (toFormMarkup m t [] (u "Continue"))))
        | None => Raise AssertionError
        end
    | None => Raise EncodingError
    end.

  (** server.py:1430-1472, Decoder.decode; [x] is the private key a DH session draws. *)
  Definition dot_count (k : text) : nat := List.length (filter (N.eqb 46) k).
  Definition decode (query : dict text text) (op_endpoint : text) (x : Z) : dres (option request) :=
    match query with
    | [] => DOk None
    | _ =>
        message <d- (match fromPostArgs reg query with
                     | Ok m => DOk m
                     | Raise InvalidOpenIDNamespace =>
                         m <d- dlift (fromPostArgs reg (dset text_eqb (u "openid.ns") OPENID2_NS query)) ;;
                         DErr ServerProtocolError (Some m)
                     | Raise InvalidNamespace =>
                         m <d- dlift (fromPostArgs reg (filter (fun kv => Nat.ltb (dot_count (fst kv)) 2) query)) ;;
                         DErr ServerProtocolError (Some m)
                     | Raise x => DRaise x
                     end) ;;
        mode <d- dlift (getArg message OPENID_NS (u "mode")) ;;
        match mode with
        | Some mode =>
            if negb (truthy mode) then DErr ServerProtocolError (Some message)
            else if text_eqb mode (u "checkid_setup") || text_eqb mode (u "checkid_immediate") then
              c <d- CheckID_fromMessage message (Some op_endpoint) ;; DOk (Some (RCheckID c))
            else if text_eqb mode (u "check_authentication") then
              c <d- CheckAuth_fromMessage message ;; DOk (Some (RCheckAuth c))
            else if text_eqb mode (u "associate") then
              c <d- Associate_fromMessage message x ;; DOk (Some (RAssociate c))
            else DErr ServerProtocolError (Some message)
        | None => DErr ServerProtocolError (Some message)
        end
    end.

  (** ** The parts that use the store *)
  Section Signatory.
    Context {S : Type} (step : S -> Z -> op -> S * out).
    Definition sm (A : Type) : Type := S -> S * res A.
    Definition sret {A} (m : res A) : sm A := fun s => (s, m).
    Definition sbind {A B} (m : sm A) (k : A -> sm B) : sm B :=
      fun s => match m s with (s', Ok a) => k a s' | (s', Raise x) => (s', Raise x) end.
    Notation "x <s- m ;; k" := (sbind m (fun x => k)) (at level 61, m at next level, right associativity).

    (** server.py:1153-1161. *)
    Definition SECRET_LIFETIME : Z := 14 * 24 * 60 * 60.
    Definition normal_key : text := u "http://localhost/|normal".
    Definition dumb_key : text := u "http://localhost/|dumb".
    Definition key_of (dumb : bool) : text := if dumb then dumb_key else normal_key.

    (** The calls of the store. *)
    Definition store_get (now : Z) (key handle : text) : sm (option assoc) :=
      fun s => match step s now (GetA key (Some handle)) with
               | (s', Got o) => (s', Ok o)
               | (s', Err x) => (s', Raise x)
               | (s', _) => (s', Raise TypeError)           (* no store answers so *)
               end.
    Definition store_unit (now : Z) (o : op) : sm unit :=
      fun s => match step s now o with
               | (s', Err x) => (s', Raise x)
               | (s', _) => (s', Ok tt)
               end.

    (** [assoc.expiresIn <= 0] (association.py:347-363). *)
    Definition run_out (a : assoc) (now : Z) : bool := (getExpiresIn a now <=? 0)%Z.

    (** server.py:1273-1307, getAssociation. *)
    Definition getAssociation (now : Z) (assoc_handle : text) (dumb checkExpiration : bool) : sm (option assoc) :=
      o <s- store_get now (key_of dumb) assoc_handle ;;
      match o with
      | Some a =>
          if run_out a now && checkExpiration
          then _ <s- store_unit now (RemoveA (key_of dumb) assoc_handle) ;; sret (Ok None)
          else sret (Ok (Some a))
      | None => sret (Ok None)
      end.

    (** server.py:1309-1323, invalidate. *)
    Definition invalidate (now : Z) (assoc_handle : text) (dumb : bool) : sm unit :=
      store_unit now (RemoveA (key_of dumb) assoc_handle).

    (** server.py:1241-1271, createAssociation; [secret] is the first os.urandom, [uniq] the second. *)
    Definition new_handle (assoc_type : text) (now : Z) (uniq : bytes) : text :=
      u "{" ++ assoc_type ++ u "}{" ++ hex_of_Z now ++ u "}{" ++ toBase64 uniq ++ u "}".
    Definition createAssociation (now : Z) (secret : N -> bytes) (uniq : bytes) (dumb : bool) (assoc_type : text) : sm assoc :=
      n <s- sret (getSecretSize assoc_type) ;;
      a <s- sret (fromExpiresIn now SECRET_LIFETIME (new_handle assoc_type now uniq) (secret n) assoc_type) ;;
      _ <s- store_unit now (StoreA (key_of dumb) a) ;;
      sret (Ok a).

    (** server.py:1172-1198, verify. *)
    Definition verify (now : Z) (assoc_handle : text) (message : msg) : sm bool :=
      o <s- getAssociation now assoc_handle true true ;;
      match o with
      | None => sret (Ok false)
      | Some a => sret (match checkMessageSignature hmac a message with
                        | Raise x => if isValueError x then Ok false else Raise x
                        | Ok b => Ok b
                        end)
      end.

    (** server.py:1200-1239, sign. *)
    Definition sign_response (now : Z) (secret : N -> bytes) (uniq : bytes) (r : response) : sm response :=
      h <s- sret (request_assoc_handle (rs_request r)) ;;
      ra <s- (match h with
              | Some h =>
                  if truthy h then
                    o <s- getAssociation now h false false ;;
                    if match o with Some a => run_out a now | None => true end then
                      r' <s- sret (setField r (u "invalidate_handle") h) ;;
                      _ <s- (match o with
                             | Some _ => invalidate now h false
                             | None => sret (Ok tt)
                             end) ;;
                      a <s- createAssociation now secret uniq true
                              (match o with Some a => if truthy (a_type a) then a_type a else u "HMAC-SHA1"
                                          | None => u "HMAC-SHA1" end) ;;
                      sret (Ok (r', a))
                    else match o with
                         | Some a => sret (Ok (r, a))
                         | None => sret (Raise AttributeError)      (* unreachable *)
                         end
                  else a <s- createAssociation now secret uniq true (u "HMAC-SHA1") ;; sret (Ok (r, a))
              | None => a <s- createAssociation now secret uniq true (u "HMAC-SHA1") ;; sret (Ok (r, a))
              end) ;;
      sret (match signMessage hmac (snd ra) (rs_fields (fst ra)) with
            | Ok m => Ok (mkResponse (rs_request (fst ra)) m)
            | Raise KVFormError => Raise EncodingError
            | Raise x => Raise x
            end).

    (** server.py:1380-1405, SigningEncoder.encode on a response. *)
    Definition encodeResponse (now : Z) (secret : N -> bytes) (uniq : bytes) (r : response) : sm web :=
      needs <s- sret (needsSigning r) ;;
      r <s- (if (needs : bool) then
               has_sig <s- sret (hasKey (rs_fields r) OPENID_NS (u "sig")) ;;
               if (has_sig : bool) then sret (Raise AlreadySigned) else sign_response now secret uniq r
             else sret (Ok r)) ;;
      sret (encode_response r).

    (** server.py:238-264, CheckAuthRequest.answer. *)
    Definition CheckAuth_answer (now : Z) (c : checkauth) : sm response :=
      is_valid <s- verify now (ca_assoc_handle c) (ca_signed c) ;;
      _ <s- invalidate now (ca_assoc_handle c) true ;;
      r <s- sret (OpenIDResponse (RCheckAuth c)) ;;
      r <s- sret (setField r (u "is_valid") (if (is_valid : bool) then u "true" else u "false")) ;;
      match ca_invalidate_handle c with
      | Some h =>
          if truthy h then
            o <s- getAssociation now h false true ;;
            match o with
            | None => sret (setField r (u "invalidate_handle") h)
            | Some _ => sret (Ok r)
            end
          else sret (Ok r)
      | None => sret (Ok r)
      end.

    (** server.py:1605-1630, openid_associate.  [repr] of the two types, which are plain names. *)
    Definition quoted (t : text) : text := u "'" ++ t ++ u "'".
    Definition openid_associate (neg : negotiator) (now : Z) (secret : N -> bytes) (uniq : bytes) (c : associate) : sm response :=
      let st := session_type (as_session c) in
      if isAllowed neg (as_assoc_type c) st then
        a <s- createAssociation now secret uniq false (as_assoc_type c) ;;
        sret (Associate_answer c a now)
      else sret (answerUnsupported c (u "Association type " ++ quoted (as_assoc_type c) ++
                   u " is not supported with session type " ++ quoted st) (getAllowedType neg)).

    (** server.py:1572-1603, handleRequest. *)
    Definition handleRequest (neg : negotiator) (now : Z) (secret : N -> bytes) (uniq : bytes) (r : request) : sm response :=
      match r with
      | RCheckID _ => sret (Raise NotImplementedError)
      | RCheckAuth c => CheckAuth_answer now c
      | RAssociate c => openid_associate neg now secret uniq c
      end.
  End Signatory.
End Server.
