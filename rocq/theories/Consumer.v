(** Model of /repo/openid/consumer/consumer.py.

    The network is a function [net]: given everything posted so far, the newest first,
    it is the reply to the newest post, None when the fetcher raises HTTPFetchingError.
    Discovery is a function of the identifier.  A store is any [step] as in Server.v; a
    consumer may have none.  All store calls of one operation are made at one clock
    reading [now].  The text of failures found by the consumer itself is left out.
    Endpoints without a server URL are only used for matching: where the code would use
    such a URL the model raises TypeError. *)
From Verif Require Import Py Utf8 KVForm CryptUtil DH Message Association UrlLib UriNorm OidUtil Nonce Store Endpoint.
From Verif Require Server.
Open Scope N_scope.

Definition post : Type := (text * text)%type.          (* URL and body *)

(** consumer.py:584, 589. *)
Definition nonce_name : text := u "janrain_nonce".
Definition claimed_id_name : text := u "openid1_claimed_id".

(** consumer.py:455-513: the sessions; hash_func is not modelled. *)
Inductive csession := CPlain | CDH (algorithm : hash_alg) (d : dh).
Definition csession_type (s : csession) : text :=
  match s with CPlain => u "no-encryption" | CDH SHA1 _ => u "DH-SHA1" | CDH SHA256 _ => u "DH-SHA256" end.
Definition callowed_assoc_types (s : csession) : list text :=
  match s with
  | CPlain => [u "HMAC-SHA1"; u "HMAC-SHA256"]
  | CDH SHA1 _ => [u "HMAC-SHA1"]
  | CDH SHA256 _ => [u "HMAC-SHA256"]
  end.

(** What a direct request gives: a message, or a ServerError (546-563) with its message. *)
Inductive reply := Answer (m : msg) | ServerErr (error_code : option text) (m : msg).

(** consumer.py:1663-1875: the responses.  A failure the consumer found itself has no
    details here. *)
Inductive response :=
| Success (ep : endpoint) (m : msg) (signed_fields : list text)
| Failure (ep : option endpoint) (details : option (option text * option text * option text))
| Cancel (ep : option endpoint)
| SetupNeeded (ep : option endpoint) (setup_url : option text).
Definition response_endpoint (r : response) : option endpoint :=
  match r with Success ep _ _ => Some ep | Failure ep _ | Cancel ep | SetupNeeded ep _ => ep end.
(** [identity_url] (1666-1671, 1715-1719). *)
Definition identity_url (r : response) : option text :=
  match response_endpoint r with Some ep => ep_claimed_id ep | None => None end.

(** ProtocolError and its subclass (525-543). *)
Definition isProtocolError (x : exn) : bool :=
  match x with ConsumerProtocolError | TypeURIMismatch => true | _ => false end.

(** consumer.py:1733-1777, SuccessResponse. *)
Definition isSigned (m : msg) (signed_fields : list text) (ns_uri : nsarg) (ns_key : text) : res bool :=
  k <- getKey m ns_uri ns_key ;;
  Ok (match k with Some k => mem_text k signed_fields | None => false end).
Definition getSigned (m : msg) (signed_fields : list text) (ns_uri : nsarg) (ns_key : text) (default : option text)
  : res (option text) :=
  b <- isSigned m signed_fields ns_uri ns_key ;;
  if (b : bool) then
    v <- getArg m ns_uri ns_key ;; Ok (match v with Some x => Some x | None => default end)
  else Ok default.
Fixpoint all_signed (m : msg) (signed_fields : list text) (ns_uri : nsarg) (keys : list text) : res bool :=
  match keys with
  | [] => Ok true
  | k :: r => b <- isSigned m signed_fields ns_uri k ;; if (b : bool) then all_signed m signed_fields ns_uri r else Ok false
  end.
Definition getSignedNS (m : msg) (signed_fields : list text) (ns_uri : nsarg) : res (option (dict text text)) :=
  args <- getArgs m ns_uri ;;
  b <- all_signed m signed_fields ns_uri (dkeys args) ;;
  Ok (if (b : bool) then Some args else None).
Definition extensionResponse (m : msg) (signed_fields : list text) (namespace_uri : nsarg) (require_signed : bool)
  : res (option (dict text text)) :=
  if require_signed then getSignedNS m signed_fields namespace_uri
  else args <- getArgs m namespace_uri ;; Ok (Some args).
(** consumer.py:1779-1791. *)
Definition getReturnTo (m : msg) (signed_fields : list text) : res (option text) :=
  getSigned m signed_fields OPENID_NS (u "return_to") None.

(** consumer.py:1426-1451, AuthRequest.  [return_to_args] may hold None. *)
Record authreq := mkAuthReq {
  ar_assoc : option assoc; ar_endpoint : endpoint; ar_return_to_args : dict text (option text);
  ar_message : msg; ar_anonymous : bool
}.
Definition AuthRequest (ep : endpoint) (a : option assoc) : res authreq :=
  m <- newMessage (Some (preferredNamespace ep)) None ;; Ok (mkAuthReq a ep [] m false).
(** consumer.py:1453-1469. *)
Definition setAnonymous (r : authreq) (is_anonymous : bool) : res authreq :=
  if is_anonymous && isOpenID1 (ar_message r) then Raise ValueError
  else Ok (mkAuthReq (ar_assoc r) (ar_endpoint r) (ar_return_to_args r) (ar_message r) is_anonymous).
(** consumer.py:1471-1505. *)
Definition addExtensionArg (r : authreq) (namespace : nsarg) (key value : text) : res authreq :=
  m <- setArg (ar_message r) namespace key value ;;
  Ok (mkAuthReq (ar_assoc r) (ar_endpoint r) (ar_return_to_args r) m (ar_anonymous r)).
Definition addExtension (r : authreq) (ns_uri ns_alias : text) (args : dict text text) : res authreq :=
  m <- ext_toMessage (ar_message r) ns_uri ns_alias args ;;
  Ok (mkAuthReq (ar_assoc r) (ar_endpoint r) (ar_return_to_args r) m (ar_anonymous r)).

(** [setArg] with a value that may be None: string_to_text asserts a text. *)
Definition setArgOpt (m : msg) (namespace : nsarg) (key : text) (value : option text) : res msg :=
  match value with Some v => setArg m namespace key v | None => Raise AssertionError end.

(** The values of [return_to_args]: appendArgs asserts texts (oidutil.py:97). *)
Definition texts_of (d : dict text (option text)) : res (dict text text) :=
  mapM (fun kv => match snd kv with Some v => Ok (fst kv, v) | None => Raise AssertionError end) d.

(** consumer.py:1507-1585, getMessage. *)
Definition getMessage (r : authreq) (realm : text) (return_to : option text) (immediate : bool) : res msg :=
  return_to <- (match return_to with
                | Some ((_ :: _) as t) => args <- texts_of (ar_return_to_args r) ;; t' <- appendArgsDict t args ;; Ok (Some t')
                | _ =>
                    if immediate then Raise ValueError
                    else if isOpenID1 (ar_message r) then Raise ValueError
                    else match ar_return_to_args r with [] => Ok return_to | _ => Raise ValueError end
                end) ;;
  let mode := if immediate then u "checkid_immediate" else u "checkid_setup" in
  let m := ar_message r in
  let realm_key := if isOpenID1 m then u "trust_root" else u "realm" in
  m <- setArg m OPENID_NS realm_key realm ;;
  m <- setArg m OPENID_NS (u "mode") mode ;;
  m <- setArgOpt m OPENID_NS (u "return_to") return_to ;;
  m <- (if ar_anonymous r then Ok m
        else
          let '(request_identity, claimed_id) :=
            if isOPIdentifier (ar_endpoint r) then (Some IDENTIFIER_SELECT, Some IDENTIFIER_SELECT)
            else (getLocalID (ar_endpoint r), ep_claimed_id (ar_endpoint r)) in
          m <- setArgOpt m OPENID_NS (u "identity") request_identity ;;
          if isOpenID2 m then setArgOpt m (NS OPENID2_NS) (u "claimed_id") claimed_id else Ok m) ;;
  match ar_assoc r with
  | Some a => setArg m OPENID_NS (u "assoc_handle") (a_handle a)
  | None => Ok m
  end.
(** consumer.py:1587-1624, 1626-1636 and 1648-1654. *)
Definition redirectURL (r : authreq) (realm : text) (return_to : option text) (immediate : bool) : res text :=
  m <- getMessage r realm return_to immediate ;;
  match ep_server_url (ar_endpoint r) with Some s => toURL m s | None => Raise AssertionError end.
Definition formMarkup (r : authreq) (realm : text) (return_to : option text) (immediate : bool)
  (form_tag_attrs : dict text text) : res Server.form :=
  m <- getMessage r realm return_to immediate ;;
  match ep_server_url (ar_endpoint r) with
  | Some s => Ok (Server.toFormMarkup m s form_tag_attrs (u "Continue"))
  | None => Raise AssertionError
  end.
Definition shouldSendRedirect (r : authreq) : bool := compatibilityMode (ar_endpoint r).

Section Consumer.
  Variable e : uenv.
  Variable reg : dict text text.                       (* message.registered_aliases *)
  Variable hmac : text -> bytes -> bytes -> bytes.
  Variable params_ok : Z -> Z -> bool.
  Variable pub_ok : Z -> Z -> Z -> bool.
  Variable hash : hash_alg -> bytes -> bytes.
  Variable udigit : N -> option Z.
  Variable net : list post -> option (N * bytes).
  Variable discover : text -> res (list endpoint).
  Context {S : Type} (step : S -> Z -> op -> S * out).
  Variable now : Z.

  (** The store, if there is one, and what has been posted, the newest first. *)
  Record cst := mkCst { c_store : option S; c_posts : list post }.
  Definition cm (A : Type) : Type := cst -> cst * res A.
  Definition cret {A} (m : res A) : cm A := fun s => (s, m).
  Definition cbind {A B} (m : cm A) (k : A -> cm B) : cm B :=
    fun s => match m s with (s', Ok a) => k a s' | (s', Raise x) => (s', Raise x) end.
  Notation "x <c- m ;; k" := (cbind m (fun x => k)) (at level 61, m at next level, right associativity).
  (** [try: m except ...: h]. *)
  Definition ctry {A} (m : cm A) (h : exn -> option (cm A)) : cm A :=
    fun s => match m s with
             | (s', Raise x) => match h x with Some k => k s' | None => (s', Raise x) end
             | r => r
             end.
  Definition catch {A} (m : res A) (h : exn -> option (res A)) : res A :=
    match m with Raise x => match h x with Some r => r | None => Raise x end | Ok a => Ok a end.

  (** The store calls; the consumer has a store. *)
  Definition call (o : op) : cm out :=
    fun s => match c_store s with
             | None => (s, Raise AttributeError)
             | Some st => let (st', r) := step st now o in
                          (mkCst (Some st') (c_posts s), match r with Err x => Raise x | _ => Ok r end)
             end.
  Definition has_store : cm bool := fun s => (s, Ok (match c_store s with Some _ => true | None => false end)).
  Definition got (r : out) : res (option assoc) := match r with Got o => Ok o | _ => Raise TypeError end.
  Definition flag (r : out) : res bool := match r with Flag b => Ok b | _ => Raise TypeError end.

  Definition the_url (o : option text) : res text := match o with Some t => Ok t | None => Raise TypeError end.

  (** consumer.py:557-563, ServerError.fromMessage; the error text is only logged. *)
  Definition fromMessage (m : msg) : res reply :=
    _ <- getArgDef m OPENID_NS (u "error") (u "<no error message supplied>") ;;
    error_code <- getArg m OPENID_NS (u "error_code") ;;
    Ok (ServerErr error_code m).
  (** consumer.py:234-257; the body is bytes, which fromKVForm decodes. *)
  Definition httpResponseToMessage (status : N) (body : bytes) : res reply :=
    t <- decode body ;;
    m <- fromKVForm reg t ;;
    if status =? 400 then fromMessage m
    else if negb ((status =? 200) || (status =? 206)) then Raise HTTPFetchingError
    else Ok (Answer m).
  (** consumer.py:218-231. *)
  Definition makeKVPost (request_message : msg) (server_url : text) : cm reply :=
    body <c- cret (toURLEncoded request_message) ;;
    fun s =>
      let posts := (server_url, body) :: c_posts s in
      (mkCst (c_store s) posts,
       match net posts with
       | None => Raise HTTPFetchingError
       | Some (status, b) => httpResponseToMessage status b
       end).

  (** ** Completing *)

  (** consumer.py:816-846, _idResCheckForFields. *)
  Definition basic_fields : list text := [u "return_to"; u "assoc_handle"; u "sig"; u "signed"].
  Definition basic_sig_fields : list text := [u "return_to"; u "identity"].
  Definition require_fields : dict text (list text) :=
    [(OPENID2_NS, basic_fields ++ [u "op_endpoint"]); (OPENID1_NS, basic_fields ++ [u "identity"])].
  Definition require_sigs : dict text (list text) :=
    [(OPENID2_NS, basic_sig_fields ++ [u "response_nonce"; u "claimed_id"; u "assoc_handle"; u "op_endpoint"]);
     (OPENID1_NS, basic_sig_fields)].
  Definition lookup_ns {A} (d : dict text A) (ns : option text) : res A :=
    match ns with
    | Some n => match dget text_eqb n d with Some a => Ok a | None => Raise KeyError end
    | None => Raise KeyError
    end.
  Definition idResCheckForFields (message : msg) : res unit :=
    fields <- lookup_ns require_fields (getOpenIDNamespace message) ;;
    _ <- mapM (fun field => b <- hasKey message OPENID_NS field ;; if (b : bool) then Ok tt else Raise ConsumerProtocolError) fields ;;
    signed_list_str <- getArgReq message OPENID_NS (u "signed") ;;
    let signed_list := splitc 44 signed_list_str in
    sigs <- lookup_ns require_sigs (getOpenIDNamespace message) ;;
    _ <- mapM (fun field => b <- hasKey message OPENID_NS field ;;
                            if b && negb (mem_text field signed_list) then Raise ConsumerProtocolError else Ok tt) sigs ;;
    Ok tt.

  (** consumer.py:848-879, _verifyReturnToArgs. *)
  Definition verifyReturnToArgs (query : dict text text) : res unit :=
    message <- fromPostArgs reg query ;;
    return_to <- getArg message OPENID_NS (u "return_to") ;;
    match return_to with
    | None => Raise ConsumerProtocolError
    | Some return_to =>
        parsed_url <- urlsplit e return_to ;;
        let parsed_args := parse_qsl true (sp_query parsed_url) in
        _ <- mapM (fun kv => match dget text_eqb (fst kv) query with
                             | Some value => if text_eqb (snd kv) value then Ok tt else Raise ConsumerProtocolError
                             | None => Raise ConsumerProtocolError
                             end) parsed_args ;;
        bare_args <- getArgs message BARE_NS ;;
        _ <- mapM (fun kv => if existsb (fun x => text_eqb (fst x) (fst kv) && text_eqb (snd x) (snd kv)) parsed_args
                             then Ok tt else Raise ConsumerProtocolError) bare_args ;;
        Ok tt
    end.

  (** The first three parts of [urlparse] (urllib.parse): scheme, netloc and the path
      without the parameters of its last segment. *)
  Definition base_parts (url : text) : res (text * text * text) :=
    s <- urlsplit e url ;;
    Ok (sp_scheme s, sp_netloc s, fst (path_params s)).
  (** consumer.py:668-695, _checkReturnTo. *)
  Definition checkReturnTo (message : msg) (return_to : text) : res bool :=
    ok <- catch (_ <- verifyReturnToArgs (toPostArgs message) ;; Ok true)
                (fun x => if isProtocolError x then Some (Ok false) else None) ;;
    if negb ok then Ok false
    else
      msg_return_to <- getArg message OPENID_NS (u "return_to") ;;
      n1 <- urinorm e return_to ;;
      app_parts <- base_parts n1 ;;
      match msg_return_to with
      | None => Raise AttributeError                   (* unreachable: verifyReturnToArgs found one *)
      | Some msg_return_to =>
          n2 <- urinorm e msg_return_to ;;
          msg_parts <- base_parts n2 ;;
          let '(s1, a1, p1) := app_parts in
          let '(s2, a2, p2) := msg_parts in
          Ok (text_eqb s1 s2 && text_eqb a1 a2 && text_eqb p1 p2)
      end.

  (** consumer.py:987-1033, _verifyDiscoverySingle.  [urldefrag(None)] is the empty byte
      string, which differs from every claimed identifier. *)
  Definition verifyDiscoverySingle (ep to_match : endpoint) : res unit :=
    _ <- mapM (fun t => if usesExtension ep t then Ok tt else Raise TypeURIMismatch) (ep_type_uris to_match) ;;
    same <- (match ep_claimed_id to_match with
             | None => Ok false
             | Some c => d <- urldefrag e c ;; Ok (opt_eqb text_eqb (Some d) (ep_claimed_id ep))
             end) ;;
    if negb same then Raise ConsumerProtocolError
    else if negb (opt_eqb text_eqb (getLocalID to_match) (getLocalID ep)) then Raise ConsumerProtocolError
    else
      match ep_server_url to_match with
      | None => if text_eqb (preferredNamespace to_match) OPENID1_NS then Ok tt else Raise AssertionError
      | Some s => if opt_eqb text_eqb (Some s) (ep_server_url ep) then Ok tt else Raise ConsumerProtocolError
      end.
  (** consumer.py:1058-1082, _verifyDiscoveredServices: the first service that matches one
      of the endpoints; anything but a ProtocolError stops the search. *)
  Fixpoint match_one (ep : endpoint) (to_match : list endpoint) : res bool :=
    match to_match with
    | [] => Ok false
    | t :: r => match verifyDiscoverySingle ep t with
                | Ok _ => Ok true
                | Raise x => if isProtocolError x then match_one ep r else Raise x
                end
    end.
  Fixpoint verifyDiscoveredServices (services to_match : list endpoint) : res endpoint :=
    match services with
    | [] => Raise DiscoveryFailure
    | ep :: r => b <- match_one ep to_match ;; if (b : bool) then Ok ep else verifyDiscoveredServices r to_match
    end.
  (** consumer.py:1035-1056, _discoverAndVerify. *)
  Definition discoverAndVerify (claimed_id : option text) (to_match : list endpoint) : res endpoint :=
    match claimed_id with
    | None => Raise AttributeError                     (* xri.identifierScheme(None) *)
    | Some c =>
        services <- discover c ;;
        match services with
        | [] => Raise DiscoveryFailure
        | _ => verifyDiscoveredServices services to_match
        end
    end.
  (** consumer.py:896-946. *)
  Definition verifyDiscoveryResultsOpenID2 (m : msg) (ep : option endpoint) : res endpoint :=
    claimed_id <- getArg m (NS OPENID2_NS) (u "claimed_id") ;;
    local_id <- getArg m (NS OPENID2_NS) (u "identity") ;;
    server_url <- getArgReq m (NS OPENID2_NS) (u "op_endpoint") ;;
    match claimed_id, local_id with
    | None, Some _ | Some _, None => Raise ConsumerProtocolError
    | None, None => Ok (fromOPEndpointURL server_url)
    | Some _, Some _ =>
        let to_match := mkEndpoint claimed_id (Some server_url) [OPENID_2_0_TYPE] local_id None false None in
        ep <- (match ep with
               | None => discoverAndVerify claimed_id [to_match]
               | Some ep => catch (_ <- verifyDiscoverySingle ep to_match ;; Ok ep)
                              (fun x => if isProtocolError x then Some (discoverAndVerify claimed_id [to_match]) else None)
               end) ;;
        Ok (if opt_eqb text_eqb (ep_claimed_id ep) claimed_id then ep else with_claimed_id ep claimed_id)
    end.
  (** consumer.py:948-985. *)
  Definition verifyDiscoveryResultsOpenID1 (m : msg) (ep : option endpoint) : res endpoint :=
    rt_claimed_id <- getArg m BARE_NS claimed_id_name ;;
    claimed_id <- (match ep, rt_claimed_id with
                   | None, None => Raise RuntimeError
                   | Some ep, None => Ok (ep_claimed_id ep)
                   | _, c => Ok c
                   end) ;;
    local_id <- getArg m (NS OPENID1_NS) (u "identity") ;;
    match local_id with
    | None => Raise ConsumerProtocolError
    | Some _ =>
        let to_match := mkEndpoint claimed_id None [OPENID_1_1_TYPE] local_id None false None in
        let to_match_1_0 := mkEndpoint claimed_id None [OPENID_1_0_TYPE] local_id None false None in
        match ep with
        | None => discoverAndVerify claimed_id [to_match; to_match_1_0]
        | Some ep =>
            catch (_ <- catch (verifyDiscoverySingle ep to_match)
                              (fun x => match x with TypeURIMismatch => Some (verifyDiscoverySingle ep to_match_1_0) | _ => None end) ;;
                   Ok ep)
                  (fun x => if isProtocolError x then Some (discoverAndVerify claimed_id [to_match; to_match_1_0]) else None)
        end
    end.
  (** consumer.py:881-894. *)
  Definition verifyDiscoveryResults (m : msg) (ep : option endpoint) : res endpoint :=
    if opt_eqb text_eqb (getOpenIDNamespace m) (Some OPENID2_NS) then verifyDiscoveryResultsOpenID2 m ep
    else verifyDiscoveryResultsOpenID1 m ep.

  (** consumer.py:1102-1119, _createCheckAuthRequest. *)
  Fixpoint signed_missing (message : msg) (keys : list text) : res bool :=
    match keys with
    | [] => Ok false
    | k :: r => v <- getAliasedArg message k ;;
                match v with None => Ok true | Some _ => signed_missing message r end
    end.
  Definition createCheckAuthRequest (message : msg) : res (option msg) :=
    signed <- getArg message OPENID_NS (u "signed") ;;
    missing <- (match signed with
                | Some s => if truthy s then signed_missing message (splitc 44 s) else Ok false
                | None => Ok false
                end) ;;
    if (missing : bool) then Ok None
    else m <- setArg message OPENID_NS (u "mode") (u "check_authentication") ;; Ok (Some m).
  (** consumer.py:1121-1139, _processCheckAuthResponse. *)
  Definition processCheckAuthResponse (m : msg) (server_url : text) : cm bool :=
    is_valid <c- cret (getArgDef m OPENID_NS (u "is_valid") (u "false")) ;;
    invalidate_handle <c- cret (getArg m OPENID_NS (u "invalidate_handle")) ;;
    _ <c- (match invalidate_handle with
           | None => cret (Ok tt)
           | Some h => st <c- has_store ;;
                       if (st : bool) then _ <c- call (RemoveA server_url h) ;; cret (Ok tt) else cret (Ok tt)
           end) ;;
    cret (Ok (text_eqb is_valid (u "true"))).
  (** consumer.py:1084-1100, _checkAuth. *)
  Definition checkAuth (message : msg) (server_url : text) : cm bool :=
    request <c- cret (createCheckAuthRequest message) ;;
    match request with
    | None => cret (Ok false)
    | Some request =>
        rep <c- ctry (r <c- makeKVPost request server_url ;; cret (Ok (Some r)))
                     (fun x => match x with HTTPFetchingError => Some (cret (Ok None)) | _ => None end) ;;
        match rep with
        | Some (Answer m) => processCheckAuthResponse m server_url
        | _ => cret (Ok false)
        end
    end.
  (** consumer.py:788-814, _idResCheckSignature. *)
  Definition idResCheckSignature (message : msg) (server_url : option text) : cm unit :=
    server_url <c- cret (the_url server_url) ;;
    assoc_handle <c- cret (getArg message OPENID_NS (u "assoc_handle")) ;;
    st <c- has_store ;;
    o <c- (if (st : bool) then r <c- call (GetA server_url assoc_handle) ;; cret (got r) else cret (Ok None)) ;;
    match o with
    | Some a =>
        if (getExpiresIn a now <=? 0)%Z then cret (Raise ConsumerProtocolError)
        else
          b <c- cret (checkMessageSignature hmac a message) ;;
          cret (if (b : bool) then Ok tt else Raise ConsumerProtocolError)
    | None =>
        b <c- checkAuth message server_url ;;
        cret (if (b : bool) then Ok tt else Raise ConsumerProtocolError)
    end.

  (** consumer.py:756-786, _idResCheckNonce. *)
  Definition idResCheckNonce (message : msg) (ep : endpoint) : cm unit :=
    ns <c- (if isOpenID1 message
            then n <c- cret (getArg message BARE_NS nonce_name) ;; cret (Ok (n, Some []))
            else n <c- cret (getArg message (NS OPENID2_NS) (u "response_nonce")) ;; cret (Ok (n, ep_server_url ep))) ;;
    match fst ns with
    | None => cret (Raise ConsumerProtocolError)
    | Some nonce =>
        tsalt <c- cret (catch (split udigit nonce) (fun x => if isValueError x then Some (Raise ConsumerProtocolError) else None)) ;;
        st <c- has_store ;;
        if (st : bool) then
          server_url <c- cret (the_url (snd ns)) ;;
          r <c- call (UseN server_url (fst tsalt) (snd tsalt)) ;;
          b <c- cret (flag r) ;;
          cret (if (b : bool) then Ok tt else Raise ConsumerProtocolError)
        else cret (Ok tt)
    end.

  (** consumer.py:713-754, _doIdRes. *)
  Definition doIdRes (message : msg) (ep : option endpoint) (return_to : text) : cm response :=
    _ <c- cret (idResCheckForFields message) ;;
    b <c- cret (checkReturnTo message return_to) ;;
    if negb b then cret (Raise ConsumerProtocolError)
    else
      ep <c- cret (verifyDiscoveryResults message ep) ;;
      _ <c- idResCheckSignature message (ep_server_url ep) ;;
      _ <c- idResCheckNonce message ep ;;
      signed_list_str <c- cret (getArgReq message OPENID_NS (u "signed")) ;;
      cret (Ok (Success ep message (map (fun s => u "openid." ++ s) (splitc 44 signed_list_str)))).

  (** consumer.py:699-711, _checkSetupNeeded. *)
  Definition checkSetupNeeded (message : msg) : res (option text) :=
    if isOpenID1 message then getArg message (NS OPENID1_NS) (u "user_setup_url") else Ok None.
  (** consumer.py:652-661. *)
  Definition complete_id_res (message : msg) (ep : option endpoint) (return_to : text) : cm response :=
    s <c- cret (checkSetupNeeded message) ;;
    match s with
    | Some url => cret (Ok (SetupNeeded ep (Some url)))
    | None => ctry (doIdRes message ep return_to)
                   (fun x => if isProtocolError x || match x with DiscoveryFailure => true | _ => false end
                             then Some (cret (Ok (Failure ep None))) else None)
    end.
  (** consumer.py:637-650 and 663-666. *)
  Definition complete_error (message : msg) (ep : option endpoint) : res response :=
    error <- getArg message OPENID_NS (u "error") ;;
    contact <- getArg message OPENID_NS (u "contact") ;;
    reference <- getArg message OPENID_NS (u "reference") ;;
    Ok (Failure ep (Some (error, contact, reference))).
  Definition completeInvalid (message : msg) (ep : option endpoint) : res response :=
    _ <- getArgDef message OPENID_NS (u "mode") (u "<No mode set>") ;; Ok (Failure ep None).
  Definition complete_setup_needed (message : msg) (ep : option endpoint) : res response :=
    if negb (isOpenID2 message) then completeInvalid message ep
    else url <- getArg message (NS OPENID2_NS) (u "user_setup_url") ;; Ok (SetupNeeded ep url).
  (** consumer.py:622-635, complete: the methods named _complete_... are these four. *)
  Definition complete (message : msg) (ep : option endpoint) (return_to : text) : cm response :=
    mode <c- cret (getArgDef message OPENID_NS (u "mode") (u "<No mode set>")) ;;
    if text_eqb mode (u "cancel") then cret (Ok (Cancel ep))
    else if text_eqb mode (u "error") then cret (complete_error message ep)
    else if text_eqb mode (u "setup_needed") then cret (complete_setup_needed message ep)
    else if text_eqb mode (u "id_res") then complete_id_res message ep return_to
    else cret (completeInvalid message ep).

  (** ** Associating *)

  (** consumer.py:469-482 and 508-509: getRequest, the fields in their order. *)
  Definition cgetRequest (s : csession) : res (dict text text) :=
    match s with
    | CPlain => Ok []
    | CDH _ d =>
        ' (pub, mg) <- getRequest d ;;
        Ok ((u "dh_consumer_public", pub) ::
            match mg with None => [] | Some (m, g) => [(u "dh_modulus", m); (u "dh_gen", g)] end)
    end.
  (** consumer.py:484-494 and 511-513. *)
  Definition cextractSecret (s : csession) (m : msg) : res bytes :=
    match s with
    | CPlain => k <- getArgReq m OPENID_NS (u "mac_key") ;; fromBase64 k
    | CDH alg d =>
        pub <- getArgReq m OPENID_NS (u "dh_server_public") ;;
        key <- getArgReq m OPENID_NS (u "enc_mac_key") ;;
        extractSecret pub_ok hash d pub key alg
    end.
  (** consumer.py:591-595 and 1292-1293; [x] is the private key drawn. *)
  Definition new_session (session_type : text) (x : Z) : res csession :=
    if text_eqb session_type (u "DH-SHA256") then d <- fromDefaults params_ok x ;; Ok (CDH SHA256 d)
    else if text_eqb session_type (u "DH-SHA1") then d <- fromDefaults params_ok x ;; Ok (CDH SHA1 d)
    else if text_eqb session_type (u "no-encryption") then Ok CPlain
    else Raise KeyError.
  (** consumer.py:1264-1309, _createAssociateRequest. *)
  Definition createAssociateRequest (ep : endpoint) (assoc_type session_type : text) (x : Z) : res (csession * msg) :=
    s <- new_session session_type x ;;
    let args := [(u "mode", u "associate"); (u "assoc_type", assoc_type)] in
    let args := if compatibilityMode ep then args else dset text_eqb (u "ns") OPENID2_NS args in
    let args := if negb (compatibilityMode ep) || negb (text_eqb (csession_type s) (u "no-encryption"))
                then dset text_eqb (u "session_type") (csession_type s) args else args in
    more <- cgetRequest s ;;
    m <- fromOpenIDArgs reg (fold_left (fun d kv => dset text_eqb (fst kv) (snd kv) d) more args) ;;
    Ok (s, m).
  (** consumer.py:1311-1346. *)
  Definition getOpenID1SessionType (m : msg) : res text :=
    t <- getArg m (NS OPENID1_NS) (u "session_type") ;;
    Ok (match t with Some ((_ :: _) as t) => t | _ => u "no-encryption" end).
  (** consumer.py:1348-1423, _extractAssociation. *)
  Definition extractAssociation (m : msg) (s : csession) : res assoc :=
    assoc_type <- getArgReq m OPENID_NS (u "assoc_type") ;;
    assoc_handle <- getArgReq m OPENID_NS (u "assoc_handle") ;;
    expires_in_str <- getArgReq m OPENID_NS (u "expires_in") ;;
    expires_in <- catch (int_of_text expires_in_str) (fun x => if isValueError x then Some (Raise ConsumerProtocolError) else None) ;;
    session_type <- (if isOpenID1 m then getOpenID1SessionType m else getArgReq m (NS OPENID2_NS) (u "session_type")) ;;
    s <- (if text_eqb (csession_type s) session_type then Ok s
          else if isOpenID1 m && text_eqb session_type (u "no-encryption") then Ok CPlain
          else Raise ConsumerProtocolError) ;;
    if negb (mem_text assoc_type (callowed_assoc_types s)) then Raise ConsumerProtocolError
    else
      secret <- catch (cextractSecret s m) (fun x => if isValueError x then Some (Raise ConsumerProtocolError) else None) ;;
      fromExpiresIn now expires_in assoc_handle secret assoc_type.

  (** consumer.py:1235-1262, _requestAssociation: an association or None, or a ServerError. *)
  Definition requestAssociation (ep : endpoint) (assoc_type session_type : text) (x : Z)
    : cm (option assoc + (option text * msg)) :=
    sm <c- cret (createAssociateRequest ep assoc_type session_type x) ;;
    server_url <c- cret (the_url (ep_server_url ep)) ;;
    rep <c- ctry (r <c- makeKVPost (snd sm) server_url ;; cret (Ok (Some r)))
                 (fun x => match x with HTTPFetchingError => Some (cret (Ok None)) | _ => None end) ;;
    match rep with
    | None => cret (Ok (inl None))
    | Some (ServerErr code m) => cret (Ok (inr (code, m)))
    | Some (Answer m) =>
        cret (catch (a <- extractAssociation m (fst sm) ;; Ok (inl (Some a)))
                    (fun x => if isKeyError x || isProtocolError x then Some (Ok (inl None)) else None))
    end.
  (** consumer.py:1199-1233, _extractSupportedAssociationType. *)
  Definition extractSupportedAssociationType (neg : negotiator) (error_code : option text) (m : msg) : res (option (text * text)) :=
    if negb (opt_eqb text_eqb error_code (Some (u "unsupported-type"))) || isOpenID1 m then Ok None
    else
      assoc_type <- getArg m OPENID_NS (u "assoc_type") ;;
      session_type <- getArg m OPENID_NS (u "session_type") ;;
      Ok (match assoc_type, session_type with
          | Some a, Some s => if isAllowed neg a s then Some (a, s) else None
          | _, _ => None
          end).
  (** consumer.py:1162-1197, _negotiateAssociation; unpacking None is a TypeError. *)
  Definition negotiateAssociation (neg : negotiator) (ep : endpoint) (x1 x2 : Z) : cm (option assoc) :=
    match getAllowedType neg with
    | None => cret (Raise TypeError)
    | Some (assoc_type, session_type) =>
        r <c- requestAssociation ep assoc_type session_type x1 ;;
        match r with
        | inl o => cret (Ok o)
        | inr (code, m) =>
            sup <c- cret (extractSupportedAssociationType neg code m) ;;
            match sup with
            | None => cret (Ok None)
            | Some (assoc_type, session_type) =>
                r <c- requestAssociation ep assoc_type session_type x2 ;;
                match r with
                | inl o => cret (Ok o)
                | inr _ => cret (Ok None)
                end
            end
        end
    end.
  (** consumer.py:1141-1160, _getAssociation. *)
  Definition getAssociation (neg : negotiator) (ep : endpoint) (x1 x2 : Z) : cm (option assoc) :=
    server_url <c- cret (the_url (ep_server_url ep)) ;;
    r <c- call (GetA server_url None) ;;
    o <c- cret (got r) ;;
    if match o with None => true | Some a => (getExpiresIn a now <=? 0)%Z end then
      o <c- negotiateAssociation neg ep x1 x2 ;;
      match o with
      | None => cret (Ok None)
      | Some a => _ <c- call (StoreA server_url a) ;; cret (Ok (Some a))
      end
    else cret (Ok o).

  (** consumer.py:604-620, begin; [salt] makes the nonce. *)
  Definition begin (neg : negotiator) (ep : endpoint) (x1 x2 : Z) (salt : text) : cm authreq :=
    st <c- has_store ;;
    a <c- (if (st : bool) then getAssociation neg ep x1 x2 else cret (Ok None)) ;;
    r <c- cret (AuthRequest ep a) ;;
    let args := dset text_eqb nonce_name (Some (mkNonce now salt)) (ar_return_to_args r) in
    let args := if isOpenID1 (ar_message r) then dset text_eqb claimed_id_name (ep_claimed_id ep) args else args in
    cret (Ok (mkAuthReq (ar_assoc r) (ar_endpoint r) args (ar_message r) (ar_anonymous r))).
End Consumer.
Arguments mkCst {S}.
Arguments c_store {S}.
Arguments c_posts {S}.
