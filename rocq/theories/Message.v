(** Model of /repo/openid/message.py (and Extension.toMessage of
    /repo/openid/extension.py). *)
From Verif Require Import Py KVForm.

(** message.py:22-35. *)
Definition IDENTIFIER_SELECT : text := u "http://specs.openid.net/auth/2.0/identifier_select".
Definition SREG_URI : text := u "http://openid.net/sreg/1.0".
Definition OPENID1_NS : text := u "http://openid.net/signon/1.0".
Definition THE_OTHER_OPENID1_NS : text := u "http://openid.net/signon/1.1".
Definition OPENID2_NS : text := u "http://specs.openid.net/auth/2.0".
Definition OPENID1_NAMESPACES : list text := [OPENID1_NS; THE_OTHER_OPENID1_NS].
(** message.py:141. *)
Definition allowed_openid_namespaces : list text := [OPENID1_NS; THE_OTHER_OPENID1_NS; OPENID2_NS].

(** message.py:53-59. *)
Definition OPENID_PROTOCOL_FIELDS : list text :=
  map u ["ns"; "mode"; "error"; "return_to"; "contact"; "reference";
         "signed"; "assoc_type"; "session_type"; "dh_modulus"; "dh_gen";
         "dh_consumer_public"; "claimed_id"; "identity"; "realm";
         "invalidate_handle"; "op_endpoint"; "response_nonce"; "sig";
         "assoc_handle"; "trust_root"; "openid"]%string.

(** An alias: the symbol NULL_NAMESPACE (message.py:39) or a text. *)
Inductive alias := Null | Al (a : text).
Definition alias_eqb (a b : alias) : bool :=
  match a, b with
  | Null, Null => true
  | Al x, Al y => text_eqb x y
  | _, _ => false
  end.

(** message.py:565-572 [NamespaceMap]. *)
Record nsmap := mkNsmap {
  a2n : dict alias text;          (* alias_to_namespace *)
  n2a : dict text alias;          (* namespace_to_alias *)
  implicit_ns : list text         (* implicit_namespaces *)
}.
Definition empty_nsmap : nsmap := mkNsmap [] [] [].

(** message.py:574-578. *)
Definition getAlias (m : nsmap) (uri : text) : option alias := dget text_eqb uri (n2a m).
Definition getNamespaceURI (m : nsmap) (a : alias) : option text := dget alias_eqb a (a2n m).

(** message.py:604-610: a protocol field or a dotted name is refused. *)
Definition bad_alias (a : alias) : bool :=
  match a with
  | Null => false
  | Al x => mem_text x OPENID_PROTOCOL_FIELDS || memc 46 x
  end.

(** message.py:599-641 [addAlias].  Returns the map afterwards, also when an
    exception is raised.  Namespaces are texts and aliases texts or
    NULL_NAMESPACE (other Python types are not modelled). *)
Definition addAlias (m : nsmap) (namespace_uri : text) (desired_alias : alias) (implicit : bool)
  : nsmap * res alias :=
  if bad_alias desired_alias then (m, Raise AssertionError)
  else
    let current_namespace_uri := getNamespaceURI m desired_alias in
    if match current_namespace_uri with Some c => negb (text_eqb c namespace_uri) | None => false end
    then (m, Raise InvalidNamespace)
    else
      let al := getAlias m namespace_uri in
      if match al with Some a => negb (alias_eqb a desired_alias) | None => false end
      then (m, Raise InvalidNamespace)
      else if mem_text namespace_uri (implicit_ns m) then (m, Raise AssertionError)
      else (mkNsmap (dset alias_eqb desired_alias namespace_uri (a2n m))
                    (dset text_eqb namespace_uri desired_alias (n2a m))
                    (if implicit then implicit_ns m ++ [namespace_uri] else implicit_ns m),
            Ok desired_alias).

(** message.py:643-662 [add]; the loop is bounded by [fuel] (see [add]). *)
Fixpoint add_loop (fuel : nat) (i : N) (m : nsmap) (uri : text) : nsmap * res alias :=
  match fuel with
  | O => (m, Raise OutOfFuel)
  | S f =>
      match addAlias m uri (Al (u "ext" ++ str_of_N i)) false with
      | (m', Raise e) => if isKeyError e then add_loop f (i + 1) m' uri else (m', Raise e)
      | (m', Ok a) => (m', Ok a)
      end
  end.
Definition add (m : nsmap) (uri : text) : nsmap * res alias :=
  match getAlias m uri with
  | Some a => (m, Ok a)
  | None => add_loop (S (List.length (a2n m))) 0 m uri
  end.

(** message.py:664-671. *)
Definition isDefined (m : nsmap) (uri : text) : bool := dhas text_eqb uri (n2a m).
Definition isImplicit (m : nsmap) (uri : text) : bool := mem_text uri (implicit_ns m).

(** message.py:105-124 [registerNamespaceAlias] on the global [registered_aliases]. *)
Definition registerNamespaceAlias (reg : dict text text) (namespace_uri : text) (al : text)
  : option (dict text text) :=        (* None: NamespaceAliasRegistrationError *)
  if opt_eqb text_eqb (dget text_eqb al reg) (Some namespace_uri) then Some reg
  else if mem_text namespace_uri (map snd reg) then None
  else if dhas text_eqb al reg then None
  else Some (dset text_eqb al namespace_uri reg).

(** Keys of [Message.args]: namespace BARE_NS or a URI. *)
Inductive ns := Bare | Uri (t : text).
Definition ns_eqb (a b : ns) : bool :=
  match a, b with
  | Bare, Bare => true
  | Uri x, Uri y => text_eqb x y
  | _, _ => false
  end.
Definition akey_eqb (a b : ns * text) : bool := ns_eqb (fst a) (fst b) && text_eqb (snd a) (snd b).

(** What callers may pass as a namespace. *)
Inductive nsarg := BARE_NS | OPENID_NS | NULL_NS | NoneNS | NS (t : text).

(** message.py:127-157: a message. *)
Record msg := mkMsg { margs : dict (ns * text) text; mns : nsmap }.

Definition getOpenIDNamespace (m : msg) : option text := getNamespaceURI (mns m) Null.
Definition isOpenID1 (m : msg) : bool :=
  match getOpenIDNamespace m with Some n => mem_text n OPENID1_NAMESPACES | None => false end.
Definition isOpenID2 (m : msg) : bool := opt_eqb text_eqb (getOpenIDNamespace m) (Some OPENID2_NS).

(** message.py:259-268 [_setOpenIDNamespace]. *)
Definition setOpenIDNamespace (m : msg) (uri : text) (implicit : bool) : res msg :=
  if negb (mem_text uri allowed_openid_namespaces) then Raise InvalidOpenIDNamespace
  else match addAlias (mns m) uri Null implicit with
       | (n', Ok _) => Ok (mkMsg (margs m) n')
       | (_, Raise e) => Raise e
       end.

Definition empty_msg : msg := mkMsg [] empty_nsmap.

(** message.py:143-157 [Message.__init__]. *)
Definition newMessage (openid_namespace : option text) (implicit_namespace : option bool) : res msg :=
  match openid_namespace with
  | None => Ok empty_msg
  | Some n =>
      let implicit := match implicit_namespace with
                      | Some b => b
                      | None => mem_text n OPENID1_NAMESPACES
                      end in
      setOpenIDNamespace empty_msg n implicit
  end.

(** message.py:405-431 [_fixNS]; BARE_NS, OPENID_NS or a text pass, anything else
    is a TypeError. *)
Definition fixNS (m : msg) (namespace : nsarg) : res ns :=
  n <- match namespace with
       | OPENID_NS => match getOpenIDNamespace m with
                      | Some n => Ok (Uri n)
                      | None => Raise UndefinedOpenIDNamespace
                      end
       | BARE_NS => Ok Bare
       | NULL_NS | NoneNS => Raise TypeError
       | NS t => Ok (Uri t)
       end ;;
  match n with
  | Bare => Ok Bare
  | Uri t => if negb (memc 58 t) && text_eqb t (u "sreg") then Ok (Uri SREG_URI) else Ok (Uri t)
  end.

(** message.py:433-435 [hasKey]. *)
Definition hasKey (m : msg) (namespace : nsarg) (key : text) : res bool :=
  n <- fixNS m namespace ;; Ok (dhas akey_eqb (n, key) (margs m)).

(** message.py:437-454 [getKey]. *)
Definition getKey (m : msg) (namespace : nsarg) (key : text) : res (option text) :=
  n <- fixNS m namespace ;;
  match n with
  | Bare => Ok (Some key)
  | Uri t =>
      match getAlias (mns m) t with
      | None => Ok None
      | Some Null => Ok (Some (u "openid." ++ key))
      | Some (Al a) => Ok (Some (u "openid." ++ a ++ u "." ++ key))
      end
  end.

(** message.py:456-486 [getArg] with the default None. *)
Definition getArg (m : msg) (namespace : nsarg) (key : text) : res (option text) :=
  n <- fixNS m namespace ;; Ok (dget akey_eqb (n, key) (margs m)).
(** The same with default [no_default]. *)
Definition getArgReq (m : msg) (namespace : nsarg) (key : text) : res text :=
  v <- getArg m namespace key ;;
  match v with Some x => Ok x | None => Raise KeyError end.
(** The same with a text default. *)
Definition getArgDef (m : msg) (namespace : nsarg) (key : text) (default : text) : res text :=
  v <- getArg m namespace key ;;
  match v with Some x => Ok x | None => Ok default end.

(** message.py:488-500 [getArgs]. *)
Definition getArgs (m : msg) (namespace : nsarg) : res (dict text text) :=
  n <- fixNS m namespace ;;
  Ok (map (fun e => (snd (fst e), snd e)) (filter (fun e => ns_eqb (fst (fst e)) n) (margs m))).

(** message.py:512-519 [setArg]; key and value are texts. *)
Definition setArg (m : msg) (namespace : nsarg) (key value : text) : res msg :=
  n <- fixNS m namespace ;;
  let args := dset akey_eqb (n, key) value (margs m) in
  match n with
  | Bare => Ok (mkMsg args (mns m))
  | Uri t => match add (mns m) t with
             | (n', Ok _) => Ok (mkMsg args n')
             | (_, Raise e) => Raise e
             end
  end.

(** Passing a fixed namespace back in (updateArgs calls setArg with it). *)
Definition nsarg_of (n : ns) : nsarg := match n with Bare => BARE_NS | Uri t => NS t end.

(** message.py:502-510 [updateArgs]. *)
Definition updateArgs (m : msg) (namespace : nsarg) (updates : dict text text) : res msg :=
  n <- fixNS m namespace ;;
  foldM (fun m kv => setArg m (nsarg_of n) (fst kv) (snd kv)) m updates.

(** message.py:521-523 [delArg]. *)
Definition delArg (m : msg) (namespace : nsarg) (key : text) : res msg :=
  n <- fixNS m namespace ;;
  if dhas akey_eqb (n, key) (margs m)
  then Ok (mkMsg (ddel akey_eqb (n, key) (margs m)) (mns m))
  else Raise KeyError.

(** message.py:536-562 [getAliasedArg] with default None. *)
Definition getAliasedArg (m : msg) (aliased_key : text) : res (option text) :=
  if text_eqb aliased_key (u "ns") then Ok (getOpenIDNamespace m)
  else if startswith aliased_key (u "ns.") then Ok (getNamespaceURI (mns m) (Al (skipn 3 aliased_key)))
  else
    let '(ns0, key) :=
      match cut 46 aliased_key with
      | None => (None, aliased_key)
      | Some (a, k) => (getNamespaceURI (mns m) (Al a), k)
      end in
    match ns0 with
    | Some n => getArg m (NS n) key
    | None => getArg m (match getOpenIDNamespace m with Some n => NS n | None => NoneNS end) aliased_key
    end.
(** The same with default [no_default] (message.py:543-544, 484). *)
Definition getAliasedArgReq (m : msg) (aliased_key : text) : res (option text) :=
  if text_eqb aliased_key (u "ns") then Ok (getOpenIDNamespace m)
  else v <- getAliasedArg m aliased_key ;;
       match v with Some x => Ok (Some x) | None => Raise KeyError end.

(** message.py:297-318 [toPostArgs].  [getKey] gives None only for a namespace
    without alias, which no message built through the API contains (theorem
    [wf_getKey]); such entries are left out here. *)
Definition ns_field (a : alias) : text :=
  match a with Null => u "openid.ns" | Al x => u "openid.ns." ++ x end.
Definition toPostArgs (m : msg) : dict text text :=
  let args :=
    fold_left (fun d e => if isImplicit (mns m) (fst e) then d
                          else dset text_eqb (ns_field (snd e)) (fst e) d)
              (n2a (mns m)) [] in
  fold_left (fun d e => match getKey m (nsarg_of (fst (fst e))) (snd (fst e)) with
                        | Ok (Some k) => dset text_eqb k (snd e) d
                        | _ => d
                        end)
            (margs m) args.

(** message.py:320-334 [toArgs]. *)
Definition toArgs (m : msg) : res (dict text text) :=
  kv <- mapM (fun e : text * text =>
                if startswith (fst e) (u "openid.") then Ok (skipn 7 (fst e), snd e)
                else Raise ValueError) (toPostArgs m) ;;
  Ok (dict_of text_eqb kv).

(** message.py:386-391 [toKVForm]. *)
Definition toKVForm (m : msg) : res text := d <- toArgs m ;; dictToKV d.

(** message.py:208-221: the scan of [_fromOpenIDArgs]. *)
Record scan := mkScan {
  sc_ns : option text;                     (* openid_namespace *)
  sc_decl : dict text text;                (* namespaces: alias -> uri *)
  sc_args : list (alias * text * text)     (* ns_args *)
}.
Definition scan_step (s : scan) (kv : text * text) : scan :=
  let (key, value) := kv in
  match cut 46 key with
  | None =>
      if text_eqb key (u "ns") then mkScan (Some value) (sc_decl s) (sc_args s)
      else mkScan (sc_ns s) (sc_decl s) (sc_args s ++ [(Null, key, value)])
  | Some (a, k) =>
      if text_eqb a (u "ns") then mkScan (sc_ns s) (dset text_eqb k value (sc_decl s)) (sc_args s)
      else mkScan (sc_ns s) (sc_decl s) (sc_args s ++ [(Al a, k, value)])
  end.

Section Reg.
  (** The global [registered_aliases] (message.py:95): alias to namespace URI. *)
  Variable reg : dict text text.

  (** message.py:248-257 [_getDefaultNamespace]. *)
  Definition getDefaultNamespace (m : msg) (a : alias) : option text :=
    if isOpenID1 m then match a with Al x => dget text_eqb x reg | Null => None end else None.

  (** message.py:234-245: one argument; [alias_text] only sees [Al] because the
      null alias always has a namespace. *)
  Definition alias_text (a : alias) : text := match a with Al x => x | Null => [] end.
  Definition put_arg (m : msg) (e : alias * text * text) : res msg :=
    let '(ns_alias, ns_key, value) := e in
    match getNamespaceURI (mns m) ns_alias with
    | Some ns_uri => setArg m (NS ns_uri) ns_key value
    | None =>
        match getDefaultNamespace m ns_alias with
        | None =>
            setArg m (match getOpenIDNamespace m with Some n => NS n | None => NoneNS end)
                   (alias_text ns_alias ++ u "." ++ ns_key) value
        | Some ns_uri =>
            match addAlias (mns m) ns_uri ns_alias true with
            | (n', Ok _) => setArg (mkMsg (margs m) n') (NS ns_uri) ns_key value
            | (_, Raise e) => Raise e
            end
        end
    end.

  (** message.py:200-246 [_fromOpenIDArgs]. *)
  Definition fromOpenIDArgs (openid_args : dict text text) : res msg :=
    let s := fold_left scan_step openid_args (mkScan None [] []) in
    let '(openid_namespace, openid_implicit) :=
      match sc_ns s with Some n => (n, false) | None => (OPENID1_NS, true) end in
    m <- newMessage (Some openid_namespace) (Some openid_implicit) ;;
    m <- foldM (fun m e => match addAlias (mns m) (snd e) (Al (fst e)) false with
                           | (n', Ok _) => Ok (mkMsg (margs m) n')
                           | (_, Raise e) => Raise e
                           end) m (sc_decl s) ;;
    foldM put_arg m (sc_args s).

  (** message.py:165-181: the key without its 'openid.' prefix, if it has one. *)
  Definition split_openid (key : text) : option text :=
    match cut 46 key with
    | Some (p, rest) => if text_eqb p (u "openid") then Some rest else None
    | None => None
    end.

  (** message.py:159-187 [fromPostArgs]; values are texts, never lists. *)
  Definition fromPostArgs (args : dict text text) : res msg :=
    let openid_args := flat_map (fun e => match split_openid (fst e) with
                                          | Some r => [(r, snd e)] | None => [] end) args in
    let bare_args := filter (fun e => match split_openid (fst e) with Some _ => false | None => true end) args in
    m <- fromOpenIDArgs (dict_of text_eqb openid_args) ;;
    Ok (mkMsg (fold_left (fun d e => dset akey_eqb (Bare, fst e) (snd e) d) bare_args (margs m)) (mns m)).

  (** message.py:289-292 [fromKVForm]. *)
  Definition fromKVForm (s : text) : res msg := d <- kvToDict s ;; fromOpenIDArgs d.
End Reg.

(** extension.py:28-51 [Extension.toMessage] on a given message; [args] is what
    [getExtensionArgs] returns. *)
Definition ext_toMessage (m : msg) (ns_uri ns_alias : text) (args : dict text text) : res msg :=
  let implicit := isOpenID1 m in
  m1 <- match addAlias (mns m) ns_uri (Al ns_alias) implicit with
        | (n', Ok _) => Ok (mkMsg (margs m) n')
        | (n', Raise e) =>
            if isKeyError e then
              if opt_eqb alias_eqb (getAlias n' ns_uri) (Some (Al ns_alias))
              then Ok (mkMsg (margs m) n') else Raise e
            else Raise e
        end ;;
  updateArgs m1 (NS ns_uri) args.
