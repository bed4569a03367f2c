(** Specification vocabulary for the message properties C11-C16.  Nothing here
    models code; these are the words the theorems are stated in. *)
From Verif Require Import Py Message.

(** A namespace map operation, and the map left behind by it (also when it raises). *)
Inductive nsop := OpAddAlias (uri : text) (al : alias) (implicit : bool) | OpAdd (uri : text).
Definition ns_step (m : nsmap) (o : nsop) : nsmap :=
  match o with
  | OpAddAlias uri al implicit => fst (addAlias m uri al implicit)
  | OpAdd uri => fst (add m uri)
  end.
Definition ns_history (ops : list nsop) : nsmap := fold_left ns_step ops empty_nsmap.

(** Messages built through the public API (of a process whose registry of default
    aliases is [reg]). *)
Inductive built (reg : dict text text) : msg -> Prop :=
| b_new o i m : newMessage o i = Ok m -> built reg m
| b_set m ns k v m' : built reg m -> setArg m ns k v = Ok m' -> built reg m'
| b_del m ns k m' : built reg m -> delArg m ns k = Ok m' -> built reg m'
| b_update m ns kv m' : built reg m -> updateArgs m ns kv = Ok m' -> built reg m'
| b_alias m uri a i : built reg m -> built reg (mkMsg (margs m) (fst (addAlias (mns m) uri (Al a) i)))
| b_auto m uri : built reg m -> built reg (mkMsg (margs m) (fst (add (mns m) uri)))
| b_ext m uri a args m' : built reg m -> ext_toMessage m uri a args = Ok m' -> built reg m'
| b_parse args m : fromPostArgs reg args = Ok m -> built reg m
| b_parse_oid args m : fromOpenIDArgs reg args = Ok m -> built reg m.

(** The place a (namespace, key) pair of the API refers to: the OpenID namespace is
    the message's version, and the name 'sreg' stands for the simple registration URI. *)
Definition place (m : msg) (n : nsarg) : option ns :=
  match n with
  | BARE_NS => Some Bare
  | OPENID_NS => option_map Uri (getOpenIDNamespace m)
  | NS t => Some (Uri (if text_eqb t (u "sreg") then SREG_URI else t))
  | NULL_NS | NoneNS => None
  end.

(** Messages that the query string format can carry without ambiguity. *)
Record wire_safe (reg : dict text text) (m : msg) : Prop := {
  (* the version is known, and left out only if it is OpenID 1.0 *)
  ws_version : exists v, getOpenIDNamespace m = Some v /\ In v allowed_openid_namespaces /\
                 (isImplicit (mns m) v = true -> v = OPENID1_NS);
  (* other parameters do not pretend to be OpenID parameters *)
  ws_bare : forall k v, getArg m BARE_NS k = Ok (Some v) -> startswith k (u "openid.") = false;
  (* core parameters are not called 'ns', and if dotted, the part before the first
     dot is neither 'ns' nor an alias of the message or (OpenID 1) of the library *)
  ws_core : forall k v, getArg m OPENID_NS k = Ok (Some v) ->
      k <> u "ns" /\
      forall a r, k = a ++ u "." ++ r -> ~ In 46 a ->
        a <> u "ns" /\ getNamespaceURI (mns m) (Al a) = None /\
        (isOpenID1 m = true -> dget text_eqb a reg = None);
  (* an extension namespace that is not declared is one the library knows by that alias *)
  ws_ext : forall a n, getNamespaceURI (mns m) (Al a) = Some n -> isImplicit (mns m) n = true ->
      isOpenID1 m = true /\ dget text_eqb a reg = Some n;
  (* no namespace is literally called 'sreg' *)
  ws_sreg : forall al, getNamespaceURI (mns m) al <> Some (u "sreg")
}.
(** The library's alias registry: one-to-one, and no URI 'sreg'. *)
Definition good_registry (reg : dict text text) : Prop :=
  (forall a, dget text_eqb a reg <> Some (u "sreg")) /\
  (forall a b n, dget text_eqb a reg = Some n -> dget text_eqb b reg = Some n -> a = b).
