(** Model of /repo/openid/yadis/etxrd.py.  A parsed document is an element tree: lxml
    is not modelled, its parser is a function parameter where one is needed. *)
From Verif Require Import Py Xri.

Local Arguments u : simpl never.

(** An lxml element: tag (with its namespace in braces), attributes, the text before
    the first child ([None] when there is none) and the child elements. *)
Inductive xel := mkXel (tag : text) (attrs : dict text text) (txt : option text) (children : list xel).
Definition x_tag (e : xel) : text := match e with mkXel t _ _ _ => t end.
Definition x_attrs (e : xel) : dict text text := match e with mkXel _ a _ _ => a end.
Definition x_text (e : xel) : option text := match e with mkXel _ _ t _ => t end.
Definition x_children (e : xel) : list xel := match e with mkXel _ _ _ c => c end.
(** [e.findall(tag)] (direct children), [e.find(tag)], [e.get(name)]. *)
Definition x_findall (tag : text) (e : xel) : list xel := filter (fun c => text_eqb (x_tag c) tag) (x_children e).
Definition x_get (name : text) (e : xel) : option text := dget text_eqb name (x_attrs e).
(** [e.findtext(tag)]: the empty text for a first match without text. *)
Definition x_findtext (tag : text) (e : xel) : option text :=
  match x_findall tag e with
  | [] => None
  | c :: _ => Some (match x_text c with Some t => t | None => [] end)
  end.

(** etxrd.py:68-106. *)
Definition XRD_NS_2_0 : text := u "xri://$xrd*($v*2.0)".
Definition XRDS_NS : text := u "xri://$xrds".
Definition nsTag (ns t : text) : text := u "{" ++ ns ++ u "}" ++ t.
Definition mkXRDTag (t : text) : text := nsTag XRD_NS_2_0 t.
Definition mkXRDSTag (t : text) : text := nsTag XRDS_NS t.
Definition root_tag := mkXRDSTag (u "XRDS").
Definition service_tag := mkXRDTag (u "Service").
Definition xrd_tag := mkXRDTag (u "XRD").
Definition type_tag := mkXRDTag (u "Type").
Definition uri_tag := mkXRDTag (u "URI").
Definition canonicalID_tag := mkXRDTag (u "CanonicalID").

(** etxrd.py:109-112. *)
Definition isXRDS (root : xel) : bool := text_eqb (x_tag root) root_tag.
(** etxrd.py:45-66; [parse] is [etree.XML], [None] standing for [etree.Error]. *)
Definition parseXRDS (parse : bytes -> option xel) (b : bytes) : res xel :=
  match parse b with
  | None => Raise XRDSError
  | Some root => if isXRDS root then Ok root else Raise XRDSError
  end.

(** etxrd.py:115-129: the last XRD. *)
Definition getYadisXRD (root : xel) : res xel :=
  match rev (x_findall xrd_tag root) with
  | [] => Raise XRDSError
  | x :: _ => Ok x
  end.

(** etxrd.py:158-194.  [low] is [str.lower].  The loop variable is the identifier
    (in lower case) whose parent the next XRD must name. *)
Definition no_text {A} : res A := Raise AttributeError.    (* None has no startswith *)
Fixpoint canonical_chain (low : text -> text) (childID : text) (xrds : list xel) : res text :=
  match xrds with
  | [] => Ok childID
  | xrd :: r =>
      match rcut 33 childID with
      | None => Raise ValueError
      | Some (parent_sought, _) =>
          parent <- match x_findtext canonicalID_tag xrd with Some t => Ok (XRI t) | None => no_text end ;;
          if text_eqb parent_sought (low parent) then canonical_chain low parent_sought r else Raise XRDSFraud
      end
  end.
Definition getCanonicalID (low : text -> text) (iname : text) (root : xel) : res (option text) :=
  match rev (x_findall xrd_tag root) with
  | [] => Ok None
  | xrd :: r =>
      match x_findall canonicalID_tag xrd with
      | [] => Ok None
      | c :: _ =>
          canonicalID <- match x_text c with Some t => Ok (XRI t) | None => no_text end ;;
          childID <- canonical_chain low (low canonicalID) r ;;
          root <- rootAuthority iname ;;
          ok <- providerIsAuthoritative root childID ;;
          if ok : bool then Ok (Some canonicalID) else Raise XRDSFraud
      end
  end.

(** etxrd.py:197-238.  A priority is a non-negative integer or [Max], here [None]. *)
Definition getPriorityStrict (e : xel) : res (option Z) :=
  match x_get (u "priority") e with
  | Some s => v <- int_of_text s ;; if (0 <=? v)%Z then Ok (Some v) else Raise ValueError
  | None => Ok None
  end.
Definition getPriority (e : xel) : res (option Z) :=
  match getPriorityStrict e with
  | Raise x => if isValueError x then Ok None else Raise x
  | r => r
  end.
(** [a <= b] as [sorted] sees it: [not b < a], with [Max] above every number and not
    below itself. *)
Definition prio_leb (a b : option Z) : bool :=
  match a, b with
  | Some x, Some y => (x <=? y)%Z
  | _, None => true
  | None, Some _ => false
  end.
(** etxrd.py:241-249.  [shuffled] is what [random.shuffle] made of the list. *)
Definition prioSort (shuffled : list xel) : res (list xel) :=
  ps <- mapM (fun e => p <- getPriority e ;; Ok (p, e)) shuffled ;;
  Ok (map snd (sort (fun a b => prio_leb (fst a) (fst b)) ps)).

(** Randomness: [rnd n l] is what the [n]-th call of [random.shuffle] makes of [l]. *)
Definition shuffler := nat -> list xel -> list xel.
(** etxrd.py:252-257. *)
Definition iterServices (rnd : shuffler) (n : nat) (root : xel) : res (list xel) :=
  xrd <- getYadisXRD root ;; prioSort (rnd n (x_findall service_tag xrd)).
(** etxrd.py:260-264. *)
Definition sortedURIs (rnd : shuffler) (n : nat) (service : xel) : res (list (option text)) :=
  l <- prioSort (rnd n (x_findall uri_tag service)) ;; Ok (map x_text l).
(** etxrd.py:267-279 ([None.decode] for an element without text). *)
Definition getTypeURIs (service : xel) : res (list text) :=
  mapM (fun t => match x_text t with Some s => Ok s | None => Raise AttributeError end) (x_findall type_tag service).
(** etxrd.py:282-295. *)
Definition expandService (rnd : shuffler) (n : nat) (service : xel) : res (list (list text * option text * xel)) :=
  uris <- sortedURIs rnd n service ;;
  mapM (fun uri => types <- getTypeURIs service ;; Ok (types, uri, service)) (match uris with [] => [None] | _ => uris end).
(** etxrd.py:298-316. *)
Fixpoint expandServices (rnd : shuffler) (n : nat) (services : list xel) : res (list (list text * option text * xel)) :=
  match services with
  | [] => Ok []
  | s :: r => a <- expandService rnd n s ;; b <- expandServices rnd (S n) r ;; Ok (a ++ b)
  end.
