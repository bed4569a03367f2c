(** What a user agent does with a page: a small reading of the HTML and URL standards,
    independent of how the library writes pages.  Anything this reader does not know
    (comments, unquoted values, other character references, ...) makes it give up. *)
From Verif Require Import Py Utf8 UrlLib.
Import Py.
Open Scope N_scope.

Definition attributes := list (text * text).
Inductive token := TStart (name : text) (attrs : attributes) | TEnd (name : text).

(** ** Tokens *)
Inductive state :=
| Data
| Raw (tag : text)
| TagOpen
| EndTagName (name : text)
| TagName (name : text)
| BeforeAttr (name : text) (attrs : attributes)
| AttrName (name : text) (attrs : attributes) (attr : text)
| AfterEq (name : text) (attrs : attributes) (attr : text)
| AttrValue (name : text) (attrs : attributes) (attr value : text)
| CharRef (name : text) (attrs : attributes) (attr value ref : text)
| AfterValue (name : text) (attrs : attributes)
| SelfClosing (name : text) (attrs : attributes).

Definition html_space (c : N) : bool := (c =? 9) || (c =? 10) || (c =? 12) || (c =? 32).
(** Elements whose content is not read as markup. *)
Definition raw_elements : list text :=
  [u "title"; u "textarea"; u "script"; u "style"; u "xmp"; u "iframe"; u "noembed"; u "noframes"; u "noscript"; u "plaintext"].
Definition content_of (name : text) : state := if mem_text name raw_elements then Raw name else Data.
Definition reference (r : text) : option N :=
  dget text_eqb r [(u "amp", 38); (u "lt", 60); (u "gt", 62); (u "quot", 34); (u "#9", 9); (u "#10", 10); (u "#13", 13)].
(** The first of two attributes of one name counts. *)
Definition add_attr (attrs : attributes) (a v : text) : attributes := if mem_text a (map fst attrs) then attrs else attrs ++ [(a, v)].
(** [s] is the end tag of [tag], without its '<'. *)
Definition ends_raw (tag s : text) : bool :=
  startswith (lower s) (47 :: tag) &&
  match skipn (S (List.length tag)) s with c :: _ => html_space c || (c =? 47) || (c =? 62) | [] => false end.

Definition ocons {A} (x : A) (o : option (list A)) : option (list A) := match o with Some l => Some (x :: l) | None => None end.

Fixpoint scan (st : state) (s : text) : option (list token) :=
  match s with
  | [] => match st with Data => Some [] | _ => None end
  | c :: r =>
      if (c =? 0) || (c =? 13) then None else
      match st with
      | Data => if c =? 60 then scan TagOpen r else scan Data r
      | Raw tag => if (c =? 60) && ends_raw tag r then scan TagOpen r else scan (Raw tag) r
      | TagOpen => if c =? 47 then scan (EndTagName []) r else if isalphac c then scan (TagName [lowerc c]) r else None
      | EndTagName n =>
          if c =? 62 then ocons (TEnd n) (scan Data r)
          else if html_space c || (c =? 47) then None else scan (EndTagName (n ++ [lowerc c])) r
      | TagName n =>
          if c =? 62 then ocons (TStart n []) (scan (content_of n) r)
          else if html_space c then scan (BeforeAttr n []) r
          else if c =? 47 then scan (SelfClosing n []) r
          else scan (TagName (n ++ [lowerc c])) r
      | BeforeAttr n l =>
          if c =? 62 then ocons (TStart n l) (scan (content_of n) r)
          else if html_space c then scan (BeforeAttr n l) r
          else if c =? 47 then scan (SelfClosing n l) r
          else if memc c [34; 39; 60; 61] then None
          else scan (AttrName n l [lowerc c]) r
      | AttrName n l a =>
          if c =? 61 then scan (AfterEq n l a) r
          else if html_space c || memc c [34; 39; 47; 60; 62] then None
          else scan (AttrName n l (a ++ [lowerc c])) r
      | AfterEq n l a => if c =? 34 then scan (AttrValue n l a []) r else None
      | AttrValue n l a v =>
          if c =? 34 then scan (AfterValue n (add_attr l a v)) r
          else if c =? 38 then scan (CharRef n l a v []) r
          else scan (AttrValue n l a (v ++ [c])) r
      | CharRef n l a v ref =>
          if c =? 59 then match reference ref with Some x => scan (AttrValue n l a (v ++ [x])) r | None => None end
          else scan (CharRef n l a v (ref ++ [c])) r
      | AfterValue n l =>
          if c =? 62 then ocons (TStart n l) (scan (content_of n) r)
          else if html_space c then scan (BeforeAttr n l) r
          else if c =? 47 then scan (SelfClosing n l) r
          else None
      | SelfClosing n l => if c =? 62 then ocons (TStart n l) (scan (content_of n) r) else None
      end
  end.
Definition tokens (page : text) : option (list token) := scan Data page.

(** ** The first form: its attributes and its controls *)
Fixpoint controls (l : list token) : option (list (text * attributes)) :=
  match l with
  | [] => None
  | TEnd n :: l => if text_eqb n (u "form") then Some [] else controls l
  | TStart n a :: l =>
      if mem_text n [u "input"; u "button"; u "select"; u "textarea"; u "object"] then ocons (n, a) (controls l) else controls l
  end.
Fixpoint first_form (l : list token) : option (attributes * list (text * attributes)) :=
  match l with
  | [] => None
  | TStart n a :: l => if text_eqb n (u "form") then match controls l with Some c => Some (a, c) | None => None end else first_form l
  | TEnd _ :: l => first_form l
  end.

(** ** What is submitted *)
Definition attr_of (a : text) (l : attributes) : option text := dget text_eqb a l.
Definition or_empty (o : option text) : text := match o with Some t => t | None => [] end.
(** The entries of an input.  Buttons are not part of what a script submits; the name
    '_charset_' has a special meaning. *)
Definition entry (i : text * attributes) : option (list (text * text)) :=
  let name := or_empty (attr_of (u "name") (snd i)) in
  let type := lower (or_empty (attr_of (u "type") (snd i))) in
  if negb (text_eqb (fst i) (u "input")) then None
  else if text_eqb type (u "submit") then Some []
  else if text_eqb type (u "hidden") then
    Some (if negb (truthy name) then []
          else if text_eqb (lower name) (u "_charset_") then [(name, u "UTF-8")]
          else [(name, or_empty (attr_of (u "value") (snd i)))])
  else None.
Fixpoint entries (l : list (text * attributes)) : option (list (text * text)) :=
  match l with
  | [] => Some []
  | i :: l => match entry i, entries l with Some a, Some b => Some (a ++ b) | _, _ => None end
  end.
(** Line ends become CR LF. *)
Fixpoint crlf_from (after_cr : bool) (s : text) : text :=
  match s with
  | [] => if after_cr then [10] else []
  | c :: r =>
      if c =? 10 then (if after_cr then 10 :: crlf_from false r else 13 :: 10 :: crlf_from false r)
      else (if after_cr then [10] else []) ++ (if c =? 13 then 13 :: crlf_from true r else c :: crlf_from false r)
  end.
Definition crlf (s : text) : text := crlf_from false s.
(** application/x-www-form-urlencoded, in UTF-8. *)
Definition hex (n : N) : N := if n <? 10 then 48 + n else 55 + n.
Definition form_byte (b : N) : text :=
  if isalphac b || isdigitc b || memc b (u "*-._") then [b] else if b =? 32 then [43] else [37; hex (b / 16); hex (b mod 16)].
Definition form_encode (s : text) : option text := match encode s with Ok b => Some (List.concat (map form_byte b)) | Raise _ => None end.
Fixpoint form_body (l : list (text * text)) : option text :=
  match l with
  | [] => Some []
  | (n, v) :: l =>
      match form_encode (crlf n), form_encode (crlf v), form_body l with
      | Some n, Some v, Some b => Some (n ++ 61 :: v ++ (if truthy b then 38 :: b else []))
      | _, _, _ => None
      end
  end.
(** The request a user agent makes when the first form of a page is submitted: where to,
    and the body. *)
Definition submission (page : text) : option (text * text) :=
  match tokens page with
  | None => None
  | Some l =>
      match first_form l with
      | None => None
      | Some (a, cs) =>
          if text_eqb (lower (or_empty (attr_of (u "method") a))) (u "post") &&
             text_eqb (lower (or_empty (attr_of (u "enctype") a))) (u "application/x-www-form-urlencoded") &&
             text_eqb (lower (or_empty (attr_of (u "accept-charset") a))) (u "utf-8")
          then match entries cs with
               | Some es => match form_body es with Some b => Some (or_empty (attr_of (u "action") a), b) | None => None end
               | None => None
               end
          else None
      end
  end.

(** The page submits its first form itself: it says so when it is loaded, and 'submit' is
    the method of the form, not one of its controls. *)
Definition submits_itself (page : text) : Prop :=
  exists l a cs, tokens page = Some l /\ first_form l = Some (a, cs) /\
    In (TStart (u "body") [(u "onload", u "document.forms[0].submit();")]) l /\
    forall c, In c cs -> attr_of (u "name") (snd c) <> Some (u "submit") /\ attr_of (u "id") (snd c) <> Some (u "submit").
