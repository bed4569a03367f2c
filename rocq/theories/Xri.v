(** Model of /repo/openid/yadis/xri.py. *)
From Verif Require Import Py Utf8 UrlLib UriNorm.

Local Arguments u : simpl never.

(** xri.py:17. *)
Definition XRI_AUTHORITIES : text := u "!=@+$(".
Definition xri_scheme : text := u "xri://".

(** xri.py:20-28. *)
Inductive idscheme := SchemeXRI | SchemeURI.
Definition identifierScheme (identifier : text) : idscheme :=
  if startswith identifier xri_scheme || match identifier with c :: _ => memc c XRI_AUTHORITIES | [] => false end
  then SchemeXRI else SchemeURI.

(** xri.py:126-137 (XRI). *)
Definition XRI (xri : text) : text := if startswith xri xri_scheme then xri else xri_scheme ++ xri.

(** [s.replace(c, t)] for one character [c]. *)
Definition replace1 (c : N) (t : text) (s : text) : text := flat_map (fun x => if x =? c then t else [x]) s.

(** xri.py:40-47 (_escape_xref). *)
Definition escape_xref (xref : text) : text :=
  replace1 35 (u "%23") (replace1 63 (u "%3F") (replace1 47 (u "%2F") xref)).

(** xri.py:37: the regular expression '\((.*?)\)' matched at the start of [s] (after
    its opening parenthesis): the shortest run without newline up to a closing one. *)
Definition xref_end (s : text) : option (text * text) :=
  match cut 41 s with
  | Some (body, rest) => if memc 10 body then None else Some (body, rest)
  | None => None
  end.
(** [_xref_re.sub(_escape_xref, s)]: matches are sought from left to right and do not
    overlap.  [fuel] bounds the number of steps by the length of the text. *)
Fixpoint xref_sub (fuel : nat) (s : text) : text :=
  match fuel, s with
  | S n, c :: r =>
      if c =? 40 then
        match xref_end r with
        | Some (body, rest) => escape_xref (40 :: body ++ [41]) ++ xref_sub n rest
        | None => c :: xref_sub n r
        end
      else c :: xref_sub n r
  | _, _ => s
  end.

(** xri.py:50-54. *)
Definition escapeForIRI (xri : text) : text :=
  let x := replace1 37 (u "%25") xri in xref_sub (List.length x) x.
(** xri.py:31-35. *)
Definition toIRINormal (xri : text) : text := escapeForIRI (XRI xri).
(** xri.py:62-79 (Python 3 branch). *)
Definition uri_safe : text := GEN_DELIMS ++ SUB_DELIMS ++ [37].
Definition iriToURI (iri : text) : res text := quote uri_safe iri.
(** xri.py:57-59. *)
Definition toURINormal (xri : text) : res text := iriToURI (toIRINormal xri).

(** xri.py:82-90. *)
Definition providerIsAuthoritative (providerID canonicalID : text) : res bool :=
  match rcut 33 canonicalID with
  | Some (parent, _) => Ok (text_eqb parent providerID)
  | None => Raise ValueError
  end.

(** xri.py:93-123.  [authority[0]] raises IndexError on an empty authority, [index]
    raises ValueError without a closing parenthesis. *)
Definition rootAuthority (xri : text) : res text :=
  let xri := if startswith xri xri_scheme then skipn 6 xri else xri in
  let authority := match cut 47 xri with Some (a, _) => a | None => xri end in
  match authority with
  | [] => Raise IndexError
  | c :: _ =>
      if c =? 40 then
        match cut 41 authority with
        | Some (a, _) => Ok (XRI (a ++ [41]))
        | None => Raise ValueError
        end
      else if memc c XRI_AUTHORITIES then Ok (XRI [c])
      else match flat_map (splitc 42) (splitc 33 authority) with
           | root :: _ => Ok (XRI root)
           | [] => Raise IndexError
           end
  end.
