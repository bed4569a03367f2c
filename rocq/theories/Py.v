(** Python primitives used by the modelled code (Python 3 semantics).

    These are not functions of /repo; they model CPython built-ins that the code
    under /repo/openid calls.  Each comment names the built-in and says what is
    simplified. *)

From Coq Require Export Ascii String NArith ZArith Bool List.
From Coq Require Decimal DecimalN.
Export ListNotations.
#[global] Open Scope list_scope.
#[global] Open Scope N_scope.
#[global] Arguments N.add : simpl never.
#[global] Arguments N.sub : simpl never.
#[global] Arguments N.mul : simpl never.
#[global] Arguments N.div : simpl never.
#[global] Arguments N.modulo : simpl never.
#[global] Arguments N.eqb : simpl never.
#[global] Arguments N.leb : simpl never.
#[global] Arguments N.ltb : simpl never.
#[global] Arguments Z.add : simpl never.
#[global] Arguments Z.sub : simpl never.
#[global] Arguments Z.mul : simpl never.
#[global] Arguments Z.div : simpl never.
#[global] Arguments Z.modulo : simpl never.
#[global] Arguments Z.eqb : simpl never.
#[global] Arguments Z.leb : simpl never.
#[global] Arguments Z.ltb : simpl never.

(** [str]: a list of code points.  [bytes]: a list of numbers below 256. *)
Definition text := list N.
Definition bytes := list N.

(** String literals of the source are ASCII; [u "abc"] is the text. *)
Definition u (s : string) : text := map N_of_ascii (list_ascii_of_string s).

(** Exceptions, as values.  One constructor per exception class the modelled
    code raises or catches. *)
Inductive exn : Type :=
| ValueError
| KVFormError                 (* subclass of ValueError *)
| UnicodeEncodeError          (* subclass of ValueError *)
| UnicodeDecodeError          (* subclass of ValueError *)
| UndefinedOpenIDNamespace    (* subclass of ValueError *)
| InvalidOpenIDNamespace      (* subclass of ValueError *)
| KeyError
| InvalidNamespace            (* subclass of KeyError *)
| IndexError
| TypeError
| AttributeError
| AssertionError
| RuntimeError
| OverflowError
| OSError
| NotImplementedError
| UnboundLocalError           (* subclass of NameError *)
| ServerProtocolError         (* openid.server.server.ProtocolError, not a ValueError *)
| MalformedReturnURL          (* subclass of server.ProtocolError *)
| UntrustedReturnURL          (* subclass of server.ProtocolError *)
| MalformedTrustRoot          (* subclass of server.ProtocolError *)
| NoReturnToError
| EncodingError
| AlreadySigned               (* subclass of EncodingError *)
| ConsumerProtocolError       (* openid.consumer.consumer.ProtocolError, subclass of ValueError *)
| TypeURIMismatch             (* subclass of consumer.ProtocolError *)
| ConsumerServerError         (* openid.consumer.consumer.ServerError *)
| DiscoveryFailure
| HTTPFetchingError
| AXError                     (* subclass of ValueError *)
| NotAXMessage                (* subclass of AXError *)
| XRDSError
| XRDSFraud                   (* subclass of XRDSError *)
| RealmVerificationRedirected
| VersionError                (* openid.server.server.VersionError *)
| SetupNeededError            (* openid.consumer.consumer.SetupNeededError *)
| MetaNotFound                (* openid.yadis.parsehtml.MetaNotFound *)
| LookupError                 (* unknown encoding; KeyError and IndexError are subclasses *)
| OutOfFuel.                  (* not a Python exception: the model ran out of its recursion bound *)

(** [issubclass(e, ValueError)] / [issubclass(e, KeyError)] for the classes above. *)
Definition isValueError (e : exn) : bool :=
  match e with
  | ValueError | KVFormError | UnicodeEncodeError | UnicodeDecodeError
  | UndefinedOpenIDNamespace | InvalidOpenIDNamespace
  | ConsumerProtocolError | TypeURIMismatch | AXError | NotAXMessage => true
  | _ => false
  end.
Definition isKeyError (e : exn) : bool :=
  match e with KeyError | InvalidNamespace => true | _ => false end.

Inductive res (A : Type) : Type :=
| Ok (a : A)
| Raise (e : exn).
Arguments Ok {A} a.
Arguments Raise {A} e.

Definition bind {A B} (m : res A) (k : A -> res B) : res B :=
  match m with Ok a => k a | Raise e => Raise e end.
Notation "x <- m ;; k" := (bind m (fun x => k))
  (at level 61, m at next level, right associativity).
Notation "' p <- m ;; k" := (bind m (fun x => match x with p => k end))
  (at level 61, p pattern, m at next level, right associativity).

Definition isOk {A} (m : res A) : bool := match m with Ok _ => true | Raise _ => false end.

Fixpoint mapM {A B} (f : A -> res B) (l : list A) : res (list B) :=
  match l with
  | [] => Ok []
  | x :: r => y <- f x ;; ys <- mapM f r ;; Ok (y :: ys)
  end.

Fixpoint foldM {A S} (f : S -> A -> res S) (s : S) (l : list A) : res S :=
  match l with
  | [] => Ok s
  | x :: r => s' <- f s x ;; foldM f s' r
  end.

(** Equality on sequences ([==] on str and bytes). *)
Fixpoint list_eqb {A} (eqb : A -> A -> bool) (a b : list A) : bool :=
  match a, b with
  | [], [] => true
  | x :: a', y :: b' => eqb x y && list_eqb eqb a' b'
  | _, _ => false
  end.
Definition text_eqb : text -> text -> bool := list_eqb N.eqb.

Definition opt_eqb {A} (eqb : A -> A -> bool) (a b : option A) : bool :=
  match a, b with
  | None, None => true
  | Some x, Some y => eqb x y
  | _, _ => false
  end.

(** Truthiness of a text ([bool(s)]) and of an optional text. *)
Definition truthy (s : text) : bool := match s with [] => false | _ => true end.
Definition otruthy (s : option text) : bool :=
  match s with None => false | Some t => truthy t end.

(** [c in s] for a one-character string [c]. *)
Definition memc (c : N) (s : text) : bool := existsb (N.eqb c) s.

(** [x in l] for a list of texts. *)
Definition mem_text (x : text) (l : list text) : bool := existsb (text_eqb x) l.

(** Lexicographic comparison of texts ([<=] on str compares code points). *)
Fixpoint text_leb (a b : text) : bool :=
  match a, b with
  | [], _ => true
  | _ :: _, [] => false
  | x :: a', y :: b' => if x <? y then true else if x =? y then text_leb a' b' else false
  end.

(** [s.startswith(p)], [s.endswith(p)]. *)
Fixpoint startswith (s p : text) {struct p} : bool :=
  match p, s with
  | [], _ => true
  | y :: p', x :: s' => (x =? y) && startswith s' p'
  | _ :: _, [] => false
  end.
Definition endswith (s p : text) : bool := startswith (rev s) (rev p).

(** [s.split(c)] for a one-character separator: always at least one piece. *)
Fixpoint splitc (c : N) (s : text) : list text :=
  match s with
  | [] => [[]]
  | x :: r =>
      if x =? c then [] :: splitc c r
      else match splitc c r with
           | [] => [[x]]              (* unreachable *)
           | p :: ps => (x :: p) :: ps
           end
  end.

(** [s.split(c, 1)] seen as: [None] when [c] does not occur, else the two parts. *)
Fixpoint cut (c : N) (s : text) : option (text * text) :=
  match s with
  | [] => None
  | x :: r =>
      if x =? c then Some ([], r)
      else match cut c r with
           | None => None
           | Some (a, b) => Some (x :: a, b)
           end
  end.

(** [s.rsplit(c, 1)] / [rindex]: split at the last occurrence. *)
Definition rcut (c : N) (s : text) : option (text * text) :=
  match cut c (rev s) with
  | None => None
  | Some (a, b) => Some (rev b, rev a)
  end.

(** [sep.join(parts)]. *)
Fixpoint join (sep : text) (parts : list text) : text :=
  match parts with
  | [] => []
  | [p] => p
  | p :: ps => p ++ sep ++ join sep ps
  end.

(** [str.isspace] on one code point: the characters [str.strip()] removes. *)
Definition isspace (c : N) : bool :=
  ((9 <=? c) && (c <=? 13)) || ((28 <=? c) && (c <=? 32)) || (c =? 133) || (c =? 160)
  || (c =? 5760) || ((8192 <=? c) && (c <=? 8202)) || (c =? 8232) || (c =? 8233)
  || (c =? 8239) || (c =? 8287) || (c =? 12288).

(** [s.lstrip()], [s.rstrip()], [s.strip()]. *)
Fixpoint lstripf (f : N -> bool) (s : text) : text :=
  match s with
  | [] => []
  | x :: r => if f x then lstripf f r else s
  end.
Definition stripf (f : N -> bool) (s : text) : text := rev (lstripf f (rev (lstripf f s))).
Definition strip : text -> text := stripf isspace.

(** [s.lower()] restricted to ASCII letters (non-ASCII letters are left alone;
    simplification). *)
Definition lowerc (c : N) : N := if (65 <=? c) && (c <=? 90) then c + 32 else c.
Definition lower (s : text) : text := map lowerc s.

(** [str(n)] for integers. *)
Fixpoint uint_text (d : Decimal.uint) : text :=
  match d with
  | Decimal.Nil => []
  | Decimal.D0 r => 48 :: uint_text r
  | Decimal.D1 r => 49 :: uint_text r
  | Decimal.D2 r => 50 :: uint_text r
  | Decimal.D3 r => 51 :: uint_text r
  | Decimal.D4 r => 52 :: uint_text r
  | Decimal.D5 r => 53 :: uint_text r
  | Decimal.D6 r => 54 :: uint_text r
  | Decimal.D7 r => 55 :: uint_text r
  | Decimal.D8 r => 56 :: uint_text r
  | Decimal.D9 r => 57 :: uint_text r
  end.
Definition str_of_N (n : N) : text := uint_text (N.to_uint n).
Definition str_of_Z (z : Z) : text :=
  match z with
  | Z0 => [48]
  | Zpos p => str_of_N (Npos p)
  | Zneg p => 45 :: str_of_N (Npos p)
  end.

(** [int(s)] base 10: surrounding whitespace, optional sign, digits with single
    underscores between them.  Simplification: non-ASCII decimal digits, which
    Python accepts, are rejected. *)
Definition digit_of (c : N) : option (Decimal.uint -> Decimal.uint) :=
  match c with
  | 48 => Some Decimal.D0 | 49 => Some Decimal.D1 | 50 => Some Decimal.D2
  | 51 => Some Decimal.D3 | 52 => Some Decimal.D4 | 53 => Some Decimal.D5
  | 54 => Some Decimal.D6 | 55 => Some Decimal.D7 | 56 => Some Decimal.D8
  | 57 => Some Decimal.D9 | _ => None
  end.
(** [digits s]: [s] is a non-empty digit string with single inner underscores. *)
Fixpoint digits (s : text) : option Decimal.uint :=
  match s with
  | [] => None
  | c :: r =>
      match digit_of c with
      | None => None
      | Some D =>
          match r with
          | [] => Some (D Decimal.Nil)
          | c' :: r' =>
              if c' =? 95
              then match digits r' with Some d => Some (D d) | None => None end
              else match digits r with Some d => Some (D d) | None => None end
          end
      end
  end.
Definition nat_of_digits (s : text) : res Z :=
  match digits s with Some d => Ok (Z.of_N (N.of_uint d)) | None => Raise ValueError end.
Definition int_of_text (s : text) : res Z :=
  match strip s with
  | [] => Raise ValueError
  | c :: r =>
      if c =? 45 then (z <- nat_of_digits r ;; Ok (- z)%Z)
      else if c =? 43 then nat_of_digits r
      else nat_of_digits (c :: r)
  end.

(** Upper case hexadecimal digit, as in ['%02X']. *)
Definition hexdigit (n : N) : N := if n <? 10 then 48 + n else 55 + n.
(** Value of a hexadecimal digit, either case. *)
Definition hexval (c : N) : option N :=
  if (48 <=? c) && (c <=? 57) then Some (c - 48)
  else if (65 <=? c) && (c <=? 70) then Some (c - 55)
  else if (97 <=? c) && (c <=? 102) then Some (c - 87)
  else None.

(** Dictionaries: association lists in insertion order with at most one entry per
    key (Python 3.7 dict).  [dset] keeps the position of an existing key. *)
Section Dict.
  Context {K V : Type} (eqb : K -> K -> bool).
  Definition dict := list (K * V).

  Fixpoint dget (k : K) (d : dict) : option V :=
    match d with
    | [] => None
    | (k', v) :: r => if eqb k k' then Some v else dget k r
    end.
  Fixpoint dset (k : K) (v : V) (d : dict) : dict :=
    match d with
    | [] => [(k, v)]
    | (k', v') :: r => if eqb k k' then (k', v) :: r else (k', v') :: dset k v r
    end.
  Fixpoint ddel (k : K) (d : dict) : dict :=
    match d with
    | [] => []
    | (k', v') :: r => if eqb k k' then r else (k', v') :: ddel k r
    end.
  Definition dhas (k : K) (d : dict) : bool :=
    match dget k d with Some _ => true | None => false end.
  Definition dkeys (d : dict) : list K := map fst d.
  (** [dict(pairs)]: later pairs win, first occurrence fixes the position. *)
  Definition dict_of (l : list (K * V)) : dict :=
    fold_left (fun d kv => dset (fst kv) (snd kv) d) l [].
  (** [d.update(e)]. *)
  Definition dupdate (d e : dict) : dict :=
    fold_left (fun d kv => dset (fst kv) (snd kv) d) e d.
End Dict.
Arguments dict K V : clear implicits.

(** Stable sort ([sorted] and [list.sort]) for a boolean total preorder [leb]. *)
Section Sort.
  Context {A : Type} (leb : A -> A -> bool).
  Fixpoint insert (x : A) (l : list A) : list A :=
    match l with
    | [] => [x]
    | y :: r => if leb x y then x :: l else y :: insert x r
    end.
  Fixpoint sort (l : list A) : list A :=
    match l with
    | [] => []
    | x :: r => insert x (sort r)
    end.
End Sort.

(** [len(s)] as a number. *)
Definition len {A} (l : list A) : N := N.of_nat (List.length l).
