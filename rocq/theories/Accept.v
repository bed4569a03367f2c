(** Model of /repo/openid/yadis/accept.py: HTTP Accept headers.

    A float is a [spec_float] of Coq's standard library (IEEE 754 binary64, computed with
    integers).  The integers 0 and 1 the code mixes with floats are the floats equal to them. *)
From Coq Require Export Floats.SpecFloat.
From Verif Require Import Py.

Notation float := spec_float.
Definition prec : Z := 53.
Definition emax : Z := 1024.
Definition fzero : float := S754_zero false.
Definition fone : float := S754_finite false 4503599627370496 (-52).
(** [1 - q]. *)
Definition distance (q : float) : float := SFsub prec emax fone q.
(** [max(a, b)]: the second only when it is greater, so never a NaN in place of a number. *)
Definition fmax (a b : float) : float := if SFltb a b then b else a.
(** The truth of a float: a NaN is true. *)
Definition ftrue (q : float) : bool := match q with S754_zero _ => false | _ => true end.

(** A range of a header with its quality. *)
Definition range : Type := text * text * float.

Section Parse.
  (** [float(s)]; [None] is ValueError. *)
  Variable fl : text -> option float.
  (** What [sorted] makes of a list with a NaN among its keys. *)
  Variable nan_order : list range -> list range.

  (** accept.py:65-76: the loop over the parameters, with its else branch. *)
  Fixpoint read_q (parts : list text) : float :=
    match parts with
    | [] => fone
    | ext :: r =>
        match cut 61 ext with
        | Some (k, v) =>
            if text_eqb k (u "q") then match fl v with Some q => q | None => read_q r end else read_q r
        | None => read_q r
        end
    end.
  (** accept.py:56-78, one chunk (stripped at 53). *)
  Definition read_chunk (chunk : text) : option range :=
    match map strip (splitc 59 (strip chunk)) with
    | [] => None                                        (* unreachable *)
    | mtype :: parts =>
        match cut 47 mtype with
        | None => None
        | Some (main, sub) => Some (main, sub, read_q parts)
        end
    end.
  (** accept.py:80-81: the key, and sorted(..., reverse=True), which keeps the order of equals. *)
  Definition key_leb (a b : range) : bool :=
    let '(m1, s1, q1) := a in let '(m2, s2, q2) := b in
    SFltb q1 q2 || (SFeqb q1 q2 && (negb (text_leb m2 m1) || (text_eqb m1 m2 && text_leb s1 s2))).
  Definition is_nan (q : float) : bool := match q with S754_nan => true | _ => false end.
  Definition sort_ranges (l : list range) : list range :=
    if existsb (fun r => is_nan (snd r)) l then nan_order l else sort (fun a b => key_leb b a) l.
  (** accept.py:44-81. *)
  Definition parseAcceptHeader (value : text) : list range :=
    sort_ranges (flat_map (fun c => match read_chunk c with Some r => [r] | None => [] end) (splitc 44 value)).
End Parse.

(** accept.py:99-117: the table of qualities. *)
Definition pair_eqb (a b : text * text) : bool := text_eqb (fst a) (fst b) && text_eqb (snd a) (snd b).
Record table := mkTable { t_default : float; t_main : dict text float; t_sub : dict (text * text) float }.
Definition add_range (t : table) (r : range) : table :=
  let '(main, sub, qvalue) := r in
  if text_eqb main (u "*") then mkTable (fmax (t_default t) qvalue) (t_main t) (t_sub t)
  else if text_eqb sub (u "*") then
    mkTable (t_default t)
            (dset text_eqb main (fmax match dget text_eqb main (t_main t) with Some q => q | None => fzero end qvalue) (t_main t))
            (t_sub t)
  else
    mkTable (t_default t) (t_main t)
            (dset pair_eqb (main, sub)
                  (fmax match dget pair_eqb (main, sub) (t_sub t) with Some q => q | None => fzero end qvalue) (t_sub t)).
Definition table_of (accept_types : list range) : table :=
  fold_left add_range accept_types (mkTable match accept_types with [] => fone | _ => fzero end [] []).
(** accept.py:124-127. *)
Definition quality_of (t : table) (main sub : text) : float :=
  match dget pair_eqb (main, sub) (t_sub t) with
  | Some q => q
  | None => match dget text_eqb main (t_main t) with Some q => q | None => t_default t end
  end.
(** accept.py:119-131: the entries are (1 - quality, order, quality, type). *)
Definition entry : Type := float * nat * float * text.
Fixpoint accepted (t : table) (order : nat) (have_types : list text) : res (list entry) :=
  match have_types with
  | [] => Ok []
  | mtype :: r =>
      match splitc 47 mtype with
      | [main; sub] =>
          let quality := quality_of t main sub in
          if ftrue quality then l <- accepted t (S order) r ;; Ok ((distance quality, order, quality, mtype) :: l)
          else accepted t order r
      | _ => Raise ValueError
      end
  end.
(** accept.py:133: tuples compare by their first different parts, and orders differ. *)
Definition entry_leb (a b : entry) : bool :=
  let '(d1, i, _, _) := a in let '(d2, j, _, _) := b in
  SFltb d1 d2 || (SFeqb d1 d2 && Nat.leb i j).
(** accept.py:84-134. *)
Definition matchTypes (accept_types : list range) (have_types : list text) : res (list (text * float)) :=
  l <- accepted (table_of accept_types) 0 have_types ;;
  Ok (map (fun e : entry => let '(_, _, q, m) := e in (m, q)) (sort entry_leb l)).
(** accept.py:137-151. *)
Definition getAcceptable (fl : text -> option float) (nan_order : list range -> list range)
  (accept_header : text) (have_types : list text) : res (list text) :=
  l <- matchTypes (parseAcceptHeader fl nan_order accept_header) have_types ;; Ok (map fst l).

(** ['%0.1f' % q]: the exact value in tenths, rounded half to even.  Negative and infinite
    values never get here (accept.py:27-28). *)
Definition half_even (n d : Z) : Z :=
  let (t, r) := Z.div_eucl n d in
  match (2 * r ?= d)%Z with Lt => t | Gt => t + 1 | Eq => if Z.even t then t else t + 1 end%Z.
Definition tenths (m : positive) (e : Z) : Z :=
  if (0 <=? e)%Z then (10 * Z.pos m * 2 ^ e)%Z else half_even (10 * Z.pos m) (2 ^ (- e)).
Definition format1 (q : float) : text :=
  match q with
  | S754_zero s => (if s then u "-" else []) ++ u "0.0"
  | S754_infinity s => (if s then u "-" else []) ++ u "inf"
  | S754_nan => u "nan"
  | S754_finite s m e =>
      (if s then u "-" else []) ++ str_of_Z (tenths m e / 10) ++ u "." ++ str_of_Z (tenths m e mod 10)
  end.
(** accept.py:17-32: the quality text and the type of an element, a type or a pair. *)
Definition accept_part (element : text + text * float) : res (text * text) :=
  match element with
  | inl mtype => Ok (u "1.0", mtype)
  | inr (mtype, q) => if SFltb fone q || SFleb q fzero then Raise ValueError else Ok (format1 q, mtype)
  end.
Definition part_leb (a b : text * text) : bool :=
  negb (text_leb (fst b) (fst a)) || (text_eqb (fst a) (fst b) && text_leb (snd a) (snd b)).
(** accept.py:34-42. *)
Definition accept_chunk (p : text * text) : text :=
  if text_eqb (fst p) (u "1.0") then snd p else snd p ++ u "; q=" ++ fst p.
(** accept.py:11-42. *)
Definition generateAcceptHeader (elements : list (text + text * float)) : res text :=
  parts <- mapM accept_part elements ;; Ok (join (u ", ") (map accept_chunk (sort part_leb parts))).

(** [float] of CPython for decimal numbers in ASCII without underscores, correctly rounded
    (simplification: other digits, underscores, inf and nan are refused). *)
Definition round_div (n d : positive) : float :=
  let '(m, e, l) := SFdiv_core_binary prec emax (Z.pos n) 0 (Z.pos d) 0 in binary_round_aux prec emax false m e l.
Definition decimal_float (mant exp10 : Z) : float :=
  match mant with
  | Z0 => fzero
  | Zpos m => if (0 <=? exp10)%Z then binary_normalize prec emax (mant * 10 ^ exp10) 0 false
              else round_div m (Z.to_pos (10 ^ (- exp10)))
  | Zneg _ => fzero                                     (* unreachable *)
  end.
Definition digits0 (s : text) : option Z :=
  match s with [] => Some 0%Z | _ => if memc 95 s then None else option_map (fun d => Z.of_N (N.of_uint d)) (digits s) end.
Definition fneg (s : bool) (q : float) : float :=
  match q with
  | S754_zero b => S754_zero (xorb s b)
  | S754_infinity b => S754_infinity (xorb s b)
  | S754_nan => S754_nan
  | S754_finite b m e => S754_finite (xorb s b) m e
  end.
Definition float_of_text (s : text) : option float :=
  let s := strip s in
  let '(neg, s) := match s with c :: r => if c =? 45 then (true, r) else if c =? 43 then (false, r) else (false, s) | [] => (false, s) end in
  let '(mant, ex) := match cut 101 (lower s) with
                     | Some (a, b) => (a, match int_of_text b with Ok z => if memc 95 b || existsb isspace b then None else Some z | Raise _ => None end)
                     | None => (s, Some 0%Z)
                     end in
  let '(int, frac) := match cut 46 mant with Some (a, b) => (a, b) | None => (mant, []) end in
  match int ++ frac, digits0 int, digits0 frac, digits0 (int ++ frac), ex with
  | _ :: _, Some _, Some _, Some d, Some e => Some (fneg neg (decimal_float d (e - Z.of_N (len frac))))
  | _, _, _, _, _ => None
  end.
