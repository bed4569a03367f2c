(** Model of /repo/openid/cryptutil.py and the base64 functions of
    /repo/openid/oidutil.py (lines 108-128). *)
From Verif Require Import Py.

(** ** binascii.b2a_base64 / a2b_base64 (CPython) *)

(** One base64 digit. *)
Definition b64char (n : N) : N :=
  if n <? 26 then 65 + n            (* A-Z *)
  else if n <? 52 then 71 + n       (* a-z *)
  else if n <? 62 then n - 4        (* 0-9 *)
  else if n =? 62 then 43           (* + *)
  else 47.                          (* / *)

(** Value of a character, [None] when it is not in the alphabet. *)
Definition b64val (c : N) : option N :=
  if (65 <=? c) && (c <=? 90) then Some (c - 65)
  else if (97 <=? c) && (c <=? 122) then Some (c - 71)
  else if (48 <=? c) && (c <=? 57) then Some (c + 4)
  else if c =? 43 then Some 62
  else if c =? 47 then Some 63
  else None.

Definition pad : N := 61.           (* = *)

Fixpoint b2a_base64 (s : bytes) : text :=
  match s with
  | [] => []
  | [a] => [b64char (a / 4); b64char (a mod 4 * 16); pad; pad]
  | [a; b] => [b64char (a / 4); b64char (a mod 4 * 16 + b / 16); b64char (b mod 16 * 4); pad]
  | a :: b :: c :: r =>
      b64char (a / 4) :: b64char (a mod 4 * 16 + b / 16) ::
      b64char (b mod 16 * 4 + c / 64) :: b64char (c mod 64) :: b2a_base64 r
  end.

(** The decoding loop of binascii.c (non-strict mode): characters outside the
    alphabet are skipped, a complete padding stops the decoding, an incomplete
    quad at the end is an error.  [q] is [quad_pos], [l] is [leftchar], [p] is
    [pads]. *)
Fixpoint a2b_loop (q l p : N) (s : text) : res bytes :=
  match s with
  | [] => if q =? 0 then Ok [] else Raise ValueError
  | c :: r =>
      if c =? pad then
        if 2 <=? q then (if 4 <=? q + (p + 1) then Ok [] else a2b_loop q l (p + 1) r)
        else a2b_loop q l p r
      else match b64val c with
           | None => a2b_loop q l p r
           | Some v =>
               if q =? 0 then a2b_loop 1 v 0 r
               else if q =? 1 then (bs <- a2b_loop 2 (v mod 16) 0 r ;; Ok (l * 4 + v / 16 :: bs))
               else if q =? 2 then (bs <- a2b_loop 3 (v mod 4) 0 r ;; Ok (l * 16 + v / 4 :: bs))
               else (bs <- a2b_loop 0 0 0 r ;; Ok (l * 64 + v :: bs))
           end
  end.

(** oidutil.py:108-114 [toBase64]: b2a_base64 without the final newline. *)
Definition toBase64 (s : bytes) : text := b2a_base64 s.

(** oidutil.py:117-128 [fromBase64]: non-ASCII text is refused by binascii with
    ValueError; binascii.Error is converted to ValueError.  Also models
    [base64.b64decode], whose binascii.Error is a ValueError. *)
Definition fromBase64 (s : text) : res bytes :=
  if forallb (fun c => c <? 128) s then a2b_loop 0 0 0 s else Raise ValueError.

(** ** Integers *)

(** Lower case hexadecimal digit and ['{:x}'.format(n)]. *)
Definition hexlow (n : N) : N := if n <? 10 then 48 + n else 87 + n.
Fixpoint hex_digits (fuel : nat) (n : N) (acc : text) : text :=
  match fuel with
  | O => acc
  | S f => if n <? 16 then hexlow n :: acc else hex_digits f (n / 16) (hexlow (n mod 16) :: acc)
  end.
Definition hex_of_Z (z : Z) : text :=
  match z with
  | Z0 => [48]
  | Zpos p => hex_digits (Pos.size_nat p) (Npos p) []
  | Zneg p => 45 :: hex_digits (Pos.size_nat p) (Npos p) []
  end.

(** [bytearray.fromhex] on a text without white space (the only use has none). *)
Fixpoint fromhex (s : text) : res bytes :=
  match s with
  | [] => Ok []
  | [_] => Raise ValueError
  | a :: b :: r =>
      match hexval a, hexval b with
      | Some x, Some y => bs <- fromhex r ;; Ok (x * 16 + y :: bs)
      | _, _ => Raise ValueError
      end
  end.

(** [codecs.encode(value, 'hex')]. *)
Definition hexlify (s : bytes) : text := flat_map (fun b => [hexlow (b / 16); hexlow (b mod 16)]) s.

(** [int(s, 16)] on a string of hexadecimal digits (the only use); empty and
    non-hexadecimal input is a ValueError. *)
Fixpoint hex_value (acc : N) (s : text) : res N :=
  match s with
  | [] => Ok acc
  | c :: r => match hexval c with Some v => hex_value (acc * 16 + v) r | None => Raise ValueError end
  end.
Definition int16 (s : text) : res Z :=
  match s with [] => Raise ValueError | _ => n <- hex_value 0 s ;; Ok (Z.of_N n) end.

(** cryptutil.py:25-32 [bytes_to_int]. *)
Definition bytes_to_int (s : bytes) : res Z := int16 (hexlify s).

(** cryptutil.py:35-49 [fix_btwoc]; [array[0]] on empty input is an IndexError. *)
Definition fix_btwoc (s : bytes) : res bytes :=
  match s with
  | [] => Raise IndexError
  | a :: _ => if 127 <? a then Ok (0 :: s) else Ok s
  end.

(** cryptutil.py:52-64 [int_to_bytes]. *)
Definition int_to_bytes (z : Z) : res bytes :=
  let hex_value := hex_of_Z z in
  let hex_value := if Nat.odd (List.length hex_value) then 48 :: hex_value else hex_value in
  array <- fromhex hex_value ;;
  fix_btwoc array.

(** cryptutil.py:78-79 [longToBase64], 82-83 [base64ToLong]. *)
Definition longToBase64 (z : Z) : res text := b <- int_to_bytes z ;; Ok (toBase64 b).
Definition base64ToLong (s : text) : res Z := b <- fromBase64 s ;; bytes_to_int b.
