(** UTF-8 as performed by CPython's [str.encode('utf-8')] and
    [bytes.decode('utf-8')] (strict error handling). *)
From Verif Require Import Py.

(** One code point.  Surrogates (and numbers beyond 0x10FFFF, which are not
    Python characters) cannot be encoded. *)
Definition enc1 (c : N) : option bytes :=
  if c <? 128 then Some [c]
  else if c <? 2048 then Some [192 + c / 64; 128 + c mod 64]
  else if c <? 65536 then
    if (55296 <=? c) && (c <=? 57343) then None
    else Some [224 + c / 4096; 128 + (c / 64) mod 64; 128 + c mod 64]
  else if c <? 1114112 then
    Some [240 + c / 262144; 128 + (c / 4096) mod 64; 128 + (c / 64) mod 64; 128 + c mod 64]
  else None.

Fixpoint encode (s : text) : res bytes :=
  match s with
  | [] => Ok []
  | c :: r =>
      match enc1 c with
      | None => Raise UnicodeEncodeError
      | Some b => bs <- encode r ;; Ok (b ++ bs)
      end
  end.

Definition cont (b : N) : bool := (128 <=? b) && (b <=? 191).

(** Decoder; shortest form, no surrogates, at most 0x10FFFF. *)
Fixpoint decode (s : bytes) : res text :=
  match s with
  | [] => Ok []
  | a :: r =>
      if a <? 128 then t <- decode r ;; Ok (a :: t)
      else if a <? 194 then Raise UnicodeDecodeError
      else if a <? 224 then
        match r with
        | b :: r1 =>
            if cont b then t <- decode r1 ;; Ok ((a - 192) * 64 + (b - 128) :: t)
            else Raise UnicodeDecodeError
        | _ => Raise UnicodeDecodeError
        end
      else if a <? 240 then
        match r with
        | b :: c :: r2 =>
            let v := (a - 224) * 4096 + (b - 128) * 64 + (c - 128) in
            if cont b && cont c && (2048 <=? v) && negb ((55296 <=? v) && (v <=? 57343))
            then t <- decode r2 ;; Ok (v :: t)
            else Raise UnicodeDecodeError
        | _ => Raise UnicodeDecodeError
        end
      else if a <? 245 then
        match r with
        | b :: c :: d :: r3 =>
            let v := (a - 240) * 262144 + (b - 128) * 4096 + (c - 128) * 64 + (d - 128) in
            if cont b && cont c && cont d && (65536 <=? v) && (v <? 1114112)
            then t <- decode r3 ;; Ok (v :: t)
            else Raise UnicodeDecodeError
        | _ => Raise UnicodeDecodeError
        end
      else Raise UnicodeDecodeError
  end.
