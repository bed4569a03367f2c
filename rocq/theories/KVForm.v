(** Model of /repo/openid/kvform.py. *)
From Verif Require Import Py.

Definition newline : N := 10.
Definition colon : N := 58.

(** kvform.py:20-69 [seqToKV].  Keys and values are text already (the
    non-text conversions of lines 39-47 concern other Python types).  [strict]
    turns the [err] calls of lines 57-58 and 64-65 into KVFormError; without it
    they only log. *)
Definition seqToKV_line (strict : bool) (kv : text * text) : res text :=
  let (k, v) := kv in
  if memc newline k then Raise KVFormError
  else if memc colon k then Raise KVFormError
  else if strict && negb (text_eqb (strip k) k) then Raise KVFormError
  else if memc newline v then Raise KVFormError
  else if strict && negb (text_eqb (strip v) v) then Raise KVFormError
  else Ok (k ++ [colon] ++ v ++ [newline]).

Definition seqToKV (strict : bool) (seq : list (text * text)) : res text :=
  lines <- mapM (seqToKV_line strict) seq ;; Ok (List.concat lines).

(** kvform.py:102-129, one line of the loop of [kvToSeq]: [None] when the line
    contributes no pair. *)
Definition kvToSeq_line (strict : bool) (line : text) : res (option (text * text)) :=
  if negb (truthy (strip line)) then Ok None
  else match cut colon line with
       | Some (k, v) =>
           let k_s := strip k in
           let v_s := strip v in
           if strict && negb (text_eqb k_s k) then Raise KVFormError
           else if strict && negb (truthy k_s) then Raise KVFormError
           else if strict && negb (text_eqb v_s v) then Raise KVFormError
           else Ok (Some (k_s, v_s))
       | None => if strict then Raise KVFormError else Ok None
       end.

Definition catSome {A} (l : list (option A)) : list A :=
  flat_map (fun o => match o with Some a => [a] | None => [] end) l.

(** kvform.py:94-98: split in lines; an unterminated last line is kept (an error
    in strict mode), the empty piece after a final newline is dropped. *)
Definition kvLines (strict : bool) (data : text) : res (list text) :=
  let lines := splitc newline data in
  match List.last lines [] with
  | [] => Ok (removelast lines)
  | _ => if strict then Raise KVFormError else Ok lines
  end.

(** kvform.py:72-131 [kvToSeq]. *)
Definition kvToSeq (strict : bool) (data : text) : res (list (text * text)) :=
  lines <- kvLines strict data ;;
  ps <- mapM (kvToSeq_line strict) lines ;;
  Ok (catSome ps).

(** Ordering of [sorted(d.items())]: pairs of texts compare lexicographically. *)
Definition pair_leb (a b : text * text) : bool :=
  if text_eqb (fst a) (fst b) then text_leb (snd a) (snd b) else text_leb (fst a) (fst b).

(** kvform.py:134-136 [dictToKV]. *)
Definition dictToKV (d : dict text text) : res text := seqToKV false (sort pair_leb d).

(** kvform.py:139-140 [kvToDict]. *)
Definition kvToDict (s : text) : res (dict text text) :=
  ps <- kvToSeq false s ;; Ok (dict_of text_eqb ps).
