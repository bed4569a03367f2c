(** Model of /repo/openid/association.py. *)
From Verif Require Import Py Utf8 KVForm CryptUtil Message.

(** association.py:49-64. *)
Definition all_association_types : list text := [u "HMAC-SHA256"; u "HMAC-SHA1"].
Definition default_association_order : list (text * text) :=
  [(u "HMAC-SHA256", u "DH-SHA256"); (u "HMAC-SHA256", u "no-encryption");
   (u "HMAC-SHA1", u "DH-SHA1"); (u "HMAC-SHA1", u "no-encryption")].
Definition only_encrypted_association_order : list (text * text) :=
  [(u "HMAC-SHA256", u "DH-SHA256"); (u "HMAC-SHA1", u "DH-SHA1")].

(** association.py:67-73 [getSessionTypes]. *)
Definition getSessionTypes (assoc_type : text) : list text :=
  match dget text_eqb assoc_type
          [(u "HMAC-SHA256", [u "DH-SHA256"; u "no-encryption"]);
           (u "HMAC-SHA1", [u "DH-SHA1"; u "no-encryption"])] with
  | Some l => l
  | None => []
  end.

(** association.py:76-82 [checkSessionType]. *)
Definition checkSessionType (assoc_type session_type : text) : res unit :=
  if negb (mem_text session_type (getSessionTypes assoc_type)) then Raise ValueError else Ok tt.

(** association.py:85-184 [SessionNegotiator]; the state is [allowed_types] (a list
    from [__init__] on, so the None case of line 156 does not occur). *)
Definition negotiator := list (text * text).
Definition type_pair_eqb (a b : text * text) : bool :=
  text_eqb (fst a) (fst b) && text_eqb (snd a) (snd b).

(** association.py:139-150 [setAllowedTypes] (and [__init__], line 133).  Returns
    the state afterwards and the outcome. *)
Definition setAllowedTypes (n : negotiator) (allowed_types : list (text * text)) : negotiator * res unit :=
  match foldM (fun _ p => checkSessionType (fst p) (snd p)) tt allowed_types with
  | Ok _ => (allowed_types, Ok tt)
  | Raise e => (n, Raise e)
  end.

(** association.py:168-170: the branch with a given session type. *)
Definition addAllowedType1 (n : negotiator) (assoc_type session_type : text) : negotiator * res unit :=
  match checkSessionType assoc_type session_type with
  | Ok _ => (n ++ [(assoc_type, session_type)], Ok tt)
  | Raise e => (n, Raise e)
  end.
(** association.py:166-167: the loop over the available session types. *)
Fixpoint addAll (n : negotiator) (assoc_type : text) (sessions : list text) : negotiator * res unit :=
  match sessions with
  | [] => (n, Ok tt)
  | s :: r => match addAllowedType1 n assoc_type s with
              | (n', Ok _) => addAll n' assoc_type r
              | (n', Raise e) => (n', Raise e)
              end
  end.
(** association.py:152-170 [addAllowedType]. *)
Definition addAllowedType (n : negotiator) (assoc_type : text) (session_type : option text)
  : negotiator * res unit :=
  match session_type with
  | None =>
      match getSessionTypes assoc_type with
      | [] => (n, Raise ValueError)
      | available => addAll n assoc_type available
      end
  | Some s => addAllowedType1 n assoc_type s
  end.

(** association.py:172-176 [isAllowed]. *)
Definition isAllowed (n : negotiator) (assoc_type session_type : text) : bool :=
  existsb (type_pair_eqb (assoc_type, session_type)) n
  && mem_text session_type (getSessionTypes assoc_type).

(** association.py:178-184 [getAllowedType]; None stands for [(None, None)]. *)
Definition getAllowedType (n : negotiator) : option (text * text) :=
  match n with [] => None | p :: _ => Some p end.

(** association.py:187-188. *)
Definition default_negotiator : negotiator := fst (setAllowedTypes [] default_association_order).
Definition encrypted_negotiator : negotiator := fst (setAllowedTypes [] only_encrypted_association_order).

(** association.py:191-197 [getSecretSize]. *)
Definition getSecretSize (assoc_type : text) : res N :=
  if text_eqb assoc_type (u "HMAC-SHA1") then Ok 20
  else if text_eqb assoc_type (u "HMAC-SHA256") then Ok 32
  else Raise ValueError.

(** association.py:200: an association; [issued] and [lifetime] are integers. *)
Record assoc := mkAssoc {
  a_handle : text;
  a_secret : bytes;
  a_issued : Z;
  a_lifetime : Z;
  a_type : text
}.

(** association.py:295-345 [__init__]. *)
Definition newAssoc (handle : text) (secret : bytes) (issued lifetime : Z) (assoc_type : text) : res assoc :=
  if negb (mem_text assoc_type all_association_types) then Raise ValueError
  else Ok (mkAssoc handle secret issued lifetime assoc_type).

(** association.py:262-293 [fromExpiresIn]; [now] is [int(time.time())]. *)
Definition fromExpiresIn (now : Z) (expires_in : Z) (handle : text) (secret : bytes) (assoc_type : text) : res assoc :=
  newAssoc handle secret now expires_in assoc_type.

(** association.py:347-361 [getExpiresIn]. *)
Definition getExpiresIn (a : assoc) (now : Z) : Z := Z.max 0 (a_issued a + a_lifetime a - now).

(** association.py:247-254. *)
Definition assoc_keys : list text :=
  map u ["version"; "handle"; "secret"; "issued"; "lifetime"; "assoc_type"]%string.

(** association.py:391-414 [serialize]. *)
Definition serialize (a : assoc) : res text :=
  seqToKV true
    [(u "version", u "2"); (u "handle", a_handle a); (u "secret", toBase64 (a_secret a));
     (u "issued", str_of_Z (a_issued a)); (u "lifetime", str_of_Z (a_lifetime a));
     (u "assoc_type", a_type a)].

(** association.py:416-446 [deserialize]. *)
Definition deserialize (assoc_s : text) : res assoc :=
  pairs <- kvToSeq true assoc_s ;;
  if negb (list_eqb text_eqb (map fst pairs) assoc_keys) then Raise ValueError
  else match map snd pairs with
       | [version; handle; secret; issued; lifetime; assoc_type] =>
           if negb (text_eqb version (u "2")) then Raise ValueError
           else
             issued <- int_of_text issued ;;
             lifetime <- int_of_text lifetime ;;
             secret <- fromBase64 secret ;;
             newAssoc handle secret issued lifetime assoc_type
       | _ => Raise ValueError            (* unreachable: there are six keys *)
       end.

Section Mac.
  (** HMAC of the cryptography package: [hmac assoc_type key data]. *)
  Variable hmac : text -> bytes -> bytes -> bytes.

  (** association.py:448-471 [sign]. *)
  Definition sign (a : assoc) (pairs : list (text * text)) : res bytes :=
    kv <- seqToKV false pairs ;;
    if negb (mem_text (a_type a) [u "HMAC-SHA1"; u "HMAC-SHA256"]) then Raise ValueError
    else data <- encode kv ;; Ok (hmac (a_type a) (a_secret a) data).

  (** association.py:526-536 [_makePairs]. *)
  Definition makePairs (message : msg) : res (list (text * text)) :=
    signed <- getArg message OPENID_NS (u "signed") ;;
    match signed with
    | Some s =>
        if negb (truthy s) then Raise ValueError
        else
          let data := toPostArgs message in
          Ok (map (fun field => (field, match dget text_eqb (u "openid." ++ field) data with
                                        | Some v => v | None => [] end))
                  (splitc 44 s))
    | None => Raise ValueError
    end.

  (** association.py:473-486 [getMessageSignature]. *)
  Definition getMessageSignature (a : assoc) (message : msg) : res text :=
    pairs <- makePairs message ;;
    sig <- sign a pairs ;;
    Ok (toBase64 sig).

  (** association.py:502-506: names of the openid.* parameters, plus 'signed', sorted. *)
  Definition signed_list_of (message_keys : list text) : list text :=
    sort text_leb
      (map (skipn 7) (filter (fun k => startswith k (u "openid.")) message_keys) ++ [u "signed"]).

  (** association.py:488-511 [signMessage]. *)
  Definition signMessage (a : assoc) (message : msg) : res msg :=
    has_sig <- hasKey message OPENID_NS (u "sig") ;;
    has_signed <- (if has_sig then Ok true else hasKey message OPENID_NS (u "signed")) ;;
    if has_sig || has_signed then Raise ValueError
    else
      extant_handle <- getArg message OPENID_NS (u "assoc_handle") ;;
      if match extant_handle with
         | Some h => truthy h && negb (text_eqb h (a_handle a))
         | None => false
         end
      then Raise ValueError
      else
        m1 <- setArg message OPENID_NS (u "assoc_handle") (a_handle a) ;;
        let signed_list := signed_list_of (dkeys (toPostArgs m1)) in
        m2 <- setArg m1 OPENID_NS (u "signed") (join [44] signed_list) ;;
        sig <- getMessageSignature a m2 ;;
        setArg m2 OPENID_NS (u "sig") sig.

  (** association.py:513-524 [checkMessageSignature]; [bytes_eq] compares byte strings. *)
  Definition checkMessageSignature (a : assoc) (message : msg) : res bool :=
    message_sig <- getArg message OPENID_NS (u "sig") ;;
    match message_sig with
    | Some s =>
        if negb (truthy s) then Raise ValueError
        else
          calculated_sig <- getMessageSignature a message ;;
          b1 <- encode calculated_sig ;;
          b2 <- encode s ;;
          Ok (list_eqb N.eqb b1 b2)
    | None => Raise ValueError
    end.
End Mac.
