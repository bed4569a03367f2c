(** Model of /repo/openid/extensions/sreg.py.  Field names and values are texts (deprecated
    binary input and [force_text] of other values are not modelled). *)
From Verif Require Import Py Message Endpoint Consumer.

Local Arguments u : simpl never.

(** sreg.py:62-72, the keys of data_fields in order. *)
Definition data_fields : list text :=
  [u "fullname"; u "nickname"; u "dob"; u "email"; u "gender"; u "postcode"; u "country"; u "language"; u "timezone"].
(** sreg.py:75-84. *)
Definition checkFieldName (field_name : text) : res unit := if mem_text field_name data_fields then Ok tt else Raise ValueError.
(** sreg.py:89-97. *)
Definition sreg_1_0 : text := u "http://openid.net/sreg/1.0".
Definition sreg_1_1 : text := u "http://openid.net/extensions/sreg/1.1".
Definition sreg_alias : text := u "sreg".
(** sreg.py:105-115. *)
Definition supportsSReg (ep : endpoint) : bool := usesExtension ep sreg_1_1 || usesExtension ep sreg_1_0.

(** sreg.py:133-171; the map is changed in place.  SRegNamespaceError is a ValueError. *)
Definition getSRegNS (m : msg) : msg * res text :=
  match getAlias (mns m) sreg_1_1, getAlias (mns m) sreg_1_0 with
  | Some _, _ => (m, Ok sreg_1_1)
  | None, Some _ => (m, Ok sreg_1_0)
  | None, None =>
      let (n', r) := addAlias (mns m) sreg_1_1 (Al sreg_alias) false in
      (mkMsg (margs m) n',
       match r with Ok _ => Ok sreg_1_1 | Raise x => if isKeyError x then Raise ValueError else Raise x end)
  end.

(** sreg.py:174-210, SRegRequest. *)
Record sreg_request := mkSReq { sq_required : list text; sq_optional : list text; sq_policy_url : option text; sq_ns : text }.
(** [list.remove]: the first occurrence. *)
Fixpoint remove_first (x : text) (l : list text) : list text :=
  match l with [] => [] | y :: r => if text_eqb x y then r else y :: remove_first x r end.
(** sreg.py:314-352. *)
Definition requestField (r : sreg_request) (field_name : text) (required strict : bool) : res sreg_request :=
  _ <- checkFieldName field_name ;;
  let append (r : sreg_request) :=
    if required then mkSReq (sq_required r ++ [field_name]) (sq_optional r) (sq_policy_url r) (sq_ns r)
    else mkSReq (sq_required r) (sq_optional r ++ [field_name]) (sq_policy_url r) (sq_ns r) in
  if strict then
    if mem_text field_name (sq_required r) || mem_text field_name (sq_optional r) then Raise ValueError else Ok (append r)
  else if mem_text field_name (sq_required r) then Ok r
  else if mem_text field_name (sq_optional r) then
    if required then Ok (append (mkSReq (sq_required r) (remove_first field_name (sq_optional r)) (sq_policy_url r) (sq_ns r)))
    else Ok r
  else Ok (append r).
(** sreg.py:354-378 on a list.  What was added before an error stays; only the error is kept
    here because all callers drop the object or pass it on to the application. *)
Definition requestFields (r : sreg_request) (names : list text) (required strict : bool) : res sreg_request :=
  foldM (fun r n => requestField r n required strict) r names.
(** sreg.py:195-210. *)
Definition newSRegRequest (required optional : list text) (policy_url : option text) (ns : text) : res sreg_request :=
  r <- requestFields (mkSReq [] [] policy_url ns) required true true ;;
  requestFields r optional false true.
(** sreg.py:236-286. *)
Definition parse_list (r : sreg_request) (items : option text) (required strict : bool) : res sreg_request :=
  match items with
  | Some (c :: s) =>
      foldM (fun r n => match requestField r n required strict with
                        | Raise x => if isValueError x then if strict then Raise x else Ok r else Raise x
                        | ok => ok
                        end) r (splitc 44 (c :: s))
  | _ => Ok r
  end.
Definition sreg_parseExtensionArgs (r : sreg_request) (args : dict text text) (strict : bool) : res sreg_request :=
  r <- parse_list r (dget text_eqb (u "required") args) true strict ;;
  r <- parse_list r (dget text_eqb (u "optional") args) false strict ;;
  Ok (mkSReq (sq_required r) (sq_optional r) (dget text_eqb (u "policy_url") args) (sq_ns r)).
(** sreg.py:288-312. *)
Definition allRequestedFields (r : sreg_request) : list text := sq_required r ++ sq_optional r.
(** sreg.py:380-400. *)
Definition sreg_request_args (r : sreg_request) : dict text text :=
  (match sq_required r with [] => [] | l => [(u "required", join [44] l)] end) ++
  (match sq_optional r with [] => [] | l => [(u "optional", join [44] l)] end) ++
  (match sq_policy_url r with Some (c :: t) => [(u "policy_url", c :: t)] | _ => [] end).
(** sreg.py:212-234, on a copy of the message of the request. *)
Definition sreg_fromOpenIDRequest (m : msg) : res sreg_request :=
  let (m', r) := getSRegNS m in
  ns <- r ;;
  args <- getArgs m' (NS ns) ;;
  sreg_parseExtensionArgs (mkSReq [] [] None ns) args false.

(** sreg.py:403-427, SRegResponse; [getExtensionArgs] returns the data. *)
Record sreg_response := mkSResp { sp_data : dict text text; sp_ns : text }.
(** sreg.py:429-454; an absent key and None are the same. *)
Definition extractResponse (r : sreg_request) (data : dict text text) : sreg_response :=
  mkSResp (fold_left (fun d f => match dget text_eqb f data with Some v => dset text_eqb f v d | None => d end) (allRequestedFields r) [])
          (sq_ns r).
(** sreg.py:460-495.  The message of the response may get the alias. *)
Definition sreg_fromSuccessResponse (m : msg) (signed_fields : list text) (signed_only : bool) : msg * res (option sreg_response) :=
  let (m', r) := getSRegNS m in
  (m', ns <- r ;;
       args <- (if signed_only then getSignedNS m' signed_fields (NS ns) else a <- getArgs m' (NS ns) ;; Ok (Some a)) ;;
       match args with
       | Some (e :: l) =>
           Ok (Some (mkSResp (flat_map (fun f => match dget text_eqb f (e :: l) with Some v => [(f, v)] | None => [] end) data_fields) ns))
       | _ => Ok None
       end).
