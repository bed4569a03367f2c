(** Model of /repo/openid/extensions/ax.py.  Attribute values, type URIs and aliases are texts
    (deprecated binary input and [force_text] of other values are not modelled). *)
From Verif Require Import Py UrlLib TrustRoot Message Consumer.

Local Arguments u : simpl never.

(** ax.py:67-69. *)
Definition ax_alias : text := u "ax".
Definition ax_ns : text := u "http://openid.net/srv/ax/1.0".
(** ax.py:31-39. *)
Definition checkAlias (al : text) : res unit := if memc 44 al then Raise AXError else if memc 46 al then Raise AXError else Ok tt.
(** ax.py:71-85. *)
Definition checkMode (mode : text) (ax_args : dict text text) : res unit :=
  match dget text_eqb (u "mode") ax_args with
  | Some m => if text_eqb m mode then Ok tt else if truthy m then Raise AXError else Raise NotAXMessage
  | None => Raise NotAXMessage
  end.

(** ax.py:28 and 95-141; [count] is an integer or UNLIMITED_VALUES. *)
Inductive count := Num (z : Z) | Unlimited.
Definition count_text (c : count) : text := match c with Num z => str_of_Z z | Unlimited => u "unlimited" end.
Definition is_one (c : count) : bool := match c with Num z => (z =? 1)%Z | Unlimited => false end.
Record attr := mkAttr { at_uri : text; at_count : count; at_required : bool; at_alias : option text }.
Definition AttrInfo (type_uri : text) (c : count) (required : bool) (al : option text) : res attr :=
  _ <- match al with Some a => checkAlias a | None => Ok tt end ;;
  Ok (mkAttr type_uri c required al).

(** ax.py:144-176. *)
Definition toTypeURIs (m : nsmap) (alias_list_s : option text) : res (list text) :=
  match alias_list_s with
  | Some (c :: s) => mapM (fun a => match getNamespaceURI m (Al a) with None => Raise KeyError | Some t => Ok t end) (splitc 44 (c :: s))
  | _ => Ok []
  end.

(** ax.py:179-214, FetchRequest. *)
Record fetch_request := mkFetchReq { fr_attrs : dict text attr; fr_update : option text }.
Definition fr_add (r : fetch_request) (a : attr) : res fetch_request :=
  if dhas text_eqb (at_uri a) (fr_attrs r) then Raise KeyError
  else Ok (mkFetchReq (dset text_eqb (at_uri a) a (fr_attrs r)) (fr_update r)).

(** The alias an attribute gets (ax.py:230-246, 638-641). *)
Definition new_alias (m : nsmap) (type_uri : text) (desired : option text) : nsmap * res alias :=
  match desired with None => Message.add m type_uri | Some a => addAlias m type_uri (Al a) false end.
(** An alias as text; the null alias is never given out here. *)
Definition al_text (a : alias) : text := match a with Al x => x | Null => [] end.
(** ax.py:216-264. *)
Record fr_state := mkFrState { fs_aliases : nsmap; fs_required : list text; fs_if_available : list text; fs_args : dict text text }.
Definition fr_step (s : fr_state) (e : text * attr) : res fr_state :=
  let (type_uri, attribute) := e in
  let (m', r) := new_alias (fs_aliases s) type_uri (at_alias attribute) in
  al <- r ;;
  let al := al_text al in
  let args := if is_one (at_count attribute) then fs_args s
              else dset text_eqb (u "count." ++ al) (count_text (at_count attribute)) (fs_args s) in
  Ok (mkFrState m' (if at_required attribute then fs_required s ++ [al] else fs_required s)
                (if at_required attribute then fs_if_available s else fs_if_available s ++ [al])
                (dset text_eqb (u "type." ++ al) type_uri args)).
Definition fetch_request_args (r : fetch_request) : res (dict text text) :=
  s <- foldM fr_step (mkFrState empty_nsmap [] [] [(u "mode", u "fetch_request")]) (fr_attrs r) ;;
  let args := match fs_required s with [] => fs_args s | l => dset text_eqb (u "required") (join [44] l) (fs_args s) end in
  Ok (match fs_if_available s with [] => args | l => dset text_eqb (u "if_available") (join [44] l) args end).
(** ax.py:266-279. *)
Definition getRequiredAttrs (r : fetch_request) : list text := map fst (filter (fun e => at_required (snd e)) (fr_attrs r)).

(** ax.py:353-365, the count of an attribute. *)
Definition read_count (count_s : option text) : res count :=
  match count_s with
  | Some (c :: s) =>
      match (z <- int_of_text (c :: s) ;; if (z <=? 0)%Z then Raise AXError else Ok (Num z)) with
      | Ok c => Ok c
      | Raise x => if isValueError x then if text_eqb (c :: s) (u "unlimited") then Ok Unlimited else Raise AXError else Raise x
      end
  | _ => Ok (Num 1)
  end.
(** ax.py:347-367, one argument. *)
Definition fetch_step (ax_args : dict text text) (s : nsmap * fetch_request) (e : text * text) : res (nsmap * fetch_request) :=
  let (key, value) := e in
  if startswith key (u "type.") then
    let al := skipn 5 key in
    let (m', r) := addAlias (fst s) value (Al al) false in
    _ <- r ;;
    c <- read_count (dget text_eqb (u "count." ++ al) ax_args) ;;
    a <- AttrInfo value c false (Some al) ;;
    r <- fr_add (snd s) a ;;
    Ok (m', r)
  else Ok s.
(** ax.py:371-372: a required type is always one of the request. *)
Definition set_required (r : fetch_request) (type_uri : text) : res fetch_request :=
  match dget text_eqb type_uri (fr_attrs r) with
  | Some a => Ok (mkFetchReq (dset text_eqb type_uri (mkAttr (at_uri a) (at_count a) true (at_alias a)) (fr_attrs r)) (fr_update r))
  | None => Raise KeyError
  end.
(** ax.py:324-384, FetchRequest.parseExtensionArgs on a new object. *)
Definition fetch_request_parse (ax_args : dict text text) : res fetch_request :=
  _ <- checkMode (u "fetch_request") ax_args ;;
  '(m, r) <- foldM (fetch_step ax_args) (empty_nsmap, mkFetchReq [] None) ax_args ;;
  required <- toTypeURIs m (dget text_eqb (u "required") ax_args) ;;
  r <- foldM set_required r required ;;
  if_available <- toTypeURIs m (dget text_eqb (u "if_available") ax_args) ;;
  if forallb (fun t => mem_text t (required ++ if_available)) (dkeys (n2a m))
  then Ok (mkFetchReq (fr_attrs r) (dget text_eqb (u "update_url") ax_args))
  else Raise AXError.

Section Realm.
  Variable e : uenv.
  (** ax.py:281-322. *)
  Definition fetch_fromOpenIDRequest (message : msg) : res (option fetch_request) :=
    ax_args <- getArgs message (NS ax_ns) ;;
    match fetch_request_parse ax_args with
    | Raise NotAXMessage => Ok None
    | Raise x => Raise x
    | Ok r =>
        match fr_update r with
        | Some (c :: t) =>
            return_to <- getArg message OPENID_NS (u "return_to") ;;
            realm <- getArg message OPENID_NS (u "realm") ;;
            match (match realm with Some v => Some v | None => return_to end) with
            | Some (c' :: t') =>
                tr <- parse e (c' :: t') ;;
                match tr with
                | None => Raise AttributeError        (* None.validateURL *)
                | Some tr => b <- validateURL e tr (c :: t) ;; if (b : bool) then Ok (Some r) else Raise AXError
                end
            | _ => Raise AXError
            end
        | _ => Ok (Some r)
        end
    end.
End Realm.

(** ax.py:405-446, the data of AXKeyValueMessage. *)
Definition kv_data := dict text (list text).
Definition addValue (d : kv_data) (type_uri value : text) : kv_data :=
  dset text_eqb type_uri (match dget text_eqb type_uri d with Some l => l | None => [] end ++ [value]) d.
Definition setValues (d : kv_data) (type_uri : text) (values : list text) : kv_data := dset text_eqb type_uri values d.
Definition value_key (al : text) (i : nat) : text := u "value." ++ al ++ u "." ++ str_of_N (N.of_nat i).
(** ax.py:448-470; also gives the map of aliases, which is changed in place. *)
Definition kv_step (s : nsmap * dict text text) (e : text * list text) : res (nsmap * dict text text) :=
  let (type_uri, values) := e in
  let (m', r) := Message.add (fst s) type_uri in
  al <- r ;;
  let al := al_text al in
  let args := dset text_eqb (u "type." ++ al) type_uri (snd s) in
  let args := dset text_eqb (u "count." ++ al) (str_of_N (N.of_nat (List.length values))) args in
  Ok (m', fold_left (fun d iv => dset text_eqb (value_key al (fst iv)) (snd iv) d) (combine (seq 1 (List.length values)) values) args).
Definition getExtensionKVArgs (m : nsmap) (data : kv_data) : res (nsmap * dict text text) := foldM kv_step (m, []) data.

(** ax.py:500-515: the values of one alias.  A count that is no positive number gives none. *)
Definition read_values (ax_args : dict text text) (al : text) : res (list text) :=
  match dget text_eqb (u "count." ++ al) ax_args with
  | None => match dget text_eqb (u "value." ++ al) ax_args with
            | None => Raise KeyError
            | Some v => Ok (if truthy v then [v] else [])
            end
  | Some count_s =>
      n <- int_of_text count_s ;;
      mapM (fun i => match dget text_eqb (value_key al i) ax_args with None => Raise KeyError | Some v => Ok v end) (seq 1 (Z.to_nat n))
  end.
Definition kv_alias_step (m : nsmap) (e : text * text) : res nsmap :=
  let (key, value) := e in
  if startswith key (u "type.") then
    _ <- checkAlias (skipn 5 key) ;;
    let (m', r) := addAlias m value (Al (skipn 5 key)) false in _ <- r ;; Ok m'
  else Ok m.
(** ax.py:472-517 on a new object. *)
Definition kv_parse (mode : text) (ax_args : dict text text) : res kv_data :=
  _ <- checkMode mode ax_args ;;
  m <- foldM kv_alias_step empty_nsmap ax_args ;;
  foldM (fun d e => v <- read_values ax_args (al_text (snd e)) ;; Ok (dset text_eqb (fst e) v d)) [] (n2a m).
(** ax.py:519-546 with default None. *)
Definition getSingle (d : kv_data) (type_uri : text) : res (option text) :=
  match dget text_eqb type_uri d with
  | Some [v] => Ok (Some v)
  | Some (_ :: _ :: _) => Raise AXError
  | _ => Ok None
  end.

(** ax.py:583-608, FetchResponse. *)
Record fetch_response := mkFetchResp { fp_data : kv_data; fp_update : option text; fp_request : option fetch_request }.
(** ax.py:610-674, the request part is 635-652. *)
Definition fr_check_step (data : kv_data) (s : nsmap * list text) (e : text * attr) : res (nsmap * list text) :=
  let a := snd e in
  let (m', r) := new_alias (fst s) (at_uri a) (at_alias a) in
  _ <- r ;;
  let values := dget text_eqb (at_uri a) data in
  let n := match values with Some l => List.length l | None => O end in
  if match at_count a with Unlimited => false | Num z => (z <? Z.of_nat n)%Z end then Raise AXError
  else Ok (m', match values with Some _ => snd s | None => snd s ++ [at_uri a] end).
Definition fetch_response_args (r : fetch_response) : res (dict text text) :=
  '(m, zero) <- match fp_request r with
                | None => Ok (empty_nsmap, [])
                | Some q =>
                    if forallb (fun t => dhas text_eqb t (fr_attrs q)) (dkeys (fp_data r))
                    then foldM (fr_check_step (fp_data r)) (empty_nsmap, []) (fr_attrs q)
                    else Raise KeyError
                end ;;
  '(m, kv) <- getExtensionKVArgs m (fp_data r) ;;
  let kv := fold_left (fun d t => let al := match getAlias m t with Some a => al_text a | None => [] end in
                                  dset text_eqb (u "count." ++ al) (u "0") (dset text_eqb (u "type." ++ al) t d)) zero kv in
  let update_url := match fp_request r with
                    | Some q => if otruthy (fr_update q) then fr_update q else fp_update r
                    | None => fp_update r
                    end in
  let args := [(u "mode", u "fetch_response")] ++ (if otruthy update_url then match update_url with Some v => [(u "update_url", v)] | None => [] end else []) in
  Ok (fold_left (fun d e => dset text_eqb (fst e) (snd e) d) kv args).
(** ax.py:676-679. *)
Definition fetch_response_parse (ax_args : dict text text) : res fetch_response :=
  d <- kv_parse (u "fetch_response") ax_args ;;
  Ok (mkFetchResp d (dget text_eqb (u "update_url") ax_args) None).
(** ax.py:681-708; without the extension in the (signed) response there is no dictionary to look
    the mode up in. *)
Definition fetch_fromSuccessResponse (m : msg) (signed_fields : list text) (signed : bool) : res (option fetch_response) :=
  ax_args <- extensionResponse m signed_fields (NS ax_ns) signed ;;
  match ax_args with
  | None => Raise AttributeError
  | Some a => match fetch_response_parse a with
              | Raise NotAXMessage => Ok None
              | Raise x => Raise x
              | Ok r => Ok (Some r)
              end
  end.

(** ax.py:711-760, StoreRequest. *)
Definition store_request_args (aliases : nsmap) (data : kv_data) : res (dict text text) :=
  '(_, kv) <- getExtensionKVArgs aliases data ;;
  Ok (fold_left (fun d e => dset text_eqb (fst e) (snd e) d) kv [(u "mode", u "store_request")]).
Definition store_request_parse (ax_args : dict text text) : res kv_data := kv_parse (u "store_request") ax_args.
Definition store_fromOpenIDRequest (m : msg) : res (option kv_data) :=
  ax_args <- getArgs m (NS ax_ns) ;;
  match store_request_parse ax_args with Raise NotAXMessage => Ok None | Raise x => Raise x | Ok d => Ok (Some d) end.

(** ax.py:763-793, StoreResponse. *)
Record store_response := mkStoreResp { st_succeeded : bool; st_error : option text }.
Definition StoreResponse (succeeded : bool) (error_message : option text) : res store_response :=
  match succeeded, error_message with true, Some _ => Raise AXError | _, _ => Ok (mkStoreResp succeeded error_message) end.
Definition store_response_args (r : store_response) : dict text text :=
  if st_succeeded r then [(u "mode", u "store_response_success")]
  else [(u "mode", u "store_response_failure")] ++
       match st_error r with Some (c :: t) => [(u "error", c :: t)] | _ => [] end.
(** ax.py:795-822: the class has no [parseExtensionArgs]. *)
Definition store_fromSuccessResponse (m : msg) (signed_fields : list text) (signed : bool) : res (option store_response) :=
  _ <- extensionResponse m signed_fields (NS ax_ns) signed ;;
  Raise AttributeError.
