(** Model of /repo/openid/extensions/pape.py and draft/pape2.py (draft/pape5.py only re-exports
    pape.py).  Policies, aliases, URIs, levels and times are texts; ages are integers.  Objects
    are values: the sharing of the list given to a constructor with its caller is not modelled,
    and an object whose parsing raises is lost.  Warnings are left out. *)
From Verif Require Import Py Message Consumer.

Local Arguments u : simpl never.

(** pape.py:28-42. *)
Definition pape_alias : text := u "pape".
Definition pape_ns : text := u "http://specs.openid.net/extensions/pape/1.0".
Definition AUTH_NONE : text := u "http://schemas.openid.net/pape/policies/2007/06/none".
Definition LEVELS_NIST : text := u "http://csrc.nist.gov/publications/nistpubs/800-63/SP800-63V1_0_2.pdf".
Definition LEVELS_JISA : text := u "http://www.jisa.or.jp/spec/auth_level.html".
(** pape.py:46-49. *)
Definition default_aliases : dict text text := [(u "nist", LEVELS_NIST); (u "jisa", LEVELS_JISA)].

(** [s.split()]: the maximal runs of characters that are no white space. *)
Fixpoint words (s : text) : list text :=
  match s with
  | [] => []
  | c :: r =>
      if isspace c then words r
      else match r with
           | [] => [[c]]
           | c' :: _ => if isspace c' then [c] :: words r
                        else match words r with w :: ws => (c :: w) :: ws | [] => [[c]] end
           end
  end.

(** pape.py:77-84. *)
Definition cust (i : nat) : text := u "cust" ++ str_of_N (N.of_nat i).
Definition generateAlias (aliases : dict text text) : res text :=
  match find (fun a => negb (dhas text_eqb a aliases)) (map cust (seq 0 1000)) with
  | Some a => Ok a
  | None => Raise RuntimeError
  end.
(** pape.py:86-95. *)
Fixpoint level_alias (aliases : dict text text) (uri : text) : res text :=
  match aliases with
  | [] => Raise KeyError
  | (a, x) :: r => if text_eqb uri x then Ok a else level_alias r uri
  end.
(** pape.py:54-75. *)
Definition addAuthLevelAlias (aliases : dict text text) (uri : text) (al : option text) : res (dict text text) :=
  a <- match al with
       | None => match level_alias aliases uri with Ok a => Ok a | Raise _ => generateAlias aliases end
       | Some a => match dget text_eqb a aliases with
                   | Some x => if text_eqb x uri then Ok a else Raise KeyError
                   | None => Ok a
                   end
       end ;;
  Ok (dset text_eqb a uri aliases).

(** Appending what is not there yet (pape.py:149-150, 154-155, 219-220, 352-353). *)
Definition add_once (l : list text) (x : text) : list text := if mem_text x l then l else l ++ [x].

(** pape.py:98-131, Request. *)
Record pape_request := mkPReq { pq_policies : list text; pq_age : option Z; pq_types : list text; pq_aliases : dict text text }.
(** pape.py:139-150. *)
Definition req_addPolicyURI (r : pape_request) (p : text) : pape_request :=
  mkPReq (add_once (pq_policies r) p) (pq_age r) (pq_types r) (pq_aliases r).
(** pape.py:152-155. *)
Definition addAuthLevel (r : pape_request) (uri : text) (al : option text) : res pape_request :=
  m <- addAuthLevelAlias (pq_aliases r) uri al ;;
  Ok (mkPReq (pq_policies r) (pq_age r) (add_once (pq_types r) uri) m).
(** pape.py:119-131. *)
Definition newPapeRequest (policies : list text) (age : option Z) (types : list text) : res pape_request :=
  foldM (fun r t => addAuthLevel r t None) (mkPReq policies age [] default_aliases) types.
(** pape.py:133-134. *)
Definition req_bool (r : pape_request) : bool :=
  negb (match pq_policies r with [] => true | _ => false end) || match pq_age r with Some _ => true | None => false end
  || negb (match pq_types r with [] => true | _ => false end).
(** pape.py:157-177. *)
Definition ns_key (al : text) : text := u "auth_level.ns." ++ al.
Definition pape_request_args (r : pape_request) : res (dict text text) :=
  let args := [(u "preferred_auth_policies", join [32] (pq_policies r))] in
  let args := match pq_age r with Some z => dset text_eqb (u "max_auth_age") (str_of_Z z) args | None => args end in
  match pq_types r with
  | [] => Ok args
  | types =>
      '(args, names) <- foldM (fun s uri => a <- level_alias (pq_aliases r) uri ;;
                                            Ok (dset text_eqb (ns_key a) uri (fst s), snd s ++ [a])) (args, []) types ;;
      Ok (dset text_eqb (u "preferred_auth_level_types") (join [32] names) args)
  end.
(** The URI an alias stands for in a message (pape.py:239-246, 429-435). *)
Definition level_uri (args : dict text text) (is_openid1 : bool) (al : text) : option text :=
  match dget text_eqb (ns_key al) args with
  | Some x => Some x
  | None => if is_openid1 then dget text_eqb al default_aliases else None
  end.
(** pape.py:194-253 on a new object. *)
Definition pape_request_parse (args : dict text text) (is_openid1 strict : bool) : res pape_request :=
  let policies := match dget text_eqb (u "preferred_auth_policies") args with
                  | Some (c :: s) => fold_left add_once (splitc 32 (c :: s)) []
                  | _ => []
                  end in
  age <- match dget text_eqb (u "max_auth_age") args with
         | Some (c :: s) => match int_of_text (c :: s) with
                            | Ok z => Ok (Some z)
                            | Raise x => if isValueError x then if strict then Raise x else Ok None else Raise x
                            end
         | _ => Ok None
         end ;;
  let r := mkPReq policies age [] default_aliases in
  match dget text_eqb (u "preferred_auth_level_types") args with
  | Some (c :: s) =>
      foldM (fun r al => match level_uri args is_openid1 al with
                         | None => if strict then Raise ValueError else Ok r
                         | Some uri => addAuthLevel r uri (Some al)
                         end) r (words (strip (c :: s)))
  | _ => Ok r
  end.
(** pape.py:179-192. *)
Definition pape_fromOpenIDRequest (m : msg) : res (option pape_request) :=
  args <- getArgs m (NS pape_ns) ;;
  match args with
  | [] => Ok None
  | _ => r <- pape_request_parse args (isOpenID1 m) false ;; Ok (Some r)
  end.
(** pape.py:255-271. *)
Definition preferredTypes (r : pape_request) (supported : list text) : list text :=
  filter (fun i => mem_text i (pq_policies r)) supported.

(** pape.py:277-302, Response. *)
Record pape_response := mkPResp { pr_policies : list text; pr_time : option text; pr_levels : dict text text; pr_aliases : dict text text }.
(** pape.py:304-316. *)
Definition setAuthLevel (r : pape_response) (uri level : text) (al : option text) : res pape_response :=
  m <- addAuthLevelAlias (pr_aliases r) uri al ;;
  Ok (mkPResp (pr_policies r) (pr_time r) (dset text_eqb uri level (pr_levels r)) m).
(** pape.py:287-302. *)
Definition newPapeResponse (policies : list text) (time : option text) (levels : dict text text) : res pape_response :=
  foldM (fun r e => setAuthLevel r (fst e) (snd e) None) (mkPResp policies time [] default_aliases) levels.
(** pape.py:318-328. *)
Definition getAuthLevel (r : pape_response) (uri : text) : res text :=
  match dget text_eqb uri (pr_levels r) with Some v => Ok v | None => Raise KeyError end.
(** pape.py:330-336. *)
Definition nist_auth_level (r : pape_response) : res (option Z) :=
  match getAuthLevel r LEVELS_NIST with
  | Ok v => z <- int_of_text v ;; Ok (Some z)
  | Raise x => if isKeyError x then Ok None else Raise x
  end.
(** pape.py:338-353. *)
Definition resp_addPolicyURI (r : pape_response) (p : text) : res pape_response :=
  if text_eqb p AUTH_NONE then Raise RuntimeError
  else Ok (mkPResp (add_once (pr_policies r) p) (pr_time r) (pr_levels r) (pr_aliases r)).

Section Time.
  (** The decimal digits outside ASCII, which [\d] takes too. *)
  Variable udec : N -> bool.
  Definition decimal (c : N) : bool := if c <? 128 then (48 <=? c) && (c <=? 57) else udec c.
  (** pape.py:39: the pattern, with 0 for any digit; [$] also matches before a final newline. *)
  Fixpoint time_match (pat s : text) : bool :=
    match pat, s with
    | [], [] => true
    | [], [c] => c =? 10
    | p :: pat, c :: s => (if p =? 48 then decimal c else c =? p) && time_match pat s
    | _, _ => false
    end.
  Definition TIME_VALIDATOR (s : text) : bool := time_match (u "0000-00-00T00:00:00Z") s.

  (** pape.py:451-474. *)
  Definition level_key (al : text) : text := u "auth_level." ++ al.
  Definition pape_response_args (r : pape_response) : res (dict text text) :=
    let args := [(u "auth_policies", match pr_policies r with [] => AUTH_NONE | l => join [32] l end)] in
    args <- foldM (fun d e => a <- level_alias (pr_aliases r) (fst e) ;;
                              Ok (dset text_eqb (level_key a) (snd e) (dset text_eqb (ns_key a) (fst e) d))) args (pr_levels r) ;;
    match pr_time r with
    | Some t => if TIME_VALIDATOR t then Ok (dset text_eqb (u "auth_time") t args) else Raise ValueError
    | None => Ok args
    end.
  (** pape.py:384-449 on a new object. *)
  Definition level_step (args : dict text text) (is_openid1 strict : bool) (r : pape_response) (e : text * text) : res pape_response :=
    let (key, val) := e in
    if startswith key (u "auth_level.") then
      let al : text := skipn 11 key in
      if startswith al (u "ns.") then Ok r
      else match level_uri args is_openid1 al with
           | None => if strict then Raise ValueError else Ok r
           | Some uri => setAuthLevel r uri val (Some al)
           end
    else Ok r.
  Definition pape_response_parse (args : dict text text) (is_openid1 strict : bool) : res pape_response :=
    policies <- match dget text_eqb (u "auth_policies") args with
                | Some (c :: s) => Ok (splitc 32 (c :: s))
                | _ => if strict then Raise ValueError else Ok []
                end ;;
    if (1 <? len policies) && strict && mem_text AUTH_NONE policies then Raise ValueError
    else if mem_text (u "none") policies && strict then Raise ValueError
    else
      let policies := filter (fun p => negb (mem_text p [u "none"; AUTH_NONE])) policies in
      r <- foldM (level_step args is_openid1 strict) (mkPResp policies None [] default_aliases) args ;;
      match dget text_eqb (u "auth_time") args with
      | Some (c :: t) => if TIME_VALIDATOR (c :: t) then Ok (mkPResp (pr_policies r) (Some (c :: t)) (pr_levels r) (pr_aliases r))
                         else if strict then Raise ValueError else Ok r
      | _ => Ok r
      end.
  (** pape.py:355-382. *)
  Definition pape_fromSuccessResponse (m : msg) (signed_fields : list text) : res (option pape_response) :=
    args <- getSignedNS m signed_fields (NS pape_ns) ;;
    match args with
    | Some a => r <- pape_response_parse a (isOpenID1 m) false ;; Ok (Some r)
    | None => Ok None
    end.

  (** ** draft/pape2.py *)
  (** pape2.py:41-95: requests have no levels. *)
  Record pape2_request := mkP2Req { p2q_policies : list text; p2q_age : option Z }.
  Definition pape2_request_args (r : pape2_request) : dict text text :=
    (u "preferred_auth_policies", join [32] (p2q_policies r)) ::
    match p2q_age r with Some z => [(u "max_auth_age", str_of_Z z)] | None => [] end.
  (** pape2.py:110-139. *)
  Definition pape2_request_parse (args : dict text text) : res pape2_request :=
    age <- match dget text_eqb (u "max_auth_age") args with
           | Some (c :: s) => match int_of_text (c :: s) with
                              | Ok z => Ok (Some z)
                              | Raise x => if isValueError x then Ok None else Raise x
                              end
           | _ => Ok None
           end ;;
    Ok (mkP2Req match dget text_eqb (u "preferred_auth_policies") args with
                | Some (c :: s) => fold_left add_once (splitc 32 (c :: s)) []
                | _ => []
                end age).
  (** pape2.py:163-179, Response. *)
  Record pape2_response := mkP2Resp { p2r_policies : list text; p2r_time : option text; p2r_nist : option Z }.
  (** pape2.py:222-258 on a new object. *)
  Definition pape2_response_parse (args : dict text text) (strict : bool) : res pape2_response :=
    let policies := match dget text_eqb (u "auth_policies") args with
                    | Some (c :: s) => if text_eqb (c :: s) (u "none") then [] else splitc 32 (c :: s)
                    | _ => []
                    end in
    nist <- match dget text_eqb (u "nist_auth_level") args with
            | Some (c :: s) => match int_of_text (c :: s) with
                               | Ok z => Ok (if (0 <=? z)%Z && (z <? 5)%Z then Some z else None)
                               | Raise x => if isValueError x then if strict then Raise ValueError else Ok None else Raise x
                               end
            | _ => Ok None
            end ;;
    time <- match dget text_eqb (u "auth_time") args with
            | Some (c :: t) => if TIME_VALIDATOR (c :: t) then Ok (Some (c :: t)) else if strict then Raise ValueError else Ok None
            | _ => Ok None
            end ;;
    Ok (mkP2Resp policies time nist).
  (** pape2.py:260-284. *)
  Definition pape2_response_args (r : pape2_response) : res (dict text text) :=
    nist <- match p2r_nist r with
            | Some z => if (0 <=? z)%Z && (z <? 5)%Z then Ok [(u "nist_auth_level", str_of_Z z)] else Raise ValueError
            | None => Ok []
            end ;;
    time <- match p2r_time r with
            | Some t => if TIME_VALIDATOR t then Ok [(u "auth_time", t)] else Raise ValueError
            | None => Ok []
            end ;;
    Ok ((u "auth_policies", match p2r_policies r with [] => u "none" | l => join [32] l end) :: nist ++ time).
  (** pape2.py:96-108, 194-220. *)
  Definition pape2_fromOpenIDRequest (m : msg) : res (option pape2_request) :=
    args <- getArgs m (NS pape_ns) ;;
    match args with [] => Ok None | _ => r <- pape2_request_parse args ;; Ok (Some r) end.
  Definition pape2_fromSuccessResponse (m : msg) (signed_fields : list text) : res (option pape2_response) :=
    args <- getSignedNS m signed_fields (NS pape_ns) ;;
    match args with Some a => r <- pape2_response_parse a false ;; Ok (Some r) | None => Ok None end.
End Time.
