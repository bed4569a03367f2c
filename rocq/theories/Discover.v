(** Model of discovery: /repo/openid/yadis/{discover,parsehtml,services,filters,xrires}.py
    and /repo/openid/consumer/discover.py.  Fetching, the XML and HTML parsers, codecs,
    [str.lower] and the shuffle are parameters; everything else is computed. *)
From Verif Require Import Py Utf8 UrlLib UriNorm Message Xri Etxrd Endpoint.

Local Arguments u : simpl never.

(** What a fetcher is asked for (the URL, and whether the Yadis Accept header is sent) and
    what it returns (fetchers.py:117-134). *)
Record freq := mkFreq { f_url : text; f_accept : bool }.
Record fresp := mkResp { r_final_url : text; r_status : N; r_headers : dict text text; r_body : bytes }.
(** The state threaded through discovery: requests sent so far and shuffles made. *)
Record dst := mkDst { d_sent : list freq; d_shuffles : nat }.
Definition M (A : Type) := dst -> dst * res A.
Definition mret {A} (r : res A) : M A := fun s => (s, r).
Definition mbind {A B} (m : M A) (k : A -> M B) : M B :=
  fun s => match m s with (s', Ok a) => k a s' | (s', Raise x) => (s', Raise x) end.
Definition mcatch {A} (m : M A) (h : exn -> option (res A)) : M A :=
  fun s => match m s with
           | (s', Raise x) => match h x with Some r => (s', r) | None => (s', Raise x) end
           | r => r
           end.
Fixpoint mmap {A B} (f : A -> M (list B)) (l : list A) : M (list B) :=
  match l with
  | [] => mret (Ok [])
  | x :: r => mbind (f x) (fun a => mbind (mmap f r) (fun b => mret (Ok (a ++ b))))
  end.

Definition isXRDSError (x : exn) : bool := match x with XRDSError | XRDSFraud => true | _ => false end.
Definition isUnicodeError (x : exn) : bool := match x with UnicodeDecodeError | UnicodeEncodeError => true | _ => false end.
(** discover.py:71 and elsewhere: [status not in (200, 206)]. *)
Definition status_ok (n : N) : bool := (n =? 200) || (n =? 206).

(** yadis/constants.py. *)
Definition YADIS_HEADER_NAME_lower : text := u "x-xrds-location".
Definition YADIS_CONTENT_TYPE : text := u "application/xrds+xml".

(** XPath: [/html/head/tag] in document order. *)
Definition head_elements (tag : text) (root : xel) : list xel :=
  if text_eqb (x_tag root) (u "html") then flat_map (x_findall tag) (x_findall (u "head") root) else [].
(** XPath [normalize-space]: XML white space is trimmed and runs become one space. *)
Definition xml_space (c : N) : bool := (c =? 32) || (c =? 9) || (c =? 10) || (c =? 13).
Fixpoint words_from (cur s : text) : list text :=
  match s with
  | [] => match cur with [] => [] | _ => [rev cur] end
  | c :: r =>
      if xml_space c then match cur with [] => words_from [] r | _ => rev cur :: words_from [] r end
      else words_from (c :: cur) r
  end.
Definition normalize_space (s : text) : text := join [32] (words_from [] s).
(** XPath [contains]. *)
Fixpoint contains (s p : text) : bool := startswith s p || match s with [] => false | _ :: r => contains r p end.
(** consumer/discover.py:38, LINK_REL_XPATH. *)
Definition has_rel (rel : text) (link : xel) : bool :=
  let v := match x_get (u "rel") link with Some v => v | None => [] end in
  contains (32 :: normalize_space v ++ [32]) (32 :: rel ++ [32]).
Definition rel_links (rel : text) (root : xel) : list xel := filter (has_rel rel) (head_elements (u "link") root).

(** consumer/discover.py:153-195 (fromHTML); [parse] is [document_fromstring], [None]
    standing for [LxmlError]. *)
Definition html_service (uri : text) (root : xel) (ty op_rel local_rel : text) : list endpoint :=
  match rel_links op_rel root with
  | [] => []
  | l :: _ =>
      match x_get (u "href") l with
      | Some (c :: r) =>
          let local := match rel_links local_rel root with [] => None | k :: _ => x_get (u "href") k end in
          [mkEndpoint (Some uri) (Some (c :: r)) [ty] local None false None]
      | _ => []
      end
  end.
Definition fromHTML (parse : bytes -> option xel) (uri : text) (html : bytes) : list endpoint :=
  match parse html with
  | None => []
  | Some root =>
      html_service uri root OPENID_2_0_TYPE (u "openid2.provider") (u "openid2.local_id") ++
      html_service uri root OPENID_1_1_TYPE (u "openid.server") (u "openid.delegate")
  end.

(** consumer/discover.py:251-304. *)
Fixpoint same_text (els : list xel) (local_id : option text) : res (option text) :=
  match els with
  | [] => Ok local_id
  | e :: r =>
      match local_id with
      | None => same_text r (x_text e)
      | Some l => if opt_eqb text_eqb (Some l) (x_text e) then same_text r local_id else Raise DiscoveryFailure
      end
  end.
Definition findOPLocalIdentifier (service : xel) (type_uris : list text) : res (option text) :=
  let delegates := if mem_text OPENID_1_1_TYPE type_uris || mem_text OPENID_1_0_TYPE type_uris
                   then x_findall (nsTag OPENID_1_0_NS (u "Delegate")) service else [] in
  let local_ids := if mem_text OPENID_2_0_TYPE type_uris then x_findall (nsTag XRD_NS_2_0 (u "LocalID")) service else [] in
  same_text (delegates ++ local_ids) None.

(** filters.py:20-43, BasicServiceEndpoint. *)
Record basic := mkBasic { b_yadis_url : text; b_type_uris : list text; b_uri : option text; b_service : xel }.
(** filters.py:45-60. *)
Definition matchTypes (b : basic) (type_uris : list text) : list text :=
  filter (fun t => mem_text t (b_type_uris b)) type_uris.
(** consumer/discover.py:99-113 and 128-151. *)
Definition parseService (b : basic) (uri : text) : res endpoint :=
  let ep := mkEndpoint None (Some uri) (b_type_uris b) None None true None in
  if isOPIdentifier ep then Ok ep
  else local <- findOPLocalIdentifier (b_service b) (b_type_uris b) ;;
       Ok (mkEndpoint (Some (b_yadis_url b)) (Some uri) (b_type_uris b) local None true None).
Definition fromBasicServiceEndpoint (b : basic) : res (option endpoint) :=
  match matchTypes b openid_type_uris, b_uri b with
  | _ :: _, Some uri => ep <- parseService b uri ;; Ok (Some ep)
  | _, _ => Ok None
  end.

(** consumer/discover.py:320-351: the number in front of each service is what
    bestMatchingService returns, the second its position. *)
Fixpoint best_match (preferred : list text) (types : list text) : nat :=
  match preferred with
  | [] => 0
  | t :: r => if mem_text t types then 0 else S (best_match r types)
  end.
Definition rank_leb {A} (a b : nat * nat * A) : bool :=
  let '(x, i, _) := a in let '(y, j, _) := b in
  Nat.ltb x y || (Nat.eqb x y && Nat.leb i j).
Definition arrangeByType (services : list endpoint) (preferred : list text) : list endpoint :=
  map snd (sort rank_leb (map (fun p => (best_match preferred (ep_type_uris (snd p)), fst p, snd p))
                              (combine (seq 0 (List.length services)) services))).
(** consumer/discover.py:354-369. *)
Definition getOPOrUserServices (services : list endpoint) : list endpoint :=
  let op_services := arrangeByType services [OPENID_IDP_2_0_TYPE] in
  let all := arrangeByType services openid_type_uris in
  match op_services with [] => all | _ => op_services end.

(** consumer/discover.py:314-318. *)
Definition normalizeXRI (xri : text) : text := if startswith xri (u "xri://") then skipn 6 xri else xri.

(** xrires.py:94-125 (_appendArgs on a dict). *)
Definition appendArgs_xri (url : text) (args : dict text text) : res text :=
  let args := sort (fun a b => text_leb (fst a) (fst b)) args in
  match args with
  | [] => Ok url
  | _ => q <- urlencode args ;;
         Ok (url ++ (if memc 63 (rev (lstripf (N.eqb 63) (rev url))) then u "&" else u "?") ++ q)
  end.
(** xrires.py:14-52. *)
Definition DEFAULT_PROXY : text := u "http://proxy.xri.net/".
Definition queryURL (xri service_type : text) : res text :=
  q <- toURINormal xri ;;
  appendArgs_xri (DEFAULT_PROXY ++ skipn 6 q)
    (if truthy service_type then [(u "_xrd_r", u "application/xrds+xml"); (u "_xrd_t", service_type)]
     else [(u "_xrd_r", u "application/xrds+xml;sep=false")]).

Section Discover.
  Variable e : uenv.
  Variable low : text -> text.                        (* str.lower *)
  Variable rnd : shuffler.
  Variable web : list freq -> res fresp.              (* the answer to the last request, given all of them *)
  Variable parse_xml : bytes -> option xel.           (* etree.XML *)
  Variable parse_html : bytes -> option xel.          (* lxml.html.document_fromstring *)
  Variable decode_as : text -> bytes -> res text.     (* bytes.decode(encoding) *)
  Variable parse_meta : (text + bytes) -> option xel. (* etree.parse(stream, HTMLParser()).getroot() *)

  Definition fetch (q : freq) : M fresp := fun s =>
    let sent := d_sent s ++ [q] in (mkDst sent (d_shuffles s), web sent).
  (** A computation using the next shuffle. *)
  Definition shuffling {A} (f : nat -> res A) : M A := fun s => (mkDst (d_sent s) (S (d_shuffles s)), f (d_shuffles s)).

  (** ** Filters *)
  (** filters.py: a filter turns a service element into endpoints. *)
  Definition filt (E : Type) := text -> xel -> M (list E).
  (** filters.py:100-139, TransformFilterMaker. *)
  Fixpoint applyFilters {E} (fs : list (basic -> res (option E))) (b : basic) : res (option E) :=
    match fs with
    | [] => Ok None
    | f :: r => x <- f b ;; match x with Some y => Ok (Some y) | None => applyFilters r b end
    end.
  Definition transform_filter {E} (fs : list (basic -> res (option E))) : filt E := fun yadis_url service =>
    mbind (shuffling (fun n => expandService rnd n service)) (fun triples =>
      mret (l <- mapM (fun t => let '(types, uri, _) := t in applyFilters fs (mkBasic yadis_url types uri service)) triples ;;
            Ok (flat_map (fun x => match x with Some y => [y] | None => [] end) l))).
  (** filters.py:142-158, CompoundFilter. *)
  Definition compound_filter {E} (fs : list (filt E)) : filt E := fun yadis_url service => mmap (fun f => f yadis_url service) fs.
  (** filters.py:166-212.  What can be made a filter: a filter object, an endpoint class or
      callable, a list of these, and anything else. *)
  Inductive part (E : Type) :=
  | PFilter (f : filt E)
  | PTransform (t : basic -> res (option E))
  | PList (ps : list (part E))
  | POther.
  Arguments PFilter {E}. Arguments PTransform {E}. Arguments PList {E}. Arguments POther {E}.
  Definition assemble {E} (acc : res (list (filt E) * list (basic -> res (option E)))) : res (filt E) :=
    '(filters, transformers) <- acc ;;
    let filters := match transformers with [] => filters | _ => filters ++ [transform_filter transformers] end in
    Ok (match filters with [f] => f | _ => compound_filter filters end).
  Fixpoint mkPart {E} (p : part E) : res (filt E + (basic -> res (option E))) :=
    match p with
    | PFilter f => Ok (inl f)
    | PTransform t => Ok (inr t)
    | POther => Raise TypeError
    | PList ps =>
        f <- assemble ((fix go ps := match ps with
                                     | [] => Ok ([], [])
                                     | q :: r => x <- mkPart q ;; '(fs, ts) <- go r ;;
                                                 Ok (match x with inl f => (f :: fs, ts) | inr t => (fs, t :: ts) end)
                                     end) ps) ;;
        Ok (inl f)
    end.
  Definition mkFilter {E} (ps : list (part E)) : res (filt E) :=
    x <- mkPart (PList ps) ;; match x with inl f => Ok f | inr _ => Raise TypeError end.
  Definition openid_filter : filt endpoint := transform_filter [fromBasicServiceEndpoint].

  (** services.py:38-56, applyFilter. *)
  Definition applyFilter {E} (flt : filt E) (normalized_uri : text) (xrd_data : bytes) : M (list E) :=
    mbind (mret (parseXRDS parse_xml xrd_data)) (fun root =>
    mbind (shuffling (fun n => iterServices rnd n root)) (fun services =>
    mmap (flt normalized_uri) services)).

  (** ** Yadis *)
  (** yadis/discover.py:20-50, DiscoveryResult. *)
  Record yresult := mkYResult { y_normalized_uri : text; y_xrds_uri : option text; y_content_type : option text; y_body : bytes }.
  Definition usedYadisLocation (normalized_uri : text) (xrds_uri : option text) : bool :=
    match xrds_uri with None => false | Some x => negb (text_eqb normalized_uri x) end.
  Definition y_isXRDS (r : yresult) : bool :=
    usedYadisLocation (y_normalized_uri r) (y_xrds_uri r) || opt_eqb text_eqb (y_content_type r) (Some YADIS_CONTENT_TYPE).
  (** parsehtml.py:21-53. *)
  Definition findHTMLMeta (stream : text + bytes) : res text :=
    match parse_meta stream with
    | None => Raise MetaNotFound
    | Some root =>
        match filter (fun m => match x_get (u "http-equiv") m with Some v => text_eqb (lower v) YADIS_HEADER_NAME_lower | None => false end)
                     (head_elements (u "meta") root) with
        | [] => Raise MetaNotFound
        | m :: _ => match x_get (u "content") m with Some c => Ok c | None => Raise MetaNotFound end
        end
    end.
  (** yadis/discover.py:127-139: the encoding named in the content type. *)
  Definition charset_of (content_type : text) : text :=
    match rcut 59 content_type with
    | Some (_, p) =>
        if startswith (strip p) (u "charset=") then match cut 61 p with Some (_, v) => strip v | None => u "UTF-8" end
        else u "UTF-8"
    | None => u "UTF-8"
    end.
  (** yadis/discover.py:99-153.  On a missing meta tag the value of the header (None or
      empty) is returned. *)
  Definition whereIsYadis (resp : fresp) : res (option text) :=
    let content_type := dget text_eqb (u "content-type") (r_headers resp) in
    let ct := match content_type with Some c => c | None => [] end in
    if truthy ct && text_eqb (lower (match cut 59 ct with Some (a, _) => a | None => ct end)) YADIS_CONTENT_TYPE
    then Ok (Some (r_final_url resp))
    else
      let yadis_loc := dget text_eqb YADIS_HEADER_NAME_lower (r_headers resp) in
      if otruthy yadis_loc then Ok yadis_loc
      else
        buff <- match decode_as (charset_of ct) (r_body resp) with
                | Ok t => Ok (inl t)
                | Raise x => if isUnicodeError x then Ok (inr (r_body resp)) else Raise x
                end ;;
        match findHTMLMeta buff with
        | Ok loc => Ok (Some loc)
        | Raise MetaNotFound => Ok yadis_loc
        | Raise x => if isUnicodeError x then Ok yadis_loc else Raise x
        end.
  (** yadis/discover.py:53-96. *)
  Definition yadisDiscover (uri : text) : M yresult :=
    mbind (fetch (mkFreq uri true)) (fun resp =>
      if negb (status_ok (r_status resp)) then mret (Raise DiscoveryFailure)
      else
        mbind (mret (whereIsYadis resp)) (fun xrds_uri =>
          let ct := dget text_eqb (u "content-type") (r_headers resp) in
          if otruthy xrds_uri && usedYadisLocation (r_final_url resp) xrds_uri then
            mbind (fetch (mkFreq (match xrds_uri with Some x => x | None => [] end) false)) (fun resp2 =>
              if negb (status_ok (r_status resp2)) then mret (Raise DiscoveryFailure)
              else mret (Ok (mkYResult (r_final_url resp) xrds_uri (dget text_eqb (u "content-type") (r_headers resp2)) (r_body resp2))))
          else mret (Ok (mkYResult (r_final_url resp) xrds_uri ct (r_body resp))))).

  (** ** OpenID discovery *)
  (** consumer/discover.py:302-311. *)
  Definition normalizeURL (url : text) : res text :=
    match urinorm e url with
    | Raise x => if isValueError x then Raise DiscoveryFailure else Raise x
    | Ok n => urldefrag e n
    end.
  (** consumer/discover.py:438-449. *)
  Definition discoverNoYadis (uri : text) : M (text * list endpoint) :=
    mbind (fetch (mkFreq uri false)) (fun resp =>
      if negb (status_ok (r_status resp)) then mret (Raise DiscoveryFailure)
      else mret (Ok (r_final_url resp, fromHTML parse_html (r_final_url resp) (r_body resp)))).
  (** consumer/discover.py:372-411. *)
  Definition discoverYadis (uri : text) : M (text * list endpoint) :=
    mbind (yadisDiscover uri) (fun response =>
      let yadis_url := y_normalized_uri response in
      mbind (mcatch (applyFilter openid_filter yadis_url (y_body response)) (fun x => if isXRDSError x then Some (Ok []) else None)) (fun services =>
        match services with
        | [] => if y_isXRDS response then discoverNoYadis uri
                else mret (Ok (yadis_url, getOPOrUserServices (fromHTML parse_html yadis_url (y_body response))))
        | _ => mret (Ok (yadis_url, getOPOrUserServices services))
        end)).
  (** xrires.py:54-91 (query).  The identifier kept is that of the last usable answer. *)
  Fixpoint query (xri : text) (types : list text) (canonicalID : option text) : M (option text * list xel) :=
    match types with
    | [] => mret (Ok (canonicalID, []))
    | t :: r =>
        mbind (mret (queryURL xri t)) (fun url =>
        mbind (fetch (mkFreq url false)) (fun resp =>
          if negb (status_ok (r_status resp)) then query xri r canonicalID
          else
            mbind (mret (parseXRDS parse_xml (r_body resp))) (fun root =>
            mbind (mret (getCanonicalID low xri root)) (fun cid =>
            mbind (shuffling (fun n => iterServices rnd n root)) (fun some_services =>
            mbind (query xri r cid) (fun rest => mret (Ok (fst rest, some_services ++ snd rest))))))))
    end.
  (** consumer/discover.py:414-435.  Only [query] and the missing identifier raise
      XRDSError, and then there are no endpoints yet. *)
  Definition discoverXRI (iname : text) : M (text * list endpoint) :=
    let iname := normalizeXRI iname in
    mbind (mcatch
      (mbind (query iname openid_type_uris None) (fun r =>
         match fst r with
         | None => mret (Raise XRDSError)
         | Some cid => mbind (mmap (openid_filter iname) (snd r)) (fun eps =>
             mret (Ok (map (fun ep => mkEndpoint (Some cid) (ep_server_url ep) (ep_type_uris ep) (ep_local_id ep) (Some cid) (ep_used_yadis ep) (Some iname)) eps)))
         end))
      (fun x => if isXRDSError x then Some (Ok []) else None))
      (fun endpoints => mret (Ok (iname, getOPOrUserServices endpoints))).
  (** consumer/discover.py:452-463. *)
  Definition discoverURI (uri : text) : M (text * list endpoint) :=
    mbind (mret (p <- urlsplit e uri ;;
                 uri <- (if truthy (sp_scheme p) && truthy (sp_netloc p)
                         then if mem_text (sp_scheme p) [u "http"; u "https"] then Ok uri else Raise DiscoveryFailure
                         else Ok (u "http://" ++ uri)) ;;
                 normalizeURL uri)) (fun uri =>
    mbind (discoverYadis uri) (fun r =>
      mret (claimed_id <- normalizeURL (fst r) ;; Ok (claimed_id, snd r)))).
  (** consumer/discover.py:466-470. *)
  Definition discover (identifier : text) : M (text * list endpoint) :=
    match identifierScheme identifier with
    | SchemeXRI => discoverXRI identifier
    | SchemeURI => discoverURI identifier
    end.
End Discover.
