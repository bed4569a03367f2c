(** Model of /repo/openid/fetchers.py.

    The HTTP libraries are parameters: what a transfer brings, as a function of all requests
    made so far.  Times are whole seconds, as the code takes them. *)
From Verif Require Import Py Utf8 UrlLib UriNorm Discover.
Local Arguments u : simpl never.

(** fetchers.py:177-178. *)
Definition allowedURL (url : text) : bool := startswith url (u "http://") || startswith url (u "https://").

(** What a fetch raises: HTTPError (256-261), HTTPFetchingError (181-190), an error of the
    library used, or another exception of Python. *)
Inductive ferr := FHTTPError | FFetchingError (why : ferr) | FLibrary | FPython (e : exn).
Inductive fresult := Fetched (r : fresp) | Failed (e : ferr).
(** A request on the network: method POST with a body, or GET. *)
Record request := mkRequest { rq_url : text; rq_post : option bytes; rq_headers : list (text * text); rq_timeout : option Z }.

(** [headers.setdefault(name, value)]. *)
Definition setdefault (d : dict text text) (k v : text) : dict text text :=
  match dget text_eqb k d with Some _ => d | None => dset text_eqb k v d end.

(** ** The Curl fetcher *)
(** White space of [bytes.strip]. *)
Definition bspace (c : N) : bool := ((9 <=? c) && (c <=? 13)) || (c =? 32).
(** The lines of a file, each with its end. *)
Fixpoint file_lines (s : bytes) : list bytes :=
  match s with
  | [] => []
  | c :: r =>
      if c =? 10 then [c] :: file_lines r
      else match file_lines r with [] => [[c]] | l :: ls => (c :: l) :: ls end
  end.
(** fetchers.py:295-306. *)
Fixpoint header_dict (lines : list bytes) (headers : dict text text) : res (dict text text) + ferr :=
  match lines with
  | [] => inl (Ok headers)
  | line :: r =>
      match cut 58 line with
      | None => inr FHTTPError
      | Some (name, value) =>
          match Utf8.decode (stripf bspace value) with
          | Raise e => inl (Raise e)
          | Ok value =>
              match Utf8.decode (lower name) with
              | Raise e => inl (Raise e)
              | Ok name => header_dict r (dset text_eqb name value headers)
              end
          end
      end
  end.
(** fetchers.py:278-308; 282-285 skip the status line and the two lines of an interim answer. *)
Definition parseHeaders (header_file : bytes) : res (dict text text) + ferr :=
  let rest := match file_lines header_file with
              | [] => []
              | status :: r => if startswith (lower status) (u "http/1.1 100 ") then skipn 2 r else r
              end in
  match rev (map (stripf bspace) rest) with
  | [] => inl (Raise IndexError)                          (* lines.pop() of the empty list *)
  | empty_line :: lines => if truthy empty_line then inr FHTTPError else header_dict (rev lines) []
  end.

(** What a transfer brings: the chunks of the body, the header block and the code. *)
Record transfer := mkTransfer { tr_chunks : list bytes; tr_header : bytes; tr_code : N }.
(** fetchers.py:350-354: a chunk that comes after more than 1024 KB is refused, and libcurl
    then fails. *)
Definition MAX_RESPONSE_KB : N := 1024.
Fixpoint write_chunks (data : bytes) (chunks : list bytes) : option bytes :=
  match chunks with
  | [] => Some data
  | c :: r => if 1024 * MAX_RESPONSE_KB <? len data then None else write_chunks (data ++ c) r
  end.
(** fetchers.py:366. *)
Definition is_redirect (code : N) : bool := (code =? 301) || (code =? 302) || (code =? 303) || (code =? 307).

Section Curl.
  Variable env : uenv.
  (** What the last of these requests brings; [None] is an error of pycurl. *)
  Variable net : list request -> option transfer.
  (** The results of [int(time.time())], in order. *)
  Variable clock : nat -> Z.
  Definition ALLOWED_TIME : Z := 20.

  (** fetchers.py:344-387, the loop; [None] is a loop still running after [fuel] turns.  The
      requests made come with the result. *)
  Fixpoint curl_loop (fuel : nat) (headers : dict text text) (stop : Z) (post : option bytes) (url : text) (off : Z)
    (sent : list request) (now : nat) : option (list request * fresult) :=
    match fuel with
    | O => None
    | S fuel =>
        if (off <=? 0)%Z then Some (sent, Failed FHTTPError)
        else if negb (allowedURL url) then Some (sent, Failed FHTTPError)
        else
          match urinorm env url with
          | Raise e => Some (sent, Failed (FPython e))
          | Ok norm =>
              let sent := sent ++ [mkRequest norm post headers (Some off)] in
              match net sent with
              | None => Some (sent, Failed FLibrary)
              | Some t =>
                  match write_chunks [] (tr_chunks t) with
                  | None => Some (sent, Failed FLibrary)
                  | Some body =>
                      match parseHeaders (tr_header t) with
                      | inr e => Some (sent, Failed e)
                      | inl (Raise e) => Some (sent, Failed (FPython e))
                      | inl (Ok response_headers) =>
                          if is_redirect (tr_code t) then
                            match dget text_eqb (u "location") response_headers with
                            | None => Some (sent, Failed FHTTPError)
                            | Some url => curl_loop fuel headers stop None url (stop - clock now) sent (S now)
                            end
                          else Some (sent, Fetched (mkResp url (tr_code t) response_headers body))
                      end
                  end
              end
          end
    end.
  (** fetchers.py:315-389. *)
  Definition curl_fetch (agent : text) (fuel : nat) (url : text) (body : option bytes) (headers : dict text text)
    : option (list request * fresult) :=
    curl_loop fuel (setdefault headers (u "User-Agent") agent) (clock 0%nat + ALLOWED_TIME) body url ALLOWED_TIME [] 1.
End Curl.

(** ** The fetchers on other libraries *)
(** What a library brings: the URL at last, the status, the headers as the library gives them
    and the body. *)
Section Libraries.
  Variable lib : request -> fresult.
  (** fetchers.py:218-253; an HTTP error answer is an answer like any other. *)
  Definition urllib2_fetch (agent url : text) (body : option bytes) (headers : dict text text) : list request * fresult :=
    if negb (allowedURL url) then ([], Failed (FPython ValueError))
    else
      let rq := mkRequest url body (setdefault headers (u "User-Agent") agent) None in
      ([rq], match lib rq with
             | Fetched r => Fetched (mkResp (r_final_url r) (r_status r) (r_headers r) (firstn (N.to_nat (MAX_RESPONSE_KB * 1024)) (r_body r)))
             | Failed e => Failed e
             end).
  (** [if body: method = 'POST'] (426-429 and 478-481). *)
  Definition method_body (body : option bytes) : option bytes :=
    match body with Some (_ :: _) => body | _ => None end.
  (** fetchers.py:417-463.  [previous]: the answer came after redirects. *)
  Variable previous : request -> bool.
  Definition httplib2_fetch (url : text) (body : option bytes) (headers : dict text text) : list request * fresult :=
    if negb (startswith url (u "http://") || startswith url (u "https://")) then ([], Failed (FPython ValueError))
    else
      let rq := mkRequest url (method_body body) headers None in
      ([rq], match lib rq with
             | Failed e => Failed e
             | Fetched r =>
                 match dget text_eqb (u "content-location") (r_headers r) with
                 | Some final_url => Fetched (mkResp final_url (r_status r) (r_headers r) (r_body r))
                 | None =>
                     if previous rq || (r_status r =? 200) then Failed (FPython AssertionError)
                     else Fetched (mkResp url (r_status r) (r_headers r) (r_body r))
                 end
             end).
  (** fetchers.py:469-483. *)
  Definition requests_fetch (url : text) (body : option bytes) (headers : dict text text) : list request * fresult :=
    let rq := mkRequest url (method_body body) headers None in ([rq], lib rq).
End Libraries.

(** ** The default fetcher *)
Inductive kind := KRequests | KCurl | KHTTPLib2 | KUrllib2 | KOther.
(** ExceptionWrappingFetcher around another (193-208), or a fetcher itself. *)
Inductive fetcher := Plain (k : kind) | Wrapped (f : fetcher).
(** Which of the libraries could be imported (20-37). *)
Record imports := mkImports { has_requests : bool; has_pycurl : bool; has_httplib2 : bool }.
(** fetchers.py:53-71. *)
Definition createHTTPFetcher (i : imports) : fetcher :=
  if has_requests i then Plain KRequests
  else if has_pycurl i then Plain KCurl
  else if has_httplib2 i then Plain KHTTPLib2
  else Plain KUrllib2.
(** fetchers.py:95-113; the state is [_default_fetcher]. *)
Definition setDefaultFetcher (f : option fetcher) (wrap_exceptions : bool) : option fetcher :=
  match f with
  | None => None
  | Some f => if wrap_exceptions then Some (Wrapped f) else Some f
  end.
(** fetchers.py:80-92: the fetcher and the new state. *)
Definition getDefaultFetcher (i : imports) (s : option fetcher) : option fetcher * option fetcher :=
  let s := match s with None => setDefaultFetcher (Some (createHTTPFetcher i)) true | Some _ => s end in (s, s).
(** fetchers.py:116-121. *)
Definition usingCurl (i : imports) (s : option fetcher) : bool :=
  match fst (getDefaultFetcher i s) with
  | Some (Wrapped (Plain KCurl)) | Some (Plain KCurl) => true
  | _ => false
  end.
(** fetchers.py:199-208 and 43-50: what fetching with a fetcher gives, from what each kind
    of fetcher gives. *)
Fixpoint fetch_with (plain : kind -> fresult) (f : fetcher) : fresult :=
  match f with
  | Plain k => plain k
  | Wrapped f => match fetch_with plain f with Failed e => Failed (FFetchingError e) | r => r end
  end.
