(** The functions of Python's [urllib.parse] that the code under /repo/openid
    calls: quote, unquote, parse_qsl, urlencode, urlsplit, urlunsplit, urlparse,
    urldefrag.  They are not functions of /repo; they are modelled from
    CPython 3.11.10 (Lib/urllib/parse.py), for [str] arguments. *)
From Verif Require Import Py Utf8.

Definition isascii (s : text) : bool := forallb (fun c => c <? 128) s.
Definition isdigitc (c : N) : bool := (48 <=? c) && (c <=? 57).
Definition isalphac (c : N) : bool := ((65 <=? c) && (c <=? 90)) || ((97 <=? c) && (c <=? 122)).

(** [bytes.decode('utf-8', 'replace')]: each maximal ill-formed part becomes one
    U+FFFD (CPython Objects/stringlib/codecs.h). *)
Definition REPL : N := 65533.
Fixpoint decode_replace (s : bytes) : text :=
  match s with
  | [] => []
  | a :: r =>
      if a <? 128 then a :: decode_replace r
      else if a <? 194 then REPL :: decode_replace r
      else if a <? 224 then
        match r with
        | [] => [REPL]
        | b :: r1 => if cont b then (a - 192) * 64 + (b - 128) :: decode_replace r1 else REPL :: decode_replace r
        end
      else if a <? 240 then
        match r with
        | [] => [REPL]
        | b :: r1 =>
            if negb (cont b) || (if b <? 160 then a =? 224 else a =? 237) then REPL :: decode_replace r
            else match r1 with
                 | [] => [REPL]
                 | c :: r2 =>
                     if cont c then (a - 224) * 4096 + (b - 128) * 64 + (c - 128) :: decode_replace r2
                     else REPL :: decode_replace r1
                 end
        end
      else if a <? 245 then
        match r with
        | [] => [REPL]
        | b :: r1 =>
            if negb (cont b) || (if b <? 144 then a =? 240 else a =? 244) then REPL :: decode_replace r
            else match r1 with
                 | [] => [REPL]
                 | c :: r2 =>
                     if cont c then
                       match r2 with
                       | [] => [REPL]
                       | d :: r3 =>
                           if cont d then (a - 240) * 262144 + (b - 128) * 4096 + (c - 128) * 64 + (d - 128) :: decode_replace r3
                           else REPL :: decode_replace r2
                       end
                     else REPL :: decode_replace r1
                 end
        end
      else REPL :: decode_replace r
  end.

(** [_ALWAYS_SAFE]. *)
Definition always_safe (c : N) : bool :=
  isalphac c || isdigitc c || (c =? 95) || (c =? 46) || (c =? 45) || (c =? 126).
(** [quote_from_bytes(bs, safe)]: one byte. *)
Definition quote_byte (safe : text) (b : N) : text :=
  if always_safe b || memc b safe then [b] else [37; hexdigit (b / 16); hexdigit (b mod 16)].
Definition quote_from_bytes (safe : text) (bs : bytes) : text := List.concat (map (quote_byte safe) bs).
(** [quote(string, safe)] for [str] (safe is ASCII in every use). *)
Definition quote (safe : text) (s : text) : res text :=
  bs <- encode s ;; Ok (quote_from_bytes safe bs).
(** [string.replace(c, d)] for one-character strings. *)
Definition replace_char (c d : N) (s : text) : text := map (fun x => if x =? c then d else x) s.
(** [quote_plus(string)] for [str], and for [bytes]. *)
Definition quote_plus_bytes (bs : bytes) : text :=
  if memc 32 bs then replace_char 32 43 (quote_from_bytes [32] bs) else quote_from_bytes [] bs.
Definition quote_plus (s : text) : res text := bs <- encode s ;; Ok (quote_plus_bytes bs).

(** [unquote_to_bytes(string)] for an ASCII [str]. *)
Fixpoint unquote_to_bytes (s : text) : bytes :=
  match s with
  | [] => []
  | c :: r =>
      if c =? 37 then
        match r with
        | a :: b :: r2 =>
            match hexval a, hexval b with
            | Some x, Some y => 16 * x + y :: unquote_to_bytes r2
            | _, _ => 37 :: unquote_to_bytes r
            end
        | _ => 37 :: unquote_to_bytes r
        end
      else c :: unquote_to_bytes r
  end.
(** [unquote(string)]: maximal ASCII runs are unquoted and decoded, the other
    characters are kept.  [acc] is the current run, reversed. *)
Fixpoint unquote_runs (acc s : text) : text :=
  match s with
  | [] => decode_replace (unquote_to_bytes (rev acc))
  | c :: r =>
      if c <? 128 then unquote_runs (c :: acc) r
      else decode_replace (unquote_to_bytes (rev acc)) ++ c :: unquote_runs [] r
  end.
Definition unquote (s : text) : text := if memc 37 s then unquote_runs [] s else s.
Definition unquote_plus (s : text) : text := unquote (replace_char 43 32 s).

(** [s.partition(c)], the two outer parts. *)
Definition partition (c : N) (s : text) : text * text :=
  match cut c s with Some (a, b) => (a, b) | None => (s, []) end.

(** [parse_qsl(qs, keep_blank_values)]. *)
Definition parse_qsl1 (keep : bool) (nv : text) : list (text * text) :=
  if truthy nv then
    let (name, value) := partition 61 nv in
    if truthy value || keep then [(unquote_plus name, unquote_plus value)] else []
  else [].
Definition parse_qsl (keep : bool) (qs : text) : list (text * text) :=
  if truthy qs then flat_map (parse_qsl1 keep) (splitc 38 qs) else [].

(** [urlencode(query)] for pairs of [str] and for pairs of [bytes]. *)
Definition urlencode (query : list (text * text)) : res text :=
  l <- mapM (fun kv => k <- quote_plus (fst kv) ;; v <- quote_plus (snd kv) ;; Ok (k ++ 61 :: v)) query ;;
  Ok (join [38] l).
Definition urlencode_bytes (query : list (bytes * bytes)) : text :=
  join [38] (map (fun kv => quote_plus_bytes (fst kv) ++ 61 :: quote_plus_bytes (snd kv)) query).

(** What the URL functions take from the rest of Python: [ipaddress] (the check of
    a bracketed host), [unicodedata] (NFKC check of a non-ASCII authority), and
    the IDNA codec on non-ASCII host names. *)
Record uenv := mkUenv {
  ue_bracket : text -> bool;       (* _check_bracketed_host does not raise *)
  ue_nfkc : text -> bool;          (* _checknetloc does not raise, for non-ASCII netloc *)
  ue_idna : text -> option text    (* s.encode('idna').decode('utf-8') or ValueError, for non-ASCII s *)
}.

Record split_result := mkSplit {
  sp_scheme : text;
  sp_netloc : text;
  sp_path : text;
  sp_query : text;
  sp_fragment : text
}.

Definition scheme_char (c : N) : bool := isalphac c || isdigitc c || (c =? 43) || (c =? 45) || (c =? 46).
(** [_splitnetloc]: up to the first of '/', '?', '#'. *)
Definition netloc_end (c : N) : bool := (c =? 47) || (c =? 63) || (c =? 35).
Fixpoint splitnetloc (s : text) : text * text :=
  match s with
  | [] => ([], [])
  | c :: r => if netloc_end c then ([], s) else let (a, b) := splitnetloc r in (c :: a, b)
  end.
(** [url.lstrip(C0 controls and space)] and removal of tab, CR, LF. *)
Definition url_clean (url : text) : text :=
  filter (fun c => negb ((c =? 9) || (c =? 10) || (c =? 13))) (lstripf (fun c => c <=? 32) url).
(** The scheme part: [(scheme, rest)]. *)
Definition split_scheme (url : text) : text * text :=
  match cut 58 url with
  | Some (a, b) =>
      match a with
      | c :: _ => if isalphac c && forallb scheme_char a then (lower a, b) else ([], url)
      | [] => ([], url)
      end
  | None => ([], url)
  end.
Definition netloc_ok (e : uenv) (netloc : text) : bool :=
  let o := memc 91 netloc in let c := memc 93 netloc in
  if (o && negb c) || (c && negb o) then false
  else if o && c then ue_bracket e (fst (partition 93 (snd (partition 91 netloc)))) else true.
(** [urlsplit(url)]. *)
Definition urlsplit (e : uenv) (url : text) : res split_result :=
  let (scheme, url) := split_scheme (url_clean url) in
  ' (netloc, url) <- (if startswith url (u "//")
                      then let (n, r) := splitnetloc (skipn 2 url) in
                           if netloc_ok e n then Ok (n, r) else Raise ValueError
                      else Ok ([], url)) ;;
  let (url, fragment) := partition 35 url in
  let (url, query) := partition 63 url in
  if isascii netloc || ue_nfkc e netloc then Ok (mkSplit scheme netloc url query fragment) else Raise ValueError.

(** Attributes of the result.  [rpartition('@')]. *)
Definition userinfo_of (netloc : text) : option text * option text :=
  match rcut 64 netloc with
  | Some (ui, _) => match cut 58 ui with Some (a, b) => (Some a, Some b) | None => (Some ui, None) end
  | None => (None, None)
  end.
Definition hostinfo_of (netloc : text) : text * option text :=
  let hostinfo := match rcut 64 netloc with Some (_, h) => h | None => netloc end in
  let (hostname, port) :=
    match cut 91 hostinfo with
    | Some (_, bracketed) => let (h, p) := partition 93 bracketed in (h, snd (partition 58 p))
    | None => partition 58 hostinfo
    end in
  (hostname, if truthy port then Some port else None).
Definition hostname_of (netloc : text) : option text :=
  let h := fst (hostinfo_of netloc) in
  if truthy h then
    Some (match cut 37 h with Some (a, z) => lower a ++ 37 :: z | None => lower h end)
  else None.
Definition port_of (netloc : text) : res (option N) :=
  match snd (hostinfo_of netloc) with
  | None => Ok None
  | Some p =>
      if forallb isdigitc p then
        n <- int_of_text p ;;
        if (n <=? 65535)%Z then Ok (Some (Z.to_N n)) else Raise ValueError
      else Raise ValueError
  end.

(** [urlunsplit]. *)
Definition uses_netloc : list text :=
  [[]; u "ftp"; u "http"; u "gopher"; u "nntp"; u "telnet"; u "imap"; u "wais"; u "file"; u "mms"; u "https"; u "shttp";
   u "snews"; u "prospero"; u "rtsp"; u "rtsps"; u "rtspu"; u "rsync"; u "svn"; u "svn+ssh"; u "sftp"; u "nfs"; u "git";
   u "git+ssh"; u "ws"; u "wss"].
Definition urlunsplit (s : split_result) : text :=
  let url := sp_path s in
  let url := if truthy (sp_netloc s) || (truthy (sp_scheme s) && mem_text (sp_scheme s) uses_netloc) || startswith url (u "//")
             then let url := match url with [] => [] | c :: _ => if c =? 47 then url else 47 :: url end in
                  u "//" ++ sp_netloc s ++ url
             else url in
  let url := if truthy (sp_scheme s) then sp_scheme s ++ 58 :: url else url in
  let url := if truthy (sp_query s) then url ++ 63 :: sp_query s else url in
  if truthy (sp_fragment s) then url ++ 35 :: sp_fragment s else url.

(** [urlparse]: the path with the parameters of its last segment cut off, and the
    parameters.  [uses_params]. *)
Definition uses_params : list text :=
  [[]; u "ftp"; u "hdl"; u "prospero"; u "http"; u "imap"; u "https"; u "shttp"; u "rtsp"; u "rtsps"; u "rtspu"; u "sip";
   u "sips"; u "mms"; u "sftp"; u "tel"].
Definition splitparams (url : text) : text * text :=
  match rcut 47 url with
  | Some (a, b) => match cut 59 b with Some (x, y) => (a ++ 47 :: x, y) | None => (url, []) end
  | None => partition 59 url
  end.
Definition path_params (s : split_result) : text * text :=
  if mem_text (sp_scheme s) uses_params && memc 59 (sp_path s) then splitparams (sp_path s) else (sp_path s, []).

(** [urldefrag(url)[0]]: [urlparse] and [urlunparse] without the fragment, when
    there is a '#'. *)
Definition urldefrag (e : uenv) (url : text) : res text :=
  if memc 35 url then
    s <- urlsplit e url ;;
    let (path, params) := path_params s in
    let path := if truthy params then path ++ 59 :: params else path in
    Ok (urlunsplit (mkSplit (sp_scheme s) (sp_netloc s) path (sp_query s) []))
  else Ok url.
