(** Model of /repo/openid/server/trustroot.py. *)
From Verif Require Import Py Utf8 UrlLib UriNorm.

(** trustroot.py 33-63. *)
Definition top_level_domains : list text :=
  [u "ac"; u "ad"; u "ae"; u "aero"; u "af"; u "ag"; u "ai"; u "al"; u "am"; u "an"; u "ao"; u "aq"; u "ar"; u "arpa"; u "as";
   u "asia"; u "at"; u "au"; u "aw"; u "ax"; u "az"; u "ba"; u "bb"; u "bd"; u "be"; u "bf"; u "bg"; u "bh"; u "bi"; u "biz";
   u "bj"; u "bm"; u "bn"; u "bo"; u "br"; u "bs"; u "bt"; u "bv"; u "bw"; u "by"; u "bz"; u "ca"; u "cat"; u "cc"; u "cd";
   u "cf"; u "cg"; u "ch"; u "ci"; u "ck"; u "cl"; u "cm"; u "cn"; u "co"; u "com"; u "coop"; u "cr"; u "cu"; u "cv"; u "cx";
   u "cy"; u "cz"; u "de"; u "dj"; u "dk"; u "dm"; u "do"; u "dz"; u "ec"; u "edu"; u "ee"; u "eg"; u "er"; u "es"; u "et";
   u "eu"; u "fi"; u "fj"; u "fk"; u "fm"; u "fo"; u "fr"; u "ga"; u "gb"; u "gd"; u "ge"; u "gf"; u "gg"; u "gh"; u "gi";
   u "gl"; u "gm"; u "gn"; u "gov"; u "gp"; u "gq"; u "gr"; u "gs"; u "gt"; u "gu"; u "gw"; u "gy"; u "hk"; u "hm"; u "hn";
   u "hr"; u "ht"; u "hu"; u "id"; u "ie"; u "il"; u "im"; u "in"; u "info"; u "int"; u "io"; u "iq"; u "ir"; u "is"; u "it";
   u "je"; u "jm"; u "jo"; u "jobs"; u "jp"; u "ke"; u "kg"; u "kh"; u "ki"; u "km"; u "kn"; u "kp"; u "kr"; u "kw"; u "ky";
   u "kz"; u "la"; u "lb"; u "lc"; u "li"; u "lk"; u "lr"; u "ls"; u "lt"; u "lu"; u "lv"; u "ly"; u "ma"; u "mc"; u "md";
   u "me"; u "mg"; u "mh"; u "mil"; u "mk"; u "ml"; u "mm"; u "mn"; u "mo"; u "mobi"; u "mp"; u "mq"; u "mr"; u "ms"; u "mt";
   u "mu"; u "museum"; u "mv"; u "mw"; u "mx"; u "my"; u "mz"; u "na"; u "name"; u "nc"; u "ne"; u "net"; u "nf"; u "ng"; u "ni";
   u "nl"; u "no"; u "np"; u "nr"; u "nu"; u "nz"; u "om"; u "org"; u "pa"; u "pe"; u "pf"; u "pg"; u "ph"; u "pk"; u "pl";
   u "pm"; u "pn"; u "pr"; u "pro"; u "ps"; u "pt"; u "pw"; u "py"; u "qa"; u "re"; u "ro"; u "rs"; u "ru"; u "rw"; u "sa";
   u "sb"; u "sc"; u "sd"; u "se"; u "sg"; u "sh"; u "si"; u "sj"; u "sk"; u "sl"; u "sm"; u "sn"; u "so"; u "sr"; u "st";
   u "su"; u "sv"; u "sy"; u "sz"; u "tc"; u "td"; u "tel"; u "tf"; u "tg"; u "th"; u "tj"; u "tk"; u "tl"; u "tm"; u "tn";
   u "to"; u "tp"; u "tr"; u "travel"; u "tt"; u "tv"; u "tw"; u "tz"; u "ua"; u "ug"; u "uk"; u "us"; u "uy"; u "uz"; u "va";
   u "vc"; u "ve"; u "vg"; u "vi"; u "vn"; u "vu"; u "wf"; u "ws"; u "xn--0zwm56d"; u "xn--11b5bs3a9aj6g"; u "xn--80akhbyknj4f";
   u "xn--9t4b11yi5a"; u "xn--deba0ad"; u "xn--g6w251d"; u "xn--hgbk6aj7f53bba"; u "xn--hlcj6aya9esc7a"; u "xn--jxalpdlp";
   u "xn--kgbechtv"; u "xn--zckzah"; u "ye"; u "yt"; u "yu"; u "za"; u "zm"; u "zw"].

Section TrustRoot.
  Variable e : uenv.

  (** trustroot.py 89-99, _parseURL: scheme, hostname, port and
      path-query-fragment of the normalized URL.  Only the call of urinorm is
      inside the [try]. *)
  Record url_parts := mkParts { up_scheme : text; up_host : option text; up_port : option N; up_path : text }.
  Definition parseURL (url : text) : res (option url_parts) :=
    match urinorm e url with
    | Raise x => if isValueError x then Ok None else Raise x
    | Ok url =>
        s <- urlsplit e url ;;
        let path := urlunsplit (mkSplit [] [] (if truthy (sp_path s) then sp_path s else [47]) (sp_query s) (sp_fragment s)) in
        port <- port_of (sp_netloc s) ;;
        Ok (Some (mkParts (sp_scheme s) (hostname_of (sp_netloc s)) port path))
    end.

  (** trustroot.py 102-120. *)
  Record trust_root := mkTR {
    tr_unparsed : text; tr_proto : text; tr_wildcard : bool; tr_host : text; tr_port : option N; tr_path : text
  }.

  (** trustroot.py 122-174, isSane.  The assertion of line 143 is [host_parts[0] == '']. *)
  Definition last_of (l : list text) : text := List.last l [].
  Definition isSane (tr : trust_root) : res bool :=
    if text_eqb (tr_host tr) (u "localhost") then Ok true
    else
      parts <- (let p := splitc 46 (tr_host tr) in
                if tr_wildcard tr then
                  match p with
                  | h :: r => if truthy h then Raise AssertionError else Ok r
                  | [] => Raise IndexError
                  end
                else Ok p) ;;
      let parts := match parts with
                   | [] => parts
                   | _ => if truthy (last_of parts) then parts else removelast parts
                   end in
      match parts with
      | [] => Ok false
      | _ =>
          if mem_text [] parts then Ok false
          else
            let tld := last_of parts in
            if negb (mem_text tld top_level_domains) then Ok false
            else if Nat.eqb (List.length parts) 1 then Ok false
            else if tr_wildcard tr && ((len tld =? 2) && (len (last_of (removelast parts)) <=? 3))
                 then Ok (Nat.ltb 2 (List.length parts))
                 else Ok true
      end.

  (** trustroot.py 176-231, validateURL. *)
  Definition optN_eqb (a b : option N) : bool :=
    match a, b with None, None => true | Some x, Some y => x =? y | _, _ => false end.
  Definition char_at (i : nat) (s : text) : res N := match nth_error s i with Some c => Ok c | None => Raise IndexError end.
  Definition validateURL (tr : trust_root) (url : text) : res bool :=
    o <- parseURL url ;;
    match o with
    | None => Ok false
    | Some p =>
        if negb (text_eqb (up_scheme p) (tr_proto tr)) then Ok false
        else if negb (optN_eqb (up_port p) (tr_port tr)) then Ok false
        else
          match up_host p with
          | None => Raise TypeError            (* '*' in None *)
          | Some host =>
              if memc 42 host then Ok false
              else if (if tr_wildcard tr
                       then negb (endswith host (tr_host tr)) && negb (text_eqb (46 :: host) (tr_host tr))
                       else negb (text_eqb host (tr_host tr))) then Ok false
              else if text_eqb (up_path p) (tr_path tr) then Ok true
              else
                let n := List.length (tr_path tr) in
                if negb (text_eqb (tr_path tr) (firstn n (up_path p))) then Ok false
                else
                  let allowed := if memc 63 (tr_path tr) then u "&" else u "?/" in
                  match rev (tr_path tr) with
                  | [] => Raise IndexError     (* self.path[-1] *)
                  | c :: _ => if memc c allowed then Ok true
                              else d <- char_at n (up_path p) ;; Ok (memc d allowed)
                  end
          end
    end.

  (** trustroot.py 233-280, parse. *)
  Definition parse (unparsed : text) : res (option trust_root) :=
    o <- parseURL unparsed ;;
    match o with
    | None => Ok None
    | Some p =>
        if memc 35 (up_path p) then Ok None
        else
          match up_host p with
          | None => Raise AttributeError       (* None.find *)
          | Some host =>
              if memc 42 (tl host) then Ok None
              else if startswith host (u "*") then
                if match tl host with [] => false | c :: _ => negb (c =? 46) end then Ok None
                else Ok (Some (mkTR unparsed (up_scheme p) true (tl host) (up_port p) (up_path p)))
              else Ok (Some (mkTR unparsed (up_scheme p) false host (up_port p) (up_path p)))
          end
    end.

  (** trustroot.py 282-299, checkSanity and checkURL. *)
  Definition checkSanity (s : text) : res bool :=
    o <- parse s ;; match o with None => Ok false | Some tr => isSane tr end.
  Definition checkURL (s url : text) : res bool :=
    o <- parse s ;; match o with None => Ok false | Some tr => validateURL tr url end.

  (** trustroot.py 301-324, buildDiscoveryURL. *)
  Definition buildDiscoveryURL (tr : trust_root) : res text :=
    if tr_wildcard tr then
      if startswith (tr_host tr) (u ".") then
        let port := match tr_port tr with Some n => if n =? 0 then [] else u ":" ++ str_of_N n | None => [] end in
        Ok (tr_proto tr ++ u "://" ++ u "www" ++ tr_host tr ++ port ++ tr_path tr)
      else Raise AssertionError
    else Ok (tr_unparsed tr).

  (** trustroot.py 365-392, returnToMatches. *)
  Fixpoint returnToMatches (allowed : list text) (return_to : text) : res bool :=
    match allowed with
    | [] => Ok false
    | a :: rest =>
        o <- parse a ;;
        match o with
        | None => returnToMatches rest return_to
        | Some r =>
            if tr_wildcard r then returnToMatches rest return_to
            else b <- validateURL r return_to ;; if b then Ok true else returnToMatches rest return_to
        end
    end.

  (** yadis/services.py getServiceEndpoints as it is used here, by its result: the
      URL after redirects and the (types, URI) pairs of the services found.
      trustroot.py 339-362 (_extractReturnURL) is applied to each. *)
  Variable discover : text -> res (text * list (list text * option text)).
  Definition RP_RETURN_TO_URL_TYPE : text := u "http://specs.openid.net/auth/2.0/return_to".
  Definition extractReturnURL (ep : list text * option text) : list text :=
    if mem_text RP_RETURN_TO_URL_TYPE (fst ep) then match snd ep with Some x => [x] | None => [] end else [].

  (** trustroot.py 395-408, getAllowedReturnURLs. *)
  Definition getAllowedReturnURLs (url : text) : res (list text) :=
    ' (after, eps) <- discover url ;;
    a <- urinorm e after ;;
    b <- urinorm e url ;;
    if text_eqb a b then Ok (flat_map extractReturnURL eps) else Raise RealmVerificationRedirected.

  (** trustroot.py 413-445, verifyReturnTo. *)
  Definition verifyReturnTo (realm_str return_to : text) : res bool :=
    o <- parse realm_str ;;
    match o with
    | None => Ok false
    | Some realm =>
        d <- buildDiscoveryURL realm ;;
        match getAllowedReturnURLs d with
        | Raise RealmVerificationRedirected => Ok false
        | Raise x => Raise x
        | Ok urls => returnToMatches urls return_to
        end
    end.
End TrustRoot.
