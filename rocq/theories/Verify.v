(** Return URL verification by discovery on the realm: /repo/openid/server/trustroot.py:342-442,
    [returnToVerified] of /repo/openid/server/server.py and [getServiceEndpoints] of
    /repo/openid/yadis/services.py, on the model of discovery. *)
From Verif Require Import Py UrlLib UriNorm TrustRoot Message Etxrd Endpoint Discover.
From Verif Require Server.

Section Verify.
  Variable e : uenv.
  Variable rnd : shuffler.
  Variable web : list freq -> res fresp.
  Variable parse_xml : bytes -> option xel.
  Variable decode_as : text -> bytes -> res text.
  Variable parse_meta : (text + bytes) -> option xel.

  (** services.py:10-34. *)
  Definition getServiceEndpoints {E} (flt : filt E) (input_url : text) : M (text * list E) :=
    mbind (yadisDiscover web decode_as parse_meta input_url) (fun result =>
    mbind (mcatch (applyFilter rnd parse_xml flt (y_normalized_uri result) (y_body result))
                  (fun x => if isXRDSError x then Some (Raise DiscoveryFailure) else None)) (fun endpoints =>
    mret (Ok (y_normalized_uri result, endpoints)))).
  (** trustroot.py:342-362, _extractReturnURL, and what [mkFilter] makes of it. *)
  Definition returnURL_of (b : basic) : res (option text) :=
    Ok (match matchTypes b [RP_RETURN_TO_URL_TYPE] with [] => None | _ => b_uri b end).
  Definition return_filter : filt text := transform_filter rnd [returnURL_of].
  (** trustroot.py:395-409. *)
  Definition allowedReturnURLs (relying_party_url : text) : M (list text) :=
    mbind (getServiceEndpoints return_filter relying_party_url) (fun r =>
    mret (a <- urinorm e (fst r) ;;
          b <- urinorm e relying_party_url ;;
          if text_eqb a b then Ok (snd r) else Raise RealmVerificationRedirected)).
  (** trustroot.py:414-442. *)
  Definition verify (realm_str return_to : text) : M bool :=
    mbind (mret (parse e realm_str)) (fun o =>
    match o with
    | None => mret (Ok false)
    | Some realm =>
        mbind (mret (buildDiscoveryURL realm)) (fun url =>
        mbind (mcatch (mbind (allowedReturnURLs url) (fun l => mret (Ok (Some l))))
                      (fun x => match x with RealmVerificationRedirected => Some (Ok None) | _ => None end)) (fun urls =>
        match urls with
        | None => mret (Ok false)
        | Some l => mret (returnToMatches e l return_to)
        end))
    end).
  (** server.py:723-751.  A missing realm or return URL is no URL, like the empty text:
      urinorm.py:79-83 raises ValueError for both. *)
  Definition returnToVerified (c : Server.checkid) : M bool :=
    let text_of o := match o with Some t => t | None => [] end in
    verify (text_of (Server.ci_trust_root c)) (text_of (Server.ci_return_to c)).
End Verify.
