(** Model of /repo/openid/urinorm.py. *)
From Verif Require Import Py Utf8 UrlLib.

(** The part of [s] before the first [c], and the rest from that [c] on. *)
Fixpoint span_until (c : N) (s : text) : text * text :=
  match s with
  | [] => ([], [])
  | x :: r => if x =? c then ([], s) else let (a, b) := span_until c r in (x :: a, b)
  end.

(** urinorm.py 12-44, remove_dot_segments: the [while] loop.  [segs] is
    result_segments, last segment first.  The Python loop has no bound; [fuel]
    is one and running out of it is the separate error [OutOfFuel]. *)
Fixpoint rds_loop (fuel : nat) (path : text) (segs : list text) : res (list text) :=
  match fuel with
  | O => Raise OutOfFuel
  | S fuel =>
      match path with
      | [] => Ok segs
      | c :: r =>
          if startswith path (u "../") then rds_loop fuel (skipn 3 path) segs
          else if startswith path (u "./") then rds_loop fuel (skipn 2 path) segs
          else if startswith path (u "/./") then rds_loop fuel (skipn 2 path) segs
          else if text_eqb path (u "/.") then rds_loop fuel (u "/") segs
          else if startswith path (u "/../") then rds_loop fuel (skipn 3 path) (tl segs)
          else if text_eqb path (u "/..") then rds_loop fuel (u "/") (tl segs)
          else if text_eqb path (u "..") || text_eqb path (u ".") then rds_loop fuel [] segs
          else if c =? 47 then let (a, b) := span_until 47 r in rds_loop fuel b ((c :: a) :: segs)
          else let (a, b) := span_until 47 path in rds_loop fuel b (a :: segs)
      end
  end.
Definition remove_dot_segments (path : text) : res text :=
  segs <- rds_loop (S (List.length path)) path [] ;; Ok (List.concat (rev segs)).

(** urinorm.py 47-52. *)
Definition GEN_DELIMS : text := u ":/?#[]@".
Definition SUB_DELIMS : text := u "!$&'()*+,;=".
Definition allowed_char (c : N) : bool :=
  isalphac c || isdigitc c || memc c (u "-._~") || memc c GEN_DELIMS || memc c SUB_DELIMS || (c =? 37).

(** urinorm.py 55-59, _check_disallowed_characters. *)
Definition check_disallowed_characters (part : text) : res unit :=
  if forallb allowed_char part then Ok tt else Raise ValueError.

(** [hostname.encode('idna').decode('utf-8')] (urinorm.py 95): CPython's IDNA
    codec.  The ASCII path is concrete, non-ASCII names go to the environment. *)
Definition label_ok (l : text) : bool := truthy l && (len l <? 64).
Definition idna (e : uenv) (s : text) : res text :=
  if truthy s then
    if isascii s then
      match rev (splitc 46 s) with
      | last :: front => if forallb label_ok front && (len last <? 64) then Ok s else Raise ValueError
      | [] => Ok s
      end
    else match ue_idna e s with Some t => Ok t | None => Raise ValueError end
  else Ok [].

(** urinorm.py 62-150, urinorm, in parts.  The host (84-98). *)
Definition norm_host (e : uenv) (netloc : text) : res text :=
  let hostname := match hostname_of netloc with None => [] | Some h => lower h end in
  h <- idna e (unquote hostname) ;;
  _ <- check_disallowed_characters h ;; Ok h.
(** The port (100-107): the text after ':' or the empty text. *)
Definition norm_port (scheme netloc : text) : res text :=
  p <- port_of netloc ;;
  Ok (match p with
      | None => []
      | Some n => if (text_eqb scheme (u "http") && (n =? 80)) || (text_eqb scheme (u "https") && (n =? 443)) || (n =? 0)
                  then [] else str_of_N n
      end).
(** The authority (109-116). *)
Definition norm_netloc (e : uenv) (scheme netloc : text) : res text :=
  hostname <- norm_host e netloc ;;
  port <- norm_port scheme netloc ;;
  let n := if truthy port then hostname ++ 58 :: port else hostname in
  match userinfo_of netloc with
  | (None, _) => Ok n
  | (Some user, pw) =>
      let userinfo := match pw with None => user | Some p => user ++ 58 :: p end in
      _ <- check_disallowed_characters userinfo ;; Ok (userinfo ++ 64 :: n)
  end.
(** The path (118-133). *)
Definition norm_path (p : text) : res text :=
  q <- quote (47 :: SUB_DELIMS) (unquote p) ;;
  path <- remove_dot_segments q ;;
  let path := if truthy path then path else [47] in
  _ <- check_disallowed_characters path ;; Ok path.
(** The query (135-144). *)
Definition norm_query (q : text) : res text :=
  query <- urlencode (parse_qsl false q) ;;
  _ <- check_disallowed_characters query ;; Ok query.
(** The fragment (146-148). *)
Definition norm_fragment (f : text) : res text :=
  let fragment := unquote f in
  _ <- check_disallowed_characters fragment ;; Ok fragment.

Definition urinorm (e : uenv) (uri : text) : res text :=
  s <- urlsplit e uri ;;
  let scheme := lower (sp_scheme s) in
  if negb (mem_text scheme [u "http"; u "https"]) then Raise ValueError
  else if negb (truthy (sp_netloc s)) then Raise ValueError
  else
    netloc <- norm_netloc e scheme (sp_netloc s) ;;
    path <- norm_path (sp_path s) ;;
    query <- norm_query (sp_query s) ;;
    fragment <- norm_fragment (sp_fragment s) ;;
    Ok (urlunsplit (mkSplit scheme netloc path query fragment)).
