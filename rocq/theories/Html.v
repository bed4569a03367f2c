(** Model of how a form becomes a page: message.py 361-379, ElementTree.tostring (lxml's
    serializer), and oidutil.py 19-37. *)
From Verif Require Import Py Utf8 UrlLib Message Server.
Import Py.
Open Scope N_scope.

(** lxml takes attribute values that are XML text: no control characters other than tab and
    line ends, no surrogates, not U+FFFE or U+FFFF. *)
Definition xml_char (c : N) : bool :=
  (c =? 9) || (c =? 10) || (c =? 13) || ((32 <=? c) && (c <? 55296)) || ((57344 <=? c) && (c <? 65534)) ||
  ((65536 <=? c) && (c <? 1114112)).
Definition xml_value (v : text) : res text :=
  _ <- encode v ;; if forallb xml_char v then Ok v else Raise ValueError.
(** Attribute names: XML names without a colon.  Which characters beyond ASCII are name
    characters is not modelled, all of them pass here; so is the '{namespace}name' notation,
    which is refused here. *)
Definition name_start (c : N) : bool := isalphac c || (c =? 95) || (128 <=? c).
Definition name_char (c : N) : bool := name_start c || isdigitc c || (c =? 45) || (c =? 46).
Definition xml_name (n : text) : res text :=
  match n with
  | c :: r => if name_start c && forallb name_char r && forallb xml_char n then Ok n else Raise ValueError
  | [] => Raise ValueError
  end.

(** libxml2's xmlBufAttrSerializeTxtContent for a document in UTF-8. *)
Definition escape_char (c : N) : text :=
  if c =? 34 then u "&quot;" else if c =? 10 then u "&#10;" else if c =? 13 then u "&#13;" else if c =? 9 then u "&#9;"
  else if c =? 60 then u "&lt;" else if c =? 62 then u "&gt;" else if c =? 38 then u "&amp;" else [c].
Definition escape (s : text) : text := List.concat (map escape_char s).
Definition attr_out (kv : text * text) : text := 32 :: fst kv ++ 61 :: 34 :: escape (snd kv) ++ [34].
Definition attrs_out (d : dict text text) : text := List.concat (map attr_out d).
Definition input_out (i : dict text text) : text := u "<input" ++ attrs_out i ++ u "/>".
Definition form_out (f : form) : text :=
  u "<form" ++ attrs_out (form_attrs f) ++ u ">" ++ List.concat (map input_out (form_inputs f)) ++ u "</form>".

(** message.py 361-379: attributes are checked when they are set.  Here the final ones are: a
    form_tag_attrs value for one of the four names set by the library is not looked at. *)
Definition check_attrs (d : dict text text) : res unit :=
  _ <- mapM (fun kv => _ <- xml_name (fst kv) ;; xml_value (snd kv)) d ;; Ok tt.
Definition form_text (f : form) : res text :=
  _ <- check_attrs (form_attrs f) ;;
  _ <- mapM check_attrs (form_inputs f) ;;
  Ok (form_out f).

(** oidutil.py 19-37, autoSubmitHTML. *)
Definition page_head : text := u "
<html>
<head>
  <title>".
Definition page_middle : text := u "</title>
</head>
<body onload=""document.forms[0].submit();"">
".
Definition page_tail : text := u "
<script>
var elements = document.forms[0].elements;
for (var i = 0; i < elements.length; i++) {
  elements[i].style.display = ""none"";
}
</script>
</body>
</html>
".
Definition autoSubmitHTML (form title : text) : text := page_head ++ title ++ page_middle ++ form ++ page_tail.
Definition default_title : text := u "OpenID transaction in progress".

(** server.py 1029-1039 and 1728-1734, consumer.py 1638-1646: toHTML and htmlMarkup. *)
Definition form_page (f : form) : res text := t <- form_text f ;; Ok (autoSubmitHTML t default_title).
