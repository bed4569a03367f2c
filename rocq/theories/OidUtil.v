(** Model of /repo/openid/oidutil.py 60-109 (appendArgs) and of the URL writers of
    /repo/openid/message.py (toURL 381-384, toURLEncoded 393-403). *)
From Verif Require Import Py Utf8 UrlLib Message.

(** oidutil.py 60-109, appendArgs with a sequence of pairs of texts. *)
Definition appendArgs (url : text) (args : list (text * text)) : res text :=
  match args with
  | [] => Ok url
  | _ =>
      let sep := if memc 63 url then 38 else 63 in
      bargs <- mapM (fun kv => k <- encode (fst kv) ;; v <- encode (snd kv) ;; Ok (k, v)) args ;;
      Ok (url ++ sep :: urlencode_bytes bargs)
  end.

(** [sorted(d.items())]: the keys of a dict are distinct, so the order of the keys
    decides. *)
Definition sorted_items (d : dict text text) : list (text * text) := sort (fun a b => text_leb (fst a) (fst b)) d.

(** oidutil.py 60-109, appendArgs with a dict. *)
Definition appendArgsDict (url : text) (d : dict text text) : res text := appendArgs url (sorted_items d).

(** message.py 381-384 and 393-403. *)
Definition toURL (m : msg) (base_url : text) : res text := appendArgsDict base_url (toPostArgs m).
Definition toURLEncoded (m : msg) : res text := urlencode (sorted_items (toPostArgs m)).
