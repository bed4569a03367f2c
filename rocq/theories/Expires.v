(** Model of getXRDExpiration, /repo/openid/yadis/etxrd.py 133-155.  The format is the one of
    nonce.py; [time.strptime] is that of Nonce.v. *)
From Verif Require Import Py Nonce Etxrd.
Open Scope Z_scope.
Local Arguments u : simpl never.

(** etxrd.py:102. *)
Definition expires_tag : text := u "{xri://$xrd*($v*2.0)}Expires".
(** [datetime(year, month, day, hour, minute, second)]: strptime lets the seconds 60 and 61 pass. *)
Definition datetime (x : tm) : res tm :=
  if (1 <=? tm_year x) && (tm_year x <=? 9999) && (tm_sec x <=? 59) then Ok x else Raise ValueError.
(** etxrd.py:133-155; the text of an empty element is None, which strptime refuses with a
    TypeError. *)
Definition getXRDExpiration (udigit : N -> option Z) (xrd_element : xel) (default : option tm) : res (option tm) :=
  match x_findall expires_tag xrd_element with
  | [] => Ok default
  | el :: _ =>
      match x_text el with
      | None => Raise TypeError
      | Some s => x <- strptime udigit s ;; d <- datetime x ;; Ok (Some d)
      end
  end.
