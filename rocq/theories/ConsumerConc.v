(** Model of a consumer that runs in several processes on one store: visits (that is
    [complete] of Consumer.v) interleaved at every call of the store (Conc.v).  How the
    network and discovery behave during a visit is part of the visit. *)
From Verif Require Import Py CryptUtil Message Association UrlLib Nonce Store StoreSpec Conc Endpoint Consumer Prop_ConsumerOnce.
Import Py Store.
Open Scope Z_scope.

Section Conc.
  Variable e : uenv.
  Variable reg : dict text text.
  Variable hmac : text -> bytes -> bytes -> bytes.
  Variable udigit : N -> option Z.
  (** A visit with the answers it has had from the store so far (as in ServerConc.v). *)
  Definition visit_with (v : visit) (outs : list out) : script * res response :=
    respond e reg hmac udigit script_step v (mkScript outs []).
  Definition visit_next (v : visit) (outs : list out) : option op :=
    nth_error (asked (fst (visit_with v outs))) (List.length outs).
  Definition visit_done (v : visit) (outs : list out) : option (res response) :=
    match visit_next v outs with None => Some (snd (visit_with v outs)) | Some _ => None end.
End Conc.
