(** Model of a provider that runs in several processes on one store: the jobs of Server.v,
    interleaved at every call of the store (Conc.v). *)
From Verif Require Import Py CryptUtil DH Message Association Nonce Store StoreSpec Server Conc.
Import Py Store.
Open Scope Z_scope.

Section Conc.
  Variable hmac : text -> bytes -> bytes -> bytes.
  Variable pub_ok : Z -> Z -> Z -> bool.
  Variable hash : hash_alg -> bytes -> bytes.

  (** The jobs: answering check_authentication (server.py:238-264), signing and encoding an
      answer (1380-1405), answering associate (1605-1630).  [now] is the job's own reading of
      the clock. *)
  Inductive job :=
  | JCheck (now : Z) (c : checkauth)
  | JSign (now : Z) (secret : N -> bytes) (uniq : bytes) (r : response)
  | JAssociate (neg : negotiator) (now : Z) (secret : N -> bytes) (uniq : bytes) (c : associate).
  Inductive reply := AResponse (r : response) | AWeb (w : web).
  Definition rmap {A B} (f : A -> B) (m : res A) : res B := x <- m ;; Ok (f x).
  Definition run_job {S : Type} (step : S -> Z -> op -> S * out) (j : job) (s : S) : S * res reply :=
    match j with
    | JCheck now c => let '(s', r) := CheckAuth_answer hmac step now c s in (s', rmap AResponse r)
    | JSign now secret uniq r => let '(s', w) := encodeResponse hmac step now secret uniq r s in (s', rmap AWeb w)
    | JAssociate neg now secret uniq c =>
        let '(s', r) := openid_associate pub_ok hash step neg now secret uniq c s in (s', rmap AResponse r)
    end.

  (** The job with the answers it has had so far: everything it asks (the part after the
      answers is what it would ask next), its next call, and its result once there is none. *)
  Definition with_answers (j : job) (outs : list out) : script * res reply := run_job script_step j (mkScript outs []).
  Definition next_call (j : job) (outs : list out) : option op := nth_error (asked (fst (with_answers j outs))) (List.length outs).
  Definition finished (j : job) (outs : list out) : option (res reply) :=
    match next_call j outs with None => Some (snd (with_answers j outs)) | Some _ => None end.

End Conc.
