(** Model of a provider or a consumer that runs in several processes on one of the package's
    stores, with the inside of the store: Conc.v lets jobs share a store whose calls are
    atomic, FileSys.v and SqlConc.v let overlapping calls be made that no job asks for.  Here
    the overlapping calls are those of jobs (server.py:238-264, 1380-1405, 1605-1630,
    consumer.py:624-671, 768-822), and of others. *)
From Verif Require Import Py Association Nonce Store FileStore FileSys.
Open Scope Z_scope.

(** The answers that process i has had, oldest first; logs are newest first. *)
Definition answer_of (i : nat) (ev : event) : list out :=
  match ev with Ended j _ _ r => if Nat.eqb j i then [r] else [] | Began _ _ _ => [] end.
Definition answers_in (i : nat) (log : list event) : list out := rev (flat_map (answer_of i) log).
(** Process i, for i below the number of jobs, makes the calls of job i: each call that it begins
    is the one that the job makes after the answers it has had.  The other processes
    make any calls.  A process that dies may be started again with the call that it had not
    finished, but its job goes on only once it has an answer. *)
Fixpoint obeys {J : Type} (next : J -> list out -> option op) (jobs : list J) (log : list event) : Prop :=
  match log with
  | [] => True
  | Began i _ o :: l => obeys next jobs l /\ forall j, nth_error jobs i = Some j -> next j (answers_in i l) = Some o
  | Ended _ _ _ _ :: l => obeys next jobs l
  end.
