(** Model of jobs that share a store: several processes, interleaved at every call of the
    store (whose calls are atomic, see SqlConc.v and FileConc.v for what is inside). *)
From Verif Require Import Py CryptUtil Association Nonce Store StoreSpec.
Import Py Store.
Open Scope Z_scope.

(** ** What a job asks of its store *)
(** A store that gives answers from a list, and notes what it was asked. *)
Record script := mkScript { to_come : list out; asked : list op }.
Definition script_step (s : script) (now : Z) (o : op) : script * out :=
  match to_come s with
  | a :: r => (mkScript r (asked s ++ [o]), a)
  | [] => (mkScript [] (asked s ++ [o]), Err TypeError)
  end.


(** ** Runs *)
Record call := mkCall { by_job : nat; at_time : Z; the_op : op; the_out : out }.
(** Traces are newest first. *)
Definition calls_of (tr : list call) : history := map (fun c => (at_time c, the_op c)) tr.
Definition answers_to (i : nat) (tr : list call) : list out := rev (map the_out (filter (fun c => Nat.eqb (by_job c) i) tr)).

Section Run.
  Context {J : Type}.
  Variable next : J -> list out -> option op.    (* the next call of a job, given the answers it had *)
  Context {S : Type} (step : S -> Z -> op -> S * out) (s0 : S).
  Variable h0 : history.                         (* what happened to the store before *)
  Variable others : op -> Prop.                  (* what others may do to it meanwhile *)
  Variable jobs : list J.
  Inductive runs : list call -> Prop :=
  | runs_none : runs []
  | runs_call tr i j t o : runs tr -> nth_error jobs i = Some j -> next j (answers_to i tr) = Some o ->
      clock t (calls_of tr ++ h0) ->
      runs (mkCall i t o (answer step s0 (calls_of tr ++ h0) t o) :: tr)
  | runs_other tr i t o : runs tr -> nth_error jobs i = None -> others o ->
      clock t (calls_of tr ++ h0) ->
      runs (mkCall i t o (answer step s0 (calls_of tr ++ h0) t o) :: tr).
End Run.
