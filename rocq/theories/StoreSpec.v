(** What a store is expected to do, as functions of the history of calls alone.
    Histories are newest first; every call carries the clock reading at which it was made. *)
From Verif Require Import Py Association Nonce Store.
Open Scope Z_scope.

Definition event : Type := (Z * op)%type.
Definition history := list event.

(** The state a store reaches, and what it answers next. *)
Section Run.
  Context {S : Type} (step : S -> Z -> op -> S * out) (s0 : S).
  Fixpoint after (h : history) : S :=
    match h with
    | [] => s0
    | (t, o) :: r => fst (step (after r) t o)
    end.
  Definition answer (h : history) (t : Z) (o : op) : out := snd (step (after h) t o).
  (** How many useNonce calls for this triple returned True. *)
  Fixpoint accepted (url : text) (ts : Z) (salt : text) (h : history) : nat :=
    match h with
    | [] => 0
    | (t, o) :: r =>
        (accepted url ts salt r +
         match o with
         | UseN url' ts' salt' =>
             if (text_eqb url url' && (ts =? ts')%Z && text_eqb salt salt')%bool
             then match answer r t o with Flag true => 1 | _ => 0 end
             else 0
         | _ => 0
         end)%nat
    end.
End Run.

(** The clock does not go backwards, up to the reading [t]. *)
Fixpoint clock (t : Z) (h : history) : Prop :=
  match h with
  | [] => True
  | (t', _) :: r => t' <= t /\ clock t' r
  end.

(** The association stored last under this URL and handle, unless removed since. *)
Fixpoint stored (url handle : text) (h : history) : option assoc :=
  match h with
  | [] => None
  | (_, StoreA url' a) :: r =>
      if text_eqb url url' && text_eqb handle (a_handle a) then Some a else stored url handle r
  | (_, RemoveA url' handle') :: r =>
      if text_eqb url url' && text_eqb handle handle' then None else stored url handle r
  | _ :: r => stored url handle r
  end.
(** The same, where cleaning up at time t drops what has run out by t. *)
Fixpoint kept (url handle : text) (h : history) : option assoc :=
  match h with
  | [] => None
  | (_, StoreA url' a) :: r =>
      if text_eqb url url' && text_eqb handle (a_handle a) then Some a else kept url handle r
  | (_, RemoveA url' handle') :: r =>
      if text_eqb url url' && text_eqb handle handle' then None else kept url handle r
  | (t, CleanA) :: r =>
      match kept url handle r with
      | Some a => if a_issued a + a_lifetime a <=? t then None else Some a
      | None => None
      end
  | _ :: r => kept url handle r
  end.
(** Among the associations [view] gives for the handles, [o] is a most recently
    issued one; None only if there are none. *)
Definition newest (view : text -> option assoc) (o : option assoc) : Prop :=
  match o with
  | None => forall handle, view handle = None
  | Some a => (exists handle, view handle = Some a) /\
              (forall handle b, view handle = Some b -> a_issued b <= a_issued a)
  end.
(** Two handles with different associations issued in the same second. *)
Definition same_second (view : text -> option assoc) : Prop :=
  exists h1 h2 a b, view h1 = Some a /\ view h2 = Some b /\ h1 <> h2 /\ a_issued a = a_issued b.
(** An association still good at [t]. *)
Definition good_at (t : Z) (o : option assoc) : option assoc :=
  match o with
  | Some a => if t <? a_issued a + a_lifetime a then Some a else None
  | None => None
  end.

Definition in_window (t ts : Z) : bool := (t - 18000 <=? ts) && (ts <=? t + 18000).
(** The triple was presented before at a time when it was fresh. *)
Definition used (url : text) (ts : Z) (salt : text) (h : history) : bool :=
  existsb (fun e => match snd e with
                    | UseN url' ts' salt' =>
                        text_eqb url url' && (ts =? ts') && text_eqb salt salt' && in_window (fst e) ts
                    | _ => false
                    end) h.
(** Remembered: used while fresh, and not stale at any cleanup since. *)
Fixpoint remembered (url : text) (ts : Z) (salt : text) (h : history) : bool :=
  match h with
  | [] => false
  | (t, UseN url' ts' salt') :: r =>
      text_eqb url url' && (ts =? ts') && text_eqb salt salt' && in_window t ts || remembered url ts salt r
  | (t, CleanN) :: r => in_window t ts && remembered url ts salt r
  | _ :: r => remembered url ts salt r
  end.
