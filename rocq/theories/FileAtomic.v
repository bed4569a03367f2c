(** Specification of the file store for overlapping calls (openid/store/filestore.py:82-409,
    openid/store/interface.py:14-150): a machine in which every call has its effect at one
    moment between its beginning and its end.  FileSys.v has the store one system call at a
    time; Prop_FileSys.v compares the two. *)
From Verif Require Import Py Association Nonce Store FileStore FileSys.
Open Scope Z_scope.

(** [a_reg url handle]: the association that is stored; [a_used]: the nonces that have been
    used; [a_call i]: the call that process i makes, and its answer once it has had its effect. *)
Record amach := mkA {
  a_clock : Z; a_reg : text -> text -> option assoc; a_used : text -> Z -> text -> bool;
  a_call : nat -> option (op * option out); a_log : list event }.
Definition a_init (now : Z) : amach := mkA now (fun _ _ => None) (fun _ _ _ => false) (fun _ => None) [].

Definition put (reg : text -> text -> option assoc) (url h : text) (v : option assoc) : text -> text -> option assoc :=
  fun url' h' => if text_eqb url' url && text_eqb h' h then v else reg url' h'.
Definition mark (used : text -> Z -> text -> bool) (url : text) (ts : Z) (salt : text) (b : bool) : text -> Z -> text -> bool :=
  fun url' ts' salt' => if text_eqb url' url && (ts' =? ts) && text_eqb salt' salt then b else used url' ts' salt'.
Definition set_call (f : nat -> option (op * option out)) (i : nat) (v : option (op * option out)) : nat -> option (op * option out) :=
  fun j => if Nat.eqb j i then v else f j.

(** Calls of which the machine does not say what they answer: looking for any handle, and cleaning up. *)
Definition free (o : op) : bool :=
  match o with GetA _ None | GetA _ (Some []) | RemoveA _ [] | CleanA | CleanN => true | _ => false end.
(** What a call does, and what it answers. *)
Definition effect (A : amach) (o : op) : option (amach * out) :=
  if free o then None else
  match o with
  | StoreA url a => Some (mkA (a_clock A) (put (a_reg A) url (a_handle a) (Some a)) (a_used A) (a_call A) (a_log A), Done)
  | GetA url (Some h) => Some (A, Got (a_reg A url h))
  | RemoveA url h => Some (mkA (a_clock A) (put (a_reg A) url h None) (a_used A) (a_call A) (a_log A),
                           Flag (match a_reg A url h with Some _ => true | None => false end))
  | UseN url ts salt => Some (mkA (a_clock A) (a_reg A) (mark (a_used A) url ts salt true) (a_call A) (a_log A), Flag (negb (a_used A url ts salt)))
  | _ => None
  end.
(** What answer a call may give because of the time: an association that has been found expires,
    an association that has been stored has expired, a nonce is outside the window. *)
Definition too_late (A : amach) (o : op) (ans : option out) (r : out) : Prop :=
  match o with
  | GetA url (Some h) => r = Got None /\ exists a, ans = Some (Got (Some a)) /\ expired a (a_clock A) = true
  | RemoveA url h => r = Flag false /\ ans = None /\
      exists a i t, In (Began i t (StoreA url a)) (a_log A) /\ a_handle a = h /\ expired a (a_clock A) = true
  | UseN url ts salt => r = Flag false /\ ans = None /\ skewed ts (a_clock A) = true
  | _ => False
  end.
(** A call that has changed what is stored does not fail any more; one that has taken a nonce may. *)
Definition settled (o : op) (ans : option out) : bool :=
  match o, ans with StoreA _ _, Some _ | RemoveA _ _, Some (Flag true) => true | _, _ => false end.

Inductive astep : amach -> amach -> Prop :=
| a_tick A d : astep A (mkA (a_clock A + Z.of_N d) (a_reg A) (a_used A) (a_call A) (a_log A))
| a_begin A i o : a_call A i = None ->
    astep A (mkA (a_clock A) (a_reg A) (a_used A) (set_call (a_call A) i (Some (o, None))) (Began i (a_clock A) o :: a_log A))
| a_act A i o B r : a_call A i = Some (o, None) -> effect A o = Some (B, r) ->
    astep A (mkA (a_clock B) (a_reg B) (a_used B) (set_call (a_call B) i (Some (o, Some r))) (a_log B))
| a_late A i o ans r : a_call A i = Some (o, ans) -> too_late A o ans r ->
    astep A (mkA (a_clock A) (a_reg A) (a_used A) (set_call (a_call A) i (Some (o, Some r))) (a_log A))
| a_end A i o r : a_call A i = Some (o, Some r) ->
    astep A (mkA (a_clock A) (a_reg A) (a_used A) (set_call (a_call A) i None) (Ended i (a_clock A) o r :: a_log A))
| a_fail A i o ans : a_call A i = Some (o, ans) -> settled o ans = false ->
    astep A (mkA (a_clock A) (a_reg A) (a_used A) (set_call (a_call A) i None) (Ended i (a_clock A) o (Err OSError) :: a_log A))
| a_free A i o r : a_call A i = Some (o, None) -> free o = true ->
    astep A (mkA (a_clock A) (a_reg A) (a_used A) (set_call (a_call A) i None) (Ended i (a_clock A) o r :: a_log A))
| a_crash A i : astep A (mkA (a_clock A) (a_reg A) (a_used A) (set_call (a_call A) i None) (a_log A))
(** Whatever is stored may vanish if something that has been stored under the same key has expired. *)
| a_drop A url a i t : In (Began i t (StoreA url a)) (a_log A) -> expired a (a_clock A) = true ->
    astep A (mkA (a_clock A) (put (a_reg A) url (a_handle a) None) (a_used A) (a_call A) (a_log A))
(** A removal for the empty handle is free to remove, too. *)
| a_wipe A i url : a_call A i = Some (RemoveA url [], None) ->
    astep A (mkA (a_clock A) (put (a_reg A) url [] None) (a_used A) (a_call A) (a_log A))
(** cleanupNonces forgets nonces that are too old. *)
| a_forget A url ts salt i ans : a_call A i = Some (CleanN, ans) -> ts + 18000 < a_clock A ->
    astep A (mkA (a_clock A) (a_reg A) (mark (a_used A) url ts salt false) (a_call A) (a_log A)).
Inductive asteps : amach -> amach -> Prop :=
| as_nil A : asteps A A
| as_step A B C : asteps A B -> astep B C -> asteps A C.
