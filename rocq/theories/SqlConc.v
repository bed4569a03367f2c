(** The SQL stores used by several processes at the same time, one database call at a time
    (openid/store/sqlstore.py:171-302, 497-513). *)
From Verif Require Import Py Utf8 Association Nonce Store SqlTxn.
Import Py Store.
Open Scope Z_scope.

(** Uncommitted changes of a transaction. *)
Inductive write :=
| AddN (n : nrow)
| DelN (l : list nrow)
| PutA (r : arow)
| DelA (l : list arow).
(** The rows that a transaction has written are locked until it ends. *)
Inductive key := KN (url : bytes) (ts : Z) (salt : bytes) | KA (url handle : bytes).
Definition key_eqb (a b : key) : bool :=
  match a, b with
  | KN u1 t1 s1, KN u2 t2 s2 => text_eqb u1 u2 && (t1 =? t2) && text_eqb s1 s2
  | KA u1 h1, KA u2 h2 => text_eqb u1 u2 && text_eqb h1 h2
  | _, _ => false
  end.
Definition nkey (d : dialect) (n : nrow) : key := KN (d_pk d (fst (fst n))) (snd (fst n)) (snd n).
Definition akey (d : dialect) (r : arow) : key := KA (d_pk d (r_url r)) (r_handle r).
Definition nrow_eqb (a b : nrow) : bool :=
  text_eqb (fst (fst a)) (fst (fst b)) && (snd (fst a) =? snd (fst b)) && text_eqb (snd a) (snd b).
Definition locks (d : dialect) (w : write) : list key :=
  match w with
  | AddN n => [nkey d n]
  | DelN l => map (nkey d) l
  | PutA r => [akey d r]
  | DelA l => map (akey d) l
  end.
Definition apply1 (d : dialect) (s : sql) (w : write) : sql :=
  match w with
  | AddN n => mkSql (q_assocs s) (q_nonces s ++ [n])
  | DelN l => mkSql (q_assocs s) (filter (fun x => negb (existsb (nrow_eqb x) l)) (q_nonces s))
  | PutA r => mkSql (filter (fun x => negb (key_eqb (akey d x) (akey d r))) (q_assocs s) ++ [r]) (q_nonces s)
  | DelA l => mkSql (filter (fun x => negb (existsb (fun r => key_eqb (akey d x) (akey d r)) l)) (q_assocs s)) (q_nonces s)
  end.
Definition apply (d : dialect) (s : sql) (ws : list write) : sql := fold_left (apply1 d) ws s.

(** The rows that a statement writes, given the tables as its transaction sees them, and the
    keys that must not be locked by another transaction. *)
Definition updated (secret : bytes) (issued lifetime : Z) (ty : bytes) (x : arow) : arow :=
  mkRow (r_url x) (r_handle x) secret issued lifetime ty.
Definition writes (view : sql) (st : stmt) : list write :=
  match st with
  | Replace_assoc r | New_assoc r => [PutA r]
  | Update_assoc secret issued lifetime ty url handle =>
      map (fun x => PutA (updated secret issued lifetime ty x)) (db_get_assoc (q_assocs view) url handle)
  | Get_assocs _ | Get_assoc _ _ => []
  | Remove_assoc url handle => [DelA (db_get_assoc (q_assocs view) url handle)]
  | Clean_assoc now => [DelA (filter (fun x => r_issued x + r_lifetime x <? now) (q_assocs view))]
  | Add_nonce n => [AddN n]
  | Clean_nonce before => [DelN (filter (fun x => snd (fst x) <? before) (q_nonces view))]
  end.
Definition wanted (d : dialect) (view : sql) (st : stmt) : list key := flat_map (locks d) (writes view st).

(** What a process is about to do: start a transaction; make the next database call of one,
    [Ret] and [Throw] standing for commit and rollback. *)
Inductive proc :=
| Idle
| Start (o : op)
| Run (o : op) (p : prog out) (w : list write).
(** [db]: the committed tables.  [answers]: what the calls have returned or raised, newest first.
    [lost]: the calls whose commit was carried out but reported as failed. *)
Record sys := mkSys { s_clock : Z; s_db : sql; s_proc : nat -> proc; s_answers : list (op * ans); s_lost : list op }.

(** [Fail]: the next database call of process i raises an OperationalError.  [Lose]: its commit
    is carried out and raises one.  [Crash]: it is killed, and the database rolls back. *)
Inductive label :=
| Call (i : nat) (o : op)
| Step (i : nat)
| Fail (i : nat) (why : text)
| Lose (i : nat) (why : text)
| Crash (i : nat)
| Tick (n : N).

Definition set_proc (f : nat -> proc) (i : nat) (p : proc) : nat -> proc := fun j => if Nat.eqb j i then p else f j.
Definition pending (p : proc) : list write := match p with Run _ _ w => w | _ => [] end.

Section Conc.
  Variable d : dialect.
  (** The processes that there are. *)
  Variable procs : list nat.
  (** A key that another process has locked. *)
  Definition locked (s : sys) (i : nat) (k : key) : bool :=
    existsb (fun j => negb (Nat.eqb j i) && existsb (key_eqb k) (flat_map (locks d) (pending (s_proc s j)))) procs.
  Definition go (s : sys) (i : nat) (p : proc) : sys :=
    mkSys (s_clock s) (s_db s) (set_proc (s_proc s) i p) (s_answers s) (s_lost s).
  Definition finish (s : sys) (i : nat) (o : op) (r : err + out) : sys :=
    mkSys (s_clock s) (s_db s) (set_proc (s_proc s) i Idle) ((o, reported d o r) :: s_answers s) (s_lost s).
  (** A statement sees what is committed and the changes of its own transaction; it waits for
      locks, which is a step that changes nothing. *)
  Definition exec_step (s : sys) (i : nat) : sys :=
    match s_proc s i with
    | Idle => s
    | Start o => go s i (Run o (prog_of d (s_clock s) o) [])
    | Run o (Ret a) w =>
        finish (mkSys (s_clock s) (apply d (s_db s) w) (s_proc s) (s_answers s) (s_lost s)) i o (inr a)
    | Run o (Throw e) w => finish s i o (inl e)
    | Run o (Exec st k) w =>
        let view := apply d (s_db s) w in
        if existsb (locked s i) (wanted d view st) then s
        else match exec d view st with
             | inl e => go s i (Run o (k (inl e)) w)
             | inr (_, r) => go s i (Run o (k (inr r)) (w ++ writes view st))
             end
    end.
  Definition step (s : sys) (l : label) : sys :=
    match l with
    | Call i o => match s_proc s i with Idle => if existsb (Nat.eqb i) procs then go s i (Start o) else s | _ => s end
    | Step i => exec_step s i
    | Fail i why =>
        match s_proc s i with
        | Idle => s
        | Run o (Exec st k) w => go s i (Run o (k (inl (Operational why))) w)
        | Start o | Run o _ _ => finish s i o (inl (Operational why))
        end
    | Lose i why =>
        match s_proc s i with
        | Run o (Ret a) w =>
            finish (mkSys (s_clock s) (apply d (s_db s) w) (s_proc s) (s_answers s) (o :: s_lost s)) i o (inl (Operational why))
        | _ => s
        end
    | Crash i => go s i Idle
    | Tick n => mkSys (s_clock s + Z.of_N n) (s_db s) (s_proc s) (s_answers s) (s_lost s)
    end.
  Definition run_sys (s : sys) (ls : list label) : sys := fold_left step ls s.
  Definition sys_init (now : Z) : sys := mkSys now sql_init (fun _ => Idle) [] [].
End Conc.
