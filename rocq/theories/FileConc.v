(** The file store seen from several processes, one file system call at a time:
    useNonce and cleanupNonces (openid/store/filestore.py:310-345, 395-409). *)
From Verif Require Import Py Nonce Store FileStore.
Open Scope Z_scope.

(** What a process is about to do. *)
Inductive proc :=
| Idle
| UCheck (url : text) (ts : Z) (salt : text)            (* filestore.py:318: about to read the clock *)
| UOpen (url : text) (ts : Z) (salt : text) (name : text) (* filestore.py:336: about to os.open(O_CREAT|O_EXCL) *)
| CList (names : list text)                             (* filestore.py:396: inside os.listdir *)
| CDel (now : Z) (names : list text).                   (* filestore.py:400-408: the loop over the names *)

(** [answers]: the triples for which useNonce got to create the file and so returns True.
    A process that dies between creating the file and returning is counted here as well. *)
Record sys := mkSys { s_clock : Z; s_files : list text; s_proc : nat -> proc; s_answers : list (text * Z * text) }.

(** One step of the schedule.  [Pick]: os.listdir of process i reports a name that is there
    at that moment; a listing may take any number of them in any order, while others run.
    [Crash]: process i is killed.  [Tick]: the clock moves on. *)
Inductive label :=
| CallUse (i : nat) (url : text) (ts : Z) (salt : text)
| CallClean (i : nat)
| Pick (i : nat) (name : text)
| Step (i : nat)
| Crash (i : nat)
| Tick (d : N).

Definition set_proc (f : nat -> proc) (i : nat) (p : proc) : nat -> proc := fun j => if Nat.eqb j i then p else f j.

Section Conc.
  Variable sha1 : bytes -> bytes.
  (** A call starts only in an idle process. *)
  Definition exec_step (s : sys) (i : nat) : sys :=
    let go p := mkSys (s_clock s) (s_files s) (set_proc (s_proc s) i p) (s_answers s) in
    match s_proc s i with
    | Idle => s
    | UCheck url ts salt =>
        if skewed ts (s_clock s) then go Idle
        else match nonceFilename sha1 url ts salt with
             | Raise _ => go Idle
             | Ok name => go (UOpen url ts salt name)
             end
    | UOpen url ts salt name =>
        if negb (path_ok name) then go Idle
        else if mem_text name (s_files s) then go Idle
        else mkSys (s_clock s) (name :: s_files s) (set_proc (s_proc s) i Idle) ((url, ts, salt) :: s_answers s)
    | CList names => go (CDel (s_clock s) names)
    | CDel now [] => go Idle
    | CDel now (n :: r) =>
        match nonce_file_ts n with
        | Raise _ => go Idle
        | Ok ts =>
            if skewed ts now
            then mkSys (s_clock s) (filter (fun x => negb (text_eqb x n)) (s_files s)) (set_proc (s_proc s) i (CDel now r)) (s_answers s)
            else go (CDel now r)
        end
    end.
  Definition exec (s : sys) (l : label) : sys :=
    let go i p := mkSys (s_clock s) (s_files s) (set_proc (s_proc s) i p) (s_answers s) in
    match l with
    | CallUse i url ts salt => match s_proc s i with Idle => go i (UCheck url ts salt) | _ => s end
    | CallClean i => match s_proc s i with Idle => go i (CList []) | _ => s end
    | Pick i name => match s_proc s i with
                     | CList names => if mem_text name (s_files s) then go i (CList (names ++ [name])) else s
                     | _ => s
                     end
    | Step i => exec_step s i
    | Crash i => go i Idle
    | Tick d => mkSys (s_clock s + Z.of_N d) (s_files s) (s_proc s) (s_answers s)
    end.
  Definition run (s : sys) (ls : list label) : sys := fold_left exec ls s.
  Definition sys_init (now : Z) : sys := mkSys now [] (fun _ => Idle) [].
End Conc.
