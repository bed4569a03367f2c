(** The file store one system call at a time: every method of
    openid/store/filestore.py as a program that makes system calls, and any number of
    processes running such programs on one directory at the same time.  Any call may fail
    and any process may be killed.  FileStore.v has the methods as functions of the directory. *)
From Verif Require Import Py Utf8 Association Nonce Store FileStore.
Open Scope Z_scope.

(** ** System calls *)
(** The directories 'associations' and 'nonces' (filestore.py:106-108). *)
Inductive where_ := Assocs | Nonces.
(** A file is known by a number, as an inode is; [fd] stands for an open file as well as for
    the temporary name that mkstemp gave it.  Closing a file opened for reading is left out. *)
Inductive sc :=
| Now                                  (* time.time() *)
| Mkstemp                              (* filestore.py:141 *)
| Fdopen (fd : nat)                    (* filestore.py:143 *)
| Write (fd : nat) (b : bytes)         (* filestore.py:190: into the buffer of Python's writer *)
| Fsync (fd : nat)                     (* filestore.py:191 *)
| Close (fd : nat)                     (* filestore.py:193: what is left in the buffer goes to the kernel *)
| Rename (fd : nat) (name : text)      (* filestore.py:196, 214 *)
| UnlinkTemp (fd : nat)                (* filestore.py:148, 218 *)
| Unlink (w : where_) (name : text)    (* filestore.py:50, 205 *)
| Listdir (w : where_)                 (* filestore.py:240, 350, 396 *)
| OpenR (name : text)                  (* filestore.py:269, 353 *)
| ReadAll (fd : nat)                   (* filestore.py:278, 362 *)
| Create (name : text)                 (* filestore.py:336: O_CREAT | O_EXCL *)
| CloseNew.                            (* filestore.py:343 *)
(** [Other] stands for every error number that the store does not know. *)
Inductive errno := ENOENT | EEXIST | Other.
Inductive reply :=
| ROk
| RFd (fd : nat)
| RBytes (b : bytes)
| RNames (l : list text)
| RTime (t : Z)
| RErr (e : errno).

(** ** Programs *)
Inductive prog (A : Type) : Type :=
| Ret (a : A)
| Throw (x : exn)
| Call (c : sc) (k : reply -> prog A).
Arguments Ret {A} a. Arguments Throw {A} x. Arguments Call {A} c k.
Fixpoint pbind {A B} (p : prog A) (f : A -> prog B) : prog B :=
  match p with
  | Ret a => f a
  | Throw x => Throw x
  | Call c k => Call c (fun r => pbind (k r) f)
  end.
(** [try: p except Exception as x: h(x)]. *)
Fixpoint ptry {A} (p : prog A) (h : exn -> prog A) : prog A :=
  match p with
  | Ret a => Ret a
  | Throw x => h x
  | Call c k => Call c (fun r => ptry (k r) h)
  end.
(** [try: p finally: q]. *)
Fixpoint pfinally {A} (p : prog A) (q : prog unit) : prog A :=
  match p with
  | Ret a => pbind q (fun _ => Ret a)
  | Throw x => pbind q (fun _ => Throw x)
  | Call c k => Call c (fun r => pfinally (k r) q)
  end.
Definition lift {A} (r : res A) : prog A := match r with Ok a => Ret a | Raise x => Throw x end.
(** A call after which an error number becomes an OSError. *)
Definition plain (c : sc) : prog unit := Call c (fun r => match r with RErr _ => Throw OSError | _ => Ret tt end).

Section Programs.
  Variable sha1 : bytes -> bytes.

  (** filestore.py:43-59. *)
  Definition p_removed (r : reply) : prog bool :=
    match r with RErr ENOENT => Ret false | RErr _ => Throw OSError | _ => Ret true end.
  Definition p_removeIfPresent (w : where_) (name : text) : prog bool := Call (Unlink w name) p_removed.
  Definition p_removeTemp (fd : nat) : prog bool := Call (UnlinkTemp fd) p_removed.

  (** filestore.py:129-148 [_mktemp]. *)
  Definition p_mktemp : prog nat :=
    Call Mkstemp (fun r => match r with
      | RFd fd => ptry (pbind (plain (Fdopen fd)) (fun _ => Ret fd))
                       (fun x => pbind (p_removeTemp fd) (fun _ => Throw x))
      | _ => Throw OSError
      end).
  (** filestore.py:188-193. *)
  Definition p_writing (fd : nat) (s : text) : prog unit :=
    pfinally (pbind (lift (encode s)) (fun data =>
              pbind (plain (Write fd data)) (fun _ => plain (Fsync fd))))
             (plain (Close fd)).
  (** filestore.py:195-214. *)
  Definition p_renaming (fd : nat) (filename : text) : prog unit :=
    Call (Rename fd filename) (fun r => match r with
      | RErr EEXIST => Call (Unlink Assocs filename) (fun r => match r with
                         | RErr ENOENT => plain (Rename fd filename)
                         | RErr _ => Throw OSError
                         | _ => plain (Rename fd filename)
                         end)
      | RErr _ => Throw OSError
      | _ => Ret tt
      end).
  (** filestore.py:177-219. *)
  Definition p_storeAssociation (url : text) (a : assoc) : prog unit :=
    pbind (lift (serialize a)) (fun s =>
    pbind (lift (getAssociationFilename sha1 url (a_handle a))) (fun filename =>
    pbind p_mktemp (fun fd =>
    ptry (pbind (p_writing fd s) (fun _ => p_renaming fd filename))
         (fun x => pbind (p_removeTemp fd) (fun _ => Throw x))))).

  (** filestore.py:281-293: what [_getAssociation] does with what it has read. *)
  Definition p_judge (filename : text) (data : bytes) : prog (option assoc) :=
    pbind (lift (read_assoc data)) (fun o => match o with
      | None => pbind (p_removeIfPresent Assocs filename) (fun _ => Ret None)
      | Some a => Call Now (fun r => match r with
          | RTime now => if expired a now then pbind (p_removeIfPresent Assocs filename) (fun _ => Ret None) else Ret (Some a)
          | _ => Throw OSError
          end)
      end).
  (** filestore.py:267-293 [_getAssociation]. *)
  Definition p_getFile (filename : text) : prog (option assoc) :=
    Call (OpenR filename) (fun r => match r with
      | RErr ENOENT => Ret None
      | RFd fd => Call (ReadAll fd) (fun r => match r with RBytes data => p_judge filename data | _ => Throw OSError end)
      | _ => Throw OSError
      end).
  (** filestore.py:248-256: the loop over the matching files. *)
  Fixpoint p_getFiles (names : list text) (acc : list assoc) : prog (list assoc) :=
    match names with
    | [] => Ret acc
    | n :: r => pbind (p_getFile n) (fun o => p_getFiles r (match o with Some a => acc ++ [a] | None => acc end))
    end.
  (** filestore.py:221-265. *)
  Definition p_getAssociation (url : text) (handle : option text) : prog (option assoc) :=
    let handle := match handle with None => [] | Some h => h end in
    pbind (lift (getAssociationFilename sha1 url handle)) (fun filename =>
    if truthy handle then p_getFile filename
    else Call (Listdir Assocs) (fun r => match r with
      | RNames names => pbind (p_getFiles (filter (fun n => startswith n (basename filename)) names) []) (fun l => lift (sorted_last l))
      | _ => Throw OSError
      end)).
  (** filestore.py:295-308. *)
  Definition p_removeAssociation (url handle : text) : prog bool :=
    pbind (p_getAssociation url (Some handle)) (fun o => match o with
      | None => Ret false
      | Some _ => pbind (lift (getAssociationFilename sha1 url handle)) (fun filename => p_removeIfPresent Assocs filename)
      end).
  (** filestore.py:310-345. *)
  Definition p_useNonce (url : text) (ts : Z) (salt : text) : prog bool :=
    Call Now (fun r => match r with
      | RTime now =>
          if skewed ts now then Ret false
          else pbind (lift (nonceFilename sha1 url ts salt)) (fun name =>
               Call (Create name) (fun r => match r with
                 | RErr EEXIST => Ret false
                 | RErr _ => Throw OSError
                 | _ => pbind (plain CloseNew) (fun _ => Ret true)
                 end))
      | _ => Throw OSError
      end).
  (** filestore.py:351-375: the loop of [_allAssocs]. *)
  Fixpoint p_allAssocs (names : list text) (acc : list (text * assoc)) : prog (list (text * assoc)) :=
    match names with
    | [] => Ret acc
    | n :: rest =>
        Call (OpenR n) (fun r => match r with
          | RErr ENOENT => p_allAssocs rest acc
          | RFd fd => Call (ReadAll fd) (fun r => match r with
              | RBytes data => pbind (lift (read_assoc data)) (fun o => match o with
                  | None => pbind (p_removeIfPresent Assocs n) (fun _ => p_allAssocs rest acc)
                  | Some a => p_allAssocs rest (acc ++ [(n, a)])
                  end)
              | _ => Throw OSError
              end)
          | _ => Throw OSError
          end)
    end.
  (** filestore.py:389-393; the clock is read for every association. *)
  Fixpoint p_cleanAssocs (l : list (text * assoc)) (removed : nat) : prog nat :=
    match l with
    | [] => Ret removed
    | (n, a) :: rest =>
        Call Now (fun r => match r with
          | RTime now => if expired a now then pbind (p_removeIfPresent Assocs n) (fun _ => p_cleanAssocs rest (S removed))
                         else p_cleanAssocs rest removed
          | _ => Throw OSError
          end)
    end.
  (** filestore.py:387-393. *)
  Definition p_cleanupAssociations : prog nat :=
    Call (Listdir Assocs) (fun r => match r with
      | RNames names => pbind (p_allAssocs names []) (fun l => p_cleanAssocs l 0)
      | _ => Throw OSError
      end).
  (** filestore.py:400-409. *)
  Fixpoint p_cleanNonces (names : list text) (now : Z) (removed : nat) : prog nat :=
    match names with
    | [] => Ret removed
    | n :: rest =>
        pbind (lift (nonce_file_ts n)) (fun ts =>
        if skewed ts now then pbind (p_removeIfPresent Nonces n) (fun _ => p_cleanNonces rest now (S removed))
        else p_cleanNonces rest now removed)
    end.
  (** filestore.py:395-409. *)
  Definition p_cleanupNonces : prog nat :=
    Call (Listdir Nonces) (fun r => match r with
      | RNames names => Call Now (fun r => match r with RTime now => p_cleanNonces names now 0 | _ => Throw OSError end)
      | _ => Throw OSError
      end).

  Definition program (o : op) : prog out :=
    match o with
    | StoreA url a => pbind (p_storeAssociation url a) (fun _ => Ret Done)
    | GetA url h => pbind (p_getAssociation url h) (fun o => Ret (Got o))
    | RemoveA url h => pbind (p_removeAssociation url h) (fun b => Ret (Flag b))
    | UseN url ts salt => pbind (p_useNonce url ts salt) (fun b => Ret (Flag b))
    | CleanN => pbind p_cleanupNonces (fun n => Ret (Count n))
    | CleanA => pbind p_cleanupAssociations (fun n => Ret (Count n))
    end.

  (** ** The system *)
  (** A file: what the kernel has of it, and what is still in the buffer of its writer. *)
  Record file := mkFile { content : bytes; buffer : bytes }.
  (** A process: the call it serves, what is left of the program, and what the pending system
      call has given so far (bytes of ReadAll, names of Listdir). *)
  Record proc := mkProc { p_op : op; p_prog : prog out; p_bytes : bytes; p_names : list text }.
  Inductive event :=
  | Began (i : nat) (t : Z) (o : op)
  | Ended (i : nat) (t : Z) (o : op) (r : out).
  (** [s_temp]: the files in the directory 'temp'; [s_log]: what happened, newest first. *)
  Record sys := mkSys {
    s_clock : Z; s_files : list file; s_assocs : list (text * nat); s_temp : list nat; s_nonces : list text;
    s_procs : nat -> option proc; s_log : list event }.
  Definition sys_init (now : Z) : sys := mkSys now [] [] [] [] (fun _ => None) [].

  (** The clock is in whole seconds. *)
  Inductive label :=
  | Start (i : nat) (o : op)      (* an idle process calls a method *)
  | Step (i : nat)                (* the pending system call of process i is carried out (the rest of it) *)
  | Part (i : nat) (n : nat)      (* a pending ReadAll gets n bytes more *)
  | Flush (i : nat) (n : nat)     (* n bytes of the buffer go to the kernel, before fsync or while closing *)
  | Pick (i : nat) (name : text)  (* a pending Listdir reports a name that is there at that moment *)
  | Fail (i : nat)                (* the pending system call fails *)
  | Crash (i : nat)
  | Tick (d : N).

  (** os.rename replaces an existing target, or does not (Windows). *)
  Variable replaces : bool.

  Definition file_at (s : sys) (fd : nat) : file := nth fd (s_files s) (mkFile [] []).
  Fixpoint set_nth {A} (n : nat) (x : A) (l : list A) : list A :=
    match l, n with
    | [], _ => []
    | _ :: r, O => x :: r
    | y :: r, S n => y :: set_nth n x r
    end.
  Definition set_file (s : sys) (fd : nat) (f : file) : sys :=
    mkSys (s_clock s) (set_nth fd f (s_files s)) (s_assocs s) (s_temp s) (s_nonces s) (s_procs s) (s_log s).
  Definition set_assocs (s : sys) (d : list (text * nat)) (temp : list nat) : sys :=
    mkSys (s_clock s) (s_files s) d temp (s_nonces s) (s_procs s) (s_log s).
  Definition set_nonces (s : sys) (l : list text) : sys :=
    mkSys (s_clock s) (s_files s) (s_assocs s) (s_temp s) l (s_procs s) (s_log s).
  Definition set_proc (s : sys) (i : nat) (p : option proc) : sys :=
    mkSys (s_clock s) (s_files s) (s_assocs s) (s_temp s) (s_nonces s) (fun j => if Nat.eqb j i then p else s_procs s j) (s_log s).
  Definition note (s : sys) (e : event) : sys :=
    mkSys (s_clock s) (s_files s) (s_assocs s) (s_temp s) (s_nonces s) (s_procs s) (e :: s_log s).
  Definition is_fd (a b : nat) : bool := Nat.eqb a b.
  Definition not_name (n x : text) : bool := negb (text_eqb x n).

  (** What a system call does, with what its parts have given before. *)
  Definition syscall (s : sys) (p : proc) (c : sc) : sys * reply :=
    match c with
    | Now => (s, RTime (s_clock s))
    | Mkstemp => let fd := length (s_files s) in
        (mkSys (s_clock s) (s_files s ++ [mkFile [] []]) (s_assocs s) (fd :: s_temp s) (s_nonces s) (s_procs s) (s_log s), RFd fd)
    | Fdopen fd => (s, ROk)
    | Write fd b => (set_file s fd (mkFile (content (file_at s fd)) (buffer (file_at s fd) ++ b)), ROk)
    | Fsync fd => (s, ROk)
    | Close fd => (set_file s fd (mkFile (content (file_at s fd) ++ buffer (file_at s fd)) []), ROk)
    | Rename fd name =>
        if negb (path_ok name) then (s, RErr Other)
        else if negb (existsb (is_fd fd) (s_temp s)) then (s, RErr ENOENT)
        else if negb replaces && dhas text_eqb name (s_assocs s) then (s, RErr EEXIST)
        else (set_assocs s (dset text_eqb name fd (s_assocs s)) (filter (fun x => negb (is_fd fd x)) (s_temp s)), ROk)
    | UnlinkTemp fd =>
        if existsb (is_fd fd) (s_temp s) then (set_assocs s (s_assocs s) (filter (fun x => negb (is_fd fd x)) (s_temp s)), ROk)
        else (s, RErr ENOENT)
    | Unlink Assocs name =>
        if negb (path_ok name) then (s, RErr Other)
        else if dhas text_eqb name (s_assocs s) then (set_assocs s (ddel text_eqb name (s_assocs s)) (s_temp s), ROk)
        else (s, RErr ENOENT)
    | Unlink Nonces name =>
        if negb (path_ok name) then (s, RErr Other)
        else if mem_text name (s_nonces s) then (set_nonces s (filter (not_name name) (s_nonces s)), ROk)
        else (s, RErr ENOENT)
    | Listdir _ => (s, RNames (p_names p))
    | OpenR name =>
        if negb (path_ok name) then (s, RErr Other)
        else match dget text_eqb name (s_assocs s) with Some fd => (s, RFd fd) | None => (s, RErr ENOENT) end
    | ReadAll fd => (s, RBytes (p_bytes p))
    | Create name =>
        if negb (path_ok name) then (s, RErr Other)
        else if mem_text name (s_nonces s) then (s, RErr EEXIST)
        else (set_nonces s (name :: s_nonces s), ROk)
    | CloseNew => (s, ROk)
    end.
  (** A program that is through ends its call. *)
  Definition settle (s : sys) (i : nat) (o : op) (p : prog out) : sys :=
    match p with
    | Ret r => set_proc (note s (Ended i (s_clock s) o r)) i None
    | Throw x => set_proc (note s (Ended i (s_clock s) o (Err x))) i None
    | Call _ _ => set_proc s i (Some (mkProc o p [] []))
    end.
  (** ReadAll is through when everything has been read. *)
  Definition at_end (s : sys) (p : proc) (c : sc) : bool :=
    match c with ReadAll fd => (length (content (file_at s fd)) <=? length (p_bytes p))%nat | _ => true end.
  Definition names_of (s : sys) (w : where_) : list text :=
    match w with Assocs => dkeys (s_assocs s) | Nonces => s_nonces s end.
  Definition exec (s : sys) (l : label) : sys :=
    match l with
    | Start i o => match s_procs s i with
                   | None => settle (note s (Began i (s_clock s) o)) i o (program o)
                   | Some _ => s
                   end
    | Step i => match s_procs s i with
                | Some p => match p_prog p with
                            | Call c k => if at_end s p c then let '(s', r) := syscall s p c in settle s' i (p_op p) (k r) else s
                            | _ => s
                            end
                | None => s
                end
    | Part i n => match s_procs s i with
                  | Some p => match p_prog p with
                              | Call (ReadAll fd) _ =>
                                  set_proc s i (Some (mkProc (p_op p) (p_prog p)
                                    (p_bytes p ++ firstn n (skipn (length (p_bytes p)) (content (file_at s fd)))) (p_names p)))
                              | _ => s
                              end
                  | None => s
                  end
    | Flush i n => match s_procs s i with
                   | Some p => match p_prog p with
                               | Call (Fsync fd) _ | Call (Close fd) _ =>
                                   let f := file_at s fd in
                                   set_file s fd (mkFile (content f ++ firstn n (buffer f)) (skipn n (buffer f)))
                               | _ => s
                               end
                   | None => s
                   end
    | Pick i name => match s_procs s i with
                     | Some p => match p_prog p with
                                 | Call (Listdir w) _ =>
                                     if mem_text name (names_of s w)
                                     then set_proc s i (Some (mkProc (p_op p) (p_prog p) (p_bytes p) (p_names p ++ [name])))
                                     else s
                                 | _ => s
                                 end
                     | None => s
                     end
    | Fail i => match s_procs s i with
                | Some p => match p_prog p with
                            | Call c k => settle s i (p_op p) (k (RErr Other))
                            | _ => s
                            end
                | None => s
                end
    | Crash i => set_proc s i None
    | Tick d => mkSys (s_clock s + Z.of_N d) (s_files s) (s_assocs s) (s_temp s) (s_nonces s) (s_procs s) (s_log s)
    end.
  Definition run (s : sys) (ls : list label) : sys := fold_left exec ls s.
End Programs.
