(** openid/store/sqlstore.py: the SQL stores statement by statement, on a connection
    on which any call may fail.  Store.v has the same methods as functions of the tables. *)
From Verif Require Import Py Utf8 Association Nonce Store.
Import Py Store.
Open Scope Z_scope.
Local Arguments u : simpl never.

(** ** The database *)

(** What a database call raises: the two exception classes that the store knows
    (sqlstore.py:98-107), with the message of the second (every other error of the database
    counts as an OperationalError here, the store treats them alike); and exceptions of
    Python's own, raised between database calls. *)
Inductive err := Integrity | Operational (why : text) | Python (x : exn).

(** The statements, with their arguments already encoded (sqlstore.py:347-363, 516-530). *)
Inductive stmt :=
| Replace_assoc (r : arow)
| New_assoc (r : arow)
| Update_assoc (secret : bytes) (issued lifetime : Z) (ty url handle : bytes)
| Get_assocs (url : bytes)
| Get_assoc (url handle : bytes)
| Remove_assoc (url handle : bytes)
| Clean_assoc (now : Z)
| Add_nonce (n : nrow)
| Clean_nonce (before : Z).

(** How the three stores differ: the part of server_url that the primary key sees; whether
    there is a REPLACE statement (sqlstore.py:343, 425) or db_set_assoc is a method
    (sqlstore.py:497-513); the error with which the database refuses a duplicate key;
    and whether useNonce looks at the text of an OperationalError (sqlstore.py:371-381). *)
Record dialect := mkDialect { d_pk : bytes -> bytes; d_replace : bool; d_dup : err; d_reads : bool }.
Definition whole_key (b : bytes) : bytes := b.
Definition sqlite : dialect := mkDialect whole_key true Integrity true.
(** "Older versions of the sqlite wrapper do not raise IntegrityError" (sqlstore.py:372-374). *)
Definition old_sqlite : dialect :=
  mkDialect whole_key true (Operational (u "columns server_url, timestamp, salt are not unique")) true.
Definition mysql : dialect := mkDialect mysql_pk true Integrity false.
Definition postgresql : dialect := mkDialect whole_key false Integrity false.

(** The result of a statement: the rows to fetch and the rowcount. *)
Definition reply : Type := (list arow * nat)%type.
Definition same_key (d : dialect) (r x : arow) : bool :=
  text_eqb (d_pk d (r_url x)) (d_pk d (r_url r)) && text_eqb (r_handle x) (r_handle r).
(** Statements do what they say; one that raises changes nothing. *)
Definition exec (d : dialect) (s : sql) (st : stmt) : err + (sql * reply) :=
  match st with
  | Replace_assoc r => inr (mkSql (db_set_assoc (d_pk d) (q_assocs s) r) (q_nonces s), ([], 1%nat))
  | New_assoc r =>
      if existsb (same_key d r) (q_assocs s) then inl (d_dup d)
      else inr (mkSql (q_assocs s ++ [r]) (q_nonces s), ([], 1%nat))
  | Update_assoc secret issued lifetime ty url handle =>
      inr (mkSql (map (fun x => if text_eqb (r_url x) url && text_eqb (r_handle x) handle
                                then mkRow (r_url x) (r_handle x) secret issued lifetime ty else x) (q_assocs s))
                 (q_nonces s), ([], length (db_get_assoc (q_assocs s) url handle)))
  | Get_assocs url => inr (s, (db_get_assocs (q_assocs s) url, 0%nat))
  | Get_assoc url handle => inr (s, (db_get_assoc (q_assocs s) url handle, 0%nat))
  | Remove_assoc url handle =>
      let t := db_remove_assoc (q_assocs s) url handle in
      inr (mkSql t (q_nonces s), ([], (length (q_assocs s) - length t)%nat))
  | Clean_assoc now =>
      let t := db_clean_assoc (q_assocs s) now in
      inr (mkSql t (q_nonces s), ([], (length (q_assocs s) - length t)%nat))
  | Add_nonce n =>
      match db_add_nonce (d_pk d) (q_nonces s) n with
      | None => inl (d_dup d)
      | Some t => inr (mkSql (q_assocs s) t, ([], 1%nat))
      end
  | Clean_nonce before =>
      let t := db_clean_nonce (q_nonces s) before in
      inr (mkSql (q_assocs s) t, ([], (length (q_nonces s) - length t)%nat))
  end.

(** ** The methods, as programs that execute statements *)
Inductive prog (A : Type) : Type :=
| Ret (a : A)
| Throw (e : err)
| Exec (st : stmt) (k : err + reply -> prog A).
Arguments Ret {A} a. Arguments Throw {A} e. Arguments Exec {A} st k.
Fixpoint pbind {A B} (p : prog A) (f : A -> prog B) : prog B :=
  match p with
  | Ret a => f a
  | Throw e => Throw e
  | Exec st k => Exec st (fun r => pbind (k r) f)
  end.
(** sqlstore.py:137-155 [_execSQL]: the arguments are encoded, then the statement is
    executed; fetching the rows counts as part of it. *)
Definition enc {A} (s : text) (k : bytes -> prog A) : prog A :=
  match encode s with Ok b => k b | Raise x => Throw (Python x) end.
Definition ex {A} (st : stmt) (k : reply -> prog A) : prog A :=
  Exec st (fun r => match r with inl e => Throw e | inr v => k v end).

(** sqlstore.py:343-346, 425-426 and 497-513 (PostgreSQL, which has no REPLACE). *)
Definition p_set_assoc (d : dialect) (url : text) (a : assoc) : prog unit :=
  if d_replace d then
    enc url (fun burl => enc (a_handle a) (fun bh => enc (a_type a) (fun bt =>
    ex (Replace_assoc (mkRow burl bh (a_secret a) (a_issued a) (a_lifetime a) bt)) (fun _ => Ret tt))))
  else
    enc url (fun burl => enc (a_handle a) (fun bh =>
    ex (Get_assoc burl bh) (fun r =>
      match fst r with
      | [] => enc (a_type a) (fun bt =>
              ex (New_assoc (mkRow burl bh (a_secret a) (a_issued a) (a_lifetime a) bt)) (fun _ => Ret tt))
      | _ :: _ => enc (a_type a) (fun bt =>
              ex (Update_assoc (a_secret a) (a_issued a) (a_lifetime a) bt burl bh) (fun _ => Ret tt))
      end))).
(** sqlstore.py:204-217. *)
Definition p_storeAssociation (d : dialect) (url : text) (a : assoc) : prog unit := p_set_assoc d url a.
(** sqlstore.py:257-268. *)
Definition p_removeAssociation (url handle : text) : prog bool :=
  enc url (fun burl => enc handle (fun bh =>
  ex (Remove_assoc burl bh) (fun r => Ret (0 <? Z.of_nat (snd r))))).
(** sqlstore.py:238-248. *)
Fixpoint p_rows (now : Z) (url : text) (acc : list assoc) (rows : list arow) : prog (list assoc) :=
  match rows with
  | [] => Ret acc
  | r :: rest =>
      match row_assoc r with
      | Raise x => Throw (Python x)
      | Ok a =>
          if expired a now then pbind (p_removeAssociation url (a_handle a)) (fun _ => p_rows now url acc rest)
          else p_rows now url (acc ++ [a]) rest
      end
  end.
(** sqlstore.py:220-255. *)
Definition p_getAssociation (now : Z) (url : text) (handle : option text) : prog (option assoc) :=
  let found (r : reply) :=
    match fst r with
    | [] => Ret None
    | rows => pbind (p_rows now url [] rows) (fun l =>
              match sorted_last l with Ok a => Ret a | Raise x => Throw (Python x) end)
    end in
  match handle with
  | Some h => enc url (fun burl => enc h (fun bh => ex (Get_assoc burl bh) found))
  | None => enc url (fun burl => ex (Get_assocs burl) found)
  end.
(** sqlstore.py:271-292: only an IntegrityError is caught. *)
Definition p_useNonce (now : Z) (url : text) (ts : Z) (salt : text) : prog bool :=
  if skewed ts now then Ret false
  else
    enc url (fun burl => enc salt (fun bs =>
    Exec (Add_nonce (burl, ts, bs)) (fun r =>
      match r with
      | inl Integrity => Ret false
      | inl e => Throw e
      | inr _ => Ret true
      end))).
(** sqlstore.py:294-296, 300-302. *)
Definition p_cleanupNonces (now : Z) : prog nat := ex (Clean_nonce (now - SKEW)) (fun r => Ret (snd r)).
Definition p_cleanupAssociations (now : Z) : prog nat := ex (Clean_assoc now) (fun r => Ret (snd r)).

Definition prog_of (d : dialect) (now : Z) (o : op) : prog out :=
  match o with
  | StoreA url a => pbind (p_storeAssociation d url a) (fun _ => Ret Done)
  | GetA url h => pbind (p_getAssociation now url h) (fun a => Ret (Got a))
  | RemoveA url h => pbind (p_removeAssociation url h) (fun b => Ret (Flag b))
  | UseN url ts salt => pbind (p_useNonce now url ts salt) (fun b => Ret (Flag b))
  | CleanN => pbind (p_cleanupNonces now) (fun n => Ret (Count n))
  | CleanA => pbind (p_cleanupAssociations now) (fun n => Ret (Count n))
  end.

(** ** The connection

    What other connections see, and what this one sees: uncommitted changes included. *)
Record conn := mkConn { committed : sql; working : sql }.
(** Which calls on the connection fail.  The calls made during one method are numbered in
    the order in which they are made: rollback, cursor, each execute, close, and commit or
    rollback.  A failing commit may have reached the database all the same. *)
Record faults := mkFaults { f_err : nat -> option err; f_applied : bool }.

Fixpoint run {A} (d : dialect) (f : faults) (n : nat) (w : sql) (p : prog A) : nat * sql * (err + A) :=
  match p with
  | Ret a => (n, w, inr a)
  | Throw e => (n, w, inl e)
  | Exec st k =>
      match f_err f n with
      | Some e => run d f (S n) w (k (inl e))
      | None =>
          match exec d w st with
          | inl e => run d f (S n) w (k (inl e))
          | inr (w', r) => run d f (S n) w' (k (inr r))
          end
      end
  end.

(** sqlstore.py:171-191 [_callInTransaction], and [_inTxn] (lines 20-29). *)
Definition callInTransaction {A} (d : dialect) (f : faults) (c : conn) (p : prog A) : conn * (err + A) :=
  match f_err f 0%nat with
  | Some e => (c, inl e)                                       (* line 176 *)
  | None =>
      let start := committed c in
      let '(n, w, r) :=
        match f_err f 1%nat with
        | Some e => (2%nat, start, inl e)                      (* line 179 *)
        | None =>
            let '(n, w, r) := run d f 2 start p in             (* line 181 *)
            match f_err f n with
            | Some e => (S n, w, inl e)                        (* line 183 *)
            | None => (S n, w, r)
            end
        end in
      match r with
      | inl e =>
          match f_err f n with                                 (* line 186 *)
          | Some e' => (mkConn start w, inl e')
          | None => (mkConn start start, inl e)
          end
      | inr a =>
          match f_err f n with                                 (* line 189 *)
          | Some e' => (mkConn (if f_applied f then w else start) w, inl e')
          | None => (mkConn w w, inr a)
          end
      end
  end.

(** sqlstore.py:378: [re.match('^columns .* are not unique$', why)]; the dot does not match a
    line feed and the dollar matches before a last one as well. *)
Definition not_unique (why : text) : bool :=
  let line := match rev why with c :: r => if (c =? 10)%N then rev r else why | [] => why end in
  startswith line (u "columns ") && endswith line (u " are not unique")
  && (23 <=? length line)%nat && negb (memc 10%N line).

(** A method of a store: the table row of the result, or the error of the database. *)
Inductive ans := Out (o : out) | DbError (e : err).
Definition answer_of (r : err + out) : ans :=
  match r with
  | inr o => Out o
  | inl (Python x) => Out (Err x)
  | inl e => DbError e
  end.
(** sqlstore.py:371-381 for SQLite's useNonce. *)
Definition reported (d : dialect) (o : op) (r : err + out) : ans :=
  match o, r with
  | UseN _ _ _, inl (Operational why) =>
      if d_reads d && not_unique why then Out (Flag false) else answer_of r
  | _, _ => answer_of r
  end.
Definition sql_call (d : dialect) (f : faults) (c : conn) (now : Z) (o : op) : conn * ans :=
  let '(c, r) := callInTransaction d f c (prog_of d now o) in (c, reported d o r).
