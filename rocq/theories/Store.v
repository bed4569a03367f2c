(** Models of /repo/openid/store/memstore.py and /repo/openid/store/sqlstore.py.

    A store is a state machine: a state, an operation called at a clock reading
    (whole seconds), the new state and the outcome of the call. *)
From Verif Require Import Py Utf8 Association Nonce.
Open Scope Z_scope.

(** The operations of store/interface.py:19-226 ([cleanup] is the two cleanups in turn). *)
Inductive op : Type :=
| StoreA (url : text) (a : assoc)
| GetA (url : text) (handle : option text)
| RemoveA (url handle : text)
| UseN (url : text) (ts : Z) (salt : text)
| CleanN
| CleanA.
Inductive out : Type :=
| Done
| Got (a : option assoc)
| Flag (b : bool)
| Count (n : nat)
| Err (e : exn).

(** [abs(timestamp - time.time()) > nonce.SKEW], the test at the start of every useNonce. *)
Definition skewed (ts now : Z) : bool := SKEW <? Z.abs (ts - now).
(** [assoc.getExpiresIn() == 0]. *)
Definition expired (a : assoc) (now : Z) : bool := getExpiresIn a now =? 0.

(** ** memstore.py *)

(** memstore.py:12-14 [ServerAssocs.assocs]: a dict handle -> association. *)
Definition sassocs := list (text * assoc).
(** memstore.py:16-17. *)
Definition sa_set (d : sassocs) (a : assoc) : sassocs := dset text_eqb (a_handle a) a d.
(** memstore.py:19-20. *)
Definition sa_get (d : sassocs) (h : text) : option assoc := dget text_eqb h d.
(** memstore.py:22-28. *)
Definition sa_remove (d : sassocs) (h : text) : sassocs * bool :=
  if dhas text_eqb h d then (ddel text_eqb h d, true) else (d, false).
(** memstore.py:30-39 [best]. *)
Definition sa_best (d : sassocs) : option assoc :=
  fold_left (fun best p =>
    match best with
    | None => Some (snd p)
    | Some b => if a_issued b <? a_issued (snd p) then Some (snd p) else Some b
    end) d None.
(** memstore.py:41-52 [cleanup]: what remains, and how many were removed. *)
Definition sa_cleanup (now : Z) (d : sassocs) : sassocs * nat :=
  let remove := map fst (filter (fun p => expired (snd p) now) d) in
  (fold_left (fun d h => ddel text_eqb h d) remove d, length remove).

Definition ntriple : Type := (text * Z * text)%type.
Definition ntriple_eqb (a b : ntriple) : bool :=
  text_eqb (fst (fst a)) (fst (fst b)) && (snd (fst a) =? snd (fst b)) && text_eqb (snd a) (snd b).
(** memstore.py:60-62; [nonces] is a dict with None values: its keys. *)
Record mem := mkMem { m_assocs : list (text * sassocs); m_nonces : list ntriple }.
Definition mem_init : mem := mkMem [] [].

(** memstore.py:64-69 [_getServerAssocs]: creates the entry when it is missing. *)
Definition getServerAssocs (s : mem) (url : text) : mem * sassocs :=
  match dget text_eqb url (m_assocs s) with
  | Some d => (s, d)
  | None => (mkMem (dset text_eqb url [] (m_assocs s)) (m_nonces s), [])
  end.
(** Mutation of the [ServerAssocs] object found under [url]. *)
Definition putServerAssocs (s : mem) (url : text) (d : sassocs) : mem :=
  mkMem (dset text_eqb url d (m_assocs s)) (m_nonces s).

(** memstore.py:71-73. *)
Definition mem_store (s : mem) (url : text) (a : assoc) : mem :=
  let '(s, d) := getServerAssocs s url in putServerAssocs s url (sa_set d a).
(** memstore.py:75-80. *)
Definition mem_get (s : mem) (url : text) (handle : option text) : mem * option assoc :=
  let '(s, d) := getServerAssocs s url in
  match handle with
  | None => (s, sa_best d)
  | Some h => (s, sa_get d h)
  end.
(** memstore.py:82-84. *)
Definition mem_remove (s : mem) (url handle : text) : mem * bool :=
  let '(s, d) := getServerAssocs s url in
  let '(d, b) := sa_remove d handle in
  (putServerAssocs s url d, b).
(** memstore.py:86-95 [useNonce]. *)
Definition mem_useNonce (s : mem) (now : Z) (url : text) (ts : Z) (salt : text) : mem * bool :=
  if skewed ts now then (s, false)
  else if existsb (ntriple_eqb (url, ts, salt)) (m_nonces s) then (s, false)
  else (mkMem (m_assocs s) (m_nonces s ++ [(url, ts, salt)]), true).
(** memstore.py:97-107 [cleanupNonces]. *)
Definition mem_cleanupNonces (s : mem) (now : Z) : mem * nat :=
  let gone := filter (fun n => skewed (snd (fst n)) now) (m_nonces s) in
  (mkMem (m_assocs s) (filter (fun n => negb (existsb (ntriple_eqb n) gone)) (m_nonces s)), length gone).
(** memstore.py:109-121 [cleanupAssociations]. *)
Definition mem_cleanupAssociations (s : mem) (now : Z) : mem * nat :=
  let cleaned := map (fun p => (fst p, sa_cleanup now (snd p))) (m_assocs s) in
  let removed := fold_left (fun n p => (n + snd (snd p))%nat) cleaned 0%nat in
  let remove_urls := map fst (filter (fun p => (length (fst (snd p)) =? 0)%nat) cleaned) in
  (mkMem (fold_left (fun d url => ddel text_eqb url d) remove_urls
            (map (fun p => (fst p, fst (snd p))) cleaned)) (m_nonces s), removed).

Definition mem_step (s : mem) (now : Z) (o : op) : mem * out :=
  match o with
  | StoreA url a => (mem_store s url a, Done)
  | GetA url h => let '(s, r) := mem_get s url h in (s, Got r)
  | RemoveA url h => let '(s, b) := mem_remove s url h in (s, Flag b)
  | UseN url ts salt => let '(s, b) := mem_useNonce s now url ts salt in (s, Flag b)
  | CleanN => let '(s, n) := mem_cleanupNonces s now in (s, Count n)
  | CleanA => let '(s, n) := mem_cleanupAssociations s now in (s, Count n)
  end.

(** ** Choosing the most recently issued association (filestore.py:254-265,
    sqlstore.py:238-253): [(issued, association)] tuples are sorted and the last one
    taken.  Associations have no order, so comparing two tuples with equal [issued]
    and different associations raises TypeError; every comparison sort compares some
    such pair when there is one. *)
Definition assoc_eqb (a b : assoc) : bool :=
  text_eqb (a_handle a) (a_handle b) && text_eqb (a_secret a) (a_secret b)
  && (a_issued a =? a_issued b) && (a_lifetime a =? a_lifetime b) && text_eqb (a_type a) (a_type b).
Fixpoint ties (l : list assoc) : bool :=
  match l with
  | [] => false
  | a :: r => existsb (fun b => (a_issued a =? a_issued b) && negb (assoc_eqb a b)) r || ties r
  end.
Definition sorted_last (l : list assoc) : res (option assoc) :=
  if ties l then Raise TypeError
  else Ok (match rev (sort (fun a b => a_issued a <=? a_issued b) l) with
           | [] => None
           | a :: _ => Some a
           end).

(** ** sqlstore.py

    The two tables are lists of rows.  Text arguments are sent as UTF-8
    (sqlstore.py:142-155) and the columns hold those bytes.  [pk] is the part of
    server_url that the primary key sees: all of it for SQLite (line 338) and
    PostgreSQL (line 491), its first 255 bytes for MySQL (lines 406, 420).  The
    database is assumed to execute each statement as its text says, transactions to
    be serialized, column widths not to be exceeded and text comparison to be
    byte comparison. *)
Record arow := mkRow { r_url : bytes; r_handle : bytes; r_secret : bytes;
                       r_issued : Z; r_lifetime : Z; r_type : bytes }.
Definition nrow : Type := (bytes * Z * bytes)%type.
Record sql := mkSql { q_assocs : list arow; q_nonces : list nrow }.
Definition sql_init : sql := mkSql [] [].

Section Sql.
  Variable pk : bytes -> bytes.
  Definition mysql_pk : bytes -> bytes := firstn 255.

  (** sqlstore.py:343-346 / 425-426 (REPLACE: rows with the same key go) and
      496-512 (PostgreSQL: update or insert). *)
  Definition db_set_assoc (t : list arow) (r : arow) : list arow :=
    filter (fun x => negb (text_eqb (pk (r_url x)) (pk (r_url r)) && text_eqb (r_handle x) (r_handle r))) t ++ [r].
  (** sqlstore.py:347-351. *)
  Definition db_get_assocs (t : list arow) (url : bytes) : list arow :=
    filter (fun x => text_eqb (r_url x) url) t.
  Definition db_get_assoc (t : list arow) (url handle : bytes) : list arow :=
    filter (fun x => text_eqb (r_url x) url && text_eqb (r_handle x) handle) t.
  (** sqlstore.py:356-357. *)
  Definition db_remove_assoc (t : list arow) (url handle : bytes) : list arow :=
    filter (fun x => negb (text_eqb (r_url x) url && text_eqb (r_handle x) handle)) t.
  (** sqlstore.py:359. *)
  Definition db_clean_assoc (t : list arow) (now : Z) : list arow :=
    filter (fun x => negb (r_issued x + r_lifetime x <? now)) t.
  (** sqlstore.py:361, 406: None for an IntegrityError. *)
  Definition db_add_nonce (t : list nrow) (n : nrow) : option (list nrow) :=
    if existsb (fun x => text_eqb (pk (fst (fst x))) (pk (fst (fst n)))
                         && (snd (fst x) =? snd (fst n)) && text_eqb (snd x) (snd n)) t
    then None else Some (t ++ [n]).
  (** sqlstore.py:363. *)
  Definition db_clean_nonce (t : list nrow) (before : Z) : list nrow :=
    filter (fun x => negb (snd (fst x) <? before)) t.

  (** sqlstore.py:204-217. *)
  Definition txn_storeAssociation (s : sql) (url : text) (a : assoc) : res sql :=
    url <- encode url ;;
    handle <- encode (a_handle a) ;;
    ty <- encode (a_type a) ;;
    Ok (mkSql (db_set_assoc (q_assocs s) (mkRow url handle (a_secret a) (a_issued a) (a_lifetime a) ty)) (q_nonces s)).

  (** sqlstore.py:257-268; [rowcount] is the number of rows deleted. *)
  Definition txn_removeAssociation (s : sql) (url handle : text) : res (sql * bool) :=
    url <- encode url ;;
    handle <- encode handle ;;
    let t := db_remove_assoc (q_assocs s) url handle in
    Ok (mkSql t (q_nonces s), negb (length (q_assocs s) - length t =? 0)%nat).

  (** sqlstore.py:238-248: one row of the loop. *)
  Definition row_assoc (r : arow) : res assoc :=
    ty <- decode (r_type r) ;;
    if negb (mem_text ty all_association_types) then Raise ValueError
    else handle <- decode (r_handle r) ;;
         Ok (mkAssoc handle (r_secret r) (r_issued r) (r_lifetime r) ty).
  Definition get_row (now : Z) (url : text) (st : sql * list assoc) (r : arow) : res (sql * list assoc) :=
    a <- row_assoc r ;;
    if expired a now
    then ' p <- txn_removeAssociation (fst st) url (a_handle a) ;; Ok (fst p, snd st)
    else Ok (fst st, snd st ++ [a]).
  (** sqlstore.py:220-255. *)
  Definition txn_getAssociation (s : sql) (now : Z) (url : text) (handle : option text) : res (sql * option assoc) :=
    burl <- encode url ;;
    rows <- (match handle with
             | Some h => bh <- encode h ;; Ok (db_get_assoc (q_assocs s) burl bh)
             | None => Ok (db_get_assocs (q_assocs s) burl)
             end) ;;
    match rows with
    | [] => Ok (s, None)
    | _ => st <- foldM (get_row now url) (s, []) rows ;;
           a <- sorted_last (snd st) ;;
           Ok (fst st, a)
    end.

  (** sqlstore.py:271-292. *)
  Definition txn_useNonce (s : sql) (now : Z) (url : text) (ts : Z) (salt : text) : res (sql * bool) :=
    if skewed ts now then Ok (s, false)
    else
      burl <- encode url ;;
      bsalt <- encode salt ;;
      match db_add_nonce (q_nonces s) (burl, ts, bsalt) with
      | None => Ok (s, false)
      | Some t => Ok (mkSql (q_assocs s) t, true)
      end.
  (** sqlstore.py:294-296. *)
  Definition txn_cleanupNonces (s : sql) (now : Z) : res (sql * nat) :=
    let t := db_clean_nonce (q_nonces s) (now - SKEW) in
    Ok (mkSql (q_assocs s) t, (length (q_nonces s) - length t)%nat).
  (** sqlstore.py:300-302. *)
  Definition txn_cleanupAssociations (s : sql) (now : Z) : res (sql * nat) :=
    let t := db_clean_assoc (q_assocs s) now in
    Ok (mkSql t (q_nonces s), (length (q_assocs s) - length t)%nat).

  (** sqlstore.py:171-191 [_callInTransaction]: commit, or roll back and re-raise. *)
  Definition inTxn {A} (s : sql) (result : res (sql * A)) (o : A -> out) : sql * out :=
    match result with
    | Ok (s', a) => (s', o a)
    | Raise e => (s, Err e)
    end.

  Definition sql_step (s : sql) (now : Z) (o : op) : sql * out :=
    match o with
    | StoreA url a => inTxn s (s' <- txn_storeAssociation s url a ;; Ok (s', tt)) (fun _ => Done)
    | GetA url h => inTxn s (txn_getAssociation s now url h) Got
    | RemoveA url h => inTxn s (txn_removeAssociation s url h) Flag
    | UseN url ts salt => inTxn s (txn_useNonce s now url ts salt) Flag
    | CleanN => inTxn s (txn_cleanupNonces s now) Count
    | CleanA => inTxn s (txn_cleanupAssociations s now) Count
    end.
End Sql.
