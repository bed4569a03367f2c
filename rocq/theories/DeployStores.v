(** The logs that the package's file and SQLite stores can give, for Prop_DeployRP.v and Prop_DeployOP.v. *)
From Verif Require Import Py Association Nonce Store FileStore FileStoreFacts Prop_FileNames Prop_StoreFile FileSys FileAtomic FileSysFacts Prop_FileSys Prop_FileAtomic.
From Verif Require Import SqlTxn SqlConc SqlAtomicFacts Prop_SqlAtomic.
Open Scope Z_scope.

(** A run of the file store (openid/store/filestore.py), one system call at a time, of which any
    may fail, or of the SQLite store (openid/store/sqlstore.py), one statement at a time;
    processes may be killed at any point.  No label is left out except that SQLite is not to report a commit
    as failed that it has carried out. *)
Inductive store_log : list event -> Prop :=
| by_files sha1 now ls : digest20 sha1 -> sys_ok ls -> distinct_on sha1 (sys_texts ls) ->
    store_log (s_log (FileSys.run sha1 true (FileSys.sys_init now) ls))
| by_sql d procs now ls : keyed_replace d -> Forall (label_ok d) ls -> store_log (trace d procs (SqlConc.sys_init now) ls []).

Lemma store_log_atomic log : store_log log -> exists now A, asteps (a_init now) A /\ a_log A = log.
Proof.
  intros [sha1 now ls D O X|d procs now ls K O].
  - destruct (C166_atomic sha1 D now ls O X) as (A & S & L). eauto.
  - destruct (C172_atomic d procs now ls K O) as (A & S & L). eauto.
Qed.
