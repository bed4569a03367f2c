(** storeAssociation of the file store, one system call at a time
    (openid/store/filestore.py:177-219, 143-154 [_mktemp], 43-59 [_removeIfPresent]). *)
From Verif Require Import Py Association Store FileStore.

(** System calls made on the temporary file and the target.  [SWrite]: the part of the data that
    Python's buffered writer hands to the kernel at that moment. *)
Inductive syscall := SCreate | SWrite (b : bytes) | SFsync | SClose | SRename | SUnlinkTarget | SUnlinkTemp.

(** [disk]: the association directory; [temp]: the temporary file as (content in the kernel,
    content known to be on the platter); [lost]: for the target once renamed, the content on the platter. *)
Record disk := mkDisk { d_assocs : dir; d_temp : option (bytes * bytes); d_synced : option bytes }.

Section Store.
  Variable name : text.
  Definition sys_exec (d : disk) (c : syscall) : disk :=
    match c with
    | SCreate => mkDisk (d_assocs d) (Some ([], [])) (d_synced d)
    | SWrite b => match d_temp d with
                  | Some (k, p) => mkDisk (d_assocs d) (Some (k ++ b, p)) (d_synced d)
                  | None => d
                  end
    | SFsync => match d_temp d with
                | Some (k, p) => mkDisk (d_assocs d) (Some (k, k)) (d_synced d)
                | None => d
                end
    | SClose => d
    | SRename => match d_temp d with
                 | Some (k, p) => mkDisk (dset text_eqb name k (d_assocs d)) None (Some p)
                 | None => d
                 end
    | SUnlinkTarget => mkDisk (ddel text_eqb name (d_assocs d)) (d_temp d) (d_synced d)
    | SUnlinkTemp => mkDisk (d_assocs d) None (d_synced d)
    end.
  (** The calls of one storeAssociation.  [early]: what the writer passes on before os.fsync;
      [late]: what is left in its buffer and written by close().  The default buffer takes 8192
      bytes, so for shorter data [early] is empty: nothing calls flush before os.fsync.
      [replace]: os.rename replaces an existing target (POSIX); if not (Windows), the target is
      removed first. *)
  Definition store_calls (replace : bool) (target : bool) (early late : list bytes) : list syscall :=
    [SCreate] ++ map SWrite early ++ [SFsync] ++ map SWrite late ++ [SClose] ++
    (if negb replace && target then [SUnlinkTarget] else []) ++ [SRename].
  (** Where the run stops: killed after n calls, or the n-th call fails, which removes the
      temporary file and raises. *)
  Inductive stop := Killed (n : nat) | Failed (n : nat).
  Definition interrupted (d : disk) (cs : list syscall) (s : stop) : disk :=
    match s with
    | Killed n => fold_left sys_exec (firstn n cs) d
    | Failed n => sys_exec (fold_left sys_exec (firstn n cs) d) SUnlinkTemp
    end.
  (** What a power cut leaves when the kernel had not written back what was not fsynced: the
      renamed file with the content that had been. *)
  Definition power_cut (d : disk) : dir :=
    match d_synced d with
    | Some p => dset text_eqb name p (d_assocs d)
    | None => d_assocs d
    end.
End Store.
