(** Model of /repo/openid/store/filestore.py.

    The association and nonce directories are maps from file names to contents.
    Sequential calls first; the interleaved file system steps of several processes
    and the steps of one write follow. *)
From Verif Require Import Py Utf8 CryptUtil Association Nonce Store.
Open Scope Z_scope.

(** Python's ['%0wx' % n] / ['%0wX' % n] for [n >= 0]. *)
Definition hexupper (n : N) : N := if (n <? 10)%N then (48 + n)%N else (55 + n)%N.
Definition zfill (w : nat) (s : text) : text := repeat 48%N (w - length s) ++ s.
Definition hexN (n : N) : text := hex_digits (S (N.size_nat n)) n [].
Definition upper_hex (s : text) : text := map (fun c => if (97 <=? c)%N then (c - 32)%N else c) s.
(** ['%08x' % z]: a sign, then digits, padded with zeros to eight characters. *)
Definition hex08 (z : Z) : text :=
  if z <? 0 then 45%N :: zfill 7 (hexN (Z.to_N (- z))) else zfill 8 (hexN (Z.to_N z)).

(** filestore.py:21-22. *)
Definition filename_allowed (c : N) : bool :=
  ((65 <=? c) && (c <=? 90))%N || ((97 <=? c) && (c <=? 122))%N || ((48 <=? c) && (c <=? 57))%N || (c =? 46)%N.
(** filestore.py:33-40 [_filenameEscape]. *)
Definition filenameEscape (s : text) : text :=
  flat_map (fun c => if filename_allowed c then [c] else 95%N :: zfill 2 (upper_hex (hexN c))) s.

(** [s.split('://', 1)], None when the separator does not occur. *)
Fixpoint cut_scheme (s : text) : option (text * text) :=
  match s with
  | [] => None
  | c :: r => if startswith s (u "://") then Some ([], skipn 3 s)
              else match cut_scheme r with
                   | Some (a, b) => Some (c :: a, b)
                   | None => None
                   end
  end.
(** [rest.split('/', 1)[0]]. *)
Definition before_slash (s : text) : text := match cut 47%N s with Some (a, _) => a | None => s end.

(** What happens when the name is used as a path below a directory: names with a
    slash would name something outside the directory or in a missing one, names with
    a NUL are refused by the system call.  Modelled as OSError; name length limits are
    not modelled. *)
Definition path_ok (name : text) : bool := negb (memc 47%N name || memc 0%N name).

(** A directory of files with contents. *)
Definition dir := list (text * bytes).
Record fstore := mkFs { f_assocs : dir; f_nonces : dir }.
Definition fs_init : fstore := mkFs [] [].

Section File.
  (** hashlib.sha1(...).digest() *)
  Variable sha1 : bytes -> bytes.

  (** filestore.py:25-30 [_safe64]. *)
  Definition safe64_char (c : N) : list N :=
    if (c =? 43)%N then [95%N] else if (c =? 47)%N then [46%N] else if (c =? 61)%N then [] else [c].
  Definition safe64 (s : text) : res text :=
    b <- encode s ;; Ok (flat_map safe64_char (toBase64 (sha1 b))).

  (** filestore.py:150-175 [getAssociationFilename], without the directory. *)
  Definition getAssociationFilename (url handle : text) : res text :=
    match cut_scheme url with
    | None => Raise ValueError
    | Some (proto, rest) =>
        let domain := filenameEscape (before_slash rest) in
        url_hash <- safe64 url ;;
        handle_hash <- (if truthy handle then safe64 handle else Ok []) ;;
        Ok (proto ++ u "-" ++ domain ++ u "-" ++ url_hash ++ u "-" ++ handle_hash)
    end.

  (** filestore.py:310-336: the name of the file of a nonce. *)
  Definition nonceFilename (url : text) (ts : Z) (salt : text) : res text :=
    ' p <- (if truthy url
            then match cut_scheme url with Some p => Ok p | None => Raise ValueError end
            else Ok ([], [])) ;;
    let domain := filenameEscape (before_slash (snd p)) in
    url_hash <- safe64 url ;;
    salt_hash <- safe64 salt ;;
    Ok (hex08 ts ++ u "-" ++ fst p ++ u "-" ++ domain ++ u "-" ++ url_hash ++ u "-" ++ salt_hash).

  (** filestore.py:183-192: name and content that storeAssociation is about to write. *)
  Definition store_plan (url : text) (a : assoc) : res (text * bytes) :=
    s <- serialize a ;;
    name <- getAssociationFilename url (a_handle a) ;;
    data <- encode s ;;
    Ok (name, data).
  (** filestore.py:177-219 [storeAssociation], when nothing goes wrong below it. *)
  Definition file_store (s : fstore) (url : text) (a : assoc) : res fstore :=
    ' p <- store_plan url a ;;
    if path_ok (fst p) then Ok (mkFs (dset text_eqb (fst p) (snd p) (f_assocs s)) (f_nonces s))
    else Raise OSError.

  (** filestore.py:281-283: the association in a file, None for unreadable content. *)
  Definition read_assoc (data : bytes) : res (option assoc) :=
    match (t <- decode data ;; deserialize t) with
    | Ok a => Ok (Some a)
    | Raise e => if isValueError e then Ok None else Raise e
    end.
  (** filestore.py:267-293 [_getAssociation]. *)
  Definition get_file (d : dir) (now : Z) (name : text) : res (dir * option assoc) :=
    if negb (path_ok name) then Raise OSError
    else match dget text_eqb name d with
         | None => Ok (d, None)
         | Some data =>
             o <- read_assoc data ;;
             match o with
             | None => Ok (ddel text_eqb name d, None)
             | Some a => if expired a now then Ok (ddel text_eqb name d, None) else Ok (d, Some a)
             end
         end.
  (** filestore.py:221-265 [getAssociation]; [os.listdir] gives the names in the order of the map. *)
  Definition get_matching (now : Z) (st : dir * list assoc) (name : text) : res (dir * list assoc) :=
    ' p <- get_file (fst st) now name ;;
    match snd p with
    | Some a => Ok (fst p, snd st ++ [a])
    | None => Ok (fst p, snd st)
    end.
  (** os.path.basename *)
  Definition basename (name : text) : text := match rcut 47%N name with Some (_, b) => b | None => name end.
  Definition file_get (s : fstore) (now : Z) (url : text) (handle : option text) : fstore * res (option assoc) :=
    let handle := match handle with None => [] | Some h => h end in
    match getAssociationFilename url handle with
    | Raise e => (s, Raise e)
    | Ok filename =>
        if truthy handle
        then match get_file (f_assocs s) now filename with
             | Ok (d, a) => (mkFs d (f_nonces s), Ok a)
             | Raise e => (s, Raise e)
             end
        else
          let matching := filter (fun n => startswith n (basename filename)) (dkeys (f_assocs s)) in
          match foldM (get_matching now) (f_assocs s, []) matching with
          | Ok (d, l) => (mkFs d (f_nonces s), sorted_last l)
          | Raise e => (s, Raise e)
          end
    end.
  (** filestore.py:43-59 [_removeIfPresent]. *)
  Definition removeIfPresent (d : dir) (name : text) : res (dir * bool) :=
    if negb (path_ok name) then Raise OSError
    else if dhas text_eqb name d then Ok (ddel text_eqb name d, true) else Ok (d, false).
  (** filestore.py:295-308 [removeAssociation]. *)
  Definition file_remove (s : fstore) (now : Z) (url handle : text) : fstore * res bool :=
    match file_get s now url (Some handle) with
    | (s, Raise e) => (s, Raise e)
    | (s, Ok None) => (s, Ok false)
    | (s, Ok (Some _)) =>
        match (filename <- getAssociationFilename url handle ;; removeIfPresent (f_assocs s) filename) with
        | Ok (d, b) => (mkFs d (f_nonces s), Ok b)
        | Raise e => (s, Raise e)
        end
    end.
  (** filestore.py:310-345 [useNonce]; os.open with O_CREAT|O_EXCL. *)
  Definition file_useNonce (s : fstore) (now : Z) (url : text) (ts : Z) (salt : text) : fstore * res bool :=
    if skewed ts now then (s, Ok false)
    else match nonceFilename url ts salt with
         | Raise e => (s, Raise e)
         | Ok name =>
             if negb (path_ok name) then (s, Raise OSError)
             else if dhas text_eqb name (f_nonces s) then (s, Ok false)
             else (mkFs (f_assocs s) (dset text_eqb name [] (f_nonces s)), Ok true)
         end.
  (** filestore.py:347-375 [_allAssocs]: the directory without the unreadable files, and the readable ones. *)
  Definition all_step (st : dir * list (text * assoc)) (f : text * bytes) : res (dir * list (text * assoc)) :=
    o <- read_assoc (snd f) ;;
    match o with
    | None => Ok (ddel text_eqb (fst f) (fst st), snd st)
    | Some a => Ok (fst st, snd st ++ [(fst f, a)])
    end.
  Definition allAssocs (d : dir) : res (dir * list (text * assoc)) := foldM all_step (d, []) d.
  (** filestore.py:387-393 [cleanupAssociations]. *)
  Definition file_cleanupAssociations (s : fstore) (now : Z) : res (fstore * nat) :=
    ' p <- allAssocs (f_assocs s) ;;
    let gone := filter (fun q => expired (snd q) now) (snd p) in
    Ok (mkFs (fold_left (fun d n => ddel text_eqb n d) (map fst gone) (fst p)) (f_nonces s), length gone).
  (** filestore.py:403-405: the timestamp in the name of a nonce file.  [int16] is
      [int(x, 16)] for digits alone, which the names written by useNonce have. *)
  Definition nonce_file_ts (name : text) : res Z :=
    int16 (match cut 45%N name with Some (a, _) => a | None => name end).
  (** filestore.py:395-409 [cleanupNonces]; files removed before an exception stay removed. *)
  Fixpoint clean_nonces (names : list text) (d : dir) (now : Z) (removed : nat) : dir * res nat :=
    match names with
    | [] => (d, Ok removed)
    | n :: r => match nonce_file_ts n with
                | Raise e => (d, Raise e)
                | Ok ts => if skewed ts now then clean_nonces r (ddel text_eqb n d) now (S removed)
                           else clean_nonces r d now removed
                end
    end.
  Definition file_cleanupNonces (s : fstore) (now : Z) : fstore * res nat :=
    let '(d, r) := clean_nonces (dkeys (f_nonces s)) (f_nonces s) now 0 in (mkFs (f_assocs s) d, r).

  Definition outcome {A} (o : A -> out) (r : res A) : out := match r with Ok a => o a | Raise e => Err e end.
  Definition file_step (s : fstore) (now : Z) (o : op) : fstore * out :=
    match o with
    | StoreA url a => match file_store s url a with Ok s' => (s', Done) | Raise e => (s, Err e) end
    | GetA url h => let '(s, r) := file_get s now url h in (s, outcome Got r)
    | RemoveA url h => let '(s, r) := file_remove s now url h in (s, outcome Flag r)
    | UseN url ts salt => let '(s, r) := file_useNonce s now url ts salt in (s, outcome Flag r)
    | CleanN => let '(s, r) := file_cleanupNonces s now in (s, outcome Count r)
    | CleanA => match file_cleanupAssociations s now with Ok (s', n) => (s', Count n) | Raise e => (s, Err e) end
    end.
End File.
