(** Model: the file system mounted with "--local" (main.cpp:77-81): the handlers of fs.cpp (Fs.v)
    with the local backend of backend/local.cpp (Local.v) over a host file system. *)
From Verif Require Export FsClean Local.

(** The host while one request runs: [h_os i] answers the [i]-th call of lstat (it may change in
    between) and, for [i] = 0, everything else.  [h_names p]: the names readdir(3) gives in turn for
    the directory [p] and the error it ends with, 0 at the end of the directory. *)
Record host := Host { h_os : nat -> os; h_names : bytes -> list bytes * Z }.
(** LocalFilesystem::opendir, local.cpp:224-237, and the calls LocalDir::readdir, 123-163, until one
    fails *)
Definition local_listing (H : host) (root path : bytes) : res (list bytes * Z) :=
  match local_opendir (h_os H 0) root path with
  | Err e => Err e
  | Ok _ =>
    match map_path root path with
    | Err e => Err e
    | Ok p =>
      let '(names, e) := h_names H (cstr p) in
      Ok (names, match local_readdir (Err e) with Err e => e | Ok _ => 0 end)
    end
  end.
(** The same as a backend.  readlink may throw; [lstep] looks at that first. *)
Definition local_backend (root : bytes) (H : host) : backend :=
  Backend (fun i p => local_lstat (h_os H i) root p)
          (fun p => match local_readlink (h_os H 0) root p with Done r => r | _ => Err EIO end)
          (local_listing H root).

(** ** Requests *)
Inductive lrequest :=
| LLookup (parent : Z) (name : bytes)
| LReadlink (ino : Z)
| LOpendir (ino : Z)
| LLocal (q : request).        (* one that does not ask the backend *)
Definition on (root : bytes) (H : host) (q : lrequest) : request :=
  match q with
  | LLookup p n => QLookup (local_backend root H) p n
  | LReadlink x => QReadlink (local_backend root H) x
  | LOpendir x => QOpendir (local_backend root H) x
  | LLocal q => q
  end.
(** fs.cpp:158-194: Filesystem::readlink calls the backend with the path of the inode; an
    exception leaves the handler. *)
Definition lstep (root : bytes) (s : fstate) (H : host) (q : lrequest) : outcome (fstate * option (list reply)) :=
  match q with
  | LReadlink x =>
    dlet pr := path (s_db s) x in
    match pr with
    | Err _ => fstep s (on root H q)
    | Ok pp => dlet _ := local_readlink (h_os H 0) root (backend_path pp) in fstep s (on root H q)
    end
  | _ => fstep s (on root H q)
  end.
