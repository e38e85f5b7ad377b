(** Model of the local backend: src/backend/local.cpp.

    The operating system is a record of functions [os]; what it does with a path (symbolic links
    in the middle of it, permissions) is not modelled.  std::filesystem::path is libstdc++'s on
    POSIX, where a path is its string.  pread, pwrite, fsync and fstat of LocalFile are in
    LocalIO.v, LocalDir with the entries it reports and fsyncdir in LocalDir.v. *)
From Verif Require Export Fs.

(** ** map_path, local.cpp:188-205 *)
(** path::operator/= with a relative right-hand side: a separator is put in between unless the left
    side is empty or ends with one. *)
Definition append_path (root inner : bytes) : bytes :=
  match root with
  | [] => inner
  | _ => if List.last root 0 =? 47 then root ++ inner else root ++ [47] ++ inner
  end.
Definition is_absolute (p : bytes) : bool := match p with c :: _ => c =? 47 | [] => false end.
Definition map_path (root s : bytes) : res bytes :=
  match s with
  | [] => Err EINVAL
  | c :: inner =>
    if negb (c =? 47) then Err EINVAL
    else if is_absolute inner then Err EINVAL
    else Ok (append_path root inner)
  end.

(** ** the operating system *)
Record os := Os {
  os_lstat : bytes -> res attrs;
  os_open : bytes -> Z -> Z -> res Z;              (* path, flags, mode *)
  os_opendir : bytes -> res Z;
  os_readlink : bytes -> res bytes }.              (* the whole target; the buffer is below *)
(** ** LocalFilesystem, local.cpp:207-281.  All of them pass c_str(). *)
Definition local_lstat (o : os) (root path : bytes) : res attrs :=
  match map_path root path with Err e => Err e | Ok p => os_lstat o (cstr p) end.
Definition local_open (o : os) (root path : bytes) (accesstype mode : Z) : res Z :=
  match map_path root path with Err e => Err e | Ok p => os_open o (cstr p) accesstype mode end.
Definition local_opendir (o : os) (root path : bytes) : res Z :=
  match map_path root path with Err e => Err e | Ok p => os_opendir o (cstr p) end.
(** readlink, 254-281: the buffer has st_size + 1 bytes; a failing system call returns -1 and
    resize(-1) throws std::length_error. *)
Definition local_readlink (o : os) (root path : bytes) : outcome (res bytes) :=
  match map_path root path with
  | Err e => Done (Err e)
  | Ok p =>
    match os_lstat o (cstr p) with
    | Err e => Done (Err e)
    | Ok st =>
      match os_readlink o (cstr p) with
      | Err _ => Throw
      | Ok target => Done (Ok (firstn (Z.to_nat (a_size st + 1)) target))
      end
    end
  end.
(** LocalDir::readdir, 123-163: the mode and the inode number it reports are not used by the file
    system; the end of the directory and every error give error 0. *)
Definition local_readdir (r : res bytes) : res bytes := match r with Ok n => Ok n | Err _ => Err 0 end.

(** ** Descriptors: LocalFile, local.cpp:51-63 and 101-108; LocalDir, 110-121 and 173-181 *)
(** [fs_fd]: m_fd of the objects alive.  [ok]: whether the system call returns 0. *)
Inductive fop := FOpen (obj fd : Z) | FClose (obj : Z) (ok : bool) | FDestroy (obj : Z) (ok : bool).
Definition fds := gmap Z Z.
(** LocalFile::close: the calls ::close it makes, and the new m_fd *)
Definition file_close (fd : Z) (ok : bool) : list Z * Z := ([fd], if ok then 0 else fd).
(** One operation; result: the calls ::close made, as pairs of object and descriptor. *)
Definition file_step (s : fds) (o : fop) : outcome (list (Z * Z) * fds) :=
  match o with
  | FOpen obj fd => Done ([], <[obj := fd]> s)
  | FClose obj ok =>
    match s !! obj with
    | None => Crash
    | Some fd => let '(c, fd') := file_close fd ok in Done (map (pair obj) c, <[obj := fd']> s)
    end
  | FDestroy obj ok =>
    match s !! obj with
    | None => Crash
    | Some fd => Done (if 0 <=? fd then map (pair obj) (fst (file_close fd ok)) else [], delete obj s)
    end
  end.
(** The same for LocalDir; DIR pointers are numbers, the null pointer is 0. *)
Definition dir_step (s : fds) (o : fop) : outcome (list (Z * Z) * fds) :=
  match o with
  | FOpen obj dp => Done ([], <[obj := dp]> s)
  | FClose obj ok =>
    match s !! obj with
    | None => Crash
    | Some dp => Done ([(obj, dp)], <[obj := if ok then 0 else dp]> s)
    end
  | FDestroy obj ok =>
    match s !! obj with
    | None => Crash
    | Some dp => Done (if dp =? 0 then [] else [(obj, dp)], delete obj s)
    end
  end.
