(** Model of LocalFile (src/backend/local.cpp:51-108) on a table of descriptors.

    The operating system: files are byte strings named by inode numbers, a descriptor names a file,
    ::open gives an unused descriptor (POSIX: the lowest one; the theorems hold for any).  Every call
    may fail or transfer less than asked for; what it does is a parameter of the call.  ::close
    releases the descriptor even if it reports an error, as Linux does. *)
From Verif Require Import Prelude CacheModel.

Definition EBADF : Z := 9.
(** ** what the operating system does with the contents of a file *)
(** ::pread: [k] is an error or the greatest number of bytes it is willing to transfer *)
Definition file_read (c : bytes) (count : nat) (off : Z) (k : res nat) : res bytes :=
  if off <? 0 then Err EINVAL else
  match k with Err e => Err e | Ok n => Ok (firstn (Nat.min count n) (skipn (Z.to_nat off) c)) end.
(** ::pwrite: a gap before [off] is filled with zeros *)
Definition splice (c d : bytes) (off : nat) : bytes :=
  match d with
  | [] => c
  | _ => firstn off (c ++ replicate (off - length c) 0) ++ d ++ skipn (off + length d) c
  end.
Definition file_write (c d : bytes) (off : Z) (k : res nat) : res (Z * bytes) :=
  if off <? 0 then Err EINVAL else
  match k with Err e => Err e | Ok n => let d' := firstn n d in Ok (Z.of_nat (length d'), splice c d' (Z.to_nat off)) end.

(** ** calls of the methods *)
Inductive iop :=
| IOpen (o fd ino : Z)                                  (* LocalFilesystem::open returned the object o *)
| IRead (o : Z) (count : nat) (off : Z) (k : res nat)
| IWrite (o : Z) (d : bytes) (off : Z) (k : res nat)
| IStat (o : Z) (k : res unit)
| ISync (o : Z) (k : res unit)
| IClose (o : Z) (ok : bool)
| IDestroy (o : Z) (ok : bool)
| IElse (ino : Z) (c : bytes).                           (* somebody else changes a file *)
Inductive irep := RNone | RData (d : bytes) | RCount (n : Z) | RStat (size ino : Z) | ROk | RErr (e : Z).

(** contents of files, descriptors, m_fd of the objects alive *)
Record iow := mkW { w_files : gmap Z bytes; w_fdt : gmap Z Z; w_objs : gmap Z Z }.

(** the file a descriptor names; a descriptor that is not open gives EBADF *)
Definition at_fd (w : iow) (fd : Z) (f : Z -> bytes -> irep * iow) : irep * iow :=
  match w_fdt w !! fd with
  | None => (RErr EBADF, w)
  | Some ino => match w_files w !! ino with Some c => f ino c | None => f ino [] end
  end.
Definition set_file (w : iow) (ino : Z) (c : bytes) : iow := mkW (<[ino := c]> (w_files w)) (w_fdt w) (w_objs w).
Definition set_obj (w : iow) (o fd : Z) : iow := mkW (w_files w) (w_fdt w) (<[o := fd]> (w_objs w)).
(** ::close *)
Definition sys_close (w : iow) (fd : Z) (ok : bool) : res unit * iow :=
  match w_fdt w !! fd with
  | None => (Err EBADF, w)
  | Some _ => (if ok then Ok tt else Err EIO, mkW (w_files w) (delete fd (w_fdt w)) (w_objs w))
  end.
(** LocalFile::close, local.cpp:101-108 *)
Definition io_close (w : iow) (o fd : Z) (ok : bool) : irep * iow :=
  let r := sys_close w fd ok in
  match fst r with
  | Err e => (RErr e, snd r)
  | Ok _ => (ROk, set_obj (snd r) o 0)
  end.

(** One call.  Using an object that does not exist is undefined behaviour. *)
Definition io_step (w : iow) (p : iop) : outcome (irep * iow) :=
  match p with
  | IOpen o fd ino => Done (RNone, mkW (w_files w) (<[fd := ino]> (w_fdt w)) (<[o := fd]> (w_objs w)))  (* 51-55, 207-223 *)
  | IRead o count off k =>                                             (* 76-83 *)
    match w_objs w !! o with
    | None => Crash
    | Some fd => Done (at_fd w fd (fun _ c => match file_read c count off k with Ok d => (RData d, w) | Err e => (RErr e, w) end))
    end
  | IWrite o d off k =>                                                (* 85-92 *)
    match w_objs w !! o with
    | None => Crash
    | Some fd => Done (at_fd w fd (fun ino c => match file_write c d off k with Ok (n, c') => (RCount n, set_file w ino c') | Err e => (RErr e, w) end))
    end
  | IStat o k =>                                                       (* 65-74 *)
    match w_objs w !! o with
    | None => Crash
    | Some fd => Done (at_fd w fd (fun ino c => match k with Ok _ => (RStat (Z.of_nat (length c)) ino, w) | Err e => (RErr e, w) end))
    end
  | ISync o k =>                                                       (* 94-100 *)
    match w_objs w !! o with
    | None => Crash
    | Some fd => Done (at_fd w fd (fun _ _ => match k with Ok _ => (ROk, w) | Err e => (RErr e, w) end))
    end
  | IClose o ok =>
    match w_objs w !! o with None => Crash | Some fd => Done (io_close w o fd ok) end
  | IDestroy o ok =>                                                   (* 57-63 *)
    match w_objs w !! o with
    | None => Crash
    | Some fd => let w' := if 0 <=? fd then snd (io_close w o fd ok) else w in
                 Done (RNone, mkW (w_files w') (w_fdt w') (delete o (w_objs w')))
    end
  | IElse ino c => Done (RNone, set_file w ino c)
  end.
Fixpoint io_run (w : iow) (ps : list iop) : outcome (list irep * iow) :=
  match ps with
  | [] => Done ([], w)
  | p :: ps => dlet (r, w) := io_step w p in dlet (rs, w) := io_run w ps in Done (r :: rs, w)
  end.
(** What the callers and the operating system guarantee: objects are new when they are opened and
    alive when they are used, a new descriptor is unused. *)
Definition io_legal (w : iow) (p : iop) : Prop :=
  match p with
  | IOpen o fd ino => w_objs w !! o = None /\ 0 <= fd /\ w_fdt w !! fd = None
  | IRead o _ _ _ | IWrite o _ _ _ | IStat o _ | ISync o _ | IClose o _ | IDestroy o _ => exists fd, w_objs w !! o = Some fd
  | IElse _ _ => True
  end.
Fixpoint io_legals (w : iow) (ps : list iop) : Prop :=
  match ps with
  | [] => True
  | p :: ps => io_legal w p /\ match io_step w p with Done (_, w') => io_legals w' ps | _ => False end
  end.

(** ** Specification: there are no descriptors.  An object is open on a file, or closed. *)
Record files_spec := mkS { s_files : gmap Z bytes; s_objs : gmap Z (option Z) }.
Definition on_file (s : files_spec) (o : Z) (f : Z -> bytes -> irep * files_spec) : irep * files_spec :=
  match s_objs s !! o with
  | Some (Some ino) => f ino (default [] (s_files s !! ino))
  | _ => (RErr EBADF, s)
  end.
Definition spec_step (s : files_spec) (p : iop) : irep * files_spec :=
  match p with
  | IOpen o _ ino => (RNone, mkS (s_files s) (<[o := Some ino]> (s_objs s)))
  | IRead o count off k => on_file s o (fun _ c => match file_read c count off k with Ok d => (RData d, s) | Err e => (RErr e, s) end)
  | IWrite o d off k => on_file s o (fun ino c => match file_write c d off k with Ok (n, c') => (RCount n, mkS (<[ino := c']> (s_files s)) (s_objs s)) | Err e => (RErr e, s) end)
  | IStat o k => on_file s o (fun ino c => match k with Ok _ => (RStat (Z.of_nat (length c)) ino, s) | Err e => (RErr e, s) end)
  | ISync o k => on_file s o (fun _ _ => match k with Ok _ => (ROk, s) | Err e => (RErr e, s) end)
  | IClose o ok => on_file s o (fun _ _ => (if ok then ROk else RErr EIO, mkS (s_files s) (<[o := None]> (s_objs s))))
  | IDestroy o _ => (RNone, mkS (s_files s) (delete o (s_objs s)))
  | IElse ino c => (RNone, mkS (<[ino := c]> (s_files s)) (s_objs s))
  end.
Fixpoint spec_run (s : files_spec) (ps : list iop) : list irep * files_spec :=
  match ps with
  | [] => ([], s)
  | p :: ps => let r := spec_step s p in let q := spec_run (snd r) ps in (fst r :: fst q, snd q)
  end.
(** no call on an object after its close() *)
Fixpoint no_use_closed (s : files_spec) (ps : list iop) : Prop :=
  match ps with
  | [] => True
  | p :: ps =>
    match p with
    | IRead o _ _ _ | IWrite o _ _ _ | IStat o _ | ISync o _ | IClose o _ => s_objs s !! o <> Some None
    | _ => True
    end /\ no_use_closed (snd (spec_step s p)) ps
  end.
