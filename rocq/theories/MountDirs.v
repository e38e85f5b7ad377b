(** A mount on the local backend: the handlers of Backing.v on the directory objects of LocalDir.v.

    The machine is LocalFilesystem as the file system sees it (src/backend/local.cpp:183-284): opendir makes a
    LocalDir on a new stream of the C library (225-238), readdir, fsyncdir, closedir and the destructor
    are those of LocalDir (110-181).  What lstat, readlink and the calls on files answer is left open
    here (any answer of the right type; they touch no stream); Local.v and LocalIO.v are about them.
    [None] is the state after undefined behaviour: anything may happen from then on. *)
From Verif Require Import Backing LocalDir.

(** The operating system: the directory behind a path (its inode number and its entries), what other
    processes may do to the streams' contents between two calls, and how ::readdir may fail. *)
Record os := Os { os_dir : bytes -> res (Z * list dent); os_else : diow -> diow -> Prop; os_fails : Z -> Prop }.
(** others cannot open or close our streams, nor touch our objects *)
Definition outside (w w' : diow) : Prop :=
  dw_objs w' = dw_objs w /\ dw_synced w' = dw_synced w /\ forall dp, fst <$> (dw_st w' !! dp) = fst <$> (dw_st w !! dp).
Definition ans_of (r : drep) : bans :=
  match r with DNone | DOk => AVoid | DEnt _ _ n _ => AEntry n | DErr e => AFail e end.
(** a method of LocalDir is called *)
Definition calls_dir (w : diow) (p : dop) (a : bans) (y' : option diow) : Prop :=
  match dir_call w p with Done (r, w') => a = ans_of r /\ y' = Some w' | _ => y' = None end.
Definition streams (S : os) : machine (option diow) := fun y c a y' => typed c a /\
  match y with
  | None => y' = None
  | Some w0 => exists w, os_else S w0 w /\
    match c with
    | KOpendir p =>
      match os_dir S p with
      | Err e => a = AFail e /\ y' = Some w
      | Ok (dir, l) => exists o dp, dir_legal w (DOpen o dp dir l) /\ a = ADir o /\ calls_dir w (DOpen o dp dir l) AVoid y'
      end
    | KReaddir o => exists k, match k with Some e => os_fails S e | None => True end /\ calls_dir w (DRead o k) a y'
    | KFsyncdir o => exists k, calls_dir w (DSync o k) a y'
    | KClosedir o => exists ok, calls_dir w (DClose o ok) a y'
    | KDestroyDir o => exists ok, calls_dir w (DDestroy o ok) a y'
    | _ => y' = Some w
    end
  end.
