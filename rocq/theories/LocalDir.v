(** Model of LocalDir (src/backend/local.cpp:110-181) on the directory streams of the C library.

    The operating system: a DIR pointer names an open stream, a stream belongs to a directory (an
    inode number) and has entries it is still going to return.  ::opendir gives a pointer that is not
    null and names no other open stream; a pointer whose stream was closed may be given again
    (malloc).  ::closedir frees the stream even if it reports an error, as glibc does.  Calls on a
    null pointer or on a stream that was freed are undefined behaviour ([Crash]). *)
From Verif Require Import Prelude Codec CacheModel.

(** struct dirent: the fields LocalDir::readdir looks at *)
Record dent := Dent { e_name : bytes; e_type : Z; e_ino : Z }.
(** values of d_type, <dirent.h> *)
Definition DT_FIFO : Z := 1.
Definition DT_CHR : Z := 2.
Definition DT_DIR : Z := 4.
Definition DT_BLK : Z := 6.
Definition DT_REG : Z := 8.
Definition DT_LNK : Z := 10.
Definition DT_SOCK : Z := 12.
(** values of st_mode, <sys/stat.h> *)
Definition S_IFIFO : Z := 4096.   (* 0010000 *)
Definition S_IFCHR : Z := 8192.   (* 0020000 *)
Definition S_IFBLK : Z := 24576.  (* 0060000 *)
Definition S_IFSOCK : Z := 49152. (* 0140000 *)

(** the switch of LocalDir::readdir, local.cpp:130-153 *)
Definition dt_mode (t : Z) : Z :=
  if t =? DT_BLK then S_IFBLK
  else if t =? DT_CHR then S_IFCHR
  else if t =? DT_REG then S_IFREG
  else if t =? DT_DIR then S_IFDIR
  else if t =? DT_FIFO then S_IFIFO
  else if t =? DT_LNK then S_IFLNK
  else if t =? DT_SOCK then S_IFSOCK
  else 0.

(** ** calls of the methods *)
Inductive dop :=
| DOpen (o dp dir : Z) (l : list dent)                  (* LocalFilesystem::opendir returned the object o *)
| DRead (o : Z) (k : option Z)                          (* [Some e]: ::readdir fails *)
| DSync (o : Z) (k : option Z)
| DClose (o : Z) (ok : bool)
| DDestroy (o : Z) (ok : bool)
| DElse (dir : Z) (f : list dent -> list dent).         (* somebody else changes a directory *)
(** [DEnt]: mode, inode number, name and [complete] of a DirEntry *)
Inductive drep := DNone | DEnt (mode ino : Z) (name : bytes) (complete : bool) | DOk | DErr (e : Z).

(** open streams, m_fd of the objects alive (0: nullptr), directories that were fsynced *)
Record diow := mkD { dw_st : gmap Z (Z * list dent); dw_objs : gmap Z Z; dw_synced : list Z }.

Definition changed_by (dir : Z) (f : list dent -> list dent) (x : Z * list dent) : Z * list dent :=
  if fst x =? dir then (fst x, f (snd x)) else x.
(** LocalDir::readdir, local.cpp:123-163: null for the end and for an error; the error is dropped *)
Definition dir_read (w : diow) (dp : Z) (k : option Z) : outcome (drep * diow) :=
  match dw_st w !! dp with
  | None => Crash
  | Some (dir, l) =>
    match k, l with
    | Some _, _ | None, [] => Done (DErr 0, w)
    | None, e :: l => Done (DEnt (dt_mode (e_type e)) (e_ino e) (e_name e) false, mkD (<[dp := (dir, l)]> (dw_st w)) (dw_objs w) (dw_synced w))
    end
  end.
(** LocalDir::fsyncdir, local.cpp:165-171 *)
Definition dir_sync (w : diow) (dp : Z) (k : option Z) : outcome (drep * diow) :=
  match dw_st w !! dp with
  | None => Crash
  | Some (dir, _) =>
    match k with
    | Some e => Done (DErr e, w)
    | None => Done (DOk, mkD (dw_st w) (dw_objs w) (dw_synced w ++ [dir]))
    end
  end.
(** LocalDir::closedir, local.cpp:173-181 *)
Definition dir_close (w : diow) (o dp : Z) (ok : bool) : outcome (drep * diow) :=
  match dw_st w !! dp with
  | None => Crash
  | Some _ =>
    let w := mkD (delete dp (dw_st w)) (dw_objs w) (dw_synced w) in
    if ok then Done (DOk, mkD (dw_st w) (<[o := 0]> (dw_objs w)) (dw_synced w)) else Done (DErr EIO, w)
  end.
Definition dir_call (w : diow) (p : dop) : outcome (drep * diow) :=
  match p with
  | DOpen o dp dir l => Done (DNone, mkD (<[dp := (dir, l)]> (dw_st w)) (<[o := dp]> (dw_objs w)) (dw_synced w))  (* 110-114, 225-238 *)
  | DRead o k => match dw_objs w !! o with None => Crash | Some dp => dir_read w dp k end
  | DSync o k => match dw_objs w !! o with None => Crash | Some dp => dir_sync w dp k end
  | DClose o ok => match dw_objs w !! o with None => Crash | Some dp => dir_close w o dp ok end
  | DDestroy o ok =>                                                    (* 116-121 *)
    match dw_objs w !! o with
    | None => Crash
    | Some dp =>
      dlet w := if dp =? 0 then Done w else dlet (_, w) := dir_close w o dp ok in Done w in
      Done (DNone, mkD (dw_st w) (delete o (dw_objs w)) (dw_synced w))
    end
  | DElse dir f => Done (DNone, mkD ((changed_by dir f <$> dw_st w) : gmap Z (Z * list dent)) (dw_objs w) (dw_synced w))
  end.
Fixpoint dir_run (w : diow) (ps : list dop) : outcome (list drep * diow) :=
  match ps with
  | [] => Done ([], w)
  | p :: ps => dlet (r, w) := dir_call w p in dlet (rs, w) := dir_run w ps in Done (r :: rs, w)
  end.
(** What the callers and the C library guarantee: objects are new when they are opened and alive
    when they are used; a new stream has a pointer of its own, and not the null pointer. *)
Definition dir_legal (w : diow) (p : dop) : Prop :=
  match p with
  | DOpen o dp _ _ => dw_objs w !! o = None /\ dp <> 0 /\ dw_st w !! dp = None
  | DRead o _ | DSync o _ | DClose o _ | DDestroy o _ => exists dp, dw_objs w !! o = Some dp
  | DElse _ _ => True
  end.
Fixpoint dir_legals (w : diow) (ps : list dop) : Prop :=
  match ps with
  | [] => True
  | p :: ps => dir_legal w p /\ match dir_call w p with Done (_, w') => dir_legals w' ps | _ => True end
  end.

(** ** Specification: there are no pointers.  An object is open on a directory and has entries to
    come, or it is closed. *)
Record dirs_spec := mkP { p_objs : gmap Z (option (Z * list dent)); p_synced : list Z }.
Definition type_bits (t : Z) : Z := if bool_decide (t ∈ [1; 2; 4; 6; 8; 10; 12]) then t * 4096 else 0.
Definition spec_call (s : dirs_spec) (p : dop) : drep * dirs_spec :=
  match p with
  | DOpen o _ dir l => (DNone, mkP (<[o := Some (dir, l)]> (p_objs s)) (p_synced s))
  | DRead o k =>
    match k, p_objs s !! o with
    | None, Some (Some (dir, e :: l)) => (DEnt (type_bits (e_type e)) (e_ino e) (e_name e) false, mkP (<[o := Some (dir, l)]> (p_objs s)) (p_synced s))
    | Some e, _ => (DErr e, s)
    | _, _ => (DErr 0, s)                               (* the end *)
    end
  | DSync o k =>
    match k, p_objs s !! o with
    | None, Some (Some (dir, _)) => (DOk, mkP (p_objs s) (p_synced s ++ [dir]))
    | Some e, _ => (DErr e, s)
    | _, _ => (DErr 0, s)
    end
  | DClose o ok => (if ok then DOk else DErr EIO, mkP (<[o := None]> (p_objs s)) (p_synced s))
  | DDestroy o _ => (DNone, mkP (delete o (p_objs s)) (p_synced s))
  | DElse dir f => (DNone, mkP ((option_map (changed_by dir f) <$> p_objs s) : gmap Z (option (Z * list dent))) (p_synced s))
  end.
Fixpoint spec_calls (s : dirs_spec) (ps : list dop) : list drep * dirs_spec :=
  match ps with
  | [] => ([], s)
  | p :: ps => let r := spec_call s p in let q := spec_calls (snd r) ps in (fst r :: fst q, snd q)
  end.
(** no call of a method on an object after its closedir() *)
Definition uses_closed (s : dirs_spec) (p : dop) : Prop :=
  match p with DRead o _ | DSync o _ | DClose o _ => p_objs s !! o = Some None | _ => False end.
Fixpoint never_closed (s : dirs_spec) (ps : list dop) : Prop :=
  match ps with [] => True | p :: ps => ~ uses_closed s p /\ never_closed (snd (spec_call s p)) ps end.
