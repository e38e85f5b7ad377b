(** What the handlers of the file system do at the backend, call by call.  In Fs.v a request sees a
    table of answers; here the backend is any machine with a state of its own that answers one
    call after the other (and may change its mind in between).  The table-driven handlers of Fs.v
    are shown to be the same program (PropsBacking.v). *)
From Verif Require Export PropsFs.

(** ** The interface, include/dragonstash/backend/base.hpp:63-98, all of it.  Directories and files
    are objects; ~Dir closes the directory (local.cpp: LocalDir::~LocalDir). *)
Inductive bcall :=
| KLstat (p : bytes) | KReadlink (p : bytes) | KOpendir (p : bytes) | KReaddir (d : Z) | KDestroyDir (d : Z)
| KFsyncdir (d : Z) | KClosedir (d : Z) | KOpen (p : bytes) (accesstype mode : Z)
| KFstat (f : Z) | KPread (f count off : Z) | KPwrite (f : Z) (data : bytes) (off : Z) | KFsync (f : Z) | KClose (f : Z) | KDestroyFile (f : Z).
Inductive bans :=
| AStat (a : attrs) | ALink (l : bytes) | ADir (d : Z) | AEntry (n : bytes) | AFile (f : Z) | AData (d : bytes) | ACount (n : Z) | AVoid | AFail (e : Z).
(** the answers the types of the interface allow; error code 0 of readdir is the end of the directory *)
Definition typed (c : bcall) (a : bans) : Prop :=
  match c, a with
  | KDestroyDir _, AVoid | KDestroyFile _, AVoid => True
  | KDestroyDir _, _ | KDestroyFile _, _ => False
  | _, AFail _ => True
  | KLstat _, AStat _ | KFstat _, AStat _ | KReadlink _, ALink _ | KOpendir _, ADir _ | KReaddir _, AEntry _ | KOpen _ _ _, AFile _ => True
  | KPread _ _ _, AData _ | KPwrite _ _ _, ACount _ | KFsyncdir _, AVoid | KClosedir _, AVoid | KFsync _, AVoid | KClose _, AVoid => True
  | _, _ => False
  end.

(** ** Requests without the answers of a backend *)
Inductive oreq := OLookup (p : Z) (n : bytes) | OReadlink (x : Z) | OOpendir (x : Z) | OPlain (q : request).
Definition with_backend (q : oreq) (b : backend) : request :=
  match q with OLookup p n => QLookup b p n | OReadlink x => QReadlink b x | OOpendir x => QOpendir b x | OPlain q => q end.
Definition plain (q : oreq) : Prop := match q with OPlain q => backend_of q = None | _ => True end.

(** ** A handler between two calls of the backend *)
Definition result : Type := outcome (fstate * option (list reply)).
Definition replied (h : handled) : result := dlet (s, l) := h in Done (s, Some l).
Inductive hstate :=
| HDone (r : result)
| HLookup (s : fstate) (t : tx) (p : Z) (n pp : bytes)          (* at fs.cpp:59 *)
| HReadlink (s : fstate) (t : tx) (x : Z) (pp : bytes)          (* at 174 *)
| HOpendir (s : fstate) (t : tx) (x : Z) (pp : bytes)           (* at 212 *)
| HReaddir (s : fstate) (t : tx) (x : Z) (bp : bytes) (d : Z)   (* at 222 *)
| HStat (s : fstate) (t : tx) (x : Z) (bp : bytes) (d : Z) (n : bytes)   (* at 230 *)
| HLeave (d : Z) (r : result).                                  (* the end of opendir: [dir] is destroyed *)
Definition wants (h : hstate) : option bcall :=
  match h with
  | HDone _ => None
  | HLookup _ _ _ n pp => Some (KLstat (pp ++ [47] ++ n))
  | HReadlink _ _ _ pp => Some (KReadlink (backend_path pp))
  | HOpendir _ _ _ pp => Some (KOpendir (backend_path pp))
  | HReaddir _ _ _ _ d => Some (KReaddir d)
  | HStat _ _ _ bp _ n => Some (KLstat (join_path bp n))
  | HLeave d _ => Some (KDestroyDir d)
  end.
(** fs.cpp:38-58, 158-173, 196-211 up to the first call; the other handlers make none *)
Definition start (s : fstate) (q : oreq) : hstate :=
  let t := begin_tx (s_db s) (s_refs s) in
  let at_path (x : Z) (k : bytes -> hstate) :=
    match path (t_db t) x with
    | Done (Ok pp) => k pp
    | Done (Err e) => HDone (replied (dropped s t [RErr e]))
    | Throw => HDone Throw | Crash => HDone Crash | Diverge => HDone Diverge
    end in
  match q with
  | OLookup p n => at_path p (HLookup s t p n)
  | OReadlink x => at_path x (HReadlink s t x)
  | OOpendir x => at_path x (HOpendir s t x)
  | OPlain q => HDone (fstep s q)
  end.
(** lookup after the call of lstat, fs.cpp:60-131 *)
Definition lookup_rest (s : fstate) (t : tx) (p : Z) (n : bytes) (r : res attrs) : handled :=
  let finish (t : tx) (ino : Z) (a : attrs) :=
    dlet (x, t) := lock t ino in
    match x with Err e => dropped s t [RErr e] | Ok _ => committed s t [REntry ino a] end in
  match r with
  | Ok st =>
    let a := from_backend_stat st in
    dlet (x, t) := emplace t p n a in
    match x with Err e => dropped s t [RErr e] | Ok ino => finish t ino a end
  | Err e =>
    if e =? ENOTCONN then
      match lookup (t_db t) p n with
      | Err e =>
        if e =? ENOENT then match test_flag (t_db t) p SYNCED with Ok true => dropped s t [RErr e] | _ => dropped s t [RErr EIO] end
        else dropped s t [RErr e]
      | Ok ino => match getattr (t_db t) ino with Err _ => dropped s t [RErr EIO] | Ok a => finish t ino a end
      end
    else dlet (_, t) := unlink_name t p n in committed s t [RErr e]
  end.
(** readlink after the call, fs.cpp:175-194 *)
Definition readlink_rest (s : fstate) (t : tx) (x : Z) (r : res bytes) : handled :=
  match r with
  | Ok link => dlet (_, t) := writelink t x link in committed s t [RReadlink (cstr link)]
  | Err e =>
    if e =? ENOTCONN then match readlink (t_db t) x with Err e => dropped s t [RErr e] | Ok link => dropped s t [RReadlink (cstr link)] end
    else dlet (_, t) := unlink_ino t x in committed s t [RErr e]
  end.
(** opendir after the loop, fs.cpp:237-248 *)
Definition opendir_rest (s : fstate) (t : tx) (x : Z) : handled :=
  dlet (_, t) := update_flags t x [SYNCED] [] in
  dlet (_, t) := finish_dir_rewrite t in
  committed s t [ROpen].
(** the handler goes on with what a cache operation gives; an exception destroys [dir] on its way,
    a failed assertion ends the process *)
Definition goes_on {A} (d : Z) (m : outcome A) (k : A -> hstate) : hstate :=
  match m with Done a => k a | Throw => HLeave d Throw | Crash => HDone Crash | Diverge => HDone Diverge end.
Definition leaves (d : Z) (r : result) : hstate := match r with Done _ | Throw => HLeave d r | _ => HDone r end.
(** the call has returned; answers of another type do not exist *)
Definition resume (h : hstate) (a : bans) : hstate :=
  match h, a with
  | HLookup s t p n pp, AStat st => HDone (replied (lookup_rest s t p n (Ok st)))
  | HLookup s t p n pp, AFail e => HDone (replied (lookup_rest s t p n (Err e)))
  | HReadlink s t x pp, ALink l => HDone (replied (readlink_rest s t x (Ok l)))
  | HReadlink s t x pp, AFail e => HDone (replied (readlink_rest s t x (Err e)))
  | HOpendir s t x pp, AFail e => HDone (replied (if e =? ENOTCONN then committed s t [ROpen] else dropped s t [RErr e]))   (* 213-216, 240-248 *)
  | HOpendir s t x pp, ADir d => goes_on d (start_dir_rewrite t x) (fun r => HReaddir s (snd r) x (backend_path pp) d)       (* 221 *)
  | HReaddir s t x bp d, AEntry n => HStat s t x bp d n                                                                     (* 223-229 *)
  | HReaddir s t x bp d, AFail _ => leaves d (replied (opendir_rest s t x))
  | HStat s t x bp d n, AFail _ => HReaddir s t x bp d                                                                      (* 231-233 *)
  | HStat s t x bp d n, AStat st => goes_on d (emplace t x n (from_backend_stat st)) (fun r => HReaddir s (snd r) x bp d)   (* 234-235 *)
  | HLeave d r, AVoid => HDone r
  | h, _ => h
  end.

(** ** A backend with a state: [B y c a y'] - called with [c] in state [y], it may answer [a] and be in
    state [y'] then. *)
Definition machine (Y : Type) : Type := Y -> bcall -> bans -> Y -> Prop.
Definition trace : Type := list (bcall * bans).
Inductive runs {Y} (B : machine Y) : Y -> hstate -> trace -> Y -> result -> Prop :=
| runs_end y r : runs B y (HDone r) [] y r
| runs_call y h c a y1 tr y' r : wants h = Some c -> B y c a y1 -> runs B y1 (resume h a) tr y' r -> runs B y h ((c, a) :: tr) y' r.
(** the handler of [q] on the machine, from the request to the end *)
Definition serves {Y} (B : machine Y) (y : Y) (s : fstate) (q : oreq) (tr : trace) (y' : Y) (r : result) : Prop := runs B y (start s q) tr y' r.
Definition well_typed {Y} (B : machine Y) : Prop := forall y c a y', B y c a y' -> typed c a.

(** ** Reading a trace *)
Definition stats_of (tr : trace) : list (bytes * res attrs) :=
  omap (fun ca => match ca with (KLstat p, AStat a) => Some (p, Ok a) | (KLstat p, AFail e) => Some (p, Err e) | _ => None end) tr.
Definition names_of (tr : trace) : list bytes := omap (fun ca => match ca with (KReaddir _, AEntry n) => Some n | _ => None end) tr.
Definition ends_of (tr : trace) : list Z := omap (fun ca => match ca with (KReaddir _, AFail e) => Some e | _ => None end) tr.
Definition links_of (tr : trace) : list (bytes * res bytes) :=
  omap (fun ca => match ca with (KReadlink p, ALink l) => Some (p, Ok l) | (KReadlink p, AFail e) => Some (p, Err e) | _ => None end) tr.
Definition dirs_of (tr : trace) : list (bytes * res Z) :=
  omap (fun ca => match ca with (KOpendir p, ADir d) => Some (p, Ok d) | (KOpendir p, AFail e) => Some (p, Err e) | _ => None end) tr.
(** the table of answers of a trace *)
Definition table_of (tr : trace) : backend :=
  Backend (fun i _ => match stats_of tr !! i with Some (_, r) => r | None => Err EIO end)
          (fun _ => match links_of tr with (_, r) :: _ => r | [] => Err EIO end)
          (fun _ => match dirs_of tr with (_, Ok _) :: _ => Ok (names_of tr, default 0 (head (ends_of tr))) | (_, Err e) :: _ => Err e | [] => Err EIO end).

(** ** From libfuse to the handlers: the callbacks of Session, include/dragonstash/fuse/interface.hpp:44-291.
    A name is the memory from the pointer on; std::string_view(const char * ) ends at the first NUL.
    [id] tells running readdirplus requests apart.  The operations that class Filesystem does not
    declare (fs.hpp:51-60) go to class Interface (interface.cpp): their arguments are not used. *)
Inductive unserved :=
| USetattr | UMknod | UMkdir | UUnlink | URmdir | USymlink | URename | ULink | UOpen | URead | UWrite | UFlush | URelease | UFsync | UFsyncdir | UStatfs
| USetxattr | UGetxattr | UListxattr | URemovexattr | UAccess | UCreate | UGetlk | USetlk | UBmap | UIoctl | UPoll | UWriteBuf | URetrieveReply | UFlock | UFallocate | UCopyFileRange.
Inductive callback :=
| CLookup (parent : Z) (name : bytes) | CForget (ino nlookup : Z) | CForgetMulti (count : nat) (forgets : list (Z * Z)) | CGetattr (ino : Z)
| CReadlink (ino : Z) | COpendir (ino : Z) | CReaddir (ino size off : Z) | CReleasedir (ino : Z) | CReaddirplus (id ino size off : Z) | CUnserved (u : unserved).
(** interface.hpp:132-287; readdirplus is two steps in Fs.v *)
Definition dispatch (c : callback) : list oreq :=
  match c with
  | CLookup p mem => [OLookup p (cstr mem)]
  | CForget x n => [OPlain (QForget x n)]
  | CForgetMulti count mem => [OPlain (QForgetMulti (take count mem))]
  | CGetattr x => [OPlain (QGetattr x)]
  | CReadlink x => [OReadlink x]
  | COpendir x => [OOpendir x]
  | CReaddir x size off => [OPlain (QReaddir x size off)]
  | CReleasedir x => [OPlain (QReleasedir x)]
  | CReaddirplus id x size off => [OPlain (QPlusBegin id x); OPlain (QPlusRun id size off)]
  | CUnserved u => [OPlain (QOther 0)]
  end.
