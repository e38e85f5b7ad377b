(** The file system: src/fs.cpp on top of the cache and of an arbitrary backend.

    Each request is one step.  This is how the handlers behave under the multi-threaded loop
    of main.cpp:116 because (Txn*.v): a handler with a read-write transaction excludes all
    other writers, takes the mutex of the reference table at its first use of it and keeps it
    until its transaction ends, and publishes its changes at once; getattr and readdir only
    read one snapshot; forget only uses the reference table.  readdirplus does both: it reads
    a snapshot taken at its start and locks inodes later, so it is split into two steps,
    [QPlusBegin] and [QPlusRun], with arbitrary requests in between. *)
From Verif Require Export Fuse.

(** ** Backends, include/dragonstash/backend/base.hpp.  A request may see any answers; they may
    differ from call to call ([b_lstat]'s first argument numbers the calls of one request).
    A listing is the names returned by readdir() in turn and the error that ends it, 0 for the
    end of the directory.  Backend::Stat has no block count: [a_nblocks] is not used. *)
Record backend := Backend {
  b_lstat : nat -> bytes -> res attrs;
  b_readlink : bytes -> res bytes;
  b_opendir : bytes -> res (list bytes * Z) }.
(** InodeAttributes::from_backend_stat, inode.hpp:65-79 *)
Definition from_backend_stat (a : attrs) : attrs :=
  Attrs (a_size a) 0 (a_uid a) (a_gid a) (a_atime a) (a_mtime a) (a_ctime a) (a_mode a).

(** ** State: committed database, reference table, and the snapshots of running readdirplus
    requests with the directory they read *)
Record fstate := Fst { s_db : db; s_refs : refs; s_plus : gmap Z (db * Z) }.
Definition set_dbr (d : db) (r : refs) (s : fstate) : fstate := Fst d r (s_plus s).

Inductive request :=
| QLookup (b : backend) (parent : Z) (name : bytes)
| QForget (ino n : Z)
| QForgetMulti (l : list (Z * Z))
| QGetattr (ino : Z)
| QReadlink (b : backend) (ino : Z)
| QOpendir (b : backend) (ino : Z)
| QReaddir (ino size off : Z)
| QReleasedir (ino : Z)
| QPlusBegin (id ino : Z)
| QPlusRun (id size off : Z)
| QOther (tag : Z)             (* any request Filesystem does not override *)
| QRestart (root : attrs).     (* the process ends at any point; later the cache is opened again *)

(** Result of a handler: the new state and the reply functions it calls, in order. *)
Definition handled : Type := outcome (fstate * list reply).
(** a transaction that ends by commit, and one whose object is destroyed without commit:
    the database is as before, the reference table keeps its changes *)
Definition committed (s : fstate) (t : tx) (l : list reply) : handled :=
  let '(d, r) := commit_tx t in Done (set_dbr d r s, l).
Definition dropped (s : fstate) (t : tx) (l : list reply) : handled := Done (set_dbr (s_db s) (t_refs t) s, l).

(** lookup, fs.cpp:38-131 *)
Definition h_lookup (s : fstate) (b : backend) (p : Z) (n : bytes) : handled :=
  let t := begin_tx (s_db s) (s_refs s) in
  dlet pr := path (t_db t) p in
  match pr with
  | Err e => dropped s t [RErr e]
  | Ok pp =>
    let finish (t : tx) (ino : Z) (a : attrs) :=
      dlet (x, t) := lock t ino in
      match x with
      | Err e => dropped s t [RErr e]
      | Ok _ => committed s t [REntry ino a]
      end in
    match b_lstat b 0 (pp ++ [47] ++ n) with
    | Ok st =>
      let a := from_backend_stat st in
      dlet (x, t) := emplace t p n a in
      match x with
      | Err e => dropped s t [RErr e]
      | Ok ino => finish t ino a
      end
    | Err e =>
      if e =? ENOTCONN then
        match lookup (t_db t) p n with
        | Err e =>
          if e =? ENOENT then
            match test_flag (t_db t) p SYNCED with
            | Ok true => dropped s t [RErr e]
            | _ => dropped s t [RErr EIO]
            end
          else dropped s t [RErr e]
        | Ok ino =>
          match getattr (t_db t) ino with
          | Err _ => dropped s t [RErr EIO]
          | Ok a => finish t ino a
          end
        end
      else
        dlet (_, t) := unlink_name t p n in
        committed s t [RErr e]
    end
  end.

(** forget, fs.cpp:133-143 *)
Definition h_forget (s : fstate) (ino n : Z) : handled :=
  dlet (x, t) := release (begin_tx (s_db s) (s_refs s)) ino n in
  match x with
  | Err e => dropped s t [RErr e]
  | Ok _ => committed s t [RNone]
  end.
(** forget_multi, fs.cpp:374-382 *)
Fixpoint releases (t : tx) (l : list (Z * Z)) : outcome tx :=
  match l with
  | [] => Done t
  | (ino, n) :: l => dlet (_, t) := release t ino n in releases t l
  end.
Definition h_forget_multi (s : fstate) (l : list (Z * Z)) : handled :=
  dlet t := releases (begin_tx (s_db s) (s_refs s)) l in committed s t [RNone].

(** getattr, fs.cpp:145-156 *)
Definition h_getattr (s : fstate) (ino : Z) : handled :=
  match getattr (s_db s) ino with
  | Err e => Done (s, [RErr e])
  | Ok a => Done (s, [RAttr ino a])
  end.

(** readlink, fs.cpp:158-194 *)
Definition SLASH : bytes := [47].
Definition backend_path (p : bytes) : bytes := match p with [] => SLASH | _ => p end.
Definition h_readlink (s : fstate) (b : backend) (ino : Z) : handled :=
  let t := begin_tx (s_db s) (s_refs s) in
  dlet pr := path (t_db t) ino in
  match pr with
  | Err e => dropped s t [RErr e]
  | Ok pp =>
    match b_readlink b (backend_path pp) with
    | Ok link =>
      dlet (_, t) := writelink t ino link in
      committed s t [RReadlink (cstr link)]
    | Err e =>
      if e =? ENOTCONN then
        match readlink (t_db t) ino with
        | Err e => dropped s t [RErr e]
        | Ok link => dropped s t [RReadlink (cstr link)]
        end
      else
        dlet (_, t) := unlink_ino t ino in
        committed s t [RErr e]
    end
  end.

(** opendir, fs.cpp:196-249 *)
Definition join_path (bp name : bytes) : bytes :=
  bp ++ (if (1 <? length bp)%nat then [47] else []) ++ name.
(** the loop, fs.cpp:221-236; [i]: number of lstat calls so far *)
Fixpoint sync_entries (t : tx) (b : backend) (ino : Z) (bp : bytes) (i : nat) (names : list bytes) : outcome tx :=
  match names with
  | [] => Done t
  | n :: names =>
    match b_lstat b i (join_path bp n) with
    | Err _ => sync_entries t b ino bp (S i) names
    | Ok st => dlet (_, t) := emplace t ino n (from_backend_stat st) in sync_entries t b ino bp (S i) names
    end
  end.
Definition h_opendir (s : fstate) (b : backend) (ino : Z) : handled :=
  let t := begin_tx (s_db s) (s_refs s) in
  dlet pr := path (t_db t) ino in
  match pr with
  | Err e => dropped s t [RErr e]
  | Ok pp =>
    let bp := backend_path pp in
    match b_opendir b bp with
    | Err e => if e =? ENOTCONN then committed s t [ROpen] else dropped s t [RErr e]
    | Ok (names, _) =>
      dlet (_, t) := start_dir_rewrite t ino in
      dlet t := sync_entries t b ino bp 0 names in
      dlet (_, t) := update_flags t ino [SYNCED] [] in
      dlet (_, t) := finish_dir_rewrite t in
      committed s t [ROpen]
    end
  end.

(** readdir, fs.cpp:251-301.  The loop, 259-284: every round returns a later entry, so this
    fuel is not used up.  Result: error, at_eof, buffer, to_send. *)
Fixpoint readdir_loop (fuel : nat) (d : db) (ino size cursor : Z) (buf : bytes) (to_send : nat) : outcome (Z * bool * bytes * nat) :=
  match fuel with
  | O => Diverge
  | S fuel =>
    if Z.of_nat (length buf) <? size then
      let to_send := length buf in
      match readdir d ino cursor with
      | Err e => Done (e, e =? 0, buf, to_send)
      | Ok (x, n) =>
        match getattr d x with
        | Err e => Done (e, false, buf, to_send)
        | Ok a => dlet buf := dirbuf_add buf n x a x in readdir_loop fuel d ino size x buf to_send
        end
      end
    else Done (0, false, buf, to_send)
  end.
Definition dir_fuel (d : db) : nat := size (d_treei d) + 5.
Definition h_readdir (s : fstate) (ino size off : Z) : handled :=
  let d := s_db s in
  dlet (error, at_eof, buf, to_send) := readdir_loop (dir_fuel d) d ino size (w64 off) [] 0 in
  let l := if error =? 0 then [] else [RErr error] in
  let incomplete := at_eof && (length buf =? 0)%nat &&
                    match test_flag d ino SYNCED with Ok true => false | _ => true end in
  Done (s, l ++ [if incomplete then RErr EIO else RBuf (take to_send buf)]).

(** readdirplus, fs.cpp:308-372.  The loop, 315-353.  Result: None for the reply of EIO at 349
    when locking fails; else error, buffer, to_send. *)
Fixpoint plus_loop (fuel : nat) (t : tx) (ino size cursor : Z) (buf : bytes) (to_send : nat) : outcome (option (Z * bytes * nat) * tx) :=
  match fuel with
  | O => Diverge
  | S fuel =>
    if Z.of_nat (length buf) <? size then
      let to_send := length buf in
      match readdir (t_db t) ino cursor with
      | Err e => Done (Some (e, buf, to_send), t)
      | Ok (x, n) =>
        match getattr (t_db t) x with
        | Err e => Done (Some (e, buf, to_send), t)
        | Ok a =>
          dlet buf := plusbuf_add buf n x a x in
          if decide (n = DOT) then plus_loop fuel t ino size x buf to_send
          else if decide (n = DOTDOT) then plus_loop fuel t ino size x buf to_send
          else
            dlet (l, t) := lock t x in
            match l with
            | Ok _ => plus_loop fuel t ino size x buf to_send
            | Err e =>
              if e =? ESTALE then plus_loop fuel t ino size x (plusbuf_rewind buf to_send) to_send
              else Done (None, t)
            end
        end
      end
    else Done (Some (0, buf, to_send), t)
  end.
(** a read-only transaction: the snapshot is dropped, only the references stay *)
Definition h_plus (s : fstate) (id size off : Z) : handled :=
  match s_plus s !! id with
  | None => Crash
  | Some (snap, ino) =>
    dlet (x, t) := plus_loop (dir_fuel snap) (begin_tx snap (s_refs s)) ino size (w64 off) [] 0 in
    let s' := Fst (s_db s) (t_refs t) (delete id (s_plus s)) in
    match x with
    | None => Done (s', [RErr EIO])
    | Some (error, buf, to_send) =>
      if error =? 0 then Done (s', [RBuf (take to_send buf)]) else Done (s', [RErr error])
    end
  end.

(** The step.  [None]: the request is still running and owes its reply. *)
Definition fstep (s : fstate) (q : request) : outcome (fstate * option (list reply)) :=
  let ended (h : handled) := dlet (s, l) := h in Done (s, Some l) in
  match q with
  | QLookup b p n => ended (h_lookup s b p n)
  | QForget x n => ended (h_forget s x n)
  | QForgetMulti l => ended (h_forget_multi s l)
  | QGetattr x => ended (h_getattr s x)
  | QReadlink b x => ended (h_readlink s b x)
  | QOpendir b x => ended (h_opendir s b x)
  | QReaddir x sz off => ended (h_readdir s x sz off)
  | QReleasedir _ => Done (s, Some [RNone])              (* fs.cpp:303-306 *)
  | QPlusBegin id x => Done (Fst (s_db s) (s_refs s) (<[id := (s_db s, x)]> (s_plus s)), None)
  | QPlusRun id sz off => ended (h_plus s id sz off)
  | QOther _ => Done (s, Some [RErr ENOSYS])             (* interface.hpp: the default handlers *)
  | QRestart root => dlet (d, r) := open_cache root (s_db s) in Done (Fst d r ∅, None)
  end.

(** ** What is sent: the calls of reply functions on the Request object that the dispatch
    macro makes (interface.hpp:37-41), which is destroyed at the end (Fuse.v).  The flag says
    that a call threw: the exception leaves the handler and ends the process. *)
Fixpoint send_all (w : rworld) (l : list reply) : rworld * bool :=
  match l with
  | [] => (w, false)
  | r :: l =>
    match rstep w (match r with RNone => RReplyNone 0 | _ => RReply 0 r end) with
    | Done w => send_all w l
    | _ => (w, true)
    end
  end.
Definition answer (l : list reply) : list reply * bool :=
  let w := RW {[0 := RObj (Some 0) ECANCELED]} [] [] in
  let '(w, thrown) := send_all w l in
  match rstep w (RDestroy 0) with
  | Done w => (map snd (w_sent w), thrown)
  | _ => (map snd (w_sent w), true)
  end.
