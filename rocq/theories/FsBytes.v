(** The file system on the bytes of its database: the handlers of src/fs.cpp on top of Lmdb.v, where
    every key is put together and every record serialised and parsed as in the code.  Fs.v has the
    same handlers on decoded tables; FsBytesSim.v and PropsBytes.v compare the two. *)
From Verif Require Export Lmdb Fs.

(** committed tables, reference table, snapshots of running readdirplus requests *)
Record bfstate := BFst { bs_db : bdb; bs_refs : refs; bs_plus : gmap Z (bdb * Z) }.
Definition bhandled : Type := outcome (bfstate * list reply).
Definition bbegin_tx (b : bdb) (r : refs) : btx := BTx b r [] None.
Definition bcommitted (s : bfstate) (t : btx) (l : list reply) : bhandled := Done (BFst (bt_db t) (bt_refs t) (bs_plus s), l).
Definition bdropped (s : bfstate) (t : btx) (l : list reply) : bhandled := Done (BFst (bs_db s) (bt_refs t) (bs_plus s), l).

Section pads.
Context (pad : inode -> Z).
(** lookup, fs.cpp:38-131 *)
Definition bh_lookup (s : bfstate) (b : backend) (p : Z) (n : bytes) : bhandled :=
  let t := bbegin_tx (bs_db s) (bs_refs s) in
  dlet pr := b_path (bt_db t) p in
  match pr with
  | Err e => bdropped s t [RErr e]
  | Ok pp =>
    let finish (t : btx) (ino : Z) (a : attrs) :=
      dlet (x, t) := b_lock t ino in
      match x with
      | Err e => bdropped s t [RErr e]
      | Ok _ => bcommitted s t [REntry ino a]
      end in
    match b_lstat b 0 (pp ++ [47] ++ n) with
    | Ok st =>
      let a := from_backend_stat st in
      dlet (x, t) := b_emplace pad t p n a in
      match x with
      | Err e => bdropped s t [RErr e]
      | Ok ino => finish t ino a
      end
    | Err e =>
      if e =? ENOTCONN then
        dlet l := b_lookup (bt_db t) p n in
        match l with
        | Err e =>
          if e =? ENOENT then
            dlet f := b_test_flag (bt_db t) p SYNCED in
            match f with
            | Ok true => bdropped s t [RErr e]
            | _ => bdropped s t [RErr EIO]
            end
          else bdropped s t [RErr e]
        | Ok ino =>
          dlet g := b_getattr (bt_db t) ino in
          match g with
          | Err _ => bdropped s t [RErr EIO]
          | Ok a => finish t ino a
          end
        end
      else
        dlet (_, t) := b_unlink_name pad t p n in
        bcommitted s t [RErr e]
    end
  end.
(** forget, fs.cpp:133-143 *)
Definition bh_forget (s : bfstate) (ino n : Z) : bhandled :=
  dlet (x, t) := b_release (bbegin_tx (bs_db s) (bs_refs s)) ino n in
  match x with
  | Err e => bdropped s t [RErr e]
  | Ok _ => bcommitted s t [RNone]
  end.
(** forget_multi, fs.cpp:374-382 *)
Fixpoint b_releases (t : btx) (l : list (Z * Z)) : outcome btx :=
  match l with
  | [] => Done t
  | (ino, n) :: l => dlet (_, t) := b_release t ino n in b_releases t l
  end.
Definition bh_forget_multi (s : bfstate) (l : list (Z * Z)) : bhandled :=
  dlet t := b_releases (bbegin_tx (bs_db s) (bs_refs s)) l in bcommitted s t [RNone].
(** getattr, fs.cpp:145-156 *)
Definition bh_getattr (s : bfstate) (ino : Z) : bhandled :=
  dlet g := b_getattr (bs_db s) ino in
  match g with
  | Err e => Done (s, [RErr e])
  | Ok a => Done (s, [RAttr ino a])
  end.
(** readlink, fs.cpp:158-194 *)
Definition bh_readlink (s : bfstate) (b : backend) (ino : Z) : bhandled :=
  let t := bbegin_tx (bs_db s) (bs_refs s) in
  dlet pr := b_path (bt_db t) ino in
  match pr with
  | Err e => bdropped s t [RErr e]
  | Ok pp =>
    match Fs.b_readlink b (backend_path pp) with
    | Ok link =>
      dlet (_, t) := b_writelink pad t ino link in
      bcommitted s t [RReadlink (cstr link)]
    | Err e =>
      if e =? ENOTCONN then
        dlet l := Lmdb.b_readlink (bt_db t) ino in
        match l with
        | Err e => bdropped s t [RErr e]
        | Ok link => bdropped s t [RReadlink (cstr link)]
        end
      else
        dlet (_, t) := b_unlink_ino pad t ino in
        bcommitted s t [RErr e]
    end
  end.
(** opendir, fs.cpp:196-249 *)
Fixpoint b_sync_entries (t : btx) (b : backend) (ino : Z) (bp : bytes) (i : nat) (names : list bytes) : outcome btx :=
  match names with
  | [] => Done t
  | n :: names =>
    match b_lstat b i (join_path bp n) with
    | Err _ => b_sync_entries t b ino bp (S i) names
    | Ok st => dlet (_, t) := b_emplace pad t ino n (from_backend_stat st) in b_sync_entries t b ino bp (S i) names
    end
  end.
Definition bh_opendir (s : bfstate) (b : backend) (ino : Z) : bhandled :=
  let t := bbegin_tx (bs_db s) (bs_refs s) in
  dlet pr := b_path (bt_db t) ino in
  match pr with
  | Err e => bdropped s t [RErr e]
  | Ok pp =>
    let bp := backend_path pp in
    match b_opendir b bp with
    | Err e => if e =? ENOTCONN then bcommitted s t [ROpen] else bdropped s t [RErr e]
    | Ok (names, _) =>
      dlet (_, t) := b_start_dir_rewrite t ino in
      dlet t := b_sync_entries t b ino bp 0 names in
      dlet (_, t) := b_update_flags pad t ino [SYNCED] [] in
      dlet (_, t) := b_finish_dir_rewrite pad t in
      bcommitted s t [ROpen]
    end
  end.
(** readdir, fs.cpp:251-301 *)
Fixpoint b_readdir_loop (fuel : nat) (d : bdb) (ino size cursor : Z) (buf : bytes) (to_send : nat) : outcome (Z * bool * bytes * nat) :=
  match fuel with
  | O => Diverge
  | S fuel =>
    if Z.of_nat (length buf) <? size then
      let to_send := length buf in
      dlet r := b_readdir d ino cursor in
      match r with
      | Err e => Done (e, e =? 0, buf, to_send)
      | Ok (x, n) =>
        dlet g := b_getattr d x in
        match g with
        | Err e => Done (e, false, buf, to_send)
        | Ok a => dlet buf := dirbuf_add buf n x a x in b_readdir_loop fuel d ino size x buf to_send
        end
      end
    else Done (0, false, buf, to_send)
  end.
Definition b_dir_fuel (d : bdb) : nat := size (b_treei d) + 5.
Definition bh_readdir (s : bfstate) (ino size off : Z) : bhandled :=
  let d := bs_db s in
  dlet (error, at_eof, buf, to_send) := b_readdir_loop (b_dir_fuel d) d ino size (w64 off) [] 0 in
  let l := if error =? 0 then [] else [RErr error] in
  if at_eof && (length buf =? 0)%nat then
    dlet f := b_test_flag d ino SYNCED in
    Done (s, l ++ [match f with Ok true => RBuf (take to_send buf) | _ => RErr EIO end])
  else Done (s, l ++ [RBuf (take to_send buf)]).
(** readdirplus, fs.cpp:308-372 *)
Fixpoint b_plus_loop (fuel : nat) (t : btx) (ino size cursor : Z) (buf : bytes) (to_send : nat) : outcome (option (Z * bytes * nat) * btx) :=
  match fuel with
  | O => Diverge
  | S fuel =>
    if Z.of_nat (length buf) <? size then
      let to_send := length buf in
      dlet r := b_readdir (bt_db t) ino cursor in
      match r with
      | Err e => Done (Some (e, buf, to_send), t)
      | Ok (x, n) =>
        dlet g := b_getattr (bt_db t) x in
        match g with
        | Err e => Done (Some (e, buf, to_send), t)
        | Ok a =>
          dlet buf := plusbuf_add buf n x a x in
          if decide (n = DOT) then b_plus_loop fuel t ino size x buf to_send
          else if decide (n = DOTDOT) then b_plus_loop fuel t ino size x buf to_send
          else
            dlet (l, t) := b_lock t x in
            match l with
            | Ok _ => b_plus_loop fuel t ino size x buf to_send
            | Err e =>
              if e =? ESTALE then b_plus_loop fuel t ino size x (plusbuf_rewind buf to_send) to_send
              else Done (None, t)
            end
        end
      end
    else Done (Some (0, buf, to_send), t)
  end.
Definition bh_plus (s : bfstate) (id size off : Z) : bhandled :=
  match bs_plus s !! id with
  | None => Crash
  | Some (snap, ino) =>
    dlet (x, t) := b_plus_loop (b_dir_fuel snap) (bbegin_tx snap (bs_refs s)) ino size (w64 off) [] 0 in
    let s' := BFst (bs_db s) (bt_refs t) (delete id (bs_plus s)) in
    match x with
    | None => Done (s', [RErr EIO])
    | Some (error, buf, to_send) =>
      if error =? 0 then Done (s', [RBuf (take to_send buf)]) else Done (s', [RErr error])
    end
  end.
(** the step, as [fstep] *)
Definition bfstep (s : bfstate) (q : request) : outcome (bfstate * option (list reply)) :=
  let ended (h : bhandled) := dlet (s, l) := h in Done (s, Some l) in
  match q with
  | QLookup b p n => ended (bh_lookup s b p n)
  | QForget x n => ended (bh_forget s x n)
  | QForgetMulti l => ended (bh_forget_multi s l)
  | QGetattr x => ended (bh_getattr s x)
  | QReadlink b x => ended (bh_readlink s b x)
  | QOpendir b x => ended (bh_opendir s b x)
  | QReaddir x sz off => ended (bh_readdir s x sz off)
  | QReleasedir _ => Done (s, Some [RNone])
  | QPlusBegin id x => Done (BFst (bs_db s) (bs_refs s) (<[id := (bs_db s, x)]> (bs_plus s)), None)
  | QPlusRun id sz off => ended (bh_plus s id sz off)
  | QOther _ => Done (s, Some [RErr ENOSYS])
  | QRestart root => dlet (d, r) := b_open pad root (bs_db s) in Done (BFst d r ∅, None)
  end.
(** a list of requests one after the other *)
Fixpoint bfrun (s : bfstate) (l : list request) : outcome (list (option (list reply)) * bfstate) :=
  match l with
  | [] => Done ([], s)
  | q :: l => dlet (s, o) := bfstep s q in dlet (os, s) := bfrun s l in Done (o :: os, s)
  end.
(** the first mount, on an empty database *)
Definition bfopen (root : attrs) : outcome bfstate := dlet (b, r) := b_open pad root bdb_empty in Done (BFst b r ∅).
End pads.
(** the same on decoded tables *)
Fixpoint frun (s : fstate) (l : list request) : outcome (list (option (list reply)) * fstate) :=
  match l with
  | [] => Done ([], s)
  | q :: l => dlet (s, o) := fstep s q in dlet (os, s) := frun s l in Done (o :: os, s)
  end.
Definition fopen (root : attrs) : outcome fstate := dlet (d, r) := open_cache root db_empty in Done (Fst d r ∅).
