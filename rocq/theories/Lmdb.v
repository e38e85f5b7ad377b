(** The metadata cache on the level of bytes: src/cache/cache.cpp with the six LMDB databases
    (cache.cpp:232-243) as maps from byte strings to byte strings, iterated in memcmp order.
    Every key is put together and every record serialised and parsed as in the code.
    CacheModel.v has the same operations on decoded tables; LmdbRel.v and LmdbOps.v prove that
    the two agree.

    LMDB returns the addresses of its records; Inode::parse asserts that they are multiples of 8
    (inode.cpp:67).  Taken as given: [parse_inode 0]; see C56_layout for why. *)
From Verif Require Export CacheModel.

Notation table := (gmap (list Z) (list Z)).
Record bdb := BDb { b_meta : table; b_inodes : table; b_treei : table; b_treen : table; b_orphans : table; b_links : table }.
Definition bset_meta v b := BDb v (b_inodes b) (b_treei b) (b_treen b) (b_orphans b) (b_links b).
Definition bset_inodes v b := BDb (b_meta b) v (b_treei b) (b_treen b) (b_orphans b) (b_links b).
Definition bset_treei v b := BDb (b_meta b) (b_inodes b) v (b_treen b) (b_orphans b) (b_links b).
Definition bset_treen v b := BDb (b_meta b) (b_inodes b) (b_treei b) v (b_orphans b) (b_links b).
Definition bset_orphans v b := BDb (b_meta b) (b_inodes b) (b_treei b) (b_treen b) v (b_links b).
Definition bset_links v b := BDb (b_meta b) (b_inodes b) (b_treei b) (b_treen b) (b_orphans b) v.
Definition bdb_empty : bdb := BDb ∅ ∅ ∅ ∅ ∅ ∅.
(** what a cursor visits from the first key >= [k] on (lower_bound, then next) *)
Definition cursor (m : table) (k : bytes) : list (bytes * bytes) := from_key (fun k => k) m k.
Definition all_of (m : table) : list (bytes * bytes) := entries (fun k => k) m.
(** "next_ino", cache.cpp:67 *)
Definition NEXT_INO : bytes := [110; 101; 120; 116; 95; 105; 110; 111].
(** MDBOutVal::get<ino_t>() (lmdb-safe): throws unless the size is that of ino_t *)
Definition get_ino (v : bytes) : outcome Z := if (length v =? 8)%nat then Done (unle v) else Throw.

Section pads.
(** the tail padding the compiler leaves in a serialised inode: unspecified *)
Context (pad : inode -> Z).
Definition ser (i : inode) : bytes := ser_inode 0 0 (pad i) i.

(** ** Read operations, cache.cpp:434-739 *)
(** 478-496 *)
Definition b_parent (b : bdb) (ino : Z) : outcome (res Z) :=
  if ino =? ROOT_INO then Done (Ok ino)
  else match b_inodes b !! le64 ino with
       | None => Done (Err ENOENT)
       | Some v => dlet r := parse_inode 0 v in Done (match r with Err e => Err e | Ok i => Ok (i_parent i) end)
       end.
(** 434-460 *)
Definition b_name_in (b : bdb) (p ino : Z) : outcome (res bytes) :=
  if (ino =? ROOT_INO) || (p =? INVALID_INO) then Done (Ok [])
  else match b_treei b !! (le64 p ++ le64 ino) with
       | None => Done (Err ENOENT)
       | Some v => Done (match parse_dirent v with Err e => Err e | Ok e => Ok (de_name e) end)
       end.
(** 462-476 *)
Definition b_name_of (b : bdb) (ino : Z) : outcome (res bytes) :=
  if ino =? ROOT_INO then Done (Ok [])
  else dlet r := b_parent b ino in
       match r with
       | Err e => Done (Err e)
       | Ok p => if p =? INVALID_INO then Done (Ok []) else b_name_in b p ino
       end.
(** 498-546 *)
Fixpoint b_lookup_scan (p : Z) (n : bytes) (l : list (bytes * bytes)) : outcome (res Z) :=
  match l with
  | [] => Done (Err ENOENT)
  | (k, v) :: l =>
    if (length k <? 8)%nat then Crash                          (* assert *)
    else match parse_dirent v with
    | Err _ => Crash                                           (* assert *)
    | Ok e =>
      if negb (length k - 8 =? length n)%nat then b_lookup_scan p n l
      else if negb (unle (take 8 k) =? p) then Done (Err ENOENT)
      else if decide (drop 8 k = n) then Done (Ok (de_ino e))
      else b_lookup_scan p n l
    end
  end.
Definition b_lookup (b : bdb) (p : Z) (n : bytes) : outcome (res Z) :=
  match check_name n false with
  | Err e => Done (Err e)
  | Ok _ => if p =? INVALID_INO then Done (Err EINVAL) else b_lookup_scan p n (cursor (b_treen b) (le64 p))
  end.
(** 548-564 *)
Definition b_getattr (b : bdb) (ino : Z) : outcome (res attrs) :=
  match b_inodes b !! le64 ino with
  | None => Done (Err ENOENT)
  | Some v => dlet r := parse_inode 0 v in Done (match r with Err e => Err e | Ok i => Ok (i_attr i) end)
  end.
(** 566-580 *)
Definition b_readlink (b : bdb) (ino : Z) : outcome (res bytes) :=
  match b_links b !! le64 ino with
  | Some v => Done (Ok v)
  | None => match b_inodes b !! le64 ino with None => Done (Err ENOENT) | Some _ => Done (Err EINVAL) end
  end.
(** 722-739 *)
Definition b_test_flag (b : bdb) (ino f : Z) : outcome (res bool) :=
  match b_inodes b !! le64 ino with
  | None => Done (Err ENOENT)
  | Some v => dlet r := parse_inode 0 v in Done (match r with Err e => Err e | Ok i => Ok (flag_test (i_flags i) f) end)
  end.
(** 582-658 *)
Definition b_readdir_entry (c : Z) (v : bytes) : outcome (res (Z * bytes)) :=
  Done (match parse_dirent v with Err _ => Err EIO | Ok e => Ok (c, de_name e) end).
Definition b_readdir (b : bdb) (dir prev : Z) : outcome (res (Z * bytes)) :=
  if prev =? 0 then Done (Ok (dir, DOT))
  else dlet r := b_parent b dir in
  match r with
  | Err _ => Done (Err EIO)
  | Ok par =>
    if negb (prev =? par) && (prev =? dir) then Done (Ok (par, DOTDOT))
    else
      let start := if prev =? par then 0 else prev in
      match cursor (b_treei b) (le64 dir ++ le64 start) with
      | [] => Done (Err 0)
      | (k, v) :: l =>
        if negb (length k =? 16)%nat then Crash                (* assert *)
        else if negb (unle (take 8 k) =? dir) then Done (Err 0)
        else if unle (drop 8 k) =? prev then
          match l with
          | [] => Done (Err 0)
          | (k, v) :: _ =>
            if negb (length k =? 16)%nat then Crash            (* assert *)
            else if negb (unle (take 8 k) =? dir) then Done (Err 0)
            else b_readdir_entry (unle (drop 8 k)) v
          end
        else b_readdir_entry (unle (drop 8 k)) v
      end
  end.
(** 660-689 *)
Fixpoint b_path_loop (fuel : nat) (b : bdb) (ino : Z) (buf : bytes) : outcome (res bytes) :=
  match fuel with
  | O => Diverge
  | S fuel =>
    dlet r := b_parent b ino in
    match r with
    | Err e => Done (Err e)
    | Ok p =>
      dlet r := b_name_in b p ino in
      match r with
      | Err e => Done (Err e)
      | Ok n =>
        let buf := (buf ++ rev n) ++ [47] in
        if p =? ROOT_INO then Done (Ok (rev buf)) else b_path_loop fuel b p buf
      end
    end
  end.
Definition b_path (b : bdb) (ino : Z) : outcome (res bytes) :=
  if ino =? ROOT_INO then Done (Ok []) else b_path_loop (S (size (b_inodes b))) b ino [].

(** ** Write operations, cache.cpp:815-1192 *)
(** 829-890.  The key is made by memcpy from the Result<ino_t> object (its value). *)
Definition b_make_orphan (b : bdb) (ino : Z) : outcome (res unit * bdb) :=
  dlet r := b_parent b ino in
  match r with
  | Err e => Done (Err e, b)
  | Ok p =>
    if p =? INVALID_INO then Done (Ok tt, b)
    else match b_treei b !! (le64 p ++ le64 ino) with
    | None => Done (Err EIO, b)
    | Some v =>
      match parse_dirent v with
      | Err _ => Crash                                         (* assert *)
      | Ok e =>
        let b := bset_treei (delete (le64 p ++ le64 ino) (b_treei b)) b in
        let b := bset_treen (delete (le64 p ++ de_name e) (b_treen b)) b in
        let b := bset_orphans (<[le64 ino := [0]]> (b_orphans b)) b in
        match b_inodes b !! le64 ino with
        | None => Done (Ok tt, b)
        | Some v =>
          dlet r := parse_inode 0 v in
          Done (Ok tt, match r with
                       | Err _ => b
                       | Ok i => bset_inodes (<[le64 ino := ser (set_parent 0 i)]> (b_inodes b)) b
                       end)
        end
      end
    end
  end.
(** 815-827 *)
Definition b_allocate (b : bdb) : outcome (Z * bdb) :=
  match b_meta b !! NEXT_INO with
  | None => Throw
  | Some v => dlet n := get_ino v in Done (n, bset_meta (<[NEXT_INO := le64 (w64 (n + 1))]> (b_meta b)) b)
  end.
(** 1058-1072 *)
Fixpoint b_orphan_children (fuel : nat) (b : bdb) (o : Z) : outcome bdb :=
  match fuel with
  | O => Diverge
  | S fuel =>
    match cursor (b_treei b) (le64 o) with
    | [] => Done b
    | (k, v) :: _ =>
      if negb (unle (take 8 k) =? o) then Done b
      else match parse_dirent v with
      | Err _ => Crash                                         (* assert *)
      | Ok e => dlet (_, b) := b_make_orphan b (de_ino e) in b_orphan_children fuel b o
      end
    end
  end.
(** 1043-1085 *)
Definition b_reap (b : bdb) (o : Z) : outcome bdb :=
  dlet b := match b_inodes b !! le64 o with
            | None => Done b
            | Some v =>
              dlet r := parse_inode 0 v in
              dlet b := match r with
                        | Err _ => Done b
                        | Ok i =>
                          let t := ftype (a_mode (i_attr i)) in
                          if t =? S_IFLNK then Done (bset_links (delete (le64 o) (b_links b)) b)
                          else if t =? S_IFDIR then b_orphan_children (S (size (b_treei b))) b o
                          else Done b
                        end in
              Done (bset_inodes (delete (le64 o) (b_inodes b)) b)
            end in
  Done (bset_orphans (delete (le64 o) (b_orphans b)) b).
(** 1030-1040: the next orphan that can be doomed, and the references after dooming it *)
Fixpoint b_victim (r : refs) (l : list (bytes * bytes)) : outcome (option (Z * refs)) :=
  match l with
  | [] => Done None
  | (k, _) :: l =>
    dlet ino := get_ino k in
    match doom r ino with
    | (Err _, _) => b_victim r l
    | (Ok _, r') => Done (Some (ino, r'))
    end
  end.
(** 1024-1090 *)
Fixpoint b_clean_loop (fuel : nat) (b : bdb) (r : refs) : outcome (bdb * refs) :=
  match fuel with
  | O => Diverge
  | S fuel =>
    dlet v := b_victim r (all_of (b_orphans b)) in
    match v with
    | None => Done (b, r)
    | Some (o, r) => dlet b := b_reap b o in b_clean_loop fuel b r
    end
  end.
Definition b_clean_orphans (b : bdb) (r : refs) : outcome (bdb * refs) :=
  b_clean_loop (S (size (b_inodes b) + size (b_orphans b))) b r.

(** a transaction, as [tx] of CacheModel.v *)
Record btx := BTx { bt_db : bdb; bt_refs : refs; bt_hooks : list hook; bt_rw : option (gset Z) }.
Definition bwith_db (b : bdb) (t : btx) : btx := BTx b (bt_refs t) (bt_hooks t) (bt_rw t).
Definition b_tx_clean (t : btx) : outcome btx :=
  dlet dr := b_clean_orphans (bt_db t) (bt_refs t) in Done (BTx dr.1 dr.2 (bt_hooks t) (bt_rw t)).
(** 892-985 *)
Definition b_emplace (t : btx) (p : Z) (n : bytes) (a : attrs) : outcome (res Z * btx) :=
  match check_name n true with
  | Err e => Done (Err e, t)
  | Ok _ =>
    let b := bt_db t in
    let i := mkinode a p in
    let fresh (b : bdb) :=
      dlet (ino, b) := b_allocate b in
      let b := bset_inodes (<[le64 ino := ser i]> (b_inodes b)) b in
      let v := ser_dirent 0 (Dirent 0 0 ino n) in
      let b := bset_treen (<[le64 p ++ n := v]> (b_treen b)) b in
      let b := bset_treei (<[le64 p ++ le64 ino := v]> (b_treei b)) b in
      dlet t := b_tx_clean (bwith_db b t) in
      Done (Ok ino, t) in
    match b_treen b !! (le64 p ++ n) with
    | None => fresh b
    | Some v =>
      match parse_dirent v with
      | Err _ => Crash                                         (* assert *)
      | Ok e =>
        let old := de_ino e in
        match b_inodes b !! le64 old with
        | None => Crash                                        (* assert *)
        | Some v =>
          dlet r := parse_inode 0 v in
          match r with
          | Err _ => Crash                                     (* assert *)
          | Ok oi =>
            if ftype (a_mode (i_attr oi)) =? ftype (a_mode a) then
              let b := bset_inodes (<[le64 old := ser i]> (b_inodes b)) b in
              let rw := match bt_rw t with None => None | Some s => Some (s ∖ {[old]}) end in
              Done (Ok old, BTx b (bt_refs t) (bt_hooks t) rw)
            else dlet (_, b) := b_make_orphan b old in fresh b
          end
        end
      end
    end
  end.
(** 987-994 *)
Definition b_unlink_ino (t : btx) (ino : Z) : outcome (res unit * btx) :=
  dlet (r, b) := b_make_orphan (bt_db t) ino in
  match r with
  | Err e => Done (Err e, bwith_db b t)
  | Ok _ => dlet t := b_tx_clean (bwith_db b t) in Done (Ok tt, t)
  end.
(** 1001-1022 *)
Definition b_unlink_name (t : btx) (p : Z) (n : bytes) : outcome (res unit * btx) :=
  match b_treen (bt_db t) !! (le64 p ++ n) with
  | None => Done (Err ENOENT, t)
  | Some v =>
    match parse_dirent v with
    | Err _ => Crash                                           (* assert *)
    | Ok e => b_unlink_ino t (de_ino e)
    end
  end.
(** 1092-1115 *)
Definition b_writelink (t : btx) (ino : Z) (dest : bytes) : outcome (res unit * btx) :=
  let b := bt_db t in
  match b_inodes b !! le64 ino with
  | None => Done (Err ENOENT, t)
  | Some v =>
    dlet r := parse_inode 0 v in
    match r with
    | Err _ => Done (Err EIO, t)
    | Ok i =>
      if negb (ftype (a_mode (i_attr i)) =? S_IFLNK) then Done (Err EINVAL, t)
      else
        let i' := Inode (i_flags i) (i_parent i) (set_size (Z.of_nat (length dest)) (i_attr i)) in
        let b := bset_inodes (<[le64 ino := ser i']> (b_inodes b)) b in
        let b := bset_links (<[le64 ino := dest]> (b_links b)) b in
        Done (Ok tt, bwith_db b t)
    end
  end.
(** 1117-1144 *)
Definition b_update_flags (t : btx) (ino : Z) (to_set to_clear : list Z) : outcome (res unit * btx) :=
  let b := bt_db t in
  match b_inodes b !! le64 ino with
  | None => Done (Err ENOENT, t)
  | Some v =>
    dlet r := parse_inode 0 v in
    match r with
    | Err e => Done (Err e, t)
    | Ok i =>
      let fl := fold_left flag_set to_set (i_flags i) in
      let fl := fold_left flag_clear to_clear fl in
      Done (Ok tt, bwith_db (bset_inodes (<[le64 ino := ser (Inode fl (i_parent i) (i_attr i))]> (b_inodes b)) b) t)
    end
  end.
(** 1146-1178; get_struct (lmdb-safe) throws unless the size is that of the struct *)
Fixpoint b_rewrite_scan (dir : Z) (l : list (bytes * bytes)) : outcome (gset Z) :=
  match l with
  | [] => Done ∅
  | (k, _) :: l =>
    if negb (length k =? 16)%nat then Throw
    else if unle (take 8 k) =? dir then dlet s := b_rewrite_scan dir l in Done ({[unle (drop 8 k)]} ∪ s)
    else Done ∅
  end.
Definition b_start_dir_rewrite (t : btx) (dir : Z) : outcome (res unit * btx) :=
  match bt_rw t with
  | Some _ => Done (Err EALREADY, t)
  | None =>
    match cursor (b_treei (bt_db t)) (le64 dir) with
    | [] => Done (Ok tt, t)
    | l => dlet s := b_rewrite_scan dir l in Done (Ok tt, BTx (bt_db t) (bt_refs t) (bt_hooks t) (Some s))
    end
  end.
(** 1180-1192 *)
Fixpoint b_orphan_all (b : bdb) (l : list Z) : outcome bdb :=
  match l with
  | [] => Done b
  | ino :: l => dlet (_, b) := b_make_orphan b ino in b_orphan_all b l
  end.
Definition b_finish_dir_rewrite (t : btx) : outcome (res unit * btx) :=
  match bt_rw t with
  | None => Done (Err EBADFD, t)
  | Some s =>
    dlet b := b_orphan_all (bt_db t) (merge_sort Z.le (elements s)) in
    Done (Ok tt, BTx b (bt_refs t) (bt_hooks t) None)
  end.
(** 691-704 *)
Definition b_lock (t : btx) (ino : Z) : outcome (res unit * btx) :=
  match incref (bt_refs t) ino 1 with
  | (Err e, r) => Done (Err e, BTx (bt_db t) r (bt_hooks t) (bt_rw t))
  | (Ok _, r) => Done (Ok tt, BTx (bt_db t) r (bt_hooks t ++ [RbDecref ino]) (bt_rw t))
  end.
(** 706-720 *)
Definition b_release (t : btx) (ino n : Z) : outcome (res unit * btx) :=
  if n =? 0 then Done (Ok tt, t)
  else dlet (x, r) := decref (bt_refs t) ino n in
       match x with
       | Err _ => Crash
       | Ok _ => Done (Ok tt, BTx (bt_db t) r (bt_hooks t ++ [RbIncref ino n]) (bt_rw t))
       end.
(** an operation and its result; 0 stands for no value *)
Definition no_value {A} (x : outcome (res unit * A)) : outcome (res Z * A) :=
  dlet (r, t) := x in Done (match r with Ok _ => Ok 0 | Err e => Err e end, t).
Definition bstep (t : btx) (o : op) : outcome (res Z * btx) :=
  match o with
  | OEmplace p n a => b_emplace t p n a
  | OUnlinkIno i => no_value (b_unlink_ino t i)
  | OUnlinkChild _ c => no_value (b_unlink_ino t c)
  | OUnlinkName p n => no_value (b_unlink_name t p n)
  | OClean => dlet t := b_tx_clean t in Done (Ok 0, t)
  | OWritelink i d => no_value (b_writelink t i d)
  | OFlags i s c => no_value (b_update_flags t i s c)
  | OStartRewrite i => no_value (b_start_dir_rewrite t i)
  | OFinishRewrite => no_value (b_finish_dir_rewrite t)
  | OLock i => no_value (b_lock t i)
  | ORelease i n => no_value (b_release t i n)
  end.
(** ** Opening, cache.cpp:298-333 *)
Definition b_init (root : attrs) (b : bdb) : bdb :=
  match b_meta b !! NEXT_INO with
  | Some _ => b
  | None => bset_inodes (<[le64 ROOT_INO := ser (mkinode (set_mode S_IFDIR root) INVALID_INO)]> (b_inodes b))
              (bset_meta (<[NEXT_INO := le64 (ROOT_INO + 1)]> (b_meta b)) b)
  end.
Definition b_open (root : attrs) (b : bdb) : outcome (bdb * refs) :=
  dlet t := b_tx_clean (BTx (b_init root b) ∅ [] None) in
  dlet t := b_tx_clean t in
  Done (bt_db t, bt_refs t).
(** ** Histories, as in CacheWorld.v *)
Record bworld := BWorld { bw_comm : bdb; bw_tx : btx }.
Definition bbegin (br : bdb * refs) : bworld := BWorld br.1 (BTx br.1 br.2 [] None).
Inductive bev := BOp (o : op) | BCommit | BAbort | BCrash (root : attrs).
(** an event and the result the caller sees *)
Definition bwstep (w : bworld) (e : bev) : outcome (res Z * bworld) :=
  match e with
  | BOp o => dlet (x, t) := bstep (bw_tx w) o in Done (x, BWorld (bw_comm w) t)
  | BCommit => Done (Ok 0, bbegin (bt_db (bw_tx w), bt_refs (bw_tx w)))
  | BAbort => dlet r := run_rollbacks (bt_refs (bw_tx w)) (rev (bt_hooks (bw_tx w))) in Done (Ok 0, bbegin (bw_comm w, r))
  | BCrash root => dlet br := b_open root (bw_comm w) in Done (Ok 0, bbegin br)
  end.
Fixpoint bwrun (w : bworld) (l : list bev) : outcome (list (res Z) * bworld) :=
  match l with
  | [] => Done ([], w)
  | e :: l => dlet (x, w) := bwstep w e in dlet (xs, w) := bwrun w l in Done (x :: xs, w)
  end.
Definition bwopen (root : attrs) : outcome bworld := dlet br := b_open root bdb_empty in Done (bbegin br).
End pads.
