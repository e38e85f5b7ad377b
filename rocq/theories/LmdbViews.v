(** The write operations of src/cache/cache.cpp once more, with the difference between bytes the
    program owns and views into database memory (MDBOutVal, std::string_view and in-place structs).
    LMDB hands out addresses into its pages; they hold "until a subsequent update operation"
    (lmdb.h, mdb_get and mdb_cursor_get).  After that they may show anything: [junk].

    Lmdb.v has the same operations on values; C75 (PropsViews.v) compares the two. *)
From Verif Require Export Lmdb.

(** the tables, and how many updates there were so far *)
Record mem := Mem { m_db : bdb; m_writes : nat }.
(** an address range in database memory: when it was handed out, and what was there then *)
Record view := View { v_taken : nat; v_bytes : bytes }.
Definition table_of := bdb -> table.
(** MDBCursor::find / get: views of the key and of the record *)
Definition m_find (f : table_of) (m : mem) (k : bytes) : option (view * view) :=
  match f (m_db m) !! k with None => None | Some v => Some (View (m_writes m) k, View (m_writes m) v) end.
(** lower_bound, nextprev: views of the records from [l] on *)
Definition m_views (m : mem) (l : list (bytes * bytes)) : list (view * view) :=
  map (fun kv => (View (m_writes m) kv.1, View (m_writes m) kv.2)) l.
(** one update of the database *)
Definition written (f : bdb -> bdb) (m : mem) : mem := Mem (f (m_db m)) (S (m_writes m)).

Section views.
Context (pad : inode -> Z) (junk : nat -> view -> bytes).
(** reading through a view *)
Definition look (m : mem) (v : view) : bytes := if (v_taken v =? m_writes m)%nat then v_bytes v else junk (m_writes m) v.
(** a string_view into a view *)
Definition part (v : view) (d : bytes) : view := View (v_taken v) d.
(** MDBRWCursor::put on the inode table, with a key that lies in database memory.  mdb_cursor_put
    overwrites a record of the same length in place; one of another length it takes out of the page
    first, which moves the rest of the page, and reads the key after that. *)
Definition m_cursor_put (m : mem) (key : view) (buf : bytes) : mem :=
  let k := look m key in
  let same := match b_inodes (m_db m) !! k with Some old => (length old =? length buf)%nat | None => true end in
  if same then written (fun b => bset_inodes (<[k := buf]> (b_inodes b)) b) m
  else
    let m := written (fun b => bset_inodes (delete k (b_inodes b)) b) m in
    written (fun b => bset_inodes (<[look m key := buf]> (b_inodes b)) b) m.

(** 829-890.  The name is a view into the record (859-863): it is copied into the key before
    the record is deleted (864).  The old inode is copied (880) before the put. *)
Definition m_make_orphan (m : mem) (ino : Z) : outcome (res unit * mem) :=
  dlet r := b_parent (m_db m) ino in
  match r with
  | Err e => Done (Err e, m)
  | Ok p =>
    if p =? INVALID_INO then Done (Ok tt, m)
    else
      let key := le64 p ++ le64 ino in
      match m_find b_treei m key with
      | None => Done (Err EIO, m)
      | Some (_, value_out) =>
        match parse_dirent (look m value_out) with
        | Err _ => Crash                                       (* assert *)
        | Ok e =>
          let name := part value_out (de_name e) in
          let key' := le64 p ++ look m name in
          let m := written (fun b => bset_treei (delete key (b_treei b)) b) m in
          let m := written (fun b => bset_treen (delete key' (b_treen b)) b) m in
          let m := written (fun b => bset_orphans (<[le64 ino := [0]]> (b_orphans b)) b) m in
          match m_find b_inodes m (le64 ino) with
          | None => Done (Ok tt, m)
          | Some (key_out, value_out) =>
            dlet r := parse_inode 0 (look m value_out) in
            Done (Ok tt, match r with
                         | Err _ => m
                         | Ok i => m_cursor_put m key_out (ser pad (set_parent 0 i))
                         end)
          end
        end
      end
  end.
(** 815-827, in a nested transaction *)
Definition m_allocate (m : mem) : outcome (Z * mem) :=
  match m_find b_meta m NEXT_INO with
  | None => Throw
  | Some (_, value) =>
    dlet n := get_ino (look m value) in
    Done (n, written (fun b => bset_meta (<[NEXT_INO := le64 (w64 (n + 1))]> (b_meta b)) b) m)
  end.
(** 1058-1072 *)
Fixpoint m_orphan_children (fuel : nat) (m : mem) (o : Z) : outcome mem :=
  match fuel with
  | O => Diverge
  | S fuel =>
    match m_views m (cursor (b_treei (m_db m)) (le64 o)) with
    | [] => Done m
    | (key_out, value_out) :: _ =>
      if negb (unle (take 8 (look m key_out)) =? o) then Done m
      else match parse_dirent (look m value_out) with
      | Err _ => Crash                                         (* assert *)
      | Ok e => dlet (_, m) := m_make_orphan m (de_ino e) in m_orphan_children fuel m o
      end
    end
  end.
(** 1043-1085.  The inode is not copied (1051): its mode is read in place, before any update.  The
    two cursors stay where they are while others write (LMDB corrects the cursors of a transaction). *)
Definition m_reap (m : mem) (o : Z) : outcome mem :=
  dlet m := match m_find b_inodes m (le64 o) with
            | None => Done m
            | Some (_, value_out) =>
              dlet r := parse_inode 0 (look m value_out) in
              dlet m := match r with
                        | Err _ => Done m
                        | Ok i =>
                          let t := ftype (a_mode (i_attr i)) in
                          if t =? S_IFLNK then Done (written (fun b => bset_links (delete (le64 o) (b_links b)) b) m)
                          else if t =? S_IFDIR then m_orphan_children (S (size (b_treei (m_db m)))) m o
                          else Done m
                        end in
              Done (written (fun b => bset_inodes (delete (le64 o) (b_inodes b)) b) m)
            end in
  Done (written (fun b => bset_orphans (delete (le64 o) (b_orphans b)) b) m).
(** 1030-1040; key_out.get copies the number (1033) *)
Fixpoint m_victim (m : mem) (r : refs) (l : list (view * view)) : outcome (option (Z * refs)) :=
  match l with
  | [] => Done None
  | (key_out, _) :: l =>
    dlet ino := get_ino (look m key_out) in
    match doom r ino with
    | (Err _, _) => m_victim m r l
    | (Ok _, r') => Done (Some (ino, r'))
    end
  end.
(** 1024-1090 *)
Fixpoint m_clean_loop (fuel : nat) (m : mem) (r : refs) : outcome (mem * refs) :=
  match fuel with
  | O => Diverge
  | S fuel =>
    dlet v := m_victim m r (m_views m (all_of (b_orphans (m_db m)))) in
    match v with
    | None => Done (m, r)
    | Some (o, r) => dlet m := m_reap m o in m_clean_loop fuel m r
    end
  end.

(** a transaction *)
Record mtx := MTx { mt_tx : btx; mt_writes : nat }.
Definition mem_of (t : mtx) : mem := Mem (bt_db (mt_tx t)) (mt_writes t).
Definition with_mem (m : mem) (t : mtx) : mtx := MTx (bwith_db (m_db m) (mt_tx t)) (m_writes m).
Definition m_tx_clean (t : mtx) : outcome mtx :=
  let b := bt_db (mt_tx t) in
  dlet (m, r) := m_clean_loop (S (size (b_inodes b) + size (b_orphans b))) (mem_of t) (bt_refs (mt_tx t)) in
  Done (MTx (BTx (m_db m) r (bt_hooks (mt_tx t)) (bt_rw (mt_tx t))) (m_writes m)).
(** 892-985.  The number of the old entry is copied (919); the old inode is not (924): its mode is
    read in place, and then its record is overwritten under the key that find returned (929). *)
Definition m_emplace (t : mtx) (p : Z) (n : bytes) (a : attrs) : outcome (res Z * mtx) :=
  match check_name n true with
  | Err e => Done (Err e, t)
  | Ok _ =>
    let m := mem_of t in
    let i := mkinode a p in
    let fresh (m : mem) :=
      dlet (ino, m) := m_allocate m in
      let m := written (fun b => bset_inodes (<[le64 ino := ser pad i]> (b_inodes b)) b) m in
      let v := ser_dirent 0 (Dirent 0 0 ino n) in
      let m := written (fun b => bset_treen (<[le64 p ++ n := v]> (b_treen b)) b) m in
      let m := written (fun b => bset_treei (<[le64 p ++ le64 ino := v]> (b_treei b)) b) m in
      dlet t := m_tx_clean (with_mem m t) in
      Done (Ok ino, t) in
    match m_find b_treen m (le64 p ++ n) with
    | None => fresh m
    | Some (_, value_out) =>
      match parse_dirent (look m value_out) with
      | Err _ => Crash                                         (* assert *)
      | Ok e =>
        let old := de_ino e in
        match m_find b_inodes m (le64 old) with
        | None => Crash                                        (* assert *)
        | Some (key_out, value_out) =>
          dlet r := parse_inode 0 (look m value_out) in
          match r with
          | Err _ => Crash                                     (* assert *)
          | Ok oi =>
            if ftype (a_mode (i_attr oi)) =? ftype (a_mode a) then
              let m := m_cursor_put m key_out (ser pad i) in
              let rw := match bt_rw (mt_tx t) with None => None | Some s => Some (s ∖ {[old]}) end in
              Done (Ok old, MTx (BTx (m_db m) (bt_refs (mt_tx t)) (bt_hooks (mt_tx t)) rw) (m_writes m))
            else dlet (_, m) := m_make_orphan m old in fresh m
          end
        end
      end
    end
  end.
(** 987-994 *)
Definition m_unlink_ino (t : mtx) (ino : Z) : outcome (res unit * mtx) :=
  dlet (r, m) := m_make_orphan (mem_of t) ino in
  match r with
  | Err e => Done (Err e, with_mem m t)
  | Ok _ => dlet t := m_tx_clean (with_mem m t) in Done (Ok tt, t)
  end.
(** 1001-1022: the number is read in place and passed by value (1017) *)
Definition m_unlink_name (t : mtx) (p : Z) (n : bytes) : outcome (res unit * mtx) :=
  let m := mem_of t in
  match m_find b_treen m (le64 p ++ n) with
  | None => Done (Err ENOENT, t)
  | Some (_, value_out) =>
    match parse_dirent (look m value_out) with
    | Err _ => Crash                                           (* assert *)
    | Ok e => m_unlink_ino t (de_ino e)
    end
  end.
(** 1092-1115 *)
Definition m_writelink (t : mtx) (ino : Z) (dest : bytes) : outcome (res unit * mtx) :=
  let m := mem_of t in
  match m_find b_inodes m (le64 ino) with
  | None => Done (Err ENOENT, t)
  | Some (key_out, value_out) =>
    dlet r := parse_inode 0 (look m value_out) in
    match r with
    | Err _ => Done (Err EIO, t)
    | Ok i =>
      if negb (ftype (a_mode (i_attr i)) =? S_IFLNK) then Done (Err EINVAL, t)
      else
        let i' := Inode (i_flags i) (i_parent i) (set_size (Z.of_nat (length dest)) (i_attr i)) in
        let m := m_cursor_put m key_out (ser pad i') in
        let m := written (fun b => bset_links (<[le64 ino := dest]> (b_links b)) b) m in
        Done (Ok tt, with_mem m t)
    end
  end.
(** 1117-1144 *)
Definition m_update_flags (t : mtx) (ino : Z) (to_set to_clear : list Z) : outcome (res unit * mtx) :=
  let m := mem_of t in
  match m_find b_inodes m (le64 ino) with
  | None => Done (Err ENOENT, t)
  | Some (key_out, value_out) =>
    dlet r := parse_inode 0 (look m value_out) in
    match r with
    | Err e => Done (Err e, t)
    | Ok i =>
      let fl := fold_left flag_set to_set (i_flags i) in
      let fl := fold_left flag_clear to_clear fl in
      Done (Ok tt, with_mem (m_cursor_put m key_out (ser pad (Inode fl (i_parent i) (i_attr i)))) t)
    end
  end.
(** 1146-1178: key_out is read again after every next(), and nothing is written *)
Fixpoint m_rewrite_scan (m : mem) (dir : Z) (l : list (view * view)) : outcome (gset Z) :=
  match l with
  | [] => Done ∅
  | (key_out, _) :: l =>
    let k := look m key_out in
    if negb (length k =? 16)%nat then Throw
    else if unle (take 8 k) =? dir then dlet s := m_rewrite_scan m dir l in Done ({[unle (drop 8 k)]} ∪ s)
    else Done ∅
  end.
Definition m_start_dir_rewrite (t : mtx) (dir : Z) : outcome (res unit * mtx) :=
  match bt_rw (mt_tx t) with
  | Some _ => Done (Err EALREADY, t)
  | None =>
    let m := mem_of t in
    match m_views m (cursor (b_treei (m_db m)) (le64 dir)) with
    | [] => Done (Ok tt, t)
    | l => dlet s := m_rewrite_scan m dir l in
           Done (Ok tt, MTx (BTx (bt_db (mt_tx t)) (bt_refs (mt_tx t)) (bt_hooks (mt_tx t)) (Some s)) (mt_writes t))
    end
  end.
(** 1180-1192: the numbers are in a std::set *)
Fixpoint m_orphan_all (m : mem) (l : list Z) : outcome mem :=
  match l with
  | [] => Done m
  | ino :: l => dlet (_, m) := m_make_orphan m ino in m_orphan_all m l
  end.
Definition m_finish_dir_rewrite (t : mtx) : outcome (res unit * mtx) :=
  match bt_rw (mt_tx t) with
  | None => Done (Err EBADFD, t)
  | Some s =>
    dlet m := m_orphan_all (mem_of t) (merge_sort Z.le (elements s)) in
    Done (Ok tt, MTx (BTx (m_db m) (bt_refs (mt_tx t)) (bt_hooks (mt_tx t)) None) (m_writes m))
  end.
(** lock and release (691-720) do not touch the database *)
Definition m_lift (n : nat) (x : outcome (res unit * btx)) : outcome (res unit * mtx) := dlet (r, t) := x in Done (r, MTx t n).
Definition mstep (t : mtx) (o : op) : outcome (res Z * mtx) :=
  match o with
  | OEmplace p n a => m_emplace t p n a
  | OUnlinkIno i => no_value (m_unlink_ino t i)
  | OUnlinkChild _ c => no_value (m_unlink_ino t c)
  | OUnlinkName p n => no_value (m_unlink_name t p n)
  | OClean => dlet t := m_tx_clean t in Done (Ok 0, t)
  | OWritelink i d => no_value (m_writelink t i d)
  | OFlags i s c => no_value (m_update_flags t i s c)
  | OStartRewrite i => no_value (m_start_dir_rewrite t i)
  | OFinishRewrite => no_value (m_finish_dir_rewrite t)
  | OLock i => no_value (m_lift (mt_writes t) (b_lock (mt_tx t) i))
  | ORelease i n => no_value (m_lift (mt_writes t) (b_release (mt_tx t) i n))
  end.
(** ** Opening and histories, as in Lmdb.v.  298-333: the first inode is written from the
    program's own memory. *)
Definition m_open (root : attrs) (b : bdb) : outcome mtx :=
  dlet t := m_tx_clean (MTx (BTx (b_init pad root b) ∅ [] None) 0) in m_tx_clean t.
Record mworld := MWorld { mw_comm : bdb; mw_tx : mtx }.
Definition mbegin (b : bdb) (r : refs) : mworld := MWorld b (MTx (BTx b r [] None) 0).
Definition mwstep (w : mworld) (e : bev) : outcome (res Z * mworld) :=
  match e with
  | BOp o => dlet (x, t) := mstep (mw_tx w) o in Done (x, MWorld (mw_comm w) t)
  | BCommit => Done (Ok 0, mbegin (bt_db (mt_tx (mw_tx w))) (bt_refs (mt_tx (mw_tx w))))
  | BAbort => dlet r := run_rollbacks (bt_refs (mt_tx (mw_tx w))) (rev (bt_hooks (mt_tx (mw_tx w)))) in Done (Ok 0, mbegin (mw_comm w) r)
  | BCrash root => dlet t := m_open root (mw_comm w) in Done (Ok 0, mbegin (bt_db (mt_tx t)) (bt_refs (mt_tx t)))
  end.
Fixpoint mwrun (w : mworld) (l : list bev) : outcome (list (res Z) * mworld) :=
  match l with
  | [] => Done ([], w)
  | e :: l => dlet (x, w) := mwstep w e in dlet (xs, w) := mwrun w l in Done (x :: xs, w)
  end.
Definition mwopen (root : attrs) : outcome mworld := dlet t := m_open root bdb_empty in Done (mbegin (bt_db (mt_tx t)) (bt_refs (mt_tx t))).
End views.
