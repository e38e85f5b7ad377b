(** Executable model of the metadata cache: src/cache/cache.cpp and
    include/dragonstash/cache/cache.hpp.

    The six LMDB tables (cache.cpp:232-243) are finite maps that are iterated in
    memcmp order of their encoded keys (Keys.v).  Record values are kept decoded;
    Codec.v proves that decoding the stored bytes gives the record back. *)
From Verif Require Export Codec.

Definition INVALID_INO : Z := 0.   (* inode.hpp:46 *)
Definition ROOT_INO : Z := 1.      (* inode.hpp:47 *)

(** The database.  meta: only the key next_ino is used (cache.cpp:304, 819). *)
Record db := Db {
  d_next : option Z;
  d_inodes : gmap Z inode;
  d_treei : gmap (Z * Z) dirent;       (* key parent ++ child ino *)
  d_treen : gmap (Z * bytes) dirent;   (* key parent ++ name *)
  d_orphans : gset Z;
  d_links : gmap Z bytes }.

Definition set_next (v : option Z) (d : db) : db :=
  Db v (d_inodes d) (d_treei d) (d_treen d) (d_orphans d) (d_links d).
Definition set_inodes (v : gmap Z inode) (d : db) : db :=
  Db (d_next d) v (d_treei d) (d_treen d) (d_orphans d) (d_links d).
Definition set_treei (v : gmap (Z * Z) dirent) (d : db) : db :=
  Db (d_next d) (d_inodes d) v (d_treen d) (d_orphans d) (d_links d).
Definition set_treen (v : gmap (Z * bytes) dirent) (d : db) : db :=
  Db (d_next d) (d_inodes d) (d_treei d) v (d_orphans d) (d_links d).
Definition set_orphans (v : gset Z) (d : db) : db :=
  Db (d_next d) (d_inodes d) (d_treei d) (d_treen d) v (d_links d).
Definition set_links (v : gmap Z bytes) (d : db) : db :=
  Db (d_next d) (d_inodes d) (d_treei d) (d_treen d) (d_orphans d) v.

Definition db_empty : db := Db None ∅ ∅ ∅ ∅ ∅.

Definition set_parent (p : Z) (i : inode) : inode := Inode (i_flags i) p (i_attr i).

(** ** InodeReferences, cache.hpp:92-166.  A record is (nrefs, doomed). *)
Notation refs := (gmap Z (Z * bool)).

(** cache.hpp:111-122 *)
Definition incref (r : refs) (ino by_ : Z) : res Z * refs :=
  match r !! ino with
  | None => (Ok by_, <[ino := (by_, false)]> r)
  | Some (n, true) => (Err ESTALE, r)
  | Some (n, false) => (Ok (w64 (n + by_)), <[ino := (w64 (n + by_), false)]> r)
  end.
(** cache.hpp:124-135 *)
Definition decref (r : refs) (ino by_ : Z) : outcome (res Z * refs) :=
  if by_ =? 0 then Done (Err EINVAL, r)
  else match r !! ino with
       | None => Throw
       | Some (n, dm) => if n <? by_ then Throw else Done (Ok (n - by_), <[ino := (n - by_, dm)]> r)
       end.
(** cache.hpp:137-148 *)
Definition doom (r : refs) (ino : Z) : res unit * refs :=
  match r !! ino with
  | None => (Ok tt, <[ino := (0, true)]> r)
  | Some (n, dm) => if 0 <? n then (Err EBUSY, r) else (Ok tt, <[ino := (n, true)]> r)
  end.
(** cache.hpp:150-156 *)
Definition doomed (r : refs) (ino : Z) : bool :=
  match r !! ino with None => false | Some (_, dm) => dm end.
(** cache.hpp:158-164 *)
Definition refcount (r : refs) (ino : Z) : Z :=
  match r !! ino with None => 0 | Some (n, _) => n end.

(** ** names *)
(** LMDB's default maximal key size is 511 (mdb_env_get_maxkeysize); cache.cpp:245-252. *)
Definition MAX_NAME : Z := 511 - 8.
(** check_name, cache.cpp:254-273 *)
Definition check_name (n : bytes) (for_writing : bool) : res unit :=
  if MAX_NAME <? Z.of_nat (length n) then Err ENAMETOOLONG
  else if negb for_writing then Ok tt
  else if existsb (fun c => (c =? 0) || (c =? 47)) n then Err EINVAL
  else Ok tt.

(** ** Read operations of CacheTransactionRO *)

(** parent(ino), cache.cpp:478-496 *)
Definition parent_of (d : db) (ino : Z) : res Z :=
  if ino =? ROOT_INO then Ok ino
  else match d_inodes d !! ino with
       | None => Err ENOENT
       | Some i => Ok (i_parent i)
       end.
(** name(parent, ino), cache.cpp:434-460 *)
Definition name_in (d : db) (p ino : Z) : res bytes :=
  if (ino =? ROOT_INO) || (p =? INVALID_INO) then Ok []
  else match d_treei d !! (p, ino) with
       | None => Err ENOENT
       | Some e => Ok (de_name e)
       end.
(** name(ino), cache.cpp:462-476 *)
Definition name_of (d : db) (ino : Z) : res bytes :=
  if ino =? ROOT_INO then Ok []
  else match parent_of d ino with
       | Err e => Err e
       | Ok p => if p =? INVALID_INO then Ok [] else name_in d p ino
       end.

(** the cursor loop of lookup, cache.cpp:516-543, over the remaining entries *)
Fixpoint lookup_scan (p : Z) (n : bytes) (l : list ((Z * bytes) * dirent)) : res Z :=
  match l with
  | [] => Err ENOENT
  | ((q, m), e) :: l =>
    if negb (length m =? length n)%nat then lookup_scan p n l
    else if negb (q =? p) then Err ENOENT
    else if decide (m = n) then Ok (de_ino e)
    else lookup_scan p n l
  end.
(** lookup, cache.cpp:498-546 *)
Definition lookup (d : db) (p : Z) (n : bytes) : res Z :=
  match check_name n false with
  | Err e => Err e
  | Ok _ =>
    if p =? INVALID_INO then Err EINVAL
    else lookup_scan p n (from_key enc_in (d_treen d) (le64 p))
  end.
(** getattr, cache.cpp:548-564 *)
Definition getattr (d : db) (ino : Z) : res attrs :=
  match d_inodes d !! ino with None => Err ENOENT | Some i => Ok (i_attr i) end.
(** readlink, cache.cpp:566-580 *)
Definition readlink (d : db) (ino : Z) : res bytes :=
  match d_links d !! ino with
  | Some b => Ok b
  | None => match d_inodes d !! ino with None => Err ENOENT | Some _ => Err EINVAL end
  end.
(** Flag bits, inode.hpp:111-125, 163-174. *)
Definition SYNCED : Z := 0.
Definition flag_test (fl f : Z) : bool := negb (Z.land fl (2 ^ f) =? 0).
Definition flag_set (fl f : Z) : Z := w16 (Z.lor fl (2 ^ f)).
Definition flag_clear (fl f : Z) : Z := w16 (Z.land fl (Z.lnot (w16 (2 ^ f)))).
(** test_flag, cache.cpp:722-739 *)
Definition test_flag (d : db) (ino f : Z) : res bool :=
  match d_inodes d !! ino with None => Err ENOENT | Some i => Ok (flag_test (i_flags i) f) end.

(** readdir, cache.cpp:582-658.  Returns the name and the inode number of the next
    entry (the remaining fields of DirectoryEntry are always zero); [Err 0] is EOF. *)
Definition DOT : bytes := [46].
Definition DOTDOT : bytes := [46; 46].
Definition readdir (d : db) (dir prev : Z) : res (Z * bytes) :=
  if prev =? 0 then Ok (dir, DOT)
  else match parent_of d dir with
  | Err _ => Err EIO
  | Ok par =>
    if negb (prev =? par) && (prev =? dir) then Ok (par, DOTDOT)
    else
      let start := if prev =? par then 0 else prev in
      match from_key enc_ii (d_treei d) (enc_ii (dir, start)) with
      | [] => Err 0
      | ((q, c), e) :: l =>
        if negb (q =? dir) then Err 0
        else if c =? prev then
          match l with
          | [] => Err 0
          | ((q', c'), e') :: _ => if negb (q' =? dir) then Err 0 else Ok (c', de_name e')
          end
        else Ok (c, de_name e)
      end
  end.

(** path, cache.cpp:660-689: the buffer is built reversed. *)
Fixpoint path_loop (fuel : nat) (d : db) (ino : Z) (buf : bytes) : outcome (res bytes) :=
  match fuel with
  | O => Diverge
  | S fuel =>
    match parent_of d ino with
    | Err e => Done (Err e)
    | Ok p =>
      match name_in d p ino with
      | Err e => Done (Err e)
      | Ok n =>
        let buf := (buf ++ rev n) ++ [47] in
        if p =? ROOT_INO then Done (Ok (rev buf)) else path_loop fuel d p buf
      end
    end
  end.
(** Every iteration but the last reads a different existing inode unless the parent
    links are cyclic, so running out of this fuel means the C++ loop never ends. *)
Definition path (d : db) (ino : Z) : outcome (res bytes) :=
  if ino =? ROOT_INO then Done (Ok [])
  else path_loop (S (size (d_inodes d))) d ino [].

(** ** Write operations on the database *)

(** make_orphan, cache.cpp:829-890.  The key is built by memcpy from the Result<ino_t>
    object, whose value is its first member. *)
Definition make_orphan (d : db) (ino : Z) : res unit * db :=
  match parent_of d ino with
  | Err e => (Err e, d)
  | Ok p =>
    if p =? INVALID_INO then (Ok tt, d)
    else match d_treei d !! (p, ino) with
    | None => (Err EIO, d)
    | Some e =>
      let d := set_treei (delete (p, ino) (d_treei d)) d in
      let d := set_treen (delete (p, de_name e) (d_treen d)) d in
      let d := set_orphans (d_orphans d ∪ {[ino]}) d in
      let d := match d_inodes d !! ino with
               | Some i => set_inodes (<[ino := set_parent 0 i]> (d_inodes d)) d
               | None => d
               end in
      (Ok tt, d)
    end
  end.

(** allocate_next_inode, cache.cpp:815-827 *)
Definition allocate (d : db) : outcome (Z * db) :=
  match d_next d with
  | None => Throw
  | Some n => Done (n, set_next (Some (w64 (n + 1))) d)
  end.

(** the child loop of clean_orphans, cache.cpp:1058-1072.  If make_orphan fails or does
    nothing the C++ loop finds the same entry again and never ends: [Diverge]. *)
Fixpoint orphan_children (fuel : nat) (d : db) (o : Z) : outcome db :=
  match fuel with
  | O => Diverge
  | S fuel =>
    match lower_bound enc_ii (d_treei d) (le64 o) with
    | None => Done d
    | Some ((q, c), e) =>
      if negb (q =? o) then Done d
      else orphan_children fuel (make_orphan d (de_ino e)).2 o
    end
  end.

(** deletion of one doomed orphan, cache.cpp:1043-1085 *)
Definition reap (d : db) (o : Z) : outcome db :=
  dlet d := match d_inodes d !! o with
            | None => Done d
            | Some i =>
              let t := ftype (a_mode (i_attr i)) in
              dlet d := if t =? S_IFLNK then Done (set_links (delete o (d_links d)) d)
                        else if t =? S_IFDIR then orphan_children (S (size (d_treei d))) d o
                        else Done d in
              Done (set_inodes (delete o (d_inodes d)) d)
            end in
  Done (set_orphans (d_orphans d ∖ {[o]}) d).

(** one pass of the orphan cursor from MDB_FIRST: skip orphans that can not be doomed
    (a failing doom has no effect), stop at the first that can, cache.cpp:1030-1040.
    Orphan keys are the 8 bytes of the inode number. *)
Definition orphan_list (d : db) : list Z := (entries le64 (gset_to_gmap () (d_orphans d))).*1.
Definition next_victim (d : db) (r : refs) : option Z :=
  head (filter (fun o => bool_decide (refcount r o <= 0)) (orphan_list d)).

(** clean_orphans, cache.cpp:1024-1090.  Each round removes one inode from the orphan
    table or ends the loop. *)
Fixpoint clean_loop (fuel : nat) (d : db) (r : refs) : outcome (db * refs) :=
  match fuel with
  | O => Diverge
  | S fuel =>
    match next_victim d r with
    | None => Done (d, r)
    | Some o =>
      dlet d' := reap d o in
      clean_loop fuel d' (doom r o).2
    end
  end.
Definition clean_fuel (d : db) : nat := S (size (d_inodes d) + size (d_orphans d)).
Definition clean_orphans (d : db) (r : refs) : outcome (db * refs) :=
  clean_loop (clean_fuel d) d r.

(** mkinode(attrs, parent), inode.hpp:180-187 *)
Definition mkinode (a : attrs) (p : Z) : inode := Inode 0 p a.

(** ** Transactions *)
(** Effects registered by lock and release (cache.cpp:700-702, 716-718). *)
Inductive hook := RbDecref (ino : Z) | RbIncref (ino n : Z).
(** An open top-level read-write transaction: the working database, the in-memory
    references (the transaction holds their mutex), the registered rollback hooks in
    registration order, and m_rewrite_inode_set. *)
Record tx := Tx { t_db : db; t_refs : refs; t_hooks : list hook; t_rw : option (gset Z) }.
Definition with_db (d : db) (t : tx) : tx := Tx d (t_refs t) (t_hooks t) (t_rw t).
Definition with_dbr (dr : db * refs) (t : tx) : tx := Tx dr.1 dr.2 (t_hooks t) (t_rw t).

Definition tx_clean (t : tx) : outcome tx :=
  dlet dr := clean_orphans (t_db t) (t_refs t) in Done (with_dbr dr t).

(** emplace, cache.cpp:892-985 *)
Definition emplace (t : tx) (p : Z) (n : bytes) (a : attrs) : outcome (res Z * tx) :=
  match check_name n true with
  | Err e => Done (Err e, t)
  | Ok _ =>
    let d := t_db t in
    let fresh (d : db) :=
      dlet (ino, d) := allocate d in
      let d := set_inodes (<[ino := mkinode a p]> (d_inodes d)) d in
      let d := set_treen (<[(p, n) := Dirent 0 0 ino n]> (d_treen d)) d in
      let d := set_treei (<[(p, ino) := Dirent 0 0 ino n]> (d_treei d)) d in
      dlet t := tx_clean (with_db d t) in
      Done (Ok ino, t) in
    match d_treen d !! (p, n) with
    | None => fresh d
    | Some e =>
      let old := de_ino e in
      match d_inodes d !! old with
      | None => Crash
      | Some oi =>
        if ftype (a_mode (i_attr oi)) =? ftype (a_mode a) then
          let d := set_inodes (<[old := mkinode a p]> (d_inodes d)) d in
          let rw := match t_rw t with None => None | Some s => Some (s ∖ {[old]}) end in
          Done (Ok old, Tx d (t_refs t) (t_hooks t) rw)
        else fresh (make_orphan d old).2
      end
    end
  end.

(** unlink(ino), cache.cpp:987-994; unlink(parent, child), 996-999, ignores [parent]. *)
Definition unlink_ino (t : tx) (ino : Z) : outcome (res unit * tx) :=
  match make_orphan (t_db t) ino with
  | (Err e, d) => Done (Err e, with_db d t)
  | (Ok _, d) => dlet t := tx_clean (with_db d t) in Done (Ok tt, t)
  end.
Definition unlink_child (t : tx) (p child : Z) : outcome (res unit * tx) := unlink_ino t child.
(** unlink(parent, name), cache.cpp:1001-1022 *)
Definition unlink_name (t : tx) (p : Z) (n : bytes) : outcome (res unit * tx) :=
  match d_treen (t_db t) !! (p, n) with
  | None => Done (Err ENOENT, t)
  | Some e => unlink_ino t (de_ino e)
  end.
(** writelink, cache.cpp:1092-1115 *)
Definition set_size (s : Z) (a : attrs) : attrs :=
  Attrs s (a_nblocks a) (a_uid a) (a_gid a) (a_atime a) (a_mtime a) (a_ctime a) (a_mode a).
Definition writelink (t : tx) (ino : Z) (dest : bytes) : outcome (res unit * tx) :=
  let d := t_db t in
  match d_inodes d !! ino with
  | None => Done (Err ENOENT, t)
  | Some i =>
    if negb (ftype (a_mode (i_attr i)) =? S_IFLNK) then Done (Err EINVAL, t)
    else
      let i' := Inode (i_flags i) (i_parent i) (set_size (Z.of_nat (length dest)) (i_attr i)) in
      let d := set_inodes (<[ino := i']> (d_inodes d)) d in
      let d := set_links (<[ino := dest]> (d_links d)) d in
      Done (Ok tt, with_db d t)
  end.
(** update_flags, cache.cpp:1117-1144 *)
Definition update_flags (t : tx) (ino : Z) (to_set to_clear : list Z) : outcome (res unit * tx) :=
  let d := t_db t in
  match d_inodes d !! ino with
  | None => Done (Err ENOENT, t)
  | Some i =>
    let fl := fold_left flag_set to_set (i_flags i) in
    let fl := fold_left flag_clear to_clear fl in
    let d := set_inodes (<[ino := Inode fl (i_parent i) (i_attr i)]> (d_inodes d)) d in
    Done (Ok tt, with_db d t)
  end.
(** start_dir_rewrite, cache.cpp:1146-1178 *)
Fixpoint rewrite_scan (dir : Z) (l : list ((Z * Z) * dirent)) : gset Z :=
  match l with
  | [] => ∅
  | ((q, c), _) :: l => if q =? dir then {[c]} ∪ rewrite_scan dir l else ∅
  end.
Definition start_dir_rewrite (t : tx) (dir : Z) : outcome (res unit * tx) :=
  match t_rw t with
  | Some _ => Done (Err EALREADY, t)
  | None =>
    match from_key enc_ii (d_treei (t_db t)) (le64 dir) with
    | [] => Done (Ok tt, t)
    | l => Done (Ok tt, Tx (t_db t) (t_refs t) (t_hooks t) (Some (rewrite_scan dir l)))
    end
  end.
(** finish_dir_rewrite, cache.cpp:1180-1192; std::set iterates in numeric order. *)
Definition finish_dir_rewrite (t : tx) : outcome (res unit * tx) :=
  match t_rw t with
  | None => Done (Err EBADFD, t)
  | Some s =>
    let d := fold_left (fun d ino => (make_orphan d ino).2) (merge_sort Z.le (elements s)) (t_db t) in
    Done (Ok tt, Tx d (t_refs t) (t_hooks t) None)
  end.
(** lock, cache.cpp:691-704 *)
Definition lock (t : tx) (ino : Z) : outcome (res unit * tx) :=
  match incref (t_refs t) ino 1 with
  | (Err e, r) => Done (Err e, Tx (t_db t) r (t_hooks t) (t_rw t))
  | (Ok _, r) => Done (Ok tt, Tx (t_db t) r (t_hooks t ++ [RbDecref ino]) (t_rw t))
  end.
(** release, cache.cpp:706-720 *)
Definition release (t : tx) (ino n : Z) : outcome (res unit * tx) :=
  if n =? 0 then Done (Ok tt, t)
  else dlet (x, r) := decref (t_refs t) ino n in
       match x with
       | Err _ => Crash
       | Ok _ => Done (Ok tt, Tx (t_db t) r (t_hooks t ++ [RbIncref ino n]) (t_rw t))
       end.

(** begin_rw, cache.cpp:353-356 *)
Definition begin_tx (d : db) (r : refs) : tx := Tx d r [] None.

(** a rollback hook: lock's decref / release's incref under safe_assert,
    cache.cpp:700-702, 716-718 *)
Definition run_rollback (r : refs) (h : hook) : outcome refs :=
  match h with
  | RbDecref ino =>
    dlet (x, r) := decref r ino 1 in
    match x with Ok _ => Done r | Err _ => Crash end
  | RbIncref ino n =>
    match incref r ino n with (Ok _, r) => Done r | (Err _, _) => Crash end
  end.
Fixpoint run_rollbacks (r : refs) (hs : list hook) : outcome refs :=
  match hs with
  | [] => Done r
  | h :: hs => dlet r := run_rollback r h in run_rollbacks r hs
  end.
(** abort of a top-level transaction, cache.cpp:741-762: rollbacks in reverse order, the
    working database is dropped.  Returns the remaining in-memory references. *)
Definition abort_tx (t : tx) : outcome refs := run_rollbacks (t_refs t) (rev (t_hooks t)).
(** commit of a top-level transaction, cache.cpp:764-805: lock/release register no
    commit hooks, so it publishes the database and keeps the references. *)
Definition commit_tx (t : tx) : db * refs := (t_db t, t_refs t).

(** ** The operations a user can perform inside a transaction *)
Inductive op :=
| OEmplace (p : Z) (n : bytes) (a : attrs)
| OUnlinkIno (ino : Z)
| OUnlinkChild (p child : Z)
| OUnlinkName (p : Z) (n : bytes)
| OClean
| OWritelink (ino : Z) (dest : bytes)
| OFlags (ino : Z) (to_set to_clear : list Z)
| OStartRewrite (dir : Z)
| OFinishRewrite
| OLock (ino : Z)
| ORelease (ino n : Z).

(** result values are forgotten except for success/errno *)
Definition drop_val {A} (o : outcome (res A * tx)) : outcome (res unit * tx) :=
  dlet (r, t) := o in Done (match r with Ok _ => Ok tt | Err e => Err e end, t).
Definition step (t : tx) (o : op) : outcome (res unit * tx) :=
  match o with
  | OEmplace p n a => drop_val (emplace t p n a)
  | OUnlinkIno i => unlink_ino t i
  | OUnlinkChild p c => unlink_child t p c
  | OUnlinkName p n => unlink_name t p n
  | OClean => dlet t := tx_clean t in Done (Ok tt, t)
  | OWritelink i b => writelink t i b
  | OFlags i s c => update_flags t i s c
  | OStartRewrite i => start_dir_rewrite t i
  | OFinishRewrite => finish_dir_rewrite t
  | OLock i => lock t i
  | ORelease i n => release t i n
  end.
Fixpoint steps (t : tx) (l : list op) : outcome tx :=
  match l with
  | [] => Done t
  | o :: l => dlet (_, t) := step t o in steps t l
  end.

(** ** Opening a cache, cache.cpp:298-333.  [root] are the attributes of the root inode
    (current time, uid, gid) whose mode is set to S_IFDIR. *)
Definition set_mode (m : Z) (a : attrs) : attrs :=
  Attrs (a_size a) (a_nblocks a) (a_uid a) (a_gid a) (a_atime a) (a_mtime a) (a_ctime a) m.
Definition init_db (root : attrs) (d : db) : db :=
  match d_next d with
  | Some _ => d
  | None => set_inodes (<[ROOT_INO := mkinode (set_mode S_IFDIR root) INVALID_INO]> (d_inodes d))
              (set_next (Some (ROOT_INO + 1)) d)
  end.
(** The constructor then runs clean_orphans in a transaction; the in-memory reference
    table of the new process is empty. *)
Definition open_cache (root : attrs) (d : db) : outcome (db * refs) :=
  dlet t := tx_clean (begin_tx (init_db root d) ∅) in
  dlet t := tx_clean t in
  Done (commit_tx t).
