(** Model of the in-memory backend: src/backend/in_memory.cpp and
    include/dragonstash/backend/in_memory.hpp.

    Objects live on a heap: [m_nodes] maps the identity of every live Node to its contents.  Using
    a reference or handle to a Node that was destroyed is undefined behaviour: [Crash].  Not
    modelled: writing through the references returned by attr(), data(), destination() and
    children() (update_attr, pwrite, emplace and remove are), and Stat::ino, which is always 0. *)
From Verif Require Export Fs.

Definition EOPNOTSUPP : Z := 95.
(** ** Nodes, in_memory.hpp:38-152 *)
Inductive body :=
| BFile (data : bytes)                       (* File::m_data *)
| BLink (dest : bytes)                       (* Link::m_destination *)
| BDir (kids : gmap bytes Z).                (* Directory::m_children; an unordered_map *)
(** [nd_owner]: the directory and the name whose unique_ptr owns the node.  A Node object does not
    store it; it is what the ownership in Directory::m_children means. *)
Record nd := Nd { nd_attr : attrs; nd_body : body; nd_owner : Z * bytes }.
(** the constructors File(), Link(destination), Directory(), in_memory.cpp:59-94 *)
Inductive kind := KFile | KLink (dest : bytes) | KDir.
Definition stat_of (mode : Z) : attrs := Attrs 0 0 0 0 (0, 0) (0, 0) (0, 0) mode.
Definition new_node (k : kind) (owner : Z * bytes) : nd :=
  match k with
  | KFile => Nd (stat_of S_IFREG) (BFile []) owner
  | KLink dest => Nd (stat_of S_IFLNK) (BLink dest) owner
  | KDir => Nd (stat_of S_IFDIR) (BDir ∅) owner
  end.
(** DirHandle, in_memory.hpp:154-176: the state, and the names its iterator will still visit;
    [dh_kids] is what m_children was when the iterator was made.  Inserting may rehash and
    erasing may hit the iterator: any change of the map makes its further use undefined
    (stricter than the C++ rules, which forgive some changes). *)
Inductive dstate := SDot | SDotdot | SIter.
Record dirh := Dirh { dh_node : Z; dh_state : dstate; dh_left : list bytes; dh_kids : gmap bytes Z }.
(** ** InMemoryFilesystem, in_memory.hpp:180-197: a Directory, here node 0, and m_connected.
    [m_fh], [m_dh]: the handles the client holds. *)
Record mem := Mem { m_nodes : gmap Z nd; m_next : Z; m_conn : bool; m_fh : gmap Z Z; m_dh : gmap Z dirh; m_hnext : Z }.
Definition ROOT : Z := 0.
Definition mem0 : mem := Mem {[ROOT := Nd (stat_of S_IFDIR) (BDir ∅) (0, [])]} 1 true ∅ ∅ 0.
Definition set_nodes (ns : gmap Z nd) (m : mem) : mem := Mem ns (m_next m) (m_conn m) (m_fh m) (m_dh m) (m_hnext m).

(** Node::update_attr, in_memory.cpp:43-48 *)
Definition updated (old new : attrs) : attrs :=
  Attrs (a_size new) (a_nblocks new) (a_uid new) (a_gid new) (a_atime new) (a_mtime new) (a_ctime new)
    (Z.lor (Z.land (a_mode old) S_IFMT) (Z.land (a_mode new) (w32 (Z.lnot S_IFMT)))).

(** ** find, in_memory.cpp:50-53 and 98-137 *)
(** everything before the first slash, and the rest with it *)
Fixpoint to_slash (p : bytes) : bytes * bytes :=
  match p with
  | [] => ([], [])
  | c :: r => if c =? 47 then ([], p) else let '(a, b) := to_slash r in (c :: a, b)
  end.
(** The recursion consumes the path; the fuel [S (length path)] is not used up. *)
Fixpoint find (fuel : nat) (ns : gmap Z nd) (id : Z) (path : bytes) : outcome (res Z) :=
  match fuel with
  | O => Diverge
  | S fuel =>
    match ns !! id with
    | None => Crash
    | Some (Nd _ (BDir kids) _) =>
      match path with
      | [] => Done (Err EINVAL)
      | c :: path =>
        if negb (c =? 47) then Done (Err EINVAL)
        else match path with
        | [] => Done (Ok id)
        | _ =>
          let '(child, remainder) := to_slash path in
          match child, remainder with
          | [], _ :: _ => Done (Err EINVAL)
          | _, _ =>
            match kids !! child with
            | None => Done (Err ENOENT)
            | Some c => match remainder with [] => Done (Ok c) | _ => find fuel ns c remainder end
            end
          end
        end
      end
    | Some _ => Done (Err ENOTDIR)
    end
  end.
Definition mfind (m : mem) (path : bytes) : outcome (res Z) := find (S (length path)) (m_nodes m) ROOT path.

(** ** file contents, in_memory.cpp:223-253 *)
(** pread: the bytes copied to the buffer.  offset + count is computed modulo 2^64. *)
Definition f_pread (data : bytes) (count offset : Z) : outcome (res bytes) :=
  let size := Z.of_nat (length data) in
  if offset <? 0 then Done (Err EINVAL)
  else if size <=? offset then Done (Ok [])
  else
    let end_offset := w64 (offset + count) in
    let count := if size <? end_offset then w64 (count - w64 (end_offset - size)) else count in
    if size <? offset + count then Crash                       (* memcpy reads behind the data *)
    else Done (Ok (firstn (Z.to_nat count) (skipn (Z.to_nat offset) data))).
(** pwrite; [lim]: resize to more than that throws (bad_alloc, length_error).  Result: the new data and
    the new value of attr().size if it is assigned. *)
Definition f_pwrite (lim : Z) (data buf : bytes) (offset : Z) : outcome (res (option (bytes * option Z))) :=
  if offset <? 0 then Done (Err EINVAL)
  else
    let count := Z.of_nat (length buf) in
    let required := w64 (offset + count) in
    let grow := Z.of_nat (length data) <? required in
    if grow && (lim <? required) then Done (Ok None)
    else
      let data' := if grow then data ++ repeat 0 (Z.to_nat required - length data) else data in
      if Z.of_nat (length data') <? offset + count then Crash  (* memcpy writes behind the data *)
      else Done (Ok (Some (firstn (Z.to_nat offset) data' ++ buf ++ skipn (Z.to_nat (offset + count)) data', if grow then Some required else None))).

(** ** destruction of a subtree: Directory::remove erases the unique_ptr, in_memory.cpp:139-147 *)
(** [x] is [k] or inside it *)
Fixpoint inside (fuel : nat) (ns : gmap Z nd) (k x : Z) : bool :=
  if x =? k then true
  else match fuel with
  | O => false
  | S fuel => match ns !! x with Some n => if x =? ROOT then false else inside fuel ns k (fst (nd_owner n)) | None => false end
  end.
Definition destroy (ns : gmap Z nd) (k : Z) : gmap Z nd := filter (fun kv => inside (Z.to_nat (fst kv)) ns k (fst kv) = false) ns.

(** ** the operations of a client *)
Inductive mop :=
| MEmplace (dir : Z) (name : bytes) (k : kind)     (* Directory::emplace<T>, in_memory.hpp:139-146 *)
| MRemove (dir : Z) (name : bytes)                 (* Directory::remove, in_memory.cpp:139-147 *)
| MUpdateAttr (node : Z) (a : attrs)               (* Node::update_attr, in_memory.cpp:43-48 *)
| MConnect (c : bool)                              (* set_connected, in_memory.cpp:267-270 *)
| MLstat (path : bytes)                            (* in_memory.cpp:312-323 *)
| MReadlink (path : bytes)                         (* in_memory.cpp:325-340 *)
| MOpen (path : bytes)                             (* in_memory.cpp:272-293; access type and mode are ignored *)
| MOpendir (path : bytes)                          (* in_memory.cpp:295-310 *)
| MFstat (h : Z)                                   (* in_memory.cpp:218-221 *)
| MPread (h count offset : Z)                      (* in_memory.cpp:223-238 *)
| MPwrite (h : Z) (buf : bytes) (offset : Z)       (* in_memory.cpp:240-253 *)
| MReaddir (h : Z).                                (* in_memory.cpp:157-196 *)
Inductive mres :=
| MUnit
| MRef (id : Z)                 (* a reference to a node *)
| MStat (r : res attrs)
| MBytes (r : res bytes)
| MHandle (r : res Z)
| MCount (r : res Z)
| MName (r : res bytes)
| MThrown.                      (* std::bad_alloc or std::length_error; nothing changed *)

(** the three lookups share the test of m_connected and the call of find *)
Definition with_node (m : mem) (path : bytes) (fail : Z -> mres) (k : Z -> nd -> outcome (mres * mem)) : outcome (mres * mem) :=
  if negb (m_conn m) then Done (fail ENOTCONN, m)
  else dlet r := mfind m path in
  match r with
  | Err e => Done (fail e, m)
  | Ok id => match m_nodes m !! id with None => Crash | Some n => k id n end
  end.
Section Step.
  (** [lim]: see [f_pwrite].  [ord]: the iteration order of an unordered_map. *)
  Context (lim : Z) (ord : gmap bytes Z -> list bytes).
  Definition mstep (m : mem) (o : mop) : outcome (mres * mem) :=
    match o with
    | MEmplace dir name k =>
      match m_nodes m !! dir with
      | Some (Nd a (BDir kids) ow) =>
        let id := m_next m in
        let ns := match kids !! name with
          | Some _ => m_nodes m                       (* unordered_map::emplace destroys the new node *)
          | None => <[id := new_node k (dir, name)]> (<[dir := Nd a (BDir (<[name := id]> kids)) ow]> (m_nodes m))
          end in
        Done (MRef id, Mem ns (id + 1) (m_conn m) (m_fh m) (m_dh m) (m_hnext m))
      | _ => Crash
      end
    | MRemove dir name =>
      match m_nodes m !! dir with
      | Some (Nd a (BDir kids) ow) =>
        match kids !! name with
        | None => Done (MUnit, m)
        | Some k => Done (MUnit, set_nodes (destroy (<[dir := Nd a (BDir (delete name kids)) ow]> (m_nodes m)) k) m)
        end
      | _ => Crash
      end
    | MUpdateAttr id a =>
      match m_nodes m !! id with
      | Some (Nd a0 b ow) => Done (MUnit, set_nodes (<[id := Nd (updated a0 a) b ow]> (m_nodes m)) m)
      | None => Crash
      end
    | MConnect c => Done (MUnit, Mem (m_nodes m) (m_next m) c (m_fh m) (m_dh m) (m_hnext m))
    | MLstat path => with_node m path (fun e => MStat (Err e)) (fun _ n => Done (MStat (Ok (nd_attr n)), m))
    | MReadlink path => with_node m path (fun e => MBytes (Err e)) (fun _ n =>
        Done (MBytes (match nd_body n with BLink d => Ok d | _ => Err EINVAL end), m))
    | MOpen path => with_node m path (fun e => MHandle (Err e)) (fun id n =>
        match nd_body n with
        | BDir _ => Done (MHandle (Err EISDIR), m)
        | BLink _ => Done (MHandle (Err EINVAL), m)
        | BFile _ => Done (MHandle (Ok (m_hnext m)), Mem (m_nodes m) (m_next m) (m_conn m) (<[m_hnext m := id]> (m_fh m)) (m_dh m) (m_hnext m + 1))
        end)
    | MOpendir path => with_node m path (fun e => MHandle (Err e)) (fun id n =>
        match nd_body n with
        | BDir kids => Done (MHandle (Ok (m_hnext m)), Mem (m_nodes m) (m_next m) (m_conn m) (m_fh m) (<[m_hnext m := Dirh id SDot (ord kids) kids]> (m_dh m)) (m_hnext m + 1))
        | _ => Done (MHandle (Err ENOTDIR), m)
        end)
    | MFstat h =>
      match m_fh m !! h with
      | None => Crash
      | Some id => match m_nodes m !! id with Some n => Done (MStat (Ok (nd_attr n)), m) | None => Crash end
      end
    | MPread h count offset =>
      match m_fh m !! h with
      | None => Crash
      | Some id =>
        match m_nodes m !! id with
        | Some (Nd _ (BFile data) _) => dlet r := f_pread data count offset in Done (MBytes r, m)
        | _ => Crash
        end
      end
    | MPwrite h buf offset =>
      match m_fh m !! h with
      | None => Crash
      | Some id =>
        match m_nodes m !! id with
        | Some (Nd a (BFile data) ow) =>
          dlet r := f_pwrite lim data buf offset in
          match r with
          | Err e => Done (MCount (Err e), m)
          | Ok None => Done (MThrown, m)
          | Ok (Some (data', size)) =>
            let a' := match size with Some s => Attrs s (a_nblocks a) (a_uid a) (a_gid a) (a_atime a) (a_mtime a) (a_ctime a) (a_mode a) | None => a end in
            Done (MCount (Ok (Z.of_nat (length buf))), set_nodes (<[id := Nd a' (BFile data') ow]> (m_nodes m)) m)
          end
        | _ => Crash
        end
      end
    | MReaddir h =>
      match m_dh m !! h with
      | None => Crash
      | Some (Dirh id st rest kids) =>
        let next := fun st rest => Mem (m_nodes m) (m_next m) (m_conn m) (m_fh m) (<[h := Dirh id st rest kids]> (m_dh m)) (m_hnext m) in
        match st with
        | SDot => Done (MName (Ok DOT), next SDotdot rest)
        | SDotdot => Done (MName (Ok DOTDOT), next SIter rest)
        | SIter =>
          match m_nodes m !! id with
          | Some (Nd _ (BDir kids') _) =>
            if decide (kids' = kids) then
              match rest with
              | [] => Done (MName (Err 0), m)
              | n :: rest => Done (MName (Ok n), next SIter rest)
              end
            else Crash
          | _ => Crash
          end
        end
      end
    end.
End Step.
