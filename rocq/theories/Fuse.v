(** The FUSE glue: include/dragonstash/fuse/request.hpp, src/fuse/request.cpp,
    include/dragonstash/fuse/buffer.hpp, src/fuse/buffer.cpp. *)
From Verif Require Export CacheModel.

(** ** Request objects *)
(** What is sent to the kernel for one request.  REntry, RAttr: inode number and attributes;
    RBuf: the bytes of a directory listing.  The other fuse_reply_* functions carry data the
    handlers of this code base never send; [ROther] stands for them. *)
Inductive reply :=
| RNone | RErr (e : Z) | REntry (ino : Z) (a : attrs) | RAttr (ino : Z) (a : attrs)
| RReadlink (b : bytes) | ROpen | RBuf (b : bytes) | ROther (tag : Z).

(** [Request]: m_req (a fuse_req_t, identified by a number; None is nullptr) and
    m_default_error, request.hpp:84-86 *)
Record robj := RObj { m_req : option Z; m_def : Z }.
(** All request objects of a program, by name, and the replies passed to libfuse so far,
    oldest first; [w_given]: requests handed back to the caller by release(). *)
Record rworld := RW { w_objs : gmap Z robj; w_sent : list (Z * reply); w_given : list Z }.
Definition with_objs (o : gmap Z robj) (w : rworld) : rworld := RW o (w_sent w) (w_given w).

(** release(), request.hpp:104-108, followed by a reply of the C library *)
Definition send (x q : Z) (o : robj) (r : reply) (w : rworld) : rworld :=
  RW (<[x := RObj None (m_def o)]> (w_objs w)) (w_sent w ++ [(q, r)]) (w_given w).
(** reply_err ... reply_poll, request.hpp:91-98, 152-253: check() then reply.  check() is compiled in
    because the asserts are. *)
Definition reply_checked (x : Z) (r : reply) (w : rworld) : outcome rworld :=
  match w_objs w !! x with
  | None => Crash
  | Some o => match m_req o with None => Throw | Some q => Done (send x q o r w) end
  end.
(** reply_none, request.hpp:148-150, does not check: fuse_reply_none(nullptr) dereferences it. *)
Definition reply_none (x : Z) (w : rworld) : outcome rworld :=
  match w_objs w !! x with
  | None => Crash
  | Some o => match m_req o with None => Crash | Some q => Done (send x q o RNone w) end
  end.
(** reset(), request.cpp:106-109, called only when m_req is set *)
Definition reset_if_set (x : Z) (w : rworld) : rworld :=
  match w_objs w !! x with
  | Some (RObj (Some q) e) => send x q (RObj (Some q) e) (RErr e) w
  | _ => w
  end.

Inductive rop :=
| RNewEmpty (x : Z)            (* Request(), request.cpp:58-63 *)
| RNew (x q e : Z)             (* Request(req, default_error), 65-70 *)
| RMove (x y : Z)              (* Request x(std::move(y)), 72-77 *)
| RAssign (x y : Z)            (* x = std::move(y), 79-88 *)
| RClear (x : Z)               (* x = nullptr, 90-97 *)
| RDestroy (x : Z)             (* ~Request, 99-104 *)
| RReply (x : Z) (r : reply)   (* a checked reply function *)
| RReplyNone (x : Z)
| RRelease (x : Z)             (* release(), request.hpp:104-108 *)
| RSwap (x y : Z).             (* swap, request.hpp:110-114: the default errors stay *)

Definition rstep (w : rworld) (o : rop) : outcome rworld :=
  match o with
  | RNewEmpty x => match w_objs w !! x with Some _ => Crash | None => Done (with_objs (<[x := RObj None ECANCELED]> (w_objs w)) w) end
  | RNew x q e => match w_objs w !! x with Some _ => Crash | None => Done (with_objs (<[x := RObj (Some q) e]> (w_objs w)) w) end
  | RMove x y =>
    match w_objs w !! x, w_objs w !! y with
    | None, Some o => Done (with_objs (<[y := RObj None (m_def o)]> (<[x := o]> (w_objs w))) w)
    | _, _ => Crash
    end
  | RAssign x y =>
    match w_objs w !! x, w_objs w !! y with
    | Some _, Some _ =>
      let w := reset_if_set x w in
      match w_objs w !! y with
      | Some o => let os := <[x := o]> (w_objs w) in
                  Done (with_objs (<[y := RObj None (m_def o)]> os) w)
      | None => Crash
      end
    | _, _ => Crash
    end
  | RClear x =>
    match w_objs w !! x with
    | Some _ => let w := reset_if_set x w in
                match w_objs w !! x with
                | Some o => Done (with_objs (<[x := RObj None (m_def o)]> (w_objs w)) w)
                | None => Crash
                end
    | None => Crash
    end
  | RDestroy x =>
    match w_objs w !! x with
    | Some _ => let w := reset_if_set x w in Done (with_objs (delete x (w_objs w)) w)
    | None => Crash
    end
  | RReply x r => reply_checked x r w
  | RReplyNone x => reply_none x w
  | RRelease x =>
    match w_objs w !! x with
    | Some o => Done (RW (<[x := RObj None (m_def o)]> (w_objs w)) (w_sent w)
                         (w_given w ++ match m_req o with Some q => [q] | None => [] end))
    | None => Crash
    end
  | RSwap x y =>
    match w_objs w !! x, w_objs w !! y with
    | Some ox, Some oy =>
      Done (with_objs (<[y := RObj (m_req ox) (m_def oy)]> (<[x := RObj (m_req oy) (m_def ox)]> (w_objs w))) w)
    | _, _ => Crash
    end
  end.

(** ** Directory buffers *)
(** libfuse's fuse_add_direntry and fuse_add_direntry_plus (trusted; libfuse 3, the sizes and
    layouts are those of the kernel's struct fuse_dirent and fuse_direntplus).  [None]: a null
    buffer, only the size is computed; otherwise the bytes written at the buffer, nothing if
    [room] is too small. *)
Definition align8 (z : Z) : Z := 8 * ((z + 7) / 8).
Definition dirent_size (name : bytes) : Z := align8 (24 + Z.of_nat (length name)).
Definition direntplus_size (name : bytes) : Z := align8 (152 + Z.of_nat (length name)).
Definition pad_to (n : Z) (b : bytes) : bytes := b ++ repeat 0 (Z.to_nat n - length b).
(** struct fuse_dirent: ino, off, namelen, type, name, zero padding *)
Definition enc_dirent (ino off mode : Z) (name : bytes) : bytes :=
  concat [le 8 ino; le 8 (w64 off); le 4 (Z.of_nat (length name)); le 4 (w32 (Z.shiftr (ftype mode) 12)); name].
(** struct fuse_attr, 88 bytes, from the struct stat of inode.hpp:88-101 (nlink 1, rdev 0,
    blksize CACHE_PAGE_SIZE, flags 0) *)
Definition enc_attr (ino : Z) (a : attrs) : bytes :=
  concat [ le 8 ino; le 8 (a_size a); le 8 (a_nblocks a);
           le 8 (w64 (a_atime a).1); le 8 (w64 (a_mtime a).1); le 8 (w64 (a_ctime a).1);
           le 4 (w32 (a_atime a).2); le 4 (w32 (a_mtime a).2); le 4 (w32 (a_ctime a).2);
           le 4 (a_mode a); le 4 1; le 4 (a_uid a); le 4 (a_gid a); le 4 0; le 4 4096; le 4 0 ].
(** struct fuse_entry_out, 128 bytes: nodeid, generation 0, both timeouts 1 s, attributes *)
Definition enc_entry (ino : Z) (a : attrs) : bytes :=
  concat [ le 8 ino; le 8 0; le 8 1; le 8 1; le 4 0; le 4 0; enc_attr ino a ].
Definition add_direntry (room : option Z) (ino off : Z) (a : attrs) (name : bytes) : Z * bytes :=
  let n := dirent_size name in
  match room with
  | None => (n, [])
  | Some room => if room <? n then (n, []) else (n, pad_to n (enc_dirent ino off (a_mode a) name))
  end.
Definition add_direntry_plus (room : option Z) (ino off : Z) (a : attrs) (name : bytes) : Z * bytes :=
  let n := direntplus_size name in
  match room with
  | None => (n, [])
  | Some room => if room <? n then (n, []) else (n, pad_to n (enc_entry ino a ++ enc_dirent ino off (a_mode a) name))
  end.
(** writing [b] into [buf] at [pos]; outside of the buffer: undefined behaviour *)
Definition write_at (buf : bytes) (pos : nat) (b : bytes) : outcome bytes :=
  if (length buf <? pos + length b)%nat then Crash
  else Done (take pos buf ++ b ++ drop (pos + length b) buf).
(** std::string::resize *)
Definition resize (buf : bytes) (n : nat) : bytes := take n buf ++ repeat 0 (n - length buf).
(** a null-terminated string: what is left of a name *)
Fixpoint cstr (b : bytes) : bytes :=
  match b with [] => [] | c :: b => if c =? 0 then [] else c :: cstr b end.

(** DirBuffer::prepare_add and add, buffer.cpp:31-44.  The second overload, add(req, name,
    stbuf), 46-52, passes the new buffer size as offset. *)
Definition dirbuf_prepare (buf name : bytes) : bytes * nat :=
  (resize buf (length buf + Z.to_nat (add_direntry None 0 0 (Attrs 0 0 0 0 (0,0) (0,0) (0,0) 0) name).1), length buf).
Definition dirbuf_add (buf name : bytes) (ino : Z) (a : attrs) (off : Z) : outcome bytes :=
  let name := cstr name in
  let '(buf, old) := dirbuf_prepare buf name in
  write_at buf old (add_direntry (Some (Z.of_nat (length buf) - Z.of_nat old)) ino off a name).2.
Definition dirbuf_add_auto (buf name : bytes) (ino : Z) (a : attrs) : outcome bytes :=
  let name := cstr name in
  let '(buf, old) := dirbuf_prepare buf name in
  write_at buf old (add_direntry (Some (Z.of_nat (length buf) - Z.of_nat old)) ino (Z.of_nat (length buf)) a name).2.
(** DirBufferPlus::prepare_add, execute_add, add, buffer.cpp:54-81 *)
Definition plusbuf_prepare (buf name : bytes) (ino : Z) (a : attrs) : bytes * nat :=
  (resize buf (length buf + Z.to_nat (add_direntry_plus None ino 0 a name).1), length buf).
Definition plusbuf_add (buf name : bytes) (ino : Z) (a : attrs) (off : Z) : outcome bytes :=
  let name := cstr name in
  let '(buf, old) := plusbuf_prepare buf name ino a in
  write_at buf old (add_direntry_plus (Some (Z.of_nat (length buf) - Z.of_nat old)) ino off a name).2.
(** the overload without offset, buffer.cpp:83-87 *)
Definition plusbuf_add_auto (buf name : bytes) (ino : Z) (a : attrs) : outcome bytes :=
  let name := cstr name in
  let '(buf, old) := plusbuf_prepare buf name ino a in
  write_at buf old (add_direntry_plus (Some (Z.of_nat (length buf) - Z.of_nat old)) ino (Z.of_nat (length buf)) a name).2.
(** DirBufferPlus::rewind, buffer.hpp:93-97 *)
Definition plusbuf_rewind (buf : bytes) (offs : nat) : bytes :=
  if (offs <? length buf)%nat then resize buf offs else buf.
