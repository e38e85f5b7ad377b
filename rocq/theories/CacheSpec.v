(** Small vocabulary for stating the cache properties: everything is defined from the
    answers of the read operations (getattr, parent, lookup, readdir, ...), never from
    the tables. *)
From Verif Require Export CacheWorld.

(** [x] is a known inode *)
Definition has_inode (d : db) (x : Z) : Prop := exists a, getattr d x = Ok a.
(** [x] is a known inode in no directory *)
Definition is_orphan (d : db) (x : Z) : Prop := x <> ROOT_INO /\ parent_of d x = Ok 0.

(** What orphan cleaning has to remove: an orphan nobody holds, and, level by level, the
    entries of removed directories that nobody holds. *)
Inductive reclaimable (d : db) (r : refs) : Z -> Prop :=
| rec_orphan x : is_orphan d x -> refcount r x = 0 -> reclaimable d r x
| rec_entry p n x : reclaimable d r p -> lookup d p n = Ok x -> refcount r x = 0 -> reclaimable d r x.

(** [y] is [x] or lies below it *)
Inductive below (d : db) (x : Z) : Z -> Prop :=
| below_refl : below d x x
| below_step y n z : below d x y -> lookup d y n = Ok z -> below d x z.

(** following path components from [x] *)
Fixpoint walk (d : db) (x : Z) (comps : list bytes) (y : Z) : Prop :=
  match comps with
  | [] => x = y
  | n :: comps => exists z, lookup d x n = Ok z /\ walk d z comps y
  end.
(** "/a/b/c" *)
Definition spell (comps : list bytes) : bytes := concat (map (cons 47) comps).

(** the sequence of entries a reader sees who passes each returned inode number to the next
    call, from position [prev] until end of directory *)
Inductive listing (d : db) (dir : Z) : Z -> list (Z * bytes) -> Prop :=
| listing_eof prev : readdir d dir prev = Err 0 -> listing d dir prev []
| listing_entry prev x n l : readdir d dir prev = Ok (x, n) -> listing d dir x l ->
    listing d dir prev ((x, n) :: l).

(** removing [o] pulls along every entry below it that can be reached through directories
    nobody holds and that nobody holds itself *)
Inductive falls (d : db) (r : refs) (o : Z) : Z -> Prop :=
| falls_top : refcount r o = 0 -> falls d r o o
| falls_entry p n x : falls d r o p -> lookup d p n = Ok x -> refcount r x = 0 -> falls d r o x.
