(** Model of CachedDir (src/cache/cache.cpp:104-227, include/dragonstash/cache/cache.hpp:45-85), a
    public class that nothing in the repository uses, and of Result<T> (include/dragonstash/error.hpp).

    The values stored for one key of a database with duplicates are a list of byte strings; a cursor
    is an index into it.  MDB_NEXT_DUP and MDB_PREV_DUP return MDB_NOTFOUND at the ends and then leave
    the value they were given as it is (liblmdb's mdb_cursor_next and mdb_cursor_prev). *)
From Verif Require Import Prelude CacheModel Keys.

(** ** parse_entry, cache.cpp:138-176: version byte 1, eight bytes inode number, four bytes mode, name *)
Record dent := mkDent { de_ino : Z; de_mode : Z; de_name : bytes }.
Definition parse_entry_v1 (b : bytes) : res dent :=
  if Z.of_nat (length b) <=? 12 then Err EIO
  else Ok (mkDent (unle (firstn 8 b)) (unle (firstn 4 (skipn 8 b))) (skipn 12 b)).
Definition parse_entry (b : bytes) : res dent :=
  match b with
  | [] => Err EIO
  | v :: b => if v =? 1 then parse_entry_v1 b else Err EIO
  end.

(** ** the object: values of the directory, position of the cursor, m_eof, m_size, m_curr_off *)
Record cdir := mkCD { cd_vals : list bytes; cd_pos : nat; cd_eof : bool; cd_size : Z; cd_off : Z }.
(** mark_eof, 127-136 *)
Definition mark_eof (c : cdir) : outcome cdir :=
  if cd_eof c then Done c
  else dassert ((cd_off c + 1 =? cd_size c) || (cd_size c =? -1));
       Done (mkCD (cd_vals c) (cd_pos c) true (cd_off c + 1) (cd_off c)).
(** the constructor, 104-125 *)
Definition cdir_open (vals : list bytes) : outcome cdir :=
  let c := mkCD vals 0 false (-1) 0 in
  match vals with [] => mark_eof c | _ => Done c end.
(** ReadDir, 178-205 *)
Definition cdir_read (c : cdir) : outcome (res (dent * Z) * cdir) :=
  if cd_eof c then Done (Err 0, c) else
  let this_offset := cd_off c in
  match cd_vals c !! cd_pos c with
  | None => Crash                                            (* MDB_GET_CURRENT on a cursor without position *)
  | Some value =>
    dlet (value, c) :=
      match cd_vals c !! S (cd_pos c) with                   (* MDB_NEXT_DUP *)
      | None => dlet c := mark_eof c in Done (value, c)
      | Some value => Done (value, mkCD (cd_vals c) (S (cd_pos c)) (cd_eof c) (cd_size c) (cd_off c + 1))
      end in
    Done (match parse_entry value with Err e => Err e | Ok d => Ok (d, this_offset) end, c)
  end.
(** the loop of Seek, 219-224; [n] is the number of steps *)
Fixpoint prev_dup (n : nat) (c : cdir) : outcome cdir :=
  match n with
  | O => Done c
  | S n => match cd_pos c with
           | O => Crash                                      (* assert(rc == 0) *)
           | S p => prev_dup n (mkCD (cd_vals c) p (cd_eof c) (cd_size c) (cd_off c - 1))
           end
  end.
(** Seek, 207-227 *)
Definition cdir_seek (c : cdir) (offset : Z) : outcome (res unit * cdir) :=
  if offset <? 0 then Done (Err EINVAL, c)
  else if cd_off c <? offset then Done (Err EINVAL, c)
  else if offset =? cd_off c then Done (Ok tt, c)
  else dlet c := prev_dup (Z.to_nat (cd_off c - offset)) c in Done (Ok tt, c).

Inductive dop := DRead | DSeek (off : Z).
Inductive drep := DEntry (d : dent) (off : Z) | DEnd | DErr (e : Z) | DOk.
Definition rep_read (r : res (dent * Z)) : drep :=
  match r with Ok (d, o) => DEntry d o | Err e => if e =? 0 then DEnd else DErr e end.
Definition cdir_step (c : cdir) (o : dop) : outcome (drep * cdir) :=
  match o with
  | DRead => dlet (r, c) := cdir_read c in Done (rep_read r, c)
  | DSeek off => dlet (r, c) := cdir_seek c off in Done (match r with Ok _ => DOk | Err e => DErr e end, c)
  end.
Fixpoint cdir_run (c : cdir) (os : list dop) : outcome (list drep * cdir) :=
  match os with
  | [] => Done ([], c)
  | o :: os => dlet (r, c) := cdir_step c o in dlet (rs, c) := cdir_run c os in Done (r :: rs, c)
  end.

(** ** Specification, from the comments in cache.hpp:70-83: a directory is a stream of entries; the
    entry at position [p] has offset [p]; Seek goes back to an offset. *)
Definition at_pos (vals : list bytes) (p : nat) : option dent :=
  match vals !! p with Some v => match parse_entry v with Ok d => Some d | Err _ => None end | None => None end.
Definition stream_step (vals : list bytes) (p : nat) (o : dop) : drep * nat :=
  match o with
  | DRead => match vals !! p with
             | None => (DEnd, p)
             | Some v => (match parse_entry v with Ok d => DEntry d (Z.of_nat p) | Err e => DErr e end, S p)
             end
  | DSeek off => if (0 <=? off) && (off <=? Z.of_nat p) then (DOk, Z.to_nat off) else (DErr EINVAL, p)
  end.
Fixpoint stream_run (vals : list bytes) (p : nat) (os : list dop) : list drep :=
  match os with [] => [] | o :: os => fst (stream_step vals p o) :: stream_run vals (snd (stream_step vals p o)) os end.

(** ** Result<T>, error.hpp:40-120 *)
(** std::optional<T> m_value and m_errno; [T] is inhabited because the converting constructors call
    T().  *)
Record cres (T : Type) := mkRes { r_value : option T; r_errno : Z }.
Arguments mkRes {T} _ _.
Arguments r_value {T} _.
Arguments r_errno {T} _.
Definition res_of_value {T} (v : T) : cres T := mkRes (Some v) 0.                     (* 43-49 *)
Definition res_failed {T} (err : Z) : cres T := mkRes None err.                       (* 67-78 *)
(** Result(const Result<U>&), Result(Result<U>&&), 51-65: the conditional has type T *)
Definition res_convert {T U} (conv : U -> T) (dflt : T) (src : cres U) : cres T :=
  mkRes (Some match r_value src with Some v => conv v | None => dflt end) (r_errno src).
Definition res_bool {T} (r : cres T) : bool := match r_value r with Some _ => true | None => false end.   (* 92-94 *)
(** operator*: std::optional::value throws if there is none, 104-118 *)
Definition res_deref {T} (r : cres T) : outcome T := match r_value r with Some v => Done v | None => Throw end.
(** copy_error, 178-182 *)
Definition res_copy_error {T U} (r : cres U) : cres T := res_failed (r_errno r).
(** Result<void>, 122-164 *)
Record vres := mkV { v_ok : bool; v_errno : Z }.
Definition vres_ok : vres := mkV true 0.
Definition vres_failed (err : Z) : vres := mkV false err.
(** copy_error of a Result<T> or Result<void>, taken as the one or the other: ErrorResultHelper, 67-78, 136-141, 178-182 *)
Definition vres_copy_error {U} (r : cres U) : vres := vres_failed (r_errno r).
Definition vres_copy_error_void (r : vres) : vres := vres_failed (v_errno r).
Definition res_copy_error_void {T} (r : vres) : cres T := res_failed (v_errno r).
(** operator bool, 156-158, and error(), 160-162, are the fields [v_ok] and [v_errno] *)
