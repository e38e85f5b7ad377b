(** Specification vocabulary for the blocklist properties.  Nothing here refers
    to entries, slots or any other internals of the model. *)
From Verif Require Import Prelude Blocklist.

(** One call [mark(start, count, state)]. *)
Record req := mkReq { r_start : Z; r_count : Z; r_state : Z }.

(** Arguments for which [start + count] does not exceed 64 bits. *)
Definition valid_req (r : req) : Prop :=
  0 <= r_start r /\ 0 <= r_count r /\ r_start r + r_count r < 2 ^ 64 /\ -1 <= r_state r <= 3.

(** What a user expects [state(x)] to be after a history of marks: the state of
    the last mark whose range contains [x]. *)
Definition covers (r : req) (x : Z) : bool :=
  (r_start r <=? x) && (x <? r_start r + r_count r).
Definition upd (f : Z -> Z) (r : req) : Z -> Z := fun x => if covers r x then r_state r else f x.
Definition expected (h : list req) : Z -> Z := fold_left upd h (fun _ => ABSENT).

(** number of blocks below [n] that are in state [s] according to [f] *)
Definition nblocks (f : Z -> Z) (s n : Z) : Z :=
  Z.of_nat (length (filter (fun x => f x = s) (seqZ 0 n))).

(** Running a history of calls. *)
Fixpoint run (b : bl) (h : list req) : outcome bl :=
  match h with
  | [] => Done b
  | r :: h => dlet b := mark b (r_start r) (r_count r) (r_state r) in run b h
  end.

(** [mark] works in pieces of at most 65535 blocks. *)
Definition piece (start count s c : Z) : Prop :=
  exists k, 0 <= k /\ 65535 * k < count /\ s = start + 65535 * k /\ c = Z.min 65535 (count - 65535 * k).

(** A piece [s, s+c) is harmless with respect to the current states [f] if it
    is a single block, or its first block is absent, or its end does not cut a
    stretch of equal present states. *)
Definition safe_piece (f : Z -> Z) (s c : Z) : Prop :=
  c = 1 \/ f s = ABSENT \/ f (s + c - 1) = ABSENT \/ f (s + c) = ABSENT \/ f (s + c - 1) <> f (s + c).

(** A piece additionally leaves no empty run behind if its first block is absent
    or already has the new state, or if not all of [s .. s+c] is in the state
    of the first block. *)
Definition tidy_piece (f : Z -> Z) (s c v : Z) : Prop :=
  f s = ABSENT \/ f s = v \/ exists x, s <= x <= s + c /\ f x <> f s.

Definition safe_req (f : Z -> Z) (r : req) : Prop :=
  forall s c, piece (r_start r) (r_count r) s c -> safe_piece f s c.
Definition tidy_req (f : Z -> Z) (r : req) : Prop :=
  forall s c, piece (r_start r) (r_count r) s c -> tidy_piece f s c (r_state r).

(** every call of the history is safe in the state left by the earlier ones *)
Fixpoint all_calls (P : (Z -> Z) -> req -> Prop) (f : Z -> Z) (h : list req) : Prop :=
  match h with
  | [] => True
  | r :: h => P f r /\ all_calls P (upd f r) h
  end.

(** A session: marks interleaved with fsck() calls and with closing and
    reopening the file. *)
Inductive event := EMark (r : req) | EFsck | EReopen.
Definition do_event (b : bl) (e : event) : outcome bl :=
  match e with
  | EMark r => mark b (r_start r) (r_count r) (r_state r)
  | EFsck => fsck b
  | EReopen => open_file (Some b)
  end.
Fixpoint session (b : bl) (es : list event) : outcome bl :=
  match es with
  | [] => Done b
  | e :: es => dlet b := do_event b e in session b es
  end.
Definition marks_of (es : list event) : list req :=
  flat_map (fun e => match e with EMark r => [r] | _ => [] end) es.

(** Calls on the first 65535 blocks of a file (256 MiB). *)
Definition small_req (r : req) : Prop :=
  0 <= r_start r /\ 0 <= r_count r /\ r_start r + r_count r <= 65535 /\ -1 <= r_state r <= 3.

(** The calls that [mark] gets wrong, in terms of the block states [f] before:
    the range starts exactly where a stretch of equal present states starts, and
    - that stretch ends inside the range while the end of the range cuts another one, or
    - the stretch goes on behind the range and its state is to be changed. *)
Definition mark_bug (f : Z -> Z) (r : req) : Prop :=
  let s := r_start r in let e := r_start r + r_count r in
  0 < r_count r /\ f s <> ABSENT /\ f (s - 1) <> f s /\
  (((exists x, s < x < e /\ f x <> f s) /\ f (e - 1) = f e /\ f e <> ABSENT) \/
   (f s <> r_state r /\ forall x, s <= x <= e -> f x = f s)).
