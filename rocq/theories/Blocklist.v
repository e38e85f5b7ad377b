(** Model of src/cache/blocklist.cpp and include/dragonstash/cache/blocklist.hpp.

    The list lives in a memory mapped file: a 512 byte superblock followed by an
    array of 16 byte entry slots.  The model keeps *all* slots of the mapping,
    including those behind the last live entry, because [truncate_access] reads
    one slot past the live entries.  Iterators ([Entry*]) are slot indices.
    64-bit and 16-bit unsigned arithmetic wraps explicitly. *)
From Verif Require Import Prelude.

(** enum State, blocklist.hpp:84-90 *)
Definition ABSENT : Z := -1.
Definition READAHEAD : Z := 0.
Definition READ : Z := 1.
Definition PINNED : Z := 2.
Definition WRITTEN : Z := 3.

(** CACHE_PAGE_SIZE, include/dragonstash/cache/common.hpp:33-34 *)
Definition PAGE : Z := 4096.

(** struct Entry, blocklist.hpp:116-131; the two reserved fields are dropped
    (never read). *)
Record entry := mkE { e_start : Z; e_count : Z; e_state : Z }.
Definition e_zero : entry := mkE 0 0 0.

(** Entry::end(), blocklist.hpp:124-126 *)
Definition e_end (e : entry) : Z := w64 (e_start e + e_count e).

(** Entry::contains(), blocklist.hpp:128-130 *)
Definition contains (e : entry) (block : Z) : bool :=
  (e_start e <=? block) && (block <? e_end e).

(** The mapped file: [magic] and entry count and counters of the Superblock
    (blocklist.hpp:102-111), and the slots.  The byte size of the file is
    [512 + 16 * length slots] (file sizes are multiples of 512, checked by
    [open], blocklist.cpp:120).  The superblock field [size] is never written by
    any function and therefore omitted. *)
Record bl := mkBL { bl_magic : Z; bl_n : nat; bl_cnt : list Z; bl_slots : list entry }.

Definition magic : Z := 0x4c427344.   (* blocklist.hpp:93 *)

(** Blocklist::capacity(), blocklist.cpp:593-597 *)
Definition capacity (b : bl) : nat := length (bl_slots b).
Definition file_size (b : bl) : Z := 512 + 16 * Z.of_nat (length (bl_slots b)).

(** begin() .. end(): the live entries, blocklist.hpp:154-176 *)
Definition live (b : bl) : list entry := take (bl_n b) (bl_slots b).

(** A freshly initialised file, blocklist.cpp:124-136: 4096 bytes, all zero
    except for the magic; hence (4096-512)/16 = 224 slots. *)
Definition bl_fresh : bl := mkBL magic 0 [0;0;0;0] (replicate 224 e_zero).

(** Slot access through an iterator; outside of the mapping it is UB. *)
Definition rd (b : bl) (i : nat) : outcome entry :=
  match bl_slots b !! i with Some e => Done e | None => Crash end.
Definition wr (b : bl) (i : nat) (e : entry) : outcome bl :=
  if (i <? length (bl_slots b))%nat
  then Done (mkBL (bl_magic b) (bl_n b) (bl_cnt b) (<[i := e]> (bl_slots b)))
  else Crash.

(** superblock.blocks_by_state[st] += d (u64); an index outside the array of
    four is UB. *)
Definition bump_l (c : list Z) (st : Z) (d : Z) : outcome (list Z) :=
  if 0 <=? st then
    match c !! Z.to_nat st with
    | Some v => Done (<[Z.to_nat st := w64 (v + d)]> c)
    | None => Crash
    end
  else Crash.
Definition bump (b : bl) (st d : Z) : outcome bl :=
  dlet c := bump_l (bl_cnt b) st d in
  Done (mkBL (bl_magic b) (bl_n b) c (bl_slots b)).

(** Blocklist::grow(), blocklist.cpp:186-200 together with ensure_mapped,
    152-172: the file is extended by grow_size = 4096 zero bytes, i.e. 256
    slots.  I/O failures are not modelled. *)
Definition grow (b : bl) : bl :=
  mkBL (bl_magic b) (bl_n b) (bl_cnt b) (bl_slots b ++ replicate 256 e_zero).

(** Blocklist::require_space(), blocklist.cpp:202-209 *)
Definition require_space (b : bl) : outcome bl :=
  let b := if (capacity b =? bl_n b)%nat then grow b else b in
  dassert (bl_n b <? capacity b)%nat; Done b.

(** bookkeeping loop of delete_range, blocklist.cpp:239-241 *)
Fixpoint unaccount (c : list Z) (es : list entry) : outcome (list Z) :=
  match es with
  | [] => Done c
  | e :: es => dlet c := bump_l c (e_state e) (- e_count e) in unaccount c es
  end.

(** Blocklist::delete_range(), blocklist.cpp:220-249; returns the new list; the
    returned iterator is [ib] in every case.  The casts of the third assertion
    to [unsigned] are modelled without truncation.  Slots behind the new end
    keep their old content. *)
Definition delete_range (b : bl) (ib ie : nat) : outcome bl :=
  dassert (ib <=? ie)%nat;
  dassert (ie <=? bl_n b)%nat;
  let deleted := (ie - ib)%nat in
  let to_move := (bl_n b - ie)%nat in
  dassert (to_move + deleted <=? bl_n b)%nat;
  if (bl_n b <=? length (bl_slots b))%nat then
    dlet c := unaccount (bl_cnt b) (take deleted (drop ib (bl_slots b))) in
    let s := bl_slots b in
    Done (mkBL (bl_magic b) (bl_n b - deleted) c
            (take ib s ++ take to_move (drop ie s) ++ drop (ib + to_move) s))
  else Crash.

(** Blocklist::delete_entry(), blocklist.cpp:211-218 *)
Definition delete_entry (b : bl) (i : nat) : outcome bl :=
  if (i =? bl_n b)%nat then Done b else delete_range b i (S i).

(** Blocklist::try_merge_with_previous(), blocklist.cpp:251-285; returns success
    and the iterator. *)
Definition try_merge_with_previous (b : bl) (it : nat) : outcome (bool * nat * bl) :=
  if (it =? 0)%nat then Done (false, it, b) else
  let prev := (it - 1)%nat in
  dlet ep := rd b prev in
  dlet ei := rd b it in
  if negb (e_end ep =? e_start ei) then Done (false, it, b) else
  if negb (e_state ep =? e_state ei) then Done (false, it, b) else
  let new_count := e_count ep + e_count ei in
  if 65535 <? new_count then Done (false, it, b) else
  dlet b := wr b prev (mkE (e_start ep) new_count (e_state ep)) in
  dlet b := bump b (e_state ep) (e_count ei) in
  dlet b := delete_entry b it in
  Done (true, prev, b).

(** Blocklist::insert_before(), blocklist.cpp:287-304; the returned iterator is
    [dest]. *)
Definition insert_before (b : bl) (dest : nat) (e : entry) : outcome bl :=
  if (dest <=? bl_n b)%nat then
    let to_move := (bl_n b - dest)%nat in
    dlet b := require_space b in
    let s := bl_slots b in
    Done (mkBL (bl_magic b) (S (bl_n b)) (bl_cnt b)
            (take dest s ++ e :: take to_move (drop dest s) ++ drop (S (bl_n b)) s))
  else Crash.

(** Blocklist::split_entry(), blocklist.cpp:306-325; the returned iterator is
    [at_] again. *)
Definition split_entry (b : bl) (at_ : nat) (split_point : Z) : outcome bl :=
  dlet e := rd b at_ in
  dassert (e_start e <=? split_point);
  dassert (split_point <? e_end e);
  let old_end := e_end e in
  let old_count := e_count e in
  let new_entry := mkE split_point (w16 (old_end - split_point)) (e_state e) in
  dlet b := wr b at_ (mkE (e_start e) (w16 (split_point - e_start e)) (e_state e)) in
  dlet b := insert_before b (S at_) new_entry in
  dlet l := rd b at_ in
  dlet r := rd b (S at_) in
  dassert (e_end l =? split_point);
  dassert (e_end r =? old_end);
  dassert (e_count l + e_count r =? old_count);
  Done b.

(** std::upper_bound as in libstdc++ (stl_algo.h, __upper_bound): [len] halves.
    Reads of live slots are inside the mapping whenever [bl_n b <= capacity b];
    otherwise Crash. *)
Fixpoint ub_loop (fuel : nat) (b : bl) (block : Z) (first len : nat) : outcome nat :=
  match len with
  | O => Done first
  | _ =>
    match fuel with
    | O => Diverge
    | S fuel =>
      let half := Nat.div2 len in
      let middle := (first + half)%nat in
      dlet e := rd b middle in
      if block <? e_end e
      then ub_loop fuel b block first half
      else ub_loop fuel b block (S middle) (len - half - 1)
    end
  end.

(** Blocklist::search_entry(), blocklist.cpp:327-342 *)
Definition search_entry (b : bl) (block : Z) : outcome nat :=
  ub_loop (bl_n b) b block 0 (bl_n b).

(** Blocklist::find_overlapping_entries(), blocklist.cpp:356-385 *)
Definition find_overlapping_entries (b : bl) (start count : Z) : outcome (nat * nat) :=
  if (bl_n b =? 0)%nat then Done (bl_n b, bl_n b) else
  let end_ := w64 (start + count) in
  dlet so := search_entry b start in
  if (so =? bl_n b)%nat then Done ((bl_n b - 1)%nat, bl_n b) else
  dlet e := rd b so in
  let so := if contains e start then so
            else if (so =? 0)%nat then bl_n b else (so - 1)%nat in
  dlet eo := search_entry b end_ in
  Done (so, eo).

(** the merging tail shared by both paths of mark_internal:
    blocklist.cpp:462-471 and 516-530. *)
Definition merge_around (b : bl) (item : nat) : outcome bl :=
  let next := S item in
  dlet (item, b) :=
    (if negb (next =? bl_n b)%nat then
       dlet (success, merged, b) := try_merge_with_previous b next in
       Done (if success : bool then merged else item, b)
     else Done (item, b)) in
  dlet (_, _, b) := try_merge_with_previous b item in
  Done b.

(** exact match of the first overlapped entry [e] at [so]: blocklist.cpp:452-472 *)
Definition mark_exact (b : bl) (so eo : nat) (e : entry) (start count state : Z) : outcome bl :=
  if state =? ABSENT then delete_range b so eo
  else
    dlet b := bump b (e_state e) (- e_count e) in
    dlet b := wr b so (mkE start count (w8 state)) in
    dlet b := bump b state count in
    dlet b := delete_range b (S so) eo in
    merge_around b so.

(** truncation of the first overlapped entry [e] at [so]: blocklist.cpp:474-479 *)
Definition mark_trim_start (b : bl) (so : nat) (e : entry) (start : Z) : outcome bl :=
  let old_count := e_count e in
  let e' := mkE (e_start e) (w16 (start - e_start e)) (e_state e) in
  dlet b := wr b so e' in
  dassert (e_end e' =? start);
  dassert (e_count e' <? old_count);
  dassert (0 <? e_count e');
  bump b (e_state e') (- (old_count - e_count e')).

(** truncation of the entry at the end of the range: blocklist.cpp:483-491 *)
Definition mark_trim_end (b : bl) (eo : nat) (end_ : Z) : outcome bl :=
  dlet e := rd b eo in
  let old_end := e_end e in
  let old_count := e_count e in
  let e' := mkE end_ (w16 (old_end - end_)) (e_state e) in
  dlet b := wr b eo e' in
  dassert (negb (contains e' (w64 (end_ - 1))));
  dassert (e_count e' <? old_count);
  bump b (e_state e') (- (old_count - e_count e')).

(** the rest of mark_internal: blocklist.cpp:483-530 *)
Definition mark_tail (b : bl) (so eo : nat) (end_contains : bool) (start count state : Z) : outcome bl :=
  let end_ := w64 (start + count) in
  dlet b := (if end_contains then mark_trim_end b eo end_ else Done b) in
  let delete_begin := if (so =? bl_n b)%nat then O else S so in
  dlet b := delete_range b delete_begin eo in
  if state =? ABSENT then Done b else
  dlet b := insert_before b delete_begin (mkE start count (w8 state)) in
  dlet ins := rd b delete_begin in
  dlet b := bump b (e_state ins) (e_count ins) in
  merge_around b delete_begin.

(** Blocklist::mark_internal(), blocklist.cpp:387-531. *)
Definition mark_internal (b : bl) (start count state : Z) : outcome bl :=
  let end_ := w64 (start + count) in
  dlet (so, eo) := find_overlapping_entries b start count in
  (* case 5, lines 436-443 *)
  dlet (b, eo) :=
    (if negb (so =? bl_n b)%nat && (so =? eo)%nat
     then dlet b := split_entry b so start in Done (b, S so)
     else Done (b, eo)) in
  (* lines 445-446 *)
  dlet start_contains :=
    (if negb (so =? bl_n b)%nat then dlet e := rd b so in Done (contains e start) else Done false) in
  dlet end_contains :=
    (if negb (eo =? bl_n b)%nat then dlet e := rd b eo in Done (contains e (w64 (end_ - 1))) else Done false) in
  (* lines 449-480 *)
  if start_contains : bool then
    dlet e := rd b so in
    if (e_start e =? start) && (e_count e <=? count)
    then mark_exact b so eo e start count state
    else
      dlet b := mark_trim_start b so e start in
      mark_tail b so eo end_contains start count state
  else mark_tail b so eo end_contains start count state.

Definition LIMIT : Z := 65535.

(** Blocklist::mark(), blocklist.cpp:533-545.  The while loop runs at most
    [count / 65535] times, so iterating its body that often (the body does
    nothing once the guard is false) is exact. *)
Definition mark_body (acc : outcome (bl * Z * Z)) (state : Z) : outcome (bl * Z * Z) :=
  dlet (b, start, count) := acc in
  if LIMIT <? count then
    dlet b := mark_internal b start LIMIT state in
    Done (b, w64 (start + LIMIT), w64 (count - LIMIT))
  else Done (b, start, count).
Definition mark (b : bl) (start count state : Z) : outcome bl :=
  dlet (b, start, count) :=
    N.iter (Z.to_N (count / LIMIT)) (fun acc => mark_body acc state) (Done (b, start, count)) in
  if 0 <? count then mark_internal b start count state else Done b.

(** Blocklist::state(), blocklist.cpp:547-560 (the stored u8 is converted to the
    enum unchanged). *)
Fixpoint state_in (es : list entry) (block : Z) : Z :=
  match es with
  | [] => ABSENT
  | e :: es =>
    if e_start e <=? block then
      if block <? w64 (e_start e + e_count e) then e_state e else state_in es block
    else state_in es block
  end.
Definition state_of (b : bl) (block : Z) : Z := state_in (live b) block.

(** Blocklist::blocks(), blocklist.cpp:562-569 *)
Definition blocks (b : bl) (state : Z) : Z :=
  if state =? ABSENT then 2 ^ 64 - 1
  else nth (Z.to_nat state) (bl_cnt b) 0.

(** Blocklist::present_blocks(), blocklist.cpp:571-581 *)
Definition present_blocks (b : bl) : Z := w64 (fold_left Z.add (bl_cnt b) 0).

(** Blocklist::nentries(), blocklist.cpp:588-591 *)
Definition nentries (b : bl) : Z := Z.of_nat (bl_n b).

(** Blocklist::truncate_access(), blocklist.cpp:599-627.  [start] is a signed
    off_t, [size] a std::size_t.  [ta_loop] is the while loop 614-622; it reads
    the slot behind the last live entry when it reaches the end. *)
Fixpoint ta_loop (fuel : nat) (b : bl) (req_end : Z) (it : nat) (avail : Z) : outcome Z :=
  match fuel with
  | O => Diverge
  | S fuel =>
    if negb (it =? bl_n b)%nat && (avail <? req_end) then
      let it := S it in
      dlet e := rd b it in
      if negb (e_start e =? avail) then Done avail
      else ta_loop fuel b req_end it (e_end e)
    else Done avail
  end.
Definition truncate_access (b : bl) (start size : Z) : outcome Z :=
  if start <? 0 then Done 0 else
  let start_block := start / PAGE in
  let req_end := w64 (start + size + PAGE - 1) / PAGE in
  dlet it := search_entry b start_block in
  if (it =? bl_n b)%nat then Done 0 else
  dlet e := rd b it in
  if negb (contains e start_block) then Done 0 else
  dlet avail := ta_loop (S (bl_n b)) b req_end it (e_end e) in
  let end_block := Z.min (req_end + 1) avail in
  let max_length := w64 ((end_block - start_block) * PAGE) in
  Done (Z.min size max_length).

(** Blocklist::shrink(), blocklist.cpp:678-711: [Crash] when one of the two
    assertions fails.  The list is unmapped afterwards; every accessor maps it
    again, so that is not represented. *)
Definition shrink (b : bl) : outcome bl :=
  let curr := file_size b / 4096 in
  if curr <=? 1 then Done b else
  let required := (512 + Z.of_nat (bl_n b) * 16 + 4096 - 1) / 4096 in
  if required =? curr then Done b else
  let new_size := required * 4096 in
  let new_cap := (new_size - 512) / 16 in
  dassert (new_size <? file_size b);
  dassert (Z.of_nat (bl_n b) <=? new_cap);
  Done (mkBL (bl_magic b) (bl_n b) (bl_cnt b) (take (Z.to_nat new_cap) (bl_slots b))).

(** Blocklist::fsck(), blocklist.cpp:629-676 *)
Fixpoint fsck_loop (es : list entry) (prev_end prev_start : Z) (c : list Z) : outcome (list Z) :=
  match es with
  | [] => Done c
  | e :: es =>
    if e_start e <? prev_end then Throw else
    if e_start e <? prev_start then Throw else
    if e_count e =? 0 then Throw else
    dlet c := bump_l c (e_state e) (e_count e) in
    fsck_loop es (e_end e) (e_start e) c
  end.
Definition fsck (b : bl) : outcome bl :=
  dlet c := fsck_loop (live b) 0 0 [0;0;0;0] in
  if bool_decide (c = bl_cnt b) then shrink b else Throw.

(** Blocklist::open(), blocklist.cpp:103-150, on an existing regular file that
    holds [b] ([None]: missing or empty file, which is initialised). *)
Definition open_file (f : option bl) : outcome bl :=
  match f with
  | None => Done bl_fresh
  | Some b =>
    if negb (file_size b mod 512 =? 0) then Throw else
    if negb (bl_magic b =? magic) then Throw else Done b
  end.
