(** Store-level model of Blocklist::mark(), for killing the process in the middle
    of a call.

    The list is a MAP_SHARED mapping (blocklist.cpp:163-166), so every store of
    the program is in the file as soon as it is executed: when the process is
    killed between two stores, the next process finds exactly the stores made so
    far.  The functions below are those of Blocklist.v with every store recorded
    in program order.  Entries are written in two 8-byte words (first [start],
    then [count] and [state]), both by the assignment of an [Entry] and by
    [memmove], which moves entry by entry in the direction that is correct for
    overlapping ranges; a recorded state is marked [true] when it lies between
    the two stores of one entry.  A power failure, which may also lose or reorder
    stores, is not modelled. *)
From Verif Require Import Prelude Blocklist BlocklistSpec.

(** Outcome of a run: [TAbort] is a failed [assert] (the process dies there),
    [TUB] an access outside of the mapping. *)
Inductive tout (A : Type) : Type := TDone (a : A) | TAbort | TUB.
Arguments TDone {A} a.
Arguments TAbort {A}.
Arguments TUB {A}.

Definition erase {A} (o : tout A) : outcome A :=
  match o with TDone a => Done a | _ => Crash end.

(** The contents of the file after each store, and the outcome. *)
Definition trace : Type := list (bool * bl).
Definition tr (A : Type) : Type := (trace * tout A)%type.

Definition tret {A} (a : A) : tr A := ([], TDone a).
Definition tbind {A B} (m : tr A) (k : A -> tr B) : tr B :=
  match snd m with
  | TDone a => let r := k a in (fst m ++ fst r, snd r)
  | TAbort => (fst m, TAbort)
  | TUB => (fst m, TUB)
  end.
Notation "'tlet' x := m 'in' k" := (tbind m (fun x => k))
  (at level 200, x pattern, m at level 100, k at level 200, right associativity).
Definition tassert {A} (c : bool) (k : tr A) : tr A := if c then k else ([], TAbort).
Notation "'tassert_' c ; k" := (tassert c k)
  (at level 200, c at level 100, k at level 200, right associativity).
(** a computation without stores *)
Definition tpure {A} (o : outcome A) : tr A :=
  ([], match o with Done a => TDone a | _ => TUB end).
(** one store *)
Definition tstore (torn : bool) (b : bl) : tr bl := ([(torn, b)], TDone b).

Definition set_slot (b : bl) (i : nat) (e : entry) : bl :=
  mkBL (bl_magic b) (bl_n b) (bl_cnt b) (<[i := e]> (bl_slots b)).
Definition set_n (b : bl) (n : nat) : bl := mkBL (bl_magic b) n (bl_cnt b) (bl_slots b).
Definition set_cnt (b : bl) (c : list Z) : bl := mkBL (bl_magic b) (bl_n b) c (bl_slots b).

(** One store into the entry at [i] *)
Definition t_wr (torn : bool) (b : bl) (i : nat) (e : entry) : tr bl :=
  if (i <? length (bl_slots b))%nat then tstore torn (set_slot b i e) else ([], TUB).

(** Assignment of a whole entry: two words *)
Definition t_put (b : bl) (i : nat) (e : entry) : tr bl :=
  tlet old := tpure (rd b i) in
  tlet b := t_wr true b i (mkE (e_start e) (e_count old) (e_state old)) in
  t_wr false b i e.

(** superblock.blocks_by_state[st] += d *)
Definition t_bump (b : bl) (st d : Z) : tr bl :=
  tlet c := tpure (bump_l (bl_cnt b) st d) in
  tstore false (set_cnt b c).

(** bookkeeping loop of delete_range, blocklist.cpp:239-241 *)
Fixpoint t_unaccount (b : bl) (es : list entry) : tr bl :=
  match es with
  | [] => tret b
  | e :: es => tlet b := t_bump b (e_state e) (- e_count e) in t_unaccount b es
  end.

(** memmove of [k] entries from slot [dst + d] down to slot [dst],
    blocklist.cpp:243-245 *)
Fixpoint t_move_down (b : bl) (dst d k : nat) : tr bl :=
  match k with
  | O => tret b
  | S k =>
    tlet e := tpure (rd b (dst + d)) in
    tlet b := t_put b dst e in
    t_move_down b (S dst) d k
  end.

(** memmove of [k] entries from slot [src] up to slot [src + 1],
    blocklist.cpp:295-297 *)
Fixpoint t_move_up (b : bl) (src k : nat) : tr bl :=
  match k with
  | O => tret b
  | S k =>
    tlet e := tpure (rd b (src + k)) in
    tlet b := t_put b (S (src + k)) e in
    t_move_up b src k
  end.

(** Blocklist::delete_range(), blocklist.cpp:220-249 *)
Definition t_delete_range (b : bl) (ib ie : nat) : tr bl :=
  tassert_ (ib <=? ie)%nat;
  tassert_ (ie <=? bl_n b)%nat;
  let deleted := (ie - ib)%nat in
  let to_move := (bl_n b - ie)%nat in
  tassert_ (to_move + deleted <=? bl_n b)%nat;
  tlet b := t_unaccount b (take deleted (drop ib (bl_slots b))) in
  tlet b := t_move_down b ib deleted to_move in
  tstore false (set_n b (bl_n b - deleted)).

(** Blocklist::delete_entry(), blocklist.cpp:211-218 *)
Definition t_delete_entry (b : bl) (i : nat) : tr bl :=
  if (i =? bl_n b)%nat then tret b else t_delete_range b i (S i).

(** Blocklist::try_merge_with_previous(), blocklist.cpp:251-285 *)
Definition t_try_merge (b : bl) (it : nat) : tr (bool * nat * bl) :=
  if (it =? 0)%nat then tret (false, it, b) else
  let prev := (it - 1)%nat in
  tlet ep := tpure (rd b prev) in
  tlet ei := tpure (rd b it) in
  if negb (e_end ep =? e_start ei) then tret (false, it, b) else
  if negb (e_state ep =? e_state ei) then tret (false, it, b) else
  let new_count := e_count ep + e_count ei in
  if 65535 <? new_count then tret (false, it, b) else
  tlet b := t_wr false b prev (mkE (e_start ep) new_count (e_state ep)) in
  tlet b := t_bump b (e_state ep) (e_count ei) in
  tlet b := t_delete_entry b it in
  tret (true, prev, b).

(** Blocklist::require_space() with grow(), blocklist.cpp:186-209: ftruncate is
    one store. *)
Definition t_require_space (b : bl) : tr bl :=
  tlet b := (if (capacity b =? bl_n b)%nat then tstore false (grow b) else tret b) in
  tassert_ (bl_n b <? capacity b)%nat; tret b.

(** Blocklist::insert_before(), blocklist.cpp:287-304 *)
Definition t_insert_before (b : bl) (dest : nat) (e : entry) : tr bl :=
  if (dest <=? bl_n b)%nat then
    let to_move := (bl_n b - dest)%nat in
    tlet b := t_require_space b in
    tlet b := t_move_up b dest to_move in
    tlet b := t_put b dest e in
    tstore false (set_n b (S (bl_n b)))
  else ([], TUB).

(** Blocklist::split_entry(), blocklist.cpp:306-325 *)
Definition t_split_entry (b : bl) (at_ : nat) (split_point : Z) : tr bl :=
  tlet e := tpure (rd b at_) in
  tassert_ (e_start e <=? split_point);
  tassert_ (split_point <? e_end e);
  let old_end := e_end e in
  let old_count := e_count e in
  let new_entry := mkE split_point (w16 (old_end - split_point)) (e_state e) in
  tlet b := t_wr false b at_ (mkE (e_start e) (w16 (split_point - e_start e)) (e_state e)) in
  tlet b := t_insert_before b (S at_) new_entry in
  tlet l := tpure (rd b at_) in
  tlet r := tpure (rd b (S at_)) in
  tassert_ (e_end l =? split_point);
  tassert_ (e_end r =? old_end);
  tassert_ (e_count l + e_count r =? old_count);
  tret b.

(** the merging tail, blocklist.cpp:462-471 and 516-530 *)
Definition t_merge_around (b : bl) (item : nat) : tr bl :=
  let next := S item in
  tlet (item, b) :=
    (if negb (next =? bl_n b)%nat then
       tlet (success, merged, b) := t_try_merge b next in
       tret (if success : bool then merged else item, b)
     else tret (item, b)) in
  tlet (_, _, b) := t_try_merge b item in
  tret b.

(** blocklist.cpp:452-472 *)
Definition t_mark_exact (b : bl) (so eo : nat) (e : entry) (start count state : Z) : tr bl :=
  if state =? ABSENT then t_delete_range b so eo
  else
    tlet b := t_bump b (e_state e) (- e_count e) in
    tlet b := t_put b so (mkE start count (w8 state)) in
    tlet b := t_bump b state count in
    tlet b := t_delete_range b (S so) eo in
    t_merge_around b so.

(** blocklist.cpp:474-479 *)
Definition t_mark_trim_start (b : bl) (so : nat) (e : entry) (start : Z) : tr bl :=
  let old_count := e_count e in
  let e' := mkE (e_start e) (w16 (start - e_start e)) (e_state e) in
  tlet b := t_wr false b so e' in
  tassert_ (e_end e' =? start);
  tassert_ (e_count e' <? old_count);
  tassert_ (0 <? e_count e');
  t_bump b (e_state e') (- (old_count - e_count e')).

(** blocklist.cpp:483-491: [start] and [count] are two assignments. *)
Definition t_mark_trim_end (b : bl) (eo : nat) (end_ : Z) : tr bl :=
  tlet e := tpure (rd b eo) in
  let old_end := e_end e in
  let old_count := e_count e in
  let e' := mkE end_ (w16 (old_end - end_)) (e_state e) in
  tlet b := t_wr true b eo (mkE end_ old_count (e_state e)) in
  tlet b := t_wr false b eo e' in
  tassert_ (negb (contains e' (w64 (end_ - 1))));
  tassert_ (e_count e' <? old_count);
  t_bump b (e_state e') (- (old_count - e_count e')).

(** blocklist.cpp:483-530 *)
Definition t_mark_tail (b : bl) (so eo : nat) (end_contains : bool) (start count state : Z) : tr bl :=
  let end_ := w64 (start + count) in
  tlet b := (if end_contains then t_mark_trim_end b eo end_ else tret b) in
  let delete_begin := if (so =? bl_n b)%nat then O else S so in
  tlet b := t_delete_range b delete_begin eo in
  if state =? ABSENT then tret b else
  tlet b := t_insert_before b delete_begin (mkE start count (w8 state)) in
  tlet ins := tpure (rd b delete_begin) in
  tlet b := t_bump b (e_state ins) (e_count ins) in
  t_merge_around b delete_begin.

(** Blocklist::mark_internal(), blocklist.cpp:387-531 *)
Definition t_mark_internal (b : bl) (start count state : Z) : tr bl :=
  let end_ := w64 (start + count) in
  tlet (so, eo) := tpure (find_overlapping_entries b start count) in
  tlet (b, eo) :=
    (if negb (so =? bl_n b)%nat && (so =? eo)%nat
     then tlet b := t_split_entry b so start in tret (b, S so)
     else tret (b, eo)) in
  tlet start_contains := tpure
    (if negb (so =? bl_n b)%nat then dlet e := rd b so in Done (contains e start) else Done false) in
  tlet end_contains := tpure
    (if negb (eo =? bl_n b)%nat then dlet e := rd b eo in Done (contains e (w64 (end_ - 1))) else Done false) in
  if start_contains : bool then
    tlet e := tpure (rd b so) in
    if (e_start e =? start) && (e_count e <=? count)
    then t_mark_exact b so eo e start count state
    else
      tlet b := t_mark_trim_start b so e start in
      t_mark_tail b so eo end_contains start count state
  else t_mark_tail b so eo end_contains start count state.

(** Blocklist::mark(), blocklist.cpp:533-545; as in [Blocklist.mark] the loop
    body is iterated [count / 65535] times. *)
Definition t_mark_body (state : Z) (acc : tr (bl * Z * Z)) : tr (bl * Z * Z) :=
  tlet (b, start, count) := acc in
  if LIMIT <? count then
    tlet b := t_mark_internal b start LIMIT state in
    tret (b, w64 (start + LIMIT), w64 (count - LIMIT))
  else tret (b, start, count).
Definition t_mark (b : bl) (start count state : Z) : tr bl :=
  tlet (b, start, count) :=
    N.iter (Z.to_N (count / LIMIT)) (t_mark_body state) (tret (b, start, count)) in
  if 0 <? count then t_mark_internal b start count state else tret b.

(** Blocklist::open() of a missing or empty file, blocklist.cpp:124-136: the file
    is first extended with zeros, then the superblock is written. *)
Definition t_create : trace :=
  [(false, mkBL 0 0 [0;0;0;0] (replicate 224 e_zero)); (false, bl_fresh)].

(** What the next process may find in the file when the process is killed while
    it executes [mark(r)] on [b]: [b] itself or the state after one of the
    stores. *)
Definition calls (b : bl) (r : req) : tr bl := t_mark b (r_start r) (r_count r) (r_state r).
Definition killed (torn : bool) (b : bl) (r : req) (b' : bl) : Prop :=
  (torn = false /\ b' = b) \/ In (torn, b') (fst (calls b r)).
