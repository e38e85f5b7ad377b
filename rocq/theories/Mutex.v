(** include/dragonstash/debug_mutex.hpp: the mutex around the in-memory references, used by any
    number of threads, step by step, with the relaxed atomic owner field.

    The owner field is an atomic accessed with memory_order_relaxed: a load may return any store
    that is not older, in the modification order of the field, than what the thread has already
    read or written (coherence); the order the mutex adds is left out, so the model has more
    executions than C++ allows.  Stores happen only while the mutex is held, so the modification
    order is the order of execution.  m_mutex is a std::mutex; its try_lock may fail for no reason. *)
From Verif Require Export Prelude.
From stdpp Require Export gmap list.

Notation tid := nat.
(** where a thread is *)
Inductive at_ :=
| Out                       (* outside of all calls *)
| WantLock | WantTry        (* passed the owner check, before m_mutex.lock() / try_lock() *)
| GotLock | GotTry          (* after it, before the owner is stored *)
| Drop.                     (* in unlock(), the owner is reset, before m_mutex.unlock() *)
Record st := St {
  s_hist : list (option tid);         (* all values the owner field had; [None] is the empty id *)
  s_view : tid -> nat;                (* the oldest index each thread may still read *)
  s_owner : option tid;               (* who holds m_mutex *)
  s_at : tid -> at_;
  s_holds : tid -> bool }.            (* ghost: returned from lock/try_lock and has not called unlock *)
Definition upd {A} (f : tid -> A) (t : tid) (a : A) : tid -> A := fun u => if decide (u = t) then a else f u.
(** m_current_owner starts as the empty id (its default constructor, in libstdc++) *)
Definition init : st := St [None] (fun _ => 0%nat) None (fun _ => Out) (fun _ => false).
(** what a call reports *)
Inductive event :=
| ECall (t : tid) | EThrow (t : tid) (deadlk : bool) | ELocked (t : tid) | ETry (t : tid) (b : bool) | EUnlocked (t : tid) | ETau (t : tid).

(** One step of one thread.  A thread calls unlock() only while it holds the mutex: anything else
    is undefined for std::mutex. *)
Inductive sstep : st -> event -> st -> Prop :=
(* lock(), 54-60: the check throws EDEADLK *)
| s_lock_throw s t i : s_at s t = Out -> (s_view s t <= i)%nat -> s_hist s !! i = Some (Some t) ->
    sstep s (EThrow t true) (St (s_hist s) (upd (s_view s) t i) (s_owner s) (s_at s) (s_holds s))
| s_lock_check s t i v : s_at s t = Out -> (s_view s t <= i)%nat -> s_hist s !! i = Some v -> v <> Some t ->
    sstep s (ECall t) (St (s_hist s) (upd (s_view s) t i) (s_owner s) (upd (s_at s) t WantLock) (s_holds s))
(* 61: waits until the mutex is free *)
| s_lock_take s t : s_at s t = WantLock -> s_owner s = None ->
    sstep s (ETau t) (St (s_hist s) (s_view s) (Some t) (upd (s_at s) t GotLock) (s_holds s))
(* 62-64 *)
| s_lock_store s t : s_at s t = GotLock ->
    sstep s (ELocked t) (St (s_hist s ++ [Some t]) (upd (s_view s) t (length (s_hist s))) (s_owner s) (upd (s_at s) t Out) (upd (s_holds s) t true))
(* try_lock(), 72-78 *)
| s_try_throw s t i : s_at s t = Out -> (s_view s t <= i)%nat -> s_hist s !! i = Some (Some t) ->
    sstep s (EThrow t true) (St (s_hist s) (upd (s_view s) t i) (s_owner s) (s_at s) (s_holds s))
| s_try_check s t i v : s_at s t = Out -> (s_view s t <= i)%nat -> s_hist s !! i = Some v -> v <> Some t ->
    sstep s (ECall t) (St (s_hist s) (upd (s_view s) t i) (s_owner s) (upd (s_at s) t WantTry) (s_holds s))
(* 79 *)
| s_try_take s t : s_at s t = WantTry -> s_owner s = None ->
    sstep s (ETau t) (St (s_hist s) (s_view s) (Some t) (upd (s_at s) t GotTry) (s_holds s))
| s_try_fail s t : s_at s t = WantTry ->
    sstep s (ETry t false) (St (s_hist s) (s_view s) (s_owner s) (upd (s_at s) t Out) (s_holds s))
(* 80-86 *)
| s_try_store s t : s_at s t = GotTry ->
    sstep s (ETry t true) (St (s_hist s ++ [Some t]) (upd (s_view s) t (length (s_hist s))) (s_owner s) (upd (s_at s) t Out) (upd (s_holds s) t true))
(* unlock(), 67-70 *)
| s_unlock_store s t : s_at s t = Out -> s_holds s t = true ->
    sstep s (ECall t) (St (s_hist s ++ [None]) (upd (s_view s) t (length (s_hist s))) (s_owner s) (upd (s_at s) t Drop) (upd (s_holds s) t false))
| s_unlock s t : s_at s t = Drop ->
    sstep s (EUnlocked t) (St (s_hist s) (s_view s) None (upd (s_at s) t Out) (s_holds s)).
Inductive execution : st -> Prop :=
| ex_init : execution init
| ex_step s e s' : execution s -> sstep s e s' -> execution s'.
