(** The convenience interface of Cache: single calls that open and end their own transaction
    (cache.cpp:278-294, 345-401), used by one thread.

    [db * refs] is a cache between two transactions: the committed database and the in-memory
    references. *)
From Verif Require Export CacheApi PropsCache PropsCache2 LmdbOps.

(** with_rw_txn, cache.cpp:278-294.  The result of clean_orphans is ignored; commit cannot fail
    as lock and release register no commit hooks.  If the operation throws, the transaction is
    destroyed: LMDB discards its changes, no rollback hook runs; the only operation that throws,
    release, does so before it changes the references. *)
Definition with_rw_txn (c : db * refs) (o : op) : outcome (res Z * (db * refs)) :=
  dlet (x, t) := step_val (begin_tx c.1 c.2) o in
  match x with
  | Err e => dlet r := abort_tx t in Done (Err e, (c.1, r))
  | Ok v => dlet t := tx_clean t in Done (Ok v, commit_tx t)
  end.
Inductive call :=
| KEmplace (p : Z) (n : bytes) (a : attrs)     (* 365-370 *)
| KLock (x : Z)                                 (* 372-377 *)
| KRelease (x : Z)                              (* 379-384; count 1, cache.hpp:680 *)
| KWritelink (x : Z) (dst : bytes)              (* 391-396 *)
| KName (x : Z) | KParent (x : Z) | KLookup (p : Z) (n : bytes) | KGetattr (x : Z) | KReadlink (x : Z) | KPath (x : Z).
Inductive answer := AVal (r : res Z) | ABytes (r : res bytes) | AAttr (r : res attrs) | AThrown.
(** a read call runs on the committed state (begin_ro) *)
Definition api (c : db * refs) (k : call) : outcome (answer * (db * refs)) :=
  let wr o := match with_rw_txn c o with Done (x, c) => Done (AVal x, c) | Throw => Done (AThrown, c) | Crash => Crash | Diverge => Diverge end in
  match k with
  | KEmplace p n a => wr (OEmplace p n a)
  | KLock x => wr (OLock x)
  | KRelease x => wr (ORelease x 1)
  | KWritelink x dst => wr (OWritelink x dst)
  | KName x => Done (ABytes (name_of c.1 x), c)
  | KParent x => Done (AVal (parent_of c.1 x), c)
  | KLookup p n => Done (AVal (lookup c.1 p n), c)
  | KGetattr x => Done (AAttr (getattr c.1 x), c)
  | KReadlink x => Done (ABytes (readlink c.1 x), c)
  | KPath x => dlet r := path c.1 x in Done (ABytes r, c)
  end.
