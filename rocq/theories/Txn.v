(** Transactions of several threads on one cache: include/dragonstash/cache/cache.hpp:391-560
    (TransactionHook, CacheTransactionRO/RW) and src/cache/cache.cpp:278-432, 741-805.

    Trusted primitives: LMDB gives a reader the committed database as of its beginning,
    allows one top-level writer at a time, nested writers work on a private copy that
    replaces the parent's at commit; a commit is atomic and durable.  std::mutex has at most
    one owner.  An operation of a transaction is one atomic event here: its database part is
    private to the transaction, and its access to the shared reference table happens
    under the mutex which stays held to the end of the transaction. *)
From Verif Require Export CacheApi.

(** ** Transaction hooks, cache.hpp:391-474 *)
(** A hook registered by a user.  [u_s1] is absent for a null stage-1 callback, otherwise the
    result the callback will return; the other fields say whether a callback is present. *)
Record uhook := UHook { u_id : Z; u_s1 : option (res unit); u_s1r : bool; u_s2 : bool; u_rb : bool }.
(** [ran] is m_stage_1_ran.  [HRef]: the rollback-only hooks of lock and release. *)
Inductive thook := HUser (u : uhook) (ran : bool) | HRef (h : hook).
(** a call of a user callback *)
Inductive call := CS1 (id : Z) | CS1R (id : Z) | CS2 (id : Z) | CRB (id : Z).

(** the stage-1 loop of commit, cache.cpp:771-778, with TransactionHook::stage_1_commit,
    cache.hpp:443-452: calls made, hooks with updated flags, result *)
Fixpoint stage1 (hs : list thook) : list call * list thook * res unit :=
  match hs with
  | [] => ([], [], Ok tt)
  | HUser u ran :: hs =>
    match u_s1 u with
    | None => let '(l, hs', r) := stage1 hs in (l, HUser u ran :: hs', r)
    | Some (Err e) => ([CS1 (u_id u)], HUser u ran :: hs, Err e)
    | Some (Ok _) => let '(l, hs', r) := stage1 hs in (CS1 (u_id u) :: l, HUser u true :: hs', r)
    end
  | HRef h :: hs => let '(l, hs', r) := stage1 hs in (l, HRef h :: hs', r)
  end.
(** the stage-2 loop, cache.cpp:781-783; cache.hpp:460-464 *)
Definition stage2 (hs : list thook) : list call :=
  concat (map (fun h => match h with HUser u _ => if u_s2 u then [CS2 (u_id u)] else [] | HRef _ => [] end) hs).
(** the first loop of abort, cache.cpp:745-750; cache.hpp:454-458 *)
Definition stage1_rollbacks (hs : list thook) : list call :=
  concat (map (fun h => match h with HUser u ran => if ran && u_s1r u then [CS1R (u_id u)] else [] | HRef _ => [] end) (rev hs)).
(** the second loop of abort, cache.cpp:751-756; cache.hpp:466-470 *)
Fixpoint rollbacks (r : refs) (hs : list thook) : outcome (list call * refs) :=
  match hs with
  | [] => Done ([], r)
  | HUser u _ :: hs => dlet (l, r) := rollbacks r hs in Done ((if u_rb u then [CRB (u_id u)] else []) ++ l, r)
  | HRef h :: hs => dlet r := run_rollback r h in rollbacks r hs
  end.
Definition abort_hooks (r : refs) (hs : list thook) : outcome (list call * refs) :=
  dlet (l, r) := rollbacks r (rev hs) in Done (stage1_rollbacks hs ++ l, r).
(** the hook part of a top-level commit, cache.cpp:770-784 *)
Definition commit_hooks (r : refs) (hs : list thook) : outcome (res unit * list call * refs) :=
  let '(l, hs', x) := stage1 hs in
  match x with
  | Ok _ => Done (Ok tt, l ++ stage2 hs', r)
  | Err e => dlet (l', r) := abort_hooks r hs' in Done (Err e, l ++ l', r)
  end.

(** ** World *)
(** an open write transaction (top-level or nested) *)
Record frame := Frame { f_db : db; f_hooks : list thook; f_rw : option (gset Z) }.
(** an open read transaction *)
Record reader := Reader { r_snap : db; r_hooks : list thook }.
(** owner of the reference table's mutex: the write transaction at a nesting depth, or a reader *)
Inductive owner := OW (depth : nat) | OR (id : Z).
Record gworld := GW {
  g_comm : db;                      (* committed database *)
  g_refs : refs;                    (* in-memory references *)
  g_owner : option owner;           (* owner of m_in_memory_lock_mutex *)
  g_writer : list frame;            (* open write transactions, innermost first *)
  g_readers : gmap Z reader;
  g_next : Z;                       (* identity of the next reader *)
  g_log : list call }.              (* user callbacks called so far *)

(** Does an operation call inode_in_memory_locks()?  cache.cpp:691, 713 (lock, release), 1026
    (clean_orphans), reached from emplace (983) and unlink (993). *)
Definition uses_refs (t : tx) (o : op) : bool :=
  match o with
  | OEmplace p n a =>
    match check_name n true with
    | Err _ => false
    | Ok _ => match d_treen (t_db t) !! (p, n) with
              | None => true
              | Some e => match d_inodes (t_db t) !! de_ino e with
                          | None => false
                          | Some oi => negb (ftype (a_mode (i_attr oi)) =? ftype (a_mode a))
                          end
              end
    end
  | OUnlinkIno x | OUnlinkChild _ x => match make_orphan (t_db t) x with (Ok _, _) => true | _ => false end
  | OUnlinkName p n => match d_treen (t_db t) !! (p, n) with
                       | None => false
                       | Some e => match make_orphan (t_db t) (de_ino e) with (Ok _, _) => true | _ => false end
                       end
  | OClean | OLock _ => true
  | ORelease _ n => negb (n =? 0)
  | _ => false
  end.
(** inode_in_memory_locks, cache.cpp:414-432: the owner afterwards; None: the call blocks.
    A write transaction that runs an operation is the innermost one, so every owner [OW] is
    itself or an ancestor. *)
Definition depth (g : gworld) : nat := (length (g_writer g) - 1)%nat.
Definition acquire_w (g : gworld) : option owner :=
  match g_owner g with None => Some (OW (depth g)) | Some (OW m) => Some (OW m) | Some (OR _) => None end.
Definition acquire_r (g : gworld) (id : Z) : option owner :=
  match g_owner g with None => Some (OR id) | Some (OR j) => if j =? id then Some (OR j) else None | Some (OW _) => None end.

Inductive gev :=
| GBeginRO                         (* Cache::begin_ro, cache.cpp:335-338 *)
| GBeginRW                         (* Cache::begin_rw, 340-343 *)
| GNest                            (* CacheTransactionRW::begin_nested, cache.hpp:726-734 *)
| GOp (o : op)                     (* an operation of the innermost write transaction *)
| GHook (u : uhook)                (* add_transaction_hook, cache.hpp:568-578 *)
| GCommit | GAbort                 (* of the innermost write transaction *)
| GDrop                            (* its destruction without commit or abort *)
| GRLock (id x : Z) | GRRelease (id x n : Z) | GRHook (id : Z) (u : uhook)
| GRCommit (id : Z) | GRAbort (id : Z) | GRDrop (id : Z)
| GCrash (root : attrs).           (* the process dies and the cache is opened again *)

(** the mutex after the write transaction at depth [n] has ended, cache.cpp:759-761, 797-803
    ([up]: it is moved to the parent), or after its unique_lock was destroyed *)
Definition end_w (o : option owner) (n : nat) (up : bool) : option owner :=
  match o with
  | Some (OW m) => if (m =? n)%nat then (if up then Some (OW (n - 1)) else None) else o
  | _ => o
  end.
Definition end_r (o : option owner) (id : Z) : option owner :=
  match o with Some (OR j) => if j =? id then None else o | _ => o end.
Definition frame_tx (g : gworld) (f : frame) : tx := Tx (f_db f) (g_refs g) [] (f_rw f).
Definition reader_tx (g : gworld) (rd : reader) : tx := Tx (r_snap rd) (g_refs g) [] None.

(** One event.  None: it can not happen now (no such transaction, or the caller blocks). *)
Definition gstep (g : gworld) (e : gev) : option (outcome (res unit * gworld)) :=
  let '(GW comm r ow ws rs nx log) := g in
  let wop (f : frame) (fs : list frame) (ow : option owner) (o : op) :=
    Some (dlet (x, t) := step (frame_tx g f) o in
          Done (x, GW comm (t_refs t) ow (Frame (t_db t) (f_hooks f ++ map HRef (t_hooks t)) (t_rw t) :: fs) rs nx log)) in
  let rop (id : Z) (rd : reader) (ow : option owner) (o : outcome (res unit * tx)) :=
    Some (dlet (x, t) := o in
          Done (x, GW comm (t_refs t) ow ws (<[id := Reader (r_snap rd) (r_hooks rd ++ map HRef (t_hooks t))]> rs) nx log)) in
  let wend (f : frame) (fs : list frame) (comm' : db) (r' : refs) (x : res unit) (l : list call) :=
    Done (x, GW comm' r' (end_w ow (length fs) false) fs rs nx (log ++ l)) in
  match e with
  | GBeginRO => Some (Done (Ok tt, GW comm r ow ws (<[nx := Reader comm []]> rs) (nx + 1) log))
  | GBeginRW => match ws with [] => Some (Done (Ok tt, GW comm r ow [Frame comm [] None] rs nx log)) | _ => None end
  | GNest => match ws with
             | [] => None
             | f :: _ => Some (Done (Ok tt, GW comm r ow (Frame (f_db f) [] None :: ws) rs nx log))
             end
  | GOp o => match ws with
             | [] => None
             | f :: fs => if uses_refs (frame_tx g f) o
                          then match acquire_w g with None => None | Some ow' => wop f fs (Some ow') o end
                          else wop f fs ow o
             end
  | GHook u => match ws with
               | [] => None
               | f :: fs => Some (Done (Ok tt, GW comm r ow (Frame (f_db f) (f_hooks f ++ [HUser u false]) (f_rw f) :: fs) rs nx log))
               end
  | GCommit =>
    match ws with
    | [] => None
    | [f] => Some (dlet (xl, r') := commit_hooks r (f_hooks f) in
                   let '(x, l) := xl in
                   match x with
                   | Ok _ => wend f [] (f_db f) r' (Ok tt) l
                   | Err e => wend f [] comm r' (Err e) l
                   end)
    | f :: p :: fs =>
      Some (Done (Ok tt, GW comm r (end_w ow (length (p :: fs)) true)
                            (Frame (f_db f) (f_hooks p ++ f_hooks f) (f_rw p) :: fs) rs nx log))
    end
  | GAbort =>
    match ws with
    | [] => None
    | f :: fs => Some (dlet (l, r') := abort_hooks r (f_hooks f) in wend f fs comm r' (Ok tt) l)
    end
  | GDrop => match ws with [] => None | f :: fs => Some (wend f fs comm r (Ok tt) []) end
  | GRLock id x =>
    match rs !! id with
    | None => None
    | Some rd => match acquire_r g id with None => None | Some ow' => rop id rd (Some ow') (lock (reader_tx g rd) x) end
    end
  | GRRelease id x n =>
    match rs !! id with
    | None => None
    | Some rd => if n =? 0 then Some (Done (Ok tt, g))
                 else match acquire_r g id with None => None | Some ow' => rop id rd (Some ow') (release (reader_tx g rd) x n) end
    end
  | GRHook id u =>
    match rs !! id with
    | None => None
    | Some rd => Some (Done (Ok tt, GW comm r ow ws (<[id := Reader (r_snap rd) (r_hooks rd ++ [HUser u false])]> rs) nx log))
    end
  | GRCommit id =>
    match rs !! id with
    | None => None
    | Some rd => Some (dlet (xl, r') := commit_hooks r (r_hooks rd) in
                       let '(x, l) := xl in Done (x, GW comm r' (end_r ow id) ws (delete id rs) nx (log ++ l)))
    end
  | GRAbort id =>
    match rs !! id with
    | None => None
    | Some rd => Some (dlet (l, r') := abort_hooks r (r_hooks rd) in
                       Done (Ok tt, GW comm r' (end_r ow id) ws (delete id rs) nx (log ++ l)))
    end
  | GRDrop id =>
    match rs !! id with
    | None => None
    | Some rd => Some (Done (Ok tt, GW comm r (end_r ow id) ws (delete id rs) nx log))
    end
  | GCrash root => Some (dlet (d, r') := open_cache root comm in Done (Ok tt, GW d r' None [] ∅ nx log))
  end.

(** the first opening *)
Definition gopen (root : attrs) : outcome gworld :=
  dlet (d, r) := open_cache root db_empty in Done (GW d r None [] ∅ 0 []).

(** calls within the documented preconditions, as in CacheOps.legal *)
Definition glegal (g : gworld) (e : gev) : Prop :=
  match e with
  | GOp o => forall f fs, g_writer g = f :: fs -> legal (frame_tx g f) o
  | GRRelease _ _ n => 0 <= n
  | _ => True
  end.
(** a history with the results of its events *)
Inductive grun : gworld -> list (gev * res unit) -> gworld -> Prop :=
| grun_nil g : grun g [] g
| grun_cons g e x g1 l g2 : glegal g e -> gstep g e = Some (Done (x, g1)) -> grun g1 l g2 -> grun g ((e, x) :: l) g2.
(** states after a history of fewer than 2^64 events *)
Definition greachable (n : nat) (g : gworld) : Prop :=
  exists root g0 l, gopen root = Done g0 /\ grun g0 l g /\ length l = n /\ Z.of_nat n < 2 ^ 64.
