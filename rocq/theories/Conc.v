(** Concurrent requests: the handlers of src/fs.cpp as threads of the multi-threaded loop
    (main.cpp:116), on one cache.

    A handler is a program whose steps are the single operations of its transaction.  Trusted
    primitives as in Txn.v: LMDB's writer lock and snapshots, std::mutex.  Here a commit is two
    steps, the publication of the database and the unlocking of the mutex (cache.cpp:786, 797-803),
    and so is the destruction of a transaction that was not committed (its mutex is unlocked
    before LMDB's transaction ends: the order of the members, cache.hpp:490-494, 508).
    lock and release register only rollback callbacks, and no handler calls abort: hooks are not
    represented, and a commit succeeds (C26).  The backend's answers are those of Fs.v: arbitrary
    and fixed per request.  Each access of a transaction is one step. *)
From Verif Require Export Txn Fs.

(** ** Programs *)
Inductive prog :=
| PRead (k : db -> prog)                       (* read in the transaction's view *)
| POp (o : op) (k : res Z -> prog)             (* an operation and its result *)
| PCommit (k : res unit -> list reply)         (* commit, then reply *)
| PDrop (l : list reply)                       (* reply, then the transaction is destroyed *)
| PFault.                                      (* an exception, undefined behaviour or an endless loop *)
(** an operation with the value it returns; 0 stands for no value *)
Definition opres (t : tx) (o : op) : outcome (res Z * tx) :=
  match o with
  | OEmplace p n a => emplace t p n a
  | _ => dlet (x, t) := step t o in Done (match x with Ok _ => Ok 0 | Err e => Err e end, t)
  end.
Definition of_outcome {A} (x : outcome A) (k : A -> prog) : prog := match x with Done a => k a | _ => PFault end.

(** lookup, fs.cpp:38-131 *)
Definition p_lookup (b : backend) (p : Z) (n : bytes) : prog :=
  let finish (ino : Z) (a : attrs) :=
    POp (OLock ino) (fun x => match x with
      | Err e => PDrop [RErr e]
      | Ok _ => PCommit (fun x => match x with Ok _ => [REntry ino a] | Err e => [RErr e] end)
      end) in
  PRead (fun d => of_outcome (path d p) (fun pr =>
  match pr with
  | Err e => PDrop [RErr e]
  | Ok pp =>
    match b_lstat b 0 (pp ++ [47] ++ n) with
    | Ok st =>
      let a := from_backend_stat st in
      POp (OEmplace p n a) (fun x => match x with Err e => PDrop [RErr e] | Ok ino => finish ino a end)
    | Err e =>
      if e =? ENOTCONN then
        PRead (fun d => match lookup d p n with
        | Err e =>
          if e =? ENOENT
          then PRead (fun d => match test_flag d p SYNCED with Ok true => PDrop [RErr e] | _ => PDrop [RErr EIO] end)
          else PDrop [RErr e]
        | Ok ino => PRead (fun d => match getattr d ino with Err _ => PDrop [RErr EIO] | Ok a => finish ino a end)
        end)
      else POp (OUnlinkName p n) (fun _ => PCommit (fun _ => [RErr e]))
    end
  end)).
(** forget, fs.cpp:133-143 *)
Definition p_forget (ino n : Z) : prog :=
  POp (ORelease ino n) (fun x => match x with Err e => PDrop [RErr e] | Ok _ => PCommit (fun _ => [RNone]) end).
(** forget_multi, fs.cpp:374-382 *)
Fixpoint p_forgets (l : list (Z * Z)) : prog :=
  match l with
  | [] => PCommit (fun _ => [RNone])
  | (ino, n) :: l => POp (ORelease ino n) (fun _ => p_forgets l)
  end.
(** getattr, fs.cpp:145-156 *)
Definition p_getattr (ino : Z) : prog :=
  PRead (fun d => match getattr d ino with Err e => PDrop [RErr e] | Ok a => PDrop [RAttr ino a] end).
(** readlink, fs.cpp:158-194 *)
Definition p_readlink (b : backend) (ino : Z) : prog :=
  PRead (fun d => of_outcome (path d ino) (fun pr =>
  match pr with
  | Err e => PDrop [RErr e]
  | Ok pp =>
    match b_readlink b (backend_path pp) with
    | Ok link => POp (OWritelink ino link) (fun _ => PCommit (fun _ => [RReadlink (cstr link)]))
    | Err e =>
      if e =? ENOTCONN
      then PRead (fun d => match readlink d ino with Err e => PDrop [RErr e] | Ok link => PDrop [RReadlink (cstr link)] end)
      else POp (OUnlinkIno ino) (fun _ => PCommit (fun _ => [RErr e]))
    end
  end)).
(** opendir, fs.cpp:196-249 *)
Fixpoint p_entries (b : backend) (ino : Z) (bp : bytes) (i : nat) (names : list bytes) (k : prog) : prog :=
  match names with
  | [] => k
  | n :: names =>
    match b_lstat b i (join_path bp n) with
    | Err _ => p_entries b ino bp (S i) names k
    | Ok st => POp (OEmplace ino n (from_backend_stat st)) (fun _ => p_entries b ino bp (S i) names k)
    end
  end.
Definition p_opendir (b : backend) (ino : Z) : prog :=
  let finish := PCommit (fun x => match x with Ok _ => [ROpen] | Err _ => [RErr EIO] end) in
  PRead (fun d => of_outcome (path d ino) (fun pr =>
  match pr with
  | Err e => PDrop [RErr e]
  | Ok pp =>
    let bp := backend_path pp in
    match b_opendir b bp with
    | Err e => if e =? ENOTCONN then finish else PDrop [RErr e]
    | Ok (names, _) =>
      POp (OStartRewrite ino) (fun _ =>
      p_entries b ino bp 0 names (
      POp (OFlags ino [SYNCED] []) (fun _ =>
      POp OFinishRewrite (fun _ => finish))))
    end
  end)).
(** readdir, fs.cpp:251-301 *)
Definition p_readdir_end (ino : Z) (error : Z) (at_eof : bool) (buf : bytes) (to_send : nat) : prog :=
  let l := if error =? 0 then [] else [RErr error] in
  if at_eof && (length buf =? 0)%nat
  then PRead (fun d => match test_flag d ino SYNCED with
                       | Ok true => PDrop (l ++ [RBuf (take to_send buf)])
                       | _ => PDrop (l ++ [RErr EIO])
                       end)
  else PDrop (l ++ [RBuf (take to_send buf)]).
Fixpoint p_readdir_loop (fuel : nat) (ino size cursor : Z) (buf : bytes) (to_send : nat) : prog :=
  match fuel with
  | O => PFault
  | S fuel =>
    if Z.of_nat (length buf) <? size then
      let to_send := length buf in
      PRead (fun d => match readdir d ino cursor with
      | Err e => p_readdir_end ino e (e =? 0) buf to_send
      | Ok (x, n) =>
        PRead (fun d => match getattr d x with
        | Err e => p_readdir_end ino e false buf to_send
        | Ok a => of_outcome (dirbuf_add buf n x a x) (fun buf => p_readdir_loop fuel ino size x buf to_send)
        end)
      end)
    else p_readdir_end ino 0 false buf to_send
  end.
Definition p_readdir (ino size off : Z) : prog :=
  PRead (fun d => p_readdir_loop (dir_fuel d) ino size (w64 off) [] 0).
(** readdirplus, fs.cpp:308-372 *)
Definition p_plus_end (error : Z) (buf : bytes) (to_send : nat) : prog :=
  if error =? 0 then PCommit (fun x => match x with Ok _ => [RBuf (take to_send buf)] | Err _ => [RErr EIO] end)
  else PDrop [RErr error].
Fixpoint p_plus_loop (fuel : nat) (ino size cursor : Z) (buf : bytes) (to_send : nat) : prog :=
  match fuel with
  | O => PFault
  | S fuel =>
    if Z.of_nat (length buf) <? size then
      let to_send := length buf in
      PRead (fun d => match readdir d ino cursor with
      | Err e => p_plus_end e buf to_send
      | Ok (x, n) =>
        PRead (fun d => match getattr d x with
        | Err e => p_plus_end e buf to_send
        | Ok a => of_outcome (plusbuf_add buf n x a x) (fun buf =>
          if decide (n = DOT) then p_plus_loop fuel ino size x buf to_send
          else if decide (n = DOTDOT) then p_plus_loop fuel ino size x buf to_send
          else POp (OLock x) (fun l => match l with
            | Ok _ => p_plus_loop fuel ino size x buf to_send
            | Err e => if e =? ESTALE then p_plus_loop fuel ino size x (plusbuf_rewind buf to_send) to_send
                       else PDrop [RErr EIO]
            end))
        end)
      end)
    else p_plus_end 0 buf to_send
  end.
Definition p_plus (ino size off : Z) : prog :=
  PRead (fun d => p_plus_loop (dir_fuel d) ino size (w64 off) [] 0).

(** ** Requests of the kernel *)
Inductive creq :=
| CLookup (b : backend) (parent : Z) (name : bytes)
| CForget (ino n : Z)
| CForgetMulti (l : list (Z * Z))
| CGetattr (ino : Z)
| CReadlink (b : backend) (ino : Z)
| COpendir (b : backend) (ino : Z)
| CReaddir (ino size off : Z)
| CReleasedir (ino : Z)
| CPlus (ino size off : Z)
| COther (tag : Z).
(** begin_rw (true) or begin_ro (false), and the program; or the replies of a handler
    without a transaction (fs.cpp:303-306; the default handlers of interface.hpp) *)
Definition code (q : creq) : (bool * prog) + list reply :=
  match q with
  | CLookup b p n => inl (true, p_lookup b p n)
  | CForget x n => inl (false, p_forget x n)
  | CForgetMulti l => inl (false, p_forgets l)
  | CGetattr x => inl (false, p_getattr x)
  | CReadlink b x => inl (true, p_readlink b x)
  | COpendir b x => inl (true, p_opendir b x)
  | CReaddir x size off => inl (false, p_readdir x size off)
  | CReleasedir _ => inr [RNone]
  | CPlus x size off => inl (false, p_plus x size off)
  | COther _ => inr [RErr ENOSYS]
  end.

(** ** Threads *)
Inductive thread :=
| TWait (q : creq)                             (* called, not begun *)
| TRun (q : creq) (wr : bool) (d : db) (rw : option (gset Z)) (p : prog)
                                               (* in its transaction: its view and m_rewrite_inode_set *)
| TUnlock (l : list reply)                     (* published; mutex not yet unlocked; replies to send *)
| TReply (l : list reply)                      (* committed *)
| TDrop1 (wr : bool)                           (* replied; destroying the transaction: mutex *)
| TDrop2 (wr : bool).                          (* LMDB's transaction *)
(** [w_mutex]: the thread that owns m_in_memory_lock_mutex; [w_lock]: the one with LMDB's write
    transaction *)
Record cworld := CW { w_comm : db; w_refs : refs; w_mutex : option Z; w_lock : option Z; w_th : gmap Z thread }.
Inductive clabel :=
| LCall (i : Z) (q : creq)           (* the kernel makes a request *)
| LRet (i : Z) (l : list reply)      (* the reply functions the handler calls *)
| LKill (root : attrs)               (* the process dies and the cache is opened again *)
| LTau.
Definition unlock (i : Z) (m : option Z) : option Z := if decide (m = Some i) then None else m.
Definition free_for (i : Z) (m : option Z) : Prop := m = None \/ m = Some i.
(** a reader's transaction has no other operations *)
Definition reader_op (o : op) : bool := match o with OLock _ | ORelease _ _ => true | _ => false end.

Inductive cstep : cworld -> clabel -> cworld -> Prop :=
| cs_call c r m k th i q : th !! i = None ->
    cstep (CW c r m k th) (LCall i q) (CW c r m k (<[i := TWait q]> th))
| cs_none c r m k th i q l : th !! i = Some (TWait q) -> code q = inr l ->
    cstep (CW c r m k th) LTau (CW c r m k (<[i := TReply l]> th))
| cs_begin_rw c r m th i q p : th !! i = Some (TWait q) -> code q = inl (true, p) ->
    cstep (CW c r m None th) LTau (CW c r m (Some i) (<[i := TRun q true c None p]> th))
| cs_begin_ro c r m k th i q p : th !! i = Some (TWait q) -> code q = inl (false, p) ->
    cstep (CW c r m k th) LTau (CW c r m k (<[i := TRun q false c None p]> th))
| cs_read c r m k th i q wr d rw f : th !! i = Some (TRun q wr d rw (PRead f)) ->
    cstep (CW c r m k th) LTau (CW c r m k (<[i := TRun q wr d rw (f d)]> th))
| cs_op c r m k th i q wr d rw o f x t : th !! i = Some (TRun q wr d rw (POp o f)) ->
    wr = true \/ reader_op o = true ->
    uses_refs (Tx d r [] rw) o = false -> opres (Tx d r [] rw) o = Done (x, t) ->
    cstep (CW c r m k th) LTau (CW c (t_refs t) m k (<[i := TRun q wr (t_db t) (t_rw t) (f x)]> th))
| cs_op_refs c r m k th i q wr d rw o f x t : th !! i = Some (TRun q wr d rw (POp o f)) ->
    wr = true \/ reader_op o = true ->
    uses_refs (Tx d r [] rw) o = true -> free_for i m -> opres (Tx d r [] rw) o = Done (x, t) ->
    cstep (CW c r m k th) LTau (CW c (t_refs t) (Some i) k (<[i := TRun q wr (t_db t) (t_rw t) (f x)]> th))
| cs_commit_rw c r m k th i q d rw f : th !! i = Some (TRun q true d rw (PCommit f)) ->
    cstep (CW c r m k th) LTau (CW d r m None (<[i := TUnlock (f (Ok tt))]> th))
| cs_commit_ro c r m k th i q d rw f : th !! i = Some (TRun q false d rw (PCommit f)) ->
    cstep (CW c r m k th) LTau (CW c r m k (<[i := TUnlock (f (Ok tt))]> th))
| cs_unlock c r m k th i l : th !! i = Some (TUnlock l) ->
    cstep (CW c r m k th) LTau (CW c r (unlock i m) k (<[i := TReply l]> th))
| cs_reply c r m k th i l : th !! i = Some (TReply l) ->
    cstep (CW c r m k th) (LRet i l) (CW c r m k (delete i th))
| cs_drop c r m k th i q wr d rw l : th !! i = Some (TRun q wr d rw (PDrop l)) ->
    cstep (CW c r m k th) (LRet i l) (CW c r m k (<[i := TDrop1 wr]> th))
| cs_drop1 c r m k th i wr : th !! i = Some (TDrop1 wr) ->
    cstep (CW c r m k th) LTau (CW c r (unlock i m) k (<[i := TDrop2 wr]> th))
| cs_drop2 c r m k th i wr : th !! i = Some (TDrop2 wr) ->
    cstep (CW c r m k th) LTau (CW c r m (if wr : bool then None else k) (delete i th))
| cs_kill c r m k th root d r' : open_cache root c = Done (d, r') ->
    cstep (CW c r m k th) (LKill root) (CW d r' None None ∅).

(** a thread runs into an exception, an assertion or an endless loop *)
Inductive cfault : cworld -> Prop :=
| cf_prog c r m k th i q wr d rw : th !! i = Some (TRun q wr d rw PFault) -> cfault (CW c r m k th)
| cf_op c r m k th i q wr d rw o f : th !! i = Some (TRun q wr d rw (POp o f)) ->
    wr = true \/ reader_op o = true ->
    (uses_refs (Tx d r [] rw) o = true -> free_for i m) ->
    (forall x, opres (Tx d r [] rw) o <> Done x) -> cfault (CW c r m k th).

(** runs, with the observable labels *)
Definition seen (l : clabel) : list clabel := match l with LTau => [] | _ => [l] end.
Inductive crun : cworld -> list clabel -> cworld -> Prop :=
| crun_nil w : crun w [] w
| crun_step w tr w' l w'' : crun w tr w' -> cstep w' l w'' -> crun w (tr ++ seen l) w''.
(** the first mount *)
Definition copen (root : attrs) : outcome cworld :=
  dlet (d, r) := open_cache root db_empty in Done (CW d r None None ∅).
