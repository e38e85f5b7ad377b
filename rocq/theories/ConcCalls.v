(** Concurrent requests on a backend with a state: the threads of Conc.v on the machines of Backing.v.

    In Conc.v a request comes with a table of answers; here every call of the backend is a step of its
    own, in which the machine answers and changes its state, and anybody else may change that
    state between any two steps ([env]).  The rest is as in Conc.v.  [dir] of opendir lives until the
    handler returns (fs.cpp:212-249): it is destroyed after the commit and after the reply, without any lock. *)
From Verif Require Import Backing.
From Verif Require Import PropsConc.

(** ** Requests without answers, and with those of a table *)
Inductive breq := BLookup (p : Z) (n : bytes) | BReadlink (x : Z) | BOpendir (x : Z) | BPlain (q : creq).
Definition fill (q : breq) (b : backend) : creq :=
  match q with BLookup p n => CLookup b p n | BReadlink x => CReadlink b x | BOpendir x => COpendir b x | BPlain q => q end.
Definition no_backend (q : breq) : Prop :=
  match q with BPlain (CLookup _ _ _) | BPlain (CReadlink _ _) | BPlain (COpendir _ _) => False | _ => True end.

(** ** Programs with calls *)
Inductive bprog :=
| BRead (k : db -> bprog)
| BOp (o : op) (k : res Z -> bprog)
| BCommit (k : res unit -> list reply) (d : option Z)   (* [Some d]: the directory object [d] is alive *)
| BDrop (l : list reply)
| BFault
| BCall (c : bcall) (k : bans -> bprog)
| BList (d x : Z) (bp : bytes) (k : bprog).             (* at the head of the loop of opendir, fs.cpp:222-236 *)
Fixpoint emb (p : prog) : bprog :=
  match p with PRead k => BRead (fun d => emb (k d)) | POp o k => BOp o (fun x => emb (k x)) | PCommit k => BCommit k None | PDrop l => BDrop l | PFault => BFault end.
(** the call a program is about to make, and how it goes on *)
Definition about_to (p : bprog) : option (bcall * (bans -> bprog)) :=
  match p with
  | BCall c k => Some (c, k)
  | BList d x bp k => Some (KReaddir d, fun a =>
      match a with
      | AEntry n => BCall (KLstat (join_path bp n)) (fun a => match a with
          | AStat st => BOp (OEmplace x n (from_backend_stat st)) (fun _ => BList d x bp k)
          | _ => BList d x bp k
          end)
      | _ => k
      end)
  | _ => None
  end.
Definition at_path (x : Z) (k : bytes -> bprog) : bprog :=
  BRead (fun d => match path d x with Done (Ok pp) => k pp | Done (Err e) => BDrop [RErr e] | _ => BFault end).
(** lookup, fs.cpp:38-131: after the call of lstat *)
Definition p_lookup_rest (p : Z) (n : bytes) (r : res attrs) : prog :=
  let finish (ino : Z) (a : attrs) :=
    POp (OLock ino) (fun x => match x with
      | Err e => PDrop [RErr e]
      | Ok _ => PCommit (fun x => match x with Ok _ => [REntry ino a] | Err e => [RErr e] end)
      end) in
  match r with
  | Ok st =>
    let a := from_backend_stat st in
    POp (OEmplace p n a) (fun x => match x with Err e => PDrop [RErr e] | Ok ino => finish ino a end)
  | Err e =>
    if e =? ENOTCONN then
      PRead (fun d => match lookup d p n with
      | Err e =>
        if e =? ENOENT
        then PRead (fun d => match test_flag d p SYNCED with Ok true => PDrop [RErr e] | _ => PDrop [RErr EIO] end)
        else PDrop [RErr e]
      | Ok ino => PRead (fun d => match getattr d ino with Err _ => PDrop [RErr EIO] | Ok a => finish ino a end)
      end)
    else POp (OUnlinkName p n) (fun _ => PCommit (fun _ => [RErr e]))
  end.
Definition h_lookup (p : Z) (n : bytes) : bprog :=
  at_path p (fun pp => BCall (KLstat (pp ++ [47] ++ n)) (fun a => match a with AStat st => emb (p_lookup_rest p n (Ok st)) | AFail e => emb (p_lookup_rest p n (Err e)) | _ => BFault end)).
(** readlink, fs.cpp:158-194 *)
Definition p_readlink_rest (x : Z) (r : res bytes) : prog :=
  match r with
  | Ok link => POp (OWritelink x link) (fun _ => PCommit (fun _ => [RReadlink (cstr link)]))
  | Err e =>
    if e =? ENOTCONN
    then PRead (fun d => match readlink d x with Err e => PDrop [RErr e] | Ok link => PDrop [RReadlink (cstr link)] end)
    else POp (OUnlinkIno x) (fun _ => PCommit (fun _ => [RErr e]))
  end.
Definition h_readlink (x : Z) : bprog :=
  at_path x (fun pp => BCall (KReadlink (backend_path pp)) (fun a => match a with ALink l => emb (p_readlink_rest x (Ok l)) | AFail e => emb (p_readlink_rest x (Err e)) | _ => BFault end)).
(** opendir, fs.cpp:196-249 *)
Definition opened (x : res unit) : list reply := match x with Ok _ => [ROpen] | Err _ => [RErr EIO] end.
Definition h_opendir_end (x d : Z) : bprog :=
  BOp (OFlags x [SYNCED] []) (fun _ => BOp OFinishRewrite (fun _ => BCommit opened (Some d))).
Definition h_opendir (x : Z) : bprog :=
  at_path x (fun pp => BCall (KOpendir (backend_path pp)) (fun a => match a with
    | ADir d => BOp (OStartRewrite x) (fun _ => BList d x (backend_path pp) (h_opendir_end x d))
    | AFail e => if e =? ENOTCONN then BCommit opened None else BDrop [RErr e]
    | _ => BFault
    end)).
Definition bcode (q : breq) : (bool * bprog) + list reply :=
  match q with
  | BLookup p n => inl (true, h_lookup p n)
  | BReadlink x => inl (true, h_readlink x)
  | BOpendir x => inl (true, h_opendir x)
  | BPlain q => match code q with inl (wr, p) => inl (wr, emb p) | inr l => inr l end
  end.

(** ** Threads *)
Inductive bthread :=
| BWait (q : breq)
| BRun (q : breq) (wr : bool) (past : trace) (d : db) (rw : option (gset Z)) (p : bprog)   (* [past]: the calls it has made *)
| BTUnlock (l : list reply) (d : option Z)
| BTReply (l : list reply) (d : option Z)
| BTClose (d : Z)                              (* replied; about to destroy [dir] *)
| BTDrop1 (wr : bool)
| BTDrop2 (wr : bool).
Record bworld (Y : Type) := BW { b_comm : db; b_refs : refs; b_mutex : option Z; b_lock : option Z; b_th : gmap Z bthread; b_y : Y }.
Arguments BW {Y} _ _ _ _ _ _. Arguments b_comm {Y} _. Arguments b_refs {Y} _. Arguments b_mutex {Y} _. Arguments b_lock {Y} _. Arguments b_th {Y} _. Arguments b_y {Y} _.
Inductive blabel :=
| XCall (i : Z) (q : breq) | XRet (i : Z) (l : list reply) | XKill (root : attrs)
| XBack (i : Z) (c : bcall) (a : bans)         (* thread [i] calls the backend *)
| XTau.

Section machine.
Context {Y : Type} (B : machine Y) (env : Y -> Y -> Prop).
Inductive bstep : bworld Y -> blabel -> bworld Y -> Prop :=
| bs_call c r m k th y i q : th !! i = None -> no_backend q ->
    bstep (BW c r m k th y) (XCall i q) (BW c r m k (<[i := BWait q]> th) y)
| bs_none c r m k th y i q l : th !! i = Some (BWait q) -> bcode q = inr l ->
    bstep (BW c r m k th y) XTau (BW c r m k (<[i := BTReply l None]> th) y)
| bs_begin_rw c r m th y i q p : th !! i = Some (BWait q) -> bcode q = inl (true, p) ->
    bstep (BW c r m None th y) XTau (BW c r m (Some i) (<[i := BRun q true [] c None p]> th) y)
| bs_begin_ro c r m k th y i q p : th !! i = Some (BWait q) -> bcode q = inl (false, p) ->
    bstep (BW c r m k th y) XTau (BW c r m k (<[i := BRun q false [] c None p]> th) y)
| bs_read c r m k th y i q wr past d rw f : th !! i = Some (BRun q wr past d rw (BRead f)) ->
    bstep (BW c r m k th y) XTau (BW c r m k (<[i := BRun q wr past d rw (f d)]> th) y)
| bs_op c r m k th y i q wr past d rw o f x t : th !! i = Some (BRun q wr past d rw (BOp o f)) ->
    wr = true \/ reader_op o = true ->
    uses_refs (Tx d r [] rw) o = false -> opres (Tx d r [] rw) o = Done (x, t) ->
    bstep (BW c r m k th y) XTau (BW c (t_refs t) m k (<[i := BRun q wr past (t_db t) (t_rw t) (f x)]> th) y)
| bs_op_refs c r m k th y i q wr past d rw o f x t : th !! i = Some (BRun q wr past d rw (BOp o f)) ->
    wr = true \/ reader_op o = true ->
    uses_refs (Tx d r [] rw) o = true -> free_for i m -> opres (Tx d r [] rw) o = Done (x, t) ->
    bstep (BW c r m k th y) XTau (BW c (t_refs t) (Some i) k (<[i := BRun q wr past (t_db t) (t_rw t) (f x)]> th) y)
| bs_back c r m k th y i q wr past d rw p ca f a y' : th !! i = Some (BRun q wr past d rw p) -> about_to p = Some (ca, f) -> B y ca a y' ->
    bstep (BW c r m k th y) (XBack i ca a) (BW c r m k (<[i := BRun q wr (past ++ [(ca, a)]) d rw (f a)]> th) y')
| bs_commit_rw c r m k th y i q past d rw f od : th !! i = Some (BRun q true past d rw (BCommit f od)) ->
    bstep (BW c r m k th y) XTau (BW d r m None (<[i := BTUnlock (f (Ok tt)) od]> th) y)
| bs_commit_ro c r m k th y i q past d rw f od : th !! i = Some (BRun q false past d rw (BCommit f od)) ->
    bstep (BW c r m k th y) XTau (BW c r m k (<[i := BTUnlock (f (Ok tt)) od]> th) y)
| bs_unlock c r m k th y i l od : th !! i = Some (BTUnlock l od) ->
    bstep (BW c r m k th y) XTau (BW c r (unlock i m) k (<[i := BTReply l od]> th) y)
| bs_reply c r m k th y i l od : th !! i = Some (BTReply l od) ->
    bstep (BW c r m k th y) (XRet i l) (BW c r m k (match od with Some d => <[i := BTClose d]> th | None => delete i th end) y)
| bs_close c r m k th y i d a y' : th !! i = Some (BTClose d) -> B y (KDestroyDir d) a y' ->
    bstep (BW c r m k th y) (XBack i (KDestroyDir d) a) (BW c r m k (delete i th) y')
| bs_drop c r m k th y i q wr past d rw l : th !! i = Some (BRun q wr past d rw (BDrop l)) ->
    bstep (BW c r m k th y) (XRet i l) (BW c r m k (<[i := BTDrop1 wr]> th) y)
| bs_drop1 c r m k th y i wr : th !! i = Some (BTDrop1 wr) ->
    bstep (BW c r m k th y) XTau (BW c r (unlock i m) k (<[i := BTDrop2 wr]> th) y)
| bs_drop2 c r m k th y i wr : th !! i = Some (BTDrop2 wr) ->
    bstep (BW c r m k th y) XTau (BW c r m (if wr : bool then None else k) (delete i th) y)
| bs_kill c r m k th y root d r' : open_cache root c = Done (d, r') ->
    bstep (BW c r m k th y) (XKill root) (BW d r' None None ∅ y)
| bs_env c r m k th y y' : env y y' -> bstep (BW c r m k th y) XTau (BW c r m k th y').
(** runs, with all labels but [XTau] *)
Definition bseen (l : blabel) : list blabel := match l with XTau => [] | _ => [l] end.
Inductive brun : bworld Y -> list blabel -> bworld Y -> Prop :=
| brun_nil w : brun w [] w
| brun_step w l w1 T w' : bstep w l w1 -> brun w1 T w' -> brun w (bseen l ++ T) w'.
Definition bopen (root : attrs) (y : Y) : outcome (bworld Y) := dlet (d, r) := open_cache root db_empty in Done (BW d r None None ∅ y).
End machine.
