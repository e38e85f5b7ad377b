(** The kernel's side of concurrent requests: what it knows from the replies it has got and the
    requests it has made, and what it may ask.  Compare [kst], [klegal] and [hist] of FsSpec.v. *)
From Verif Require Export ConcSpec FsSpec.

(** [c_know]: lookup counts and directories; a lookup is counted when its reply arrives, a
    forget when it is sent.  [c_fly]: the requests in flight.  [c_cost]: bounds how many inode
    numbers and references all requests so far could use up.  [c_got]: requests and the calls of
    reply functions.  [c_asked]: all requests. *)
Record ckernel := CK { c_know : kst; c_fly : gmap Z creq; c_cost : Z; c_got : list (creq * list reply); c_asked : list creq }.
Definition know_call (q : creq) (k : kst) : kst :=
  match q with
  | CForget x n => forgot x n k
  | CForgetMulti l => foldr (fun f k => forgot f.1 f.2 k) k l
  | _ => k
  end.
(** what gets through to the kernel of the calls of reply functions: [answer], Fs.v *)
Definition know_reply (q : creq) (l : list reply) (k : kst) : kst :=
  match q, (answer l).1 with
  | CLookup _ _ _, [REntry c a] => told c (a_mode a) k
  | CPlus _ _ _, [RBuf b] => foldr told_plus k (kernel_reads_plus b)
  | _, _ => k
  end.
(** the directory a request works in; while it is in flight the kernel holds on to it *)
Definition works_in (q : creq) (x : Z) : Prop :=
  match q with CLookup _ p _ => x = p | COpendir _ p => x = p | _ => False end.
Definition may_call (c : ckernel) (q : creq) : Prop :=
  (forall x, works_in q x -> kdir (c_know c) x) /\
  match q with
  | CLookup b _ _ | CReadlink b _ | COpendir b _ => backend_ok b
  | CForget x n => 0 <= n <= kcount (c_know c) x
  | CForgetMulti l => Forall (fun f => 0 <= f.2) l /\ forall x, forget_total x l <= kcount (c_know c) x
  | _ => True
  end /\
  (forall i q' x, c_fly c !! i = Some q' -> works_in q' x -> kdir (know_call q (c_know c)) x).
(** the steps of a request in Fs.v *)
Definition step_of (i : Z) (q : creq) (rq : request) : Prop :=
  match q with
  | CPlus x size off => rq = QPlusBegin i x \/ rq = QPlusRun i size off
  | _ => as_request q = Some rq
  end.
Definition costs (q : creq) (w : Z) : Prop := 0 <= w /\ forall s i rq, step_of i q rq -> weight s rq <= w.
Inductive legal_trace : list clabel -> ckernel -> Prop :=
| lt_nil : legal_trace [] (CK k0 ∅ 0 [] [])
| lt_call tr c i q w : legal_trace tr c -> c_fly c !! i = None -> may_call c q -> costs q w -> c_cost c + w + 3 < 2 ^ 63 ->
    legal_trace (tr ++ [LCall i q]) (CK (know_call q (c_know c)) (<[i := q]> (c_fly c)) (c_cost c + w) (c_got c) (c_asked c ++ [q]))
| lt_ret tr c i q l : legal_trace tr c -> c_fly c !! i = Some q ->
    legal_trace (tr ++ [LRet i l]) (CK (know_reply q l (c_know c)) (delete i (c_fly c)) (c_cost c) (c_got c ++ [(q, l)]) (c_asked c))
| lt_kill tr c root : legal_trace tr c -> attrs_ok root ->
    legal_trace (tr ++ [LKill root]) (CK k0 ∅ (c_cost c) (c_got c) (c_asked c)).
