(** The specification of concurrent requests: every request takes effect at one moment between
    its call and its reply, as one step of Fs.v (the atomic object of the linearizability
    literature).  A readdirplus request takes effect at two such moments: it reads the directory
    and later takes its references. *)
From Verif Require Export Conc.

Definition as_request (q : creq) : option request :=
  match q with
  | CLookup b p n => Some (QLookup b p n)
  | CForget x n => Some (QForget x n)
  | CForgetMulti l => Some (QForgetMulti l)
  | CGetattr x => Some (QGetattr x)
  | CReadlink b x => Some (QReadlink b x)
  | COpendir b x => Some (QOpendir b x)
  | CReaddir x size off => Some (QReaddir x size off)
  | CReleasedir x => Some (QReleasedir x)
  | COther tag => Some (QOther tag)
  | CPlus _ _ _ => None
  end.
Inductive pending := AWait (q : creq) | AHalf (size off : Z) | ADone (l : list reply).
Record aworld := AW { a_s : fstate; a_pend : gmap Z pending }.
Inductive astep : aworld -> clabel -> aworld -> Prop :=
| as_call s P i q : P !! i = None -> astep (AW s P) (LCall i q) (AW s (<[i := AWait q]> P))
| as_effect s P i q rq s' l : P !! i = Some (AWait q) -> as_request q = Some rq -> fstep s rq = Done (s', Some l) ->
    astep (AW s P) LTau (AW s' (<[i := ADone l]> P))
| as_plus_read s P i x size off s' : P !! i = Some (AWait (CPlus x size off)) -> fstep s (QPlusBegin i x) = Done (s', None) ->
    astep (AW s P) LTau (AW s' (<[i := AHalf size off]> P))
| as_plus_refs s P i size off s' l : P !! i = Some (AHalf size off) -> fstep s (QPlusRun i size off) = Done (s', Some l) ->
    astep (AW s P) LTau (AW s' (<[i := ADone l]> P))
| as_ret s P i l : P !! i = Some (ADone l) -> astep (AW s P) (LRet i l) (AW s (delete i P))
| as_kill s P root s' : fstep s (QRestart root) = Done (s', None) -> astep (AW s P) (LKill root) (AW s' ∅).
Inductive arun : aworld -> list clabel -> aworld -> Prop :=
| arun_nil a : arun a [] a
| arun_step a tr a' l a'' : arun a tr a' -> astep a' l a'' -> arun a (tr ++ seen l) a''.
(** a pending request that would not be handled to its end now *)
Inductive afault : aworld -> Prop :=
| af_effect s P i q rq : P !! i = Some (AWait q) -> as_request q = Some rq -> (forall x, fstep s rq <> Done x) -> afault (AW s P)
| af_plus s P i size off : P !! i = Some (AHalf size off) -> (forall x, fstep s (QPlusRun i size off) <> Done x) -> afault (AW s P).
Definition aopen (root : attrs) : outcome aworld :=
  dlet (d, r) := open_cache root db_empty in Done (AW (Fst d r ∅) ∅).
