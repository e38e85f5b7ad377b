(** Histories of a cache used by one thread: operations inside transactions, commits,
    aborts, and crashes followed by reopening.  (Interleavings are in Txn*.v.) *)
From Verif Require Export CacheOps.

(** Committed database and the open read-write transaction; a new transaction is begun
    as soon as the previous one ends (begin_rw has no effect of its own). *)
Record world := World { w_comm : db; w_tx : tx }.
Inductive ev :=
| EOp (o : op)                 (* an operation of the open transaction *)
| ECommit                      (* commit it, cache.cpp:764-805 *)
| EAbort                       (* abort it, cache.cpp:741-762 *)
| ECrash (root : attrs).       (* the process dies and the cache is opened again, cache.cpp:298-333 *)

Definition wbegin (dr : db * refs) : world := World dr.1 (begin_tx dr.1 dr.2).
Definition wstep (w : world) (e : ev) : outcome world :=
  match e with
  | EOp o => dlet (_, t) := step (w_tx w) o in Done (World (w_comm w) t)
  | ECommit => Done (wbegin (commit_tx (w_tx w)))
  | EAbort => dlet r := abort_tx (w_tx w) in Done (wbegin (w_comm w, r))
  | ECrash root => dlet dr := open_cache root (w_comm w) in Done (wbegin dr)
  end.
Fixpoint wrun (w : world) (l : list ev) : outcome world :=
  match l with [] => Done w | e :: l => dlet w := wstep w e in wrun w l end.

(** the first opening, on an empty database *)
Definition wopen (root : attrs) : outcome world :=
  dlet dr := open_cache root db_empty in Done (wbegin dr).

(** Legal calls: emplace below an existing directory while inode numbers are left. *)
Definition legal_ev (w : world) (e : ev) : Prop :=
  match e with EOp o => legal (w_tx w) o | _ => True end.
Fixpoint legal_run (w : world) (l : list ev) : Prop :=
  match l with
  | [] => True
  | e :: l => legal_ev w e /\ forall w', wstep w e = Done w' -> legal_run w' l
  end.

Record WInv (w : world) : Prop := { winv_comm : Inv (w_comm w); winv_tx : TInv (w_tx w) }.

Lemma refs_ok_empty : refs_ok ∅.
Proof. intros x n b. rewrite lookup_empty. discriminate. Qed.

Lemma init_db_inv root : Inv (init_db root db_empty).
Proof.
  assert (Hl : forall x i, ({[1 := mkinode (set_mode S_IFDIR root) 0]} : gmap Z inode) !! x = Some i ->
    x = 1 /\ i = mkinode (set_mode S_IFDIR root) 0).
  { intros x i Hx. apply lookup_singleton_Some in Hx as [<- <-]. auto. }
  change (init_db root db_empty) with
    (Db (Some 2) (<[1 := mkinode (set_mode S_IFDIR root) 0]> ∅) ∅ ∅ ∅ ∅).
  rewrite insert_empty. split; cbn -[Z.pow].
  - exists 2. split; [reflexivity|]. split; [lia|]. intros x i Hx. apply Hl in Hx as [-> _]. lia.
  - rewrite lookup_singleton. eexists. split_and!; reflexivity.
  - set_solver.
  - intros p c e He. rewrite lookup_empty in He. discriminate.
  - intros p c e He. rewrite lookup_empty in He. discriminate.
  - intros x i Hx. apply Hl in Hx as [-> ->]. cbn. congruence.
  - set_solver.
  - intros x i Hx. apply Hl in Hx as [-> _]. congruence.
  - intros c b Hb. rewrite lookup_empty in Hb. discriminate.
Qed.

Lemma init_db_id root d : Inv d -> init_db root d = d.
Proof. intros H. destruct (inv_next _ H) as (n & Hn & _). unfold init_db. rewrite Hn. reflexivity. Qed.

Lemma gone_nil d r : (forall o, o ∈ d_orphans d -> 0 < refcount r o) -> forall x, ~ gone d r x.
Proof. intros H x Hg. induction Hg as [o Ho Hr|]; [specialize (H _ Ho); lia|assumption]. Qed.

Lemma cleaned_no_gone d r R : (forall x, x ∈ R <-> gone d r x) -> Inv d ->
  forall o, o ∈ d_orphans (cleaned R d) -> 0 < refcount r o.
Proof.
  intros HR H o Ho. apply cleaned_orphans in Ho as (HnR & Ho).
  destruct (Z_lt_le_dec 0 (refcount r o)) as [|Hle]; [assumption|]. exfalso. apply HnR. apply HR.
  destruct Ho as [Ho|(p & e & Hp & He)].
  - apply gone_orphan; assumption.
  - apply HR in Hp. eapply gone_child; eassumption.
Qed.
Lemma open_cache_spec root d : Inv (init_db root d) ->
  exists R : gset Z, (forall x, x ∈ R <-> gone (init_db root d) ∅ x) /\
    open_cache root d = Done (cleaned R (init_db root d), doom_all R ∅) /\
    Inv (cleaned R (init_db root d)) /\ refs_ok (doom_all R ∅) /\
    d_orphans (cleaned R (init_db root d)) = ∅.
Proof.
  intros H.
  destruct (tx_clean_spec (begin_tx (init_db root d) ∅)) as (R & HR & E & HT).
  { split; [assumption|apply refs_ok_empty|constructor]. }
  cbn in HR, E, HT.
  assert (Hno : d_orphans (cleaned R (init_db root d)) = ∅).
  { apply set_eq. intros x. split; [|set_solver]. intros Hx.
    pose proof (cleaned_no_gone _ _ R HR H x Hx) as Hc. unfold refcount in Hc. rewrite lookup_empty in Hc. lia. }
  exists R. split_and!; try apply HT; auto.
  unfold open_cache. rewrite E. cbn [obind].
  destruct (tx_clean_spec _ HT) as (R2 & HR2 & E2 & _). cbn in HR2. rewrite E2. cbn.
  assert (R2 = ∅) as ->.
  { apply set_eq. intros x. split; [|set_solver]. intros Hx. exfalso. apply HR2 in Hx. revert Hx.
    apply gone_nil. intros o Ho. rewrite Hno in Ho. set_solver. }
  unfold commit_tx. cbn. rewrite cleaned_empty, doom_all_empty. reflexivity.
Qed.

Lemma run_rollbacks_ok r hs r' : refs_ok r -> hooks_ok hs ->
  run_rollbacks r hs = Done r' -> refs_ok r'.
Proof.
  revert r. induction hs as [|h hs IH]; intros r Hr Hh E; [injection E as <-; assumption|].
  cbn in E. inversion Hh as [|? ? Hh1 Hh2]; subst.
  destruct (run_rollback r h) as [r1| | |] eqn:E1; try discriminate. cbn in E. apply (IH r1); auto.
  destruct h as [x|x n]; unfold run_rollback in E1.
  - destruct (decref_cases r x 1 ltac:(lia)) as [(Hle & b & Eb & Ed)|(_ & Ed)]; rewrite Ed in E1; cbn in E1; [|discriminate].
    injection E1 as <-. intros y k b'. destruct (decide (y = x)) as [->|Hne].
    + rewrite lookup_insert. intros E'. injection E' as <- <-. lia.
    + rewrite lookup_insert_ne by congruence. apply Hr.
  - pose proof (incref_ok r x n Hr Hh1) as Hi. destruct (incref r x n) as [[]]; [|discriminate]. injection E1 as <-. assumption.
Qed.


Lemma abort_ok t r : TInv t -> abort_tx t = Done r -> refs_ok r.
Proof.
  intros [_ Hr Hh] E. eapply run_rollbacks_ok; [exact Hr| |exact E]. apply Forall_rev. assumption.
Qed.
Lemma begin_inv d r : Inv d -> refs_ok r -> TInv (begin_tx d r).
Proof. intros. split; [assumption|assumption|constructor]. Qed.
Lemma wbegin_inv d r : Inv d -> refs_ok r -> WInv (wbegin (d, r)).
Proof. intros. split; [assumption|apply begin_inv; assumption]. Qed.

Lemma wopen_spec root : exists w, wopen root = Done w /\ WInv w.
Proof.
  unfold wopen. destruct (open_cache_spec root db_empty (init_db_inv root)) as (R & _ & E & Hi & Hr & _).
  rewrite E. cbn [obind]. eexists. split; [reflexivity|]. apply wbegin_inv; assumption.
Qed.
Lemma wstep_inv w e w' : WInv w -> legal_ev w e -> wstep w e = Done w' -> WInv w'.
Proof.
  intros [Hc Ht] Hl E. destruct e as [o| | |root]; cbn in *.
  - destruct (step_inv _ _ Ht Hl) as [(r & t' & Es & Ht')|(Es & _)]; rewrite Es in E; cbn in E; [|discriminate].
    injection E as <-. split; assumption.
  - injection E as <-. apply wbegin_inv; apply Ht.
  - destruct (abort_tx (w_tx w)) as [r| | |] eqn:Ea; try discriminate. injection E as <-.
    apply wbegin_inv; [assumption|]. eapply abort_ok; eassumption.
  - destruct (open_cache_spec root (w_comm w)) as (R & _ & Eo & Hi & Hr & _).
    { rewrite init_db_id; assumption. }
    rewrite Eo in E. injection E as <-. apply wbegin_inv; assumption.
Qed.
Lemma wrun_inv l w w' : WInv w -> legal_run w l -> wrun w l = Done w' -> WInv w'.
Proof.
  revert w. induction l as [|e l IH]; intros w Hw Hl E; [injection E as <-; assumption|].
  cbn in E, Hl. destruct Hl as [Hl1 Hl2]. destruct (wstep w e) as [w1| | |] eqn:E1; try discriminate.
  cbn in E. apply (IH w1); auto. eapply wstep_inv; eassumption.
Qed.

(** Reachable worlds. *)
Definition reachable (w : world) : Prop :=
  exists root w0 l, wopen root = Done w0 /\ legal_run w0 l /\ wrun w0 l = Done w.
Lemma reachable_inv w : reachable w -> WInv w.
Proof.
  intros (root & w0 & l & E0 & Hl & E). destruct (wopen_spec root) as (w1 & E1 & Hi).
  assert (w1 = w0) by congruence. subst. eapply wrun_inv; eassumption.
Qed.

(** Nothing but releasing too much or an abort can end the process: no assert fails, no
    loop diverges. *)
Lemma wstep_no_crash w e : WInv w -> legal_ev w e ->
  (exists w', wstep w e = Done w') \/
  (wstep w e = Throw /\ exists x n, e = EOp (ORelease x n) /\ refcount (t_refs (w_tx w)) x < n) \/
  e = EAbort.
Proof.
  intros [Hc Ht] Hl. destruct e as [o| | |root]; cbn in *; auto; [|eauto|].
  - destruct (step_inv _ _ Ht Hl) as [(r & t' & Es & Ht')|(Es & x & n & -> & Hn)]; rewrite Es; cbn; [eauto|].
    right. left. eauto 10.
  - destruct (open_cache_spec root (w_comm w)) as (R & _ & Eo & _); [rewrite init_db_id; assumption|].
    rewrite Eo. cbn. eauto.
Qed.
