(** Property theorems C26-C29, C47, C48: several transactions of several threads on one cache.

    [greachable n g]: [g] is a state after some history of n < 2^64 events (begin, operations,
    nested begin, commit, abort, destruction, reader events, crashes) on a fresh database. *)
From Verif Require Import TxnGlobal PropsCache.

(** ** C26: the commit protocol of transaction hooks *)
(** the registered hooks of a transaction, in order of registration *)
Definition user_hooks (hs : list thook) : list uhook :=
  concat (map (fun h => match h with HUser u _ => [u] | HRef _ => [] end) hs).
(** the calls of one kind that a list of hooks can receive (absent callbacks receive none) *)
Definition s1s (us : list uhook) : list call :=
  concat (map (fun u => match u_s1 u with Some _ => [CS1 (u_id u)] | None => [] end) us).
Definition s2s (us : list uhook) : list call := concat (map (fun u => if u_s2 u then [CS2 (u_id u)] else []) us).
Definition rbs (us : list uhook) : list call := concat (map (fun u => if u_rb u then [CRB (u_id u)] else []) us).
Definition s1rs (us : list uhook) : list call :=
  concat (map (fun u => match u_s1 u with Some _ => if u_s1r u then [CS1R (u_id u)] else [] | None => [] end) us).
Definition succeeds (u : uhook) : Prop := forall e, u_s1 u <> Some (Err e).

(** no hook of an open transaction has run *)
Definition fresh (hs : list thook) : Prop := Forall (fun h => match h with HUser _ ran => ran = false | HRef _ => True end) hs.
Definition gfresh (g : gworld) : Prop :=
  Forall (fun f => fresh (f_hooks f)) (g_writer g) /\ forall id rd, g_readers g !! id = Some rd -> fresh (r_hooks rd).
Lemma fresh_app a b : fresh (a ++ b) <-> fresh a /\ fresh b. Proof. unfold fresh. apply Forall_app. Qed.
Lemma fresh_HRef l : fresh (map HRef l). Proof. apply Forall_map, Forall_true. intros; exact I. Qed.
Lemma gt_fresh g e x g' : gt g e x g' -> gfresh g -> gfresh g'.
Proof.
  assert (Hd : forall (rs : gmap Z reader) id, (forall j rd, rs !! j = Some rd -> fresh (r_hooks rd)) -> forall j rd, delete id rs !! j = Some rd -> fresh (r_hooks rd)).
  { intros rs id H j rd E. apply lookup_delete_Some in E as [_ E]. eauto. }
  assert (Hi : forall (rs : gmap Z reader) id new, fresh (r_hooks new) -> (forall j rd, rs !! j = Some rd -> fresh (r_hooks rd)) -> forall j rd, <[id := new]> rs !! j = Some rd -> fresh (r_hooks rd)).
  { intros rs id new Hn H j rd E. destruct (decide (j = id)) as [->|]; [rewrite lookup_insert in E; injection E as <-; assumption|rewrite lookup_insert_ne in E by congruence; eauto]. }
  intros Hgt [HF HR]; destruct Hgt; unfold gfresh; try subst g; cbn [g_writer g_readers] in *;
    repeat match goal with H : Forall _ (_ :: _) |- _ => inversion H; clear H; subst end;
    (split; [repeat match goal with |- Forall _ (_ :: _) => constructor | |- Forall _ [] => constructor end; cbn [f_hooks]; auto|eauto]);
    try (apply fresh_app; split; [assumption|]; try apply fresh_HRef; repeat constructor);
    try (apply Hi; [|assumption]; cbn [r_hooks]; try (apply fresh_app; split; [eauto|]; try apply fresh_HRef); repeat constructor).
  - constructor.
  - constructor.
  - assumption.
  - intros id rd E. rewrite lookup_empty in E. discriminate.
Qed.
Lemma greachable_fresh n g : greachable n g -> gfresh g.
Proof.
  intros (root & g0 & l & Ho & Hr & _). assert (H0 : gfresh g0).
  { unfold gopen in Ho. destruct (open_cache root db_empty) as [[d r]| | |]; try discriminate. injection Ho as <-. split; cbn; [constructor|]. intros id rd. rewrite lookup_empty. discriminate. }
  clear Ho. induction Hr; [assumption|]. apply IHHr. eapply gt_fresh; [|exact H0]. apply gstep_gt. eassumption.
Qed.

Lemma user_hooks_app a b : user_hooks (a ++ b) = user_hooks a ++ user_hooks b.
Proof. unfold user_hooks. rewrite map_app, concat_app. reflexivity. Qed.
Lemma user_hooks_rev hs : user_hooks (rev hs) = rev (user_hooks hs).
Proof.
  induction hs as [|h hs IH]; [reflexivity|]. cbn [rev]. rewrite user_hooks_app, IH.
  rewrite (user_hooks_app [h] hs : user_hooks (h :: hs) = _). rewrite rev_app_distr. f_equal. destruct h; reflexivity.
Qed.
Lemma rb_calls_users hs : rb_calls hs = rbs (user_hooks hs).
Proof. induction hs as [|[u ran|h] hs IH]; [reflexivity| |exact IH]. change (rb_calls (HUser u ran :: hs)) with ((if u_rb u then [CRB (u_id u)] else []) ++ rb_calls hs). rewrite IH. reflexivity. Qed.
Lemma concat_rev_small {A B} (f : A -> list B) l : (forall a, (length (f a) <= 1)%nat) -> concat (map f (rev l)) = rev (concat (map f l)).
Proof.
  intros H. induction l as [|a l IH]; [reflexivity|]. cbn [rev map concat]. rewrite map_app, concat_app, rev_app_distr, IH. f_equal. cbn. rewrite app_nil_r.
  specialize (H a). destruct (f a) as [|b [|c m]]; cbn in *; [reflexivity|reflexivity|lia].
Qed.
Lemma rbs_rev us : rbs (rev us) = rev (rbs us).
Proof. apply concat_rev_small. intros u. destruct (u_rb u); cbn; lia. Qed.
Lemma s1rs_rev us : s1rs (rev us) = rev (s1rs us).
Proof. apply concat_rev_small. intros u. destruct (u_s1 u); [destruct (u_s1r u)|]; cbn; lia. Qed.
(** the loop runs through *)
Lemma stage1_ok hs : Forall succeeds (user_hooks hs) -> exists hs', stage1 hs = (s1s (user_hooks hs), hs', Ok tt) /\ user_hooks hs' = user_hooks hs.
Proof.
  induction hs as [|[u ran|h] hs IH]; intros H.
  - exists []. auto.
  - change (user_hooks (HUser u ran :: hs)) with (u :: user_hooks hs) in H. inversion H as [|? ? Hu H']; subst. destruct (IH H') as (hs' & E & Eu). cbn [stage1].
    rewrite E. destruct (u_s1 u) as [[[]|err]|] eqn:Es; [| |].
    + exists (HUser u true :: hs'). split; [|change (u :: user_hooks hs' = u :: user_hooks hs); congruence].
      change (user_hooks (HUser u ran :: hs)) with (u :: user_hooks hs). unfold s1s. cbn [map concat]. rewrite Es. reflexivity.
    + exfalso. exact (Hu err Es).
    + exists (HUser u ran :: hs'). split; [|change (u :: user_hooks hs' = u :: user_hooks hs); congruence].
      change (user_hooks (HUser u ran :: hs)) with (u :: user_hooks hs). unfold s1s. cbn [map concat]. rewrite Es. reflexivity.
  - destruct (IH H) as (hs' & E & Eu). cbn [stage1]. rewrite E. exists (HRef h :: hs'). split; [reflexivity|]. exact Eu.
Qed.
Lemma stage2_users hs : stage2 hs = s2s (user_hooks hs).
Proof. induction hs as [|[u ran|h] hs IH]; [reflexivity| |exact IH]. change (stage2 (HUser u ran :: hs)) with ((if u_s2 u then [CS2 (u_id u)] else []) ++ stage2 hs). rewrite IH. reflexivity. Qed.
Lemma stage1_rollbacks_fresh hs : fresh hs -> stage1_rollbacks hs = [].
Proof.
  intros H. unfold stage1_rollbacks. apply Forall_rev in H. induction H as [|h l Hh _ IH]; [reflexivity|]. cbn. rewrite IH.
  destruct h as [u ran|h]; [rewrite Hh|]; reflexivity.
Qed.
Lemma stage1_rollbacks_cons h hs : stage1_rollbacks (h :: hs) = stage1_rollbacks hs ++ stage1_rollbacks [h].
Proof. unfold stage1_rollbacks. cbn [rev]. rewrite map_app, concat_app. reflexivity. Qed.
Lemma stage1_err hs : forall us1 u us2 err, fresh hs -> user_hooks hs = us1 ++ u :: us2 -> Forall succeeds us1 -> u_s1 u = Some (Err err) ->
  exists hs', stage1 hs = (s1s us1 ++ [CS1 (u_id u)], hs', Err err) /\ user_hooks hs' = user_hooks hs  /\
    stage1_rollbacks hs' = rev (s1rs us1).
Proof.
  induction hs as [|[v ran|h] hs IH]; intros us1 u us2 err Hf E H1 Hu.
  - destruct us1; discriminate.
  - change (user_hooks (HUser v ran :: hs)) with (v :: user_hooks hs) in *. inversion Hf as [|? ? Hran Hf']; subst. cbn [stage1].
    destruct us1 as [|w us1].
    + cbn in E. injection E as -> E. rewrite Hu. exists (HUser u false :: hs). split_and!; [reflexivity|reflexivity|].
      apply stage1_rollbacks_fresh. constructor; [reflexivity|assumption].
    + cbn in E. injection E as -> E. inversion H1 as [|? ? Hw H1']; subst. destruct (IH us1 u us2 err Hf' E H1' Hu) as (hs' & Es & Eu & Er). rewrite Es.
      destruct (u_s1 w) as [[[]|e2]|] eqn:Ew.
      * exists (HUser w true :: hs'). split_and!.
        -- unfold s1s. cbn [map concat]. rewrite Ew. reflexivity.
        -- change (w :: user_hooks hs' = w :: user_hooks hs). congruence.
        -- rewrite stage1_rollbacks_cons, Er. unfold s1rs at 2. cbn [map concat]. rewrite Ew. unfold stage1_rollbacks. cbn. destruct (u_s1r w); cbn; [reflexivity|]. apply app_nil_r.
      * exfalso. exact (Hw _ Ew).
      * exists (HUser w false :: hs'). split_and!.
        -- unfold s1s. cbn [map concat]. rewrite Ew. reflexivity.
        -- change (w :: user_hooks hs' = w :: user_hooks hs). congruence.
        -- rewrite stage1_rollbacks_cons, Er. unfold s1rs at 2. cbn [map concat]. rewrite Ew. unfold stage1_rollbacks. cbn. apply app_nil_r.
  - inversion Hf as [|? ? _ Hf']; subst. destruct (IH us1 u us2 err Hf' E H1 Hu) as (hs' & Es & Eu & Er). cbn [stage1]. rewrite Es.
    exists (HRef h :: hs'). split_and!; [reflexivity|exact Eu|]. rewrite stage1_rollbacks_cons, Er. apply app_nil_r.
Qed.
Lemma commit_hooks_ok r hs : Forall succeeds (user_hooks hs) ->
  commit_hooks r hs = Done (Ok tt, s1s (user_hooks hs) ++ s2s (user_hooks hs), r).
Proof. intros H. destruct (stage1_ok hs H) as (hs' & E & Eu). unfold commit_hooks. rewrite E, stage2_users, Eu. reflexivity. Qed.
Lemma commit_hooks_err r hs us1 u us2 err : fresh hs -> user_hooks hs = us1 ++ u :: us2 -> Forall succeeds us1 -> u_s1 u = Some (Err err) ->
  commit_hooks r hs = (dlet r' := run_rollbacks r (rev (refhooks hs)) in
    Done (Err err, s1s us1 ++ [CS1 (u_id u)] ++ rev (s1rs us1) ++ rev (rbs (user_hooks hs)), r')).
Proof.
  intros Hf E H1 Hu. destruct (stage1_err hs us1 u us2 err Hf E H1 Hu) as (hs' & Es & Eu & Er). unfold commit_hooks. rewrite Es, abort_hooks_split.
  rewrite (stage1_refhooks _ _ _ _ Es), Er, rb_calls_users, user_hooks_rev, Eu, rbs_rev.
  destruct (run_rollbacks r (rev (refhooks hs))); cbn; [|reflexivity..]. rewrite <- !app_assoc. reflexivity.
Qed.
Lemma abort_hooks_fresh r hs : fresh hs -> abort_hooks r hs = (dlet r' := run_rollbacks r (rev (refhooks hs)) in Done (rev (rbs (user_hooks hs)), r')).
Proof. intros Hf. rewrite abort_hooks_split, stage1_rollbacks_fresh, rb_calls_users, user_hooks_rev, rbs_rev by assumption. reflexivity. Qed.

(** an open transaction that is not nested: the write transaction without parent, or a reader *)
Definition top_txn (g : gworld) (commit abort : gev) (hs : list thook) : Prop :=
  (exists f, g_writer g = [f] /\ hs = f_hooks f /\ commit = GCommit /\ abort = GAbort) \/
  (exists id rd, g_readers g !! id = Some rd /\ hs = r_hooks rd /\ commit = GRCommit id /\ abort = GRAbort id).

(** All stage-1 callbacks succeed: they run in order, then all stage-2 callbacks in order, no
    rollback, and commit reports success. *)
Theorem C26_commit_succeeds : forall n g commit abort hs, greachable n g -> top_txn g commit abort hs ->
  Forall succeeds (user_hooks hs) ->
  exists g', gstep g commit = Some (Done (Ok tt, g')) /\
    g_log g' = g_log g ++ s1s (user_hooks hs) ++ s2s (user_hooks hs).
Proof.
  intros n g commit abort hs _ Htop Hs. destruct g as [comm r ow ws rs nx log]. pose proof (commit_hooks_ok r hs Hs) as Ec.
  destruct Htop as [(f & Hw & -> & -> & ->)|(id & rd & Hr & -> & -> & ->)]; cbn in Hw || cbn in Hr.
  - subst ws. unfold gstep. cbv zeta. rewrite Ec. cbn [obind]. eexists. split; reflexivity.
  - unfold gstep. cbv zeta. rewrite Hr, Ec. cbn [obind]. eexists. split; reflexivity.
Qed.
Print Assumptions C26_commit_succeeds.

(** The first failing stage-1 callback is that of [u]: the stage-1 callbacks up to it have run in
    order; the stage-1 rollbacks of those before it run in reverse; then the rollbacks of all hooks
    in reverse; no stage-2 callback; commit reports the error and the database is unchanged. *)
Theorem C26_commit_fails : forall n g commit abort hs us1 u us2 err x g', greachable n g -> top_txn g commit abort hs ->
  user_hooks hs = us1 ++ u :: us2 -> Forall succeeds us1 -> u_s1 u = Some (Err err) ->
  gstep g commit = Some (Done (x, g')) ->
  x = Err err /\ g_comm g' = g_comm g /\
    g_log g' = g_log g ++ s1s us1 ++ [CS1 (u_id u)] ++ rev (s1rs us1) ++ rev (rbs (us1 ++ u :: us2)).
Proof.
  intros n g commit abort hs us1 u us2 err x g' Hg Htop E H1 Hu Es. destruct (greachable_fresh _ _ Hg) as [Hf Hfr].
  destruct g as [comm r ow ws rs nx log]. cbn in Hf, Hfr.
  destruct Htop as [(f & Hw & -> & -> & ->)|(id & rd & Hr & -> & -> & ->)]; cbn in Hw || cbn in Hr.
  - subst ws. inversion Hf as [|? ? Hf1 _]; subst. unfold gstep in Es. cbv zeta in Es. rewrite (commit_hooks_err _ _ us1 u us2 err Hf1 E H1 Hu) in Es.
    destruct (run_rollbacks r (rev (refhooks (f_hooks f)))); try discriminate. cbn [obind] in Es. injection Es as <- <-. cbn [g_log g_comm]. rewrite E. auto.
  - unfold gstep in Es. cbv zeta in Es. rewrite Hr in Es. rewrite (commit_hooks_err _ _ us1 u us2 err (Hfr _ _ Hr) E H1 Hu) in Es.
    destruct (run_rollbacks r (rev (refhooks (r_hooks rd)))); try discriminate. cbn [obind] in Es. injection Es as <- <-. cbn [g_log g_comm]. rewrite E. auto.
Qed.
Print Assumptions C26_commit_fails.

(** On abort of any open transaction (also a nested one) only rollbacks run, in reverse. *)
Theorem C26_abort : forall n g x g', greachable n g ->
  (forall f fs, g_writer g = f :: fs -> gstep g GAbort = Some (Done (x, g')) ->
     x = Ok tt /\ g_comm g' = g_comm g /\ g_log g' = g_log g ++ rev (rbs (user_hooks (f_hooks f)))) /\
    (forall id rd, g_readers g !! id = Some rd -> gstep g (GRAbort id) = Some (Done (x, g')) ->
     x = Ok tt /\ g_comm g' = g_comm g /\ g_log g' = g_log g ++ rev (rbs (user_hooks (r_hooks rd)))).
Proof.
  intros n g x g' Hg. destruct (greachable_fresh _ _ Hg) as [Hf Hfr]. destruct g as [comm r ow ws rs nx log]. cbn in Hf, Hfr. split.
  - intros f fs Hw Es. cbn in Hw. subst ws. inversion Hf as [|? ? Hf1 _]; subst. unfold gstep in Es. cbv zeta in Es. rewrite (abort_hooks_fresh _ _ Hf1) in Es.
    destruct (run_rollbacks r (rev (refhooks (f_hooks f)))); try discriminate. cbn [obind] in Es. injection Es as <- <-. auto.
  - intros id rd Hr Es. cbn in Hr. unfold gstep in Es. cbv zeta in Es. rewrite Hr in Es. rewrite (abort_hooks_fresh _ _ (Hfr _ _ Hr)) in Es.
    destruct (run_rollbacks r (rev (refhooks (r_hooks rd)))); try discriminate. cbn [obind] in Es. injection Es as <- <-. auto.
Qed.
Print Assumptions C26_abort.
(** No callback runs at any other event: in particular not when a nested transaction commits or
    when a transaction is destroyed without commit or abort. *)
Theorem C26_no_other_calls : forall n g e x g', greachable n g -> gstep g e = Some (Done (x, g')) ->
  g_log g' = g_log g \/ (exists commit abort hs, top_txn g commit abort hs /\ e = commit) \/ e = GAbort \/ exists id, e = GRAbort id.
Proof.
  intros n g e x g' _ E. apply gstep_gt in E. destruct E; cbn; auto.
  - right. left. exists GCommit, GAbort, (f_hooks f). split; [left; exists f; auto|reflexivity].
  - right. left. exists GCommit, GAbort, (f_hooks f). split; [left; exists f; auto|reflexivity].
  - left. apply app_nil_r.
  - right. left. exists (GRCommit id), (GRAbort id), (r_hooks rd). split; [right; exists id, rd; auto|reflexivity].
  - right. left. exists (GRCommit id), (GRAbort id), (r_hooks rd). split; [right; exists id, rd; auto|reflexivity].
  - right. right. right. eauto.
Qed.
Print Assumptions C26_no_other_calls.

(** ** Concrete histories *)
(** run a history from a fresh cache, checking that it is legal *)
Definition glegalb (g : gworld) (e : gev) : bool :=
  match e with
  | GOp o => match g_writer g with f :: _ => legalb (frame_tx g f) o | [] => true end
  | GRRelease _ _ n => 0 <=? n
  | _ => true
  end.
Fixpoint gexec (g : gworld) (l : list gev) : option (list (gev * res unit) * gworld) :=
  match l with
  | [] => Some ([], g)
  | e :: l => if glegalb g e then
                match gstep g e with
                | Some (Done (x, g')) => match gexec g' l with Some (h, g2) => Some ((e, x) :: h, g2) | None => None end
                | _ => None
                end
              else None
  end.
Lemma glegalb_ok g e : glegalb g e = true -> glegal g e.
Proof.
  destruct e; cbn; auto.
  - intros H f fs E. rewrite E in H. apply legalb_ok. assumption.
  - intros H. apply Z.leb_le. assumption.
Qed.
Lemma gexec_run l : forall g h g', gexec g l = Some (h, g') -> grun g h g' /\ length h = length l.
Proof.
  induction l as [|e l IH]; intros g h g' E; cbn in E.
  - injection E as <- <-. split; [constructor|reflexivity].
  - destruct (glegalb g e) eqn:El; [|discriminate]. destruct (gstep g e) as [[[x g1]| | |]|] eqn:Es; try discriminate.
    destruct (gexec g1 l) as [[h1 g2]|] eqn:E1; [|discriminate]. injection E as <- <-. destruct (IH _ _ _ E1) as [Hr Hl].
    split; [|cbn; congruence]. econstructor; eauto. apply glegalb_ok. assumption.
Qed.
Definition gsample (l : list gev) : option (list (gev * res unit) * gworld) :=
  match gopen (A 0) with Done g => gexec g l | _ => None end.
Definition gempty : gworld := GW db_empty ∅ None [] ∅ 0 [].
Definition gstate (l : list gev) : gworld := match gsample l with Some (_, g) => g | None => gempty end.
Lemma gstate_reachable l : (match gsample l with Some _ => true | None => false end) = true -> Z.of_nat (length l) < 2 ^ 64 ->
  greachable (length l) (gstate l).
Proof.
  unfold gstate, gsample. intros H Hl. destruct (gopen (A 0)) as [g0| | |] eqn:E0; try discriminate.
  destruct (gexec g0 l) as [[h g]|] eqn:E; [|discriminate]. destruct (gexec_run _ _ _ _ E) as [Hr Hlen].
  exists (A 0), g0, h. auto.
Qed.

(** The documented guarantees of add_transaction_hook (cache.hpp:545-560) that do not hold.
    "if stage_1_commit is called, either stage_2_commit or stage_1_rollback is called": the failing
    hook itself gets neither. *)
Definition okhook (i : Z) : uhook := UHook i (Some (Ok tt)) true true true.
Definition failhook (i : Z) : uhook := UHook i (Some (Err EIO)) true true true.
Definition c26_events : list gev := [GBeginRW; GHook (okhook 1); GOp (OEmplace 1 (nm 100) dirA); GHook (okhook 2); GHook (failhook 3); GHook (okhook 4)].
Theorem C26_doc_refuted_failing_hook : exists g g', greachable 6 g /\ gstep g GCommit = Some (Done (Err EIO, g')) /\
  In (CS1 3) (g_log g') /\ ~ In (CS2 3) (g_log g') /\ ~ In (CS1R 3) (g_log g') /\
  g_log g' = [CS1 1; CS1 2; CS1 3; CS1R 2; CS1R 1; CRB 4; CRB 3; CRB 2; CRB 1].
Proof.
  exists (gstate c26_events), (gstate (c26_events ++ [GCommit])). split; [apply (gstate_reachable c26_events); [vm_compute; reflexivity|cbn; lia]|].
  split; [vm_compute; reflexivity|]. vm_compute. repeat split; [tauto| |]; intros H; decompose [or] H; try discriminate; assumption.
Qed.
Print Assumptions C26_doc_refuted_failing_hook.
(** "All previous transaction hooks have their stage_1_rollback called" (538-540) although "any
    callback can be nullptr, in which case it is assumed that it succeeds" (531): a hook without
    stage-1 callback never has its stage-1 rollback called. *)
Definition null_s1_hook : uhook := UHook 1 None true true true.
Theorem C26_doc_refuted_null_stage1 : exists g g', greachable 3 g /\ gstep g GCommit = Some (Done (Err EIO, g')) /\
  g_log g' = [CS1 2; CRB 2; CRB 1].
Proof.
  exists (gstate [GBeginRW; GHook null_s1_hook; GHook (failhook 2)]), (gstate [GBeginRW; GHook null_s1_hook; GHook (failhook 2); GCommit]).
  split; [apply (gstate_reachable [GBeginRW; GHook null_s1_hook; GHook (failhook 2)]); [vm_compute; reflexivity|cbn; lia]|].
  split; vm_compute; reflexivity.
Qed.
Print Assumptions C26_doc_refuted_null_stage1.
Example C26_sample : exists g', gstep (gstate [GBeginRO; GRHook 0 (okhook 7); GRHook 0 null_s1_hook]) (GRCommit 0) = Some (Done (Ok tt, g')) /\
  g_log g' = [CS1 7; CS2 7; CS2 1].
Proof. eexists. split; [vm_compute; reflexivity|]. vm_compute. reflexivity. Qed.

(** ** C27: isolation and atomicity *)
Ltac norop := exfalso; match goal with H : (exists y, _ = OLock y /\ _) \/ _ |- _ => destruct H as [(?&?&?)|(?&?&?&?&?)]; discriminate end.
Lemma gt_reader g e x g' id rd' : gt g e x g' -> id < g_next g -> g_readers g' !! id = Some rd' ->
  exists rd, g_readers g !! id = Some rd /\ r_snap rd' = r_snap rd.
Proof.
  intros Hgt Hid E; destruct Hgt; try subst g; cbn [g_readers g_next] in *; eauto.
  - rewrite lookup_insert_ne in E by lia. eauto.
  - destruct (decide (id = id0)) as [->|]; [rewrite lookup_insert in E; injection E as <-; eauto|rewrite lookup_insert_ne in E by congruence; eauto].
  - destruct (decide (id = id0)) as [->|]; [rewrite lookup_insert in E; injection E as <-; eauto|rewrite lookup_insert_ne in E by congruence; eauto].
  - apply lookup_delete_Some in E as [_ E]. eauto.
  - apply lookup_delete_Some in E as [_ E]. eauto.
  - apply lookup_delete_Some in E as [_ E]. eauto.
  - apply lookup_delete_Some in E as [_ E]. eauto.
  - rewrite lookup_empty in E. discriminate.
Qed.
Lemma gt_next g e x g' : gt g e x g' -> g_next g <= g_next g'.
Proof. intros H; destruct H; try subst g; cbn; lia. Qed.
Lemma grun_reader g l g' id rd' : grun g l g' -> id < g_next g -> g_readers g' !! id = Some rd' ->
  exists rd, g_readers g !! id = Some rd /\ r_snap rd' = r_snap rd.
Proof.
  intros Hr. revert rd'. induction Hr as [g|g e x g1 l g2 _ Es _ IH]; intros rd' Hid E; [eauto|].
  apply gstep_gt in Es. destruct (IH rd') as (rd1 & E1 & S1); [pose proof (gt_next _ _ _ _ Es); lia|assumption|].
  destruct (gt_reader _ _ _ _ _ _ Es Hid E1) as (rd & E0 & S0). exists rd. split; [assumption|congruence].
Qed.
(** A read transaction sees what was committed when it began, whatever happens meanwhile. *)
Theorem C27_snapshot : forall n g x g0 l g' rd', greachable n g ->
  gstep g GBeginRO = Some (Done (x, g0)) -> grun g0 l g' -> g_readers g' !! g_next g = Some rd' ->
  r_snap rd' = g_comm g.
Proof.
  intros n g x g0 l g' rd' Hg Es Hr E. apply gstep_gt in Es. inversion Es; subst; try norop. cbn in *.
  destruct (grun_reader _ _ _ nx rd' Hr) as (rd & Erd & ->); [cbn; lia|assumption|]. cbn in Erd. rewrite lookup_insert in Erd. injection Erd as <-. reflexivity.
Qed.
Print Assumptions C27_snapshot.

(** The committed database, which every new transaction starts from, changes at two events only: a
    successful commit of the outermost write transaction makes it what that transaction saw; and a
    restart cleans it (C29).  So a transaction that fails, is aborted or dropped never becomes
    visible, and a committed one becomes visible at once and completely. *)
Theorem C27_commit_publishes : forall n g e x g', greachable n g -> glegal g e -> gstep g e = Some (Done (x, g')) ->
  (e = GCommit -> forall f, g_writer g = [f] -> x = Ok tt -> g_comm g' = f_db f) /\
  (~ (e = GCommit /\ x = Ok tt /\ exists f, g_writer g = [f]) -> (forall root, e <> GCrash root) -> g_comm g' = g_comm g) /\
  (e = GBeginRW -> exists f, g_writer g' = [f] /\ f_db f = g_comm g).
Proof.
  intros n g e x g' Hg Hl Es. apply gstep_gt in Es.
  split; [|split].
  - intros -> f Hw ->. inversion Es; subst; try norop; cbn in *; congruence.
  - intros Hno Hnc. destruct Es; try subst g; cbn; try reflexivity.
    + exfalso. apply Hno. split_and!; eauto.
    + exfalso. eapply Hnc. reflexivity.
  - intros ->. inversion Es; subst; try norop; cbn. eexists. split; reflexivity.
Qed.
Print Assumptions C27_commit_publishes.
(** An open write transaction sees its own changes only: its view changes only by its own
    operations (those of the innermost transaction), and the latter's effect depends on nothing
    else in the database. *)
Theorem C27_own_view : forall n g e x g' f fs, greachable n g -> gstep g e = Some (Done (x, g')) -> g_writer g = f :: fs ->
  match e with
  | GOp o => exists t, step (Tx (f_db f) (g_refs g) [] (f_rw f)) o = Done (x, t) /\ exists f', g_writer g' = f' :: fs /\ f_db f' = t_db t
  | GHook _ => exists f', g_writer g' = f' :: fs /\ f_db f' = f_db f
  | GNest => exists f', g_writer g' = f' :: f :: fs /\ f_db f' = f_db f
  | GCommit => match fs with [] => g_writer g' = [] | p :: ps => exists f', g_writer g' = f' :: ps /\ f_db f' = f_db f end
  | GAbort | GDrop => g_writer g' = fs
  | GCrash _ => g_writer g' = []
  | GBeginRW => False
  | _ => g_writer g' = g_writer g
  end.
Proof.
  intros n g e x g' f fs Hg Es Hw. apply gstep_gt in Es. destruct Es; try subst g; cbn in Hw |- *; try congruence;
    try (injection Hw as ? ?; subst); eauto.
  destruct H0 as [(y & -> & ->)|(y & k & _ & -> & ->)]; reflexivity.
Qed.
Print Assumptions C27_own_view.
(** Every view anyone has is a consistent tree (C10). *)
Definition gview (g : gworld) (d : db) : Prop :=
  d = g_comm g \/ (exists f, In f (g_writer g) /\ d = f_db f) \/ (exists id rd, g_readers g !! id = Some rd /\ d = r_snap rd).
Theorem C10_tree_consistent_concurrent : forall n g d, greachable n g -> gview g d -> consistent d.
Proof.
  intros n g d Hg Hv. apply inv_consistent. pose proof (greachable_inv _ _ Hg) as H.
  destruct Hv as [->|[(f & Hf & ->)|(id & rd & Hr & ->)]].
  - apply (gi_comm _ _ H).
  - pose proof (gi_frames _ _ H) as HF. rewrite Forall_forall in HF. apply HF. apply elem_of_list_In. assumption.
  - apply (gi_readers _ _ H _ _ Hr).
Qed.
Print Assumptions C10_tree_consistent_concurrent.
(** one reader before, one during, one after a write transaction *)
Definition c27_events : list gev :=
  [GBeginRO; GBeginRW; GOp (OEmplace 1 (nm 100) dirA); GBeginRO; GOp (OEmplace 2 (nm 101) regA); GCommit; GBeginRO; GBeginRW; GOp (OUnlinkIno 3); GAbort].
Example C27_sample : let g := gstate c27_events in greachable 10 g /\
  (exists r0 r1 r2, g_readers g !! 0 = Some r0 /\ g_readers g !! 1 = Some r1 /\ g_readers g !! 2 = Some r2 /\
    lookup (r_snap r0) 1 (nm 100) = Err ENOENT /\ lookup (r_snap r1) 1 (nm 100) = Err ENOENT /\
    lookup (r_snap r2) 1 (nm 100) = Ok 2 /\ lookup (r_snap r2) 2 (nm 101) = Ok 3) /\ getattr (g_comm g) 3 = Ok regA.
Proof.
  cbn zeta. split; [apply (gstate_reachable c27_events); [vm_compute; reflexivity|cbn; lia]|]. split; [|vm_compute; reflexivity].
  do 3 eexists. split; [vm_compute; reflexivity|]. split; [vm_compute; reflexivity|]. split; [vm_compute; reflexivity|].
  split; [vm_compute; reflexivity|]. split; [vm_compute; reflexivity|]. split; vm_compute; reflexivity.
Qed.
