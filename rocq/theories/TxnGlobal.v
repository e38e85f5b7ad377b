(** The invariant holds in every reachable state of the multi-thread model. *)
From Verif Require Export TxnStep.

(** ** The cases of an event *)
Inductive gt : gworld -> gev -> res unit -> gworld -> Prop :=
| gt_begin_ro comm r ow ws rs nx log :
    gt (GW comm r ow ws rs nx log) GBeginRO (Ok tt) (GW comm r ow ws (<[nx := Reader comm []]> rs) (nx + 1) log)
| gt_begin_rw comm r ow rs nx log :
    gt (GW comm r ow [] rs nx log) GBeginRW (Ok tt) (GW comm r ow [Frame comm [] None] rs nx log)
| gt_nest comm r ow f fs rs nx log :
    gt (GW comm r ow (f :: fs) rs nx log) GNest (Ok tt) (GW comm r ow (Frame (f_db f) [] None :: f :: fs) rs nx log)
| gt_op comm r ow f fs rs nx log o x t ow' :
    let g := GW comm r ow (f :: fs) rs nx log in
    step (frame_tx g f) o = Done (x, t) ->
    (if uses_refs (frame_tx g f) o then exists o', acquire_w g = Some o' /\ ow' = Some o' else ow' = ow) ->
    gt g (GOp o) x (GW comm (t_refs t) ow' (Frame (t_db t) (f_hooks f ++ map HRef (t_hooks t)) (t_rw t) :: fs) rs nx log)
| gt_hook comm r ow f fs rs nx log u :
    gt (GW comm r ow (f :: fs) rs nx log) (GHook u) (Ok tt)
       (GW comm r ow (Frame (f_db f) (f_hooks f ++ [HUser u false]) (f_rw f) :: fs) rs nx log)
| gt_commit_ok comm r ow f rs nx log l :
    commit_hooks r (f_hooks f) = Done (Ok tt, l, r) ->
    gt (GW comm r ow [f] rs nx log) GCommit (Ok tt) (GW (f_db f) r (end_w ow 0 false) [] rs nx (log ++ l))
| gt_commit_err comm r ow f rs nx log l r' err :
    commit_hooks r (f_hooks f) = Done (Err err, l, r') -> run_rollbacks r (rev (frame_refs f)) = Done r' ->
    gt (GW comm r ow [f] rs nx log) GCommit (Err err) (GW comm r' (end_w ow 0 false) [] rs nx (log ++ l))
| gt_commit_nested comm r ow f p fs rs nx log :
    gt (GW comm r ow (f :: p :: fs) rs nx log) GCommit (Ok tt)
       (GW comm r (end_w ow (length (p :: fs)) true) (Frame (f_db f) (f_hooks p ++ f_hooks f) (f_rw p) :: fs) rs nx log)
| gt_abort comm r ow f fs rs nx log l r' :
    abort_hooks r (f_hooks f) = Done (l, r') -> run_rollbacks r (rev (frame_refs f)) = Done r' ->
    gt (GW comm r ow (f :: fs) rs nx log) GAbort (Ok tt) (GW comm r' (end_w ow (length fs) false) fs rs nx (log ++ l))
| gt_drop comm r ow f fs rs nx log :
    gt (GW comm r ow (f :: fs) rs nx log) GDrop (Ok tt) (GW comm r (end_w ow (length fs) false) fs rs nx (log ++ []))
| gt_rop comm r ow ws rs nx log id rd o e x t o' :
    let g := GW comm r ow ws rs nx log in
    rs !! id = Some rd ->
    (exists y, o = OLock y /\ e = GRLock id y) \/ (exists y n, n <> 0 /\ o = ORelease y n /\ e = GRRelease id y n) ->
    acquire_r g id = Some o' -> step (reader_tx g rd) o = Done (x, t) -> t_db t = r_snap rd ->
    gt g e x (GW comm (t_refs t) (Some o') ws (<[id := Reader (r_snap rd) (r_hooks rd ++ map HRef (t_hooks t))]> rs) nx log)
| gt_release0 comm r ow ws rs nx log id rd y :
    rs !! id = Some rd -> gt (GW comm r ow ws rs nx log) (GRRelease id y 0) (Ok tt) (GW comm r ow ws rs nx log)
| gt_rhook comm r ow ws rs nx log id rd u :
    rs !! id = Some rd ->
    gt (GW comm r ow ws rs nx log) (GRHook id u) (Ok tt)
       (GW comm r ow ws (<[id := Reader (r_snap rd) (r_hooks rd ++ [HUser u false])]> rs) nx log)
| gt_rcommit_ok comm r ow ws rs nx log id rd l :
    rs !! id = Some rd -> commit_hooks r (r_hooks rd) = Done (Ok tt, l, r) ->
    gt (GW comm r ow ws rs nx log) (GRCommit id) (Ok tt) (GW comm r (end_r ow id) ws (delete id rs) nx (log ++ l))
| gt_rcommit_err comm r ow ws rs nx log id rd l r' err :
    rs !! id = Some rd -> commit_hooks r (r_hooks rd) = Done (Err err, l, r') ->
    run_rollbacks r (rev (refhooks (r_hooks rd))) = Done r' ->
    gt (GW comm r ow ws rs nx log) (GRCommit id) (Err err) (GW comm r' (end_r ow id) ws (delete id rs) nx (log ++ l))
| gt_rabort comm r ow ws rs nx log id rd l r' :
    rs !! id = Some rd -> abort_hooks r (r_hooks rd) = Done (l, r') ->
    run_rollbacks r (rev (refhooks (r_hooks rd))) = Done r' ->
    gt (GW comm r ow ws rs nx log) (GRAbort id) (Ok tt) (GW comm r' (end_r ow id) ws (delete id rs) nx (log ++ l))
| gt_rdrop comm r ow ws rs nx log id rd :
    rs !! id = Some rd ->
    gt (GW comm r ow ws rs nx log) (GRDrop id) (Ok tt) (GW comm r (end_r ow id) ws (delete id rs) nx log)
| gt_crash comm r ow ws rs nx log root d r' :
    open_cache root comm = Done (d, r') ->
    gt (GW comm r ow ws rs nx log) (GCrash root) (Ok tt) (GW d r' None [] ∅ nx log).

Lemma gstep_gt g e x g' : gstep g e = Some (Done (x, g')) -> gt g e x g'.
Proof.
  destruct g as [comm r ow ws rs nx log]. destruct e as [ | | |o|u| | | |id y|id y n|id u|id|id|id|root]; unfold gstep; cbv zeta.
  - intros E. injection E as <- <-. constructor.
  - destruct ws; [|discriminate]. intros E. injection E as <- <-. constructor.
  - destruct ws as [|f fs]; [discriminate|]. intros E. injection E as <- <-. constructor.
  - destruct ws as [|f fs]; [discriminate|]. destruct (uses_refs (frame_tx (GW comm r ow (f :: fs) rs nx log) f) o) eqn:Eu.
    + destruct (acquire_w (GW comm r ow (f :: fs) rs nx log)) as [o'|] eqn:Ea; [|discriminate].
      destruct (step (frame_tx (GW comm r ow (f :: fs) rs nx log) f) o) as [[x1 t]| | |] eqn:Es; try discriminate. cbn [obind]. intros E. injection E as <- <-.
      apply gt_op; [assumption|]. rewrite Eu. eauto.
    + destruct (step (frame_tx (GW comm r ow (f :: fs) rs nx log) f) o) as [[x1 t]| | |] eqn:Es; try discriminate. cbn [obind]. intros E. injection E as <- <-.
      apply gt_op; [assumption|]. rewrite Eu. reflexivity.
  - destruct ws as [|f fs]; [discriminate|]. intros E. injection E as <- <-. constructor.
  - destruct ws as [|f [|p fs]]; [discriminate| |].
    + destruct (commit_hooks r (f_hooks f)) as [[[x1 l] r1]| | |] eqn:Ec; try discriminate. cbn [obind].
      destruct (commit_hooks_refs _ _ _ _ _ Ec) as [[-> ->]|[[err ->] Hr]]; intros E; injection E as <- <-; cbn [length].
      * apply gt_commit_ok. assumption.
      * apply gt_commit_err; assumption.
    + intros E. injection E as <- <-. constructor.
  - destruct ws as [|f fs]; [discriminate|]. destruct (abort_hooks r (f_hooks f)) as [[l r1]| | |] eqn:Ea; try discriminate. cbn [obind].
    intros E. injection E as <- <-. apply gt_abort; [assumption|]. eapply abort_hooks_refs. eassumption.
  - destruct ws as [|f fs]; [discriminate|]. intros E. injection E as <- <-. constructor.
  - destruct (rs !! id) as [rd|] eqn:Er; [|discriminate]. destruct (acquire_r _ id) as [o'|] eqn:Ea; [|discriminate].
    destruct (lock _ y) as [[x1 t]| | |] eqn:Es; try discriminate. cbn [obind]. intros E. injection E as <- <-.
    eapply (gt_rop comm r ow ws rs nx log id rd (OLock y)); eauto.
    unfold lock in Es. destruct (incref _ y 1) as [[?|?] ?]; injection Es as _ <-; reflexivity.
  - destruct (rs !! id) as [rd|] eqn:Er; [|discriminate]. destruct (Z.eqb_spec n 0) as [->|Hn].
    { intros E. injection E as <- <-. eapply gt_release0. eassumption. }
    destruct (acquire_r _ id) as [o'|] eqn:Ea; [|discriminate].
    destruct (release _ y n) as [[x1 t]| | |] eqn:Es; try discriminate. cbn [obind]. intros E. injection E as <- <-.
    eapply (gt_rop comm r ow ws rs nx log id rd (ORelease y n)); eauto.
    { right. eauto. }
    unfold release in Es. rewrite (proj2 (Z.eqb_neq n 0)) in Es by assumption. destruct (decref _ y n) as [[[?|?] ?]| | |]; try discriminate. injection Es as _ <-. reflexivity.
  - destruct (rs !! id) as [rd|] eqn:Er; [|discriminate]. intros E. injection E as <- <-. eapply gt_rhook. eassumption.
  - destruct (rs !! id) as [rd|] eqn:Er; [|discriminate].
    destruct (commit_hooks r (r_hooks rd)) as [[[x1 l] r1]| | |] eqn:Ec; try discriminate. cbn [obind].
    destruct (commit_hooks_refs _ _ _ _ _ Ec) as [[-> ->]|[[err ->] Hr]]; intros E; injection E as <- <-.
    + eapply gt_rcommit_ok; eassumption.
    + eapply gt_rcommit_err; eassumption.
  - destruct (rs !! id) as [rd|] eqn:Er; [|discriminate]. destruct (abort_hooks r (r_hooks rd)) as [[l r1]| | |] eqn:Ea; try discriminate. cbn [obind].
    intros E. injection E as <- <-. eapply gt_rabort; [eassumption|eassumption|]. eapply abort_hooks_refs. eassumption.
  - destruct (rs !! id) as [rd|] eqn:Er; [|discriminate]. intros E. injection E as <- <-. eapply gt_rdrop. eassumption.
  - destruct (open_cache root comm) as [[d r1]| | |] eqn:Eo; try discriminate. cbn [obind]. intros E. injection E as <- <-. constructor. assumption.
Qed.

(** ** Preservation *)
Lemma gt_inv N g e x g' : GInv N g -> glegal g e -> gt g e x g' -> N + 1 < 2 ^ 64 -> 0 <= N -> GInv (N + 1) g'.
Proof.
  intros H Hleg Hgt HN H0.
  assert (Hle : forall g1, GInv N g1 -> GInv (N + 1) g1) by (intros g1; apply GInv_le; lia).
  destruct Hgt as [comm r ow ws rs nx log|comm r ow rs nx log|comm r ow f fs rs nx log|comm r ow f fs rs nx log o x t ow' g Hs How|comm r ow f fs rs nx log u
    |comm r ow f rs nx log l Hc|comm r ow f rs nx log l r' err Hc Hr|comm r ow f p fs rs nx log|comm r ow f fs rs nx log l r' Ha Hr|comm r ow f fs rs nx log
    |comm r ow ws rs nx log id rd o e x t o' g Hrd Ho Ha Hs Hdb|comm r ow ws rs nx log id rd y Hrd|comm r ow ws rs nx log id rd u Hrd
    |comm r ow ws rs nx log id rd l Hrd Hc|comm r ow ws rs nx log id rd l r' err Hrd Hc Hr|comm r ow ws rs nx log id rd l r' Hrd Ha Hr|comm r ow ws rs nx log id rd Hrd
    |comm r ow ws rs nx log root d r' Ho].
  - apply Hle. assert (Hnx : rs !! nx = None).
    { destruct (rs !! nx) as [rd|] eqn:E; [|reflexivity]. destruct (gi_readers _ _ H nx rd E) as (_ & _ & Hlt & _). cbn in Hlt. lia. }
    split; cbn [g_comm g_refs g_owner g_writer g_readers g_next].
    + apply (gi_comm _ _ H).
    + apply (gi_refs _ _ H).
    + apply (gi_frames _ _ H).
    + intros j rd Hj. destruct (decide (j = nx)) as [->|].
      * rewrite lookup_insert in Hj. injection Hj as <-. cbn [r_snap r_hooks]. split_and!; [apply (gi_comm _ _ H)|constructor|lia|].
        apply sub_refl. apply (gi_comm _ _ H).
      * rewrite lookup_insert_ne in Hj by congruence. destruct (gi_readers _ _ H j rd Hj) as (A & B & C & D). cbn in C. split_and!; auto. lia.
    + apply (gi_chain _ _ H).
    + intros y. pose proof (gi_pot _ _ H y) as Hp. unfold open_refs in *. cbn [g_owner g_writer g_readers g_refs] in *.
      destruct ow as [[m|id]|]; auto. destruct (decide (id = nx)) as [->|]; [rewrite lookup_insert; rewrite Hnx in Hp; exact Hp|rewrite lookup_insert_ne by congruence; exact Hp].
    + intros id Ho. destruct (decide (id = nx)) as [->|]; [rewrite lookup_insert; discriminate|rewrite lookup_insert_ne by congruence; apply (gi_own_r _ _ H id Ho)].
    + apply (gi_own_w _ _ H).
    + intros j rd Hj Ho. destruct (decide (j = nx)) as [->|]; [rewrite lookup_insert in Hj; injection Hj as <-; reflexivity|].
      rewrite lookup_insert_ne in Hj by congruence. apply (gi_no_r _ _ H j rd Hj Ho).
    + apply (gi_no_w _ _ H).
  - apply Hle. assert (Hnow : forall m, ow <> Some (OW m)).
    { intros m ->. destruct (gi_own_w _ _ H m eq_refl) as [Hm _]. cbn in Hm. lia. }
    split; cbn [g_comm g_refs g_owner g_writer g_readers g_next].
    + apply (gi_comm _ _ H).
    + apply (gi_refs _ _ H).
    + constructor; [|constructor]. split; [apply (gi_comm _ _ H)|constructor].
    + apply (gi_readers _ _ H).
    + split; [|exact I]. apply sub_refl. apply (gi_comm _ _ H).
    + intros y. pose proof (gi_pot _ _ H y) as Hp. unfold open_refs in *. cbn [g_owner g_writer g_readers g_refs] in *.
      destruct ow as [[m|id]|]; auto.
    + apply (gi_own_r _ _ H).
    + intros m Ho. congruence.
    + apply (gi_no_r _ _ H).
    + intros _. constructor; [reflexivity|constructor].
  - apply Hle. pose proof (gi_frames _ _ H) as HF. cbn [g_writer] in HF. inversion HF as [|? ? [Hf1 Hf2] HF']; subst.
    split; cbn [g_comm g_refs g_owner g_writer g_readers g_next].
    + apply (gi_comm _ _ H).
    + apply (gi_refs _ _ H).
    + constructor; [|assumption]. split; [assumption|constructor].
    + apply (gi_readers _ _ H).
    + split; [|apply (gi_chain _ _ H)]. apply sub_refl. assumption.
    + intros y. pose proof (gi_pot _ _ H y) as Hp. unfold open_refs in *. cbn [g_owner g_writer g_readers g_refs] in *.
      destruct ow as [[m|id]|]; auto.
    + apply (gi_own_r _ _ H).
    + intros m Ho. destruct (gi_own_w _ _ H m Ho) as [Hm Hd]. cbn [g_writer length] in *. split; [lia|].
      replace (S (S (length fs)) - m)%nat with (S (S (length fs) - m)) by lia. exact Hd.
    + apply (gi_no_r _ _ H).
    + intros Ho. constructor; [reflexivity|]. apply (gi_no_w _ _ H Ho).
  - eapply op_w_inv; eauto.
  - apply Hle. pose proof (gi_frames _ _ H) as HF. cbn [g_writer] in HF. inversion HF as [|? ? [Hf1 Hf2] HF']; subst.
    assert (Eq : frame_refs (Frame (f_db f) (f_hooks f ++ [HUser u false]) (f_rw f)) = frame_refs f).
    { unfold frame_refs. cbn. rewrite refhooks_app. unfold refhooks at 2. cbn. apply app_nil_r. }
    split; cbn [g_comm g_refs g_owner g_writer g_readers g_next].
    + apply (gi_comm _ _ H).
    + apply (gi_refs _ _ H).
    + constructor; [|assumption]. rewrite Eq. auto.
    + apply (gi_readers _ _ H).
    + apply (gi_chain _ _ H).
    + intros y. pose proof (gi_pot _ _ H y) as Hp. unfold open_refs in *. cbn [g_owner g_writer g_readers g_refs map] in *. rewrite Eq. exact Hp.
    + apply (gi_own_r _ _ H).
    + intros m Ho. destruct (gi_own_w _ _ H m Ho) as [Hm Hd]. cbn [g_writer length] in *. split; [lia|].
      rewrite (drop_cons_pos _ f) by lia. exact Hd.
    + apply (gi_no_r _ _ H).
    + intros Ho. pose proof (gi_no_w _ _ H Ho) as Hall. inversion Hall; subst. constructor; [rewrite Eq|]; assumption.
  - apply Hle. eapply (end_w_inv N comm r ow f []); eauto. lia.
  - apply Hle. eapply (end_w_inv N comm r ow f []); eauto. lia.
  - apply Hle. apply nest_commit_inv. assumption.
  - apply Hle. eapply end_w_inv; eauto. lia.
  - apply Hle. eapply end_w_inv; eauto. lia.
  - eapply op_r_inv; eauto.
    + destruct Ho as [(y & -> & ->)|(y & n & Hn & -> & ->)]; [exact I|exact Hleg].
    + destruct Ho as [(y & -> & ->)|(y & n & Hn & -> & ->)]; [reflexivity|]. cbn. rewrite (proj2 (Z.eqb_neq n 0)) by assumption. reflexivity.
  - apply Hle. assumption.
  - apply Hle. destruct (gi_readers _ _ H id rd Hrd) as (R1 & R2 & R3 & R4).
    assert (Eq : refhooks (r_hooks rd ++ [HUser u false]) = refhooks (r_hooks rd)).
    { rewrite refhooks_app. unfold refhooks at 2. cbn. apply app_nil_r. }
    split; cbn [g_comm g_refs g_owner g_writer g_readers g_next].
    + apply (gi_comm _ _ H).
    + apply (gi_refs _ _ H).
    + apply (gi_frames _ _ H).
    + intros j rd' Hj. destruct (decide (j = id)) as [->|].
      * rewrite lookup_insert in Hj. injection Hj as <-. cbn [r_snap r_hooks]. rewrite Eq. split_and!; auto.
      * rewrite lookup_insert_ne in Hj by congruence. apply (gi_readers _ _ H j rd' Hj).
    + apply (gi_chain _ _ H).
    + intros y. pose proof (gi_pot _ _ H y) as Hp. unfold open_refs in *. cbn [g_owner g_writer g_readers g_refs] in *.
      destruct ow as [[m|j]|]; auto. destruct (decide (j = id)) as [->|]; [rewrite lookup_insert; rewrite Hrd in Hp; cbn [r_hooks]; rewrite Eq; exact Hp|rewrite lookup_insert_ne by congruence; exact Hp].
    + intros j Ho. destruct (decide (j = id)) as [->|]; [rewrite lookup_insert; discriminate|rewrite lookup_insert_ne by congruence; apply (gi_own_r _ _ H j Ho)].
    + apply (gi_own_w _ _ H).
    + intros j rd' Hj Ho. destruct (decide (j = id)) as [->|]; [rewrite lookup_insert in Hj; injection Hj as <-; cbn [r_hooks]; rewrite Eq; apply (gi_no_r _ _ H id rd Hrd Ho)|].
      rewrite lookup_insert_ne in Hj by congruence. apply (gi_no_r _ _ H j rd' Hj Ho).
    + apply (gi_no_w _ _ H).
  - apply Hle. eapply end_r_inv; eauto. lia.
  - apply Hle. eapply end_r_inv; eauto. lia.
  - apply Hle. eapply end_r_inv; eauto. lia.
  - apply Hle. replace log with (log ++ []) by apply app_nil_r. eapply end_r_inv; eauto. lia.
  - pose proof (gi_comm _ _ H) as Hi. cbn in Hi.
    destruct (open_cache_spec root comm) as (R & HR & E & Hd & Hr & _); [rewrite init_db_id; assumption|]. rewrite E in Ho. injection Ho as <- <-.
    split; cbn [g_comm g_refs g_owner g_writer g_readers g_next]; auto; try discriminate.
    + intros y. rewrite refcount_doom_all. unfold refcount. rewrite lookup_empty. unfold open_refs. cbn. lia.
Qed.
Lemma gstep_inv N g e x g' : GInv N g -> glegal g e -> gstep g e = Some (Done (x, g')) -> N + 1 < 2 ^ 64 -> 0 <= N -> GInv (N + 1) g'.
Proof. intros H Hl E. apply (gt_inv N g e x); auto. apply gstep_gt. assumption. Qed.
Lemma grun_inv l : forall N g g', GInv N g -> grun g l g' -> 0 <= N -> N + Z.of_nat (length l) < 2 ^ 64 -> GInv (N + Z.of_nat (length l)) g'.
Proof.
  induction l as [|[e x] l IH]; intros N g g' H Hr H0 HN; inversion Hr; subst.
  - cbn. rewrite Z.add_0_r. assumption.
  - cbn [length] in *. replace (N + Z.of_nat (S (length l))) with (N + 1 + Z.of_nat (length l)) in * by lia.
    eapply (IH (N + 1) g1); [eapply gstep_inv; eauto; lia|assumption|lia|lia].
Qed.
Lemma greachable_inv n g : greachable n g -> GInv (Z.of_nat n) g.
Proof.
  intros (root & g0 & l & Ho & Hr & <- & Hn). apply (grun_inv l 0 g0 g); [eapply gopen_inv; eassumption|assumption|lia|assumption].
Qed.
Lemma grun_app g1 l1 g2 l2 g3 : grun g1 l1 g2 -> grun g2 l2 g3 -> grun g1 (l1 ++ l2) g3.
Proof. induction 1; cbn; [auto|]. intros. econstructor; eauto. Qed.
Lemma greachable_run n g l g' : greachable n g -> grun g l g' -> Z.of_nat (n + length l) < 2 ^ 64 -> greachable (n + length l) g'.
Proof.
  intros (root & g0 & l0 & Ho & Hr & <- & Hn) Hl Hb. exists root, g0, (l0 ++ l). split_and!; auto; [eapply grun_app; eassumption|apply app_length].
Qed.
