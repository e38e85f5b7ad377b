(** Property theorems C25: exactly when aborting a transaction gives back counts and lockability. *)
From Verif Require Import Prelude CacheModel CacheInv CacheFacts CacheOps CacheWorld CacheHist CacheRuns CacheApi TxnFacts TxnInv PropsCache PropsCache2.

(** an inode that can not be locked any more has no references *)
Definition dz (r : refs) : Prop := forall x, doomed r x = true -> refcount r x = 0.
Lemma step_dz t o res t' : TInv t -> legal t o -> step t o = Done (res, t') -> dz (t_refs t) -> dz (t_refs t').
Proof.
  intros HT Hleg E Hz x Hx. destruct (step_more t o res t' HT Hleg E) as (H1 & _ & H3 & _).
  pose proof (step_refcount t o res t' x HT Hleg E) as Hc. pose proof (refcount_nonneg _ x (tinv_refs _ HT)) as Hn.
  assert (H0 : refcount (t_refs t) x = 0).
  { destruct (Z.lt_trichotomy (refcount (t_refs t) x) 0) as [|[|Hp]]; [lia|assumption|]. rewrite H3 in Hx by exact Hp. apply Hz. exact Hx. }
  rewrite H0 in Hc. rewrite Hc. destruct o as [| | | | | | | | |y|y n]; cbn [count_after]; try reflexivity; destruct res as [[]|err]; try reflexivity.
  - destruct (Z.eqb_spec y x) as [->|]; [|reflexivity]. exfalso. cbn in E. unfold lock, incref in E. unfold doomed in Hx.
    destruct (t_refs t !! x) as [[k [|]]|]; try discriminate E; injection E as <-; cbn in Hx; rewrite ?lookup_insert in Hx; discriminate Hx.
  - destruct (Z.eqb_spec y x) as [->|]; [|reflexivity]. cbn in E, Hleg. unfold release in E. destruct (Z.eqb_spec n 0) as [->|]; [reflexivity|].
    destruct (decref_cases (t_refs t) x n) as [(Hle & _)|(_ & Ed)]; [lia|lia|]. rewrite Ed in E. discriminate E.
Qed.
Lemma rollbacks_doomed hs : forall r r', run_rollbacks r hs = Done r' ->
  (forall x, doomed r' x = doomed r x) /\ (forall x n, RbIncref x n ∈ hs -> doomed r x = false) /\ (dz r -> dz r').
Proof.
  induction hs as [|h hs IH]; intros r r' E.
  - injection E as <-. split_and!; auto. intros x n Hx. apply elem_of_nil in Hx as [].
  - cbn [run_rollbacks] in E. destruct (run_rollback r h) as [r1| | |] eqn:E1; try discriminate. cbn [obind] in E.
    destruct (IH r1 r' E) as (D1 & D2 & D3).
    assert (Hone : (forall x, doomed r1 x = doomed r x) /\ (forall x n, h = RbIncref x n -> doomed r x = false) /\ (dz r -> dz r1)).
    { clear - E1. destruct h as [y|y n]; cbn [run_rollback] in E1.
      - destruct (decref_cases r y 1 ltac:(lia)) as [(Hle & b & Ey & Ed)|(_ & Ed)]; rewrite Ed in E1; cbn [obind] in E1; [|discriminate]. injection E1 as <-.
        assert (Hd : forall x, doomed (<[y:=(refcount r y - 1, b)]> r) x = doomed r x).
        { intros x. unfold doomed. destruct (decide (x = y)) as [->|]; [rewrite lookup_insert, Ey; reflexivity|rewrite lookup_insert_ne by congruence; reflexivity]. }
        split; [exact Hd|]. split; [discriminate|]. intros Hz x Hx. rewrite Hd in Hx. apply Hz in Hx. unfold refcount at 1.
        destruct (decide (x = y)) as [->|]; [lia|]. rewrite lookup_insert_ne by congruence. exact Hx.
      - unfold incref in E1. destruct (r !! y) as [[k [|]]|] eqn:Ey; try discriminate; injection E1 as <-.
        + assert (Hd : forall x, doomed (<[y:=(w64 (k + n), false)]> r) x = doomed r x).
          { intros x. unfold doomed. destruct (decide (x = y)) as [->|]; [rewrite lookup_insert, Ey; reflexivity|rewrite lookup_insert_ne by congruence; reflexivity]. }
          split; [exact Hd|]. split; [intros x n' [= <- <-]; unfold doomed; rewrite Ey; reflexivity|].
          intros Hz x Hx. destruct (decide (x = y)) as [->|]; [unfold doomed in Hx; rewrite lookup_insert in Hx; discriminate|].
          rewrite Hd in Hx. unfold refcount. rewrite lookup_insert_ne by congruence. apply Hz. exact Hx.
        + assert (Hd : forall x, doomed (<[y:=(n, false)]> r) x = doomed r x).
          { intros x. unfold doomed. destruct (decide (x = y)) as [->|]; [rewrite lookup_insert, Ey; reflexivity|rewrite lookup_insert_ne by congruence; reflexivity]. }
          split; [exact Hd|]. split; [intros x n' [= <- <-]; unfold doomed; rewrite Ey; reflexivity|].
          intros Hz x Hx. destruct (decide (x = y)) as [->|]; [unfold doomed in Hx; rewrite lookup_insert in Hx; discriminate|].
          rewrite Hd in Hx. unfold refcount. rewrite lookup_insert_ne by congruence. apply Hz. exact Hx. }
    destruct Hone as (A1 & A2 & A3). split; [intros x; rewrite D1; apply A1|]. split; [|auto].
    intros x n Hx. apply elem_of_cons in Hx as [Hx|Hx]; [eapply A2; symmetry; exact Hx|]. rewrite <- A1. eapply D2. exact Hx.
Qed.
Lemma dz_open root d dr : Inv (init_db root d) -> open_cache root d = Done dr -> dz dr.2.
Proof.
  intros Hi E. destruct (open_cache_spec root d Hi) as (R & _ & E' & _). rewrite E' in E. injection E as <-. cbn [snd].
  intros x _. rewrite refcount_doom_all. unfold refcount. rewrite lookup_empty. reflexivity.
Qed.
Lemma wrun_dz l : forall w w', WInv w -> legal_run w l -> wrun w l = Done w' -> dz (t_refs (w_tx w)) -> dz (t_refs (w_tx w')).
Proof.
  induction l as [|e l IH]; intros w w' HW Hleg E Hz; [injection E as <-; exact Hz|].
  cbn [wrun] in E. destruct (wstep w e) as [w1| | |] eqn:E1; try discriminate. cbn [obind] in E. destruct Hleg as [Hl1 Hl2].
  pose proof (wstep_inv _ _ _ HW Hl1 E1) as HW1. eapply (IH w1 w' HW1 (Hl2 _ E1) E). clear IH E Hl2.
  destruct e as [o| | |root]; cbn [wstep] in E1.
  - destruct (step (w_tx w) o) as [[res t']| | |] eqn:Es; try discriminate. injection E1 as <-. eapply step_dz; [apply HW|exact Hl1|exact Es|exact Hz].
  - injection E1 as <-. exact Hz.
  - destruct (abort_tx (w_tx w)) as [r| | |] eqn:Ea; try discriminate. injection E1 as <-. cbn. eapply (rollbacks_doomed _ _ _ Ea). exact Hz.
  - destruct (open_cache root (w_comm w)) as [dr| | |] eqn:Eo; try discriminate. injection E1 as <-. cbn.
    eapply dz_open; [|exact Eo]. rewrite init_db_id by apply HW. apply HW.
Qed.
Lemma reachable_dz w : reachable w -> dz (t_refs (w_tx w)).
Proof.
  intros (root & w0 & l & E0 & Hl & E). destruct (wopen_spec root) as (w1 & E1 & HW). assert (w0 = w1) by congruence. subst w1.
  eapply (wrun_dz l w0 w HW Hl E). unfold wopen in E0. destruct (open_cache root db_empty) as [dr| | |] eqn:Eo; try discriminate. injection E0 as <-. cbn.
  eapply dz_open; [|exact Eo]. apply init_db_inv.
Qed.
(** the hooks of a transaction, and what it may have released *)
Lemma ops_hooks l : forall w w', WInv w -> dz (t_refs (w_tx w)) -> legal_run w (map EOp l) -> wrun w (map EOp l) = Done w' ->
  (forall x, doomed (t_refs (w_tx w)) x = true -> doomed (t_refs (w_tx w')) x = true) /\
  (forall x n, RbIncref x n ∈ t_hooks (w_tx w') <-> RbIncref x n ∈ t_hooks (w_tx w) \/ (ORelease x n ∈ l /\ n <> 0)) /\
  (forall x n, ORelease x n ∈ l -> n <> 0 -> doomed (t_refs (w_tx w)) x = false).
Proof.
  induction l as [|o l IH]; intros w w' HW Hz Hleg E.
  - injection E as <-. split; [auto|]. split.
    + intros x n. split; [auto|]. intros [?|[Hx _]]; [assumption|apply elem_of_nil in Hx as []].
    + intros x n Hx. apply elem_of_nil in Hx as [].
  - cbn [map wrun] in E. destruct (wstep w (EOp o)) as [w1| | |] eqn:E1; try discriminate. cbn [obind] in E. destruct Hleg as [Hl1 Hl2].
    pose proof (wstep_inv _ _ _ HW Hl1 E1) as HW1. specialize (Hl2 _ E1). cbn in E1, Hl1. destruct (step (w_tx w) o) as [[res t']| | |] eqn:Es; try discriminate. injection E1 as <-.
    pose proof (step_dz _ _ _ _ (winv_tx _ HW) Hl1 Es Hz) as Hz1. destruct (step_more _ _ _ _ (winv_tx _ HW) Hl1 Es) as (M1 & _ & _ & _ & M5).
    destruct (IH _ w' HW1 Hz1 Hl2 E) as (I1 & I2 & I3). cbn [w_tx] in *. split; [auto|].
    assert (Hrel : forall x n, RbIncref x n ∈ new_hooks o res <-> ORelease x n = o /\ n <> 0).
    { intros x n. destruct o as [| | | | | | | | |y|y k]; cbn [new_hooks]; try (split; [intros Hx; apply elem_of_nil in Hx as []|intros [[=] _]]).
      - destruct res as [[]|err]; (split; [intros Hx|intros [[=] _]]); [apply elem_of_list_singleton in Hx; discriminate Hx|apply elem_of_nil in Hx as []].
      - cbn in Es. unfold release in Es. destruct (Z.eqb_spec k 0) as [->|Hk].
        + injection Es as <- _. cbn [new_hooks]. split; [intros Hx; apply elem_of_nil in Hx as []|intros [[= -> ->] ?]; lia].
        + destruct (decref_cases (t_refs (w_tx w)) y k) as [(_ & b & _ & Ed)|(_ & Ed)]; [cbn in Hl1; lia| |]; rewrite Ed in Es; cbn [obind] in Es; [|discriminate Es].
          injection Es as <- _. cbn [new_hooks]. rewrite elem_of_list_singleton. split; [intros [= -> ->]; auto|intros [[= -> ->] _]; reflexivity]. }
    split.
    + intros x n. rewrite I2, M5, elem_of_app, Hrel, elem_of_cons. tauto.
    + intros x n Hx Hn0. apply elem_of_cons in Hx as [Hx|Hx].
      * subst o. destruct (doomed (t_refs (w_tx w)) x) eqn:Ed; [|reflexivity]. exfalso. apply Hz in Ed. cbn in Es. unfold release in Es.
        rewrite (proj2 (Z.eqb_neq _ _) Hn0) in Es. destruct (decref_cases (t_refs (w_tx w)) x n) as [(Hle & _)|(_ & Edd)]; [cbn in Hl1; lia|cbn in Hl1; lia|]. rewrite Edd in Es. discriminate Es.
      * destruct (doomed (t_refs (w_tx w)) x) eqn:Ed; [|reflexivity]. pose proof (M1 _ Ed) as M. rewrite (I3 x n Hx Hn0) in M. discriminate M.
Qed.
Lemma rollbacks_cases r0 hs f : refs_ok r0 -> trail r0 hs f -> forall r, (forall x, refcount r x = f x) ->
  (exists r', run_rollbacks r (rev hs) = Done r') \/ run_rollbacks r (rev hs) = Crash.
Proof.
  intros H0. induction 1 as [|hs f y Ht IH Hb|hs f y n Ht IH Hn Hy]; intros r Hr.
  - left. eexists. reflexivity.
  - rewrite rev_app_distr. cbn [rev app run_rollbacks run_rollback].
    pose proof (trail_nonneg _ _ _ H0 Ht) as Hnn. pose proof (Hr y) as Hry. unfold upd in Hry. rewrite Z.eqb_refl in Hry.
    destruct (decref_cases r y 1) as [(Hle & b & Ey & Ed)|(Hlt & Ed)]; [lia| |]; [|specialize (Hnn y); lia]. rewrite Ed. cbn [obind fst snd].
    apply IH. intros z. unfold refcount at 1. destruct (decide (z = y)) as [->|Hne].
    + rewrite lookup_insert. lia.
    + rewrite lookup_insert_ne by congruence. fold (refcount r z). rewrite Hr. unfold upd. rewrite (proj2 (Z.eqb_neq _ _) Hne). reflexivity.
  - rewrite rev_app_distr. cbn [rev app run_rollbacks run_rollback].
    pose proof (trail_nonneg _ _ _ H0 Ht) as Hnn. pose proof (Hr y) as Hry. unfold upd in Hry. rewrite Z.eqb_refl in Hry.
    destruct (incref r y n) as [[v|err] r1] eqn:Ei; cbn [obind]; [|right; reflexivity]. apply IH. intros z.
    unfold incref in Ei. unfold refcount in Hry. destruct (r !! y) as [[k [|]]|] eqn:Ey; try discriminate; injection Ei as _ <-;
      unfold refcount at 1; (destruct (decide (z = y)) as [->|Hne]; [rewrite lookup_insert|rewrite lookup_insert_ne by congruence]).
    + subst k. replace (f y - n + n) with (f y) by lia. apply w64_small. specialize (Hnn y). lia.
    + fold (refcount r z). rewrite Hr. unfold upd. rewrite (proj2 (Z.eqb_neq _ _) Hne). reflexivity.
    + lia.
    + fold (refcount r z). rewrite Hr. unfold upd. rewrite (proj2 (Z.eqb_neq _ _) Hne). reflexivity.
Qed.

Lemma classic_hooks (hs : list hook) (r : refs) : (exists x n, RbIncref x n ∈ hs /\ doomed r x = true) \/ (forall x n, RbIncref x n ∈ hs -> doomed r x = false).
Proof.
  induction hs as [|h hs IH]; [right; intros x n Hx; apply elem_of_nil in Hx as []|].
  destruct IH as [(x & n & Hx & Hd)|IH]; [left; exists x, n; split; [apply elem_of_cons; auto|exact Hd]|].
  destruct h as [y|y k].
  - right. intros x n Hx. apply elem_of_cons in Hx as [[=]|Hx]. eauto.
  - destruct (doomed r y) eqn:Ed; [left; exists y, k; split; [apply elem_of_cons; auto|exact Ed]|].
    right. intros x n Hx. apply elem_of_cons in Hx as [[= -> ->]|Hx]; [exact Ed|eauto].
Qed.

(** abort() fails an assertion exactly when an inode the transaction has released can not be locked
    any more at its end; otherwise it returns with all counts as they were. *)
Theorem C25_abort_fails_iff : forall w l w', reachable w -> w_tx w = begin_tx (w_comm w) (t_refs (w_tx w)) ->
  legal_run w (map EOp l) -> wrun w (map EOp l) = Done w' ->
  (forall x, refcount (t_refs (w_tx w)) x + Z.of_nat (length l) < 2 ^ 64) ->
  (abort_tx (w_tx w') = Crash <-> exists x n, ORelease x n ∈ l /\ n <> 0 /\ doomed (t_refs (w_tx w')) x = true) /\
  (abort_tx (w_tx w') <> Crash -> exists r, abort_tx (w_tx w') = Done r /\
     forall x, refcount r x = refcount (t_refs (w_tx w)) x /\ doomed r x = doomed (t_refs (w_tx w')) x).
Proof.
  intros w l w' Hr Hb Hleg E Hov. pose proof (reachable_inv _ Hr) as HW. pose proof (tinv_refs _ (winv_tx _ HW)) as H0.
  destruct (ops_trail l w w' (t_refs (w_tx w)) (refcount (t_refs (w_tx w))) (2 ^ 64 - 1 - Z.of_nat (length l)) HW Hleg E H0) as (f & Htr & Hf).
  { rewrite Hb. constructor. } { reflexivity. } { intros x. specialize (Hov x). lia. } { lia. }
  destruct (ops_hooks l w w' HW (reachable_dz w Hr) Hleg E) as (_ & Hh & _).
  assert (Hh0 : t_hooks (w_tx w) = []) by (rewrite Hb; reflexivity).
  assert (Hcase := rollbacks_cases _ _ _ H0 Htr _ Hf). fold (abort_tx (w_tx w')) in Hcase. split.
  - split.
    + intros Hc. destruct (classic_hooks (t_hooks (w_tx w')) (t_refs (w_tx w'))) as [(x & n & Hx & Hd)|Hall].
      * exists x, n. apply Hh in Hx as [Hx|[Hx Hn]]; [rewrite Hh0 in Hx; apply elem_of_nil in Hx as []|]. auto.
      * exfalso. destruct (rollback_runs _ _ _ H0 Htr _ Hf Hall) as (r & Ea & _). unfold abort_tx in Hc. congruence.
    + intros (x & n & Hx & Hn & Hd). destruct Hcase as [[r Ea]|Hc]; [|exact Hc]. exfalso.
      destruct (rollbacks_doomed _ _ _ Ea) as (_ & D2 & _). rewrite (D2 x n) in Hd; [discriminate Hd|]. apply elem_of_list_In. rewrite <- in_rev. apply elem_of_list_In. apply Hh. auto.
  - intros Hnc. destruct Hcase as [[r Ea]|?]; [|contradiction]. exists r. split; [exact Ea|]. intros x. split.
    + exact (rollback_counts _ _ _ H0 Htr _ _ Hf Ea x).
    + apply (rollbacks_doomed _ _ _ Ea).
Qed.
Print Assumptions C25_abort_fails_iff.

(** The whole claim holds for a transaction exactly when at its end every inode that could be locked
    at its start can still be locked, that is when it has removed no inode (neither an old one nor one it created itself). *)
Theorem C25_iff : forall w l w', reachable w -> w_tx w = begin_tx (w_comm w) (t_refs (w_tx w)) ->
  legal_run w (map EOp l) -> wrun w (map EOp l) = Done w' ->
  (forall x, refcount (t_refs (w_tx w)) x + Z.of_nat (length l) < 2 ^ 64) ->
  (exists r, abort_tx (w_tx w') = Done r /\
     forall x, refcount r x = refcount (t_refs (w_tx w)) x /\ doomed r x = doomed (t_refs (w_tx w)) x) <->
  (forall x, doomed (t_refs (w_tx w)) x = false -> doomed (t_refs (w_tx w')) x = false).
Proof.
  intros w l w' Hr Hb Hleg E Hov. destruct (C25_abort_fails_iff w l w' Hr Hb Hleg E Hov) as [Hf Hs].
  pose proof (reachable_inv _ Hr) as HW. destruct (ops_hooks l w w' HW (reachable_dz w Hr) Hleg E) as (Hm & _ & Hrel). split.
  - intros (r & Ea & Hx) x Hd. destruct (Hs ltac:(congruence)) as (r' & Ea' & Hx'). rewrite Ea in Ea'. injection Ea' as <-.
    destruct (Hx x) as [_ D]. destruct (Hx' x) as [_ D']. congruence.
  - intros Hd. destruct (Hs) as (r & Ea & Hx).
    + intros Hc. apply Hf in Hc as (x & n & Hx & Hn & Hdx). rewrite (Hd x (Hrel x n Hx Hn)) in Hdx. discriminate Hdx.
    + exists r. split; [exact Ea|]. intros x. destruct (Hx x) as [H1 H2]. split; [exact H1|]. rewrite H2.
      destruct (doomed (t_refs (w_tx w)) x) eqn:Ed; [apply Hm; exact Ed|apply Hd; exact Ed].
Qed.
Print Assumptions C25_iff.
(** all three outcomes occur (the transactions of C25_refuted_doomed and C25_refuted_crash, and one
    that locks and releases) *)
Definition ab_w1 : world := world_after [EOp (OEmplace 1 (nm 97) regA); ECommit].
Definition ab_w2 : world := world_after [EOp (OEmplace 1 (nm 97) regA); EOp (OLock 2); EOp (OUnlinkIno 2); ECommit].
Example C25_iff_sample :
  reachable ab_w1 /\ w_tx ab_w1 = begin_tx (w_comm ab_w1) (t_refs (w_tx ab_w1)) /\
  legal_runb ab_w1 (map EOp [OLock 2; OLock 2; ORelease 2 1; OEmplace 1 (nm 98) regA]) = true /\
  (exists w', wrun ab_w1 (map EOp [OLock 2; OLock 2; ORelease 2 1; OEmplace 1 (nm 98) regA]) = Done w' /\
     refcount (t_refs (w_tx w')) 2 = 1 /\ exists r, abort_tx (w_tx w') = Done r /\ refcount r 2 = 0) /\
  (exists w', wrun ab_w1 (map EOp [OUnlinkIno 2]) = Done w' /\ doomed (t_refs (w_tx w')) 2 = true) /\
  (exists w', wrun ab_w2 (map EOp [ORelease 2 1; OClean]) = Done w' /\ doomed (t_refs (w_tx w')) 2 = true /\ abort_tx (w_tx w') = Crash).
Proof.
  split; [apply world_after_reachable; vm_compute; reflexivity|]. split; [vm_compute; reflexivity|]. split; [vm_compute; reflexivity|].
  split; [eexists; split; [vm_compute; reflexivity|]; split; [vm_compute; reflexivity|]; eexists; split; vm_compute; reflexivity|].
  split; [eexists; split; vm_compute; reflexivity|]. eexists. split; [vm_compute; reflexivity|]. split; vm_compute; reflexivity.
Qed.
