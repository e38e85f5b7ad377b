(** C58: the mutex excludes, reports self-deadlock exactly, and never makes a thread wait for itself. *)
From Verif Require Export Mutex.

Definition inside (a : at_) : bool := match a with GotLock | GotTry | Drop => true | _ => false end.
Record MInv (s : st) : Prop := {
  mi_view : forall t, (s_view s t < length (s_hist s))%nat;
  mi_owner : forall t, s_owner s = Some t <-> s_holds s t = true \/ inside (s_at s t) = true;
  mi_holds : forall t, s_holds s t = true -> s_at s t = Out /\ S (s_view s t) = length (s_hist s) /\ s_hist s !! s_view s t = Some (Some t);
  mi_free : forall t i, s_holds s t = false -> (s_view s t <= i)%nat -> s_hist s !! i <> Some (Some t) }.
Lemma upd_same {A} (f : tid -> A) t a : upd f t a t = a. Proof. unfold upd. rewrite decide_True; reflexivity. Qed.
Lemma upd_other {A} (f : tid -> A) t u a : u <> t -> upd f t a u = f u. Proof. intros H. unfold upd. rewrite decide_False; auto. Qed.
Lemma minv_init : MInv init.
Proof.
  split; cbn.
  - lia.
  - intros t. split; [discriminate|intros [|]; discriminate].
  - discriminate.
  - intros t [|i] _ _; cbn; discriminate.
Qed.
Ltac two t u := destruct (decide (u = t)) as [->|?]; [rewrite ?upd_same|rewrite ?upd_other by assumption].
(** a check: only the view of [t] and its position change *)
Lemma minv_check s t i v a : MInv s -> s_at s t = Out -> (s_view s t <= i)%nat -> s_hist s !! i = Some v -> v <> Some t -> inside a = false ->
  MInv (St (s_hist s) (upd (s_view s) t i) (s_owner s) (upd (s_at s) t a) (s_holds s)).
Proof.
  intros [V O H F] Ha Hv Hi Hne Hin. assert (Hl : (i < length (s_hist s))%nat) by (eapply lookup_lt_Some; exact Hi).
  assert (Hf : s_holds s t = false).
  { destruct (s_holds s t) eqn:E; [|reflexivity]. destruct (H t E) as (_ & Hlen & Hown). assert (i = s_view s t) by lia. congruence. }
  split; cbn [s_hist s_view s_owner s_at s_holds].
  - intros u. two t u; [exact Hl|apply V].
  - intros u. two t u; [|apply O]. rewrite O, Ha, Hin. reflexivity.
  - intros u Hu. two t u; [congruence|apply H, Hu].
  - intros u j Hu. two t u; [|apply F, Hu]. intros Hj. apply F; [exact Hf|lia].
Qed.
Lemma owner_only s t u : MInv s -> s_owner s = Some t -> s_holds s u = true \/ inside (s_at s u) = true -> u = t.
Proof. intros HI Ho Hu. apply (mi_owner _ HI) in Hu. congruence. Qed.
(** a store of the owner of the mutex *)
Lemma minv_store s t (v : option tid) a h : MInv s -> s_owner s = Some t -> (v = Some t /\ h = true /\ a = Out \/ v = None /\ h = false /\ inside a = true) ->
  MInv (St (s_hist s ++ [v]) (upd (s_view s) t (length (s_hist s))) (s_owner s) (upd (s_at s) t a) (upd (s_holds s) t h)).
Proof.
  intros HI Ho Hc. pose proof HI as [V O H F]. split; cbn [s_hist s_view s_owner s_at s_holds]; rewrite ?app_length; cbn [length].
  - intros u. two t u; [lia|]. specialize (V u). lia.
  - intros u. two t u; [|apply O]. destruct Hc as [(_ & -> & _)|(_ & _ & ->)]; tauto.
  - intros u. two t u.
    + intros ->. destruct Hc as [(-> & _ & ->)|(_ & ? & _)]; [|discriminate]. split; [reflexivity|]. split; [lia|]. rewrite lookup_app_r, Nat.sub_diag by lia. reflexivity.
    + intros Hu. exfalso. assert (u = t) by (eapply owner_only; eauto). contradiction.
  - intros u j. two t u.
    + intros -> Hj. destruct Hc as [(_ & ? & _)|(-> & _ & _)]; [discriminate|]. rewrite lookup_app_r by lia. destruct (j - length (s_hist s))%nat as [|k]; cbn; [discriminate|]. destruct k; discriminate.
    + intros Hu Hj. destruct (decide (j < length (s_hist s))%nat) as [Hlt|Hge].
      * rewrite lookup_app_l by exact Hlt. apply F; assumption.
      * rewrite lookup_app_r by lia. destruct (j - length (s_hist s))%nat as [|k]; cbn; [|destruct k; discriminate]. destruct Hc as [(-> & _)|(-> & _)]; congruence.
Qed.
Lemma throw_holds s t i : MInv s -> (s_view s t <= i)%nat -> s_hist s !! i = Some (Some t) -> s_holds s t = true.
Proof. intros HI Hi E. destruct (s_holds s t) eqn:Eh; [reflexivity|]. exfalso. exact (mi_free _ HI t i Eh Hi E). Qed.
Lemma view_same s t i : MInv s -> (s_view s t <= i)%nat -> s_hist s !! i = Some (Some t) -> i = s_view s t.
Proof. intros HI Hi E. destruct (mi_holds _ HI t (throw_holds s t i HI Hi E)) as (_ & Hl & _). apply lookup_lt_Some in E. lia. Qed.
Lemma upd_id {A} (f : tid -> A) t u : upd f t (f t) u = f u.
Proof. unfold upd. destruct (decide (u = t)) as [->|]; reflexivity. Qed.
Lemma minv_throw s t i : MInv s -> (s_view s t <= i)%nat -> s_hist s !! i = Some (Some t) -> MInv (St (s_hist s) (upd (s_view s) t i) (s_owner s) (s_at s) (s_holds s)).
Proof.
  intros HI Hi E. rewrite (view_same s t i HI Hi E). destruct HI as [V O H F]. split; cbn [s_hist s_view s_owner s_at s_holds]; auto.
  - intros u. rewrite upd_id. apply V.
  - intros u Hu. rewrite upd_id. apply H, Hu.
  - intros u j Hu. rewrite upd_id. apply F, Hu.
Qed.
Lemma minv_step s e s' : MInv s -> sstep s e s' -> MInv s'.
Proof.
  intros HI Hs. pose proof HI as [V O H F]. destruct Hs as [s t i Ha Hv Hi|s t i v Ha Hv Hi Hne|s t Ha Ho|s t Ha|s t i Ha Hv Hi|s t i v Ha Hv Hi Hne|s t Ha Ho|s t Ha|s t Ha|s t Ha Hh|s t Ha].
  - apply minv_throw; assumption.
  - eapply minv_check; eauto.
  - assert (Hf : s_holds s t = false). { destruct (s_holds s t) eqn:E; [|reflexivity]. destruct (H t E) as (Hx & _). congruence. }
    split; cbn [s_hist s_view s_owner s_at s_holds]; auto.
    + intros u. two t u; [cbn; tauto|]. split; [congruence|]. intros Hu. apply O in Hu. congruence.
    + intros u Hu. two t u; [congruence|apply H, Hu].
  - apply minv_store; auto. apply O. right. rewrite Ha. reflexivity.
  - apply minv_throw; assumption.
  - eapply minv_check; eauto.
  - assert (Hf : s_holds s t = false). { destruct (s_holds s t) eqn:E; [|reflexivity]. destruct (H t E) as (Hx & _). congruence. }
    split; cbn [s_hist s_view s_owner s_at s_holds]; auto.
    + intros u. two t u; [cbn; tauto|]. split; [congruence|]. intros Hu. apply O in Hu. congruence.
    + intros u Hu. two t u; [congruence|apply H, Hu].
  - split; cbn [s_hist s_view s_owner s_at s_holds]; auto.
    + intros u. two t u; [|apply O]. rewrite O, Ha. reflexivity.
    + intros u Hu. two t u; [split; [reflexivity|apply H, Hu]|apply H, Hu].
  - apply minv_store; auto. apply O. right. rewrite Ha. reflexivity.
  - apply minv_store; [exact HI|apply O; left; exact Hh|]. right. auto.
  - assert (Ho : s_owner s = Some t) by (apply O; right; rewrite Ha; reflexivity).
    assert (Hf : s_holds s t = false). { destruct (s_holds s t) eqn:E; [|reflexivity]. destruct (H t E) as (Hx & _). congruence. }
    split; cbn [s_hist s_view s_owner s_at s_holds]; auto.
    + intros u. split; [discriminate|]. two t u; [rewrite Hf; cbn; intros [|]; discriminate|]. intros Hu. exfalso. assert (u = t) by (eapply owner_only; eauto). contradiction.
    + intros u Hu. two t u; [congruence|apply H, Hu].
Qed.
Lemma execution_inv s : execution s -> MInv s.
Proof. induction 1 as [|s e s' _ IH Hs]; [apply minv_init|eapply minv_step; eassumption]. Qed.

(** ** C58 *)
(** at most one thread holds the mutex *)
Theorem C58_exclusion : forall s t u, execution s -> s_holds s t = true -> s_holds s u = true -> t = u.
Proof.
  intros s t u He Ht Hu. apply execution_inv in He as HI. assert (s_owner s = Some t) by (apply (mi_owner _ HI); auto). symmetry. eapply owner_only; eauto.
Qed.
(** EDEADLK is thrown exactly to the thread that holds the mutex, whatever the owner check reads:
    nobody else ever gets it, *)
Theorem C58_throw_only_to_holder : forall s t b s', execution s -> sstep s (EThrow t b) s' -> s_holds s t = true /\ forall u, s_holds s' u = s_holds s u.
Proof.
  intros s t b s' He Hs. apply execution_inv in He. inversion Hs as [s0 t0 i Ha Hv Hi E1 E2 E3| | | |s0 t0 i Ha Hv Hi E1 E2 E3| | | | | |]; subst; (split; [eapply throw_holds; eassumption|reflexivity]).
Qed.
(** and the holder gets it from each lock() and try_lock(): the only call it can enter is unlock() *)
Theorem C58_holder_is_told : forall s t s', execution s -> s_holds s t = true -> sstep s (ECall t) s' -> s_at s' t = Drop.
Proof.
  intros s t s' He Hh Hs. apply execution_inv in He as HI. destruct (mi_holds _ HI t Hh) as (_ & Hl & Ht).
  inversion Hs as [|s0 t0 i v Ha Hv Hi Hne| | | |s0 t0 i v Ha Hv Hi Hne| | | |s0 t0 Ha Hh2|]; subst; cbn [s_at].
  - pose proof (lookup_lt_Some _ _ _ Hi). assert (i = s_view s t) by lia. congruence.
  - pose proof (lookup_lt_Some _ _ _ Hi). assert (i = s_view s t) by lia. congruence.
  - apply upd_same.
Qed.
(** a thread never waits for itself, and can always be told *)
Theorem C58_no_self_wait : forall s t, execution s -> s_at s t = WantLock \/ s_at s t = WantTry -> s_owner s <> Some t /\ s_holds s t = false.
Proof.
  intros s t He Ha. apply execution_inv in He as HI. assert (Hf : s_holds s t = false).
  { destruct (s_holds s t) eqn:E; [|reflexivity]. destruct (mi_holds _ HI t E) as (Hx & _). destruct Ha; congruence. }
  split; [|exact Hf]. intros Ho. apply (mi_owner _ HI) in Ho as [Ho|Ho]; [congruence|]. destruct Ha as [Ha|Ha]; rewrite Ha in Ho; discriminate.
Qed.
Theorem C58_holder_can_call : forall s t, execution s -> s_holds s t = true -> s_at s t = Out /\ (exists s', sstep s (EThrow t true) s') /\ exists s', sstep s (ECall t) s'.
Proof.
  intros s t He Hh. apply execution_inv in He as HI. destruct (mi_holds _ HI t Hh) as (Ha & Hl & Ht). split; [exact Ha|]. split.
  - eexists. eapply s_lock_throw; [exact Ha| |exact Ht]. lia.
  - eexists. eapply s_unlock_store; assumption.
Qed.
(** a waiting lock() is let in as soon as nobody holds the mutex and nobody is about to give or take it *)
Theorem C58_progress : forall s t, execution s -> s_at s t = WantLock ->
  (exists s', sstep s (ETau t) s') \/ (exists u, u <> t /\ s_holds s u = true) \/ (exists u e s', u <> t /\ inside (s_at s u) = true /\ sstep s e s' /\ (e = ELocked u \/ e = ETry u true \/ e = EUnlocked u)).
Proof.
  intros s t He Ha. apply execution_inv in He as HI. destruct (s_owner s) as [u|] eqn:Eo.
  - right. apply (mi_owner _ HI) in Eo as Hu. assert (Hne : u <> t).
    { intros ->. destruct Hu as [Hu|Hu]; [destruct (mi_holds _ HI t Hu); congruence|rewrite Ha in Hu; discriminate]. }
    destruct Hu as [Hu|Hu]; [left; eauto|]. right. exists u. destruct (s_at s u) eqn:Eu; try discriminate Hu; eexists _, _.
    + split; [exact Hne|]. split; [reflexivity|]. split; [apply s_lock_store; exact Eu|auto].
    + split; [exact Hne|]. split; [reflexivity|]. split; [apply s_try_store; exact Eu|auto].
    + split; [exact Hne|]. split; [reflexivity|]. split; [apply s_unlock; exact Eu|auto].
  - left. eexists. apply s_lock_take; assumption.
Qed.
(** ** A concrete execution: thread 1 locks; thread 2 passes the check on the old value and waits; 1 is told, unlocks; 2 gets in *)
Example C58_sample : exists s s1 s2, execution s /\ s_holds s 1%nat = true /\ s_at s 2%nat = WantLock /\ sstep s (EThrow 1%nat true) s1 /\ execution s2 /\ s_holds s2 2%nat = true.
Proof.
  assert (E1 : exists s, execution s /\ s_holds s 1%nat = true /\ s_at s 2%nat = WantLock /\ s_at s 1%nat = Out /\ s_owner s = Some 1%nat).
  { eexists. split; [|split; [|split; [|split]]].
    - eapply ex_step; [eapply ex_step; [eapply ex_step; [eapply ex_step; [apply ex_init|]|]|]|].
      + apply (s_lock_check _ 1%nat 0%nat None); [reflexivity|vm_compute; lia|reflexivity|discriminate].
      + apply (s_lock_take _ 1%nat); reflexivity.
      + apply (s_lock_store _ 1%nat); reflexivity.
      + apply (s_lock_check _ 2%nat 0%nat None); [reflexivity|vm_compute; lia|reflexivity|discriminate].
    - reflexivity.
    - reflexivity.
    - reflexivity.
    - reflexivity. }
  destruct E1 as (s & He & H1 & H2 & H3 & H4). destruct (C58_holder_can_call s 1%nat He H1) as (_ & [s1 Hs1] & _).
  exists s, s1. eexists. split; [exact He|]. split; [exact H1|]. split; [exact H2|]. split; [exact Hs1|]. split.
  - eapply ex_step; [eapply ex_step; [eapply ex_step; [eapply ex_step; [exact He|]|]|]|].
    + apply (s_unlock_store _ 1%nat); assumption.
    + apply (s_unlock _ 1%nat); reflexivity.
    + apply (s_lock_take _ 2%nat); [cbn; unfold upd; cbn; exact H2|reflexivity].
    + apply (s_lock_store _ 2%nat); reflexivity.
  - reflexivity.
Qed.
Print Assumptions C58_exclusion.
Print Assumptions C58_throw_only_to_holder.
Print Assumptions C58_holder_is_told.
Print Assumptions C58_no_self_wait.
Print Assumptions C58_holder_can_call.
Print Assumptions C58_progress.
