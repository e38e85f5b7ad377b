(** Concurrent requests: C53 (linearizability), C54 (no deadlock, every request is answered) and
    C55 (the theorems about histories, C33-C41, hold for every schedule).
    [crun c0 tr c]: the threads can go from [c0] to [c] with the calls, replies and kills [tr], in
    some interleaving of their single steps (Conc.v). *)
From Verif Require Export ConcHist.

Lemma crun_trans c tr c' tr' c'' : crun c tr c' -> crun c' tr' c'' -> crun c (tr ++ tr') c''.
Proof. intros H1 H2. revert H1. induction H2 as [|a0 tr2 a1 l a2 H2 IH H3]; intros H1; [rewrite app_nil_r; exact H1|]. rewrite app_assoc. econstructor; [apply IH, H1|exact H3]. Qed.
Lemma crun_one c l c' : cstep c l c' -> crun c (seen l) c'.
Proof. intros H. change (seen l) with ([] ++ seen l). econstructor; [constructor|exact H]. Qed.

(** ** C53 *)
(** Whatever the schedule, the calls and replies are those of an object that handles each
    request in one indivisible step between its call and its reply (ConcSpec.v; readdirplus
    takes two steps), and the database and the reference counts are those of that object. *)
Theorem C53_linearizable : forall root c0 tr c, copen root = Done c0 -> crun c0 tr c ->
  exists a0 a, aopen root = Done a0 /\ arun a0 tr a /\ Conc.w_comm c = s_db (a_s a) /\
    (Conc.w_th c = ∅ -> Conc.w_refs c = s_refs (a_s a) /\ a_pend a = ∅).
Proof.
  intros root c0 tr c Ho Hr. destruct (sim_open root c0 Ho) as (a0 & Ha & HS). destruct (sim_run _ _ _ _ Hr HS) as (a & Hra & HS').
  exists a0, a. split; [exact Ha|]. split; [exact Hra|]. split; [exact (sim_db _ _ HS')|]. intros He. split.
  - apply (sim_refs _ _ HS'). destruct (Conc.w_mutex c) as [j|] eqn:Em; [|reflexivity]. destruct (sim_mutex _ _ HS' j Em). rewrite He. apply lookup_empty.
  - apply map_eq. intros i. rewrite lookup_empty. pose proof (sim_th _ _ HS' i) as H. rewrite He, lookup_empty in H. exact H.
Qed.
(** An exception, a failed assertion or an endless loop in some thread happens only if the
    object has, at some moment, a pending request it cannot handle. *)
Theorem C53_faults : forall root c0 tr c, copen root = Done c0 -> crun c0 tr c -> cfault c ->
  exists a0 tr1 tr2 a, aopen root = Done a0 /\ tr = tr1 ++ tr2 /\ arun a0 tr1 a /\ afault a.
Proof.
  intros root c0 tr c Ho Hr Hf. destruct (sim_open root c0 Ho) as (a0 & Ha & HS).
  assert (Hn : nodoom c0). { intros i q d rw p E. unfold copen in Ho. destruct (open_cache root db_empty) as [[d0 r0]| | |]; cbn [obind] in Ho; try discriminate. injection Ho as <-. cbn [Conc.w_th] in E. rewrite lookup_empty in E. discriminate. }
  destruct (fault_run _ _ _ _ Hr HS Hn) as [(tr1 & tr2 & a1 & -> & Hra & Haf)|(a & Hra & HS' & Hn')].
  - exists a0, tr1, tr2, a1. auto.
  - exists a0, tr, [], a. rewrite app_nil_r. split; [exact Ha|]. split; [reflexivity|]. split; [exact Hra|]. eapply fault_sim; eassumption.
Qed.
Print Assumptions C53_linearizable.
Print Assumptions C53_faults.

(** ** C54 *)
Definition own_step (c c' : cworld) : Prop := exists l, (l = LTau \/ exists i r, l = LRet i r) /\ cstep c l c'.
Theorem C54_no_deadlock : forall root c0 tr c, copen root = Done c0 -> crun c0 tr c -> Conc.w_th c <> ∅ -> cfault c \/ exists c', own_step c c'.
Proof.
  intros root c0 tr c Ho Hr Hne. destruct (sim_open root c0 Ho) as (a0 & Ha & HS). destruct (sim_run _ _ _ _ Hr HS) as (a & Hra & HS').
  destruct (progress c a HS' Hne) as [Hf|(l & c' & Hl & Hc)]; [left; exact Hf|right; exists c', l; auto].
Qed.
(** the threads cannot go on forever without new requests, whatever the schedule *)
Theorem C54_terminates : ~ exists f : nat -> cworld, forall n, own_step (f n) (f (S n)).
Proof.
  intros [f Hf]. assert (H : forall c, forall n, f n = c -> False); [|exact (H (f O) O eq_refl)].
  intros c. induction (terminates c) as [c _ IH]. intros n En. apply (IH (f (S n))) with (n := S n); [|reflexivity]. destruct (Hf n) as (l & Hl & Hc). exists l. rewrite <- En. auto.
Qed.
Print Assumptions C54_no_deadlock.
Print Assumptions C54_terminates.

(** ** C55 *)
Section legal.
  Variables (root : attrs) (c0 : cworld) (tr : list clabel) (c : cworld) (ck : ckernel).
  Hypotheses (Hroot : attrs_ok root) (Ho : copen root = Done c0) (Hr : crun c0 tr c) (Hl : legal_trace tr ck).
  Lemma legal_linked : exists a W k h rem, sim c a /\ linked a ck W k h rem.
  Proof.
    destruct (sim_open root c0 Ho) as (a0 & Ha & HS). destruct (sim_run _ _ _ _ Hr HS) as (a & Hra & HS').
    destruct (linked_run root a0 tr a ck Hroot Ha Hra Hl) as (W & k & h & rem & HL). exists a, W, k, h, rem. auto.
  Qed.
  Lemma legal_no_fault : ~ cfault c.
  Proof.
    intros Hf. destruct (C53_faults root c0 tr c Ho Hr Hf) as (a0 & tr1 & tr2 & a & Ha & Etr & Hra & Haf). rewrite Etr in Hl.
    destruct (legal_prefix tr2 tr1 ck Hl) as [ck1 Hl1]. destruct (linked_run root a0 tr1 a ck1 Hroot Ha Hra Hl1) as (W & k & h & rem & HL). exact (linked_safe _ _ _ _ _ _ HL Haf).
  Qed.
End legal.
(** With a legal kernel no thread ever faults.  (The exception of a second reply, which only
    readdir makes, C33_second_reply_refuted, is visible in its replies and is not a [cfault]; the
    model lets the other threads go on, the process may also be killed.) *)
Theorem C55_safe : forall root c0 tr c ck, attrs_ok root -> copen root = Done c0 -> crun c0 tr c -> legal_trace tr ck -> ~ cfault c.
Proof. intros. eapply legal_no_fault; eassumption. Qed.
(** There is a sequential history (FsSpec.v) that ends in the same database, is made of the
    kernel's requests, and has the reply to every request the kernel got ([answered], ConcHist.v;
    except for the readdir requests that end with the exception of a second reply). *)
Theorem C55_history : forall root c0 tr c ck, attrs_ok root -> copen root = Done c0 -> crun c0 tr c -> legal_trace tr ck ->
  exists W s k h, hist W s k h /\ s_db s = Conc.w_comm c /\ (Conc.w_th c = ∅ -> s_refs s = Conc.w_refs c /\ forall x, kcount k x = kcount (c_know ck) x) /\
    (forall e, e ∈ h -> asked_for ck e) /\ (forall q l, (q, l) ∈ c_got ck -> answered h q l).
Proof.
  intros root c0 tr c ck Hroot Ho Hr Hl. destruct (legal_linked root c0 tr c ck Hroot Ho Hr Hl) as (a & W & k & h & rem & HS & HL).
  exists W, (a_s a), k, h. split; [exact (lk_hist _ _ _ _ _ _ HL)|]. split; [symmetry; exact (sim_db _ _ HS)|]. split.
  - intros He. assert (Hm : Conc.w_mutex c = None). { destruct (Conc.w_mutex c) as [j|] eqn:Em; [|reflexivity]. destruct (sim_mutex _ _ HS j Em). rewrite He. apply lookup_empty. }
    split; [symmetry; exact (sim_refs _ _ HS Hm)|]. intros x. rewrite (lk_count _ _ _ _ _ _ HL).
    assert (Hfly : c_fly ck = ∅).
    { apply map_eq. intros i. rewrite lookup_empty. pose proof (sim_th _ _ HS i) as Hi. rewrite He, lookup_empty in Hi. pose proof (lk_fits _ _ _ _ _ _ HL i) as Hf. rewrite Hi in Hf. destruct (c_fly ck !! i) as [q|]; [destruct q; contradiction|reflexivity]. }
    rewrite Hfly, msum_empty. lia.
  - split; [exact (lk_events _ _ _ _ _ _ HL)|exact (lk_got _ _ _ _ _ _ HL)].
Qed.
(** C37 for every schedule: an inode the kernel holds is in the database *)
Theorem C55_held : forall root c0 tr c ck x, attrs_ok root -> copen root = Done c0 -> crun c0 tr c -> legal_trace tr ck ->
  0 < kcount (c_know ck) x -> exists a, getattr (Conc.w_comm c) x = Ok a.
Proof.
  intros root c0 tr c ck x Hroot Ho Hr Hl Hx. destruct (legal_linked root c0 tr c ck Hroot Ho Hr Hl) as (a & W & k & h & rem & HS & HL).
  assert (Hk : 0 < kcount k x). { rewrite (lk_count _ _ _ _ _ _ HL). pose proof (msum_nonneg _ _ (amt_nonneg _ _ _ _ _ _ x HL)). lia. }
  destruct (C37_held W (a_s a) k h x (lk_hist _ _ _ _ _ _ HL) Hk) as (at_ & Ha & _). exists at_. rewrite (sim_db _ _ HS). exact Ha.
Qed.
(** C38 for every schedule: when all requests are answered, the cache holds at least the
    kernel's references, and exactly those if no readdirplus request was made *)
Theorem C55_references : forall root c0 tr c ck, attrs_ok root -> copen root = Done c0 -> crun c0 tr c -> legal_trace tr ck -> Conc.w_th c = ∅ ->
  forall x, kcount (c_know ck) x <= refcount (Conc.w_refs c) x /\
    ((forall y size off, CPlus y size off ∉ c_asked ck) -> refcount (Conc.w_refs c) x = kcount (c_know ck) x).
Proof.
  intros root c0 tr c ck Hroot Ho Hr Hl He x. destruct (C55_history root c0 tr c ck Hroot Ho Hr Hl) as (W & s & k & h & Hh & _ & Hq & Hev & _).
  destruct (Hq He) as [Hrf Hk]. rewrite <- Hrf, <- Hk. split; [exact (proj2 (C38_at_least W s k h x Hh))|]. intros Hn.
  apply (C38_balanced_partial W s k h x Hh). apply Forall_forall. intros e Hin Hp. destruct (Hev e Hin) as [(i & q & Hin' & Hs)|[r E]].
  - unfold is_plus in Hp. destruct (ev_q e) eqn:Eq; try contradiction. destruct q; try discriminate. exact (Hn _ _ _ Hin').
  - rewrite E in Hp. exact Hp.
Qed.
Lemma ret_in_flight c a i l c' ck W k h rem : sim c a -> linked a ck W k h rem -> cstep c (LRet i l) c' -> exists q, c_fly ck !! i = Some q.
Proof.
  intros HS HL Hc. assert (Hp : exists p, a_pend a !! i = Some p).
  { pose proof (sim_th _ _ HS i) as Hi. inversion Hc; subst; cbn [Conc.w_th Conc.w_mutex Conc.w_refs Conc.w_lock] in Hi; match goal with H : _ !! i = Some _ |- _ => rewrite H in Hi end; remember (a_pend a !! i) as pd; inversion Hi; subst; eauto. }
  destruct Hp as [p Hp]. pose proof (lk_fits _ _ _ _ _ _ HL i) as Hf. rewrite Hp in Hf. exact (fits_fly _ _ _ _ Hf).
Qed.
(** C54, with a legal kernel: let the threads run as they like without new requests.  They stop
    (C54_terminates), and only when every request has been answered. *)
Theorem C54_all_answered : forall root c0 tr c ck tr' c', attrs_ok root -> copen root = Done c0 -> crun c0 tr c -> legal_trace tr ck ->
  crun c tr' c' -> Forall (fun l => exists i r, l = LRet i r) tr' -> (~ exists c'', own_step c' c'') -> Conc.w_th c' = ∅.
Proof.
  intros root c0 tr c ck tr' c' Hroot Ho Hr Hl Hr' Hret Hstop.
  assert (H : exists ck', legal_trace (tr ++ tr') ck').
  { clear Hstop. induction Hr' as [c|c tr' c' l c'' Hr' IH Hc]; [rewrite app_nil_r; eauto|].
    apply Forall_app in Hret. destruct Hret as [Hret Hret']. destruct (IH Hr Hret) as [ck' Hl']. rewrite app_assoc.
    destruct l as [i q|i l|rt|]; cbn [seen] in *; try (inversion Hret' as [|? ? (? & ? & E) _]; discriminate).
    - destruct (legal_linked root c0 (tr ++ tr') c' ck' Hroot Ho (crun_trans _ _ _ _ _ Hr Hr') Hl') as (a & W & k & h & rem & HS & HL).
      destruct (ret_in_flight _ _ _ _ _ _ _ _ _ _ HS HL Hc) as [q Hq]. eexists. eapply lt_ret; eassumption.
    - rewrite app_nil_r. eauto. }
  destruct H as [ck' Hl']. pose proof (crun_trans _ _ _ _ _ Hr Hr') as Hrr.
  destruct (decide (Conc.w_th c' = ∅)) as [E|Hne]; [exact E|]. destruct (C54_no_deadlock root c0 _ c' Ho Hrr Hne) as [Hf|Hs]; [|contradiction].
  destruct (C55_safe root c0 _ c' ck' Hroot Ho Hrr Hl' Hf).
Qed.
Print Assumptions C54_all_answered.
Print Assumptions C55_safe.
Print Assumptions C55_history.
Print Assumptions C55_held.
Print Assumptions C55_references.
