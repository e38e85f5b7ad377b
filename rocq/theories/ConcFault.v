(** Faults, progress and termination of the threads. *)
From Verif Require Export ConcMain.

(** ** Faults *)
Definition nodoom (c : cworld) : Prop := forall i q d rw p, w_th c !! i = Some (TRun q false d rw p) -> is_read q = true ->
  exists r' x, runs p (Tx d r' [] rw) = Done x.
Lemma ended_bad F x : (forall y, ended (then_fin F x) <> Done y) <-> (forall y, x <> Done y).
Proof.
  destruct x as [y| | |]; cbn; split; try (intros; discriminate).
  - intros H. destruct (F y) as [s l]. destruct (H _ eq_refl).
  - intros H. destruct (H _ eq_refl).
Qed.
Lemma oeq_not {A} (a b : outcome A) : oeq a b -> (forall y, b <> Done y) -> forall y, a <> Done y.
Proof. intros H Hb y E. apply H in E. exact (Hb _ E). Qed.
Lemma follows_bad m r sr i d rw p p0 d0 : follows m r sr i p d rw p0 d0 ->
  (m = Some i -> forall y, runs p (Tx d r [] rw) <> Done y) -> (m <> Some i -> forall y, runs p (Tx d sr [] rw) <> Done y) ->
  forall y, runs p0 (begin_tx d0 sr) <> Done y.
Proof.
  intros [F1 F2] H1 H2 y E. destruct (decide (m = Some i)) as [Hm|Hm].
  - apply (F1 Hm) in E. exact (H1 Hm _ E).
  - apply (F2 Hm sr) in E. exact (H2 Hm _ E).
Qed.
(** what the pending request of a thread that follows its handler would do now *)
Lemma tsim_bad m r k s P i q wr d rw p : tsim m r k s i (P !! i) (TRun q wr d rw p) ->
  (m = Some i -> forall y, runs p (Tx d r [] rw) <> Done y) -> (m <> Some i -> forall y, runs p (Tx d (s_refs s) [] rw) <> Done y) ->
  (is_read q = true -> exists r' x, runs p (Tx d r' [] rw) = Done x) ->
  afault (AW s P).
Proof.
  remember (P !! i) as pd eqn:EP. intros HT B1 B2 Hn.
  inversion HT as [|? ? ? ? p0 Hk Hq HF|? ? ? ? p0 Hk Hf Hq Hrd HF|? ? ? ? ? Hk Hm' Hq Hp HR|? ? ? ? Hk Hm' Hq Hp HR|? ? ? ? ? ? Hk Hrd Hs HF| | | |]; subst pd; subst; nameEP.
  - destruct (write_step q p0 s Hq) as (rq & Erq & Ef). eapply af_effect; [symmetry; exact EP|exact Erq|].
    eapply oeq_not; [exact Ef|]. apply ended_bad. eapply follows_bad; eassumption.
  - destruct (forget_step q p0 s d Hf Hq) as (rq & Erq & Ef). eapply af_effect; [symmetry; exact EP|exact Erq|].
    eapply oeq_not; [exact Ef|]. apply ended_bad. eapply follows_bad; eassumption.
  - destruct (B2 Hm' _ (HR _)).
  - destruct (Hn Hq) as (r' & x & E). destruct (HR _ _ E).
  - eapply af_plus; [symmetry; exact EP|]. eapply oeq_not; [apply (plus_step s i _ d _ _ Hs)|]. apply ended_bad. eapply follows_bad; eassumption.
Qed.
Lemma fault_sim c a : sim c a -> nodoom c -> cfault c -> afault a.
Proof.
  destruct a as [s P]. intros HS Hn Hf. destruct Hf as [c r m k th i q wr d rw E|c r m k th i q wr d rw o f E Hw Hm Hbad].
  - pose proof (sim_at _ _ _ _ _ _ _ _ _ HS E) as HT. eapply tsim_bad; [exact HT|intros; discriminate|intros; discriminate|].
    intros Hq. destruct wr; [inversion HT; subst; destruct q; discriminate|]. eapply Hn; [exact E|exact Hq].
  - pose proof (sim_at _ _ _ _ _ _ _ _ _ HS E) as HT.
    assert (B : forall r', (m = Some i -> r' = r) -> (m <> Some i -> r' = s_refs s) -> forall y, runs (POp o f) (Tx d r' [] rw) <> Done y).
    { intros r' H1 H2 y. cbn [runs]. change (strip (Tx d r' [] rw)) with (Tx d r' [] rw).
      assert (forall x, opres (Tx d r' [] rw) o <> Done x).
      { destruct (uses_refs (Tx d r [] rw) o) eqn:Hu.
        - destruct (Hm eq_refl) as [Hm'|Hm']; [|rewrite (H1 Hm'); exact Hbad]. rewrite (H2 ltac:(congruence)). pose proof (sim_refs _ _ HS) as Hr. cbn in Hr. rewrite <- (Hr Hm'). exact Hbad.
        - pose proof (opres_no_refs d r rw o Hu) as H. destruct (opres (Tx d r [] rw) o) as [x| | |]; [destruct (Hbad _ eq_refl)|apply H..]. }
      destruct (opres (Tx d r' [] rw) o) as [x| | |]; [destruct (H _ eq_refl)|discriminate..]. }
    eapply tsim_bad; [exact HT|intros Hm'; apply B; [reflexivity|congruence]|intros Hm'; apply B; [congruence|reflexivity]|].
    intros Hq. destruct wr; [inversion HT; subst; destruct q; discriminate|]. eapply Hn; [exact E|exact Hq].
Qed.
Lemma nodoom_upd c r m k th i t c' r' m' k' : nodoom (CW c r m k th) ->
  match t with TRun q false d rw p => is_read q = true -> exists r' x, runs p (Tx d r' [] rw) = Done x | _ => True end ->
  nodoom (CW c' r' m' k' (<[i := t]> th)).
Proof.
  intros H Ht j q d rw p E Hq. cbn [w_th] in E. destruct (decide (j = i)) as [->|Hj].
  - rewrite lookup_insert in E. injection E as ->. exact (Ht Hq).
  - rewrite lookup_insert_ne in E by congruence. exact (H j q d rw p E Hq).
Qed.
Lemma nodoom_del c r m k th i c' r' m' k' : nodoom (CW c r m k th) -> nodoom (CW c' r' m' k' (delete i th)).
Proof. intros H j q d rw p E Hq. cbn [w_th] in E. apply lookup_delete_Some in E. destruct E as [_ E]. exact (H j q d rw p E Hq). Qed.
Lemma nodoom_step c a l c' : sim c a -> nodoom c -> cstep c l c' -> nodoom c' \/ afault a.
Proof.
  destruct a as [s P]. intros HS Hn Hc. destruct Hc as
    [c r m k th i q E|c r m k th i q l E Eq|c r m th i q p E Eq|c r m k th i q p E Eq|c r m k th i q wr d rw f E
    |c r m k th i q wr d rw o f x t E Hw Hu Ho|c r m k th i q wr d rw o f x t E Hw Hu Hm Ho|c r m k th i q d rw f E|c r m k th i q d rw f E
    |c r m k th i l E|c r m k th i l E|c r m k th i q wr d rw l E|c r m k th i wr E|c r m k th i wr E|c r m k th root d r' E];
    try (left; eapply nodoom_upd; [exact Hn|exact I]); try (left; eapply nodoom_del; exact Hn);
    try (pose proof (sim_at _ _ _ _ _ _ _ _ _ HS E) as HT).
  - destruct (is_read q) eqn:Hq; [|left; eapply nodoom_upd; [exact Hn|congruence]].
    destruct (read_step q p s (s_refs s) Hq Eq) as (rq & Er & Ef & Hp). destruct (pure_runs p Hp c None) as [[l El]|Hbad].
    + left. eapply nodoom_upd; [exact Hn|]. intros _. exists r. eauto.
    + right. remember (P !! i) as pd eqn:EP. inversion HT; subst pd; subst; nameEP. eapply af_effect; [symmetry; exact EP|exact Er|]. eapply oeq_not; [exact Ef|]. apply ended_bad.
      pose proof (sim_db _ _ HS) as Hdb. cbn in Hdb. rewrite <- Hdb. apply Hbad.
  - left. eapply nodoom_upd; [exact Hn|]. destruct wr; [exact I|]. intros Hq. destruct (Hn i q d rw (PRead f) E Hq) as (r' & x & Hr). exists r', x. exact Hr.
  - left. eapply nodoom_upd; [exact Hn|]. destruct wr; [exact I|]. intros Hq.
    remember (P !! i) as pd eqn:EP. inversion HT as [| |? ? ? ? p0 Hk Hf Hq' Hrd HF|? ? ? ? ? Hk Hm' Hq' Hp HR|? ? ? ? Hk Hm' Hq' Hp HR|? ? ? ? ? ? Hk Hrd Hs HF| | | |]; subst; try discriminate; try (inversion Hp; fail). destruct q; discriminate.
  - left. eapply nodoom_upd; [exact Hn|]. destruct wr; [exact I|]. intros Hq.
    remember (P !! i) as pd eqn:EP. inversion HT as [| |? ? ? ? p0 Hk Hf Hq' Hrd HF|? ? ? ? ? Hk Hm' Hq' Hp HR|? ? ? ? Hk Hm' Hq' Hp HR|? ? ? ? ? ? Hk Hrd Hs HF| | | |]; subst; try discriminate; try (inversion Hp; fail). destruct q; discriminate.
  - left. intros i q d0 rw p E0. cbn [w_th] in E0. rewrite lookup_empty in E0. discriminate.
Qed.
Theorem fault_run c tr c' a : crun c tr c' -> sim c a -> nodoom c ->
  (exists tr1 tr2 a1, tr = tr1 ++ tr2 /\ arun a tr1 a1 /\ afault a1) \/ (exists a', arun a tr a' /\ sim c' a' /\ nodoom c').
Proof.
  intros H HS Hn. induction H as [w|w tr w' l w'' H IH Hs]; [right; exists a; split; [constructor|split; assumption]|].
  destruct (IH HS Hn) as [(tr1 & tr2 & a1 & -> & Ha & Hf)|(a' & Ha & HS' & Hn')].
  - left. exists tr1, (tr2 ++ seen l), a1. rewrite app_assoc. auto.
  - destruct (nodoom_step _ _ _ _ HS' Hn' Hs) as [Hn''|Hf].
    + right. destruct (sim_step _ _ _ _ HS' Hs) as (a'' & Ha' & HS''). exists a''. split; [eapply arun_trans; eassumption|split; assumption].
    + left. exists tr, (seen l), a'. auto.
Qed.

(** ** Progress *)
Lemma th_progress c a i : sim c a -> (exists t, w_th c !! i = Some t) ->
  (forall q, w_th c !! i = Some (TWait q) -> forall b p, code q = inl (b, p) -> b = true -> w_lock c = None) ->
  free_for i (w_mutex c) ->
  cfault c \/ exists l c', (l = LTau \/ exists i r, l = LRet i r) /\ cstep c l c'.
Proof.
  destruct c as [c r m k th], a as [s P]. cbn [w_th w_lock w_mutex]. intros HS [t E] Hw Hm.
  pose proof (sim_at _ _ _ _ _ _ _ _ _ HS E) as HT.
  destruct t as [q|q wr d rw p|l|l|wr|wr].
  - right. destruct (code q) as [[b p]|l] eqn:Eq.
    + destruct b.
      * pose proof (Hw q E _ _ Eq eq_refl) as Hk0; subst k. do 2 eexists. split; [left; reflexivity|]. eapply cs_begin_rw; eassumption.
      * do 2 eexists. split; [left; reflexivity|]. eapply cs_begin_ro; eassumption.
    + do 2 eexists. split; [left; reflexivity|]. eapply cs_none; eassumption.
  - destruct p as [f|o f|f|l|].
    + right. do 2 eexists. split; [left; reflexivity|]. eapply cs_read; eassumption.
    + assert (Hro : wr = true \/ reader_op o = true).
      { remember (P !! i) as pd eqn:EP. inversion HT as [| |? ? ? ? p0 Hk Hf Hq' Hrd HF|? ? ? ? ? Hk Hm' Hq' Hp HR|? ? ? ? Hk Hm' Hq' Hp HR|? ? ? ? ? ? Hk Hrd Hs HF| | | |]; subst; auto; try (inversion Hp; fail); inversion Hrd; auto. }
      destruct (opres (Tx d r [] rw) o) as [[x t]| | |] eqn:Ho; try (left; eapply cf_op; [exact E|exact Hro|intros; exact Hm|intros x H; congruence]).
      right. destruct (uses_refs (Tx d r [] rw) o) eqn:Hu.
      * do 2 eexists. split; [left; reflexivity|]. eapply cs_op_refs; eassumption.
      * do 2 eexists. split; [left; reflexivity|]. eapply cs_op; eassumption.
    + right. destruct wr; do 2 eexists; (split; [left; reflexivity|]); [eapply cs_commit_rw|eapply cs_commit_ro]; eassumption.
    + right. do 2 eexists. split; [right; eauto|]. eapply cs_drop; eassumption.
    + left. eapply cf_prog; eassumption.
  - right. do 2 eexists. split; [left; reflexivity|]. eapply cs_unlock; eassumption.
  - right. do 2 eexists. split; [right; eauto|]. eapply cs_reply; eassumption.
  - right. do 2 eexists. split; [left; reflexivity|]. eapply cs_drop1; eassumption.
  - right. do 2 eexists. split; [left; reflexivity|]. eapply cs_drop2; eassumption.
Qed.
Theorem progress c a : sim c a -> w_th c <> ∅ -> cfault c \/ exists l c', (l = LTau \/ exists i r, l = LRet i r) /\ cstep c l c'.
Proof.
  intros HS Hne. destruct (w_mutex c) as [j|] eqn:Em.
  - pose proof (sim_mutex _ _ HS j Em) as Hj. destruct (w_th c !! j) as [t|] eqn:Et; [|contradiction].
    apply (th_progress c a j HS); [eauto| |right; exact Em].
    intros q E. pose proof (sim_th _ _ HS j) as HT. rewrite E in HT. inversion HT; congruence.
  - destruct (w_lock c) as [j|] eqn:Ek.
    + pose proof (sim_lock _ _ HS j Ek) as Hj. destruct (w_th c !! j) as [t|] eqn:Et; [|contradiction].
      apply (th_progress c a j HS); [eauto| |left; exact Em].
      intros q E. pose proof (sim_th _ _ HS j) as HT. rewrite E in HT. inversion HT; congruence.
    + apply map_choose in Hne. destruct Hne as (i & t & Et). apply (th_progress c a i HS); [eauto|auto|left; exact Em].
Qed.

(** ** Termination *)
Inductive sub : prog -> prog -> Prop :=
| sub_read k d : sub (k d) (PRead k)
| sub_op o k x : sub (k x) (POp o k).
Lemma sub_wf p : Acc sub p.
Proof. induction p as [k IH|o k IH|k|l|]; constructor; intros y H; inversion H; subst; auto. Qed.
Inductive tlt : thread -> thread -> Prop :=
| tl_begin q wr d rw p : tlt (TRun q wr d rw p) (TWait q)
| tl_none q l : tlt (TReply l) (TWait q)
| tl_sub q wr d rw p d' rw' p' : sub p' p -> tlt (TRun q wr d' rw' p') (TRun q wr d rw p)
| tl_commit q wr d rw p l : tlt (TUnlock l) (TRun q wr d rw p)
| tl_drop q wr d rw p : tlt (TDrop1 wr) (TRun q wr d rw p)
| tl_unlock l : tlt (TReply l) (TUnlock l)
| tl_drop2 wr : tlt (TDrop2 wr) (TDrop1 wr).
Lemma tlt_wf t : Acc tlt t.
Proof.
  assert (R : forall l, Acc tlt (TReply l)) by (intros; constructor; intros y H; inversion H).
  assert (D2 : forall w, Acc tlt (TDrop2 w)) by (intros; constructor; intros y H; inversion H).
  assert (U : forall l, Acc tlt (TUnlock l)) by (intros; constructor; intros y H; inversion H; subst; auto).
  assert (D1 : forall w, Acc tlt (TDrop1 w)) by (intros; constructor; intros y H; inversion H; subst; auto).
  assert (T : forall p q w d rw, Acc tlt (TRun q w d rw p)).
  { intros p. induction (sub_wf p) as [p _ IH]. intros q w d rw. constructor. intros y H. inversion H; subst; auto. }
  destruct t; auto. constructor. intros y H. inversion H; subst; auto.
Qed.
Inductive mlt : gmap Z thread -> gmap Z thread -> Prop :=
| ml_upd m i t t' : m !! i = Some t -> tlt t' t -> mlt (<[i := t']> m) m
| ml_del m i t : m !! i = Some t -> mlt (delete i m) m.
Lemma mlt_insert m i : m !! i = None -> Acc mlt m -> forall t, Acc mlt (<[i := t]> m).
Proof.
  intros Hi Hm. revert Hi. induction Hm as [m Hm IHm]. intros Hi t. induction (tlt_wf t) as [t _ IHt].
  constructor. intros y H. inversion H as [m0 j t0 t' E Ht Ey Em|m0 j t0 E Ey Em]; subst.
  - destruct (decide (j = i)) as [->|Hj].
    + rewrite lookup_insert in E. injection E as <-. rewrite insert_insert. apply IHt, Ht.
    + rewrite lookup_insert_ne in E by congruence. rewrite insert_commute by congruence. apply IHm; [econstructor; eassumption|]. rewrite lookup_insert_ne by congruence. exact Hi.
  - destruct (decide (j = i)) as [->|Hj].
    + rewrite delete_insert by exact Hi. constructor. exact Hm.
    + rewrite lookup_insert_ne in E by congruence. rewrite delete_insert_ne by congruence. apply IHm; [econstructor; eassumption|]. rewrite lookup_delete_ne by congruence. exact Hi.
Qed.
Lemma mlt_wf m : Acc mlt m.
Proof.
  induction m as [|i t m Hi IH] using map_ind; [|apply mlt_insert; assumption].
  constructor. intros y H. inversion H as [m0 j t0 t' E Ht Ey Em|m0 j t0 E Ey Em]; subst; rewrite lookup_empty in E; discriminate.
Qed.
Lemma cstep_mlt c l c' : cstep c l c' -> l = LTau \/ (exists i r, l = LRet i r) -> mlt (w_th c') (w_th c).
Proof.
  intros H Hl. destruct H; cbn [w_th]; try (destruct Hl as [Hl|(? & ? & Hl)]; discriminate);
    try (eapply ml_del; eassumption); (eapply ml_upd; [eassumption|]); try (constructor; fail); constructor; constructor.
Qed.
Theorem terminates c : Acc (fun c' c => exists l, (l = LTau \/ exists i r, l = LRet i r) /\ cstep c l c') c.
Proof.
  remember (w_th c) as m eqn:Em. revert c Em. induction (mlt_wf m) as [m _ IH]. intros c ->. constructor. intros c' (l & Hl & H).
  eapply IH; [eapply cstep_mlt; eassumption|reflexivity].
Qed.
