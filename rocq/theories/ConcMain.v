(** The simulation relation between the threads and the atomic object. *)
From Verif Require Export ConcSim.

(** a program without operations, and one with the operations of readers only *)
Inductive pure : prog -> Prop :=
| pure_read k : (forall d, pure (k d)) -> pure (PRead k)
| pure_drop l : pure (PDrop l)
| pure_fault : pure PFault.
Inductive reading : prog -> Prop :=
| rd_read k : (forall d, reading (k d)) -> reading (PRead k)
| rd_op o k : reader_op o = true -> (forall x, reading (k x)) -> reading (POp o k)
| rd_commit k : reading (PCommit k)
| rd_drop l : reading (PDrop l)
| rd_fault : reading PFault.
Lemma pure_reading p : pure p -> reading p.
Proof. induction 1; constructor; assumption. Qed.
Lemma pure_of_outcome {A} (x : outcome A) k : (forall a, x = Done a -> pure (k a)) -> pure (of_outcome x k).
Proof. intros H. destruct x; cbn; [apply H; reflexivity|constructor..]. Qed.
Lemma reading_of_outcome {A} (x : outcome A) k : (forall a, x = Done a -> reading (k a)) -> reading (of_outcome x k).
Proof. intros H. destruct x; cbn; [apply H; reflexivity|constructor..]. Qed.
Lemma getattr_pure x : pure (p_getattr x).
Proof. constructor. intros d. destruct (getattr d x); constructor. Qed.
Lemma readdir_end_pure x e eof buf ts : pure (p_readdir_end x e eof buf ts).
Proof. unfold p_readdir_end. destruct (_ && _); [|constructor]. constructor. intros d. destruct (test_flag d x SYNCED) as [[]|]; constructor. Qed.
Lemma readdir_pure x size off : pure (p_readdir x size off).
Proof.
  constructor. intros d. generalize (dir_fuel d) (w64 off) (@nil Z) O. intros fuel.
  induction fuel as [|fuel IH]; intros c buf ts; cbn [p_readdir_loop]; [constructor|]. destruct (_ <? size); [|apply readdir_end_pure].
  constructor. intros d1. destruct (readdir d1 x c) as [[y n]|e]; [|apply readdir_end_pure]. constructor. intros d2.
  destruct (getattr d2 y) as [a|e]; [|apply readdir_end_pure]. apply pure_of_outcome. intros b _. apply IH.
Qed.
Lemma plus_end_reading e buf ts : reading (p_plus_end e buf ts).
Proof. unfold p_plus_end. destruct (e =? 0); constructor. Qed.
Lemma plus_reading x size off : reading (p_plus x size off).
Proof.
  constructor. intros d. generalize (dir_fuel d) (w64 off) (@nil Z) O. intros fuel.
  induction fuel as [|fuel IH]; intros c buf ts; cbn [p_plus_loop]; [constructor|]. destruct (_ <? size); [|apply plus_end_reading].
  constructor. intros d1. destruct (readdir d1 x c) as [[y n]|e]; [|apply plus_end_reading]. constructor. intros d2.
  destruct (getattr d2 y) as [a|e]; [|apply plus_end_reading]. apply reading_of_outcome. intros b _.
  destruct (decide _); [apply IH|]. destruct (decide _); [apply IH|]. constructor; [reflexivity|]. intros [z|e]; [apply IH|]. destruct (e =? ESTALE); [apply IH|constructor].
Qed.
Lemma forget_reading x n : reading (p_forget x n).
Proof. constructor; [reflexivity|]. intros [?|?]; constructor. Qed.
Lemma forgets_reading l : reading (p_forgets l).
Proof. induction l as [|[x n] l IH]; constructor; [reflexivity|]. intros _. exact IH. Qed.

(** ** the relation *)
(** thread [i], in the middle of its transaction, is still where the whole handler would get
    from here: with the table it works on, or with any while it has not got the mutex *)
Definition follows (m : option Z) (r : refs) (sr : refs) (i : Z) (p : prog) (d : db) (rw : option (gset Z)) (p0 : prog) (d0 : db) : Prop :=
  (m = Some i -> oeq (runs p (Tx d r [] rw)) (runs p0 (begin_tx d0 sr))) /\
  (m <> Some i -> forall r', oeq (runs p (Tx d r' [] rw)) (runs p0 (begin_tx d0 r'))).
Definition is_forget (q : creq) : bool := match q with CForget _ _ | CForgetMulti _ => true | _ => false end.
Definition is_read (q : creq) : bool := match q with CGetattr _ | CReaddir _ _ _ => true | _ => false end.

Inductive tsim (m : option Z) (r : refs) (k : option Z) (s : fstate) (i : Z) : option pending -> thread -> Prop :=
| ts_wait q : m <> Some i -> k <> Some i -> tsim m r k s i (Some (AWait q)) (TWait q)
| ts_write q d rw p p0 : k = Some i -> code q = inl (true, p0) -> follows m r (s_refs s) i p d rw p0 (s_db s) ->
    tsim m r k s i (Some (AWait q)) (TRun q true d rw p)
| ts_forget q d rw p p0 : k <> Some i -> is_forget q = true -> code q = inl (false, p0) -> reading p -> follows m r (s_refs s) i p d rw p0 d ->
    tsim m r k s i (Some (AWait q)) (TRun q false d rw p)
| ts_read q d rw p l : k <> Some i -> m <> Some i -> is_read q = true -> pure p -> (forall r', runs p (Tx d r' [] rw) = Done (false, l, Tx d r' [] rw)) ->
    tsim m r k s i (Some (ADone l)) (TRun q false d rw p)
| ts_doomed q d rw p : k <> Some i -> m <> Some i -> is_read q = true -> pure p -> (forall r' x, runs p (Tx d r' [] rw) <> Done x) ->
    tsim m r k s i (Some (AWait q)) (TRun q false d rw p)
| ts_plus x size off d rw p : k <> Some i -> reading p -> s_plus s !! i = Some (d, x) -> follows m r (s_refs s) i p d rw (p_plus x size off) d ->
    tsim m r k s i (Some (AHalf size off)) (TRun (CPlus x size off) false d rw p)
| ts_unlock l : k <> Some i -> (m = Some i -> r = s_refs s) -> tsim m r k s i (Some (ADone l)) (TUnlock l)
| ts_reply l : k <> Some i -> m <> Some i -> tsim m r k s i (Some (ADone l)) (TReply l)
| ts_drop1 wr : (k = Some i <-> wr = true) -> (m = Some i -> r = s_refs s) -> tsim m r k s i None (TDrop1 wr)
| ts_drop2 wr : (k = Some i <-> wr = true) -> m <> Some i -> tsim m r k s i None (TDrop2 wr).

Record sim (c : cworld) (a : aworld) : Prop := MkSim {
  sim_db : w_comm c = s_db (a_s a);
  sim_refs : w_mutex c = None -> w_refs c = s_refs (a_s a);
  sim_mutex : forall j, w_mutex c = Some j -> w_th c !! j <> None;
  sim_lock : forall j, w_lock c = Some j -> w_th c !! j <> None;
  sim_th : forall i, match w_th c !! i with
    | None => a_pend a !! i = None
    | Some th => tsim (w_mutex c) (w_refs c) (w_lock c) (a_s a) i (a_pend a !! i) th
    end }.

Lemma tsim_frame m r k s i pd th m' r' k' s' : tsim m r k s i pd th ->
  (m = Some i <-> m' = Some i) -> (m = Some i -> r' = r /\ s_refs s' = s_refs s) ->
  (k = Some i <-> k' = Some i) -> (k = Some i -> s_db s' = s_db s) -> s_plus s' !! i = s_plus s !! i ->
  tsim m' r' k' s' i pd th.
Proof.
  assert (HF : forall p d rw p0 d0, (m = Some i <-> m' = Some i) -> (m = Some i -> r' = r /\ s_refs s' = s_refs s) ->
    follows m r (s_refs s) i p d rw p0 d0 -> follows m' r' (s_refs s') i p d rw p0 d0).
  { intros p d rw p0 d0 Hm Hr [F1 F2]. split.
    - intros E. apply Hm in E. destruct (Hr E) as [-> ->]. apply F1, E.
    - intros E. apply F2. intros E'. apply E, Hm, E'. }
  intros H Hm Hr Hk Hd Hp. destruct H; (try (constructor; try tauto; eauto; fail)).
  - econstructor; [tauto|eassumption|]. rewrite (Hd ltac:(tauto)). apply HF; assumption.
  - econstructor; try eassumption; [tauto|]. apply HF; assumption.
  - constructor; try assumption; [tauto|congruence|]. apply HF; assumption.
  - constructor; [tauto|]. intros E. apply Hm in E. destruct (Hr E) as [-> ->]. auto.
  - constructor; [tauto|]. intros E. apply Hm in E. destruct (Hr E) as [-> ->]. auto.
Qed.

(** ** the handlers as steps of Fs.v *)
Definition ended (x : outcome (fstate * list reply)) : outcome (fstate * option (list reply)) := dlet (s, l) := x in Done (s, Some l).
Lemma oeq_ended a b : oeq a b -> oeq (ended a) (ended b).
Proof. intros H. apply (oeq_bind a b (fun y => let '(s, l) := y in Done (s, Some l))); [exact H|intros; apply oeq_refl]. Qed.
Lemma ended_fin F x s' l : ended (then_fin F x) = Done (s', Some l) <-> exists y, x = Done y /\ F y = (s', l).
Proof.
  destruct x as [y| | |]; cbn.
  - destruct (F y) as [s1 l1] eqn:E. split; [intros H; injection H as <- <-; eauto|intros (z & H & HF); injection H as <-; congruence].
  - split; [discriminate|intros (? & ? & ?); discriminate].
  - split; [discriminate|intros (? & ? & ?); discriminate].
  - split; [discriminate|intros (? & ? & ?); discriminate].
Qed.
Lemma write_step q p0 s : code q = inl (true, p0) -> exists rq, as_request q = Some rq /\
  oeq (fstep s rq) (ended (then_fin (fin_w s) (runs p0 (begin_tx (s_db s) (s_refs s))))).
Proof.
  destruct q; cbn [code]; intros E; try discriminate; injection E as <-; (eexists; split; [reflexivity|]); cbn [fstep]; apply oeq_ended.
  - apply lookup_runs. - apply readlink_runs. - apply opendir_runs.
Qed.
Lemma forget_step q p0 s d : is_forget q = true -> code q = inl (false, p0) -> exists rq, as_request q = Some rq /\
  oeq (fstep s rq) (ended (then_fin (fin_r s) (runs p0 (begin_tx d (s_refs s))))).
Proof.
  destruct q; try discriminate; cbn [code]; intros _ E; injection E as <-; (eexists; split; [reflexivity|]); cbn [fstep]; apply oeq_ended.
  - apply forget_runs. - apply forgets_runs. reflexivity.
Qed.
Lemma read_step q p0 s r : is_read q = true -> code q = inl (false, p0) -> exists rq, as_request q = Some rq /\
  oeq (fstep s rq) (ended (then_fin (fun y => (s, y.1.2)) (runs p0 (begin_tx (s_db s) r)))) /\ pure p0.
Proof.
  destruct q; try discriminate; cbn [code]; intros _ E; injection E as <-; (eexists; split; [reflexivity|]); cbn [fstep]; (split; [apply oeq_ended|]).
  - apply getattr_runs; reflexivity. - apply getattr_pure. - apply readdir_runs; reflexivity. - apply readdir_pure.
Qed.
Lemma plus_step s id x d size off : s_plus s !! id = Some (d, x) ->
  oeq (fstep s (QPlusRun id size off)) (ended (then_fin (fin_p s id) (runs (p_plus x size off) (begin_tx d (s_refs s))))).
Proof. intros E. cbn [fstep]. apply oeq_ended, plus_runs, E. Qed.
Lemma none_step q l s : code q = inr l -> exists rq, as_request q = Some rq /\ fstep s rq = Done (s, Some l).
Proof. destruct q; cbn [code]; intros E; try discriminate; injection E as <-; (eexists; split; [reflexivity|]); reflexivity. Qed.
Lemma code_reader q p : code q = inl (false, p) -> is_forget q = true \/ is_read q = true \/ exists x size off, q = CPlus x size off /\ p = p_plus x size off.
Proof. destruct q; cbn [code]; intros E; try discriminate; injection E as <-;
  [left; reflexivity|left; reflexivity|right; left; reflexivity|right; left; reflexivity|right; right]. do 3 eexists; split; reflexivity. Qed.
Lemma pure_runs p : pure p -> forall d rw, (exists l, forall r', runs p (Tx d r' [] rw) = Done (false, l, Tx d r' [] rw)) \/ (forall r' x, runs p (Tx d r' [] rw) <> Done x).
Proof.
  induction 1 as [k H IH|l|]; intros d rw; cbn [runs t_db].
  - destruct (IH d d rw) as [[l E]|E]; [left; exists l; exact E|right; exact E].
  - left. exists l. reflexivity.
  - right. discriminate.
Qed.

Lemma arun_trans a tr a' tr' a'' : arun a tr a' -> arun a' tr' a'' -> arun a (tr ++ tr') a''.
Proof. intros H1 H2. revert H1. induction H2 as [|a0 tr2 a1 l a2 H2 IH H3]; intros H1; [rewrite app_nil_r; exact H1|]. rewrite app_assoc. econstructor; [apply IH, H1|exact H3]. Qed.
Lemma arun_one a l a' : astep a l a' -> arun a (seen l) a'.
Proof. intros H. change (seen l) with ([] ++ seen l). econstructor; [constructor|exact H]. Qed.

(** ** one step *)
Lemma sim_upd c r m k th s P i c' r' m' k' th' s' P' :
  sim (CW c r m k th) (AW s P) -> c' = s_db s' -> (m' = None -> r' = s_refs s') ->
  (forall j, j <> i -> (m = Some j <-> m' = Some j) /\ (m = Some j -> r' = r /\ s_refs s' = s_refs s) /\
     (k = Some j <-> k' = Some j) /\ (k = Some j -> s_db s' = s_db s) /\ s_plus s' !! j = s_plus s !! j) ->
  (forall j, j <> i -> th' !! j = th !! j /\ P' !! j = P !! j) ->
  match th' !! i with None => P' !! i = None /\ m' <> Some i /\ k' <> Some i | Some t => tsim m' r' k' s' i (P' !! i) t end ->
  sim (CW c' r' m' k' th') (AW s' P').
Proof.
  intros H Hc Hr Hf Hj Hi. constructor; cbn [w_comm w_refs w_mutex w_lock w_th a_s a_pend]; [exact Hc|exact Hr| | |].
  - intros j E. destruct (decide (j = i)) as [->|Hn].
    + destruct (th' !! i); [discriminate|]. destruct Hi as (_ & Hm & _). contradiction.
    + destruct (Hj j Hn) as [-> _]. destruct (Hf j Hn) as [Hm _]. apply (sim_mutex _ _ H). apply Hm, E.
  - intros j E. destruct (decide (j = i)) as [->|Hn].
    + destruct (th' !! i); [discriminate|]. destruct Hi as (_ & _ & Hm). contradiction.
    + destruct (Hj j Hn) as [-> _]. destruct (Hf j Hn) as (_ & _ & Hm & _). apply (sim_lock _ _ H). apply Hm, E.
  - intros j. destruct (decide (j = i)) as [->|Hn].
    + destruct (th' !! i); [exact Hi|tauto].
    + destruct (Hj j Hn) as [-> ->]. pose proof (sim_th _ _ H j) as Hs. cbn [w_comm w_refs w_mutex w_lock w_th a_s a_pend] in Hs.
      destruct (th !! j); [|exact Hs]. destruct (Hf j Hn) as (F1 & F2 & F3 & F4 & F5). eapply tsim_frame; eassumption.
Qed.
Lemma sim_at c r m k th s P i t : sim (CW c r m k th) (AW s P) -> th !! i = Some t -> tsim m r k s i (P !! i) t.
Proof. intros H E. pose proof (sim_th _ _ H i) as Hs. cbn [w_comm w_refs w_mutex w_lock w_th a_s a_pend] in Hs. rewrite E in Hs. exact Hs. Qed.
(** what the finished program [p] in its transaction says about the whole handler *)
Lemma follows_end m r sr i p d rw p0 d0 b l : follows m r sr i p d rw p0 d0 -> (m = None -> r = sr) ->
  (forall r', runs p (Tx d r' [] rw) = Done (b, l, Tx d r' [] rw)) ->
  exists r1, runs p0 (begin_tx d0 sr) = Done (b, l, Tx d r1 [] rw) /\ (m = Some i -> r1 = r) /\ (m <> Some i -> r1 = sr).
Proof.
  intros [F1 F2] _ E. destruct (decide (m = Some i)) as [Hm|Hm].
  - exists r. split; [|split; [reflexivity|congruence]]. apply (F1 Hm). apply E.
  - exists sr. split; [|split; [congruence|reflexivity]]. apply (F2 Hm sr). apply E.
Qed.
(** one operation of a thread that has the table to itself, or does not need it *)
Lemma follows_op m r sr i d rw o k x t p0 d0 : follows m r sr i (POp o k) d rw p0 d0 -> (m = None -> r = sr) ->
  opres (Tx d r [] rw) o = Done (x, t) ->
  (uses_refs (Tx d r [] rw) o = false -> t_refs t = r /\ follows m r sr i (k x) (t_db t) (t_rw t) p0 d0) /\
  (free_for i m -> follows (Some i) (t_refs t) sr i (k x) (t_db t) (t_rw t) p0 d0).
Proof.
  intros [F1 F2] Hr Ho. split.
  - intros Hu. pose proof (opres_no_refs d r rw o Hu) as Hn. rewrite Ho in Hn. destruct Hn as [Et Hn]. split; [exact Et|]. split.
    + intros Hm. specialize (F1 Hm). cbn [runs] in F1. change (strip (Tx d r [] rw)) with (Tx d r [] rw) in F1. rewrite Ho in F1. unfold strip in F1. rewrite Et in F1. exact F1.
    + intros Hm r'. specialize (F2 Hm r'). cbn [runs] in F2. change (strip (Tx d r' [] rw)) with (Tx d r' [] rw) in F2. rewrite (Hn r') in F2. exact F2.
  - intros Hm. split; [|congruence]. intros _. destruct Hm as [Hm|Hm].
    + assert (Hm' : m <> Some i) by congruence. specialize (F2 Hm' r). rewrite <- (Hr Hm). cbn [runs] in F2. change (strip (Tx d r [] rw)) with (Tx d r [] rw) in F2. rewrite Ho in F2. exact F2.
    + specialize (F1 Hm). cbn [runs] in F1. change (strip (Tx d r [] rw)) with (Tx d r [] rw) in F1. rewrite Ho in F1. exact F1.
Qed.
Lemma follows_read m r sr i d rw k p0 d0 : follows m r sr i (PRead k) d rw p0 d0 -> follows m r sr i (k d) d rw p0 d0.
Proof. intros F. exact F. Qed.
Lemma follows_begin m r sr i p d : m <> Some i -> follows m r sr i p d None p d.
Proof. intros H. split; [contradiction|]. intros _ r'. apply oeq_refl. Qed.
Lemma unlock_some i m j : unlock i m = Some j <-> m = Some j /\ j <> i.
Proof. unfold unlock. destruct (decide (m = Some i)) as [->|H]; split; [discriminate|intros [E1 E2]; congruence|intros ->; split; [reflexivity|congruence]|tauto]. Qed.
Lemma unlock_none i m : unlock i m = None <-> m = None \/ m = Some i.
Proof. unfold unlock. destruct (decide (m = Some i)) as [->|H]; split; auto; intros [?|?]; auto; contradiction. Qed.

Lemma set_dbr_plus d r s : s_plus (set_dbr d r s) = s_plus s. Proof. reflexivity. Qed.
Ltac others := intros j Hj; repeat split; try tauto; try congruence; try (intros; split; congruence).
Ltac maps := intros j Hj; rewrite ?lookup_insert_ne, ?lookup_delete_ne by congruence; split; reflexivity.
Ltac here := rewrite ?lookup_insert, ?lookup_delete.

Ltac facts HS := pose proof (sim_db _ _ HS) as Hdb; pose proof (sim_refs _ _ HS) as Hrf; cbn [w_comm w_refs w_mutex w_lock w_th a_s a_pend] in Hdb, Hrf.
Ltac nameEP := match goal with H : @eq (option pending) _ (_ !! _) |- _ => rename H into EP | H : @eq (option pending) (_ !! _) _ |- _ => symmetry in H; rename H into EP end.
Theorem sim_step c a l c' : sim c a -> cstep c l c' -> exists a', arun a (seen l) a' /\ sim c' a'.
Proof.
  destruct a as [s P]. intros HS Hc. destruct Hc as
    [c r m k th i q E|c r m k th i q l E Eq|c r m th i q p E Eq|c r m k th i q p E Eq|c r m k th i q wr d rw f E
    |c r m k th i q wr d rw o f x t E Hw Hu Ho|c r m k th i q wr d rw o f x t E Hw Hu Hm Ho|c r m k th i q d rw f E|c r m k th i q d rw f E
    |c r m k th i l E|c r m k th i l E|c r m k th i q wr d rw l E|c r m k th i wr E|c r m k th i wr E|c r m k th root d r' E];
    try (pose proof (sim_at _ _ _ _ _ _ _ _ _ HS E) as HT).
  - (* call *) facts HS. exists (AW s (<[i := AWait q]> P)).
    assert (EP : P !! i = None). { pose proof (sim_th _ _ HS i) as Hs. cbn [w_th a_pend] in Hs. rewrite E in Hs. exact Hs. }
    split; [apply arun_one; constructor; exact EP|].
    eapply (sim_upd _ _ _ _ _ _ _ i); [exact HS|exact Hdb|exact Hrf|others|maps|]. here. constructor.
    + intros Hm. pose proof (sim_mutex _ _ HS i) as H. cbn in H. rewrite E in H. apply H; [exact Hm|reflexivity].
    + intros Hm. pose proof (sim_lock _ _ HS i) as H. cbn in H. rewrite E in H. apply H; [exact Hm|reflexivity].
  - (* no transaction *) remember (P !! i) as pd eqn:EP. inversion HT; subst; nameEP; facts HS.
    destruct (none_step q l s Eq) as (rq & Er & Ef). exists (AW s (<[i := ADone l]> P)).
    split; [apply arun_one; eapply as_effect; eauto|].
    eapply (sim_upd _ _ _ _ _ _ _ i); [exact HS|exact Hdb|exact Hrf|others|maps|]. here. constructor; assumption.
  - (* begin_rw *) exists (AW s P). split; [constructor|]. remember (P !! i) as pd eqn:EP. inversion HT; subst; nameEP; facts HS.
    eapply (sim_upd _ _ _ _ _ _ _ i); [exact HS|exact Hdb|exact Hrf|others|maps|]. here. rewrite <- EP. econstructor; [reflexivity|exact Eq|]. rewrite Hdb. apply follows_begin. assumption.
  - (* begin_ro *) remember (P !! i) as pd eqn:EP. inversion HT; subst; nameEP; facts HS.
    destruct (code_reader q p Eq) as [Hq|[Hq|(x & size & off & -> & ->)]].
    + exists (AW s P). split; [constructor|]. eapply (sim_upd _ _ _ _ _ _ _ i); [exact HS|exact Hdb|exact Hrf|others|maps|]. here. rewrite <- EP.
      econstructor; [assumption|exact Hq|exact Eq| |apply follows_begin; assumption].
      destruct q; try discriminate; cbn [code] in Eq; injection Eq as <-; [apply forget_reading|apply forgets_reading].
    + destruct (read_step q p s (s_refs s) Hq Eq) as (rq & Er & Ef & Hp). destruct (pure_runs p Hp c None) as [[l El]|Hbad].
      * exists (AW s (<[i := ADone l]> P)). split.
        -- apply arun_one. eapply as_effect; [symmetry; exact EP|exact Er|]. apply Ef. apply ended_fin. exists (false, l, Tx c (s_refs s) [] None). split; [|reflexivity].
           change (begin_tx (s_db s) (s_refs s)) with (Tx (s_db s) (s_refs s) [] None). rewrite <- Hdb. apply El.
        -- eapply (sim_upd _ _ _ _ _ _ _ i); [exact HS|exact Hdb|exact Hrf|others|maps|]. here. constructor; assumption.
      * exists (AW s P). split; [constructor|]. eapply (sim_upd _ _ _ _ _ _ _ i); [exact HS|exact Hdb|exact Hrf|others|maps|]. here. rewrite <- EP. apply ts_doomed; assumption.
    + exists (AW (Fst (s_db s) (s_refs s) (<[i := (s_db s, x)]> (s_plus s))) (<[i := AHalf size off]> P)). split.
      * apply arun_one. eapply as_plus_read; [symmetry; exact EP|reflexivity].
      * eapply (sim_upd _ _ _ _ _ _ _ i); [exact HS|exact Hdb|exact Hrf| |maps|].
        -- intros j Hj. cbn [s_db s_refs s_plus]. rewrite lookup_insert_ne by congruence. repeat split; tauto.
        -- here. constructor; [assumption|apply plus_reading|cbn [s_plus]; rewrite lookup_insert, Hdb; reflexivity|]. cbn [s_refs]. apply follows_begin. assumption.
  - (* read *) exists (AW s P). split; [constructor|]. eapply (sim_upd _ _ _ _ _ _ _ i); [exact HS|exact (sim_db _ _ HS)|exact (sim_refs _ _ HS)|others|maps|]. here.
    remember (P !! i) as pd eqn:EP. inversion HT; subst; nameEP.
    + econstructor; eauto.
    + econstructor; eauto. match goal with H : reading (PRead _) |- _ => inversion H; subst; auto end.
    + econstructor; eauto. match goal with H : pure (PRead _) |- _ => inversion H; subst; auto end.
    + apply ts_doomed; auto. match goal with H : pure (PRead _) |- _ => inversion H; subst; auto end.
    + econstructor; eauto. match goal with H : reading (PRead _) |- _ => inversion H; subst; auto end.
  - (* an operation without the table *) exists (AW s P). split; [constructor|].
    assert (Hr : m = None -> r = s_refs s) by exact (sim_refs _ _ HS).
    assert (Er : t_refs t = r). { pose proof (opres_no_refs d r rw o Hu) as Hn. rewrite Ho in Hn. apply Hn. }
    rewrite Er. eapply (sim_upd _ _ _ _ _ _ _ i); [exact HS|exact (sim_db _ _ HS)|exact (sim_refs _ _ HS)|others|maps|]. here.
    remember (P !! i) as pd eqn:EP. inversion HT as [|? ? ? ? p0 Hk Hq HF|? ? ? ? p0 Hk Hf Hq Hrd HF|? ? ? ? ? Hk Hm Hq Hp|? ? ? ? Hk Hm Hq Hp|? ? ? ? ? ? Hk Hrd Hs HF| | | |]; subst pd; subst.
    + destruct (follows_op _ _ _ _ _ _ _ _ _ _ _ _ HF Hr Ho) as [F _]. destruct (F Hu) as [_ F']. econstructor; eauto.
    + inversion Hrd as [|? ? Ho' Hk'| | |]; subst. destruct (reader_op_db _ _ _ _ _ _ Ho' Ho) as [E1 E2].
      destruct (follows_op _ _ _ _ _ _ _ _ _ _ _ _ HF Hr Ho) as [F _]. destruct (F Hu) as [_ F']. rewrite E1 in *. econstructor; eauto.
    + inversion Hp.
    + inversion Hp.
    + inversion Hrd as [|? ? Ho' Hk'| | |]; subst. destruct (reader_op_db _ _ _ _ _ _ Ho' Ho) as [E1 E2].
      destruct (follows_op _ _ _ _ _ _ _ _ _ _ _ _ HF Hr Ho) as [F _]. destruct (F Hu) as [_ F']. rewrite E1 in *. econstructor; eauto.
  - (* an operation with the table *) exists (AW s P). split; [constructor|].
    assert (Hr : m = None -> r = s_refs s) by exact (sim_refs _ _ HS).
    eapply (sim_upd _ _ _ _ _ _ _ i); [exact HS|exact (sim_db _ _ HS)|discriminate| |maps|].
    { intros j Hj. assert (m <> Some j) by (destruct Hm as [-> | ->]; congruence). repeat split; try tauto; try congruence; intros; congruence. }
    here. remember (P !! i) as pd eqn:EP.
    inversion HT as [|? ? ? ? p0 Hk Hq HF|? ? ? ? p0 Hk Hf Hq Hrd HF|? ? ? ? ? Hk Hm' Hq Hp|? ? ? ? Hk Hm' Hq Hp|? ? ? ? ? ? Hk Hrd Hs HF| | | |]; subst pd; subst.
    + destruct (follows_op _ _ _ _ _ _ _ _ _ _ _ _ HF Hr Ho) as [_ F]. specialize (F Hm). econstructor; eauto.
    + inversion Hrd as [|? ? Ho' Hk'| | |]; subst. destruct (reader_op_db _ _ _ _ _ _ Ho' Ho) as [E1 E2].
      destruct (follows_op _ _ _ _ _ _ _ _ _ _ _ _ HF Hr Ho) as [_ F]. specialize (F Hm). rewrite E1 in *. econstructor; eauto.
    + inversion Hp.
    + inversion Hp.
    + inversion Hrd as [|? ? Ho' Hk'| | |]; subst. destruct (reader_op_db _ _ _ _ _ _ Ho' Ho) as [E1 E2].
      destruct (follows_op _ _ _ _ _ _ _ _ _ _ _ _ HF Hr Ho) as [_ F]. specialize (F Hm). rewrite E1 in *. econstructor; eauto.
  - (* commit of a writer *)
    remember (P !! i) as pd eqn:EP. inversion HT as [|? ? ? ? p0 Hk Hq HF| | | | | | | |]; subst pd; subst; nameEP; facts HS.
    destruct (follows_end _ _ _ _ _ _ _ _ _ true (f (Ok tt)) HF Hrf (fun _ => eq_refl)) as (r1 & Er1 & Hown & Hfree).
    destruct (write_step q p0 s Hq) as (rq & Erq & Ef). exists (AW (set_dbr d r1 s) (<[i := ADone (f (Ok tt))]> P)). split.
    + apply arun_one. eapply as_effect; [symmetry; exact EP|exact Erq|]. apply Ef, ended_fin. eexists. split; [exact Er1|reflexivity].
    + eapply (sim_upd _ _ _ _ _ _ _ i); [exact HS|reflexivity| | |maps|].
      * intros Hm. cbn [set_dbr s_refs]. rewrite Hfree by congruence. apply Hrf, Hm.
      * intros j Hj. cbn [set_dbr s_refs s_db s_plus]. split; [tauto|]. split; [intros Hm; split; [reflexivity|apply Hfree; congruence]|]. split; [split; congruence|]. split; [congruence|reflexivity].
      * here. constructor; [discriminate|]. intros Hm. symmetry. apply Hown, Hm.
  - (* commit of a reader *)
    remember (P !! i) as pd eqn:EP. inversion HT as [|? ? ? ? p0 Hk Hq HF|? ? ? ? p0 Hk Hf Hq Hrd HF|? ? ? ? ? Hk Hm' Hq Hp|? ? ? ? Hk Hm' Hq Hp|? ? ? ? ? ? Hk Hrd Hs HF| | | |]; subst pd; subst; try (inversion Hp; fail); nameEP; facts HS.
    + destruct (follows_end _ _ _ _ _ _ _ _ _ true (f (Ok tt)) HF Hrf (fun _ => eq_refl)) as (r1 & Er1 & Hown & Hfree).
      destruct (forget_step q p0 s d Hf Hq) as (rq & Erq & Ef). exists (AW (set_dbr (s_db s) r1 s) (<[i := ADone (f (Ok tt))]> P)). split.
      * apply arun_one. eapply as_effect; [symmetry; exact EP|exact Erq|]. apply Ef, ended_fin. eexists. split; [exact Er1|reflexivity].
      * eapply (sim_upd _ _ _ _ _ _ _ i); [exact HS|exact Hdb| | |maps|].
        -- intros Hm. cbn [set_dbr s_refs]. rewrite Hfree by congruence. apply Hrf, Hm.
        -- intros j Hj. cbn [set_dbr s_refs s_db s_plus]. split; [tauto|]. split; [intros Hm; split; [reflexivity|apply Hfree; congruence]|]. repeat split; tauto.
        -- here. constructor; [assumption|]. intros Hm. symmetry. apply Hown, Hm.
    + destruct (follows_end _ _ _ _ _ _ _ _ _ true (f (Ok tt)) HF Hrf (fun _ => eq_refl)) as (r1 & Er1 & Hown & Hfree).
      exists (AW (Fst (s_db s) r1 (delete i (s_plus s))) (<[i := ADone (f (Ok tt))]> P)). split.
      * apply arun_one. eapply as_plus_refs; [symmetry; exact EP|]. apply (plus_step s i _ d _ _ Hs), ended_fin. eexists. split; [exact Er1|reflexivity].
      * eapply (sim_upd _ _ _ _ _ _ _ i); [exact HS|exact Hdb| | |maps|].
        -- intros Hm. cbn [s_refs]. rewrite Hfree by congruence. apply Hrf, Hm.
        -- intros j Hj. cbn [s_refs s_db s_plus]. rewrite lookup_delete_ne by congruence. split; [tauto|]. split; [intros Hm; split; [reflexivity|apply Hfree; congruence]|]. repeat split; tauto.
        -- here. constructor; [assumption|]. intros Hm. symmetry. apply Hown, Hm.
  - (* unlock *)
    exists (AW s P). split; [constructor|]. eapply (sim_upd _ _ _ _ _ _ _ i); [exact HS|exact (sim_db _ _ HS)| | |maps|].
    + intros Hm. apply unlock_none in Hm. destruct Hm as [Hm|Hm]; [exact (sim_refs _ _ HS Hm)|]. inversion HT; auto.
    + intros j Hj. rewrite unlock_some. repeat split; try tauto; intuition congruence.
    + here. inversion HT; subst. constructor; [assumption|]. rewrite unlock_some. tauto.
  - (* reply *)
    remember (P !! i) as pd eqn:EP. inversion HT; subst; nameEP; facts HS.
    exists (AW s (delete i P)). split; [apply arun_one; constructor; symmetry; exact EP|].
    eapply (sim_upd _ _ _ _ _ _ _ i); [exact HS|exact Hdb|exact Hrf|others|maps|]. here. auto.
  - (* reply of a transaction that is not committed *)
    remember (P !! i) as pd eqn:EP. inversion HT as [|? ? ? ? p0 Hk Hq HF|? ? ? ? p0 Hk Hf Hq Hrd HF|? ? ? ? ? Hk Hm' Hq Hp HR|? ? ? ? Hk Hm' Hq Hp HR|? ? ? ? ? ? Hk Hrd Hs HF| | | |]; subst pd; subst; nameEP; facts HS.
    + destruct (follows_end _ _ _ _ _ _ _ _ _ false l HF Hrf (fun _ => eq_refl)) as (r1 & Er1 & Hown & Hfree).
      destruct (write_step q p0 s Hq) as (rq & Erq & Ef). exists (AW (set_dbr (s_db s) r1 s) (delete i P)). split.
      * change (seen (LRet i l)) with ([] ++ seen (LRet i l)). rewrite <- (delete_insert_delete P i (ADone l)).
        eapply arun_step; [|constructor; apply lookup_insert]. change (@nil clabel) with (seen LTau).
        apply arun_one. eapply as_effect; [symmetry; exact EP|exact Erq|]. apply Ef, ended_fin. eexists. split; [exact Er1|reflexivity].
      * eapply (sim_upd _ _ _ _ _ _ _ i); [exact HS|exact Hdb| | |maps|].
        -- intros Hm. cbn [set_dbr s_refs]. rewrite Hfree by congruence. apply Hrf, Hm.
        -- intros j Hj. cbn [set_dbr s_refs s_db s_plus]. split; [tauto|]. split; [intros Hm; split; [reflexivity|apply Hfree; congruence]|]. repeat split; tauto.
        -- here. constructor; [tauto|]. intros Hm. symmetry. apply Hown, Hm.
    + destruct (follows_end _ _ _ _ _ _ _ _ _ false l HF Hrf (fun _ => eq_refl)) as (r1 & Er1 & Hown & Hfree).
      destruct (forget_step q p0 s d Hf Hq) as (rq & Erq & Ef). exists (AW (set_dbr (s_db s) r1 s) (delete i P)). split.
      * change (seen (LRet i l)) with ([] ++ seen (LRet i l)). rewrite <- (delete_insert_delete P i (ADone l)).
        eapply arun_step; [|constructor; apply lookup_insert]. change (@nil clabel) with (seen LTau).
        apply arun_one. eapply as_effect; [symmetry; exact EP|exact Erq|]. apply Ef, ended_fin. eexists. split; [exact Er1|reflexivity].
      * eapply (sim_upd _ _ _ _ _ _ _ i); [exact HS|exact Hdb| | |maps|].
        -- intros Hm. cbn [set_dbr s_refs]. rewrite Hfree by congruence. apply Hrf, Hm.
        -- intros j Hj. cbn [set_dbr s_refs s_db s_plus]. split; [tauto|]. split; [intros Hm; split; [reflexivity|apply Hfree; congruence]|]. repeat split; tauto.
        -- here. constructor; [split; [tauto|discriminate]|]. intros Hm. symmetry. apply Hown, Hm.
    + specialize (HR r). cbn [runs] in HR. injection HR as ->. exists (AW s (delete i P)). split; [apply arun_one; constructor; symmetry; exact EP|].
      eapply (sim_upd _ _ _ _ _ _ _ i); [exact HS|exact Hdb|exact Hrf|others|maps|]. here. constructor; [split; [tauto|discriminate]|tauto].
    + destruct (HR r _ eq_refl).
    + destruct (follows_end _ _ _ _ _ _ _ _ _ false l HF Hrf (fun _ => eq_refl)) as (r1 & Er1 & Hown & Hfree).
      exists (AW (Fst (s_db s) r1 (delete i (s_plus s))) (delete i P)). split.
      * change (seen (LRet i l)) with ([] ++ seen (LRet i l)). rewrite <- (delete_insert_delete P i (ADone l)).
        eapply arun_step; [|constructor; apply lookup_insert]. change (@nil clabel) with (seen LTau).
        apply arun_one. eapply as_plus_refs; [symmetry; exact EP|]. apply (plus_step s i _ d _ _ Hs), ended_fin. eexists. split; [exact Er1|reflexivity].
      * eapply (sim_upd _ _ _ _ _ _ _ i); [exact HS|exact Hdb| | |maps|].
        -- intros Hm. cbn [s_refs]. rewrite Hfree by congruence. apply Hrf, Hm.
        -- intros j Hj. cbn [s_refs s_db s_plus]. rewrite lookup_delete_ne by congruence. split; [tauto|]. split; [intros Hm; split; [reflexivity|apply Hfree; congruence]|]. repeat split; tauto.
        -- here. constructor; [split; [tauto|discriminate]|]. intros Hm. symmetry. apply Hown, Hm.
  - (* the mutex of a dropped transaction *)
    exists (AW s P). split; [constructor|]. remember (P !! i) as pd eqn:EP. eapply (sim_upd _ _ _ _ _ _ _ i); [exact HS|exact (sim_db _ _ HS)| | |maps|].
    + intros Hm. apply unlock_none in Hm. destruct Hm as [Hm|Hm]; [exact (sim_refs _ _ HS Hm)|]. inversion HT; auto.
    + intros j Hj. rewrite unlock_some. repeat split; try tauto; intuition congruence.
    + here. rewrite <- EP. inversion HT; subst. constructor; [assumption|]. rewrite unlock_some. tauto.
  - (* its end in LMDB *)
    exists (AW s P). split; [constructor|]. remember (P !! i) as pd eqn:EP.
    assert (Hk : k = Some i <-> wr = true) by (inversion HT; assumption).
    eapply (sim_upd _ _ _ _ _ _ _ i); [exact HS|exact (sim_db _ _ HS)|exact (sim_refs _ _ HS)| |maps|].
    + intros j Hj. destruct wr; [assert (k = Some i) by tauto; subst k|]; repeat split; try tauto; intuition congruence.
    + here. rewrite <- EP. inversion HT; subst. split; [reflexivity|]. split; [assumption|]. destruct wr; [discriminate|]. intros E2. apply Hk in E2. discriminate.
  - (* kill *)
    exists (AW (Fst d r' ∅) ∅). split.
    + apply arun_one. constructor. cbn [fstep]. pose proof (sim_db _ _ HS) as Hdb. cbn [w_comm a_s] in Hdb. rewrite <- Hdb, E. reflexivity.
    + constructor; cbn; [reflexivity|reflexivity|discriminate|discriminate|]. intros i. rewrite lookup_empty. apply lookup_empty.
Qed.

Lemma sim_open root c : copen root = Done c -> exists a, aopen root = Done a /\ sim c a.
Proof.
  unfold copen, aopen. destruct (open_cache root db_empty) as [[d r]| | |]; cbn [obind]; intros E; try discriminate. injection E as <-.
  eexists. split; [reflexivity|]. constructor; cbn; [reflexivity|reflexivity|discriminate|discriminate|]. intros i. rewrite lookup_empty. apply lookup_empty.
Qed.
Theorem sim_run c tr c' a : crun c tr c' -> sim c a -> exists a', arun a tr a' /\ sim c' a'.
Proof.
  intros H HS. induction H as [w|w tr w' l w'' H IH Hs]; [exists a; split; [constructor|exact HS]|].
  destruct (IH HS) as (a' & Ha & HS'). destruct (sim_step _ _ _ _ HS' Hs) as (a'' & Ha' & HS''). exists a''. split; [eapply arun_trans; eassumption|exact HS''].
Qed.
