(** Property C80: a legal kernel's concurrent requests on a backend with a state. *)
From Verif Require Import PropsBacking.
From Verif Require Import PropsConc ConcCalls PropsConcCalls PropsConcWhere.

(** ** Specification *)
Definition never {Y} : Y -> Y -> Prop := fun _ _ => False.
(** thread [i] waits for the backend's answer to [c] *)
Definition waits {Y} (w : bworld Y) (i : Z) (c : bcall) : Prop :=
  (exists q wr past d rw p f, b_th w !! i = Some (BRun q wr past d rw p) /\ about_to p = Some (c, f)) \/ (exists d, b_th w !! i = Some (BTClose d) /\ c = KDestroyDir d).
(** a thread runs into an exception, an assertion or an endless loop *)
Inductive bfault {Y} : bworld Y -> Prop :=
| bf_prog c r m k th y i q wr past d rw : th !! i = Some (BRun q wr past d rw BFault) -> bfault (BW c r m k th y)
| bf_op c r m k th y i q wr past d rw o f : th !! i = Some (BRun q wr past d rw (BOp o f)) ->
    wr = true \/ reader_op o = true ->
    (uses_refs (Tx d r [] rw) o = true -> free_for i m) ->
    (forall x, opres (Tx d r [] rw) o <> Done x) -> bfault (BW c r m k th y).
(** the backend answers every call *)
Definition responsive {Y} (B : machine Y) : Prop := forall y c, exists a y', B y c a y'.
(** steps of the threads themselves: no new request, no kill *)
Definition by_threads (l : blabel) : Prop := match l with XCall _ _ | XKill _ => False | _ => True end.
Definition no_entry (l : blabel) : Prop := match l with XBack _ _ (AEntry _) => False | _ => True end.
(** somebody else has changed the backend *)
Definition moved {Y} (y : Y) (w : bworld Y) : bworld Y := BW (b_comm w) (b_refs w) (b_mutex w) (b_lock w) (b_th w) y.

(** ** Nobody waits for ever *)
Lemma fill_code_inl q b wr p : no_backend q -> code (fill q b) = inl (wr, p) -> exists p', bcode q = inl (wr, p').
Proof.
  intros Hn E. destruct q as [x n|x|x|q]; cbn [fill bcode] in *; [injection E as <- _; eauto..|]. rewrite E. eauto.
Qed.
Lemma fill_code_inr q b l : code (fill q b) = inr l -> bcode q = inr l.
Proof. intros E. destruct q as [x n|x|x|q]; cbn [fill bcode] in *; try discriminate E. rewrite E. reflexivity. Qed.
Section progress.
  Context {Y : Type} (B : machine Y).
  Lemma step_back w c c' : brel w [] c -> own_step c c' -> (exists l w', by_threads l /\ bstep B never w l w') \/ (exists i ca, waits w i ca).
  Proof.
    destruct w as [cm r m k th y]. intros [Ec HT] (l & Hl & Hc). cbn [b_comm b_refs b_mutex b_lock b_th] in *.
    assert (Hrun : forall i q wr past d rw p, th !! i = Some (BRun q wr past d rw p) -> (exists ca f, about_to p = Some (ca, f)) \/ about_to p = None) by (intros; destruct (about_to p) as [[ca f]|]; eauto).
    destruct Hc; injection Ec as ????; subst; cbn [Conc.w_th] in HT; try (destruct Hl as [Hl|(? & ? & Hl)]; discriminate Hl);
      match goal with H1 : _ !! ?i = Some _ |- _ => pose proof (HT i) as Hi; rewrite H1 in Hi; inversion Hi; subst; match goal with H2 : _ = th !! _ |- _ => symmetry in H2; rename H2 into Et end end;
      try (destruct (Hrun _ _ _ _ _ _ _ Et) as [(ca & f1 & Ea)|Ea]; [right; exists i, ca; left; do 7 eexists; split; [exact Et|exact Ea]|];
        match goal with H2 : peq _ (conc ?p _) |- _ => destruct p; cbn [about_to] in Ea; try discriminate Ea; cbn [conc] in H2; inversion H2; subst end);
      try (left; exists XTau; eexists; (split; [exact I|]); first [eapply bs_read; eassumption|eapply bs_op; eassumption|eapply bs_op_refs; eassumption|eapply bs_commit_rw; eassumption|eapply bs_commit_ro; eassumption|eapply bs_unlock; eassumption|eapply bs_drop1; eassumption|eapply bs_drop2; eassumption]);
      try (left; eexists (XRet i l), _; (split; [exact I|]); first [eapply bs_reply; eassumption|eapply bs_drop; eassumption]).
    - left. eexists _, _. split; [|eapply bs_none; [exact Et|eapply fill_code_inr; eassumption]]. exact I.
    - match goal with H1 : code _ = inl _ |- _ => apply fill_code_inl in H1 as [p' H1]; [|assumption] end. left. eexists _, _. split; [|eapply bs_begin_rw; eassumption]. exact I.
    - match goal with H1 : code _ = inl _ |- _ => apply fill_code_inl in H1 as [p' H1]; [|assumption] end. left. eexists _, _. split; [|eapply bs_begin_ro; eassumption]. exact I.
    - left. eexists (XRet i _), _. split; [exact I|]. eapply bs_drop; eassumption.
  Qed.
  Lemma fault_forth (w : bworld Y) c : brel w [] c -> bfault w -> cfault c.
  Proof.
    intros [Ec HT] Hf. destruct c as [c0 r0 m0 k0 tc]. destruct Hf as [c r m k th y i q wr past d rw E|c r m k th y i q wr past d rw o f E Hw Hm Hbad]; cbn [b_comm b_refs b_mutex b_lock b_th Conc.w_th] in *; injection Ec as ????; subst; pose proof (HT i) as Hi; rewrite E in Hi; inversion Hi; subst;
      match goal with H2 : peq _ _ |- _ => cbn [conc] in H2; inversion H2; subst end; match goal with H2 : _ = tc !! _ |- _ => symmetry in H2 end.
    - eapply cf_prog; eassumption.
    - eapply cf_op; eassumption.
  Qed.
  Lemma fault_back (w : bworld Y) c : brel w [] c -> cfault c -> bfault w \/ (exists i ca, waits w i ca).
  Proof.
    destruct w as [cm r m k th y]. intros [Ec HT] Hf. cbn [b_comm b_refs b_mutex b_lock b_th] in *.
    assert (Hrun : forall i q wr past d rw p, th !! i = Some (BRun q wr past d rw p) -> (exists ca f, about_to p = Some (ca, f)) \/ about_to p = None) by (intros; destruct (about_to p) as [[ca f]|]; eauto).
    destruct Hf; injection Ec as ????; subst; cbn [Conc.w_th] in HT;
      match goal with H1 : _ !! ?i = Some _ |- _ => pose proof (HT i) as Hi; rewrite H1 in Hi; inversion Hi; subst; match goal with H2 : _ = th !! _ |- _ => symmetry in H2; rename H2 into Et end end;
      (destruct (Hrun _ _ _ _ _ _ _ Et) as [(ca & f1 & Ea)|Ea]; [right; exists i, ca; left; do 7 eexists; split; [exact Et|exact Ea]|];
        match goal with H2 : peq _ (conc ?p _) |- _ => destruct p; cbn [about_to] in Ea; try discriminate Ea; cbn [conc] in H2; inversion H2; subst end).
    - left. eapply bf_prog; eassumption.
    - left. eapply bf_op; eassumption.
  Qed.
End progress.
Lemma run_related Y (B : machine Y) env root y0 w0 T w : well_typed B -> bopen root y0 = Done w0 -> brun B env w0 T w -> exists c0 c, copen root = Done c0 /\ crun c0 (labels T) c /\ brel w [] c.
Proof.
  intros HB Ho H. unfold bopen in Ho. unfold copen. destruct (open_cache root db_empty) as [[d r]| | |]; try discriminate Ho. injection Ho as <-.
  destruct (sim_brun B env _ _ _ HB H (CW d r None None ∅)) as (c & Hc & R).
  - split; [reflexivity|]. intros i. cbn [b_th Conc.w_th]. rewrite !lookup_empty. constructor.
  - exists (CW d r None None ∅), c. auto.
Qed.
(** While there are requests, some thread can go on, or waits for the backend, or has run into an exception. *)
Theorem C80_no_deadlock : forall Y (B : machine Y) env root y0 w0 T w, well_typed B -> bopen root y0 = Done w0 -> brun B env w0 T w -> b_th w <> ∅ ->
  bfault w \/ (exists l w', by_threads l /\ bstep B never w l w') \/ (exists i c, waits w i c).
Proof.
  intros Y B env root y0 w0 T w HB Ho H Hne. destruct (run_related _ _ _ _ _ _ _ _ HB Ho H) as (c0 & c & Hc0 & Hc & R). destruct (decide (Conc.w_th c = ∅)) as [E|E].
  - right. right. apply map_choose in Hne as (i & t & Et). destruct R as [_ HT]. specialize (HT i). rewrite E, lookup_empty, Et in HT. inversion HT; subst. exists i, (KDestroyDir d). right. eauto.
  - destruct (C54_no_deadlock _ _ _ _ Hc0 Hc E) as [Hf|[c' Hs]].
    + destruct (fault_back w c R Hf); auto.
    + right. eapply step_back; eassumption.
Qed.
Print Assumptions C80_no_deadlock.

(** ** The threads come to an end *)
Inductive bsub : bprog -> bprog -> Prop :=
| bsub_read k d : bsub (k d) (BRead k)
| bsub_op o k x : bsub (k x) (BOp o k)
| bsub_call p c f a : about_to p = Some (c, f) -> (forall n, a <> AEntry n) -> bsub (f a) p.
Lemma bsub_wf p : Acc bsub p.
Proof.
  induction p as [k IH|o k IH|k d|l| |c k IH|d x bp k IH]; constructor; intros y H; inversion H as [| |p' c' f' a' Ea Hn]; subst; auto; cbn [about_to] in Ea; try discriminate Ea; injection Ea as <- <-; auto.
  destruct a'; auto. destruct (Hn n eq_refl).
Qed.
Inductive btlt : bthread -> bthread -> Prop :=
| bl_begin q wr past d rw p : btlt (BRun q wr past d rw p) (BWait q)
| bl_none q l od : btlt (BTReply l od) (BWait q)
| bl_sub q wr past d rw p past' d' rw' p' : bsub p' p -> btlt (BRun q wr past' d' rw' p') (BRun q wr past d rw p)
| bl_commit q wr past d rw p l od : btlt (BTUnlock l od) (BRun q wr past d rw p)
| bl_drop q wr past d rw p : btlt (BTDrop1 wr) (BRun q wr past d rw p)
| bl_unlock l od : btlt (BTReply l od) (BTUnlock l od)
| bl_close l d : btlt (BTClose d) (BTReply l (Some d))
| bl_drop2 wr : btlt (BTDrop2 wr) (BTDrop1 wr).
Lemma btlt_wf t : Acc btlt t.
Proof.
  assert (C : forall d, Acc btlt (BTClose d)) by (intros; constructor; intros y H; inversion H).
  assert (R : forall l od, Acc btlt (BTReply l od)) by (intros; constructor; intros y H; inversion H; subst; auto).
  assert (D2 : forall w, Acc btlt (BTDrop2 w)) by (intros; constructor; intros y H; inversion H).
  assert (U : forall l od, Acc btlt (BTUnlock l od)) by (intros; constructor; intros y H; inversion H; subst; auto).
  assert (D1 : forall w, Acc btlt (BTDrop1 w)) by (intros; constructor; intros y H; inversion H; subst; auto).
  assert (T : forall p q w past d rw, Acc btlt (BRun q w past d rw p)).
  { intros p. induction (bsub_wf p) as [p _ IH]. intros q w past d rw. constructor. intros y H. inversion H; subst; auto. }
  destruct t; auto. constructor. intros y H. inversion H; subst; auto.
Qed.
Inductive bmlt : gmap Z bthread -> gmap Z bthread -> Prop :=
| bml_upd m i t t' : m !! i = Some t -> btlt t' t -> bmlt (<[i := t']> m) m
| bml_del m i t : m !! i = Some t -> bmlt (delete i m) m.
Lemma bmlt_insert m i : m !! i = None -> Acc bmlt m -> forall t, Acc bmlt (<[i := t]> m).
Proof.
  intros Hi Hm. revert Hi. induction Hm as [m Hm IHm]. intros Hi t. induction (btlt_wf t) as [t _ IHt].
  constructor. intros y H. inversion H as [m0 j t0 t' E Ht Ey Em|m0 j t0 E Ey Em]; subst.
  - destruct (decide (j = i)) as [->|Hj].
    + rewrite lookup_insert in E. injection E as <-. rewrite insert_insert. apply IHt, Ht.
    + rewrite lookup_insert_ne in E by congruence. rewrite insert_commute by congruence. apply IHm; [econstructor; eassumption|]. rewrite lookup_insert_ne by congruence. exact Hi.
  - destruct (decide (j = i)) as [->|Hj].
    + rewrite delete_insert by exact Hi. constructor. exact Hm.
    + rewrite lookup_insert_ne in E by congruence. rewrite delete_insert_ne by congruence. apply IHm; [econstructor; eassumption|]. rewrite lookup_delete_ne by congruence. exact Hi.
Qed.
Lemma bmlt_wf m : Acc bmlt m.
Proof.
  induction m as [|i t m Hi IH] using map_ind; [|apply bmlt_insert; assumption].
  constructor. intros y H. inversion H as [m0 j t0 t' E Ht Ey Em|m0 j t0 E Ey Em]; subst; rewrite lookup_empty in E; discriminate.
Qed.
Lemma bstep_mlt Y (B : machine Y) w l w' : bstep B never w l w' -> by_threads l -> no_entry l -> bmlt (b_th w') (b_th w).
Proof.
  intros H H1 H2. destruct H; cbn [b_th]; try (destruct H1; fail); try (match goal with H3 : never _ _ |- _ => destruct H3 end);
    try (eapply bml_del; eassumption); try (eapply bml_upd; [eassumption|]; constructor; fail); try (eapply bml_upd; [eassumption|]; constructor; constructor; fail).
  - eapply bml_upd; [eassumption|]. constructor. eapply bsub_call; [eassumption|]. intros n ->. exact H2.
  - destruct od; [eapply bml_upd; [eassumption|constructor]|eapply bml_del; eassumption].
Qed.
(** The threads cannot go on for ever without new requests and without new entries of directories,
    however the backend changes in between.  (So a request that never ends lists a directory that never ends.) *)
Theorem C80_terminates : forall Y (B : machine Y), ~ exists f : nat -> bworld Y, forall n, exists y l, by_threads l /\ no_entry l /\ bstep B never (moved y (f n)) l (f (S n)).
Proof.
  intros Y B [f Hf]. assert (H : forall m n, b_th (f n) = m -> False); [|exact (H _ O eq_refl)].
  intros m. induction (bmlt_wf m) as [m _ IH]. intros n <-. destruct (Hf n) as (y & l & H1 & H2 & Hs). apply (IH (b_th (f (S n)))) with (n := S n); [|reflexivity]. pose proof (bstep_mlt Y B _ _ _ Hs H1 H2) as H. exact H.
Qed.
Print Assumptions C80_terminates.

(** ** With a legal kernel *)
(** [legal_trace] (ConcKernel.v) asks of the tables that they have representable answers: true if the backend's answers are representable. *)
Lemma future_ok i T : Forall (fun l => match l with XBack _ c a => answers_ok [(c, a)] | _ => True end) T -> answers_ok (future i T).
Proof.
  induction 1 as [|l T Hl _ IH]; [constructor|]. destruct l as [j q|j r|root|j c a|]; cbn [future]; try exact IH; [destruct (j =? i); [constructor|exact IH]|constructor|].
  destruct (j =? i); [|exact IH]. inversion Hl; subst. constructor; assumption.
Qed.
Theorem C80_tables : forall T i, Forall (fun l => match l with XBack _ c a => answers_ok [(c, a)] | _ => True end) T -> backend_ok (table_of (future i T)).
Proof. intros T i H. apply table_ok, future_ok, H. Qed.
(** no thread ever faults *)
Theorem C80_safe : forall Y (B : machine Y) env root y0 w0 T w ck, well_typed B -> attrs_ok root -> bopen root y0 = Done w0 -> brun B env w0 T w -> legal_trace (labels T) ck -> ~ bfault w.
Proof.
  intros Y B env root y0 w0 T w ck HB Hroot Ho H Hl Hf. destruct (run_related _ _ _ _ _ _ _ _ HB Ho H) as (c0 & c & Hc0 & Hc & R). exact (C55_safe root c0 _ c ck Hroot Hc0 Hc Hl (fault_forth w c R Hf)).
Qed.
(** ... so every request is answered if the backend answers every call *)
Theorem C80_progress : forall Y (B : machine Y) env root y0 w0 T w ck, well_typed B -> responsive B -> attrs_ok root -> bopen root y0 = Done w0 -> brun B env w0 T w -> legal_trace (labels T) ck ->
  b_th w <> ∅ -> exists l w', by_threads l /\ bstep B never w l w'.
Proof.
  intros Y B env root y0 w0 T w ck HB HR Hroot Ho H Hl Hne. destruct (C80_no_deadlock _ _ _ _ _ _ _ _ HB Ho H Hne) as [Hf|[Hs|(i & c & [(q & wr & past & d & rw & p & f & Et & Ea)|(d & Et & ->)])]].
  - destruct (C80_safe _ _ _ _ _ _ _ _ _ HB Hroot Ho H Hl Hf).
  - exact Hs.
  - destruct w as [cm r m k th y]. destruct (HR y c) as (a & y' & Hm). eexists (XBack i c a), _. split; [exact I|]. eapply bs_back; eassumption.
  - destruct w as [cm r m k th y]. destruct (HR y (KDestroyDir d)) as (a & y' & Hm). eexists (XBack i _ a), _. split; [exact I|]. eapply bs_close; eassumption.
Qed.
Print Assumptions C80_safe.
Print Assumptions C80_progress.
(** there is a sequential history (C33-C41 speak about these) with the same database and the same replies *)
Theorem C80_history : forall Y (B : machine Y) env root y0 w0 T w ck, well_typed B -> attrs_ok root -> bopen root y0 = Done w0 -> brun B env w0 T w -> legal_trace (labels T) ck ->
  exists W s k h, hist W s k h /\ s_db s = b_comm w /\ (b_th w = ∅ -> s_refs s = b_refs w /\ forall x, kcount k x = kcount (c_know ck) x) /\
    (forall e, e ∈ h -> asked_for ck e) /\ (forall q l, (q, l) ∈ c_got ck -> answered h q l).
Proof.
  intros Y B env root y0 w0 T w ck HB Hroot Ho H Hl. destruct (C78_schedule _ _ _ _ _ _ _ _ HB Ho H) as (c0 & c & Hc0 & Hc & E1 & E2 & E3). destruct (C55_history root c0 _ c ck Hroot Hc0 Hc Hl) as (W & s & k & h & H1 & H2 & H3 & H4).
  exists W, s, k, h. split; [exact H1|]. split; [congruence|]. split; [|exact H4]. intros E. rewrite <- E2. auto.
Qed.
(** what the kernel holds is in the database; when all is answered, the cache holds its references and, without readdirplus, no others *)
Theorem C80_held : forall Y (B : machine Y) env root y0 w0 T w ck x, well_typed B -> attrs_ok root -> bopen root y0 = Done w0 -> brun B env w0 T w -> legal_trace (labels T) ck ->
  0 < kcount (c_know ck) x -> exists a, getattr (b_comm w) x = Ok a.
Proof.
  intros Y B env root y0 w0 T w ck x HB Hroot Ho H Hl Hx. destruct (C78_schedule _ _ _ _ _ _ _ _ HB Ho H) as (c0 & c & Hc0 & Hc & E1 & E2 & E3). rewrite <- E1. eapply C55_held; eassumption.
Qed.
Theorem C80_references : forall Y (B : machine Y) env root y0 w0 T w ck, well_typed B -> attrs_ok root -> bopen root y0 = Done w0 -> brun B env w0 T w -> legal_trace (labels T) ck -> b_th w = ∅ ->
  forall x, kcount (c_know ck) x <= refcount (b_refs w) x /\ ((forall y size off, CPlus y size off ∉ c_asked ck) -> refcount (b_refs w) x = kcount (c_know ck) x).
Proof.
  intros Y B env root y0 w0 T w ck HB Hroot Ho H Hl Ht x. destruct (C78_schedule _ _ _ _ _ _ _ _ HB Ho H) as (c0 & c & Hc0 & Hc & E1 & E2 & E3). rewrite <- E2. eapply C55_references; eauto.
Qed.
Print Assumptions C80_history.
Print Assumptions C80_held.
Print Assumptions C80_references.
(** C78_where, with the names: the backend is asked about the path that leads to the inode *)
Theorem C80_names : forall Y (B : machine Y) env root y0 w0 T1 i q T2 w c a w1 ck, well_typed B -> attrs_ok root -> bopen root y0 = Done w0 ->
  brun B env w0 (T1 ++ XCall i q :: T2) w -> legal_trace (labels (T1 ++ XCall i q :: T2)) ck -> bstep B env w (XBack i c a) w1 -> serving c -> Forall (goes_on_with i) T2 ->
  exists comps, walk (b_comm w) ROOT_INO comps (subject q) /\ asks (spell comps) q (future i (T2 ++ [XBack i c a])).
Proof.
  intros Y B env root y0 w0 T1 i q T2 w c a w1 ck HB Hroot Ho H Hl Hs Hc HF. destruct (C78_where _ _ _ _ _ _ _ _ _ _ _ _ _ _ HB Ho H Hs Hc HF) as (pp & Hp & Ha).
  destruct (C80_history _ _ _ _ _ _ _ _ _ HB Hroot Ho H Hl) as (W & s & k & h & Hh & Es & _). destruct (hist_inv _ _ _ _ Hh) as (HI & _). pose proof (dr_inv _ _ _ (fi_dr _ _ _ HI)) as Hi. rewrite Es in Hi.
  destruct (path_spec _ (subject q) Hi) as [(comps & Hw & E)|[_ E]]; rewrite E in Hp; [|discriminate Hp]. injection Hp as <-. exists comps. auto.
Qed.
Print Assumptions C80_names.

(** ** One reply for each request *)
(** in [T] a request of [i] is made that is not replied to (and the process not killed) *)
Definition pending_in (i : Z) (T : list blabel) : Prop := exists T1 q T2, T = T1 ++ XCall i q :: T2 /\ Forall (goes_on_with i) T2.
Definition unanswered (t : bthread) : Prop := match t with BWait _ | BRun _ _ _ _ _ _ | BTUnlock _ _ | BTReply _ _ => True | _ => False end.
Lemma pending_snoc i T l : pending_in i T -> goes_on_with i l -> pending_in i (T ++ bseen l).
Proof.
  intros (T1 & q & T2 & -> & HF) Hl. exists T1, q, (T2 ++ bseen l). split; [rewrite <- app_assoc; reflexivity|]. apply Forall_app. split; [exact HF|]. destruct l; cbn [bseen]; repeat constructor; exact Hl.
Qed.
Lemma pending_step Y (B : machine Y) env w l w1 i t1 : bstep B env w l w1 -> b_th w1 !! i = Some t1 -> unanswered t1 -> (exists q, l = XCall i q) \/ (goes_on_with i l /\ exists t, b_th w !! i = Some t /\ unanswered t).
Proof.
  intros Hs E1 U.
  assert (Hsame : goes_on_with i l -> b_th w1 !! i = b_th w !! i -> (exists q, l = XCall i q) \/ (goes_on_with i l /\ exists t, b_th w !! i = Some t /\ unanswered t)).
  { intros Hg E. right. split; [exact Hg|]. exists t1. rewrite <- E. auto. }
  destruct Hs; cbn [b_th] in *;
    try (match goal with H1 : ?mm !! ?j = _ |- _ => destruct (decide (j = i)) as [->|Hj]; [|apply Hsame; [cbn; auto|first [rewrite lookup_insert_ne by exact Hj; reflexivity|rewrite lookup_delete_ne by exact Hj; reflexivity|destruct od; [rewrite lookup_insert_ne by exact Hj; reflexivity|rewrite lookup_delete_ne by exact Hj; reflexivity]]]] end);
    try (rewrite lookup_insert in E1; injection E1 as <-; cbn [unanswered] in U; try destruct U; right; split; [exact I|eexists; split; [eassumption|exact I]]; fail);
    try (rewrite lookup_delete in E1; discriminate E1).
  - left. eauto.
  - destruct od; [rewrite lookup_insert in E1; injection E1 as <-; destruct U|rewrite lookup_delete in E1; discriminate E1].
  - rewrite lookup_insert in E1. injection E1 as <-. destruct U.
  - rewrite lookup_insert in E1. injection E1 as <-. destruct U.
  - rewrite lookup_empty in E1. discriminate E1.
  - exact (Hsame I eq_refl).
Qed.
Lemma pending_run Y (B : machine Y) env w T w1 : brun B env w T w1 -> forall T0, (forall i t, b_th w !! i = Some t -> unanswered t -> pending_in i T0) -> forall i t, b_th w1 !! i = Some t -> unanswered t -> pending_in i (T0 ++ T).
Proof.
  induction 1 as [w|w l wm T w1 Hs Hr IH]; intros T0 H0; [rewrite app_nil_r; exact H0|]. rewrite app_assoc. apply IH. intros i t Et U. destruct (pending_step _ _ _ _ _ _ _ _ Hs Et U) as [[q ->]|[Hl (t0 & E0 & U0)]].
  - exists T0, q, []. split; [reflexivity|constructor].
  - apply pending_snoc; [eapply H0; eassumption|exact Hl].
Qed.
(** every reply is the first one to a request made before ... *)
Theorem C80_one_reply : forall Y (B : machine Y) env root y0 w0 T1 i l T2 w, bopen root y0 = Done w0 -> brun B env w0 (T1 ++ XRet i l :: T2) w -> pending_in i T1.
Proof.
  intros Y B env root y0 w0 T1 i l T2 w Ho H. apply brun_app in H as (m1 & H1 & H). destruct (brun_cons _ _ _ _ _ H _ _ eq_refl) as (m2 & m3 & H2 & Hs & _ & _).
  pose proof (brun_trans _ _ _ _ _ _ _ H1 H2) as H3. rewrite app_nil_r in H3.
  assert (H0 : forall j t, b_th w0 !! j = Some t -> unanswered t -> pending_in j []). { unfold bopen in Ho. destruct (open_cache root db_empty) as [[d r]| | |]; try discriminate Ho. injection Ho as <-. intros j t. cbn [b_th]. rewrite lookup_empty. discriminate. }
  pose proof (pending_run _ _ _ _ _ _ H3 [] H0 i) as Hp. inversion Hs; subst; cbn [b_th] in Hp; eapply Hp; try eassumption; exact I.
Qed.
(** ... and when no request is in progress each one has been replied to, unless the process was killed *)
Theorem C80_all_replied : forall Y (B : machine Y) env w0 T w i, brun B env w0 T w -> b_th w = ∅ -> ~ pending_in i T.
Proof.
  intros Y B env w0 T w i H E (T1 & q & T2 & -> & HF). apply brun_app in H as (m1 & _ & H). destruct (brun_cons _ _ _ _ _ H _ _ eq_refl) as (m2 & m3 & _ & Hcall & H2 & _).
  assert (Hd : doing i q [] m3) by (inversion Hcall; subst; left; cbn [b_th]; rewrite lookup_insert; auto).
  destruct (doing_run B env i q _ _ _ H2 HF [] Hd) as [[E1 _]|[(wr & d & rw & p & E1)|(l & od & [E1|E1])]]; rewrite E, lookup_empty in E1; discriminate E1.
Qed.
(** If the threads go on until none can go on, no request is in progress. *)
Theorem C80_all_done : forall Y (B : machine Y) env root y0 w0 T w ck, well_typed B -> responsive B -> attrs_ok root -> bopen root y0 = Done w0 -> brun B env w0 T w -> legal_trace (labels T) ck ->
  (forall l w', by_threads l -> ~ bstep B never w l w') -> b_th w = ∅.
Proof.
  intros Y B env root y0 w0 T w ck HB HR Hroot Ho H Hl Hn. destruct (decide (b_th w = ∅)) as [E|E]; [exact E|]. destruct (C80_progress _ _ _ _ _ _ _ _ _ HB HR Hroot Ho H Hl E) as (l & w' & H1 & H2). destruct (Hn l w' H1 H2).
Qed.
Print Assumptions C80_one_reply.
Print Assumptions C80_all_replied.
Print Assumptions C80_all_done.

(** ** Sample: the hypotheses are met *)
From Verif Require ConcPlay.
Definition cost_of (q : breq) (tr : trace) : Z := match q with BLookup _ _ => 2 | BOpendir _ => Z.of_nat (length (names_of tr)) | _ => 0 end.
Lemma costs_fill q tr : plainb q = true -> costs (fill q (table_of tr)) (cost_of q tr).
Proof.
  destruct q as [p n|x|x|q]; intros Hp; try discriminate Hp; cbn [fill cost_of].
  - apply ConcPlay.costs_lookup.
  - apply ConcPlay.costs_readlink.
  - split; [lia|]. intros s i rq E. cbn in E. injection E as <-. cbn [weight]. destruct (path (s_db s) x) as [[pp|]| | |]; try lia.
    destruct (b_opendir (table_of tr) (backend_path pp)) as [[names e]|] eqn:Eb; [|lia]. cbn [table_of b_opendir] in Eb. destruct (dirs_of tr) as [|[d [u|e1]] ?]; try discriminate Eb. injection Eb as <- <-. cbn. lia.
Qed.
Definition ansb (l : blabel) : bool := match l with XBack _ _ (AStat st) => bool_decide (st = dirA) | XBack _ _ (ALink _) => false | _ => true end.
Fixpoint legalT (T : list blabel) (ck : ckernel) : option ckernel :=
  match T with
  | [] => Some ck
  | XCall i q :: T =>
    let cq := fill q (table_of (future i T)) in
    if plainb q && bool_decide (c_fly ck !! i = None) && ConcPlay.may_callb ck cq && (c_cost ck + cost_of q (future i T) + 3 <? 2 ^ 63)
    then legalT T (CK (know_call cq (c_know ck)) (<[i := cq]> (c_fly ck)) (c_cost ck + cost_of q (future i T)) (c_got ck) (c_asked ck ++ [cq])) else None
  | XRet i l :: T => match c_fly ck !! i with Some q => legalT T (CK (know_reply q l (c_know ck)) (delete i (c_fly ck)) (c_cost ck) (c_got ck ++ [(q, l)]) (c_asked ck)) | None => None end
  | XKill _ :: _ => None
  | _ :: T => legalT T ck
  end.
Lemma ansb_ok T : forallb ansb T = true -> Forall (fun l => match l with XBack _ c a => answers_ok [(c, a)] | _ => True end) T.
Proof.
  intros H. apply Forall_forall. intros l Hl. rewrite forallb_forall in H. specialize (H l (proj1 (elem_of_list_In _ _) Hl)). destruct l as [| | |i c a|]; try exact I. constructor; [|constructor]. destruct a; cbn [snd ansb] in *; try exact I; [|discriminate H].
  apply bool_decide_eq_true_1 in H as ->. exact dirA_ok.
Qed.
Lemma legalT_ok T : forall ck ck' tr, forallb ansb T = true -> legal_trace tr ck -> legalT T ck = Some ck' -> legal_trace (tr ++ labels T) ck'.
Proof.
  induction T as [|l T IH]; intros ck ck' tr HA Hl E; cbn [legalT labels] in *; [injection E as <-; rewrite app_nil_r; exact Hl|]. cbn [forallb] in HA. apply andb_prop in HA as [_ HA]. destruct l as [i q|i r|root|i c a|].
  - destruct (_ && _) eqn:Eb in E; [|discriminate E]. apply andb_prop in Eb as [Eb E4]. apply andb_prop in Eb as [Eb E3]. apply andb_prop in Eb as [E1 E2]. apply bool_decide_eq_true_1 in E2. apply Z.ltb_lt in E4.
    change (?x :: labels T) with ([x] ++ labels T). rewrite app_assoc. eapply IH; [exact HA| |exact E]. constructor; [exact Hl|exact E2| |apply costs_fill; exact E1|exact E4].
    apply ConcPlay.may_callb_ok; [|exact E3]. pose proof (C80_tables T i (ansb_ok T HA)) as Hok. destruct q; cbn [fill]; try discriminate E1; exact Hok.
  - destruct (c_fly ck !! i) as [q|] eqn:Ef; [|discriminate E]. change (?x :: labels T) with ([x] ++ labels T). rewrite app_assoc. eapply IH; [exact HA| |exact E]. constructor; assumption.
  - discriminate E.
  - eapply IH; eassumption.
  - eapply IH; eassumption.
Qed.
Definition checkL (cs : list choice) (P : list blabel -> bworld unit -> ckernel -> bool) : bool :=
  match bopen rootA tt with
  | Done w0 => match bexecs accept w0 cs with Some (T, w) => match legalT T (CK k0 ∅ 0 [] []) with Some ck => forallb ansb T && P T w ck | None => false end | None => false end
  | _ => false
  end.
Lemma checkL_ok cs P : checkL cs P = true -> exists w0 T w ck, bopen rootA tt = Done w0 /\ brun anything never w0 T w /\ legal_trace (labels T) ck /\ P T w ck = true.
Proof.
  unfold checkL. destruct (bopen rootA tt) as [w0| | |]; try discriminate. destruct (bexecs accept w0 cs) as [[T w]|] eqn:E; [|discriminate]. destruct (legalT T (CK k0 ∅ 0 [] [])) as [ck|] eqn:El; [|discriminate]. intros H. apply andb_prop in H as [H1 H2].
  exists w0, T, w, ck. split; [reflexivity|]. split; [exact (bexecs_ok anything accept accept_ok _ _ _ _ E)|]. split; [|exact H2]. exact (legalT_ok T _ _ [] H1 lt_nil El).
Qed.
(** "/d" has been looked up; its listing is under way: one request, waiting for the backend (readdir), and one waiting for the writer lock *)
Definition csL : list choice := cs78w ++ [ChAnswer 1 (AStat dirA); ChStep 1; ChCall 2 (BLookup 1 nD)].
Example C80_sample : exists w0 T w ck, bopen rootA tt = Done w0 /\ brun anything never w0 T w /\ legal_trace (labels T) ck /\ dom (b_th w) = ({[1; 2]} : gset Z) /\ waits w 1 (KReaddir 3) /\ 0 < kcount (c_know ck) 2 /\ b_lock w = Some 1 /\
  well_typed anything /\ responsive anything /\ attrs_ok rootA.
Proof.
  destruct (checkL_ok csL (fun T w ck => bool_decide (dom (b_th w) = ({[1; 2]} : gset Z)) && (match b_th w !! 1 with Some (BRun _ _ _ _ _ p) => match about_to p with Some (c, _) => bool_decide (c = KReaddir 3) | None => false end | _ => false end) && (0 <? kcount (c_know ck) 2) && bool_decide (b_lock w = Some 1))) as (w0 & T & w & ck & H1 & H2 & H3 & H4); [vm_compute; reflexivity|].
  apply andb_prop in H4 as [H4 E4]. apply andb_prop in H4 as [H4 E3]. apply andb_prop in H4 as [E1 E2]. exists w0, T, w, ck. split; [exact H1|]. split; [exact H2|]. split; [exact H3|]. split; [exact (bool_decide_eq_true_1 _ E1)|]. split; [|split; [apply Z.ltb_lt; exact E3|split; [exact (bool_decide_eq_true_1 _ E4)|split; [|split]]]].
  - destruct (b_th w !! 1) as [[|q wr past d rw p| | | | |]|] eqn:Et; try discriminate E2. destruct (about_to p) as [[c f]|] eqn:Ea; [|discriminate E2]. apply bool_decide_eq_true_1 in E2 as ->. left. do 7 eexists. split; [exact Et|exact Ea].
  - intros y c a y' H. exact H.
  - intros y c. destruct c; first [exists (AFail EIO), tt; exact I|exists AVoid, tt; exact I].
  - exact rootA_ok.
Qed.
(** a run at whose end all has been answered *)
Example C80_done_sample : exists w0 T w ck, bopen rootA tt = Done w0 /\ brun anything never w0 T w /\ legal_trace (labels T) ck /\ b_th w = ∅ /\ length (c_got ck) = 2%nat /\ kcount (c_know ck) 2 = 1 /\ refcount (b_refs w) 2 = 1.
Proof.
  destruct (checkL_ok cs78 (fun T w ck => bool_decide (dom (b_th w) = (∅ : gset Z)) && bool_decide (length (c_got ck) = 2%nat /\ kcount (c_know ck) 2 = 1 /\ refcount (b_refs w) 2 = 1))) as (w0 & T & w & ck & H1 & H2 & H3 & H4); [vm_compute; reflexivity|].
  apply andb_prop in H4 as [E1 E2]. exists w0, T, w, ck. split; [exact H1|]. split; [exact H2|]. split; [exact H3|]. split; [|exact (bool_decide_eq_true_1 _ E2)]. apply (dom_empty_iff_L (D := gset Z)). exact (bool_decide_eq_true_1 _ E1).
Qed.
