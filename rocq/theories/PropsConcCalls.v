(** Property C78: concurrent requests on a backend with a state. *)
From Verif Require Import PropsBacking.
From Verif Require Import PropsConc ConcCalls.

(** ** Specification *)
(** the calls thread [i] makes in [T] up to its reply (or until the process dies) *)
Fixpoint future (i : Z) (T : list blabel) : trace :=
  match T with
  | [] => []
  | XBack j c a :: T => if j =? i then (c, a) :: future i T else future i T
  | XRet j _ :: T => if j =? i then [] else future i T
  | XKill _ :: _ => []
  | _ :: T => future i T
  end.
(** the calls, replies and kills of [T]; each request comes with the table of the answers it is going to get *)
Fixpoint labels (T : list blabel) : list clabel :=
  match T with
  | [] => []
  | XCall i q :: T => LCall i (fill q (table_of (future i T))) :: labels T
  | XRet i l :: T => LRet i l :: labels T
  | XKill root :: T => LKill root :: labels T
  | _ :: T => labels T
  end.

(** ** Programs with the answers filled in *)
Fixpoint conc (p : bprog) (o : trace) : prog :=
  match p with
  | BRead k => PRead (fun d => conc (k d) o)
  | BOp op k => POp op (fun x => conc (k x) o)
  | BCommit k _ => PCommit k
  | BDrop l => PDrop l
  | BFault => PFault
  | BCall c k => match o with [] => conc (k (AFail EIO)) [] | (_, a) :: o => conc (k a) o end
  | BList d x bp k =>
    (fix loop (o : trace) : prog :=
       match o with
       | (_, AEntry n) :: o1 =>
         match o1 with
         | (_, AStat st) :: o2 => POp (OEmplace x n (from_backend_stat st)) (fun _ => loop o2)
         | _ :: o2 => loop o2
         | [] => conc k []
         end
       | _ :: o1 => conc k o1
       | [] => conc k []
       end) o
  end.
Inductive peq : prog -> prog -> Prop :=
| peq_read k k' : (forall d, peq (k d) (k' d)) -> peq (PRead k) (PRead k')
| peq_op o k k' : (forall x, peq (k x) (k' x)) -> peq (POp o k) (POp o k')
| peq_commit k k' : (forall x, k x = k' x) -> peq (PCommit k) (PCommit k')
| peq_drop l : peq (PDrop l) (PDrop l)
| peq_fault : peq PFault PFault.
Lemma peq_refl p : peq p p.
Proof. induction p; constructor; auto. Qed.
Lemma peq_emb p o : peq p (conc (emb p) o).
Proof. induction p; cbn [emb conc]; constructor; auto. Qed.
Lemma conc_about p c f a o : about_to p = Some (c, f) -> conc p ((c, a) :: o) = conc (f a) o.
Proof.
  destruct p as [| | | | |c0 f0|d x bp k]; cbn [about_to]; try discriminate; intros E; injection E as <- <-; [reflexivity|].
  destruct a; try reflexivity. destruct o as [|[c1 a1] o]; [reflexivity|]. destruct a1; reflexivity.
Qed.
(** the calls a program can make *)
Inductive shape : bprog -> trace -> Prop :=
| sh_nil p : shape p []
| sh_read k d o : shape (k d) o -> shape (BRead k) o
| sh_op op k x o : shape (k x) o -> shape (BOp op k) o
| sh_call p c f a o : about_to p = Some (c, f) -> typed c a -> shape (f a) o -> shape p ((c, a) :: o).
Inductive quiet : bprog -> Prop :=
| qu_read k : (forall d, quiet (k d)) -> quiet (BRead k)
| qu_op op k : (forall x, quiet (k x)) -> quiet (BOp op k)
| qu_commit k d : quiet (BCommit k d)
| qu_drop l : quiet (BDrop l)
| qu_fault : quiet BFault.
Lemma quiet_emb p : quiet (emb p).
Proof. induction p; cbn [emb]; constructor; auto. Qed.
Lemma quiet_shape p o : quiet p -> shape p o -> o = [].
Proof. intros Q. revert o. induction Q; intros o' S; inversion S; subst; eauto; discriminate. Qed.

(** ** The handlers of Conc.v with the table of a trace *)
Lemma lookup_split b p n : peq (p_lookup b p n) (PRead (fun d => match path d p with Done (Ok pp) => p_lookup_rest p n (b_lstat b 0 (pp ++ [47] ++ n)) | Done (Err e) => PDrop [RErr e] | _ => PFault end)).
Proof.
  constructor. intros d. unfold of_outcome. destruct (path d p) as [[pp|e]| | |]; [|constructor..]. unfold p_lookup_rest. destruct (b_lstat b 0 (pp ++ [47] ++ n)); apply peq_refl.
Qed.
Lemma peq_trans p q r : peq p q -> peq q r -> peq p r.
Proof.
  intros H. revert r. induction H; intros r Hr; inversion Hr; subst; constructor; intros; auto.
  match goal with H1 : forall x, _ x = _ x, H2 : forall x, _ x = _ x |- _ => rewrite H1; apply H2 end.
Qed.
Lemma shape_path x k o : shape (at_path x k) o -> o = [] \/ exists pp, shape (k pp) o.
Proof.
  intros S. inversion S as [|k' d o' S'| |p c f a o' E]; subst; [left; reflexivity| |discriminate E]. destruct (path d x) as [[pp|e]| | |]; [right; exists pp; exact S'|left; eapply quiet_shape; [|exact S']; constructor..].
Qed.
Lemma lookup_conc p n o : shape (h_lookup p n) o -> peq (p_lookup (table_of o) p n) (conc (h_lookup p n) o).
Proof.
  intros S. eapply peq_trans; [apply lookup_split|]. unfold h_lookup, at_path. cbn [conc]. constructor. intros d. destruct (path d p) as [[pp|e]| | |]; [|constructor..]. cbn [conc].
  apply shape_path in S as [->|[pp' S]]; [apply peq_emb|].
  inversion S as [| | |? c f a o' E Ht S']; subst; [apply peq_emb|]. cbn [about_to] in E. injection E as <- <-. destruct a; try destruct Ht; (assert (o' = []) as -> by (eapply quiet_shape; [|exact S']; first [exact (quiet_emb (p_lookup_rest p n (Ok a)))|exact (quiet_emb (p_lookup_rest p n (Err e)))])); apply peq_emb.
Qed.
Lemma readlink_conc x o : shape (h_readlink x) o -> peq (p_readlink (table_of o) x) (conc (h_readlink x) o).
Proof.
  intros S. unfold h_readlink, at_path. cbn [conc]. constructor. intros d. unfold of_outcome. destruct (path d x) as [[pp|e]| | |]; [|constructor..]. cbn [conc].
  assert (G : forall r o', r = b_readlink (table_of o) (backend_path pp) -> peq (match b_readlink (table_of o) (backend_path pp) with
    | Ok link => POp (OWritelink x link) (fun _ => PCommit (fun _ => [RReadlink (cstr link)]))
    | Err e => if e =? ENOTCONN then PRead (fun d => match readlink d x with Err e => PDrop [RErr e] | Ok link => PDrop [RReadlink (cstr link)] end) else POp (OUnlinkIno x) (fun _ => PCommit (fun _ => [RErr e])) end) (conc (emb (p_readlink_rest x r)) o')).
  { intros r o' <-. eapply peq_trans; [|apply peq_emb]. unfold p_readlink_rest. destruct r; apply peq_refl. }
  apply shape_path in S as [->|[pp' S]]; [apply (G (Err EIO)); reflexivity|].
  inversion S as [| | |? c f a o' E Ht S']; subst; [apply (G (Err EIO)); reflexivity|]. cbn [about_to] in E. injection E as <- <-. destruct a; try destruct Ht; apply G; reflexivity.
Qed.
Lemma entries_conc x bp bp2 d k K : quiet k -> peq K (conc k []) -> forall o i b, shape (BList d x bp k) o ->
  (forall j path, b_lstat b (i + j) path = match stats_of o !! j with Some (_, r) => r | None => Err EIO end) ->
  peq (p_entries b x bp2 i (names_of o) K) (conc (BList d x bp k) o).
Proof.
  intros Hq HK. intros o. remember (length o) as len eqn:El. revert o El. induction len as [len IH] using lt_wf_ind. intros o El i b S Hb.
  inversion S as [| | |? c f a o1 E Ht S1]; subst; [exact HK|]. cbn [about_to] in E. injection E as <- <-. destruct a as [| | |n| | | | |e]; try destruct Ht.
  - inversion S1 as [| | |? c f a o2 E2 Ht2 S2]; subst.
    + cbn [names_of omap list_omap p_entries conc]. pose proof (Hb 0%nat (join_path bp2 n)) as H0. rewrite Nat.add_0_r in H0. rewrite H0. exact HK.
    + cbn [about_to] in E2. injection E2 as <- <-. pose proof (Hb 0%nat (join_path bp2 n)) as H0. rewrite Nat.add_0_r in H0.
      destruct a; try destruct Ht2.
      * change (names_of _) with (n :: names_of o2). cbn [p_entries]. rewrite H0. cbn [stats_of omap list_omap lookup list_lookup]. cbn [conc]. constructor. intros r0. inversion S2 as [| |? ? ? ? S3|? ? ? ? ? E3]; subst; [| |discriminate E3].
        -- apply (IH 0%nat) with (o := []); [cbn; lia|reflexivity|constructor|]. intros j path. rewrite Nat.add_succ_comm. apply (Hb (Datatypes.S j)).
        -- apply (IH (length o2)); [cbn; lia|reflexivity|exact S3|]. intros j path. rewrite Nat.add_succ_comm. apply (Hb (Datatypes.S j)).
      * change (names_of _) with (n :: names_of o2). cbn [p_entries]. rewrite H0. cbn [stats_of omap list_omap lookup list_lookup]. cbn [conc]. apply (IH (length o2)); [cbn; lia|reflexivity|exact S2|]. intros j path. rewrite Nat.add_succ_comm. apply (Hb (Datatypes.S j)).
  - assert (o1 = []) as -> by (eapply quiet_shape; [exact Hq|exact S1]). exact HK.
Qed.
Lemma end_quiet x d : quiet (h_opendir_end x d).
Proof. unfold h_opendir_end. repeat constructor. Qed.
Lemma opendir_conc x o : shape (h_opendir x) o -> peq (p_opendir (table_of o) x) (conc (h_opendir x) o).
Proof.
  intros S. unfold h_opendir, at_path. cbn [conc]. constructor. intros d. unfold of_outcome. destruct (path d x) as [[pp|e]| | |]; [|constructor..]. cbn [conc].
  apply shape_path in S as [->|[pp' S]]; [constructor|].
  inversion S as [| | |? c f a o1 E Ht S1]; subst; [constructor|]. cbn [about_to] in E. injection E as <- <-. destruct a as [| |d1| | | | | |e]; try destruct Ht.
  - change (b_opendir (table_of ((KOpendir (backend_path pp'), ADir d1) :: o1)) (backend_path pp)) with (Ok (names_of o1, default 0 (head (ends_of o1))) : res (list bytes * Z)). cbv iota. constructor. intros r0.
    assert (S2 : exists bp, shape (BList d1 x bp (h_opendir_end x d1)) o1). { inversion S1 as [| |? ? ? ? S3|? ? ? ? ? E3]; subst; [exists []; constructor|eexists; exact S3|discriminate E3]. }
    destruct S2 as [bp S2]. refine (entries_conc x bp (backend_path pp) d1 (h_opendir_end x d1) _ (end_quiet x d1) _ o1 0 _ S2 _); [repeat constructor|]. intros j path. reflexivity.
  - assert (o1 = []) as ->. { eapply quiet_shape; [|exact S1]. cbv beta iota. destruct (e =? ENOTCONN); constructor. }
    change (b_opendir (table_of [(KOpendir (backend_path pp'), AFail e)]) (backend_path pp)) with (Err e : res (list bytes * Z)). cbv beta iota. destruct (e =? ENOTCONN); [constructor; intros [|]; reflexivity|constructor].
Qed.
Lemma code_conc q wr bp o : no_backend q -> bcode q = inl (wr, bp) -> shape bp o -> exists p, code (fill q (table_of o)) = inl (wr, p) /\ peq p (conc bp o).
Proof.
  intros Hq E S. destruct q as [p n|x|x|q]; cbn [bcode] in E.
  - injection E as <- <-. eexists. split; [reflexivity|]. apply lookup_conc; exact S.
  - injection E as <- <-. eexists. split; [reflexivity|]. apply readlink_conc; exact S.
  - injection E as <- <-. eexists. split; [reflexivity|]. apply opendir_conc; exact S.
  - cbn [fill]. destruct (code q) as [[wr' p]|l]; [|discriminate E]. injection E as <- <-. eexists. split; [reflexivity|]. apply peq_emb.
Qed.
Lemma code_none q l b : bcode q = inr l -> code (fill q b) = inr l.
Proof. destruct q as [p n|x|x|q]; cbn [bcode fill]; try discriminate. destruct (code q) as [[wr p]|l']; [discriminate|]. congruence. Qed.

(** ** The simulation *)
Inductive trel (i : Z) (T : list blabel) : option bthread -> option thread -> Prop :=
| tr_none : trel i T None None
| tr_close d : trel i T (Some (BTClose d)) None
| tr_wait q : no_backend q -> trel i T (Some (BWait q)) (Some (TWait (fill q (table_of (future i T)))))
| tr_run q wr past d rw p p' : peq p' (conc p (future i T)) -> trel i T (Some (BRun q wr past d rw p)) (Some (TRun (fill q (table_of (past ++ future i T))) wr d rw p'))
| tr_unlock l od : trel i T (Some (BTUnlock l od)) (Some (TUnlock l))
| tr_reply l od : trel i T (Some (BTReply l od)) (Some (TReply l))
| tr_drop1 wr : trel i T (Some (BTDrop1 wr)) (Some (TDrop1 wr))
| tr_drop2 wr : trel i T (Some (BTDrop2 wr)) (Some (TDrop2 wr)).
Definition brel {Y} (w : bworld Y) (T : list blabel) (c : cworld) : Prop :=
  c = CW (b_comm w) (b_refs w) (b_mutex w) (b_lock w) (Conc.w_th c) /\ forall i, trel i T (b_th w !! i) (Conc.w_th c !! i).
Lemma trel_future i T T' a b : future i T = future i T' -> trel i T a b -> trel i T' a b.
Proof. intros E H. destruct H as [| |q Hq|q wr past d rw p p' Hp| | | |]; try constructor; [rewrite E; constructor; exact Hq|rewrite E; constructor; rewrite <- E; exact Hp]. Qed.
(** a label that is not thread [i]'s *)
Definition others_label (i : Z) (l : blabel) : Prop := match l with XCall j _ | XRet j _ | XBack j _ _ => j <> i | XKill _ => False | XTau => True end.
Lemma future_other i l T : others_label i l -> future i (bseen l ++ T) = future i T.
Proof. destruct l; cbn [others_label bseen app future]; try tauto; intros H; apply Z.eqb_neq in H; rewrite H; reflexivity. Qed.

Section sim.
  Context {Y : Type} (B : machine Y) (env : Y -> Y -> Prop).
  Lemma future_done w T w' : brun B env w T w' -> forall i l od, b_th w !! i = Some (BTUnlock l od) \/ b_th w !! i = Some (BTReply l od) -> future i T = [].
  Proof.
    intros H. induction H as [w|w lb w1 T w' Hs Hr IH]; intros j l0 od0 Ej; [reflexivity|].
    assert (Ho : others_label j lb -> b_th w1 !! j = b_th w !! j -> future j (bseen lb ++ T) = []).
    { intros Ol E1. rewrite future_other by exact Ol. eapply IH. rewrite E1. exact Ej. }
    destruct Hs; cbn [b_th] in *; cbn [bseen app] in *;
    try (destruct (decide (i = j)) as [->|Hij]; [match goal with H1 : ?th !! j = _ |- _ => rewrite H1 in Ej; try (destruct Ej as [Ej|Ej]; discriminate Ej) end|
      apply Ho; [cbn; auto|first [rewrite lookup_insert_ne by exact Hij; reflexivity|rewrite lookup_delete_ne by exact Hij; reflexivity|destruct od; [rewrite lookup_insert_ne by exact Hij; reflexivity|rewrite lookup_delete_ne by exact Hij; reflexivity]]]]).
    - eapply IH. right. apply lookup_insert.
    - cbn [future]. rewrite Z.eqb_refl. reflexivity.
    - reflexivity.
    - eapply IH. exact Ej.
  Qed.
  (** the calls that are still to come are calls of the program *)
  Lemma future_shape w T w' : well_typed B -> brun B env w T w' -> forall i q wr past d rw p, b_th w !! i = Some (BRun q wr past d rw p) -> shape p (future i T).
  Proof.
    intros HB H. induction H as [w|w l w1 T w' Hs Hr IH]; intros j q wr past d rw p Ej; [constructor|].
    assert (Ho : others_label j l -> b_th w1 !! j = b_th w !! j -> shape p (future j (bseen l ++ T))).
    { intros Ol E1. rewrite future_other by exact Ol. eapply IH. rewrite E1. exact Ej. }
    destruct Hs; cbn [b_th] in *; cbn [bseen app] in *;
      try (destruct (decide (i = j)) as [->|Hij]; [match goal with H1 : ?th !! j = _ |- _ => rewrite H1 in Ej; try discriminate Ej; injection Ej as <- <- <- <- <- <- end|
        apply Ho; [cbn; auto|first [rewrite lookup_insert_ne by exact Hij; reflexivity|rewrite lookup_delete_ne by exact Hij; reflexivity|destruct od; [rewrite lookup_insert_ne by exact Hij; reflexivity|rewrite lookup_delete_ne by exact Hij; reflexivity]]]]).
    - econstructor. eapply IH. apply lookup_insert.
    - econstructor. eapply IH. apply lookup_insert.
    - econstructor. eapply IH. apply lookup_insert.
    - cbn [future]. rewrite Z.eqb_refl. econstructor; [eassumption|eapply HB; eassumption|]. eapply IH. apply lookup_insert.
    - erewrite (future_done _ _ _ Hr); [constructor|]. left. apply lookup_insert.
    - erewrite (future_done _ _ _ Hr); [constructor|]. left. apply lookup_insert.
    - cbn [future]. rewrite Z.eqb_refl. constructor.
    - constructor.
    - eapply IH. exact Ej.
  Qed.
  Lemma trel_frame (i : Z) T0 T (th th1 : gmap Z bthread) (tc tc1 : gmap Z thread) : (forall j, trel j T0 (th !! j) (tc !! j)) -> (forall j, j <> i -> future j T0 = future j T) ->
    (forall j, j <> i -> th1 !! j = th !! j) -> (forall j, j <> i -> tc1 !! j = tc !! j) -> trel i T (th1 !! i) (tc1 !! i) -> forall j, trel j T (th1 !! j) (tc1 !! j).
  Proof.
    intros H Hl H1 H2 Hi j. destruct (decide (j = i)) as [->|Hj]; [exact Hi|]. rewrite H1, H2 by exact Hj. eapply trel_future; [|apply H]. apply Hl, Hj.
  Qed.
  Ltac frame i HT := cbn [Conc.w_th b_th]; eapply (trel_frame i); [exact HT|intros jj Hjj; cbn [future]; repeat rewrite (proj2 (Z.eqb_neq i jj)) by congruence; reflexivity|intros jj Hjj; rewrite ?lookup_insert_ne, ?lookup_delete_ne by congruence; reflexivity|intros jj Hjj; rewrite ?lookup_insert_ne, ?lookup_delete_ne by congruence; reflexivity|rewrite ?lookup_insert, ?lookup_delete].
  (** one step is one step of Conc.v, or none *)
  Lemma sim_bstep w lb w1 T w' cw : well_typed B -> bstep B env w lb w1 -> brun B env w1 T w' -> brel w (bseen lb ++ T) cw ->
    exists lab c1, labels (bseen lb ++ T) = lab ++ labels T /\ crun cw lab c1 /\ brel w1 T c1.
  Proof.
    intros HB Hs Hr [Ec HT]. remember (Conc.w_th cw) as tc eqn:Etc0. clear Etc0. subst cw. destruct Hs; cbn [b_comm b_refs b_mutex b_lock b_th] in HT |- *;
      try (match goal with H1 : ?mm !! ?i = _ |- _ => pose proof (HT i) as Hi; rewrite H1 in Hi; inversion Hi; subst; match goal with H2 : _ = tc !! _ |- _ => symmetry in H2; rename H2 into Etc end end); cbn [bseen app] in *.
    - (* call *) eexists [_], _. split; [reflexivity|]. split; [apply (crun_one _ (LCall i (fill q (table_of (future i T))))); constructor; exact Etc|]. split; [reflexivity|]. frame i HT. constructor. assumption.
    - (* none *) eexists [], _. split; [reflexivity|]. split; [apply (crun_one _ LTau); eapply cs_none; [exact Etc|apply code_none; eassumption]|]. split; [reflexivity|]. frame i HT. constructor.
    - (* begin *) assert (Sh : shape p (future i T)) by (eapply future_shape; [exact HB|exact Hr|apply lookup_insert]). destruct (code_conc q true p (future i T)) as (p' & Ec & Hp); [assumption..|].
      eexists [], _. split; [reflexivity|]. split; [apply (crun_one _ LTau); eapply cs_begin_rw; [exact Etc|exact Ec]|]. split; [reflexivity|]. frame i HT. exact (tr_run i T q true [] _ None p p' Hp).
    - assert (Sh : shape p (future i T)) by (eapply future_shape; [exact HB|exact Hr|apply lookup_insert]). destruct (code_conc q false p (future i T)) as (p' & Ec & Hp); [assumption..|].
      eexists [], _. split; [reflexivity|]. split; [apply (crun_one _ LTau); eapply cs_begin_ro; [exact Etc|exact Ec]|]. split; [reflexivity|]. frame i HT. exact (tr_run i T q false [] _ None p p' Hp).
    - (* read *) match goal with H2 : peq _ (conc (BRead _) _) |- _ => cbn [conc] in H2; inversion H2; subst end.
      eexists [], _. split; [reflexivity|]. split; [apply (crun_one _ LTau); eapply cs_read; exact Etc|]. split; [reflexivity|]. frame i HT. constructor. auto.
    - (* op *) match goal with H2 : peq _ (conc (BOp _ _) _) |- _ => cbn [conc] in H2; inversion H2; subst end.
      eexists [], _. split; [reflexivity|]. split; [apply (crun_one _ LTau); eapply cs_op; eassumption|]. split; [reflexivity|]. frame i HT. constructor. auto.
    - match goal with H2 : peq _ (conc (BOp _ _) _) |- _ => cbn [conc] in H2; inversion H2; subst end.
      eexists [], _. split; [reflexivity|]. split; [apply (crun_one _ LTau); eapply cs_op_refs; eassumption|]. split; [reflexivity|]. frame i HT. constructor. auto.
    - (* back *) eexists [], _. split; [reflexivity|]. split; [constructor|]. split; [reflexivity|]. frame i HT. rewrite Etc. cbn [future] in *. rewrite Z.eqb_refl in *.
      replace (past ++ (ca, a) :: future i T) with ((past ++ [(ca, a)]) ++ future i T) by (rewrite <- app_assoc; reflexivity). constructor. erewrite <- conc_about by eassumption. assumption.
    - (* commit *) match goal with H2 : peq _ (conc (BCommit _ _) _) |- _ => cbn [conc] in H2; inversion H2 as [| |kk kk' Hkk| |]; subst end.
      eexists [], _. split; [reflexivity|]. split; [apply (crun_one _ LTau); eapply cs_commit_rw; exact Etc|]. split; [reflexivity|]. frame i HT. rewrite Hkk. constructor.
    - match goal with H2 : peq _ (conc (BCommit _ _) _) |- _ => cbn [conc] in H2; inversion H2 as [| |kk kk' Hkk| |]; subst end.
      eexists [], _. split; [reflexivity|]. split; [apply (crun_one _ LTau); eapply cs_commit_ro; exact Etc|]. split; [reflexivity|]. frame i HT. rewrite Hkk. constructor.
    - eexists [], _. split; [reflexivity|]. split; [apply (crun_one _ LTau); eapply cs_unlock; exact Etc|]. split; [reflexivity|]. frame i HT. constructor.
    - (* reply *) eexists [_], _. split; [reflexivity|]. split; [apply (crun_one _ (LRet i l)); apply cs_reply; exact Etc|]. split; [reflexivity|]. destruct od; frame i HT; constructor.
    - (* close *) eexists [], _. split; [reflexivity|]. split; [constructor|]. split; [reflexivity|]. frame i HT. rewrite Etc. constructor.
    - match goal with H2 : peq _ (conc (BDrop _) _) |- _ => cbn [conc] in H2; inversion H2; subst end.
      eexists [_], _. split; [reflexivity|]. split; [apply (crun_one _ (LRet i l)); eapply cs_drop; exact Etc|]. split; [reflexivity|]. frame i HT. constructor.
    - eexists [], _. split; [reflexivity|]. split; [apply (crun_one _ LTau); eapply cs_drop1; exact Etc|]. split; [reflexivity|]. frame i HT. constructor.
    - eexists [], _. split; [reflexivity|]. split; [apply (crun_one _ LTau); eapply cs_drop2; exact Etc|]. split; [reflexivity|]. frame i HT. constructor.
    - (* kill *) eexists [_], _. split; [reflexivity|]. split; [apply (crun_one _ (LKill root)); apply cs_kill; eassumption|]. split; [reflexivity|]. intros i. cbn [Conc.w_th b_th]. rewrite !lookup_empty. constructor.
    - (* somebody else *) eexists [], _. split; [reflexivity|]. split; [constructor|]. split; [reflexivity|]. exact HT.
  Qed.
  Lemma sim_brun w T w' : well_typed B -> brun B env w T w' -> forall c, brel w T c -> exists c', crun c (labels T) c' /\ brel w' [] c'.
  Proof.
    intros HB H. induction H as [w|w l w1 T w' Hs Hr IH]; intros c R; [exists c; split; [constructor|exact R]|].
    destruct (sim_bstep w l w1 T w' c HB Hs Hr R) as (lab & c1 & -> & H1 & R1). destruct (IH c1 R1) as (c' & H2 & R2). exists c'. split; [eapply crun_trans; eassumption|exact R2].
  Qed.
End sim.

(** ** Every schedule is one of Conc.v's, with the table of the answers each request gets *)
Theorem C78_schedule : forall Y (B : machine Y) env root y0 w0 T w, well_typed B -> bopen root y0 = Done w0 -> brun B env w0 T w ->
  exists c0 c, copen root = Done c0 /\ crun c0 (labels T) c /\ Conc.w_comm c = b_comm w /\ Conc.w_refs c = b_refs w /\ (b_th w = ∅ -> Conc.w_th c = ∅).
Proof.
  intros Y B env root y0 w0 T w HB Ho H. unfold bopen in Ho. unfold copen. destruct (open_cache root db_empty) as [[d r]| | |]; try discriminate Ho. injection Ho as <-.
  destruct (sim_brun B env _ _ _ HB H (CW d r None None ∅)) as (c & Hc & Ec & Ht).
  - split; [reflexivity|]. intros i. cbn [b_th Conc.w_th]. rewrite !lookup_empty. constructor.
  - exists (CW d r None None ∅), c. split; [reflexivity|]. split; [exact Hc|]. rewrite Ec. split; [reflexivity|]. split; [reflexivity|]. intros E. cbn [Conc.w_th]. apply map_eq. intros i. specialize (Ht i). rewrite E, lookup_empty in Ht. rewrite lookup_empty. inversion Ht. reflexivity.
Qed.
Print Assumptions C78_schedule.
(** ... and so every request takes effect at one moment: the object of C53. *)
Theorem C78_linearizable : forall Y (B : machine Y) env root y0 w0 T w, well_typed B -> bopen root y0 = Done w0 -> brun B env w0 T w ->
  exists a0 a, aopen root = Done a0 /\ arun a0 (labels T) a /\ b_comm w = s_db (a_s a) /\ (b_th w = ∅ -> b_refs w = s_refs (a_s a) /\ a_pend a = ∅).
Proof.
  intros Y B env root y0 w0 T w HB Ho H. destruct (C78_schedule _ _ _ _ _ _ _ _ HB Ho H) as (c0 & c & Hc0 & Hc & E1 & E2 & E3). destruct (C53_linearizable _ _ _ _ Hc0 Hc) as (a0 & a & Ha0 & Ha & E4 & E5).
  exists a0, a. rewrite <- E1, <- E2. auto 10.
Qed.
Print Assumptions C78_linearizable.

(** ** The backend serves one request at a time *)
Section exclusive.
  Context {Y : Type} (B : machine Y) (env : Y -> Y -> Prop).
  Definition writes (t : bthread) : bool := match t with BRun _ wr _ _ _ _ | BTDrop1 wr | BTDrop2 wr => wr | _ => false end.
  Definition mute (t : bthread) : Prop := match t with BRun _ false _ _ _ p => quiet p | _ => True end.
  Definition binv (w : bworld Y) : Prop := forall i t, b_th w !! i = Some t -> (writes t = true -> b_lock w = Some i) /\ mute t.
  Lemma binv_upd c r m k th y i t c' r' m' k' y' : binv (BW c r m k th y) -> (forall j, j <> i -> k = Some j -> k' = Some j) -> (writes t = true -> k' = Some i) -> mute t ->
    binv (BW c' r' m' k' (<[i := t]> th) y').
  Proof.
    intros HI Hk H1 H2 j u. cbn [b_th b_lock]. destruct (decide (j = i)) as [->|Hj]; [rewrite lookup_insert; intros E; injection E as <-; auto|]. rewrite lookup_insert_ne by congruence. intros E. destruct (HI j u E) as [I1 I2]. cbn [b_lock] in I1. auto.
  Qed.
  Lemma binv_del c r m k th y i c' r' m' k' y' : binv (BW c r m k th y) -> (forall j, j <> i -> k = Some j -> k' = Some j) -> binv (BW c' r' m' k' (delete i th) y').
  Proof.
    intros HI Hk j u. cbn [b_th b_lock]. destruct (decide (j = i)) as [->|Hj]; [rewrite lookup_delete; discriminate|]. rewrite lookup_delete_ne by congruence. intros E. destruct (HI j u E) as [I1 I2]. cbn [b_lock] in I1. auto.
  Qed.
  Lemma ro_quiet q p : bcode q = inl (false, p) -> quiet p.
  Proof. destruct q as [p0 n|x|x|q]; cbn [bcode]; try discriminate. destruct (code q) as [[wr p']|]; [|discriminate]. intros E. injection E as -> <-. apply quiet_emb. Qed.
  Lemma quiet_calls p c f : quiet p -> about_to p = Some (c, f) -> False.
  Proof. intros Q. destruct Q; discriminate. Qed.
  Lemma binv_step w l w1 : bstep B env w l w1 -> binv w -> binv w1.
  Proof.
    intros Hs HI. destruct Hs;
      try (match goal with H1 : ?mm !! ?i = Some ?t |- _ => destruct (HI i t H1) as [I1 I2]; cbn [b_lock writes mute] in I1, I2 end);
      try (eapply binv_upd; [exact HI|auto|cbn [writes]; auto; try discriminate|cbn [mute]; auto]; fail).
    - eapply binv_upd; [exact HI|discriminate|auto|exact I].
    - eapply binv_upd; [exact HI|auto|discriminate|]. cbn [mute]. eapply ro_quiet; eassumption.
    - eapply binv_upd; [exact HI|auto|exact I1|]. destruct wr; cbn [mute] in *; [exact I|]. inversion I2; auto.
    - eapply binv_upd; [exact HI|auto|exact I1|]. destruct wr; cbn [mute] in *; [exact I|]. inversion I2; auto.
    - eapply binv_upd; [exact HI|auto|exact I1|]. destruct wr; cbn [mute] in *; [exact I|]. inversion I2; auto.
    - eapply binv_upd; [exact HI|auto|exact I1|]. destruct wr; cbn [mute] in *; [exact I|]. destruct (quiet_calls _ _ _ I2 H0).
    - eapply binv_upd; [exact HI| |discriminate|exact I]. intros j Hj E. rewrite (I1 eq_refl) in E. congruence.
    - destruct od; [eapply binv_upd; [exact HI|auto|discriminate|exact I]|eapply binv_del; [exact HI|auto]].
    - eapply binv_del; [exact HI|auto].
    - eapply binv_del; [exact HI|]. intros j Hj E. destruct wr; [rewrite (I1 eq_refl) in E; congruence|exact E].
    - intros j u. cbn [b_th]. rewrite lookup_empty. discriminate.
    - intros j u E. exact (HI j u E).
  Qed.
  Lemma binv_run w T w' : brun B env w T w' -> binv w -> binv w'.
  Proof. induction 1; eauto using binv_step. Qed.
  Lemma brun_trans w T w1 T' w' : brun B env w T w1 -> brun B env w1 T' w' -> brun B env w (T ++ T') w'.
  Proof. induction 1; intros H2; [exact H2|]. rewrite <- app_assoc. econstructor; eauto. Qed.
  Lemma brun_cons w T0 w' : brun B env w T0 w' -> forall l T, T0 = l :: T -> exists wa wb, brun B env w [] wa /\ bstep B env wa l wb /\ brun B env wb T w' /\ bseen l = [l].
  Proof.
    induction 1 as [w|w l0 w1 T1 w' Hs Hr IH]; intros l T E; [discriminate|].
    assert (Hcase : (l0 = XTau /\ T1 = l :: T) \/ (l0 = l /\ T1 = T /\ bseen l = [l])) by (destruct l0; cbn [bseen app] in E; [right; injection E as <- <-; auto..|left; auto]).
    destruct Hcase as [[-> ->]|(-> & -> & El)].
    - destruct (IH l T eq_refl) as (wa & wb & H1 & H2 & H3 & H4). exists wa, wb. split; [|auto]. exact (brun_step B env w XTau w1 [] wa Hs H1).
    - exists w, w1. split; [constructor|]. auto.
  Qed.
  Lemma brun_app T1 : forall w T2 w', brun B env w (T1 ++ T2) w' -> exists m, brun B env w T1 m /\ brun B env m T2 w'.
  Proof.
    induction T1 as [|l T1 IH]; intros w T2 w' H; [exists w; split; [constructor|exact H]|].
    destruct (brun_cons _ _ _ H l (T1 ++ T2) eq_refl) as (wa & wb & Ha & Hs & Hr & El). destruct (IH _ _ _ Hr) as (m & H1 & H2). exists m. split; [|exact H2].
    pose proof (brun_step B env _ _ _ _ _ Hs H1) as H3. rewrite El in H3. exact (brun_trans _ [] _ _ _ Ha H3).
  Qed.
  (** thread [i] is in a writing transaction; or past it, and has not replied *)
  Definition inside (i : Z) (w : bworld Y) : Prop := exists q past d rw p, b_th w !! i = Some (BRun q true past d rw p).
  Definition past_it (i : Z) (w : bworld Y) : Prop := exists l od, b_th w !! i = Some (BTUnlock l od) \/ b_th w !! i = Some (BTReply l od).
  (** the request of [i] goes on: no reply of [i], no kill *)
  Definition goes_on_with (i : Z) (l : blabel) : Prop := match l with XRet j _ => j <> i | XKill _ => False | _ => True end.
  Lemma stage_step i w l w1 : bstep B env w l w1 -> goes_on_with i l -> (past_it i w -> past_it i w1) /\ (inside i w -> inside i w1 \/ past_it i w1).
  Proof.
    intros Hs Hl.
    assert (Hsame : b_th w1 !! i = b_th w !! i -> (past_it i w -> past_it i w1) /\ (inside i w -> inside i w1 \/ past_it i w1)).
    { intros E. unfold past_it, inside. rewrite E. auto. }
    destruct Hs; cbn [goes_on_with] in Hl; try contradiction; try (apply Hsame; reflexivity);
      match goal with H1 : ?mm !! ?j = _ |- _ => destruct (decide (j = i)) as [->|Hj]; [|apply Hsame; cbn [b_th]; first [rewrite lookup_insert_ne by exact Hj; reflexivity|rewrite lookup_delete_ne by exact Hj; reflexivity|destruct od; [rewrite lookup_insert_ne by exact Hj; reflexivity|rewrite lookup_delete_ne by exact Hj; reflexivity]]] end;
      try congruence; unfold past_it, inside; cbn [b_th]; rewrite ?lookup_insert;
      match goal with H1 : ?mm !! i = _ |- _ => rewrite H1 end; (split; [intros (l1 & od1 & [E|E]); try discriminate E; eauto|intros (q1 & past1 & d1 & rw1 & p1 & E); try discriminate E; inversion E; subst; eauto 10]).
  Qed.
  Lemma stage_run i w T w' : brun B env w T w' -> Forall (goes_on_with i) T -> (past_it i w -> past_it i w') /\ (inside i w -> inside i w' \/ past_it i w').
  Proof.
    induction 1 as [w|w l w1 T w' Hs Hr IH]; intros HF; [auto|]. apply Forall_app in HF as [H1 H2]. destruct (IH H2) as [I1 I2].
    assert (Hl : goes_on_with i l) by (destruct l; cbn [bseen] in H1; try (inversion H1; assumption); exact I). destruct (stage_step i _ _ _ Hs Hl) as [S1 S2]. split; [auto|]. intros Hi. destruct (S2 Hi); auto.
  Qed.
  Definition serving (c : bcall) : Prop := match c with KDestroyDir _ => False | _ => True end.
  Lemma back_inside w i c a w1 : bstep B env w (XBack i c a) w1 -> serving c -> binv w -> inside i w /\ b_lock w = Some i /\ inside i w1.
  Proof.
    intros Hs Hc HI. inversion Hs as [| | | | | | |c0 r m k th y i0 q wr past d rw p ca f a0 y' Ht Ha Hm| | | | |c0 r m k th y i0 d a0 y' Ht Hm| | | | |]; subst; [|destruct Hc].
    destruct (HI i _ Ht) as [I1 I2]. cbn [writes mute] in I1, I2. destruct wr; [|destruct (quiet_calls _ _ _ I2 Ha)].
    split; [do 5 eexists; exact Ht|]. split; [exact (I1 eq_refl)|]. do 5 eexists. cbn [b_th]. apply lookup_insert.
  Qed.
  Lemma exclusive_run w0 T1 i c a T2 j c' a' T3 c2 a2 T4 w : binv w0 -> brun B env w0 (T1 ++ XBack i c a :: T2 ++ XBack j c' a' :: T3 ++ XBack i c2 a2 :: T4) w ->
    serving c -> serving c' -> serving c2 -> Forall (goes_on_with i) T2 -> Forall (goes_on_with i) T3 -> j = i.
  Proof.
    intros HI H S1 S2 S3 F1 F2. apply brun_app in H as (m1 & R1 & H). destruct (brun_cons _ _ _ H _ _ eq_refl) as (a1 & b1 & R2 & St1 & H' & _).
    apply brun_app in H' as (m2 & R3 & H'). destruct (brun_cons _ _ _ H' _ _ eq_refl) as (a3 & b3 & R4 & St2 & H2 & _).
    apply brun_app in H2 as (m4 & R5 & H2). destruct (brun_cons _ _ _ H2 _ _ eq_refl) as (a5 & b5 & R6 & St3 & _ & _).
    pose proof (binv_run _ _ _ R2 (binv_run _ _ _ R1 HI)) as I1. destruct (back_inside _ _ _ _ _ St1 S1 I1) as (_ & _ & In1).
    pose proof (binv_run _ _ _ R4 (binv_run _ _ _ R3 (binv_step _ _ _ St1 I1))) as I2. destruct (back_inside _ _ _ _ _ St2 S2 I2) as (_ & L2 & _).
    pose proof (binv_run _ _ _ R6 (binv_run _ _ _ R5 (binv_step _ _ _ St2 I2))) as I3. destruct (back_inside _ _ _ _ _ St3 S3 I3) as (In3 & _ & _).
    pose proof (brun_trans _ _ _ _ _ R3 R4) as R34. rewrite app_nil_r in R34. pose proof (brun_trans _ _ _ _ _ R5 R6) as R56. rewrite app_nil_r in R56.
    destruct (proj2 (stage_run i _ _ _ R34 F1) In1) as [(q & past & d & rw & p & E)|Hp].
    - destruct (I2 i _ E) as [E1 _]. rewrite (E1 eq_refl) in L2. congruence.
    - pose proof (proj1 (stage_step i _ _ _ St2 I) Hp) as Hp1. pose proof (proj1 (stage_run i _ _ _ R56 F2) Hp1) as (l & od & [E|E]); destruct In3 as (q & past & d & rw & p & E'); rewrite E in E'; discriminate E'.
  Qed.
End exclusive.
(** Between two calls of one request nobody else's request calls lstat, readlink, opendir or readdir. *)
Theorem C78_exclusive : forall Y (B : machine Y) env root y0 w0 T1 i c a T2 j c' a' T3 c2 a2 T4 w, bopen root y0 = Done w0 ->
  brun B env w0 (T1 ++ XBack i c a :: T2 ++ XBack j c' a' :: T3 ++ XBack i c2 a2 :: T4) w ->
  serving c -> serving c' -> serving c2 -> Forall (goes_on_with i) T2 -> Forall (goes_on_with i) T3 -> j = i.
Proof.
  intros Y B env root y0 w0 T1 i c a T2 j c' a' T3 c2 a2 T4 w Ho. apply exclusive_run. unfold bopen in Ho. destruct (open_cache root db_empty) as [[d r]| | |]; try discriminate Ho. injection Ho as <-. intros x t. cbn [b_th]. rewrite lookup_empty. discriminate.
Qed.
Print Assumptions C78_exclusive.

(** ** The directory of a listing is closed after the reply, while others may be calling the backend. *)
Global Instance typed_dec c a : Decision (typed c a).
Proof. destruct c, a; try (left; exact I); right; intros N; exact N. Defined.
(** answers anything *)
Definition anything : machine unit := fun _ c a _ => typed c a.
Inductive choice := ChCall (i : Z) (q : breq) | ChStep (i : Z) | ChAnswer (i : Z) (a : bans).
Definition plainb (q : breq) : bool := match q with BPlain _ => false | _ => true end.
Section player.
Context {Y : Type} (B : machine Y) (mf : Y -> bcall -> bans -> option Y) (Hmf : forall y c a y', mf y c a = Some y' -> B y c a y').
Definition bexec (w : bworld Y) (ch : choice) : option (blabel * bworld Y) :=
  let '(BW c r m k th y) := w in
  match ch with
  | ChCall i q => if bool_decide (th !! i = None) && plainb q then Some (XCall i q, BW c r m k (<[i := BWait q]> th) y) else None
  | ChAnswer i a =>
    match th !! i with
    | Some (BRun q wr past d rw p) =>
      match about_to p with
      | Some (ca, f) => match mf y ca a with Some y' => Some (XBack i ca a, BW c r m k (<[i := BRun q wr (past ++ [(ca, a)]) d rw (f a)]> th) y') | None => None end
      | None => None
      end
    | Some (BTClose d) => match mf y (KDestroyDir d) a with Some y' => Some (XBack i (KDestroyDir d) a, BW c r m k (delete i th) y') | None => None end
    | _ => None
    end
  | ChStep i =>
    match th !! i with
    | Some (BWait q) => match bcode q, k with inl (true, p), None => Some (XTau, BW c r m (Some i) (<[i := BRun q true [] c None p]> th) y) | _, _ => None end
    | Some (BRun q true past d rw (BRead f)) => Some (XTau, BW c r m k (<[i := BRun q true past d rw (f d)]> th) y)
    | Some (BRun q true past d rw (BOp o f)) =>
      match opres (Tx d r [] rw) o with
      | Done (x, t) =>
        if uses_refs (Tx d r [] rw) o
        then if bool_decide (m = None \/ m = Some i) then Some (XTau, BW c (t_refs t) (Some i) k (<[i := BRun q true past (t_db t) (t_rw t) (f x)]> th) y) else None
        else Some (XTau, BW c (t_refs t) m k (<[i := BRun q true past (t_db t) (t_rw t) (f x)]> th) y)
      | _ => None
      end
    | Some (BRun q true past d rw (BCommit f od)) => Some (XTau, BW d r m None (<[i := BTUnlock (f (Ok tt)) od]> th) y)
    | Some (BTUnlock l od) => Some (XTau, BW c r (unlock i m) k (<[i := BTReply l od]> th) y)
    | Some (BTReply l od) => Some (XRet i l, BW c r m k (match od with Some d => <[i := BTClose d]> th | None => delete i th end) y)
    | _ => None
    end
  end.
Lemma bexec_ok w ch l w1 : bexec w ch = Some (l, w1) -> bstep B (fun _ _ => False) w l w1.
Proof.
  destruct w as [c r m k th y]. destruct ch as [i q|i|i a]; cbn [bexec].
  - destruct (bool_decide (th !! i = None) && plainb q) eqn:E; [|discriminate]. apply andb_prop in E as [E1 E2]. apply bool_decide_eq_true_1 in E1. intros H. injection H as <- <-. constructor; [exact E1|]. destruct q; try exact I. discriminate E2.
  - destruct (th !! i) as [[q|q [] past d rw p|l0 od|l0 od|d|wr|wr]|] eqn:Et; try discriminate.
    + destruct (bcode q) as [[[] p]|] eqn:Ec; try discriminate. destruct k; [discriminate|]. intros H. injection H as <- <-. eapply bs_begin_rw; eassumption.
    + destruct p; try discriminate.
      * intros H. injection H as <- <-. eapply bs_read; eassumption.
      * destruct (opres (Tx d r [] rw) o) as [[x t]| | |] eqn:Eo; try discriminate. destruct (uses_refs (Tx d r [] rw) o) eqn:Eu.
        -- case_bool_decide as Em; [|discriminate]. intros H. injection H as <- <-. eapply bs_op_refs; try eassumption. left; reflexivity.
        -- intros H. injection H as <- <-. eapply bs_op; try eassumption. left; reflexivity.
      * intros H. injection H as <- <-. eapply bs_commit_rw; eassumption.
    + intros H. injection H as <- <-. eapply bs_unlock; eassumption.
    + intros H. injection H as <- <-. apply bs_reply; assumption.
  - destruct (th !! i) as [[q|q wr past d rw p|l0 od|l0 od|d|wr|wr]|] eqn:Et; try discriminate.
    + destruct (about_to p) as [[ca f]|] eqn:Ea; [|discriminate]. destruct (mf y ca a) as [y'|] eqn:Hty; [|discriminate]. intros H. injection H as <- <-. eapply bs_back; eauto.
    + destruct (mf y (KDestroyDir d) a) as [y'|] eqn:Hty; [|discriminate]. intros H. injection H as <- <-. eapply bs_close; eauto.
Qed.
Fixpoint bexecs (w : bworld Y) (cs : list choice) : option (list blabel * bworld Y) :=
  match cs with
  | [] => Some ([], w)
  | ch :: cs => match bexec w ch with Some (l, w1) => match bexecs w1 cs with Some (T, w2) => Some (bseen l ++ T, w2) | None => None end | None => None end
  end.
Lemma bexecs_ok cs : forall w T w', bexecs w cs = Some (T, w') -> brun B (fun _ _ => False) w T w'.
Proof.
  induction cs as [|ch cs IH]; intros w T w' E; cbn [bexecs] in E; [injection E as <- <-; constructor|]. destruct (bexec w ch) as [[l w1]|] eqn:E1; [|discriminate]. destruct (bexecs w1 cs) as [[T1 w2]|] eqn:E2; [|discriminate]. injection E as <- <-.
  econstructor; [exact (bexec_ok _ _ _ _ E1)|exact (IH _ _ _ E2)].
Qed.
End player.
Definition accept (y : unit) (c : bcall) (a : bans) : option unit := if bool_decide (typed c a) then Some y else None.
Lemma accept_ok y c a y' : accept y c a = Some y' -> anything y c a y'.
Proof. unfold accept. case_bool_decide; [auto|discriminate]. Qed.
(** the backend's calls and the replies, in the order of time *)
Definition told_of (T : list blabel) : list (Z * option bcall) := omap (fun l => match l with XBack i c _ => Some (i, Some c) | XRet i _ => Some (i, None) | _ => None end) T.
Definition cs78 : list choice :=
  [ChCall 1 (BOpendir 1); ChCall 2 (BLookup 1 nD); ChStep 1; ChStep 1; ChAnswer 1 (ADir 3); ChStep 1; ChAnswer 1 (AFail 0); ChStep 1; ChStep 1; ChStep 1; ChStep 1; ChStep 1;
   ChStep 2; ChStep 2; ChAnswer 2 (AStat dirA); ChAnswer 1 AVoid; ChStep 2; ChStep 2; ChStep 2; ChStep 2; ChStep 2].
Definition told78 : list (Z * option bcall) := [(1, Some (KOpendir [47])); (1, Some (KReaddir 3)); (1, None); (2, Some (KLstat pD)); (1, Some (KDestroyDir 3)); (2, None)].
Definition check78 : bool :=
  match bopen rootA tt with
  | Done w0 => match bexecs accept w0 cs78 with Some (T, w) => bool_decide (told_of T = told78) && bool_decide (dom (b_th w) = (∅ : gset Z)) | None => false end
  | _ => false
  end.
(** Request 1 lists the root and replies; request 2 calls the backend; the directory of request 1 is
    closed only then. *)
Theorem C78_late_close : exists w0 T w, bopen rootA tt = Done w0 /\ brun anything (fun _ _ => False) w0 T w /\ told_of T = told78 /\ dom (b_th w) = (∅ : gset Z).
Proof.
  assert (H : check78 = true) by (vm_compute; reflexivity). revert H. unfold check78. destruct (bopen rootA tt) as [w0| | |]; try discriminate. destruct (bexecs accept w0 cs78) as [[T w]|] eqn:E; [|discriminate]. intros H. apply andb_prop in H as [H1 H2].
  exists w0, T, w. split; [reflexivity|]. split; [exact (bexecs_ok anything accept accept_ok _ _ _ _ E)|]. split; [exact (bool_decide_eq_true_1 _ H1)|exact (bool_decide_eq_true_1 _ H2)].
Qed.
Print Assumptions C78_late_close.
(** ... and with the hypotheses of C78_exclusive: opendir, readdir, lstat of one request (T1, T2, T3 are empty). *)
Definition cs78b : list choice := [ChCall 1 (BOpendir 1); ChStep 1; ChStep 1; ChAnswer 1 (ADir 3); ChStep 1; ChAnswer 1 (AEntry nD); ChAnswer 1 (AStat dirA)].
Definition check78b : bool :=
  match bopen rootA tt with
  | Done w0 => match bexecs accept w0 cs78b with
    | Some ([XCall i0 _; XBack i1 c1 a1; XBack i2 c2 a2; XBack i3 c3 a3], w) => bool_decide (i1 = 1 /\ i2 = 1 /\ i3 = 1 /\ c1 = KOpendir [47] /\ c2 = KReaddir 3 /\ c3 = KLstat pD)
    | _ => false end
  | _ => false
  end.
Example C78_exclusive_sample : exists w0 q a1 a2 a3 w i, bopen rootA tt = Done w0 /\
  brun anything (fun _ _ => False) w0 ([XCall i q] ++ XBack 1 (KOpendir [47]) a1 :: [] ++ XBack 1 (KReaddir 3) a2 :: [] ++ XBack 1 (KLstat pD) a3 :: []) w /\
  serving (KOpendir [47]) /\ serving (KReaddir 3) /\ serving (KLstat pD) /\ Forall (goes_on_with 1) [].
Proof.
  assert (H : check78b = true) by (vm_compute; reflexivity). revert H. unfold check78b. destruct (bopen rootA tt) as [w0| | |]; try discriminate. destruct (bexecs accept w0 cs78b) as [[T w]|] eqn:E; [|discriminate]. apply (bexecs_ok anything accept accept_ok) in E. intros H.
  destruct T as [|[i0 q| | | |] [|[| | |i1 c1 a1|] [|[| | |i2 c2 a2|] [|[| | |i3 c3 a3|] [|? ?]]]]]; try discriminate H. apply bool_decide_eq_true_1 in H as (-> & -> & -> & -> & -> & ->).
  exists w0, q, a1, a2, a3, w, i0. split; [reflexivity|]. split; [exact E|]. repeat split. constructor.
Qed.
