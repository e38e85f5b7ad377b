(** Concrete schedules for the samples of PropsConc.v: a runner that checks every step of the
    threads (Conc.v) and every call of the kernel (ConcKernel.v). *)
From Verif Require Export PropsConc FsPlay.

Inductive act := XCall (i : Z) (q : creq) (w : Z) | XStep (i : Z) | XKill.
Definition freeb (i : Z) (m : option Z) : bool := match m with None => true | Some j => j =? i end.
(** the next step of thread [i], if it is not blocked *)
Definition xstep (c : cworld) (i : Z) : option (clabel * cworld) :=
  match c with CW c r m k th =>
  match th !! i with
  | Some (TWait q) =>
    match code q with
    | inr l => Some (LTau, CW c r m k (<[i := TReply l]> th))
    | inl (true, p) => match k with None => Some (LTau, CW c r m (Some i) (<[i := TRun q true c None p]> th)) | _ => None end
    | inl (false, p) => Some (LTau, CW c r m k (<[i := TRun q false c None p]> th))
    end
  | Some (TRun q wr d rw (PRead f)) => Some (LTau, CW c r m k (<[i := TRun q wr d rw (f d)]> th))
  | Some (TRun q wr d rw (POp o f)) =>
    if wr || reader_op o then
      match opres (Tx d r [] rw) o with
      | Done (x, t) =>
        if uses_refs (Tx d r [] rw) o then
          if freeb i m then Some (LTau, CW c (t_refs t) (Some i) k (<[i := TRun q wr (t_db t) (t_rw t) (f x)]> th)) else None
        else Some (LTau, CW c (t_refs t) m k (<[i := TRun q wr (t_db t) (t_rw t) (f x)]> th))
      | _ => None
      end
    else None
  | Some (TRun q wr d rw (PCommit f)) =>
    if wr : bool then Some (LTau, CW d r m None (<[i := TUnlock (f (Ok tt))]> th))
    else Some (LTau, CW c r m k (<[i := TUnlock (f (Ok tt))]> th))
  | Some (TRun q wr d rw (PDrop l)) => Some (LRet i l, CW c r m k (<[i := TDrop1 wr]> th))
  | Some (TUnlock l) => Some (LTau, CW c r (unlock i m) k (<[i := TReply l]> th))
  | Some (TReply l) => Some (LRet i l, CW c r m k (delete i th))
  | Some (TDrop1 wr) => Some (LTau, CW c r (unlock i m) k (<[i := TDrop2 wr]> th))
  | Some (TDrop2 wr) => Some (LTau, CW c r m (if wr : bool then None else k) (delete i th))
  | _ => None
  end end.
Lemma freeb_ok i m : freeb i m = true -> free_for i m.
Proof. destruct m as [j|]; cbn; [|left; reflexivity]. intros H%Z.eqb_eq. subst. right. reflexivity. Qed.
Lemma xstep_ok c i l c' : xstep c i = Some (l, c') -> cstep c l c' /\ (l = LTau \/ exists r, l = LRet i r).
Proof.
  destruct c as [c r m k th]. cbn [xstep]. destruct (th !! i) as [[q|q wr d rw p|l0|l0|wr|wr]|] eqn:Ei; try discriminate.
  - destruct (code q) as [[[] p]|l1] eqn:Ec; [destruct k; [discriminate|]| |]; intros E; injection E as <- <-; (split; [|left; reflexivity]).
    + eapply cs_begin_rw; eassumption.
    + eapply cs_begin_ro; eassumption.
    + eapply cs_none; eassumption.
  - destruct p as [f|o f|f|l1|]; try discriminate.
    + intros E; injection E as <- <-. split; [|left; reflexivity]. eapply cs_read; eassumption.
    + destruct (wr || reader_op o) eqn:Ew; [|discriminate]. apply orb_true_iff in Ew.
      destruct (opres (Tx d r [] rw) o) as [[x t]| | |] eqn:Eo; try discriminate. destruct (uses_refs (Tx d r [] rw) o) eqn:Eu.
      * destruct (freeb i m) eqn:Ef; [|discriminate]. intros E; injection E as <- <-. split; [|left; reflexivity]. eapply cs_op_refs; eauto using freeb_ok.
      * intros E; injection E as <- <-. split; [|left; reflexivity]. eapply cs_op; eauto.
    + destruct wr; intros E; injection E as <- <-; (split; [|left; reflexivity]); [eapply cs_commit_rw|eapply cs_commit_ro]; eassumption.
    + intros E; injection E as <- <-. split; [|right; eauto]. eapply cs_drop; eassumption.
  - intros E; injection E as <- <-. split; [|left; reflexivity]. eapply cs_unlock; eassumption.
  - intros E; injection E as <- <-. split; [|right; eauto]. eapply cs_reply; eassumption.
  - intros E; injection E as <- <-. split; [|left; reflexivity]. eapply cs_drop1; eassumption.
  - intros E; injection E as <- <-. split; [|left; reflexivity]. eapply cs_drop2; eassumption.
Qed.
Definition works_inb (q : creq) : option Z := match q with CLookup _ p _ => Some p | COpendir _ p => Some p | _ => None end.
Definition may_callb (c : ckernel) (q : creq) : bool :=
  match works_inb q with Some x => kdirb (c_know c) x | None => true end &&
  match q with CForget x n => (0 <=? n) && (n <=? kcount (c_know c) x) | CForgetMulti _ => false | _ => true end &&
  forallb (fun iq => match works_inb (snd iq) with Some x => kdirb (know_call q (c_know c)) x | None => true end) (map_to_list (c_fly c)).
Definition cq_ok (q : creq) : Prop := match q with CLookup b _ _ | CReadlink b _ | COpendir b _ => backend_ok b | _ => True end.
Lemma works_inb_ok q x : works_in q x -> works_inb q = Some x.
Proof. destruct q; cbn; try contradiction; intros ->; reflexivity. Qed.
Lemma may_callb_ok c q : cq_ok q -> may_callb c q = true -> may_call c q.
Proof.
  unfold may_callb, may_call. intros Hq H. apply andb_true_iff in H as [H H3]. apply andb_true_iff in H as [H1 H2]. split; [|split].
  - intros x Hx%works_inb_ok. rewrite Hx in H1. apply kdirb_ok, H1.
  - destruct q; cbn in Hq, H2 |- *; try exact I; try exact Hq; try discriminate. apply andb_true_iff in H2 as [Ha Hb]. apply Z.leb_le in Ha. apply Z.leb_le in Hb. auto.
  - intros i q' x Hi Hx%works_inb_ok. rewrite forallb_forall in H3. specialize (H3 (i, q')). cbn [snd] in H3. rewrite Hx in H3. apply kdirb_ok, H3. apply elem_of_list_In, elem_of_map_to_list, Hi.
Qed.
Definition played := (cworld * list clabel * ckernel)%type.
Definition xplay1 (x : played) (a : act) : option played :=
  match x with (c, tr, ck) =>
  match a with
  | XCall i q w =>
    match c with CW c r m k th =>
    match th !! i, c_fly ck !! i with
    | None, None =>
      if may_callb ck q && (c_cost ck + w + 3 <? 2 ^ 63)
      then Some (CW c r m k (<[i := TWait q]> th), tr ++ [LCall i q],
                 CK (know_call q (c_know ck)) (<[i := q]> (c_fly ck)) (c_cost ck + w) (c_got ck) (c_asked ck ++ [q]))
      else None
    | _, _ => None
    end end
  | XStep i =>
    match xstep c i with
    | Some (LTau, c') => Some (c', tr, ck)
    | Some (LRet j l, c') =>
      match c_fly ck !! j with
      | Some q => Some (c', tr ++ [LRet j l], CK (know_reply q l (c_know ck)) (delete j (c_fly ck)) (c_cost ck) (c_got ck ++ [(q, l)]) (c_asked ck))
      | None => None
      end
    | _ => None
    end
  | XKill =>
    match open_cache rootA (Conc.w_comm c) with
    | Done (d, r') => Some (CW d r' None None ∅, tr ++ [LKill rootA], CK k0 ∅ (c_cost ck) (c_got ck) (c_asked ck))
    | _ => None
    end
  end end.
Fixpoint xplay (x : played) (l : list act) : option played :=
  match l with [] => Some x | a :: l => match xplay1 x a with Some x => xplay x l | None => None end end.
Definition act_ok (a : act) : Prop := match a with XCall _ q w => cq_ok q /\ costs q w | _ => True end.
Definition c_start : cworld := CW (s_db s_start) (s_refs s_start) None None ∅.
Lemma c_start_ok : copen rootA = Done c_start.
Proof. unfold copen, c_start, s_start. destruct (open_cache rootA db_empty) as [[d r]| | |] eqn:E; try (vm_compute in E; discriminate). reflexivity. Qed.
Lemma crun_snoc c0 tr c l c' : crun c0 tr c -> cstep c l c' -> crun c0 (tr ++ seen l) c'.
Proof. intros. econstructor; eassumption. Qed.
Lemma xplay1_ok x a x' : act_ok a -> xplay1 x a = Some x' ->
  crun c_start x.1.2 x.1.1 -> legal_trace x.1.2 x.2 -> crun c_start x'.1.2 x'.1.1 /\ legal_trace x'.1.2 x'.2.
Proof.
  destruct x as [[c tr] ck]. cbn [fst snd xplay1]. destruct a as [i q w|i|]; cbn [act_ok]; intros Hok E Hr Hl.
  - destruct c as [c r m k th]. destruct (th !! i) eqn:Et; [discriminate|]. destruct (c_fly ck !! i) eqn:Ef; [discriminate|].
    destruct (may_callb ck q && _) eqn:Em; [|discriminate]. apply andb_true_iff in Em as [Em Ew]. apply Z.ltb_lt in Ew. injection E as <-. cbn [fst snd]. destruct Hok as [Hok Hw]. split.
    + eapply (crun_snoc _ _ _ (LCall i q)); [exact Hr|]. constructor. exact Et.
    + constructor; try assumption. apply may_callb_ok; assumption.
  - destruct (xstep c i) as [[l c']|] eqn:Ex; [|discriminate]. destruct (xstep_ok _ _ _ _ Ex) as [Hc [->|[r ->]]].
    + injection E as <-. cbn [fst snd]. split; [|exact Hl]. rewrite <- (app_nil_r tr). exact (crun_snoc _ _ _ _ _ Hr Hc).
    + destruct (c_fly ck !! i) as [q|] eqn:Ef; [|discriminate]. injection E as <-. cbn [fst snd]. split; [exact (crun_snoc _ _ _ _ _ Hr Hc)|]. constructor; assumption.
  - destruct (open_cache rootA (Conc.w_comm c)) as [[d r']| | |] eqn:Eo; try discriminate. injection E as <-. cbn [fst snd]. split.
    + eapply (crun_snoc _ _ _ (LKill rootA)); [exact Hr|]. destruct c as [c r m k th]. constructor. exact Eo.
    + constructor; [exact Hl|exact rootA_ok].
Qed.
Definition x_start : played := (c_start, [], CK k0 ∅ 0 [] []).
Lemma xplay_ok l : forall x x', Forall act_ok l -> xplay x l = Some x' ->
  crun c_start x.1.2 x.1.1 -> legal_trace x.1.2 x.2 -> crun c_start x'.1.2 x'.1.1 /\ legal_trace x'.1.2 x'.2.
Proof.
  induction l as [|a l IH]; intros x x' Hok E Hr Hl; cbn [xplay] in E; [injection E as <-; auto|]. inversion Hok as [|? ? H1 H2]; subst.
  destruct (xplay1 x a) as [x1|] eqn:E1; [|discriminate]. destruct (xplay1_ok _ _ _ H1 E1 Hr Hl). eauto.
Qed.
Definition xs (l : list act) : played := match xplay x_start l with Some x => x | None => x_start end.
Lemma xs_ok l : Forall act_ok l -> crun c_start (xs l).1.2 (xs l).1.1 /\ legal_trace (xs l).1.2 (xs l).2.
Proof.
  intros H. unfold xs. destruct (xplay x_start l) as [x|] eqn:E.
  - eapply xplay_ok; [exact H|exact E|constructor|constructor].
  - split; constructor.
Qed.

(** ** The samples *)
Definition steps (i : Z) (n : nat) : list act := repeat (XStep i) n.
(** Thread 1 has looked up /d.  Then the kernel asks for the listing of /d (2), the listing of
    the root with references (3), /d/f (4) and the target of the root (5); (3) runs until it has
    locked /d, (2) is in its write transaction. *)
Definition xs_mid : list act :=
  [XCall 1 (CLookup online 1 nD) 2] ++ steps 1 7 ++
  [XCall 2 (COpendir online 2) 3; XCall 3 (CPlus 1 4096 0) 4097; XCall 4 (CLookup online 2 nF) 2; XCall 5 (CReadlink online 1) 0] ++
  steps 3 7 ++ steps 2 3.
(** (3) ends, the kernel forgets one of the two references to /d while (2) is still storing its
    entries, and all requests end *)
Definition xs_end : list act := xs_mid ++ steps 3 4 ++ steps 2 2 ++ [XCall 6 (CForget 2 1) 0] ++ steps 2 5 ++ steps 4 7 ++ steps 6 5 ++ steps 5 6.
(** the same, but the process is killed while (2) has its write transaction *)
Definition xs_kill : list act := xs_mid ++ steps 3 4 ++ steps 2 2 ++ [XKill; XCall 1 (CLookup offline 1 nD) 2] ++ steps 1 3.
Lemma costs_lookup b p n : costs (CLookup b p n) 2.
Proof. split; [lia|]. intros s i rq E. cbn in E. injection E as <-. cbn. lia. Qed.
Lemma costs_forget x n : costs (CForget x n) 0.
Proof. split; [lia|]. intros s i rq E. cbn in E. injection E as <-. cbn. lia. Qed.
Lemma costs_readlink b x : costs (CReadlink b x) 0.
Proof. split; [lia|]. intros s i rq E. cbn in E. injection E as <-. cbn. lia. Qed.
Lemma costs_plus x size off : 0 <= size -> costs (CPlus x size off) (size + 1).
Proof. intros Hs. split; [lia|]. intros s i rq [->| ->]; cbn; lia. Qed.
(** whatever the path of the inode is then, the backend lists at most three names *)
Lemma costs_opendir_online x : costs (COpendir online x) 3.
Proof.
  split; [lia|]. intros s i rq E. cbn in E. injection E as <-. cbn [weight]. destruct (path (s_db s) x) as [[pp|]| | |]; try lia.
  destruct (b_opendir online (backend_path pp)) as [[names e]|] eqn:Eb; [|lia]. unfold online, finite in Eb. cbn [b_opendir assoc] in Eb.
  repeat (destruct (decide _) in Eb; [injection Eb as <- <-; cbn; lia|]). discriminate.
Qed.
Ltac acts_ok :=
  repeat (apply Forall_cons; split; [first [exact I | split; [first [exact online_ok|exact offline_ok|exact I]|first [apply costs_lookup|apply costs_forget|apply costs_readlink|apply costs_opendir_online|apply (costs_plus _ 4096); lia]]]|]); apply Forall_nil; exact I.
Lemma xs_mid_ok : Forall act_ok xs_mid.
Proof. unfold xs_mid, steps. cbn [app repeat]. acts_ok. Qed.
Lemma xs_end_ok : Forall act_ok xs_end.
Proof. unfold xs_end, xs_mid, steps. cbn [app repeat]. acts_ok. Qed.
Lemma xs_kill_ok : Forall act_ok xs_kill.
Proof. unfold xs_kill, xs_mid, steps. cbn [app repeat]. acts_ok. Qed.
(** C53-C55: there is such a run with four requests in flight, of which one waits for the mutex,
    two wait for the write transaction and one can go on; *)
Example C54_sample : exists c tr ck, copen rootA = Done c_start /\ crun c_start tr c /\ legal_trace tr ck /\ attrs_ok rootA /\
  Conc.w_th c <> ∅ /\ Conc.w_mutex c = Some 3 /\ Conc.w_lock c = Some 2 /\ xstep c 2 = None /\ xstep c 4 = None /\ xstep c 5 = None /\
  exists c', xstep c 3 = Some (LTau, c').
Proof.
  exists (xs xs_mid).1.1, (xs xs_mid).1.2, (xs xs_mid).2. destruct (xs_ok _ xs_mid_ok) as [Hr Hl].
  split; [exact c_start_ok|]. split; [exact Hr|]. split; [exact Hl|]. split; [exact rootA_ok|].
  split. { intros E. assert (H : Conc.w_th (xs xs_mid).1.1 !! 2 = None) by (rewrite E; apply lookup_empty). assert (H' : bool_decide (is_Some (Conc.w_th (xs xs_mid).1.1 !! 2)) = true) by (vm_compute; reflexivity). apply bool_decide_eq_true in H'. destruct H' as [t Ht]. rewrite Ht in H. discriminate H. }
  split; [vm_compute; reflexivity|]. split; [vm_compute; reflexivity|]. split; [vm_compute; reflexivity|]. split; [vm_compute; reflexivity|]. split; [vm_compute; reflexivity|].
  assert (H : match xstep (xs xs_mid).1.1 3 with Some (LTau, _) => true | _ => false end = true) by (vm_compute; reflexivity).
  destruct (xstep (xs xs_mid).1.1 3) as [[[] c1]|]; try discriminate H. eauto.
Qed.
(** and one where all have been answered: what the kernel knows and the cache holds; *)
Example C55_sample : exists c tr ck, crun c_start tr c /\ legal_trace tr ck /\ Conc.w_th c = ∅ /\ length (c_got ck) = 6%nat /\
  kcount (c_know ck) 2 = 1 /\ refcount (Conc.w_refs c) 2 = 1 /\ kcount (c_know ck) 3 = 1 /\ getattr (Conc.w_comm c) 4 = Ok (fileA 30).
Proof.
  exists (xs xs_end).1.1, (xs xs_end).1.2, (xs xs_end).2. destruct (xs_ok _ xs_end_ok) as [Hr Hl].
  split; [exact Hr|]. split; [exact Hl|]. split. { apply map_to_list_empty_iff. vm_compute. reflexivity. }
  split; [vm_compute; reflexivity|]. split; [vm_compute; reflexivity|]. split; [vm_compute; reflexivity|]. split; vm_compute; reflexivity.
Qed.
(** and one with a kill: what was not committed is gone, what was is not. *)
Example C53_sample : exists c tr ck, crun c_start tr c /\ legal_trace tr ck /\ LKill rootA ∈ tr /\
  lookup (Conc.w_comm c) 1 nD = Ok 2 /\ lookup (Conc.w_comm c) 2 nF = Err ENOENT /\ kcount (c_know ck) 2 = 0.
Proof.
  exists (xs xs_kill).1.1, (xs xs_kill).1.2, (xs xs_kill).2. destruct (xs_ok _ xs_kill_ok) as [Hr Hl].
  split; [exact Hr|]. split; [exact Hl|]. split.
  { assert (H : existsb (fun l => match l with LKill _ => true | _ => false end) (xs xs_kill).1.2 = true) by (vm_compute; reflexivity).
    assert (Hk : forallb (fun l => match l with LKill r => bool_decide (r = rootA) | _ => true end) (xs xs_kill).1.2 = true) by (vm_compute; reflexivity).
    rewrite forallb_forall in Hk. apply existsb_exists in H as (l & Hin & E). specialize (Hk l Hin). destruct l; try discriminate E. apply bool_decide_eq_true in Hk. rewrite Hk in Hin. apply elem_of_list_In, Hin. }
  split; [vm_compute; reflexivity|]. split; vm_compute; reflexivity.
Qed.
