(** Histories of Fs.v from concurrent runs with a legal kernel. *)
From Verif Require Export ConcKernel ConcFault PropsFs.

(** ** sums over maps *)
Definition msum {A} (f : Z -> A -> Z) (m : gmap Z A) : Z := map_fold (fun i x s => f i x + s) 0 m.
Lemma msum_empty {A} (f : Z -> A -> Z) : msum f ∅ = 0.
Proof. reflexivity. Qed.
Lemma msum_insert {A} (f : Z -> A -> Z) m i x : m !! i = None -> msum f (<[i := x]> m) = f i x + msum f m.
Proof. intros H. unfold msum. rewrite map_fold_insert_L; [reflexivity| |exact H]. intros. lia. Qed.
Lemma msum_delete {A} (f : Z -> A -> Z) m i x : m !! i = Some x -> msum f m = f i x + msum f (delete i m).
Proof. intros H. rewrite <- (insert_delete m i x H) at 1. apply msum_insert, lookup_delete. Qed.
Lemma msum_ext {A} (f g : Z -> A -> Z) m : (forall i x, m !! i = Some x -> f i x = g i x) -> msum f m = msum g m.
Proof.
  induction m as [|i x m Hi IH] using map_ind; intros H; [reflexivity|]. rewrite !msum_insert by exact Hi. rewrite (H i x) by apply lookup_insert.
  f_equal. apply IH. intros j y Hj. apply H. rewrite lookup_insert_ne; [exact Hj|]. intros ->. congruence.
Qed.
Lemma msum_nonneg {A} (f : Z -> A -> Z) m : (forall i x, m !! i = Some x -> 0 <= f i x) -> 0 <= msum f m.
Proof.
  induction m as [|i x m Hi IH] using map_ind; intros H; [rewrite msum_empty; lia|]. rewrite msum_insert by exact Hi. pose proof (H i x (lookup_insert _ _ _)).
  assert (0 <= msum f m); [|lia]. apply IH. intros j y Hj. apply H. rewrite lookup_insert_ne; [exact Hj|]. intros ->. congruence.
Qed.
Lemma msum_ge {A} (f : Z -> A -> Z) m i x : (forall i x, m !! i = Some x -> 0 <= f i x) -> m !! i = Some x -> f i x <= msum f m.
Proof.
  intros H E. rewrite (msum_delete f m i x E). assert (0 <= msum f (delete i m)); [|lia]. apply msum_nonneg. intros j y Hj. apply lookup_delete_Some in Hj. apply H, Hj.
Qed.
(** a change at one place *)
Lemma msum_at {A} (f g : Z -> A -> Z) m i x : m !! i = Some x -> (forall j y, j <> i -> m !! j = Some y -> f j y = g j y) -> msum g m = msum f m - f i x + g i x.
Proof.
  intros E H. rewrite (msum_delete f m i x E), (msum_delete g m i x E). rewrite (msum_ext f g (delete i m)); [lia|].
  intros j y Hj. apply lookup_delete_Some in Hj. apply H; [intros ->|]; intuition congruence.
Qed.

(** ** counts *)
Definition famt (x : Z) (q : creq) : Z := match q with CForget y n => if y =? x then n else 0 | CForgetMulti l => forget_total x l | _ => 0 end.
Definition tells (x : Z) (q : creq) (l : list reply) : Z := kcount (know_reply q l k0) x.
Lemma kcount_k0 x : kcount k0 x = 0. Proof. reflexivity. Qed.
Lemma told_all_count L : forall k x, kcount (foldr told_plus k L) x = kcount k x + kcount (foldr told_plus k0 L) x.
Proof.
  induction L as [|e L IH]; intros k x; cbn [foldr]; [rewrite kcount_k0; lia|]. unfold told_plus at 1 3. destruct (decide _); [apply IH|]. rewrite !kcount_told, (IH k). lia.
Qed.
Lemma told_all_nonneg L x : 0 <= kcount (foldr told_plus k0 L) x.
Proof. induction L as [|e L IH]; cbn [foldr]; [rewrite kcount_k0; lia|]. unfold told_plus at 1. destruct (decide _); [exact IH|]. rewrite kcount_told. destruct (_ =? _); lia. Qed.
Lemma told_all_dirs L : forall k, k_dirs (foldr told_plus k L) = k_dirs (foldr told_plus k0 L) ∪ k_dirs k.
Proof.
  induction L as [|e L IH]; intros k; cbn [foldr]; [cbn; set_solver|]. unfold told_plus at 1 3. destruct (decide _); [apply IH|].
  unfold told. cbn [k_dirs]. destruct (_ =? S_IFDIR); [|apply IH]. rewrite (IH k). set_solver.
Qed.
Lemma know_reply_cases q l : (forall k, know_reply q l k = k) \/ (exists c m, forall k, know_reply q l k = told c m k) \/ (exists L, forall k, know_reply q l k = foldr told_plus k L).
Proof.
  unfold know_reply. destruct q; auto; destruct (answer l).1 as [|r [|]]; auto; destruct r; eauto.
Qed.
Lemma know_reply_count q l k x : kcount (know_reply q l k) x = kcount k x + tells x q l.
Proof.
  unfold tells. destruct (know_reply_cases q l) as [E|[(c & m & E)|(L & E)]]; rewrite !E.
  - rewrite kcount_k0. lia. - rewrite !kcount_told, kcount_k0. lia. - apply told_all_count.
Qed.
Lemma tells_nonneg q l x : 0 <= tells x q l.
Proof.
  unfold tells. destruct (know_reply_cases q l) as [E|[(c & m & E)|(L & E)]]; rewrite !E.
  - rewrite kcount_k0. lia. - rewrite kcount_told, kcount_k0. destruct (_ =? _); lia. - apply told_all_nonneg.
Qed.
Lemma know_reply_dirs q l k : k_dirs (know_reply q l k) = k_dirs (know_reply q l k0) ∪ k_dirs k.
Proof.
  destruct (know_reply_cases q l) as [E|[(c & m & E)|(L & E)]]; rewrite !E.
  - cbn. set_solver. - unfold told. cbn [k_dirs k0]. destruct (_ =? S_IFDIR); set_solver. - apply told_all_dirs.
Qed.
Lemma know_call_count q k x : kcount (know_call q k) x = kcount k x - famt x q.
Proof. destruct q; cbn [know_call famt]; try lia; [apply kcount_forgot|apply kcount_forgot_all]. Qed.
Lemma know_call_dirs q k : k_dirs (know_call q k) = k_dirs k.
Proof. destruct q; cbn [know_call]; try reflexivity. apply dirs_forgot_all. Qed.
Lemma kstep_know q rq l k : as_request q = Some rq -> kstep k rq (answer l).1 = know_reply q l (know_call q k).
Proof. destruct q; cbn [as_request]; intros E; try discriminate; injection E as <-; unfold know_reply; cbn [kstep know_call]; try reflexivity. Qed.

(** ** requests in flight *)
Definition req_ok (q : creq) : Prop :=
  match q with
  | CLookup b _ _ | CReadlink b _ | COpendir b _ => backend_ok b
  | CForget x n => 0 <= n
  | CForgetMulti l => Forall (fun f => 0 <= f.2) l
  | _ => True
  end.
Lemma forget_total_nonneg x l : Forall (fun f => 0 <= f.2) l -> 0 <= forget_total x l.
Proof. induction 1 as [|f l Hf _ IH]; cbn [forget_total foldr]; [lia|]. fold (forget_total x l). destruct (_ =? _); lia. Qed.
Lemma famt_nonneg x q : req_ok q -> 0 <= famt x q.
Proof. destruct q; cbn [famt req_ok]; try lia; [destruct (_ =? _); lia|apply forget_total_nonneg]. Qed.
Definition amt (P : gmap Z pending) (x : Z) (i : Z) (q : creq) : Z :=
  match P !! i with Some (AWait _) => famt x q | Some (ADone l) => tells x q l | _ => 0 end.
Definition left_ (P : gmap Z pending) (rem : gmap Z Z) (i : Z) (q : creq) : Z :=
  match P !! i with Some (ADone _) => 0 | _ => default 0 (rem !! i) end.
Definition fits_with (s : fstate) (i : Z) (q : option creq) (p : option pending) : Prop :=
  match q, p with
  | None, None => True
  | Some q, Some (AWait q') => q' = q
  | Some (CPlus x size off), Some (AHalf size' off') => size' = size /\ off' = off /\ s_plus s !! i <> None
  | Some _, Some (ADone _) => True
  | _, _ => False
  end.
(** the reply is one of the sequential history; the exception: the process ends in the reply
    to a readdir request (C33) *)
Definition answered (h : list event) (q : creq) (l : list reply) : Prop :=
  (exists e i, e ∈ h /\ step_of i q (ev_q e) /\ ev_sent e = (answer l).1 /\ (answer l).2 = false) \/
  ((answer l).2 = true /\ exists x size off, q = CReaddir x size off).
Definition asked_for (c : ckernel) (e : event) : Prop := (exists i q, q ∈ c_asked c /\ step_of i q (ev_q e)) \/ exists root, ev_q e = QRestart root.
Record linked (a : aworld) (c : ckernel) (W : Z) (k : kst) (h : list event) (rem : gmap Z Z) : Prop := MkLinked {
  lk_hist : hist W (a_s a) k h;
  lk_fits : forall i, fits_with (a_s a) i (c_fly c !! i) (a_pend a !! i);
  lk_count : forall x, kcount k x = kcount (c_know c) x + msum (amt (a_pend a) x) (c_fly c);
  lk_nonneg : forall x, 0 <= kcount (c_know c) x;
  lk_dirs : k_dirs (c_know c) ⊆ k_dirs k;
  lk_dirs_p : forall i q l, c_fly c !! i = Some q -> a_pend a !! i = Some (ADone l) -> k_dirs (know_reply q l k0) ⊆ k_dirs k;
  lk_works : forall i q x, c_fly c !! i = Some q -> works_in q x -> kdir (c_know c) x;
  lk_ok : forall i q, c_fly c !! i = Some q -> req_ok q;
  lk_cost : forall i q, c_fly c !! i = Some q -> costs q (default 0 (rem !! i));
  lk_W : W + msum (left_ (a_pend a) rem) (c_fly c) <= c_cost c;
  lk_lim : c_cost c + 3 < 2 ^ 63;
  lk_got : forall q l, (q, l) ∈ c_got c -> answered h q l;
  lk_done : forall i q l, c_fly c !! i = Some q -> a_pend a !! i = Some (ADone l) -> answered h q l;
  lk_asked : forall i q, c_fly c !! i = Some q -> q ∈ c_asked c;
  lk_events : forall e, e ∈ h -> asked_for c e }.
Lemma asked_snoc c c' e0 h : (forall e, e ∈ h -> asked_for c e) -> c_asked c' = c_asked c -> asked_for c e0 -> forall e, e ∈ h ++ [e0] -> asked_for c' e.
Proof.
  intros H Ec H0 e He. assert (asked_for c e) by (apply elem_of_app in He; destruct He as [He|He]; [auto|apply elem_of_list_singleton in He; subst; exact H0]). unfold asked_for in *. rewrite Ec. exact H1.
Qed.
Lemma answered_more h e q l : answered h q l -> answered (h ++ [e]) q l.
Proof. intros [(e0 & i & H & H')|H]; [|right; exact H]. left. exists e0, i. split; [apply elem_of_app; auto|exact H']. Qed.
Lemma fits_fly s i q p : fits_with s i q (Some p) -> exists q', q = Some q'.
Proof. destruct q as [q|]; [eauto|]. destruct p; contradiction. Qed.
Lemma amt_nonneg a c W k h rem x : linked a c W k h rem -> forall i q, c_fly c !! i = Some q -> 0 <= amt (a_pend a) x i q.
Proof. intros H i q E. unfold amt. destruct (a_pend a !! i) as [[?| |?]|]; try lia; [apply famt_nonneg, (lk_ok _ _ _ _ _ _ H i q E)|apply tells_nonneg]. Qed.
Lemma left_nonneg a c W k h rem : linked a c W k h rem -> forall i q, c_fly c !! i = Some q -> 0 <= left_ (a_pend a) rem i q.
Proof. intros H i q E. pose proof (lk_cost _ _ _ _ _ _ H i q E) as [Hc _]. unfold left_. destruct (a_pend a !! i) as [[?| |?]|]; lia. Qed.
Lemma kdir_more a c W k h rem x : linked a c W k h rem -> kdir (c_know c) x -> kdir k x.
Proof.
  intros H [->|[Hd Hc]]; [left; reflexivity|]. right. split; [apply (lk_dirs _ _ _ _ _ _ H), Hd|].
  rewrite (lk_count _ _ _ _ _ _ H). pose proof (msum_nonneg (amt (a_pend a) x) (c_fly c) (amt_nonneg _ _ _ _ _ _ x H)). lia.
Qed.

(** a pending request is legal in the sequential history *)
Lemma pending_legal a c W k h rem i q rq : linked a c W k h rem -> c_fly c !! i = Some q -> a_pend a !! i = Some (AWait q) -> as_request q = Some rq ->
  klegal k (a_s a) rq /\ enough W (a_s a) rq.
Proof.
  intros H Ef Ep Er. split.
  - assert (HF : forall x, famt x q <= kcount k x).
    { intros x. rewrite (lk_count _ _ _ _ _ _ H). pose proof (lk_nonneg _ _ _ _ _ _ H x).
      pose proof (msum_ge (amt (a_pend a) x) (c_fly c) i q (amt_nonneg _ _ _ _ _ _ x H) Ef) as Hm. unfold amt at 1 in Hm. rewrite Ep in Hm. lia. }
    pose proof (lk_ok _ _ _ _ _ _ H i q Ef) as Hok. pose proof (lk_works _ _ _ _ _ _ H i q) as Hw.
    destruct q; cbn [as_request] in Er; try discriminate; injection Er as <-; cbn [klegal req_ok works_in] in *; try exact I; try exact Hok.
    + split; [|exact Hok]. eapply kdir_more; [exact H|]. apply Hw; [exact Ef|reflexivity].
    + split; [exact Hok|]. specialize (HF ino). cbn [famt] in HF. rewrite Z.eqb_refl in HF. exact HF.
    + split; [exact Hok|]. exact HF.
    + split; [|exact Hok]. eapply kdir_more; [exact H|]. apply Hw; [exact Ef|reflexivity].
  - unfold enough. pose proof (lk_W _ _ _ _ _ _ H). pose proof (lk_lim _ _ _ _ _ _ H).
    pose proof (msum_ge (left_ (a_pend a) rem) (c_fly c) i q (left_nonneg _ _ _ _ _ _ H) Ef) as Hm. unfold left_ at 1 in Hm. rewrite Ep in Hm.
    destruct (lk_cost _ _ _ _ _ _ H i q Ef) as [_ Hc]. specialize (Hc (a_s a) i rq). assert (step_of i q rq) by (destruct q; try discriminate; exact Er). specialize (Hc H2). lia.
Qed.
Lemma half_legal a c W k h rem i x size off : linked a c W k h rem -> c_fly c !! i = Some (CPlus x size off) -> a_pend a !! i = Some (AHalf size off) ->
  klegal k (a_s a) (QPlusRun i size off) /\ enough W (a_s a) (QPlusRun i size off).
Proof.
  intros H Ef Ep. split.
  - cbn [klegal]. pose proof (lk_fits _ _ _ _ _ _ H i) as Hf. rewrite Ef, Ep in Hf. cbn in Hf. apply Hf.
  - unfold enough. pose proof (lk_W _ _ _ _ _ _ H). pose proof (lk_lim _ _ _ _ _ _ H).
    pose proof (msum_ge (left_ (a_pend a) rem) (c_fly c) i _ (left_nonneg _ _ _ _ _ _ H) Ef) as Hm. unfold left_ at 1 in Hm. rewrite Ep in Hm.
    destruct (lk_cost _ _ _ _ _ _ H i _ Ef) as [_ Hc]. specialize (Hc (a_s a) i (QPlusRun i size off) (or_intror eq_refl)). lia.
Qed.

(** ** one step of the atomic object *)
Lemma effect_plus q rq s s' l : as_request q = Some rq -> fstep s rq = Done (s', Some l) -> s_plus s' = s_plus s.
Proof.
  intros Er E. destruct (code q) as [[[] p0]|l0] eqn:Ec.
  - destruct (write_step q p0 s Ec) as (rq' & Er' & Ho). rewrite Er in Er'. injection Er' as <-. apply Ho, ended_fin in E.
    destruct E as ([[b l1] t] & _ & E). cbn [fin_w] in E. injection E as <- _. destruct b; reflexivity.
  - destruct (code_reader q p0 Ec) as [Hq|[Hq|(x & size & off & -> & ->)]]; [| |discriminate].
    + destruct (forget_step q p0 s (s_db s) Hq Ec) as (rq' & Er' & Ho). rewrite Er in Er'. injection Er' as <-. apply Ho, ended_fin in E.
      destruct E as ([[b l1] t] & _ & E). cbn [fin_r] in E. injection E as <- _. reflexivity.
    + destruct (read_step q p0 s (s_refs s) Hq Ec) as (rq' & Er' & Ho & _). rewrite Er in Er'. injection Er' as <-. apply Ho, ended_fin in E.
      destruct E as (y & _ & E). injection E as <- _. reflexivity.
  - destruct (none_step q l0 s Ec) as (rq' & Er' & Ho). rewrite Er in Er'. injection Er' as <-. rewrite Ho in E. injection E as <- _. reflexivity.
Qed.
Lemma amt_upd P x i q p fly : fly !! i = Some q -> msum (amt (<[i := p]> P) x) fly = msum (amt P x) fly - amt P x i q + amt (<[i := p]> P) x i q.
Proof. intros E. apply msum_at; [exact E|]. intros j y Hj _. unfold amt. rewrite lookup_insert_ne by congruence. reflexivity. Qed.
Lemma left_upd P rem i q p fly : fly !! i = Some q -> msum (left_ (<[i := p]> P) rem) fly = msum (left_ P rem) fly - left_ P rem i q + left_ (<[i := p]> P) rem i q.
Proof. intros E. apply msum_at; [exact E|]. intros j y Hj _. unfold left_. rewrite lookup_insert_ne by congruence. reflexivity. Qed.
(** the next state of the linked history: request [rq] of [q] done with [l] *)
Lemma linked_done s P c W k h rem i q s' l rq w :
  linked (AW s P) c W k h rem -> c_fly c !! i = Some q ->
  (P !! i = Some (AWait q) \/ exists x size off, q = CPlus x size off /\ P !! i = Some (AHalf size off)) ->
  step_of i q rq -> hist (W + w) s' (kstep k rq (answer l).1) (h ++ [Ev s rq (answer l).1]) -> (answer l).2 = false ->
  kstep k rq (answer l).1 = know_reply q l (know_call q k) -> w <= default 0 (rem !! i) ->
  (forall j, j <> i -> s_plus s' !! j = s_plus s !! j) ->
  linked (AW s' (<[i := ADone l]> P)) c (W + w) (kstep k rq (answer l).1) (h ++ [Ev s rq (answer l).1]) rem.
Proof.
  intros H Ef Ep Es Hh Ha Hk Hw Hp. rewrite Hk in *. constructor; cbn [a_s a_pend].
  - exact Hh.
  - intros j. pose proof (lk_fits _ _ _ _ _ _ H j) as Hf. cbn [a_s a_pend] in Hf. destruct (decide (j = i)) as [->|Hj].
    + rewrite Ef, lookup_insert. cbn. destruct q; exact I.
    + rewrite lookup_insert_ne by congruence. destruct (c_fly c !! j) as [qj|]; [|exact Hf]. destruct (P !! j) as [[?| |?]|]; try exact Hf. destruct qj; try exact Hf. cbn in *. rewrite (Hp j Hj). exact Hf.
  - intros x. rewrite know_reply_count, know_call_count, (lk_count _ _ _ _ _ _ H). cbn [a_pend]. rewrite (amt_upd P x i q _ _ Ef).
    assert (E1 : amt P x i q = famt x q). { unfold amt. destruct Ep as [-> |(x0 & size & off & -> & ->)]; reflexivity. }
    assert (E2 : amt (<[i:=ADone l]> P) x i q = tells x q l) by (unfold amt; rewrite lookup_insert; reflexivity). lia.
  - exact (lk_nonneg _ _ _ _ _ _ H).
  - rewrite (know_reply_dirs q l (know_call q k)), know_call_dirs. pose proof (lk_dirs _ _ _ _ _ _ H). set_solver.
  - intros j qj lj Efj Epj. rewrite (know_reply_dirs q l (know_call q k)), know_call_dirs. destruct (decide (j = i)) as [->|Hj].
    + rewrite lookup_insert in Epj. injection Epj as <-. rewrite Ef in Efj. injection Efj as <-. set_solver.
    + rewrite lookup_insert_ne in Epj by congruence. pose proof (lk_dirs_p _ _ _ _ _ _ H j qj lj Efj Epj). set_solver.
  - exact (lk_works _ _ _ _ _ _ H).
  - exact (lk_ok _ _ _ _ _ _ H).
  - exact (lk_cost _ _ _ _ _ _ H).
  - rewrite (left_upd P rem i q _ _ Ef). pose proof (lk_W _ _ _ _ _ _ H) as HW. cbn [a_pend] in HW.
    assert (E1 : left_ P rem i q = default 0 (rem !! i)). { unfold left_. destruct Ep as [-> |(x0 & size & off & -> & ->)]; reflexivity. }
    assert (E2 : left_ (<[i:=ADone l]> P) rem i q = 0) by (unfold left_; rewrite lookup_insert; reflexivity). lia.
  - exact (lk_lim _ _ _ _ _ _ H).
  - intros q0 l0 Hg. apply answered_more, (lk_got _ _ _ _ _ _ H), Hg.
  - intros j qj lj Efj Epj. destruct (decide (j = i)) as [->|Hj].
    + rewrite lookup_insert in Epj. injection Epj as <-. rewrite Ef in Efj. injection Efj as <-. left. exists (Ev s rq (answer l).1), i. split; [apply elem_of_app; right; constructor|auto].
    + rewrite lookup_insert_ne in Epj by congruence. apply answered_more, (lk_done _ _ _ _ _ _ H j qj lj Efj Epj).
  - exact (lk_asked _ _ _ _ _ _ H).
  - apply (asked_snoc c); [exact (lk_events _ _ _ _ _ _ H)|reflexivity|]. left. exists i, q. split; [exact (lk_asked _ _ _ _ _ _ H i q Ef)|exact Es].
Qed.
Lemma linked_thrown s P c W k h rem i x size off l :
  linked (AW s P) c W k h rem -> c_fly c !! i = Some (CReaddir x size off) -> P !! i = Some (AWait (CReaddir x size off)) -> (answer l).2 = true ->
  linked (AW s (<[i := ADone l]> P)) c W k h rem.
Proof.
  intros H Ef Ep Ha. set (q := CReaddir x size off) in *. constructor; cbn [a_s a_pend].
  - exact (lk_hist _ _ _ _ _ _ H).
  - intros j. pose proof (lk_fits _ _ _ _ _ _ H j) as Hf. cbn [a_s a_pend] in Hf. destruct (decide (j = i)) as [->|Hj].
    + rewrite Ef, lookup_insert. exact I.
    + rewrite lookup_insert_ne by congruence. exact Hf.
  - intros y. rewrite (lk_count _ _ _ _ _ _ H). cbn [a_pend]. rewrite (amt_upd P y i q _ _ Ef).
    assert (E1 : amt P y i q = 0) by (unfold amt; rewrite Ep; reflexivity).
    assert (E2 : amt (<[i:=ADone l]> P) y i q = 0) by (unfold amt; rewrite lookup_insert; reflexivity). lia.
  - exact (lk_nonneg _ _ _ _ _ _ H).
  - exact (lk_dirs _ _ _ _ _ _ H).
  - intros j qj lj Efj Epj. destruct (decide (j = i)) as [->|Hj].
    + rewrite Ef in Efj. injection Efj as <-. cbn. set_solver.
    + rewrite lookup_insert_ne in Epj by congruence. exact (lk_dirs_p _ _ _ _ _ _ H j qj lj Efj Epj).
  - exact (lk_works _ _ _ _ _ _ H).
  - exact (lk_ok _ _ _ _ _ _ H).
  - exact (lk_cost _ _ _ _ _ _ H).
  - rewrite (left_upd P rem i q _ _ Ef). pose proof (lk_W _ _ _ _ _ _ H) as HW. cbn [a_pend] in HW.
    pose proof (left_nonneg _ _ _ _ _ _ H i q Ef) as Hn. cbn [a_pend] in Hn.
    assert (E2 : left_ (<[i:=ADone l]> P) rem i q = 0) by (unfold left_; rewrite lookup_insert; reflexivity). lia.
  - exact (lk_lim _ _ _ _ _ _ H).
  - exact (lk_got _ _ _ _ _ _ H).
  - intros j qj lj Efj Epj. destruct (decide (j = i)) as [->|Hj].
    + rewrite lookup_insert in Epj. injection Epj as <-. rewrite Ef in Efj. injection Efj as <-. right. split; [exact Ha|]. unfold q. eauto.
    + rewrite lookup_insert_ne in Epj by congruence. exact (lk_done _ _ _ _ _ _ H j qj lj Efj Epj).
  - exact (lk_asked _ _ _ _ _ _ H).
  - exact (lk_events _ _ _ _ _ _ H).
Qed.
Lemma linked_effect s P c W k h rem i q rq s' l : linked (AW s P) c W k h rem -> P !! i = Some (AWait q) -> as_request q = Some rq -> fstep s rq = Done (s', Some l) ->
  exists W' k' h', linked (AW s' (<[i := ADone l]> P)) c W' k' h' rem.
Proof.
  intros H Ep Er Ef. pose proof (lk_fits _ _ _ _ _ _ H i) as Hf. cbn [a_s a_pend] in Hf. rewrite Ep in Hf.
  destruct (fits_fly _ _ _ _ Hf) as [q' Eq]. rewrite Eq in Hf. assert (q = q') by (destruct q'; exact Hf). subst q'.
  destruct (pending_legal _ _ _ _ _ _ _ _ _ H Eq Ep Er) as [Hk He].
  assert (Hst : step_of i q rq) by (destruct q; try discriminate; exact Er).
  destruct (answer l) as [sent b] eqn:Ea. destruct b.
  - destruct (C33_one_reply_partial W s k h rq (lk_hist _ _ _ _ _ _ H) Hk He) as (s1 & o & E1 & _ & Ht). rewrite Ef in E1. injection E1 as <- <-.
    cbn [sent_of] in Ht. rewrite Ea in Ht. destruct (Ht eq_refl) as (-> & x & size & off & -> & _).
    destruct q; try discriminate. cbn [as_request] in Er. injection Er as -> -> ->. exists W, k, h. eapply linked_thrown; try eassumption. rewrite Ea. reflexivity.
  - exists (W + weight s rq), (kstep k rq (answer l).1), (h ++ [Ev s rq (answer l).1]). eapply linked_done; try eassumption.
    + left. exact Ep.
    + eapply hist_step; try eassumption; [exact (lk_hist _ _ _ _ _ _ H)|]. cbn [sent_of]. rewrite Ea. reflexivity.
    + rewrite Ea. reflexivity.
    + apply kstep_know, Er.
    + destruct (lk_cost _ _ _ _ _ _ H i q Eq) as [_ Hc]. exact (Hc s i rq Hst).
    + intros j _. rewrite (effect_plus q rq s s' l Er Ef). reflexivity.
Qed.
Lemma answer_no_throw s k W h id size off s' l : hist W s k h -> klegal k s (QPlusRun id size off) -> enough W s (QPlusRun id size off) ->
  fstep s (QPlusRun id size off) = Done (s', Some l) -> (answer l).2 = false.
Proof.
  intros Hh Hk He Ef. destruct (C33_one_reply_partial W s k h _ Hh Hk He) as (s1 & o & E1 & _ & Ht). rewrite Ef in E1. injection E1 as <- <-.
  cbn [sent_of] in Ht. destruct (answer l) as [sent []]; [|reflexivity]. destruct (Ht eq_refl) as (_ & x & sz & of & E & _). discriminate.
Qed.
Lemma plus_run_plus s id size off s' l j : fstep s (QPlusRun id size off) = Done (s', Some l) -> j <> id -> s_plus s' !! j = s_plus s !! j.
Proof.
  intros E Hj. cbn [fstep] in E. unfold h_plus in E. destruct (s_plus s !! id) as [[d x]|] eqn:Ei; [|discriminate].
  pose proof (proj1 (plus_step s id x d size off Ei (s', Some l))) as Hp. cbn [fstep] in Hp. unfold h_plus in Hp. rewrite Ei in Hp. specialize (Hp E).
  apply ended_fin in Hp. destruct Hp as (y & _ & Hp). unfold fin_p in Hp. injection Hp as <- _. cbn [s_plus]. apply lookup_delete_ne. congruence.
Qed.
Lemma linked_plus_refs s P c W k h rem i size off s' l : linked (AW s P) c W k h rem -> P !! i = Some (AHalf size off) -> fstep s (QPlusRun i size off) = Done (s', Some l) ->
  exists W' k' h', linked (AW s' (<[i := ADone l]> P)) c W' k' h' rem.
Proof.
  intros H Ep Ef. pose proof (lk_fits _ _ _ _ _ _ H i) as Hf. cbn [a_s a_pend] in Hf. rewrite Ep in Hf.
  destruct (fits_fly _ _ _ _ Hf) as [q Eq]. rewrite Eq in Hf. destruct q; try contradiction. cbn in Hf. destruct Hf as (<- & <- & _).
  destruct (half_legal _ _ _ _ _ _ _ _ _ _ H Eq Ep) as [Hk He].
  pose proof (answer_no_throw _ _ _ _ _ _ _ _ _ (lk_hist _ _ _ _ _ _ H) Hk He Ef) as Ha.
  exists (W + weight s (QPlusRun i size off)), (kstep k (QPlusRun i size off) (answer l).1), (h ++ [Ev s (QPlusRun i size off) (answer l).1]).
  eapply linked_done; try eassumption.
  - right. eauto 10.
  - right. reflexivity.
  - eapply hist_step; try eassumption; [exact (lk_hist _ _ _ _ _ _ H)|]. cbn [sent_of]. rewrite <- Ha. destruct (answer l); reflexivity.
  - reflexivity.
  - destruct (lk_cost _ _ _ _ _ _ H i _ Eq) as [_ Hc]. exact (Hc s i _ (or_intror eq_refl)).
  - intros j Hj. eapply plus_run_plus; eassumption.
Qed.
Lemma linked_plus_read s P c W k h rem i x size off s' : linked (AW s P) c W k h rem -> P !! i = Some (AWait (CPlus x size off)) -> fstep s (QPlusBegin i x) = Done (s', None) ->
  exists W' k' h', linked (AW s' (<[i := AHalf size off]> P)) c W' k' h' rem.
Proof.
  intros H Ep Ef. pose proof (lk_fits _ _ _ _ _ _ H i) as Hf. cbn [a_s a_pend] in Hf. rewrite Ep in Hf.
  destruct (fits_fly _ _ _ _ Hf) as [q Eq]. rewrite Eq in Hf. assert (q = CPlus x size off) by (destruct q; symmetry; exact Hf). subst q.
  assert (Hh : hist (W + 0) s' k (h ++ [Ev s (QPlusBegin i x) []])).
  { eapply (hist_step W s k h (QPlusBegin i x) s' None []); [exact (lk_hist _ _ _ _ _ _ H)|exact I| |exact Ef|reflexivity].
    unfold enough. cbn [weight]. pose proof (lk_W _ _ _ _ _ _ H). pose proof (lk_lim _ _ _ _ _ _ H). pose proof (msum_nonneg _ _ (left_nonneg _ _ _ _ _ _ H)). lia. }
  rewrite Z.add_0_r in Hh. exists W, k, (h ++ [Ev s (QPlusBegin i x) []]). cbn [fstep] in Ef. injection Ef as <-.
  constructor; cbn [a_s a_pend].
  - exact Hh.
  - intros j. pose proof (lk_fits _ _ _ _ _ _ H j) as Hf'. cbn [a_s a_pend] in Hf'. destruct (decide (j = i)) as [->|Hj].
    + rewrite Eq, lookup_insert. cbn. rewrite lookup_insert. split; [reflexivity|]. split; [reflexivity|discriminate].
    + rewrite lookup_insert_ne by congruence. destruct (c_fly c !! j) as [qj|]; [|exact Hf']. destruct (P !! j) as [[?| |?]|]; try exact Hf'. destruct qj; try exact Hf'. cbn in *. rewrite lookup_insert_ne by congruence. exact Hf'.
  - intros y. rewrite (lk_count _ _ _ _ _ _ H). cbn [a_pend]. rewrite (amt_upd P y i _ _ _ Eq).
    assert (E1 : amt P y i (CPlus x size off) = 0) by (unfold amt; rewrite Ep; reflexivity).
    assert (E2 : amt (<[i:=AHalf size off]> P) y i (CPlus x size off) = 0) by (unfold amt; rewrite lookup_insert; reflexivity). lia.
  - exact (lk_nonneg _ _ _ _ _ _ H).
  - exact (lk_dirs _ _ _ _ _ _ H).
  - intros j qj lj Efj Epj. destruct (decide (j = i)) as [->|Hj]; [rewrite lookup_insert in Epj; discriminate|]. rewrite lookup_insert_ne in Epj by congruence. exact (lk_dirs_p _ _ _ _ _ _ H j qj lj Efj Epj).
  - exact (lk_works _ _ _ _ _ _ H).
  - exact (lk_ok _ _ _ _ _ _ H).
  - exact (lk_cost _ _ _ _ _ _ H).
  - rewrite (left_upd P rem i _ _ _ Eq). pose proof (lk_W _ _ _ _ _ _ H) as HW. cbn [a_pend] in HW.
    assert (E1 : left_ P rem i (CPlus x size off) = default 0 (rem !! i)) by (unfold left_; rewrite Ep; reflexivity).
    assert (E2 : left_ (<[i:=AHalf size off]> P) rem i (CPlus x size off) = default 0 (rem !! i)) by (unfold left_; rewrite lookup_insert; reflexivity). lia.
  - exact (lk_lim _ _ _ _ _ _ H).
  - intros q0 l0 Hg. apply answered_more, (lk_got _ _ _ _ _ _ H), Hg.
  - intros j qj lj Efj Epj. destruct (decide (j = i)) as [->|Hj]; [rewrite lookup_insert in Epj; discriminate|]. rewrite lookup_insert_ne in Epj by congruence. apply answered_more. exact (lk_done _ _ _ _ _ _ H j qj lj Efj Epj).
  - exact (lk_asked _ _ _ _ _ _ H).
  - apply (asked_snoc c); [exact (lk_events _ _ _ _ _ _ H)|reflexivity|]. left. exists i, (CPlus x size off). split; [exact (lk_asked _ _ _ _ _ _ H i _ Eq)|left; reflexivity].
Qed.
Lemma kdir_ext k k' x : (forall y, kcount k y <= kcount k' y) -> k_dirs k ⊆ k_dirs k' -> kdir k x -> kdir k' x.
Proof. intros Hc Hd [->|[H1 H2]]; [left; reflexivity|]. right. split; [apply Hd, H1|]. specialize (Hc x). lia. Qed.
Lemma linked_call s P c W k h rem i q w : linked (AW s P) c W k h rem -> P !! i = None -> c_fly c !! i = None -> may_call c q -> costs q w -> c_cost c + w + 3 < 2 ^ 63 ->
  linked (AW s (<[i := AWait q]> P)) (CK (know_call q (c_know c)) (<[i := q]> (c_fly c)) (c_cost c + w) (c_got c) (c_asked c ++ [q])) W k h (<[i := w]> rem).
Proof.
  intros H Ep Ef (Hw & Hl & Hk) Hc Hlim.
  assert (Hok : req_ok q) by (destruct q; cbn [req_ok]; try exact I; try exact Hl; apply Hl).
  assert (Hfa : forall x, famt x q <= kcount (c_know c) x).
  { intros x. pose proof (lk_nonneg _ _ _ _ _ _ H x). destruct q; cbn [famt]; try lia.
    - destruct Hl. destruct (Z.eqb_spec ino x) as [->|]; lia.
    - apply Hl. }
  constructor; cbn [a_s a_pend c_know c_fly c_cost c_got].
  - exact (lk_hist _ _ _ _ _ _ H).
  - intros j. destruct (decide (j = i)) as [->|Hj]; [rewrite !lookup_insert; destruct q; reflexivity|]. rewrite !lookup_insert_ne by congruence. exact (lk_fits _ _ _ _ _ _ H j).
  - intros x. rewrite know_call_count, msum_insert by exact Ef. rewrite (lk_count _ _ _ _ _ _ H). cbn [a_pend].
    rewrite (msum_ext (amt (<[i:=AWait q]> P) x) (amt P x) (c_fly c)).
    + unfold amt at 2. rewrite lookup_insert. lia.
    + intros j y Hj. unfold amt. rewrite lookup_insert_ne by congruence. reflexivity.
  - intros x. rewrite know_call_count. specialize (Hfa x). lia.
  - rewrite know_call_dirs. exact (lk_dirs _ _ _ _ _ _ H).
  - intros j qj lj Efj Epj. destruct (decide (j = i)) as [->|Hj]; [rewrite lookup_insert in Epj; discriminate|]. rewrite lookup_insert_ne in Efj by congruence. rewrite lookup_insert_ne in Epj by congruence. exact (lk_dirs_p _ _ _ _ _ _ H j qj lj Efj Epj).
  - intros j qj x Efj Hx. destruct (decide (j = i)) as [->|Hj].
    + rewrite lookup_insert in Efj. injection Efj as <-. specialize (Hw x Hx). destruct q; try contradiction; exact Hw.
    + rewrite lookup_insert_ne in Efj by congruence. exact (Hk j qj x Efj Hx).
  - intros j qj Efj. destruct (decide (j = i)) as [->|Hj].
    + rewrite lookup_insert in Efj. injection Efj as <-. exact Hok.
    + rewrite lookup_insert_ne in Efj by congruence. exact (lk_ok _ _ _ _ _ _ H j qj Efj).
  - intros j qj Efj. destruct (decide (j = i)) as [->|Hj].
    + rewrite lookup_insert in Efj. injection Efj as <-. rewrite lookup_insert. exact Hc.
    + rewrite lookup_insert_ne in Efj by congruence. rewrite lookup_insert_ne by congruence. exact (lk_cost _ _ _ _ _ _ H j qj Efj).
  - rewrite msum_insert by exact Ef. pose proof (lk_W _ _ _ _ _ _ H) as HW. cbn [a_pend] in HW.
    rewrite (msum_ext (left_ (<[i:=AWait q]> P) (<[i:=w]> rem)) (left_ P rem) (c_fly c)).
    + unfold left_ at 1. rewrite !lookup_insert. cbn. lia.
    + intros j y Hj. unfold left_. rewrite !lookup_insert_ne by congruence. reflexivity.
  - lia.
  - exact (lk_got _ _ _ _ _ _ H).
  - intros j qj lj Efj Epj. destruct (decide (j = i)) as [->|Hj]; [rewrite lookup_insert in Epj; discriminate|]. rewrite lookup_insert_ne in Efj by congruence. rewrite lookup_insert_ne in Epj by congruence. exact (lk_done _ _ _ _ _ _ H j qj lj Efj Epj).
  - intros j qj Efj. apply elem_of_app. destruct (decide (j = i)) as [->|Hj].
    + rewrite lookup_insert in Efj. injection Efj as <-. right. constructor.
    + rewrite lookup_insert_ne in Efj by congruence. left. exact (lk_asked _ _ _ _ _ _ H j qj Efj).
  - intros e He. destruct (lk_events _ _ _ _ _ _ H e He) as [(i0 & q0 & Hq & Hs)|Hq]; [|right; exact Hq]. left. exists i0, q0. split; [apply elem_of_app; left; exact Hq|exact Hs].
Qed.
Lemma linked_ret s P c W k h rem i q l : linked (AW s P) c W k h rem -> P !! i = Some (ADone l) -> c_fly c !! i = Some q ->
  linked (AW s (delete i P)) (CK (know_reply q l (c_know c)) (delete i (c_fly c)) (c_cost c) (c_got c ++ [(q, l)]) (c_asked c)) W k h rem.
Proof.
  intros H Ep Ef. constructor; cbn [a_s a_pend c_know c_fly c_cost c_got].
  - exact (lk_hist _ _ _ _ _ _ H).
  - intros j. destruct (decide (j = i)) as [->|Hj]; [rewrite !lookup_delete; exact I|]. rewrite !lookup_delete_ne by congruence. exact (lk_fits _ _ _ _ _ _ H j).
  - intros x. rewrite know_reply_count, (lk_count _ _ _ _ _ _ H), (msum_delete _ _ i q Ef). cbn [a_pend].
    rewrite (msum_ext (amt (delete i P) x) (amt P x) (delete i (c_fly c))).
    + unfold amt at 1. rewrite Ep. lia.
    + intros j y Hj. apply lookup_delete_Some in Hj. unfold amt. rewrite lookup_delete_ne by (apply not_eq_sym; intros ->; apply Hj; reflexivity). reflexivity.
  - intros x. rewrite know_reply_count. pose proof (lk_nonneg _ _ _ _ _ _ H x). pose proof (tells_nonneg q l x). lia.
  - rewrite know_reply_dirs. pose proof (lk_dirs _ _ _ _ _ _ H). pose proof (lk_dirs_p _ _ _ _ _ _ H i q l Ef Ep). set_solver.
  - intros j qj lj Efj Epj. apply lookup_delete_Some in Efj. apply lookup_delete_Some in Epj. exact (lk_dirs_p _ _ _ _ _ _ H j qj lj (proj2 Efj) (proj2 Epj)).
  - intros j qj x Efj Hx. apply lookup_delete_Some in Efj. eapply kdir_ext; [| |exact (lk_works _ _ _ _ _ _ H j qj x (proj2 Efj) Hx)].
    + intros y. rewrite know_reply_count. pose proof (tells_nonneg q l y). lia.
    + rewrite know_reply_dirs. set_solver.
  - intros j qj Efj. apply lookup_delete_Some in Efj. exact (lk_ok _ _ _ _ _ _ H j qj (proj2 Efj)).
  - intros j qj Efj. apply lookup_delete_Some in Efj. exact (lk_cost _ _ _ _ _ _ H j qj (proj2 Efj)).
  - pose proof (lk_W _ _ _ _ _ _ H) as HW. cbn [a_pend] in HW. rewrite (msum_delete _ _ i q Ef) in HW.
    pose proof (left_nonneg _ _ _ _ _ _ H i q Ef) as Hn. cbn [a_pend] in Hn.
    rewrite (msum_ext (left_ (delete i P) rem) (left_ P rem) (delete i (c_fly c))); [lia|].
    intros j y Hj. apply lookup_delete_Some in Hj. unfold left_. rewrite lookup_delete_ne by (apply not_eq_sym; intros ->; apply Hj; reflexivity). reflexivity.
  - exact (lk_lim _ _ _ _ _ _ H).
  - intros q0 l0 Hg. apply elem_of_app in Hg. destruct Hg as [Hg|Hg]; [exact (lk_got _ _ _ _ _ _ H q0 l0 Hg)|].
    apply elem_of_list_singleton in Hg. injection Hg as -> ->. exact (lk_done _ _ _ _ _ _ H i q l Ef Ep).
  - intros j qj lj Efj Epj. apply lookup_delete_Some in Efj. apply lookup_delete_Some in Epj. exact (lk_done _ _ _ _ _ _ H j qj lj (proj2 Efj) (proj2 Epj)).
  - intros j qj Efj. apply lookup_delete_Some in Efj. exact (lk_asked _ _ _ _ _ _ H j qj (proj2 Efj)).
  - exact (lk_events _ _ _ _ _ _ H).
Qed.
Lemma linked_kill s P c W k h rem root s' : linked (AW s P) c W k h rem -> attrs_ok root -> fstep s (QRestart root) = Done (s', None) ->
  exists h', linked (AW s' ∅) (CK k0 ∅ (c_cost c) (c_got c) (c_asked c)) W k0 h' ∅.
Proof.
  intros H Hr Ef.
  assert (HW : W + 3 < 2 ^ 63 /\ W <= c_cost c). { pose proof (lk_W _ _ _ _ _ _ H). pose proof (lk_lim _ _ _ _ _ _ H). pose proof (msum_nonneg _ _ (left_nonneg _ _ _ _ _ _ H)). lia. }
  exists (h ++ [Ev s (QRestart root) []]). constructor; cbn [a_s a_pend c_know c_fly c_cost c_got].
  - replace W with (W + weight s (QRestart root)) by (cbn [weight]; lia).
    eapply (hist_step W s k h (QRestart root) s' None []); [exact (lk_hist _ _ _ _ _ _ H)|exact Hr| |exact Ef|reflexivity]. unfold enough. cbn [weight]. lia.
  - intros i. rewrite !lookup_empty. exact I.
  - intros x. rewrite msum_empty. lia.
  - intros x. rewrite kcount_k0. lia.
  - set_solver.
  - intros i q l E. rewrite lookup_empty in E. discriminate.
  - intros i q x E. rewrite lookup_empty in E. discriminate.
  - intros i q E. rewrite lookup_empty in E. discriminate.
  - intros i q E. rewrite lookup_empty in E. discriminate.
  - rewrite msum_empty. lia.
  - exact (lk_lim _ _ _ _ _ _ H).
  - intros q l Hg. apply answered_more, (lk_got _ _ _ _ _ _ H), Hg.
  - intros i q l E. rewrite lookup_empty in E. discriminate.
  - intros i q E. rewrite lookup_empty in E. discriminate.
  - apply (asked_snoc c); [exact (lk_events _ _ _ _ _ _ H)|reflexivity|]. right. eauto.
Qed.
Lemma linked_open root a : attrs_ok root -> aopen root = Done a -> linked a (CK k0 ∅ 0 [] []) 0 k0 [] ∅.
Proof.
  intros Hr E. unfold aopen in E. destruct (open_cache root db_empty) as [[d r]| | |] eqn:Eo; cbn [obind] in E; try discriminate. injection E as <-.
  constructor; cbn [a_s a_pend c_know c_fly c_cost c_got].
  - eapply hist_open; eassumption.
  - intros i. rewrite !lookup_empty. exact I.
  - intros x. rewrite msum_empty. lia.
  - intros x. rewrite kcount_k0. lia.
  - set_solver.
  - intros i q l E. rewrite lookup_empty in E. discriminate.
  - intros i q x E. rewrite lookup_empty in E. discriminate.
  - intros i q E. rewrite lookup_empty in E. discriminate.
  - intros i q E. rewrite lookup_empty in E. discriminate.
  - rewrite msum_empty. lia.
  - lia.
  - intros q l Hg. apply elem_of_nil in Hg. contradiction.
  - intros i q l E. rewrite lookup_empty in E. discriminate.
  - intros i q E. rewrite lookup_empty in E. discriminate.
  - intros e He. apply elem_of_nil in He. contradiction.
Qed.
Theorem linked_run root a0 tr a c : attrs_ok root -> aopen root = Done a0 -> arun a0 tr a -> legal_trace tr c -> exists W k h rem, linked a c W k h rem.
Proof.
  intros Hr Ho Hrun. revert c. induction Hrun as [a0|a0 tr a1 l a2 Hrun IH Hs]; intros c Hl.
  - inversion Hl as [E|? ? ? ? ? ? ? ? ? ? E|? ? ? ? ? ? ? E|? ? ? ? ? E]; try (destruct tr; discriminate). subst. do 4 eexists. eapply linked_open; eassumption.
  - specialize (IH Ho). destruct Hs as [s P i q Ep|s P i q rq s' l Ep Er Ef|s P i x size off s' Ep Ef|s P i size off s' l Ep Ef|s P i l Ep|s P root' s' Ef]; cbn [seen] in Hl.
    + inversion Hl as [E|tr' c' i' q' w Hl' Hf Hm Hc Hlim E E'|? ? ? ? ? ? ? E|? ? ? ? ? E]; [destruct tr; discriminate| | |]; apply app_inj_tail in E as [-> El]; try discriminate.
      injection El as -> ->. destruct (IH _ Hl') as (W & k & h & rem & HL). do 4 eexists. eapply linked_call; eassumption.
    + rewrite app_nil_r in Hl. destruct (IH _ Hl) as (W & k & h & rem & HL). destruct (linked_effect _ _ _ _ _ _ _ _ _ _ _ _ HL Ep Er Ef) as (W' & k' & h' & HL'). eauto.
    + rewrite app_nil_r in Hl. destruct (IH _ Hl) as (W & k & h & rem & HL). destruct (linked_plus_read _ _ _ _ _ _ _ _ _ _ _ _ HL Ep Ef) as (W' & k' & h' & HL'). eauto.
    + rewrite app_nil_r in Hl. destruct (IH _ Hl) as (W & k & h & rem & HL). destruct (linked_plus_refs _ _ _ _ _ _ _ _ _ _ _ _ HL Ep Ef) as (W' & k' & h' & HL'). eauto.
    + inversion Hl as [E|tr' c' i' q' w Hl' Hf Hm Hc Hlim E E'|tr' c' i' q' l' Hl' Hf E E'|? ? ? ? ? E]; [destruct tr; discriminate| | |]; apply app_inj_tail in E as [-> El]; try discriminate.
      injection El as -> ->. destruct (IH _ Hl') as (W & k & h & rem & HL). do 4 eexists. eapply linked_ret; eassumption.
    + inversion Hl as [E|tr' c' i' q' w Hl' Hf Hm Hc Hlim E E'|tr' c' i' q' l' Hl' Hf E E'|tr' c' root'' Hl' Hro E E']; [destruct tr; discriminate| | |]; apply app_inj_tail in E as [-> El]; try discriminate.
      injection El as ->. destruct (IH _ Hl') as (W & k & h & rem & HL). destruct (linked_kill _ _ _ _ _ _ _ _ _ HL Hro Ef) as (h' & HL'). eauto.
Qed.
Lemma legal_prefix tr2 : forall tr1 c, legal_trace (tr1 ++ tr2) c -> exists c', legal_trace tr1 c'.
Proof.
  induction tr2 as [|l tr2 IH] using rev_ind; intros tr1 c H; [rewrite app_nil_r in H; eauto|]. rewrite app_assoc in H.
  inversion H as [E|tr' c' i' q' w Hl' Hf Hm Hc Hlim E E'|tr' c' i' q' l' Hl' Hf E E'|tr' c' root'' Hl' Hro E E']; [destruct (tr1 ++ tr2); discriminate| | |]; apply app_inj_tail in E as [-> _]; eapply IH; eassumption.
Qed.
Lemma linked_safe a c W k h rem : linked a c W k h rem -> ~ afault a.
Proof.
  intros H Hf. destruct Hf as [s P i q rq Ep Er Hbad|s P i size off Ep Hbad].
  - pose proof (lk_fits _ _ _ _ _ _ H i) as Hf. cbn [a_s a_pend] in Hf. rewrite Ep in Hf. destruct (fits_fly _ _ _ _ Hf) as [q' Eq]. rewrite Eq in Hf. assert (q = q') by (destruct q'; exact Hf). subst q'.
    destruct (pending_legal _ _ _ _ _ _ _ _ _ H Eq Ep Er) as [Hk He].
    destruct (C33_one_reply_partial W s k h rq (lk_hist _ _ _ _ _ _ H) Hk He) as (s1 & o & E1 & _). exact (Hbad _ E1).
  - pose proof (lk_fits _ _ _ _ _ _ H i) as Hf. cbn [a_s a_pend] in Hf. rewrite Ep in Hf. destruct (fits_fly _ _ _ _ Hf) as [q Eq]. rewrite Eq in Hf. destruct q; try contradiction. cbn in Hf. destruct Hf as (<- & <- & _).
    destruct (half_legal _ _ _ _ _ _ _ _ _ _ H Eq Ep) as [Hk He].
    destruct (C33_one_reply_partial W s k h _ (lk_hist _ _ _ _ _ _ H) Hk He) as (s1 & o & E1 & _). exact (Hbad _ E1).
Qed.
