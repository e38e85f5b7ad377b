(** C56: the metadata cache on its serialised records behaves as the cache on decoded tables. *)
From Verif Require Import CacheApi.
From Verif Require Export LmdbOps PropsCache.

(** ** The statement's vocabulary *)
(** arguments in the ranges of their C++ types *)
Definition bev_ok (e : bev) : Prop := match e with BOp o => op_ok o | BCrash root => attrs_ok root | _ => True end.
Definition ev_of (e : bev) : ev := match e with BOp o => EOp o | BCommit => ECommit | BAbort => EAbort | BCrash r => ECrash r end.
(** the decoded run with the results the caller sees *)
Definition vstep (w : world) (e : bev) : outcome (res Z * world) :=
  match e with
  | BOp o => dlet (x, t) := step_val (w_tx w) o in Done (x, World (w_comm w) t)
  | _ => dlet w := wstep w (ev_of e) in Done (Ok 0, w)
  end.
Fixpoint vrun (w : world) (l : list bev) : outcome (list (res Z) * world) :=
  match l with
  | [] => Done ([], w)
  | e :: l => dlet (x, w) := vstep w e in dlet (xs, w) := vrun w l in Done (x :: xs, w)
  end.
(** every read on the bytes returns what it returns on the decoded tables, and neither throws nor asserts *)
Definition same_reads (b : bdb) (d : db) : Prop :=
  forall x y f n, u64 x -> u64 y ->
    b_parent b x = Done (parent_of d x) /\ b_name_of b x = Done (name_of d x) /\ b_name_in b x y = Done (name_in d x y) /\
    b_lookup b x n = Done (lookup d x n) /\ b_getattr b x = Done (getattr d x) /\ b_readlink b x = Done (readlink d x) /\
    b_test_flag b x f = Done (test_flag d x f) /\ b_readdir b x y = Done (readdir d x y) /\ b_path b x = path d x.
(** same outcome; same value when there is one *)
Definition same_run {A} (x : outcome (A * bworld)) (y : outcome (A * world)) : Prop :=
  match x, y with
  | Done (a, w), Done (a', w') => a = a' /\ same_reads (bw_comm w) (w_comm w') /\ same_reads (bt_db (bw_tx w)) (t_db (w_tx w')) /\
      bt_refs (bw_tx w) = t_refs (w_tx w')
  | Throw, Throw | Crash, Crash | Diverge, Diverge => True
  | _, _ => False
  end.

(** ** Simulation *)
Record RW (w : bworld) (w' : world) : Prop := { rw_comm : Rep (bw_comm w) (w_comm w'); rw_tx : RT (bw_tx w) (w_tx w') }.
Section sim.
Context (pad : inode -> Z).
Lemma sim_begin b d r : Rep b d -> RW (bbegin (b, r)) (wbegin (d, r)).
Proof. intros H. split; [exact H|]. split; try reflexivity; [exact H|discriminate]. Qed.
Local Arguments le64 : simpl never.
Local Arguments NEXT_INO : simpl never.
Local Arguments insert : simpl never.
Lemma sim_init root b d : Rep b d -> attrs_ok root -> Rep (b_init pad root b) (init_db root d).
Proof.
  intros HR Ha. unfold b_init, init_db. pose proof (rep_next _ _ HR) as Hn. destruct (d_next d) as [n|] eqn:En.
  - destruct Hn as [_ Em]. rewrite Em, lookup_singleton. exact HR.
  - rewrite Hn, lookup_empty. destruct HR as [H1 H2 H3 H4 H5 H6]. split; cbn [b_meta b_inodes b_treei b_treen b_orphans b_links bset_inodes bset_meta d_next d_inodes d_treei d_treen d_orphans d_links set_inodes set_next]; try assumption.
    + split; [split; [discriminate|reflexivity]|]. reflexivity.
    + apply (tab_insert _ _ _ le64_inj'); [exact H2|split; [discriminate|reflexivity]|]. apply V_ser. split; [cbn; lia|]. split; [split; [discriminate|reflexivity]|].
      destruct Ha as (A1 & A2 & A3 & A4 & A5 & A6 & A7 & A8). split_and!; cbn [i_attr mkinode set_mode a_size a_nblocks a_uid a_gid a_atime a_mtime a_ctime a_mode]; try assumption; try apply A3; try apply A4; try discriminate; reflexivity.
Qed.
Lemma sim_open root b d : Rep b d -> attrs_ok root -> osim (fun x y => Rep x.1 y.1 /\ x.2 = y.2) (b_open pad root b) (open_cache root d).
Proof.
  intros HR Ha. unfold b_open, open_cache. pose proof (sim_init root b d HR Ha) as HI.
  eapply osim_bind; [apply s_tx_clean|].
  { split; try reflexivity; [exact HI|discriminate]. }
  intros t1 t2 HT. eapply osim_bind; [apply s_tx_clean, HT|]. intros t3 t4 HT2. constructor. split; [apply HT2|apply HT2].
Qed.
Lemma sim_step w w' e : RW w w' -> bev_ok e -> osim (fun x y => x.1 = y.1 /\ RW x.2 y.2) (bwstep pad w e) (vstep w' e).
Proof.
  intros [HR HT] He. destruct e as [o| | |root]; cbn [bwstep vstep ev_of wstep bev_ok] in *.
  - eapply osim_bind; [apply s_step; [exact HT|exact He]|]. intros [x t] [x' t'] [E HT1]. cbn [fst snd] in E, HT1. subst x'. constructor. split; [reflexivity|]. split; assumption.
  - cbn [obind]. constructor. split; [reflexivity|]. unfold commit_tx. rewrite (rt_refs _ _ HT). apply sim_begin, HT.
  - unfold abort_tx. rewrite (rt_refs _ _ HT), (rt_hooks _ _ HT). destruct (run_rollbacks _ _) as [r| | |]; cbn [obind]; constructor. split; [reflexivity|]. apply sim_begin, HR.
  - pose proof (sim_open root _ _ HR He) as Ho. destruct Ho as [[b r] [d r'] [H1 H2]| | |]; cbn [obind]; constructor. cbn [fst snd] in *. subst r'. split; [reflexivity|]. apply sim_begin, H1.
Qed.
Lemma sim_run l : forall w w', RW w w' -> Forall bev_ok l -> osim (fun x y => x.1 = y.1 /\ RW x.2 y.2) (bwrun pad w l) (vrun w' l).
Proof.
  induction l as [|e l IH]; intros w w' H Hl; [constructor; split; [reflexivity|exact H]|]. apply Forall_cons in Hl as [He Hl]. cbn [bwrun vrun].
  eapply osim_bind; [apply sim_step; [exact H|exact He]|]. intros [x w1] [x' w1'] [E H1]. cbn [fst snd] in E, H1. subst x'.
  eapply osim_bind; [apply IH; [exact H1|exact Hl]|]. intros [xs w2] [xs' w2'] [E H2]. cbn [fst snd] in E, H2. subst xs'. constructor. split; [reflexivity|exact H2].
Qed.
Lemma sim_wopen root : attrs_ok root -> osim RW (bwopen pad root) (wopen root).
Proof.
  intros Ha. unfold bwopen, wopen. eapply osim_bind; [apply sim_open; [apply rep_empty|exact Ha]|]. intros [b r] [d r'] [H1 H2]. cbn [fst snd] in *. subst r'. constructor. apply sim_begin, H1.
Qed.
Lemma sim_hist root l : attrs_ok root -> Forall bev_ok l ->
  osim (fun x y => x.1 = y.1 /\ RW x.2 y.2) (dlet w := bwopen pad root in bwrun pad w l) (dlet w := wopen root in vrun w l).
Proof. intros Ha Hl. eapply osim_bind; [apply sim_wopen, Ha|]. intros w w' H. apply sim_run; assumption. Qed.
End sim.
Lemma rep_reads b d : Rep b d -> same_reads b d.
Proof.
  intros HR x y f n Hx Hy. split_and!.
  - apply r_parent; assumption.
  - apply r_name_of; assumption.
  - apply r_name_in; assumption.
  - apply r_lookup; assumption.
  - apply r_getattr; assumption.
  - apply r_readlink; assumption.
  - apply r_test_flag; assumption.
  - apply r_readdir; assumption.
  - apply r_path; assumption.
Qed.

(** ** C56 *)
(** For every padding, root and history of operations, commits, aborts and crashes, legal or not:
    the cache on bytes ends as the decoded one ends (value, exception, failed assert, endless
    loop), returns the same result from every operation, and answers every read the same. *)
Theorem C56_same_behaviour : forall pad root l, attrs_ok root -> Forall bev_ok l ->
  same_run (dlet w := bwopen pad root in bwrun pad w l) (dlet w := wopen root in vrun w l).
Proof.
  intros pad root l Ha Hl. pose proof (sim_hist pad root l Ha Hl) as H. destruct H as [[xs w] [xs' w'] [E [HR HT]]| | |]; cbn [same_run]; try exact I.
  cbn [fst snd] in *. split; [exact E|]. split; [apply rep_reads, HR|]. split; [apply rep_reads, HT|apply HT].
Qed.
(** the decoded run is the one the theorems C10-C25 are about *)
Lemma vstep_wstep w e : wstep w (ev_of e) = dlet x := vstep w e in Done x.2.
Proof.
  destruct e as [o| | |root]; cbn [vstep ev_of].
  - cbn [wstep]. rewrite step_val_step. unfold drop_val. destruct (step_val (w_tx w) o) as [[[?|?] t]| | |]; reflexivity.
  - reflexivity.
  - destruct (wstep w EAbort); reflexivity.
  - destruct (wstep w (ECrash root)); reflexivity.
Qed.
Theorem C56_decoded_run : forall l w, wrun w (map ev_of l) = dlet x := vrun w l in Done x.2.
Proof.
  induction l as [|e l IH]; intros w; [reflexivity|]. cbn [map wrun vrun]. rewrite vstep_wstep. destruct (vstep w e) as [[x w1]| | |]; cbn [obind snd]; try reflexivity.
  rewrite IH. destruct (vrun w1 l) as [[xs w2]| | |]; reflexivity.
Qed.
(** two paddings make no difference *)
Theorem C56_padding : forall pad pad' root l xs w, attrs_ok root -> Forall bev_ok l ->
  (dlet w := bwopen pad root in bwrun pad w l) = Done (xs, w) ->
  exists w', (dlet w := bwopen pad' root in bwrun pad' w l) = Done (xs, w') /\
    forall x y n, u64 x -> u64 y -> b_getattr (bw_comm w') x = b_getattr (bw_comm w) x /\ b_lookup (bw_comm w') x n = b_lookup (bw_comm w) x n /\
      b_readdir (bw_comm w') x y = b_readdir (bw_comm w) x y /\ b_path (bw_comm w') x = b_path (bw_comm w) x /\ b_readlink (bw_comm w') x = b_readlink (bw_comm w) x.
Proof.
  intros pad pad' root l xs w Ha Hl E. pose proof (C56_same_behaviour pad root l Ha Hl) as H1. pose proof (C56_same_behaviour pad' root l Ha Hl) as H2. rewrite E in H1.
  destruct (dlet w := wopen root in vrun w l) as [[ys v]| | |]; try contradiction. destruct (dlet w0 := bwopen pad' root in bwrun pad' w0 l) as [[zs w']| | |]; try contradiction.
  destruct H1 as (<- & G1 & _). destruct H2 as (-> & G2 & _). exists w'. split; [reflexivity|]. intros x y n Hx Hy.
  destruct (G1 x y 0 n Hx Hy) as (_ & _ & _ & A4 & A5 & A6 & _ & A8 & A9). destruct (G2 x y 0 n Hx Hy) as (_ & _ & _ & B4 & B5 & B6 & _ & B8 & B9).
  rewrite A4, A5, A6, A8, A9, B4, B5, B6, B8, B9. auto.
Qed.
(** ** What is on disk *)
(** every record of every table, in the committed state and in the open transaction, has the
    length its reader expects, parses, and (trees) has a key whose parts are its inode number and name *)
Definition well_formed (b : bdb) : Prop :=
  (exists v, b_meta b !! NEXT_INO = Some v /\ length v = 8%nat) /\
  (forall k v, b_inodes b !! k = Some v -> length k = 8%nat /\ length v = 96%nat /\ exists i, parse_inode 0 v = Done (Ok i)) /\
  (forall k v, b_treei b !! k = Some v -> length k = 16%nat /\ exists e, parse_dirent v = Ok e /\ drop 8 k = le64 (de_ino e) /\
      b_treen b !! (take 8 k ++ de_name e) = Some v) /\
  (forall k v, b_treen b !! k = Some v -> (8 <= length k <= 511)%nat /\ exists e, parse_dirent v = Ok e /\ drop 8 k = de_name e /\
      b_treei b !! (take 8 k ++ le64 (de_ino e)) = Some v) /\
  (forall k v, b_orphans b !! k = Some v -> length k = 8%nat /\ v = [0]) /\
  (forall k v, b_links b !! k = Some v -> length k = 8%nat).
Lemma rep_well_formed b d : Rep b d -> Inv d -> well_formed b.
Proof.
  intros HR HI. split_and!.
  - destruct (inv_next _ HI) as (n & En & _). pose proof (rep_next _ _ HR) as Hn. rewrite En in Hn. destruct Hn as [_ ->]. exists (le64 n). split; [apply lookup_singleton|apply le64_length].
  - intros k v Hv. destruct (tab_bwd _ _ _ _ _ (rep_inodes _ _ HR) k v Hv) as (x & i & Hx & -> & HV). split; [apply le64_length|]. split; [|exists i; apply V_inode_parse, HV].
    destruct HV as [_ [pad ->]]. apply ser_inode_length.
  - intros k v Hv. destruct (tab_bwd _ _ _ _ _ (rep_treei _ _ HR) k v Hv) as ([p c] & e & Hx & -> & HV). unfold enc_ii. cbn [fst snd]. split; [rewrite app_length, !le64_length; reflexivity|].
    destruct (inv_treei _ HI _ _ _ Hx) as (E & _ & _ & _ & _ & Hn). exists e. split; [apply V_dirent_parse, HV|]. rewrite drop8, take8. split; [rewrite E; reflexivity|].
    destruct (tab_fwd _ _ _ _ _ (rep_treen _ _ HR) _ _ Hn) as (v' & Hv' & HV'). unfold enc_in in Hv'. cbn [fst snd] in Hv'. rewrite Hv'. destruct HV as [_ ->], HV' as [_ ->]. reflexivity.
  - intros k v Hv. destruct (tab_bwd _ _ _ _ _ (rep_treen _ _ HR) k v Hv) as ([p n] & e & Hx & -> & HV). unfold enc_in. cbn [fst snd].
    destruct (inv_treen _ HI _ _ _ Hx) as (E & Hval & Hi). split.
    + rewrite app_length, le64_length. assert (Z.of_nat (length n) <= MAX_NAME); [|unfold MAX_NAME in *; lia]. unfold valid_name, check_name in Hval. destruct (MAX_NAME <? _) eqn:El; [discriminate Hval|]. apply Z.ltb_ge in El. exact El.
    + exists e. split; [apply V_dirent_parse, HV|]. rewrite drop8, take8. split; [symmetry; exact E|].
      destruct (tab_fwd _ _ _ _ _ (rep_treei _ _ HR) _ _ Hi) as (v' & Hv' & HV'). unfold enc_ii in Hv'. cbn [fst snd] in Hv'. rewrite Hv'. destruct HV as [_ ->], HV' as [_ ->]. reflexivity.
  - intros k v Hv. destruct (tab_bwd _ _ _ _ _ (rep_orphans _ _ HR) k v Hv) as (x & i & Hx & -> & HV). split; [apply le64_length|exact HV].
  - intros k v Hv. destruct (tab_bwd _ _ _ _ _ (rep_links _ _ HR) k v Hv) as (x & i & Hx & -> & HV). apply le64_length.
Qed.
(** a history of legal calls: see [legal] *)
Definition legal_hist (root : attrs) (l : list bev) : Prop := forall w0, wopen root = Done w0 -> legal_run w0 (map ev_of l).
Theorem C56_layout : forall pad root l xs w, attrs_ok root -> Forall bev_ok l -> legal_hist root l ->
  (dlet w := bwopen pad root in bwrun pad w l) = Done (xs, w) -> well_formed (bw_comm w) /\ well_formed (bt_db (bw_tx w)).
Proof.
  intros pad root l xs w Ha Hl Hg E. pose proof (sim_hist pad root l Ha Hl) as H. rewrite E in H.
  destruct (wopen_spec root) as (w0 & E0 & Hw0). rewrite E0 in H. cbn [obind] in H.
  inversion H as [a [ys v] [_ [HR HT]] Ea Eb| | |]; subst a. cbn [snd] in *. symmetry in Eb.
  assert (Hv : WInv v).
  { apply (wrun_inv (map ev_of l) w0); [exact Hw0|apply Hg, E0|]. rewrite C56_decoded_run, Eb. reflexivity. }
  destruct Hv as [I1 I2]. split; [eapply rep_well_formed; [exact HR|exact I1]|]. eapply rep_well_formed; [apply HT|apply I2].
Qed.
(** no assert on the bytes of a legal history without abort fails, and no loop is endless; the only
    exception is that of releasing more locks than are held *)
Lemma no_crash l : forall w, WInv w -> legal_run w (map ev_of l) -> BAbort ∉ l ->
  (exists y, vrun w l = Done y) \/ (vrun w l = Throw /\ exists x n, BOp (ORelease x n) ∈ l).
Proof.
  induction l as [|e l IH]; intros w Hw Hl Ha; [left; eexists; reflexivity|]. destruct Hl as [Hl1 Hl2]. cbn [vrun]. pose proof (vstep_wstep w e) as Ev.
  destruct (wstep_no_crash w (ev_of e) Hw Hl1) as [[w' E]|[(E' & x & n & E & _)|E]].
  - rewrite E in Ev. destruct (vstep w e) as [[x w1]| | |]; try discriminate Ev. injection Ev as ->. cbn [obind snd] in *.
    destruct (IH w1) as [[[ys w2] ->]|(-> & z & n & Hz)]; [eapply wstep_inv; eassumption|apply Hl2, E|set_solver| |].
    + left. eexists. reflexivity.
    + right. split; [reflexivity|]. exists z, n. right. exact Hz.
  - right. rewrite E' in Ev. destruct (vstep w e) as [[y w1]| | |]; try discriminate Ev. split; [reflexivity|]. exists x, n. destruct e; try discriminate E. injection E as ->. left.
  - exfalso. apply Ha. destruct e; try discriminate E. left.
Qed.
Theorem C56_no_assert : forall pad root l, attrs_ok root -> Forall bev_ok l -> legal_hist root l -> BAbort ∉ l ->
  (exists xs w, (dlet w := bwopen pad root in bwrun pad w l) = Done (xs, w)) \/
  ((dlet w := bwopen pad root in bwrun pad w l) = Throw /\ exists x n, BOp (ORelease x n) ∈ l).
Proof.
  intros pad root l Ha Hl Hg H1. pose proof (sim_hist pad root l Ha Hl) as H. destruct (wopen_spec root) as (w0 & E0 & Hw0). rewrite E0 in H. cbn [obind] in H.
  destruct (no_crash l w0 Hw0 (Hg w0 E0) H1) as [[y E]|[E Hx]]; rewrite E in H.
  - left. inversion H as [[xs w] ? _ Ea Eb| | |]. exists xs, w. reflexivity.
  - right. split; [|exact Hx]. inversion H. reflexivity.
Qed.
(** ** A concrete history *)
Definition bsample : list bev :=
  [ BOp (OEmplace 1 (nm 100) dirA); BOp (OEmplace 2 (nm 102) regA); BOp (OEmplace 1 (nm 108) lnkA);
    BOp (OWritelink 4 [100; 47; 102]); BOp (OFlags 2 [0] []); BOp (OLock 3); BCommit;
    BOp (OUnlinkName 2 (nm 102)); BOp (OEmplace 2 (nm 103) regA); BOp (OEmplace 2 [47] regA); BCommit; BCrash (A 0) ].
Lemma A_ok m : 0 <= m < 2 ^ 32 -> attrs_ok (A m).
Proof. intros H. unfold attrs_ok, ts_ok, u64, s64. cbn [A a_size a_nblocks a_uid a_gid a_atime a_mtime a_ctime a_mode fst snd]. lia. Qed.
Lemma bsample_ok : Forall bev_ok bsample.
Proof. repeat constructor; try discriminate; try (apply A_ok; split; [discriminate|reflexivity]). Qed.
Lemma bsample_legal : legal_hist (A 0) bsample.
Proof.
  intros w0 E0. assert (Hl : match wopen (A 0) with Done w => legal_runb w (map ev_of bsample) | _ => false end = true) by (vm_compute; reflexivity).
  rewrite E0 in Hl. apply legal_runb_ok, Hl.
Qed.
Example C56_sample : exists w, (dlet w := bwopen (fun _ => 7) (A 0) in bwrun (fun _ => 7) w bsample) =
    Done ([Ok 2; Ok 3; Ok 4; Ok 0; Ok 0; Ok 0; Ok 0; Ok 0; Ok 5; Err EINVAL; Ok 0; Ok 0], w) /\
  b_lookup (bw_comm w) 2 (nm 102) = Done (Err ENOENT) /\ b_lookup (bw_comm w) 2 (nm 103) = Done (Ok 5) /\
  b_readlink (bw_comm w) 4 = Done (Ok [100; 47; 102]) /\ b_getattr (bw_comm w) 3 = Done (Err ENOENT) /\
  b_path (bw_comm w) 5 = Done (Ok [47; 100; 47; 103]) /\ b_readdir (bw_comm w) 2 1 = Done (Ok (5, nm 103)).
Proof.
  destruct (dlet w := bwopen (fun _ => 7) (A 0) in bwrun (fun _ => 7) w bsample) as [[xs w]| | |] eqn:E; try (vm_compute in E; discriminate E).
  assert (H : match (dlet w := bwopen (fun _ => 7) (A 0) in bwrun (fun _ => 7) w bsample) with
    | Done (xs, w) => Some (xs, (b_lookup (bw_comm w) 2 (nm 102), b_lookup (bw_comm w) 2 (nm 103), b_readlink (bw_comm w) 4, b_getattr (bw_comm w) 3, b_path (bw_comm w) 5, b_readdir (bw_comm w) 2 1))
    | _ => None end = Some ([Ok 2; Ok 3; Ok 4; Ok 0; Ok 0; Ok 0; Ok 0; Ok 0; Ok 5; Err EINVAL; Ok 0; Ok 0],
      (Done (Err ENOENT), Done (Ok 5), Done (Ok [100; 47; 102]), Done (Err ENOENT), Done (Ok [47; 100; 47; 103]), Done (Ok (5, nm 103))))) by (vm_compute; reflexivity).
  rewrite E in H. exists w. injection H as -> H1 H2 H3 H4 H5 H6. auto 10.
Qed.
Print Assumptions C56_same_behaviour.
Print Assumptions C56_decoded_run.
Print Assumptions C56_padding.
Print Assumptions C56_layout.
Print Assumptions C56_no_assert.
