(** The simulation behind linearizability. *)
From Verif Require Export ConcSpec.

(** ** Running a program without interruption *)
Definition strip (t : tx) : tx := Tx (t_db t) (t_refs t) [] (t_rw t).
Fixpoint runs (p : prog) (t : tx) : outcome (bool * list reply * tx) :=
  match p with
  | PRead k => runs (k (t_db t)) t
  | POp o k => match opres (strip t) o with Done (x, t') => runs (k x) (strip t') | _ => Crash end
  | PCommit k => Done (true, k (Ok tt), t)
  | PDrop l => Done (false, l, t)
  | PFault => Crash
  end.
(** equal as far as they are [Done] *)
Definition oeq {A} (a b : outcome A) : Prop := forall x, a = Done x <-> b = Done x.
Lemma oeq_refl {A} (a : outcome A) : oeq a a. Proof. intros x; reflexivity. Qed.
Lemma oeq_sym {A} (a b : outcome A) : oeq a b -> oeq b a. Proof. intros H x; symmetry; apply H. Qed.
Lemma oeq_trans {A} (a b c : outcome A) : oeq a b -> oeq b c -> oeq a c.
Proof. intros H1 H2 x. rewrite (H1 x). apply H2. Qed.
Lemma oeq_bad {A} (a b : outcome A) : (forall x, a <> Done x) -> (forall x, b <> Done x) -> oeq a b.
Proof. intros H1 H2 x. split; intros E; [destruct (H1 _ E)|destruct (H2 _ E)]. Qed.
Lemma oeq_bind {A B} (a b : outcome A) (f g : A -> outcome B) : oeq a b -> (forall x, a = Done x -> oeq (f x) (g x)) ->
  oeq (dlet x := a in f x) (dlet x := b in g x).
Proof.
  intros H Hf. destruct a as [a| | |]; destruct b as [b| | |]; cbn [obind];
    try (apply oeq_bad; intros; discriminate);
    try (specialize (H a); destruct H as [H _]; specialize (H eq_refl); discriminate);
    try (specialize (H b); destruct H as [_ H]; specialize (H eq_refl); discriminate).
  assert (E : a = b). { destruct (H a) as [H1 _]. specialize (H1 eq_refl). congruence. }
  subst b. apply Hf. reflexivity.
Qed.

(** ** operations and hooks *)
Definition hooked (h : list hook) (t : tx) : tx := Tx (t_db t) (t_refs t) (h ++ t_hooks t) (t_rw t).
Lemma tx_clean_hooks d r h rw : tx_clean (Tx d r h rw) =
  dlet dr := clean_orphans d r in Done (Tx dr.1 dr.2 h rw).
Proof. reflexivity. Qed.
Ltac hk := unfold hooked; cbn [obind t_db t_refs t_hooks t_rw]; rewrite ?app_nil_r; reflexivity.
Lemma emplace_hooks d r h rw p n a : emplace (Tx d r h rw) p n a =
  (dlet (x, t) := emplace (Tx d r [] rw) p n a in Done (x, hooked h t)).
Proof.
  unfold emplace. destruct (check_name n true); [|hk]. cbn [t_db t_rw t_hooks t_refs].
  destruct (d_treen d !! (p, n)) as [e|].
  - destruct (d_inodes d !! de_ino e) as [oi|]; [|reflexivity].
    destruct (ftype _ =? ftype _); [hk|].
    destruct (allocate _) as [[ino d']| | |]; cbn [obind]; try reflexivity. unfold tx_clean, with_db, with_dbr. cbn [t_db t_refs t_hooks t_rw].
    destruct (clean_orphans _ _) as [[d2 r2]| | |]; cbn [obind]; try reflexivity. hk.
  - destruct (allocate _) as [[ino d']| | |]; cbn [obind]; try reflexivity. unfold tx_clean, with_db, with_dbr. cbn [t_db t_refs t_hooks t_rw].
    destruct (clean_orphans _ _) as [[d2 r2]| | |]; cbn [obind]; try reflexivity. hk.
Qed.
Lemma unlink_ino_hooks d r h rw x : unlink_ino (Tx d r h rw) x =
  (dlet (x, t) := unlink_ino (Tx d r [] rw) x in Done (x, hooked h t)).
Proof.
  unfold unlink_ino. cbn [t_db]. destruct (make_orphan d x) as [[?|e] d']; [|unfold with_db; hk].
  unfold tx_clean, with_db, with_dbr. cbn [t_db t_refs t_hooks t_rw].
  destruct (clean_orphans _ _) as [[d2 r2]| | |]; cbn [obind]; try reflexivity. hk.
Qed.
Lemma step_hooks d r h rw o : step (Tx d r h rw) o = (dlet (x, t) := step (Tx d r [] rw) o in Done (x, hooked h t)).
Proof.
  destruct o as [p n a|x|p x|p n| |x b|x s c|x| |x|x n]; cbn [step].
  - rewrite emplace_hooks. destruct (emplace _ _ _ _) as [[? ?]| | |]; reflexivity.
  - apply unlink_ino_hooks.
  - apply unlink_ino_hooks.
  - unfold unlink_name. cbn [t_db]. destruct (d_treen d !! (p, n)); [apply unlink_ino_hooks|hk].
  - unfold tx_clean, with_dbr. cbn [t_db t_refs t_hooks t_rw]. destruct (clean_orphans _ _) as [[d2 r2]| | |]; cbn [obind]; try reflexivity. hk.
  - unfold writelink. cbn [t_db]. destruct (d_inodes d !! x); [|hk]. destruct (negb _); [hk|]. unfold with_db. hk.
  - unfold update_flags. cbn [t_db]. destruct (d_inodes d !! x); [|hk]. unfold with_db. hk.
  - unfold start_dir_rewrite. cbn [t_db t_rw t_refs t_hooks]. destruct rw; [hk|]. destruct (from_key _ _ _); hk.
  - unfold finish_dir_rewrite. cbn [t_db t_rw t_refs t_hooks]. destruct rw; hk.
  - unfold lock. cbn [t_db t_rw t_refs t_hooks]. destruct (incref r x 1) as [[?|?] ?]; hk.
  - unfold release. cbn [t_db t_rw t_refs t_hooks]. destruct (n =? 0); [hk|]. destruct (decref r x n) as [[[?|?] ?]| | |]; reflexivity.
Qed.
Lemma opres_hooks d r h rw o : opres (Tx d r h rw) o = (dlet (x, t) := opres (Tx d r [] rw) o in Done (x, hooked h t)).
Proof.
  destruct o; cbn [opres]; try apply emplace_hooks; rewrite step_hooks; destruct (step _ _) as [[? ?]| | |]; reflexivity.
Qed.
Lemma opres_strip t o : opres t o = (dlet (x, t') := opres (strip t) o in Done (x, hooked (t_hooks t) t')).
Proof. destruct t as [d r h rw]. apply opres_hooks. Qed.
Lemma strip_hooked h t : strip (hooked h t) = strip t.
Proof. reflexivity. Qed.

(** ** operations that do not use the reference table *)
Definition set_refs (r : refs) (t : tx) : tx := Tx (t_db t) r (t_hooks t) (t_rw t).
Lemma opres_no_refs d r rw o : uses_refs (Tx d r [] rw) o = false ->
  match opres (Tx d r [] rw) o with
  | Done (x, t) => t_refs t = r /\ forall r', opres (Tx d r' [] rw) o = Done (x, set_refs r' t)
  | _ => forall r' x, opres (Tx d r' [] rw) o <> Done x
  end.
Proof.
  destruct o as [p n a|x|p x|p n| |x b|x s c|x| |x|x n]; cbn [uses_refs t_db opres]; intros H; try discriminate.
  - unfold emplace. cbn [t_db t_rw t_refs t_hooks]. destruct (check_name n true); [|split; reflexivity].
    destruct (d_treen d !! (p, n)) as [e|]; [|discriminate]. destruct (d_inodes d !! de_ino e) as [oi|]; [|discriminate].
    destruct (ftype _ =? ftype _); [split; reflexivity|discriminate].
  - cbn [step]. unfold unlink_ino. cbn [t_db]. destruct (make_orphan d x) as [[?|e] d']; [discriminate|split; reflexivity].
  - cbn [step]. unfold unlink_child, unlink_ino. cbn [t_db]. destruct (make_orphan d x) as [[?|e] d']; [discriminate|split; reflexivity].
  - cbn [step]. unfold unlink_name. cbn [t_db]. destruct (d_treen d !! (p, n)) as [e|]; [|split; reflexivity].
    unfold unlink_ino. cbn [t_db]. destruct (make_orphan d (de_ino e)) as [[?|e'] d']; [discriminate|split; reflexivity].
  - cbn [step]. unfold writelink. cbn [t_db]. destruct (d_inodes d !! x); [|split; reflexivity]. destruct (negb _); split; reflexivity.
  - cbn [step]. unfold update_flags. cbn [t_db]. destruct (d_inodes d !! x); split; reflexivity.
  - cbn [step]. unfold start_dir_rewrite. cbn [t_db t_rw]. destruct rw; [split; reflexivity|]. destruct (from_key _ _ _); split; reflexivity.
  - cbn [step]. unfold finish_dir_rewrite. cbn [t_db t_rw]. destruct rw; split; reflexivity.
  - cbn [step]. unfold release. destruct (n =? 0); [split; reflexivity|discriminate].
Qed.
Lemma uses_refs_any d r r' rw o : uses_refs (Tx d r [] rw) o = uses_refs (Tx d r' [] rw) o.
Proof. destruct o; reflexivity. Qed.
(** a reader's operations leave its view alone *)
Lemma reader_op_db d r rw o x t : reader_op o = true -> opres (Tx d r [] rw) o = Done (x, t) -> t_db t = d /\ t_rw t = rw.
Proof.
  destruct o as [p n a|y|p y|p n| |y b|y s c|y| |y|y n]; cbn [reader_op opres step]; try discriminate; intros _.
  - unfold lock. cbn [t_db t_rw t_refs t_hooks]. destruct (incref r y 1) as [[?|?] ?]; cbn [obind]; intros E; injection E as _ <-; split; reflexivity.
  - unfold release. cbn [t_db t_rw t_refs t_hooks]. destruct (n =? 0); [cbn [obind]; intros E; injection E as _ <-; split; reflexivity|].
    destruct (decref r y n) as [[[?|?] ?]| | |]; cbn [obind]; intros E; try discriminate. injection E as _ <-; split; reflexivity.
Qed.

(** ** the programs and the handlers of Fs.v *)
Definition fin_w (s : fstate) (x : bool * list reply * tx) : fstate * list reply :=
  let '(b, l, t) := x in ((if b : bool then set_dbr (t_db t) (t_refs t) s else set_dbr (s_db s) (t_refs t) s), l).
Definition then_fin (F : bool * list reply * tx -> fstate * list reply) (x : outcome (bool * list reply * tx)) : handled :=
  dlet y := x in Done (F y).
Lemma op_runs (t : tx) (o : op) (k : res Z -> prog) (K : res Z -> tx -> handled) F :
  (forall x t1, oeq (K x t1) (then_fin F (runs (k x) (strip t1)))) ->
  oeq (dlet (x, t1) := opres t o in K x t1) (then_fin F (runs (POp o k) (strip t))).
Proof.
  intros H. rewrite opres_strip. cbn [runs]. change (strip (strip t)) with (strip t).
  destruct (opres (strip t) o) as [[x t1]| | |]; cbn [obind]; [|apply oeq_bad; intros; discriminate..].
  eapply oeq_trans; [apply H|]. rewrite strip_hooked. apply oeq_refl.
Qed.
Lemma step_as_opres t o (K : res unit -> tx -> handled) (K' : res Z -> tx -> handled) :
  (match o with OEmplace _ _ _ => False | _ => True end) ->
  (forall x t1, K x t1 = K' (match x with Ok _ => Ok 0 | Err e => Err e end) t1) ->
  (dlet (x, t1) := step t o in K x t1) = (dlet (x, t1) := opres t o in K' x t1).
Proof. intros Ho H. destruct o; try contradiction; cbn [opres]; destruct (step _ _) as [[x t1]| | |]; cbn [obind]; try reflexivity; apply H. Qed.
Lemma runs_fault F t : oeq Crash (then_fin F (runs PFault t)).
Proof. apply oeq_refl. Qed.
Lemma oeq_of_outcome {A} (x : outcome A) (K : A -> handled) (k : A -> prog) F t :
  (forall a, x = Done a -> oeq (K a) (then_fin F (runs (k a) t))) -> oeq (dlet a := x in K a) (then_fin F (runs (of_outcome x k) t)).
Proof. intros H. destruct x; cbn [obind of_outcome]; [apply H; reflexivity|apply oeq_bad; intros; discriminate..]. Qed.
Lemma drop_runs s t l : oeq (dropped s t l) (then_fin (fin_w s) (runs (PDrop l) (strip t))).
Proof. apply oeq_refl. Qed.
Lemma commit_runs s t k : oeq (committed s t (k (Ok tt))) (then_fin (fin_w s) (runs (PCommit k) (strip t))).
Proof. apply oeq_refl. Qed.

Lemma lookup_runs s b p n : oeq (h_lookup s b p n) (then_fin (fin_w s) (runs (p_lookup b p n) (begin_tx (s_db s) (s_refs s)))).
Proof.
  unfold h_lookup, p_lookup. cbn zeta. cbn [runs begin_tx t_db].
  assert (Hfin : forall t ino a, oeq
     (dlet (x, t1) := lock t ino in match x with Err e => dropped s t1 [RErr e] | Ok _ => committed s t1 [REntry ino a] end)
     (then_fin (fin_w s) (runs (POp (OLock ino) (fun x => match x with Err e => PDrop [RErr e] | Ok _ => PCommit (fun x => match x with Ok _ => [REntry ino a] | Err e => [RErr e] end) end)) (strip t)))).
  { intros t ino a. change (lock t ino) with (step t (OLock ino)).
    rewrite (step_as_opres t (OLock ino) _ (fun x t1 => match x with Err e => dropped s t1 [RErr e] | Ok _ => committed s t1 [REntry ino a] end)); [|exact I|intros [?|?] ?; reflexivity].
    apply op_runs. intros [x|e] t1; [apply (commit_runs s t1 (fun x => match x with Ok _ => [REntry ino a] | Err e => [RErr e] end))|apply drop_runs]. }
  apply oeq_of_outcome. intros [pp|e] _; [|apply drop_runs].
  destruct (b_lstat b 0 _) as [st|e].
  - apply (op_runs _ (OEmplace p n (from_backend_stat st))). intros [ino|e] t1; [apply Hfin|apply drop_runs].
  - destruct (e =? ENOTCONN).
    + cbn [runs]. change (t_db (begin_tx (s_db s) (s_refs s))) with (s_db s). destruct (lookup (s_db s) p n) as [ino|e']; cbn [runs]; change (t_db (begin_tx (s_db s) (s_refs s))) with (s_db s).
      * destruct (getattr (s_db s) ino) as [a|]; [apply (Hfin (begin_tx (s_db s) (s_refs s)))|apply drop_runs].
      * destruct (e' =? ENOENT); [|apply drop_runs]. cbn [runs]. change (t_db (begin_tx (s_db s) (s_refs s))) with (s_db s). destruct (test_flag (s_db s) p SYNCED) as [[]|]; apply drop_runs.
    + change (unlink_name (begin_tx (s_db s) (s_refs s)) p n) with (step (begin_tx (s_db s) (s_refs s)) (OUnlinkName p n)).
      rewrite (step_as_opres _ (OUnlinkName p n) _ (fun _ t1 => committed s t1 [RErr e])); [|exact I|reflexivity].
      apply op_runs. intros x t1. apply (commit_runs s t1 (fun _ => [RErr e])).
Qed.
Lemma readlink_runs s b x : oeq (h_readlink s b x) (then_fin (fin_w s) (runs (p_readlink b x) (begin_tx (s_db s) (s_refs s)))).
Proof.
  unfold h_readlink, p_readlink. cbn zeta. cbn [runs]. change (t_db (begin_tx (s_db s) (s_refs s))) with (s_db s).
  apply oeq_of_outcome. intros [pp|e] _; [|apply drop_runs].
  destruct (b_readlink b _) as [link|e].
  - change (writelink (begin_tx (s_db s) (s_refs s)) x link) with (step (begin_tx (s_db s) (s_refs s)) (OWritelink x link)).
    rewrite (step_as_opres _ (OWritelink x link) _ (fun _ t1 => committed s t1 [RReadlink (cstr link)])); [|exact I|reflexivity].
    apply op_runs. intros y t1. apply (commit_runs s t1 (fun _ => [RReadlink (cstr link)])).
  - destruct (e =? ENOTCONN).
    + cbn [runs]. change (t_db (begin_tx (s_db s) (s_refs s))) with (s_db s). destruct (readlink (s_db s) x); apply drop_runs.
    + change (unlink_ino (begin_tx (s_db s) (s_refs s)) x) with (step (begin_tx (s_db s) (s_refs s)) (OUnlinkIno x)).
      rewrite (step_as_opres _ (OUnlinkIno x) _ (fun _ t1 => committed s t1 [RErr e])); [|exact I|reflexivity].
      apply op_runs. intros y t1. apply (commit_runs s t1 (fun _ => [RErr e])).
Qed.
Lemma entries_runs s b x bp names : forall i t (K : tx -> handled) k,
  (forall t1, oeq (K t1) (then_fin (fin_w s) (runs k (strip t1)))) ->
  oeq (dlet t1 := sync_entries t b x bp i names in K t1) (then_fin (fin_w s) (runs (p_entries b x bp i names k) (strip t))).
Proof.
  induction names as [|n names IH]; intros i t K k HK; cbn [sync_entries p_entries]; [apply HK|].
  destruct (b_lstat b i _) as [st|e]; [|apply IH; exact HK].
  pose proof (op_runs t (OEmplace x n (from_backend_stat st)) (fun _ => p_entries b x bp (S i) names k)
    (fun _ t1 => dlet t2 := sync_entries t1 b x bp (S i) names in K t2) (fin_w s) (fun _ t1 => IH (S i) t1 K k HK)) as H.
  cbn [opres] in H. eapply oeq_trans; [|exact H]. destruct (emplace _ _ _ _) as [[? ?]| | |]; apply oeq_refl.
Qed.
Lemma opendir_runs s b x : oeq (h_opendir s b x) (then_fin (fin_w s) (runs (p_opendir b x) (begin_tx (s_db s) (s_refs s)))).
Proof.
  unfold h_opendir, p_opendir. cbn zeta. cbn [runs]. change (t_db (begin_tx (s_db s) (s_refs s))) with (s_db s).
  set (finish := fun x : res unit => match x with Ok _ => [ROpen] | Err _ => [RErr EIO] end).
  apply oeq_of_outcome. intros [pp|e] _; [|apply drop_runs].
  destruct (b_opendir b _) as [[names e]|e].
  - change (start_dir_rewrite (begin_tx (s_db s) (s_refs s)) x) with (step (begin_tx (s_db s) (s_refs s)) (OStartRewrite x)).
    rewrite (step_as_opres _ (OStartRewrite x) _ (fun _ t => dlet t := sync_entries t b x (backend_path pp) 0 names in
      dlet (_, t) := update_flags t x [SYNCED] [] in dlet (_, t) := finish_dir_rewrite t in committed s t [ROpen])); [|exact I|reflexivity].
    apply op_runs. intros _ t1. apply entries_runs. intros t2.
    change (update_flags t2 x [SYNCED] []) with (step t2 (OFlags x [SYNCED] [])).
    rewrite (step_as_opres _ (OFlags x [SYNCED] []) _ (fun _ t => dlet (_, t) := finish_dir_rewrite t in committed s t [ROpen])); [|exact I|reflexivity].
    apply op_runs. intros _ t3. change (finish_dir_rewrite t3) with (step t3 OFinishRewrite).
    rewrite (step_as_opres _ OFinishRewrite _ (fun _ t => committed s t [ROpen])); [|exact I|reflexivity].
    apply op_runs. intros _ t4. apply (commit_runs s t4 finish).
  - destruct (e =? ENOTCONN); [apply (commit_runs s (begin_tx (s_db s) (s_refs s)) finish)|apply drop_runs].
Qed.
(** the handlers with read transactions: their view [d] may be older than the database *)
Definition fin_r (s : fstate) (x : bool * list reply * tx) : fstate * list reply := let '(_, l, t) := x in (set_dbr (s_db s) (t_refs t) s, l).
Lemma forget_runs s d x n : oeq (h_forget s x n) (then_fin (fin_r s) (runs (p_forget x n) (begin_tx d (s_refs s)))).
Proof.
  unfold h_forget, p_forget. cbn [runs]. unfold strip, begin_tx. cbn [t_db t_refs t_rw opres step].
  unfold release. cbn [t_db t_refs t_rw t_hooks]. destruct (n =? 0); [apply oeq_refl|].
  destruct (decref (s_refs s) x n) as [[[?|?] ?]| | |]; cbn [obind]; try apply oeq_refl; apply oeq_bad; intros; discriminate.
Qed.
Lemma forgets_runs s l : forall d d' r h, d' = s_db s ->
  oeq (dlet t := releases (Tx d' r h None) l in committed s t [RNone]) (then_fin (fin_r s) (runs (p_forgets l) (Tx d r [] None))).
Proof.
  induction l as [|[x n] l IH]; intros d d' r h ->; [apply oeq_refl|]. cbn [releases p_forgets runs]. unfold strip. cbn [t_db t_refs t_rw opres step].
  unfold release. cbn [t_db t_refs t_rw t_hooks]. destruct (n =? 0); cbn [obind t_db t_refs t_rw]; [apply IH; reflexivity|].
  destruct (decref r x n) as [[[?|?] ?]| | |]; cbn [obind t_db t_refs t_rw]; try (apply oeq_bad; intros; discriminate). apply IH. reflexivity.
Qed.
Lemma getattr_runs s d r x : s_db s = d -> oeq (h_getattr s x) (dlet y := runs (p_getattr x) (Tx d r [] None) in Done (s, y.1.2)).
Proof. intros <-. unfold h_getattr, p_getattr. cbn [runs t_db]. destruct (getattr (s_db s) x); apply oeq_refl. Qed.
Lemma readdir_end_runs d r x e eof buf to_send :
  runs (p_readdir_end x e eof buf to_send) (Tx d r [] None) =
  Done (false, (if e =? 0 then [] else [RErr e]) ++ [if eof && (length buf =? 0)%nat && match test_flag d x SYNCED with Ok true => false | _ => true end then RErr EIO else RBuf (take to_send buf)], Tx d r [] None).
Proof.
  unfold p_readdir_end. cbn zeta. destruct (eof && (length buf =? 0)%nat); cbn [runs t_db andb]; [|reflexivity].
  destruct (test_flag d x SYNCED) as [[]|]; reflexivity.
Qed.
Lemma readdir_loop_runs d r x size fuel : forall cursor buf to_send,
  oeq (runs (p_readdir_loop fuel x size cursor buf to_send) (Tx d r [] None))
      (dlet (e, eof, buf, to_send) := readdir_loop fuel d x size cursor buf to_send in runs (p_readdir_end x e eof buf to_send) (Tx d r [] None)).
Proof.
  induction fuel as [|fuel IH]; intros cursor buf to_send; cbn [p_readdir_loop readdir_loop]; [apply oeq_bad; intros; discriminate|].
  destruct (_ <? size); [|apply oeq_refl]. cbn [runs t_db]. destruct (readdir d x cursor) as [[y n]|e]; [|apply oeq_refl].
  cbn [runs t_db]. destruct (getattr d y) as [a|e]; [|apply oeq_refl]. destruct (dirbuf_add buf n y a y) as [buf'| | |]; cbn [of_outcome obind runs]; [apply IH|apply oeq_bad; intros; discriminate..].
Qed.
Lemma readdir_runs s d r x size off : s_db s = d -> oeq (h_readdir s x size off) (dlet y := runs (p_readdir x size off) (Tx d r [] None) in Done (s, y.1.2)).
Proof.
  intros <-. unfold h_readdir, p_readdir. cbn [runs t_db]. cbn zeta.
  eapply oeq_trans; [|apply oeq_bind; [apply oeq_sym, readdir_loop_runs|intros; apply oeq_refl]].
  destruct (readdir_loop _ _ _ _ _ _ _) as [[[[e eof] buf] ts]| | |]; cbn [obind]; [|apply oeq_bad; intros; discriminate..].
  rewrite readdir_end_runs. apply oeq_refl.
Qed.
Lemma plus_loop_runs d x size G fuel (F : option (Z * bytes * nat) -> tx -> handled) :
  (forall e buf ts t, t_db t = d -> oeq (F (Some (e, buf, ts)) t) (then_fin G (runs (p_plus_end e buf ts) (strip t)))) ->
  (forall t, t_db t = d -> oeq (F None t) (then_fin G (Done (false, [RErr EIO], strip t)))) ->
  forall cursor buf to_send t, t_db t = d ->
  oeq (dlet (y, t1) := plus_loop fuel t x size cursor buf to_send in F y t1)
      (then_fin G (runs (p_plus_loop fuel x size cursor buf to_send) (strip t))).
Proof.
  intros HS HN. induction fuel as [|fuel IH]; intros cursor buf to_send [d0 r0 h0 rw0] Ht; cbn [t_db] in Ht; subst d0; cbn [p_plus_loop plus_loop]; [apply oeq_bad; intros; discriminate|].
  destruct (_ <? size); [|apply HS; reflexivity]. cbn [runs t_db]. change (t_db (strip (Tx d r0 h0 rw0))) with d.
  destruct (readdir d x cursor) as [[y n]|e]; [|apply (HS e buf (length buf) (Tx d r0 h0 rw0)); reflexivity].
  cbn [runs t_db]. change (t_db (strip (Tx d r0 h0 rw0))) with d. destruct (getattr d y) as [a|e]; [|apply (HS e buf (length buf) (Tx d r0 h0 rw0)); reflexivity].
  destruct (plusbuf_add buf n y a y) as [buf'| | |]; cbn [of_outcome obind]; [|apply oeq_bad; intros; discriminate..].
  destruct (decide (n = DOT)); [apply (IH _ _ _ (Tx d r0 h0 rw0)); reflexivity|]. destruct (decide (n = DOTDOT)); [apply (IH _ _ _ (Tx d r0 h0 rw0)); reflexivity|].
  cbn [runs]. change (strip (strip (Tx d r0 h0 rw0))) with (Tx d r0 [] rw0). cbn [opres step]. unfold lock. cbn [t_db t_refs t_rw t_hooks].
  destruct (incref r0 y 1) as [[z|e] r1]; cbn [obind t_db t_refs t_rw].
  - apply (IH _ _ _ (Tx d r1 (h0 ++ [RbDecref y]) rw0) eq_refl).
  - destruct (e =? ESTALE); [apply (IH _ _ _ (Tx d r1 h0 rw0) eq_refl)|]. apply (HN (Tx d r1 h0 rw0) eq_refl).
Qed.
Definition fin_p (s : fstate) (id : Z) (y : bool * list reply * tx) : fstate * list reply := (Fst (s_db s) (t_refs y.2) (delete id (s_plus s)), y.1.2).
Lemma plus_runs s id x d size off : s_plus s !! id = Some (d, x) ->
  oeq (h_plus s id size off) (then_fin (fin_p s id) (runs (p_plus x size off) (begin_tx d (s_refs s)))).
Proof.
  intros E. unfold h_plus, p_plus. rewrite E. cbn [runs]. change (t_db (begin_tx d (s_refs s))) with d.
  apply (plus_loop_runs d x size (fin_p s id) (dir_fuel d) (fun y t => match y with
     | None => Done (Fst (s_db s) (t_refs t) (delete id (s_plus s)), [RErr EIO])
     | Some (error, buf, to_send) => if error =? 0 then Done (Fst (s_db s) (t_refs t) (delete id (s_plus s)), [RBuf (take to_send buf)]) else Done (Fst (s_db s) (t_refs t) (delete id (s_plus s)), [RErr error]) end)
     ) with (t := begin_tx d (s_refs s)); [| |reflexivity].
  - intros e buf ts t _. unfold p_plus_end. destruct (e =? 0); apply oeq_refl.
  - intros t _. apply oeq_refl.
Qed.
