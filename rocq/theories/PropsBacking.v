(** C72: what a mount does at its backend. *)
From Verif Require Export Backing.

(** ** Inversion *)
Lemma runs_done {Y} (B : machine Y) y r0 tr y' r : runs B y (HDone r0) tr y' r -> tr = [] /\ y' = y /\ r = r0.
Proof. intros H. inversion H; subst; [auto|]. discriminate. Qed.
Lemma runs_wants {Y} (B : machine Y) y h c tr y' r : runs B y h tr y' r -> wants h = Some c -> exists a y1 tr', tr = (c, a) :: tr' /\ B y c a y1 /\ runs B y1 (resume h a) tr' y' r.
Proof. intros H Hw. inversion H as [|? ? c' a y1 tr' ? ? Hw' Hb Hr]; subst; [discriminate|]. rewrite Hw in Hw'. injection Hw' as <-. eauto 10. Qed.
Lemma runs_leave {Y} (B : machine Y) y d r0 tr y' r : well_typed B -> runs B y (HLeave d r0) tr y' r -> tr = [(KDestroyDir d, AVoid)] /\ r = r0.
Proof.
  intros HB H. destruct (runs_wants _ _ _ _ _ _ _ H eq_refl) as (a & y1 & tr' & -> & Hb & Hr). apply HB in Hb. destruct a; try destruct Hb. cbn [resume] in Hr. apply runs_done in Hr as (-> & _ & ->). auto.
Qed.

(** ** The loop of opendir *)
(** calls of the loop; it ends by destroying the directory unless the process dies *)
Definition in_loop (d : Z) (ca : bcall * bans) : Prop := ca.1 = KReaddir d \/ exists p, ca.1 = KLstat p.
Definition survives (r : result) : Prop := match r with Done _ | Throw => True | _ => False end.
Definition rest_of (s : fstate) (t : tx) (b : backend) (x : Z) (bp : bytes) (i : nat) (names : list bytes) : result :=
  replied (dlet t := sync_entries t b x bp i names in opendir_rest s t x).
Definition has_stats (b : backend) (i : nat) (l : list (bytes * res attrs)) : Prop := forall j p r, l !! j = Some (p, r) -> b_lstat b (i + j) p = r.
Lemma has_stats_cons b i p r l : has_stats b i ((p, r) :: l) -> b_lstat b i p = r /\ has_stats b (S i) l.
Proof. intros H. split; [specialize (H O p r eq_refl); rewrite Nat.add_0_r in H; exact H|]. intros j p' r' Hj. specialize (H (S j) p' r' Hj). rewrite Nat.add_succ_r in H. exact H. Qed.
Lemma loop_runs {Y} (B : machine Y) : well_typed B -> forall m tr, (length tr <= m)%nat -> forall y s t x bp d y' r, runs B y (HReaddir s t x bp d) tr y' r ->
  (forall b i, has_stats b i (stats_of tr) -> r = rest_of s t b x bp i (names_of tr)) /\
  (forall p r0, (p, r0) ∈ stats_of tr -> exists n, p = join_path bp n /\ n ∈ names_of tr) /\
  (survives r -> exists tr', tr = tr' ++ [(KDestroyDir d, AVoid)] /\ Forall (in_loop d) tr') /\
  (~ survives r -> Forall (in_loop d) tr) /\ ((exists e, ends_of tr = [e]) \/ (ends_of tr = [] /\ forall x, r <> Done x)).
Proof.
  intros HB. induction m as [|m IH]; intros tr Hm y s t x bp d y' r H; destruct (runs_wants _ _ _ _ _ _ _ H eq_refl) as (a & y1 & tr1 & -> & Hb & Hr); cbn [length] in Hm; [lia|].
  apply HB in Hb. destruct a as [| | |n| | | | |e]; try destruct Hb; cbn [resume] in Hr.
  - (* an entry *) destruct (runs_wants _ _ _ _ _ _ _ Hr eq_refl) as (a & y2 & tr2 & -> & Hb2 & Hr2). cbn [wants] in *. apply HB in Hb2. cbn [length] in Hm.
    destruct a as [st| | | | | | | |e]; try destruct Hb2; cbn [resume] in Hr2.
    + unfold goes_on in Hr2. destruct (emplace t x n (from_backend_stat st)) as [[rr t1]| | |] eqn:Ee.
      * cbn [snd] in Hr2. destruct (IH tr2 ltac:(lia) _ _ _ _ _ _ _ _ Hr2) as (I1 & I2 & I3 & I4 & I5). split; [|split; [|split; [|split]]].
        -- intros b i Hs. cbn [stats_of omap list_omap] in Hs. apply has_stats_cons in Hs as [Hs1 Hs2]. rewrite (I1 b (S i) Hs2). unfold rest_of. cbn [names_of omap list_omap sync_entries]. rewrite Hs1, Ee. reflexivity.
        -- intros p r0 Hp. cbn [stats_of omap list_omap] in Hp. cbn [names_of omap list_omap]. apply elem_of_cons in Hp as [Hp|Hp]; [injection Hp as -> _; exists n; split; [reflexivity|left]|]. destruct (I2 _ _ Hp) as (n' & -> & Hn). exists n'. split; [reflexivity|right; exact Hn].
        -- intros Hsv. destruct (I3 Hsv) as (tr' & -> & Hf). exists ((KReaddir d, AEntry n) :: (KLstat (join_path bp n), AStat st) :: tr'). split; [reflexivity|]. constructor; [left; reflexivity|]. constructor; [right; eexists; reflexivity|exact Hf].
        -- intros Hsv. constructor; [left; reflexivity|]. constructor; [right; eexists; reflexivity|]. exact (I4 Hsv).
        -- exact I5.
      * apply runs_leave in Hr2 as [-> ->]; [|exact HB]. split; [|split; [|split; [|split]]].
        -- intros b i Hs. cbn [stats_of omap list_omap] in Hs. apply has_stats_cons in Hs as [Hs1 _]. unfold rest_of. cbn [names_of omap list_omap sync_entries]. rewrite Hs1, Ee. reflexivity.
        -- intros p r0 Hp. cbn [stats_of omap list_omap] in Hp. apply elem_of_list_singleton in Hp. injection Hp as -> _. exists n. split; [reflexivity|left].
        -- intros _. exists [(KReaddir d, AEntry n); (KLstat (join_path bp n), AStat st)]. split; [reflexivity|]. constructor; [left; reflexivity|]. constructor; [right; eexists; reflexivity|constructor].
        -- intros Hsv. destruct Hsv. exact I.
        -- right. split; [reflexivity|discriminate].
      * apply runs_done in Hr2 as (-> & _ & ->). split; [|split; [|split; [|split]]].
        -- intros b i Hs. cbn [stats_of omap list_omap] in Hs. apply has_stats_cons in Hs as [Hs1 _]. unfold rest_of. cbn [names_of omap list_omap sync_entries]. rewrite Hs1, Ee. reflexivity.
        -- intros p r0 Hp. cbn [stats_of omap list_omap] in Hp. apply elem_of_list_singleton in Hp. injection Hp as -> _. exists n. split; [reflexivity|left].
        -- intros [].
        -- intros _. constructor; [left; reflexivity|]. constructor; [right; eexists; reflexivity|constructor].
        -- right. split; [reflexivity|discriminate].
      * apply runs_done in Hr2 as (-> & _ & ->). split; [|split; [|split; [|split]]].
        -- intros b i Hs. cbn [stats_of omap list_omap] in Hs. apply has_stats_cons in Hs as [Hs1 _]. unfold rest_of. cbn [names_of omap list_omap sync_entries]. rewrite Hs1, Ee. reflexivity.
        -- intros p r0 Hp. cbn [stats_of omap list_omap] in Hp. apply elem_of_list_singleton in Hp. injection Hp as -> _. exists n. split; [reflexivity|left].
        -- intros [].
        -- intros _. constructor; [left; reflexivity|]. constructor; [right; eexists; reflexivity|constructor].
        -- right. split; [reflexivity|discriminate].
    + destruct (IH tr2 ltac:(lia) _ _ _ _ _ _ _ _ Hr2) as (I1 & I2 & I3 & I4 & I5). split; [|split; [|split; [|split]]].
      * intros b i Hs. cbn [stats_of omap list_omap] in Hs. apply has_stats_cons in Hs as [Hs1 Hs2]. rewrite (I1 b (S i) Hs2). unfold rest_of. cbn [names_of omap list_omap sync_entries]. rewrite Hs1. reflexivity.
      * intros p r0 Hp. cbn [stats_of omap list_omap] in Hp. cbn [names_of omap list_omap]. apply elem_of_cons in Hp as [Hp|Hp]; [injection Hp as -> _; exists n; split; [reflexivity|left]|]. destruct (I2 _ _ Hp) as (n' & -> & Hn). exists n'. split; [reflexivity|right; exact Hn].
      * intros Hsv. destruct (I3 Hsv) as (tr' & -> & Hf). exists ((KReaddir d, AEntry n) :: (KLstat (join_path bp n), AFail e) :: tr'). split; [reflexivity|]. constructor; [left; reflexivity|]. constructor; [right; eexists; reflexivity|exact Hf].
      * intros Hsv. constructor; [left; reflexivity|]. constructor; [right; eexists; reflexivity|]. exact (I4 Hsv).
      * exact I5.
  - (* the end *) cbn [names_of stats_of ends_of omap list_omap]. unfold leaves in Hr.
    assert (Hcase : (tr1 = [(KDestroyDir d, AVoid)] /\ r = replied (opendir_rest s t x) /\ survives r) \/ (tr1 = [] /\ r = replied (opendir_rest s t x) /\ ~ survives r)).
    { destruct (replied (opendir_rest s t x)) eqn:Er; [apply runs_leave in Hr as [-> ->]; [left; cbn; auto|exact HB]|apply runs_leave in Hr as [-> ->]; [left; cbn; auto|exact HB]|apply runs_done in Hr as (-> & _ & ->); right; cbn; auto|apply runs_done in Hr as (-> & _ & ->); right; cbn; auto]. }
    destruct Hcase as [(-> & -> & Hsv)|(-> & -> & Hsv)]; (split; [intros b i _; unfold rest_of; cbn [names_of omap list_omap sync_entries]; reflexivity|]; split; [intros p r0 Hp; inversion Hp|]; split; [|split]).
    + intros _. exists [(KReaddir d, AFail e)]. split; [reflexivity|]. constructor; [left; reflexivity|constructor].
    + intros Hn. destruct (Hn Hsv).
    + left. exists e. reflexivity.
    + intros Hn. destruct (Hsv Hn).
    + intros _. constructor; [left; reflexivity|constructor].
    + left. exists e. reflexivity.
Qed.

(** ** Specification *)
(** the table [b] gives the answers of the calls in [tr] *)
Definition gives (b : backend) (tr : trace) : Prop :=
  (forall i p r, stats_of tr !! i = Some (p, r) -> b_lstat b i p = r) /\
  (forall p r, (p, r) ∈ links_of tr -> b_readlink b p = r) /\
  (forall p e, (p, Err e) ∈ dirs_of tr -> b_opendir b p = Err e) /\
  (forall p d, (p, Ok d) ∈ dirs_of tr -> exists e, b_opendir b p = Ok (names_of tr, e) /\ (ends_of tr = [] \/ ends_of tr = [e])).
Definition reads_only (c : bcall) : Prop :=
  match c with KLstat _ | KReadlink _ | KOpendir _ | KReaddir _ | KDestroyDir _ => True | _ => False end.
(** the calls of a request *)
Definition calls_of (s : fstate) (q : oreq) (tr : trace) : Prop :=
  match q with
  | OLookup p n => tr = [] \/ exists pp a, asked s p = Some pp /\ tr = [(KLstat (pp ++ [47] ++ n), a)]
  | OReadlink x => tr = [] \/ exists pp a, asked s x = Some pp /\ tr = [(KReadlink (backend_path pp), a)]
  | OOpendir x => tr = [] \/ exists pp a tr', asked s x = Some pp /\ tr = (KOpendir (backend_path pp), a) :: tr' /\
      match a with
      | ADir d => forall c b, (c, b) ∈ tr' -> c = KReaddir d \/ c = KDestroyDir d \/ exists n, c = KLstat (join_path (backend_path pp) n) /\ n ∈ names_of tr'
      | _ => tr' = []
      end
  | OPlain _ => tr = []
  end.
(** every directory the request opens is destroyed, as its last action, and only read before that *)
Definition closes (tr : trace) : Prop := forall tr1 p d tr2, tr = tr1 ++ (KOpendir p, ADir d) :: tr2 ->
  exists tr3, tr2 = tr3 ++ [(KDestroyDir d, AVoid)] /\ Forall (fun ca => ca.1 = KReaddir d \/ exists p, ca.1 = KLstat p) tr3.

(** ** One request *)
Lemma loop_omap {A} d (f : bcall * bans -> option A) tr : (forall n a, f (KReaddir n, a) = None) -> (forall p a, f (KLstat p, a) = None) -> Forall (in_loop d) tr -> omap f tr = [].
Proof. intros H1 H2 H. induction H as [|[c a] tr Hc _ IH]; [reflexivity|]. destruct Hc as [E|[p E]]; cbn in E; subst c; cbn [omap list_omap]; [rewrite H1|rewrite H2]; exact IH. Qed.
Lemma loop_links d tr : Forall (in_loop d) tr -> links_of tr = [].
Proof. apply loop_omap; reflexivity. Qed.
Lemma loop_dirs d tr : Forall (in_loop d) tr -> dirs_of tr = [].
Proof. apply loop_omap; reflexivity. Qed.
Lemma loop_no {Y} (B : machine Y) y s t x bp d tr y' r : well_typed B -> runs B y (HReaddir s t x bp d) tr y' r -> links_of tr = [] /\ dirs_of tr = [] /\ Forall (fun ca => ca.1 = KReaddir d \/ ca.1 = KDestroyDir d \/ exists p, ca.1 = KLstat p) tr.
Proof.
  intros HB H. destruct (loop_runs B HB _ _ (le_n _) _ _ _ _ _ _ _ _ H) as (_ & _ & I3 & I4 & _).
  assert (Hd : survives r \/ ~ survives r) by (destruct r; cbn; tauto). destruct Hd as [Hsv|Hsv].
  - destruct (I3 Hsv) as (tr' & -> & Hf). split; [unfold links_of; rewrite omap_app; fold (links_of tr'); rewrite (loop_links _ _ Hf); reflexivity|]. split; [unfold dirs_of; rewrite omap_app; fold (dirs_of tr'); rewrite (loop_dirs _ _ Hf); reflexivity|].
    apply Forall_app. split; [|constructor; [right; left; reflexivity|constructor]]. eapply Forall_impl; [exact Hf|]. intros [c a] [E|E]; auto.
  - pose proof (I4 Hsv) as Hf. split; [exact (loop_links _ _ Hf)|]. split; [exact (loop_dirs _ _ Hf)|]. eapply Forall_impl; [exact Hf|]. intros [c a] [E|E]; auto.
Qed.
Lemma serves_table {Y} (B : machine Y) y s q tr y' r : well_typed B -> plain q -> serves B y s q tr y' r -> gives (table_of tr) tr /\ r = fstep s (with_backend q (table_of tr)).
Proof.
  intros HB Hpl H. unfold serves in H.
  assert (Hnil : forall r0, start s q = HDone r0 -> r0 = fstep s (with_backend q (table_of [])) -> gives (table_of tr) tr /\ r = fstep s (with_backend q (table_of tr))).
  { intros r0 Es Er. rewrite Es in H. apply runs_done in H as (-> & _ & ->). split; [|exact Er]. repeat split; intros; cbn in *; try set_solver. }
  destruct q as [p n|x|x|q]; cbn [start with_backend] in *.
  - destruct (path (s_db s) p) as [[pp|e]| | |] eqn:Ep; cbn [t_db begin_tx] in *; rewrite Ep in *; try (eapply Hnil; [reflexivity|]; cbn [fstep]; unfold h_lookup; cbn [t_db begin_tx]; rewrite Ep; reflexivity).
    destruct (runs_wants _ _ _ _ _ _ _ H eq_refl) as (a & y1 & tr' & -> & Hb & Hr). cbn [wants] in Hb. apply HB in Hb.
    destruct a as [st| | | | | | | |e]; try destruct Hb; cbn [resume] in Hr; apply runs_done in Hr as (-> & _ & ->).
    + split; [|cbn [fstep]; unfold h_lookup; cbn [t_db begin_tx]; rewrite Ep; reflexivity]. repeat split; intros; cbn in *; try set_solver. destruct i as [|[|i]]; cbn in *; congruence.
    + split; [|cbn [fstep]; unfold h_lookup; cbn [t_db begin_tx]; rewrite Ep; reflexivity]. repeat split; intros; cbn in *; try set_solver. destruct i as [|[|i]]; cbn in *; congruence.
  - destruct (path (s_db s) x) as [[pp|e]| | |] eqn:Ep; cbn [t_db begin_tx] in *; rewrite Ep in *; try (eapply Hnil; [reflexivity|]; cbn [fstep]; unfold h_readlink; cbn [t_db begin_tx]; rewrite Ep; reflexivity).
    destruct (runs_wants _ _ _ _ _ _ _ H eq_refl) as (a & y1 & tr' & -> & Hb & Hr). cbn [wants] in Hb. apply HB in Hb.
    destruct a as [| |l| | | | | |e]; try destruct Hb; cbn [resume] in Hr; apply runs_done in Hr as (-> & _ & ->).
    + split; [|cbn [fstep]; unfold h_readlink; cbn [t_db begin_tx]; rewrite Ep; reflexivity]. repeat split; intros; cbn in *; try set_solver.
    + split; [|cbn [fstep]; unfold h_readlink; cbn [t_db begin_tx]; rewrite Ep; reflexivity]. repeat split; intros; cbn in *; try set_solver.
  - destruct (path (s_db s) x) as [[pp|e]| | |] eqn:Ep; cbn [t_db begin_tx] in *; rewrite Ep in *; try (eapply Hnil; [reflexivity|]; cbn [fstep]; unfold h_opendir; cbn [t_db begin_tx]; rewrite Ep; reflexivity).
    destruct (runs_wants _ _ _ _ _ _ _ H eq_refl) as (a & y1 & tr' & -> & Hb & Hr). cbn [wants] in *. apply HB in Hb.
    destruct a as [| |d| | | | | |e]; try destruct Hb; cbn [resume] in Hr.
    + unfold goes_on in Hr. cbn [fstep]; unfold h_opendir; cbn [t_db begin_tx]; rewrite Ep. cbn [obind].
      assert (Hend : forall tr1, tr' = tr1 -> (tr1 = [(KDestroyDir d, AVoid)] \/ tr1 = []) -> gives (table_of ((KOpendir (backend_path pp), ADir d) :: tr')) ((KOpendir (backend_path pp), ADir d) :: tr')).
      { intros tr1 -> [->| ->]; repeat split; intros; cbn in *; try set_solver; eexists; (split; [reflexivity|left; reflexivity]). }
      cbn [table_of b_opendir dirs_of omap list_omap]. destruct (start_dir_rewrite (begin_tx (s_db s) (s_refs s)) x) as [[rr t1]| | |] eqn:Es.
      * cbn [snd] in Hr. destruct (loop_no B _ _ _ _ _ _ _ _ _ HB Hr) as (L1 & L2 & _). destruct (loop_runs B HB _ _ (le_n _) _ _ _ _ _ _ _ _ Hr) as (I1 & _ & _ & _ & _). split.
        -- unfold gives. cbn [table_of b_lstat b_readlink b_opendir stats_of links_of dirs_of names_of ends_of omap list_omap]. fold (stats_of tr') (links_of tr') (dirs_of tr') (names_of tr') (ends_of tr'). rewrite L1, L2. split; [|split; [|split]].
           ++ intros i p r0 Hi. rewrite Hi. reflexivity.
           ++ intros p r0 Hp. inversion Hp.
           ++ intros p e Hp. apply elem_of_list_singleton in Hp. discriminate.
           ++ intros p d' _. eexists. split; [reflexivity|]. destruct (loop_runs B HB _ _ (le_n _) _ _ _ _ _ _ _ _ Hr) as (_ & _ & _ & _ & [[e He]|[He _]]); rewrite He; [right; reflexivity|left; reflexivity].
        -- rewrite (I1 (table_of ((KOpendir (backend_path pp), ADir d) :: tr')) 0%nat); [reflexivity|]. intros j p r0 Hj. cbn [table_of b_lstat stats_of omap list_omap Nat.add]. fold (stats_of tr'). rewrite Hj. reflexivity.
      * apply runs_leave in Hr as [-> ->]; [|exact HB]. split; [eapply Hend; [reflexivity|left; reflexivity]|reflexivity].
      * apply runs_done in Hr as (-> & _ & ->). split; [eapply Hend; [reflexivity|right; reflexivity]|reflexivity].
      * apply runs_done in Hr as (-> & _ & ->). split; [eapply Hend; [reflexivity|right; reflexivity]|reflexivity].
    + apply runs_done in Hr as (-> & _ & ->). split; [repeat split; intros; cbn in *; set_solver|]. cbn [fstep]. unfold h_opendir. cbn [t_db begin_tx]. rewrite Ep. reflexivity.
  - eapply Hnil; reflexivity.
Qed.
(** On any backend, whatever it answers and however it changes, a request does what the handlers of
    Fs.v do on the table of the answers it got. *)
Theorem C72_same : forall Y (B : machine Y) y s q tr y' r, well_typed B -> plain q -> serves B y s q tr y' r ->
  exists b, gives b tr /\ r = fstep s (with_backend q b).
Proof. intros Y B y s q tr y' r HB Hpl H. exists (table_of tr). eapply serves_table; eassumption. Qed.
Print Assumptions C72_same.

(** A request makes no other calls than these: one about the path it names, and for a listing also
    the entries of it.  None of them changes anything. *)
Theorem C72_calls : forall Y (B : machine Y) y s q tr y' r, well_typed B -> plain q -> serves B y s q tr y' r ->
  calls_of s q tr /\ Forall (fun ca => reads_only ca.1) tr.
Proof.
  intros Y B y s q tr y' r HB Hpl H. unfold serves in H. destruct q as [p n|x|x|q]; cbn [start calls_of] in *.
  - unfold asked. destruct (path (s_db s) p) as [[pp|e]| | |] eqn:Ep; cbn [t_db begin_tx] in H; rewrite Ep in H; try (apply runs_done in H as (-> & _ & _); split; [left; reflexivity|constructor]).
    destruct (runs_wants _ _ _ _ _ _ _ H eq_refl) as (a & y1 & tr' & -> & Hb & Hr). cbn [wants] in *. apply HB in Hb.
    assert (tr' = []) as -> by (destruct a; try destruct Hb; cbn [resume] in Hr; apply runs_done in Hr; tauto). split; [right; eexists _, _; split; reflexivity|constructor; [exact I|constructor]].
  - unfold asked. destruct (path (s_db s) x) as [[pp|e]| | |] eqn:Ep; cbn [t_db begin_tx] in H; rewrite Ep in H; try (apply runs_done in H as (-> & _ & _); split; [left; reflexivity|constructor]).
    destruct (runs_wants _ _ _ _ _ _ _ H eq_refl) as (a & y1 & tr' & -> & Hb & Hr). cbn [wants] in *. apply HB in Hb.
    assert (tr' = []) as -> by (destruct a; try destruct Hb; cbn [resume] in Hr; apply runs_done in Hr; tauto). split; [right; eexists _, _; split; reflexivity|constructor; [exact I|constructor]].
  - unfold asked. destruct (path (s_db s) x) as [[pp|e]| | |] eqn:Ep; cbn [t_db begin_tx] in H; rewrite Ep in H; try (apply runs_done in H as (-> & _ & _); split; [left; reflexivity|constructor]).
    destruct (runs_wants _ _ _ _ _ _ _ H eq_refl) as (a & y1 & tr' & -> & Hb & Hr). cbn [wants] in *. apply HB in Hb.
    assert (Hlp : match a with
      | ADir d => forall c b, (c, b) ∈ tr' -> c = KReaddir d \/ c = KDestroyDir d \/ exists n, c = KLstat (join_path (backend_path pp) n) /\ n ∈ names_of tr'
      | _ => tr' = [] end).
    { destruct a as [| |d| | | | | |e]; try destruct Hb; cbn [resume] in Hr; [|apply runs_done in Hr; tauto]. unfold goes_on in Hr.
      destruct (start_dir_rewrite (begin_tx (s_db s) (s_refs s)) x) as [[rr t1]| | |].
      - cbn [snd] in Hr. destruct (loop_no B _ _ _ _ _ _ _ _ _ HB Hr) as (_ & _ & L3). destruct (loop_runs B HB _ _ (le_n _) _ _ _ _ _ _ _ _ Hr) as (_ & I2 & _). assert (Htyped : forall c b, (c, b) ∈ tr' -> typed c b).
        { clear -HB Hr. induction Hr as [|? ? c a ? ? ? ? Hw Hc Hr IH]; [intros c b Hin; inversion Hin|]. intros c' b Hin. apply elem_of_cons in Hin as [E|Hin]; [injection E as -> ->; eapply HB; exact Hc|auto]. }
        intros c b Hin. rewrite Forall_forall in L3. destruct (L3 _ Hin) as [E|[E|[p E]]]; cbn in E; [auto|auto|]. right. right. subst c. pose proof (Htyped _ _ Hin) as Ht.
        assert (exists r0, (p, r0) ∈ stats_of tr') as [r0 Hr0]. { destruct b; try destruct Ht; eexists; unfold stats_of; apply elem_of_list_omap; eexists; (split; [exact Hin|reflexivity]). }
        destruct (I2 _ _ Hr0) as (n & -> & Hn). eauto.
      - apply runs_leave in Hr as [-> _]; [|exact HB]. intros c b Hin. apply elem_of_list_singleton in Hin. injection Hin as -> _. auto.
      - apply runs_done in Hr as (-> & _). intros c b Hin. inversion Hin.
      - apply runs_done in Hr as (-> & _). intros c b Hin. inversion Hin. }
    split; [right; eexists _, _, _; split; [reflexivity|]; split; [reflexivity|exact Hlp]|]. constructor; [exact I|]. apply Forall_forall. intros [c b] Hin. destruct a; try (rewrite Hlp in Hin; inversion Hin; fail). destruct (Hlp _ _ Hin) as [->|[->|(n & -> & _)]]; exact I.
  - apply runs_done in H as (-> & _). split; [reflexivity|constructor].
Qed.
Print Assumptions C72_calls.
(** A request that ends leaves no directory open at the backend. *)
Theorem C72_closes : forall Y (B : machine Y) y s q tr y' r, well_typed B -> plain q -> serves B y s q tr y' r -> survives r -> closes tr.
Proof.
  intros Y B y s q tr y' r HB Hpl H Hsv tr1 p d tr2 E. pose proof H as Hall. apply C72_calls in Hall as [Hc _]; [|assumption..]. destruct q as [p' n|x|x|q]; cbn [calls_of] in Hc.
  - exfalso. destruct Hc as [->|(pp & a & _ & ->)]; [destruct tr1; discriminate|]. destruct tr1 as [|? [|]]; discriminate.
  - exfalso. destruct Hc as [->|(pp & a & _ & ->)]; [destruct tr1; discriminate|]. destruct tr1 as [|? [|]]; discriminate.
  - destruct Hc as [->|(pp & a & tr' & Ha & -> & Hl)]; [destruct tr1; discriminate|].
    assert (tr1 = []) as ->.
    { destruct tr1 as [|ca tr1]; [reflexivity|exfalso]. injection E as <- E. assert (Hin : (KOpendir p, ADir d) ∈ tr') by (rewrite E; apply elem_of_app; right; left).
      destruct a; try (rewrite Hl in Hin; inversion Hin; fail). destruct (Hl _ _ Hin) as [?|[?|(? & ? & _)]]; discriminate. }
    injection E as <- -> ->. unfold serves in H. cbn [start] in H. unfold asked in Ha. destruct (path (s_db s) x) as [[pp'|]| | |] eqn:Ep; try discriminate Ha. injection Ha as ->. cbn [t_db begin_tx] in H. rewrite Ep in H.
    destruct (runs_wants _ _ _ _ _ _ _ H eq_refl) as (a & y1 & tr' & E & Hb & Hr). injection E as <- <-. cbn [resume] in Hr. unfold goes_on in Hr. destruct (start_dir_rewrite (begin_tx (s_db s) (s_refs s)) x) as [[rr t1]| | |].
    + cbn [snd] in Hr. destruct (loop_runs B HB _ _ (le_n _) _ _ _ _ _ _ _ _ Hr) as (_ & _ & I3 & _). apply I3. exact Hsv.
    + apply runs_leave in Hr as [-> _]; [|exact HB]. exists []. split; [reflexivity|constructor].
    + apply runs_done in Hr as (_ & _ & ->). destruct Hsv.
    + apply runs_done in Hr as (_ & _ & ->). destruct Hsv.
  - subst tr. destruct tr1; discriminate.
Qed.
Print Assumptions C72_closes.

(** ** Histories *)
(** The kernel's requests are legal, and the answers of the backend are in the ranges of their types. *)
Definition olegal (k : kst) (s : fstate) (q : oreq) : Prop :=
  match q with
  | OLookup p _ => kdir k p
  | OReadlink _ => True
  | OOpendir x => kdir k x
  | OPlain q => backend_of q = None /\ klegal k s q
  end.
Definition answers_ok (tr : trace) : Prop := Forall (fun ca => match ca.2 with AStat a => attrs_ok a | ALink l => Z.of_nat (length l) < 2 ^ 64 | _ => True end) tr.
Definition cost (s : fstate) (q : oreq) (tr : trace) : Z :=
  match q with OLookup _ _ => 2 | OReadlink _ => 0 | OOpendir _ => Z.of_nat (length (names_of tr)) | OPlain q => weight s q end.
Definition silent : backend := Backend (fun _ _ => Err ENOTCONN) (fun _ => Err ENOTCONN) (fun _ => Err ENOTCONN).
(** [y0] and [y]: the state of the backend at the start and now; somebody else may change it between
    two requests ([env]).  [T]: all calls so far. *)
Record bevent := BEv { be_q : oreq; be_tr : trace; be_sent : list reply }.
Inductive bhist {Y} (B : machine Y) (env : Y -> Y -> Prop) (y0 : Y) : Y -> Z -> fstate -> kst -> list bevent -> Prop :=
| bh_open root d r : attrs_ok root -> open_cache root db_empty = Done (d, r) -> bhist B env y0 y0 0 (Fst d r ∅) k0 []
| bh_env y y' W s k h : bhist B env y0 y W s k h -> env y y' -> bhist B env y0 y' W s k h
| bh_step y W s k h q tr y' s' o sent : bhist B env y0 y W s k h -> olegal k s q -> serves B y s q tr y' (Done (s', o)) -> answers_ok tr ->
    W + cost s q tr + 3 < 2 ^ 63 -> sent_of o = (sent, false) ->
    bhist B env y0 y' (W + cost s q tr) s' (kstep k (with_backend q silent) sent) (h ++ [BEv q tr sent]).

Lemma table_ok tr : answers_ok tr -> backend_ok (table_of tr).
Proof.
  intros H. unfold answers_ok in H. rewrite Forall_forall in H. split.
  - intros i p st E. cbn [table_of b_lstat] in E. destruct (stats_of tr !! i) as [[p' r]|] eqn:Ei; [|discriminate]. subst r. apply elem_of_list_lookup_2 in Ei. unfold stats_of in Ei. apply elem_of_list_omap in Ei as ([c a] & Hin & E).
    destruct c, a; try discriminate. injection E as -> ->. exact (H _ Hin).
  - intros p l E. cbn [table_of b_readlink] in E. destruct (links_of tr) as [|[p' r] ?] eqn:El; [discriminate|]. subst r. assert (Hin : (p', Ok l) ∈ links_of tr) by (rewrite El; left). unfold links_of in Hin. apply elem_of_list_omap in Hin as ([c a] & Hin & E).
    destruct c, a; try discriminate. injection E as -> ->. exact (H _ Hin).
Qed.
Lemma olegal_plain k s q : olegal k s q -> plain q.
Proof. destruct q; cbn; tauto. Qed.
Lemma legal_table k s q tr : olegal k s q -> answers_ok tr -> klegal k s (with_backend q (table_of tr)).
Proof. intros Hl Ha. pose proof (table_ok _ Ha) as Hb. destruct q; cbn in *; tauto. Qed.
Lemma cost_table {Y} (B : machine Y) y s q tr y' r : well_typed B -> plain q -> serves B y s q tr y' r -> weight s (with_backend q (table_of tr)) = cost s q tr.
Proof.
  intros HB Hpl H. destruct (serves_table _ _ _ _ _ _ _ HB Hpl H) as [(_ & _ & G3 & G4) _]. destruct (C72_calls _ _ _ _ _ _ _ _ HB Hpl H) as [Hc _]. destruct q as [p n|x|x|q]; cbn [with_backend weight cost calls_of] in *; try reflexivity.
  destruct Hc as [->|(pp & a & tr' & Ha & -> & Hl)].
  - cbn. destruct (path (s_db s) x) as [[pp|]| | |]; reflexivity.
  - unfold asked in Ha. destruct (path (s_db s) x) as [[pp'|]| | |]; try discriminate Ha. injection Ha as ->. destruct a; try (rewrite Hl; cbn; reflexivity). reflexivity.
Qed.
Lemma kstep_backend k q b b' sent : kstep k (with_backend q b) sent = kstep k (with_backend q b') sent.
Proof. destruct q; reflexivity. Qed.
(** Everything that is proved about histories holds on such a backend as well: *)
Theorem C72_histories : forall Y (B : machine Y) env y0 y W s k h, well_typed B -> bhist B env y0 y W s k h ->
  exists h', hist W s k h' /\ Forall2 (fun e be => (exists b, backend_ok b /\ gives b (be_tr be) /\ ev_q e = with_backend (be_q be) b) /\ ev_sent e = be_sent be) h' h.
Proof.
  intros Y B env y0 y W s k h HB H. induction H as [root d r Ha E|y y' W s k h H IH He|y W s k h q tr y' s' o sent H IH Hl Hs Ha HW Ho].
  - exists []. split; [econstructor; eassumption|constructor].
  - exact IH.
  - destruct IH as (h' & Hh & Hf). pose proof (olegal_plain _ _ _ Hl) as Hp. destruct (serves_table _ _ _ _ _ _ _ HB Hp Hs) as [Hg Hr]. pose proof (cost_table _ _ _ _ _ _ _ HB Hp Hs) as Hw.
    exists (h' ++ [Ev s (with_backend q (table_of tr)) sent]). split.
    + rewrite <- Hw, (kstep_backend _ _ _ (table_of tr)). econstructor; [exact Hh|apply legal_table; assumption|unfold enough; lia|symmetry; exact Hr|exact Ho].
    + apply Forall2_app; [exact Hf|]. constructor; [|constructor]. cbn. split; [|reflexivity]. exists (table_of tr). split; [apply table_ok; exact Ha|]. auto.
Qed.
Print Assumptions C72_histories.
(** Where the backend is asked: the root is "/", any other directory its path [pp], an entry of a
    listing [pp]/entry (but see C41_where for the path "/"). *)
Theorem C72_where : forall Y (B : machine Y) env y0 y W s k h x pp tr y' r, well_typed B -> bhist B env y0 y W s k h -> serves B y s (OOpendir x) tr y' r -> asked s x = Some pp -> pp <> [47] ->
  forall c a, (c, a) ∈ tr -> c = KOpendir (if decide (pp = []) then [47] else pp) \/ (exists d, c = KReaddir d \/ c = KDestroyDir d) \/ exists n, c = KLstat (pp ++ [47] ++ n) /\ n ∈ names_of tr.
Proof.
  intros Y B env y0 y W s k h x pp tr y' r HB Hh Hs Ha Hne c a Hin. destruct (C72_histories _ _ _ _ _ _ _ _ _ HB Hh) as (h' & H & _). destruct (C72_calls _ _ _ _ _ _ _ _ HB (I : plain (OOpendir x)) Hs) as [Hc _]. cbn [calls_of] in Hc.
  destruct Hc as [->|(pp' & a0 & tr' & Ha' & -> & Hl)]; [inversion Hin|]. rewrite Ha in Ha'. injection Ha' as <-. apply elem_of_cons in Hin as [E|Hin].
  - injection E as -> ->. left. rewrite (proj1 (C41_where _ _ _ _ _ _ [] H Ha)). reflexivity.
  - right. destruct a0 as [| |d| | | | | |]; try (rewrite Hl in Hin; inversion Hin; fail). destruct (Hl _ _ Hin) as [->|[->|(n & -> & Hn)]]; [left; eauto|left; eauto|]. right. exists n. rewrite (proj2 (C41_where _ _ _ _ _ _ n H Ha) Hne). split; [reflexivity|exact Hn].
Qed.
Print Assumptions C72_where.
(** A mount never changes its backend: only reading calls are made, and if these do not change the
    backend then only others do. *)
Theorem C72_read_only : forall Y (B : machine Y) env y0 y W s k h, well_typed B -> bhist B env y0 y W s k h ->
  Forall (fun be => Forall (fun ca => reads_only ca.1) (be_tr be)) h /\
  ((forall y c a y', reads_only c -> B y c a y' -> y' = y) -> rtc env y0 y).
Proof.
  intros Y B env y0 y W s k h HB H. induction H as [root d r Ha E|y y' W s k h H IH He|y W s k h q tr y' s' o sent H IH Hl Hs Ha HW Ho].
  - split; [constructor|]. intros _. reflexivity.
  - destruct IH as [I1 I2]. split; [exact I1|]. intros HR. eapply rtc_r; [exact (I2 HR)|exact He].
  - destruct IH as [I1 I2]. destruct (C72_calls _ _ _ _ _ _ _ _ HB (olegal_plain _ _ _ Hl) Hs) as [_ Hro]. split; [apply Forall_app; split; [exact I1|constructor; [exact Hro|constructor]]|].
    intros HR. assert (y' = y) as -> by (clear -Hs Hro HR; unfold serves in Hs; induction Hs as [|? ? c a ? ? ? ? Hw Hc Hr IH]; [reflexivity|]; inversion Hro as [|? ? H1 H2]; subst; rewrite (IH H2); eapply HR; eassumption). exact (I2 HR).
Qed.
Print Assumptions C72_read_only.

(** ** The other way round *)
(** A backend that plays a table of answers: the table, how many times lstat was called for this
    request, and the entries of the directory that are left. *)
Definition player_state : Type := backend * nat * (list bytes * Z).
Definition player : machine player_state := fun y c a y' =>
  let '(b, i, (names, e)) := y in
  match c with
  | KLstat p => a = match b_lstat b i p with Ok st => AStat st | Err e => AFail e end /\ y' = (b, S i, (names, e))
  | KReadlink p => a = match b_readlink b p with Ok l => ALink l | Err e => AFail e end /\ y' = y
  | KOpendir p => match b_opendir b p with Ok l => a = ADir 0 /\ y' = (b, i, l) | Err e => a = AFail e /\ y' = y end
  | KReaddir _ => match names with n :: names => a = AEntry n /\ y' = (b, i, (names, e)) | [] => a = AFail e /\ y' = y end
  | KDestroyDir _ | KDestroyFile _ => a = AVoid /\ y' = y
  | _ => a = AFail EIO /\ y' = y
  end.
Definition load (b : backend) : player_state := (b, 0%nat, ([], 0)).
Lemma player_typed : well_typed player.
Proof.
  intros [[b i] [names e]] c a y' H. destruct c; cbn [player] in H; try (destruct H as [-> _]; exact I).
  - destruct H as [-> _]. destruct (b_lstat b i p); exact I.
  - destruct H as [-> _]. destruct (b_readlink b p); exact I.
  - destruct (b_opendir b p) as [l|]; destruct H as [-> _]; exact I.
  - destruct names; destruct H as [-> _]; exact I.
Qed.
Lemma leave_player y d r : exists tr y', runs player y (leaves d r) tr y' r /\ answers_ok tr /\ names_of tr = [].
Proof.
  assert (Hl : exists tr y', runs player y (HLeave d r) tr y' r /\ answers_ok tr /\ names_of tr = []).
  { eexists _, y. split; [econstructor; [reflexivity| |]|].
    - destruct y as [[b i] [names e]]. cbn [player]. split; reflexivity.
    - cbn [resume]. constructor.
    - split; [constructor; [exact I|constructor]|reflexivity]. }
  destruct r; cbn [leaves]; auto; eexists _, y; (split; [constructor|]; split; [constructor|reflexivity]).
Qed.
Lemma loop_player b s x bp d e : backend_ok b -> forall names t i, exists tr y', runs player (b, i, (names, e)) (HReaddir s t x bp d) tr y' (rest_of s t b x bp i names) /\ answers_ok tr /\
  (forall z, rest_of s t b x bp i names = Done z -> names_of tr = names).
Proof.
  intros [Hb _]. induction names as [|n names IH]; intros t i.
  - destruct (leave_player (b, i, ([], e)) d (replied (opendir_rest s t x))) as (tr & y' & H & Ha & Hn). exists ((KReaddir d, AFail e) :: tr), y'. split; [|split].
    + econstructor; [reflexivity|cbn [player]; split; reflexivity|]. cbn [resume]. exact H.
    + constructor; [exact I|exact Ha].
    + intros z _. exact Hn.
  - assert (Hgo : exists tr y', runs player (b, i, (names, e)) (HStat s t x bp d n) tr y' (rest_of s t b x bp i (n :: names)) /\ answers_ok tr /\ (forall z, rest_of s t b x bp i (n :: names) = Done z -> names_of tr = names)).
    { unfold rest_of. cbn [sync_entries]. destruct (b_lstat b i (join_path bp n)) as [st|e'] eqn:El.
      - pose proof (Hb _ _ _ El) as Hok. destruct (emplace t x n (from_backend_stat st)) as [[rr t1]| | |] eqn:Ee.
        + destruct (IH t1 (S i)) as (tr & y' & H & Ha & Hn). eexists ((_, AStat st) :: tr), y'. split; [|split].
          * econstructor; [reflexivity|cbn [wants player]; rewrite El; split; reflexivity|]. cbn [resume]. unfold goes_on. rewrite Ee. cbn [snd]. exact H.
          * constructor; [exact Hok|exact Ha].
          * exact Hn.
        + destruct (leave_player (b, S i, (names, e)) d Throw) as (tr & y' & H & Ha & Hn). eexists ((_, AStat st) :: tr), y'. split; [|split].
          * econstructor; [reflexivity|cbn [wants player]; rewrite El; split; reflexivity|]. cbn [resume]. unfold goes_on. rewrite Ee. exact H.
          * constructor; [exact Hok|exact Ha].
          * discriminate.
        + eexists [(_, AStat st)], _. split; [|split].
          * econstructor; [reflexivity|cbn [wants player]; rewrite El; split; reflexivity|]. cbn [resume]. unfold goes_on. rewrite Ee. constructor.
          * constructor; [exact Hok|constructor].
          * discriminate.
        + eexists [(_, AStat st)], _. split; [|split].
          * econstructor; [reflexivity|cbn [wants player]; rewrite El; split; reflexivity|]. cbn [resume]. unfold goes_on. rewrite Ee. constructor.
          * constructor; [exact Hok|constructor].
          * discriminate.
      - destruct (IH t (S i)) as (tr & y' & H & Ha & Hn). eexists ((_, AFail e') :: tr), y'. split; [|split].
        + econstructor; [reflexivity|cbn [wants player]; rewrite El; split; reflexivity|]. cbn [resume]. exact H.
        + constructor; [exact I|exact Ha].
        + exact Hn. }
    destruct Hgo as (tr & y' & H & Ha & Hn). exists ((KReaddir d, AEntry n) :: tr), y'. split; [|split].
    + econstructor; [reflexivity|cbn [player]; split; reflexivity|]. cbn [resume]. exact H.
    + constructor; [exact I|exact Ha].
    + intros z Hz. cbn [names_of omap list_omap]. fold (names_of tr). rewrite (Hn z Hz). reflexivity.
Qed.
(** Every table of answers is the behaviour of such a backend, so Fs.v allows nothing that a backend
    with calls could not do. *)
Theorem C72_possible : forall b s q, backend_ok b -> plain q -> exists tr y', serves player (load b) s q tr y' (fstep s (with_backend q b)) /\ answers_ok tr /\
  forall z, fstep s (with_backend q b) = Done z -> cost s q tr = weight s (with_backend q b).
Proof.
  intros b s q Hb Hp. unfold serves.
  destruct q as [p n|x|x|q]; cbn [start with_backend fstep].
  - unfold h_lookup. cbn [t_db begin_tx]. destruct (path (s_db s) p) as [[pp|e]| | |] eqn:Ep; try (eexists [], _; split; [constructor|]; split; [constructor|reflexivity]).
    eexists [(_, _)], _. split; [econstructor; [reflexivity|cbn [wants player load]; split; reflexivity|]|split; [|reflexivity]].
    + cbn [obind load]. destruct (b_lstat b 0 (pp ++ [47] ++ n)) as [st|e]; cbn [resume]; constructor.
    + constructor; [|constructor]. cbn [snd load]. destruct (b_lstat b 0 (pp ++ [47] ++ n)) as [st|e] eqn:E; [eapply Hb; exact E|exact I].
  - unfold h_readlink. cbn [t_db begin_tx]. destruct (path (s_db s) x) as [[pp|e]| | |] eqn:Ep; try (eexists [], _; split; [constructor|]; split; [constructor|reflexivity]).
    eexists [(_, _)], _. split; [econstructor; [reflexivity|cbn [wants player load]; split; reflexivity|]|split; [|reflexivity]].
    + cbn [obind load]. destruct (b_readlink b (backend_path pp)) as [l|e]; cbn [resume]; constructor.
    + constructor; [|constructor]. cbn [snd load]. destruct (b_readlink b (backend_path pp)) as [l|e] eqn:E; [eapply Hb; exact E|exact I].
  - unfold h_opendir. cbn [t_db begin_tx weight]. destruct (path (s_db s) x) as [[pp|e]| | |] eqn:Ep; try (eexists [], _; split; [constructor|]; split; [constructor|reflexivity]).
    cbn [obind]. destruct (b_opendir b (backend_path pp)) as [[names e]|e] eqn:Eo.
    + destruct (start_dir_rewrite (begin_tx (s_db s) (s_refs s)) x) as [[rr t1]| | |] eqn:Es.
      * destruct (loop_player b s x (backend_path pp) 0 e Hb names t1 0) as (tr & y' & H & Ha & Hn). exists ((KOpendir (backend_path pp), ADir 0) :: tr), y'. split; [|split].
        -- econstructor; [reflexivity|cbn [wants player load]; rewrite Eo; split; reflexivity|]. cbn [resume]. unfold goes_on. rewrite Es. cbn [snd]. exact H.
        -- constructor; [exact I|exact Ha].
        -- intros z Hz. cbn [cost names_of omap list_omap]. fold (names_of tr). rewrite (Hn z); [reflexivity|exact Hz].
      * destruct (leave_player (b, 0%nat, (names, e)) 0 Throw) as (tr & y' & H & Ha & Hn). exists ((KOpendir (backend_path pp), ADir 0) :: tr), y'. split; [|split].
        -- econstructor; [reflexivity|cbn [wants player load]; rewrite Eo; split; reflexivity|]. cbn [resume]. unfold goes_on. rewrite Es. exact H.
        -- constructor; [exact I|exact Ha].
        -- intros z Hz. discriminate Hz.
      * eexists [(KOpendir (backend_path pp), ADir 0)], _. split; [econstructor; [reflexivity|cbn [wants player load]; rewrite Eo; split; reflexivity|]; cbn [resume]; unfold goes_on; rewrite Es; constructor|]. split; [constructor; [exact I|constructor]|]. intros z Hz; discriminate Hz.
      * eexists [(KOpendir (backend_path pp), ADir 0)], _. split; [econstructor; [reflexivity|cbn [wants player load]; rewrite Eo; split; reflexivity|]; cbn [resume]; unfold goes_on; rewrite Es; constructor|]. split; [constructor; [exact I|constructor]|]. intros z Hz; discriminate Hz.
    + eexists [(_, _)], _. split; [econstructor; [reflexivity|cbn [wants player load]; rewrite Eo; split; reflexivity|]; cbn [resume]; constructor|]. split; [constructor; [exact I|constructor]|reflexivity].
  - eexists [], _. split; [constructor|]. split; [constructor|reflexivity].
Qed.
Print Assumptions C72_possible.
(** ... and so is every history. *)
Definition reloaded (y y' : player_state) : Prop := exists b, backend_ok b /\ y' = load b.
Definition without (q : request) : oreq := match q with QLookup _ p n => OLookup p n | QReadlink _ x => OReadlink x | QOpendir _ x => OOpendir x | q => OPlain q end.
Theorem C72_every_history : forall W s k h, hist W s k h -> exists y h', bhist player reloaded (load silent) y W s k h' /\ map be_sent h' = map ev_sent h /\ map be_q h' = map (fun e => without (ev_q e)) h.
Proof.
  intros W s k h H. induction H as [root d r Ha E|W s k h q s' o sent H IH Hl HW E Ho].
  - eexists _, []. split; [econstructor; eassumption|auto].
  - destruct IH as (y & h' & Hb & E1 & E2). set (b := match backend_of q with Some b => b | None => silent end).
    assert (Hok : backend_ok b). { unfold b. destruct q; cbn [backend_of klegal] in *; try tauto; (split; intros; discriminate). }
    assert (Hq : with_backend (without q) b = q) by (destruct q; reflexivity). assert (Hp : plain (without q)) by (destruct q; cbn; auto). assert (Ho' : olegal k s (without q)) by (destruct q; cbn in *; tauto).
    destruct (C72_possible b s (without q) Hok Hp) as (tr & y' & Hs & Ha & Hc). rewrite Hq in Hs, Hc. specialize (Hc _ E). rewrite E in Hs. exists y', (h' ++ [BEv (without q) tr sent]). split.
    + rewrite <- Hc. rewrite <- Hq at 2. rewrite (kstep_backend _ _ _ silent). eapply bh_step; [eapply bh_env; [exact Hb|exists b; split; [exact Hok|reflexivity]]|exact Ho'|exact Hs|exact Ha|rewrite Hc; exact HW|exact Ho].
    + rewrite !map_app, E1, E2. auto.
Qed.
Print Assumptions C72_every_history.

(** ** The operations that are not served *)
(** They are answered once, with ENOSYS; nothing is asked of the backend and nothing changes. *)
Theorem C72_unserved : forall Y (B : machine Y) u y s q tr y' r, q ∈ dispatch (CUnserved u) -> serves B y s q tr y' r ->
  tr = [] /\ y' = y /\ exists o, r = Done (s, o) /\ sent_of o = ([RErr ENOSYS], false).
Proof.
  intros Y B u y s q tr y' r Hq H. apply elem_of_list_singleton in Hq as ->. apply runs_done in H as (-> & -> & ->). split; [reflexivity|]. split; [reflexivity|]. eexists. split; reflexivity.
Qed.
Print Assumptions C72_unserved.
(** A name reaches the handler without what follows it in memory. *)
Theorem C72_name : forall p (n mem : bytes), 0 ∉ n -> dispatch (CLookup p (n ++ 0 :: mem)) = [OLookup p n].
Proof.
  intros p n mem Hn. cbn [dispatch]. do 2 f_equal. induction n as [|c n IH]; [reflexivity|]. cbn [app cstr]. apply not_elem_of_cons in Hn as [Hc Hn]. destruct (Z.eqb_spec c 0); [congruence|]. rewrite (IH Hn). reflexivity.
Qed.
Print Assumptions C72_name.
(** A batch of forgets reaches the handler without what follows it in memory. *)
Theorem C72_batch : forall (l mem : list (Z * Z)), dispatch (CForgetMulti (length l) (l ++ mem)) = [OPlain (QForgetMulti l)].
Proof. intros l mem. cbn [dispatch]. rewrite take_app. reflexivity. Qed.
Print Assumptions C72_batch.

(** ** Samples *)
Fixpoint play (fuel : nat) (y : player_state) (h : hstate) : option (trace * result) :=
  match fuel with
  | O => None
  | S fuel =>
    match wants h with
    | None => match h with HDone r => Some ([], r) | _ => None end
    | Some c =>
      let '(b, i, (names, e)) := y in
      let '(a, y') := match c with
        | KLstat p => (match b_lstat b i p with Ok st => AStat st | Err e => AFail e end, (b, S i, (names, e)))
        | KReadlink p => (match b_readlink b p with Ok l => ALink l | Err e => AFail e end, y)
        | KOpendir p => match b_opendir b p with Ok l => (ADir 0, (b, i, l)) | Err e => (AFail e, y) end
        | KReaddir _ => match names with n :: names => (AEntry n, (b, i, (names, e))) | [] => (AFail e, y) end
        | KDestroyDir _ | KDestroyFile _ => (AVoid, y)
        | _ => (AFail EIO, y)
        end in
      match play fuel y' (resume h a) with Some (tr, r) => Some ((c, a) :: tr, r) | None => None end
    end
  end.
Lemma play_ok fuel : forall y h tr r, play fuel y h = Some (tr, r) -> exists y', runs player y h tr y' r.
Proof.
  induction fuel as [|fuel IH]; intros y h tr r E; cbn [play] in E; [discriminate|]. destruct (wants h) as [c|] eqn:Ew.
  - destruct y as [[b i] [names e]].
    match type of E with (let '(a, y') := ?m in _) = _ => destruct m as [a y'] eqn:Em end. destruct (play fuel y' (resume h a)) as [[tr1 r1]|] eqn:Ep; [|discriminate]. injection E as <- <-. destruct (IH _ _ _ _ Ep) as [y2 Hr]. exists y2. econstructor; [exact Ew| |exact Hr].
    destruct c; cbn [player]; try (injection Em as <- <-; split; reflexivity).
    + destruct (b_opendir b p) as [l|]; injection Em as <- <-; split; reflexivity.
    + destruct names; injection Em as <- <-; split; reflexivity.
  - destruct h; try discriminate. injection E as <- <-. eexists. constructor.
Qed.
Global Instance bcall_eq_dec : EqDecision bcall.
Proof. solve_decision. Defined.
Definition called (b : backend) (s : fstate) (q : oreq) (cs : list bcall) (sent : list reply) : bool :=
  match play 30 (load b) (start s q) with
  | Some (tr, Done (_, o)) => bool_decide (map fst tr = cs) && match sent_of o, sent with ([ROpen], false), [ROpen] => true | ([RErr e], false), [RErr e'] => e =? e' | _, _ => false end
  | _ => false
  end.
Lemma called_ok b s q cs sent : called b s q cs sent = true -> exists tr y' s' o, serves player (load b) s q tr y' (Done (s', o)) /\ map fst tr = cs /\ sent_of o = (sent, false).
Proof.
  unfold called. destruct (play 30 (load b) (start s q)) as [[tr [[s' o]| | |]]|] eqn:E; try discriminate. intros H. apply andb_prop in H as [H1 H3]. apply bool_decide_eq_true_1 in H1. destruct (play_ok _ _ _ _ _ E) as [y' Hr]. exists tr, y', s', o. split; [exact Hr|]. split; [exact H1|].
  destruct (sent_of o) as [[|[] [|? ?]] []], sent as [|[] [|? ?]]; try discriminate H3; try reflexivity. apply Z.eqb_eq in H3. congruence.
Qed.
(** /d is looked up, then listed; the listing of the changed backend ends with an error: the directory
    is closed as well.  The file system is cut off: one call.  /d/g is missing: one call. *)
Definition qs72 : list request := [QLookup online 1 nD].
Example C72_sample : hist (sW qs72) (sS qs72) (sK qs72) (sH qs72) /\ olegal (sK qs72) (sS qs72) (OOpendir 2) /\
  (exists tr y' s' o, serves player (load online) (sS qs72) (OOpendir 2) tr y' (Done (s', o)) /\
     map fst tr = [KOpendir pD; KReaddir 0; KLstat pDF; KReaddir 0; KLstat pDG; KReaddir 0; KDestroyDir 0] /\ sent_of o = ([ROpen], false)) /\
  (exists tr y' s' o, serves player (load changed) (sS qs72) (OOpendir 2) tr y' (Done (s', o)) /\
     map fst tr = [KOpendir pD; KReaddir 0; KLstat pDF; KReaddir 0; KDestroyDir 0] /\ sent_of o = ([ROpen], false)) /\
  (exists tr y' s' o, serves player (load silent) (sS qs72) (OOpendir 2) tr y' (Done (s', o)) /\ map fst tr = [KOpendir pD] /\ sent_of o = ([ROpen], false)) /\
  (exists tr y' s' o, serves player (load online) (sS qs72) (OLookup 2 nL) tr y' (Done (s', o)) /\ map fst tr = [KLstat (pD ++ [47] ++ nL)] /\ sent_of o = ([RErr ENOENT], false)).
Proof.
  split; [apply sess_hist; qs_ok|]. split; [apply kdirb_ok; vm_compute; reflexivity|]. split; [apply called_ok; vm_compute; reflexivity|]. split; [apply called_ok; vm_compute; reflexivity|]. split; apply called_ok; vm_compute; reflexivity.
Qed.
(** ... and the histories of C72_read_only exist: for instance this one. *)
Example C72_history_sample : exists y h, bhist player reloaded (load silent) y (sW qs72) (sS qs72) (sK qs72) h /\ length h = 1%nat.
Proof.
  destruct (C72_every_history (sW qs72) (sS qs72) (sK qs72) (sH qs72)) as (y & h & H & E & _); [apply sess_hist; qs_ok|]. exists y, h. split; [exact H|]. apply (f_equal length) in E. rewrite !map_length in E. rewrite E. vm_compute. reflexivity.
Qed.
(** A backend that may answer anything and writes down the calls that would change it: reading does
    not change it, and its list stays empty. *)
Definition readsb (c : bcall) : bool := match c with KLstat _ | KReadlink _ | KOpendir _ | KReaddir _ | KDestroyDir _ => true | _ => false end.
Definition logging : machine (list bcall) := fun y c a y' => typed c a /\ y' = if readsb c then y else y ++ [c].
Example C72_log_sample : well_typed logging /\ (forall y c a y', reads_only c -> logging y c a y' -> y' = y) /\
  (forall W s k h, hist W s k h -> exists h', bhist logging (fun _ _ => False) [] [] W s k h' /\ length h' = length h) /\
  (forall y W s k h, bhist logging (fun _ _ => False) [] y W s k h -> y = []).
Proof.
  assert (Hw : well_typed logging) by (intros y c a y' [H _]; exact H). assert (Hn : forall y c a y', reads_only c -> logging y c a y' -> y' = y) by (intros y c a y' Hr [_ ->]; destruct c; cbn in *; tauto).
  split; [exact Hw|]. split; [exact Hn|]. split.
  - intros W s k h H. destruct (C72_every_history _ _ _ _ H) as (y & h' & Hb & E & _). exists h'. split; [|apply (f_equal length) in E; rewrite !map_length in E; exact E]. clear H E.
    induction Hb as [root d r Ha E|y y' W s k h' Hb IH He|y W s k h' q tr y' s' o sent Hb IH Hl Hs Ha HW Ho]; [econstructor; eassumption|exact IH|]. eapply bh_step; try eassumption. destruct (C72_calls _ _ _ _ _ _ _ _ player_typed (olegal_plain _ _ _ Hl) Hs) as [_ Hro]. unfold serves in *. clear -Hs Hro.
    induction Hs as [|? ? c a ? ? ? ? Hwt Hc Hr IH]; [constructor|]. inversion Hro as [|? ? H1 H2]; subst. econstructor; [exact Hwt| |exact (IH H2)]. split; [eapply player_typed; exact Hc|]. destruct c; cbn in *; tauto.
  - intros y W s k h H. destruct (C72_read_only _ _ _ _ _ _ _ _ _ Hw H) as [_ Hr]. specialize (Hr Hn). clear H. inversion Hr as [|? ? ? [] _]. reflexivity.
Qed.
