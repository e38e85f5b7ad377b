(** Histories: inode numbers, held inodes, link targets, reference counts over runs of
    operations, commits, aborts and crashes. *)
From Verif Require Export CacheHist.

Lemma fr_next r T L d d' : fr r T L d d' -> exists k k', d_next d = Some k /\ d_next d' = Some k' /\ k <= k'.
Proof. intros [(k & k' & ? & ? & ? & _) _]. eauto. Qed.

(** ** inode numbers *)
Definition next_le (d d' : db) : Prop := exists k k', d_next d = Some k /\ d_next d' = Some k' /\ k <= k'.
Lemma next_le_refl d : Inv d -> next_le d d.
Proof. intros H. destruct (inv_next' _ H) as (k & Hk & _). exists k, k. split_and!; auto. lia. Qed.
Lemma next_le_trans d1 d2 d3 : next_le d1 d2 -> next_le d2 d3 -> next_le d1 d3.
Proof.
  intros (k1 & k2 & E1 & E2 & H12) (k2' & k3 & E2' & E3 & H23). rewrite E2 in E2'. injection E2' as <-.
  exists k1, k3. split_and!; auto. lia.
Qed.
Lemma next_le_has d d' x : Inv d -> has_inode d x -> next_le d d' -> exists k, d_next d' = Some k /\ x < k.
Proof.
  intros H Hx (k & k' & E & E' & Hle). exists k'. split; [assumption|]. apply has_inode_iff in Hx as [i Hi].
  pose proof (ino_lt _ H _ _ _ Hi E). lia.
Qed.
Definition WNext (w : world) : Prop := next_le (w_comm w) (t_db (w_tx w)).

Lemma open_next root d : Inv d -> forall d' r', open_cache root d = Done (d', r') -> next_le d d'.
Proof.
  intros H d' r' E. destruct (open_cache_spec root d) as (R & HR & E' & _); [rewrite init_db_id; assumption|].
  rewrite E' in E. injection E as <- _. rewrite init_db_id by assumption.
  destruct (inv_next' _ H) as (k & Hk & _). exists k, k. split_and!; auto. lia.
Qed.
Lemma wstep_next w e w' : WInv w -> WNext w -> legal_ev w e -> wstep w e = Done w' ->
  WNext w' /\ next_le (w_comm w) (w_comm w') /\
  (match e with EOp _ | ECommit => next_le (t_db (w_tx w)) (t_db (w_tx w')) | _ => True end).
Proof.
  intros [Hc Ht] HN Hleg E. destruct e as [o| | |root]; cbn in *.
  - destruct (step (w_tx w) o) as [[r t]| | |] eqn:Es; try discriminate. injection E as <-.
    destruct (step_fr _ _ _ _ Ht Hleg Es) as [HT' Hfr]. unfold WNext in *. cbn.
    assert (Hn : next_le (t_db (w_tx w)) (t_db t)) by exact (fr_next _ _ _ _ _ Hfr).
    split_and!; [eapply next_le_trans; eassumption|apply next_le_refl; assumption|assumption].
  - injection E as <-. unfold WNext. cbn. pose proof (tinv_db _ Ht).
    split_and!; [apply next_le_refl; assumption|assumption|apply next_le_refl; assumption].
  - destruct (abort_tx (w_tx w)) as [r| | |]; try discriminate. injection E as <-. unfold WNext. cbn.
    split_and!; auto; apply next_le_refl; assumption.
  - destruct (open_cache root (w_comm w)) as [[d' r']| | |] eqn:Eo; try discriminate. injection E as <-.
    pose proof (open_next _ _ Hc _ _ Eo). unfold WNext. cbn. split_and!; auto. apply next_le_refl.
    destruct (open_cache_spec root (w_comm w)) as (R & HR & E' & Hd & _); [rewrite init_db_id; assumption|].
    rewrite E' in Eo. injection Eo as <- _. assumption.
Qed.
Lemma wrun_next l w w' : WInv w -> WNext w -> legal_run w l -> wrun w l = Done w' ->
  WInv w' /\ WNext w' /\ next_le (w_comm w) (w_comm w') /\
  (Forall (fun e => match e with EOp _ | ECommit => True | _ => False end) l -> next_le (t_db (w_tx w)) (t_db (w_tx w'))).
Proof.
  revert w. induction l as [|e l IH]; intros w HW HN Hleg E.
  - injection E as <-. pose proof (winv_comm _ HW). pose proof (tinv_db _ (winv_tx _ HW)).
    split_and!; auto; [apply next_le_refl; assumption|]. intros _. apply next_le_refl; assumption.
  - cbn in E. destruct (wstep w e) as [w1| | |] eqn:E1; try discriminate. cbn in E. destruct Hleg as [Hl1 Hl2].
    pose proof (wstep_inv _ _ _ HW Hl1 E1) as HW1. destruct (wstep_next _ _ _ HW HN Hl1 E1) as (HN1 & Hle & Ht).
    destruct (IH w1 HW1 HN1 (Hl2 _ E1) E) as (HW' & HN' & Hle' & Ht'). split_and!; auto; [eapply next_le_trans; eassumption|].
    intros HF. inversion HF; subst. eapply next_le_trans; [|apply Ht'; assumption]. destruct e; try contradiction; exact Ht.
Qed.
Lemma reachable_next w : reachable w -> WNext w.
Proof.
  intros (root & w0 & l & E0 & Hl & E). destruct (wopen_spec root) as (w1 & E1 & HW). assert (w0 = w1) by congruence. subst w1.
  assert (HN : WNext w0).
  { unfold wopen in E0. destruct (open_cache root db_empty) as [[d r]| | |]; try discriminate. injection E0 as <-.
    apply next_le_refl. apply (winv_comm _ HW). }
  apply (wrun_next l w0 w HW HN Hl E).
Qed.

(** ** rollback trails *)
Definition upd (f : Z -> Z) (y v : Z) : Z -> Z := fun x => if x =? y then v else f x.
Inductive trail (r0 : refs) : list hook -> (Z -> Z) -> Prop :=
| trail_nil : trail r0 [] (refcount r0)
| trail_lock hs f y : trail r0 hs f -> f y + 1 < 2 ^ 64 -> trail r0 (hs ++ [RbDecref y]) (upd f y (f y + 1))
| trail_rel hs f y n : trail r0 hs f -> 0 < n <= f y -> f y < 2 ^ 64 -> trail r0 (hs ++ [RbIncref y n]) (upd f y (f y - n)).

Lemma trail_nonneg r0 hs f : refs_ok r0 -> trail r0 hs f -> forall x, 0 <= f x.
Proof.
  intros H0. induction 1 as [|hs f y _ IH _|hs f y n _ IH Hn Hy]; intros x; [apply refcount_nonneg; assumption| |];
    unfold upd; destruct (x =? y); auto; specialize (IH y); lia.
Qed.
Lemma w64_small z : 0 <= z < 2 ^ 64 -> w64 z = z.
Proof. intros. unfold w64. apply Z.mod_small. assumption. Qed.

Lemma step_trail t o res t' r0 f : TInv t -> legal t o -> step t o = Done (res, t') -> refs_ok r0 ->
  trail r0 (t_hooks t) f -> (forall x, refcount (t_refs t) x = f x) -> (forall x, f x + 1 < 2 ^ 64) ->
  exists f', trail r0 (t_hooks t') f' /\ (forall x, refcount (t_refs t') x = f' x) /\ (forall x, f' x <= f x + 1).
Proof.
  intros HT Hleg E H0 Htr Hf Hb.
  assert (Hsame : t_hooks t' = t_hooks t -> (forall x, refcount (t_refs t') x = refcount (t_refs t) x) ->
    exists f', trail r0 (t_hooks t') f' /\ (forall x, refcount (t_refs t') x = f' x) /\ (forall x, f' x <= f x + 1)).
  { intros Eh Er. exists f. rewrite Eh. split_and!; auto; [|intros; lia]. intros x. rewrite Er. apply Hf. }
  pose proof (fun x => step_refcount _ _ _ _ x HT Hleg E) as Hrc.
  assert (Hul : forall c res t', unlink_ino t c = Done (res, t') -> t_hooks t' = t_hooks t).
  { clear - HT. intros c res t' E. destruct (unlink_ino_spec t c HT) as [(_ & E')|[(_ & E')|(d1 & Hd1 & Hi1 & R & HR & E' & HT')]];
      rewrite E' in E; injection E as _ <-; reflexivity. }
  destruct o as [p n a|c|p c|p n| |y b|y s c|y| |y|y n]; cbn [step count_after] in *.
  - apply Hsame; [|assumption]. destruct Hleg as [Hdir Hroom]. unfold drop_val in E.
    destruct (emplace t p n a) as [[r1 t1]| | |] eqn:Ee; try discriminate. cbn in E. injection E as _ <-.
    destruct (emplace_spec t p n a HT Hdir Hroom) as
      [(err & _ & E')|[(Hv & e & oi & He & Hoi & Hty & E' & HT2)|(Hv & Hty & k & R & Hk & Hfresh & Hd1 & HR & E' & HT2)]];
      rewrite E' in Ee; injection Ee as _ <-; reflexivity.
  - apply Hsame; [eapply Hul; exact E|assumption].
  - apply Hsame; [eapply Hul; exact E|assumption].
  - apply Hsame; [|assumption]. unfold unlink_name in E. destruct (d_treen (t_db t) !! (p, n)) as [e|]; [|injection E as _ <-; reflexivity].
    eapply Hul. exact E.
  - apply Hsame; [|assumption]. destruct (tx_clean_spec t HT) as (R & HR & E' & _). rewrite E' in E. cbn in E. injection E as _ <-. reflexivity.
  - apply Hsame; [|assumption]. unfold writelink in E. destruct (d_inodes (t_db t) !! y) as [i|]; [|injection E as _ <-; reflexivity].
    destruct (negb _); injection E as _ <-; reflexivity.
  - apply Hsame; [|assumption]. unfold update_flags in E. destruct (d_inodes (t_db t) !! y) as [i|]; injection E as _ <-; reflexivity.
  - apply Hsame; [|assumption]. unfold start_dir_rewrite in E. destruct (t_rw t); [injection E as _ <-; reflexivity|].
    destruct (from_key _ _ _); injection E as _ <-; reflexivity.
  - apply Hsame; [|assumption]. unfold finish_dir_rewrite in E. destruct (t_rw t); injection E as _ <-; reflexivity.
  - unfold lock in E. destruct (incref (t_refs t) y 1) as [[z|err] r'] eqn:Ei; injection E as <- <-; cbn [t_hooks t_refs] in *.
    + exists (upd f y (f y + 1)). split_and!.
      * apply trail_lock; auto.
      * intros x. rewrite Hrc. unfold upd. rewrite (Z.eqb_sym x y). rewrite Hf. destruct (Z.eqb_spec y x) as [<-|]; [|reflexivity].
        apply w64_small. specialize (Hb y). pose proof (trail_nonneg _ _ _ H0 Htr y). lia.
      * intros x. unfold upd. destruct (Z.eqb_spec x y) as [->|]; lia.
    + apply Hsame; [reflexivity|assumption].
  - unfold release in E. destruct (Z.eqb_spec n 0) as [->|Hn].
    { injection E as <- <-. apply Hsame; reflexivity. }
    destruct (decref_cases (t_refs t) y n) as [(Hle & b & Ey & Ed)|(Hlt & Ed)]; [cbn in Hleg; lia| |]; rewrite Ed in E; cbn [obind fst snd] in E; [|discriminate].
    injection E as <- <-. cbn [t_refs t_hooks] in *. cbn in Hleg. rewrite Hf in Hle. exists (upd f y (f y - n)). split_and!.
    + apply trail_rel; auto; [lia|]. specialize (Hb y). lia.
    + intros x. rewrite Hrc. unfold upd. rewrite (Z.eqb_sym x y). rewrite Hf. destruct (Z.eqb_spec y x) as [<-|]; reflexivity.
    + intros x. unfold upd. destruct (Z.eqb_spec x y) as [->|]; lia.
Qed.

Lemma rollback_counts r0 hs f : refs_ok r0 -> trail r0 hs f -> forall r r', (forall x, refcount r x = f x) ->
  run_rollbacks r (rev hs) = Done r' -> forall x, refcount r' x = refcount r0 x.
Proof.
  intros H0. induction 1 as [|hs f y Ht IH Hb|hs f y n Ht IH Hn Hy]; intros r r' Hr E x.
  - injection E as <-. apply Hr.
  - rewrite rev_app_distr in E. cbn [rev app run_rollbacks run_rollback] in E.
    pose proof (trail_nonneg _ _ _ H0 Ht) as Hnn.
    destruct (decref_cases r y 1) as [(Hle & b & Ey & Ed)|(Hlt & Ed)]; [lia| |]; rewrite Ed in E; cbn [obind fst snd] in E; [|discriminate].
    eapply (IH _ _ _ E). Unshelve. intros z. unfold refcount at 1. destruct (decide (z = y)) as [->|Hne].
    + rewrite lookup_insert. rewrite Hr. unfold upd. rewrite Z.eqb_refl. lia.
    + rewrite lookup_insert_ne by congruence. fold (refcount r z). rewrite Hr. unfold upd. rewrite (proj2 (Z.eqb_neq _ _) Hne). reflexivity.
  - rewrite rev_app_distr in E. cbn [rev app run_rollbacks run_rollback] in E.
    pose proof (trail_nonneg _ _ _ H0 Ht) as Hnn.
    destruct (incref r y n) as [[v|err] r1] eqn:Ei; cbn [obind] in E; [|discriminate].
    eapply (IH _ _ _ E). Unshelve. intros z. pose proof (Hr y) as Hry. unfold upd in Hry. rewrite Z.eqb_refl in Hry.
    unfold incref in Ei. unfold refcount in Hry. destruct (r !! y) as [[m [|]]|] eqn:Ey; try discriminate; injection Ei as _ <-;
      unfold refcount at 1; (destruct (decide (z = y)) as [->|Hne]; [rewrite lookup_insert|rewrite lookup_insert_ne by congruence]).
    + subst m. replace (f y - n + n) with (f y) by lia. apply w64_small. specialize (Hnn y). lia.
    + fold (refcount r z). rewrite Hr. unfold upd. rewrite (proj2 (Z.eqb_neq _ _) Hne). reflexivity.
    + lia.
    + fold (refcount r z). rewrite Hr. unfold upd. rewrite (proj2 (Z.eqb_neq _ _) Hne). reflexivity.
Qed.
Lemma rollback_runs r0 hs f : refs_ok r0 -> trail r0 hs f -> forall r, (forall x, refcount r x = f x) ->
  (forall x n, RbIncref x n ∈ hs -> doomed r x = false) ->
  exists r', run_rollbacks r (rev hs) = Done r' /\ forall x, doomed r' x = doomed r x.
Proof.
  intros H0. induction 1 as [|hs f y Ht IH Hb|hs f y n Ht IH Hn Hy]; intros r Hr Hd.
  - exists r. split; [reflexivity|auto].
  - rewrite rev_app_distr. cbn [rev app run_rollbacks run_rollback].
    pose proof (trail_nonneg _ _ _ H0 Ht) as Hnn. pose proof (Hr y) as Hry. unfold upd in Hry. rewrite Z.eqb_refl in Hry.
    destruct (decref_cases r y 1) as [(Hle & b & Ey & Ed)|(Hlt & Ed)]; [lia| |]; [|specialize (Hnn y); lia]. rewrite Ed. cbn [obind fst snd].
    assert (Hdd : forall x, doomed (<[y:=(refcount r y - 1, b)]> r) x = doomed r x).
    { intros x. unfold doomed. destruct (decide (x = y)) as [->|Hne]; [rewrite lookup_insert, Ey; reflexivity|].
      rewrite lookup_insert_ne by congruence. reflexivity. }
    destruct (IH (<[y:=(refcount r y - 1, b)]> r)) as (r' & E' & D').
    + intros z. unfold refcount at 1. destruct (decide (z = y)) as [->|Hne].
      * rewrite lookup_insert. lia.
      * rewrite lookup_insert_ne by congruence. fold (refcount r z). rewrite Hr. unfold upd. rewrite (proj2 (Z.eqb_neq _ _) Hne). reflexivity.
    + intros x n Hx. rewrite Hdd. eapply Hd. apply elem_of_app. left. exact Hx.
    + exists r'. split; [exact E'|]. intros x. rewrite D'. apply Hdd.
  - rewrite rev_app_distr. cbn [rev app run_rollbacks run_rollback].
    pose proof (trail_nonneg _ _ _ H0 Ht) as Hnn. pose proof (Hr y) as Hry. unfold upd in Hry. rewrite Z.eqb_refl in Hry.
    assert (Hdy : doomed r y = false). { apply (Hd y n). apply elem_of_app. right. apply elem_of_list_singleton. reflexivity. }
    assert (Ei : exists v r1, incref r y n = (Ok v, r1) /\ (forall x, refcount r1 x = f x) /\ forall x, doomed r1 x = doomed r x).
    { unfold incref, doomed in *. unfold refcount in Hry. destruct (r !! y) as [[m [|]]|] eqn:Ey; try discriminate; eexists _, _; (split; [reflexivity|]); split; intros z;
        try unfold refcount at 1; (destruct (decide (z = y)) as [->|Hne]; [rewrite lookup_insert|rewrite lookup_insert_ne by congruence]); try (rewrite Ey; reflexivity); try reflexivity.
      - subst m. replace (f y - n + n) with (f y) by lia. apply w64_small. specialize (Hnn y). lia.
      - fold (refcount r z). rewrite Hr. unfold upd. rewrite (proj2 (Z.eqb_neq _ _) Hne). reflexivity.
      - lia.
      - fold (refcount r z). rewrite Hr. unfold upd. rewrite (proj2 (Z.eqb_neq _ _) Hne). reflexivity. }
    destruct Ei as (v & r1 & Ei & Hr1 & Hd1). rewrite Ei. cbn [obind].
    destruct (IH r1 Hr1) as (r' & E' & D').
    + intros x m Hx. rewrite Hd1. eapply Hd. apply elem_of_app. left. exact Hx.
    + exists r'. split; [exact E'|]. intros x. rewrite D'. apply Hd1.
Qed.

(** ** held inodes *)
Definition same_inode (d d' : db) (x : Z) : Prop :=
  getattr d' x = getattr d x /\ readlink d' x = readlink d x /\ forall f, test_flag d' x f = test_flag d x f.
Lemma same_inode_refl d x : same_inode d d x.
Proof. split_and!; auto. Qed.
Lemma same_inode_trans d1 d2 d3 x : same_inode d1 d2 x -> same_inode d2 d3 x -> same_inode d1 d3 x.
Proof. intros (A & B & C) (A' & B' & C'). split_and!; [congruence..|]. intros f. rewrite C', C. reflexivity. Qed.

Lemma fr_held r T L d d' x : fr r T L d d' -> has_inode d x -> 0 < refcount r x ->
  has_inode d' x /\ (~ T x -> ~ L x -> same_inode d d' x).
Proof.
  intros [_ H] Hx Hr. apply has_inode_iff in Hx as [i Hi]. destruct (H _ _ Hi) as [(_ & _ & ?)|(j & Hj & _ & HT & HL)]; [lia|].
  split; [apply has_inode_iff; eauto|]. intros HnT HnL. destruct (HT HnT) as [Ha Hf]. specialize (HL HnL).
  unfold same_inode, getattr, readlink, test_flag. rewrite Hi, Hj, HL. split_and!; [congruence|reflexivity|intros; congruence].
Qed.
Lemma relinks_touches d o x : relinks o x -> touches d o x.
Proof. destruct o; cbn; tauto. Qed.

Lemma trail_ge r0 hs f x : trail r0 hs f -> (forall n, RbIncref x n ∉ hs) -> refcount r0 x <= f x.
Proof.
  induction 1 as [|hs f y Ht IH Hb|hs f y n Ht IH Hn Hy]; intros Hno; [lia| |];
    (assert (Hno' : forall m, RbIncref x m ∉ hs) by (intros m Hm; apply (Hno m); apply elem_of_app; auto)); specialize (IH Hno').
  - unfold upd. destruct (Z.eqb_spec x y) as [->|]; lia.
  - unfold upd. destruct (Z.eqb_spec x y) as [->|]; [|lia]. exfalso. apply (Hno n). apply elem_of_app. right. apply elem_of_list_singleton. reflexivity.
Qed.

(** in a run, no operation writes inode [x] *)
Fixpoint untouched (x : Z) (w : world) (l : list ev) : Prop :=
  match l with
  | [] => True
  | e :: l => (match e with EOp o => ~ touches (t_db (w_tx w)) o x | _ => True end) /\
              forall w', wstep w e = Done w' -> untouched x w' l
  end.
(** events that neither release [x] nor lose the process *)
Definition keeps (x : Z) (e : ev) : Prop :=
  match e with EOp (ORelease y _) => y <> x | ECrash _ => False | _ => True end.

Record Held (x B : Z) (w : world) (r0 : refs) (f : Z -> Z) : Prop := {
  held_r0 : refs_ok r0;
  held_trail : trail r0 (t_hooks (w_tx w)) f;
  held_f : forall y, refcount (t_refs (w_tx w)) y = f y;
  held_fB : forall y, f y <= B;
  held_rB : forall y, refcount r0 y <= B;
  held_x : 0 < refcount r0 x;
  held_no : forall n, RbIncref x n ∉ t_hooks (w_tx w);
  held_comm : has_inode (w_comm w) x;
  held_tx : has_inode (t_db (w_tx w)) x }.

Lemma step_hooks_no t o res t' x : TInv t -> legal t o -> step t o = Done (res, t') -> (forall n, o <> ORelease x n) ->
  (forall n, RbIncref x n ∉ t_hooks t) -> forall n, RbIncref x n ∉ t_hooks t'.
Proof.
  intros HT Hleg E Ho Hno.
  assert (Hul : forall c res t', unlink_ino t c = Done (res, t') -> t_hooks t' = t_hooks t).
  { clear - HT. intros c res t' E. destruct (unlink_ino_spec t c HT) as [(_ & E')|[(_ & E')|(d1 & Hd1 & Hi1 & R & HR & E' & HT')]];
      rewrite E' in E; injection E as _ <-; reflexivity. }
  destruct o as [p n a|c|p c|p n| |y b|y s c|y| |y|y k]; cbn [step] in *.
  - destruct Hleg as [Hdir Hroom]. unfold drop_val in E. destruct (emplace t p n a) as [[r1 t1]| | |] eqn:Ee; try discriminate. cbn in E. injection E as _ <-.
    destruct (emplace_spec t p n a HT Hdir Hroom) as
      [(err & _ & E')|[(Hv & e & oi & He & Hoi & Hty & E' & HT2)|(Hv & Hty & k & R & Hk & Hfresh & Hd1 & HR & E' & HT2)]];
      rewrite E' in Ee; injection Ee as _ <-; exact Hno.
  - rewrite (Hul _ _ _ E). exact Hno.
  - rewrite (Hul _ _ _ E). exact Hno.
  - unfold unlink_name in E. destruct (d_treen (t_db t) !! (p, n)) as [e|]; [|injection E as _ <-; exact Hno]. rewrite (Hul _ _ _ E). exact Hno.
  - destruct (tx_clean_spec t HT) as (R & HR & E' & _). rewrite E' in E. cbn in E. injection E as _ <-. exact Hno.
  - unfold writelink in E. destruct (d_inodes (t_db t) !! y) as [i|]; [|injection E as _ <-; exact Hno]. destruct (negb _); injection E as _ <-; exact Hno.
  - unfold update_flags in E. destruct (d_inodes (t_db t) !! y) as [i|]; injection E as _ <-; exact Hno.
  - unfold start_dir_rewrite in E. destruct (t_rw t); [injection E as _ <-; exact Hno|].
    destruct (from_key _ _ _); injection E as _ <-; exact Hno.
  - unfold finish_dir_rewrite in E. destruct (t_rw t); injection E as _ <-; exact Hno.
  - unfold lock in E. destruct (incref _ _ _) as [[?|?] ?]; injection E as _ <-; cbn [t_hooks]; [|exact Hno].
    intros m Hm. apply elem_of_app in Hm as [Hm|Hm]; [exact (Hno m Hm)|]. apply elem_of_list_singleton in Hm. discriminate.
  - unfold release in E. destruct (k =? 0); [injection E as _ <-; exact Hno|].
    destruct (decref _ _ _) as [[[?|?] ?]| | |]; cbn in E; try discriminate. injection E as _ <-. cbn [t_hooks].
    intros m Hm. apply elem_of_app in Hm as [Hm|Hm]; [exact (Hno m Hm)|]. apply elem_of_list_singleton in Hm. injection Hm as -> ->. eapply Ho. reflexivity.
Qed.

Lemma wstep_held x B w e w' r0 f : WInv w -> legal_ev w e -> wstep w e = Done w' -> keeps x e -> B + 1 < 2 ^ 64 ->
  Held x B w r0 f -> exists r0' f', Held x (B + 1) w' r0' f' /\
    ((match e with EOp o => ~ touches (t_db (w_tx w)) o x | _ => True end) ->
       forall d, same_inode d (w_comm w) x -> same_inode d (t_db (w_tx w)) x ->
                 same_inode d (w_comm w') x /\ same_inode d (t_db (w_tx w')) x).
Proof.
  intros HW Hleg E Hk HB [H0 Htr Hf HfB HrB Hx Hno Hc Ht]. pose proof (winv_tx _ HW) as HT. pose proof (winv_comm _ HW) as HC.
  assert (Hpos : 0 < refcount (t_refs (w_tx w)) x). { rewrite Hf. pose proof (trail_ge _ _ _ _ Htr Hno). lia. }
  destruct e as [o| | |root]; cbn in E, Hk, Hleg.
  - destruct (step (w_tx w) o) as [[res t']| | |] eqn:Es; try discriminate. injection E as <-.
    destruct (step_trail _ _ _ _ r0 f HT Hleg Es H0 Htr Hf) as (f' & Htr' & Hf' & Hle).
    { intros y. specialize (HfB y). lia. }
    destruct (step_fr _ _ _ _ HT Hleg Es) as [HT' Hfr]. destruct (fr_held _ _ _ _ _ _ Hfr Ht Hpos) as [Hhas Hsame].
    exists r0, f'. split.
    + split; cbn; auto.
      * intros y. specialize (Hle y). specialize (HfB y). lia.
      * intros y. specialize (HrB y). lia.
      * apply (step_hooks_no _ _ _ _ _ HT Hleg Es); [|assumption]. intros n En. rewrite En in Hk. apply Hk. reflexivity.
    + intros Hnt d Hdc Hdt. split; [assumption|]. eapply same_inode_trans; [exact Hdt|]. apply Hsame; [assumption|].
      intros HL. apply Hnt. apply relinks_touches. assumption.
  - injection E as <-. exists (t_refs (w_tx w)), (refcount (t_refs (w_tx w))). split.
    + split; cbn; auto; try (intros y; rewrite Hf; specialize (HfB y); lia); [apply (tinv_refs _ HT)|constructor|].
      intros n Hn. apply elem_of_nil in Hn. contradiction.
    + intros _ d Hdc Hdt. cbn. auto.
  - destruct (abort_tx (w_tx w)) as [r| | |] eqn:Ea; try discriminate. injection E as <-.
    pose proof (rollback_counts _ _ _ H0 Htr _ _ Hf Ea) as Hr. exists r, (refcount r). split.
    + split; cbn; auto; try (intros y; rewrite Hr; specialize (HrB y); lia).
      * eapply abort_ok; eassumption.
      * constructor.
      * rewrite Hr. assumption.
      * intros n Hn. apply elem_of_nil in Hn. contradiction.
    + intros _ d Hdc Hdt. cbn. auto.
  - contradiction.
Qed.
Lemma wrun_held x l : forall w w' B r0 f, WInv w -> legal_run w l -> wrun w l = Done w' -> Forall (keeps x) l ->
  B + Z.of_nat (length l) < 2 ^ 64 -> Held x B w r0 f ->
  (exists B' r0' f', Held x B' w' r0' f') /\
  (untouched x w l -> forall d, same_inode d (w_comm w) x -> same_inode d (t_db (w_tx w)) x ->
                 same_inode d (w_comm w') x /\ same_inode d (t_db (w_tx w')) x).
Proof.
  induction l as [|e l IH]; intros w w' B r0 f HW Hleg E Hk HB HH.
  - injection E as <-. split; [eauto|]. auto.
  - cbn in E. destruct (wstep w e) as [w1| | |] eqn:E1; try discriminate. cbn in E. destruct Hleg as [Hl1 Hl2].
    inversion Hk as [|? ? Hk1 Hk2]; subst. cbn [length] in HB. rewrite Nat2Z.inj_succ in HB.
    assert (HB1 : B + 1 < 2 ^ 64 /\ B + 1 + Z.of_nat (length l) < 2 ^ 64) by lia. destruct HB1 as [HB1 HB2].
    destruct (wstep_held _ _ _ _ _ _ _ HW Hl1 E1 Hk1 HB1 HH) as (r1 & f1 & HH1 & Hs1).
    pose proof (wstep_inv _ _ _ HW Hl1 E1) as HW1.
    destruct (IH w1 w' (B + 1) r1 f1 HW1 (Hl2 _ E1) E Hk2 HB2 HH1) as (HH' & Hs'). split; [assumption|].
    intros [Hu1 Hu2] d Hdc Hdt. destruct (Hs1 Hu1 d Hdc Hdt) as [A B']. apply Hs'; auto.
Qed.

(** ** properties of one inode that hold until it is written *)
Definition link_or_gone (x : Z) (b : bytes) (d : db) : Prop :=
  readlink d x = Ok b \/ ~ has_inode d x /\ exists k, d_next d = Some k /\ x < k.
Lemma step_link t o res t' x b : TInv t -> legal t o -> step t o = Done (res, t') -> ~ relinks o x ->
  link_or_gone x b (t_db t) -> link_or_gone x b (t_db t').
Proof.
  intros HT Hleg E Ho. destruct (step_fr _ _ _ _ HT Hleg E) as [HT' [(k & k' & Ek & Ek' & Hle & Hnew) Hfr]].
  pose proof (tinv_db _ HT) as H. pose proof (tinv_db _ HT') as H'. intros [Hl|[Hg (k1 & Ek1 & Hlt)]].
  - unfold readlink in Hl. destruct (d_links (t_db t) !! x) as [b'|] eqn:El.
    + injection Hl as ->. destruct (links_ino _ H _ _ El) as [i Hi]. destruct (Hfr _ _ Hi) as [(G1 & G2 & _)|(j & G1 & _ & _ & G4)].
      * right. split; [intros Hx; apply has_inode_iff in Hx as [? ?]; congruence|]. exists k'. split; [assumption|].
        pose proof (ino_lt _ H _ _ _ Hi Ek). lia.
      * left. unfold readlink. rewrite G4, El by assumption. reflexivity.
    + destruct (d_inodes (t_db t) !! x); discriminate.
  - right. rewrite Ek in Ek1. injection Ek1 as <-. split; [|exists k'; split; [assumption|lia]].
    intros Hx. apply has_inode_iff in Hx as [i Hi]. destruct (d_inodes (t_db t) !! x) as [j|] eqn:Ej.
    + apply Hg. apply has_inode_iff. eauto.
    + specialize (Hnew _ _ Ej Hi). lia.
Qed.
Lemma cleaned_link R d x b : Inv d -> link_or_gone x b d -> link_or_gone x b (cleaned R d).
Proof.
  intros H [Hl|[Hg Hk]].
  - destruct (decide (x ∈ R)) as [Hx|Hx].
    + right. split. { intros [a Ha]. rewrite cleaned_getattr, decide_True in Ha by assumption. discriminate. }
      destruct (inv_next' _ H) as (k & Hk & _ & Hlt). exists k. split; [assumption|].
      unfold readlink in Hl. destruct (d_links d !! x) as [b'|] eqn:El; [|destruct (d_inodes d !! x); discriminate].
      destruct (links_ino _ H _ _ El) as [i Hi]. specialize (Hlt _ _ Hi). lia.
    + left. rewrite cleaned_readlink, decide_False by assumption. assumption.
  - right. split; [|exact Hk]. intros [a Ha]. apply Hg. rewrite cleaned_getattr in Ha. destruct (decide _); [discriminate|]. exists a. assumption.
Qed.
Lemma wrun_link x b l : forall w w', WInv w -> legal_run w l -> wrun w l = Done w' ->
  Forall (fun e => match e with EOp o => ~ relinks o x | _ => True end) l ->
  link_or_gone x b (w_comm w) -> link_or_gone x b (t_db (w_tx w)) ->
  link_or_gone x b (w_comm w') /\ link_or_gone x b (t_db (w_tx w')).
Proof.
  induction l as [|e l IH]; intros w w' HW Hleg E HF Hc Ht.
  - injection E as <-. auto.
  - cbn in E. destruct (wstep w e) as [w1| | |] eqn:E1; try discriminate. cbn in E. destruct Hleg as [Hl1 Hl2].
    inversion HF as [|? ? HF1 HF2]; subst. pose proof (wstep_inv _ _ _ HW Hl1 E1) as HW1.
    apply (IH w1 w' HW1 (Hl2 _ E1) E HF2); clear IH; pose proof (winv_comm _ HW) as HC; pose proof (winv_tx _ HW) as HT;
    (destruct e as [o| | |root]; cbn in E1;
     [destruct (step (w_tx w) o) as [[res t']| | |] eqn:Es; try discriminate; injection E1 as <-; cbn
     |injection E1 as <-; cbn
     |destruct (abort_tx (w_tx w)) as [r| | |] eqn:Ea; try discriminate; injection E1 as <-; cbn
     |destruct (open_cache_spec root (w_comm w)) as (R & HR & E' & Hd & _); [rewrite init_db_id; assumption|];
      rewrite E' in E1; injection E1 as <-; rewrite init_db_id in * by assumption; cbn [wbegin w_comm w_tx fst snd begin_tx t_db]]); auto.
    + apply cleaned_link; assumption.
    + eapply step_link; eassumption.
    + apply cleaned_link; assumption.
Qed.
