(** C57: single calls of Cache are atomic, and leave nothing behind to be cleaned. *)
From Verif Require Export Calls.

(** a cache between two transactions, after any history (see PropsCache.v) *)
Definition idle (c : db * refs) : Prop := reachable (wbegin c).
(** nothing waits for removal: every inode outside the tree is held *)
Definition tidy (c : db * refs) : Prop := forall x, is_orphan c.1 x -> 0 < refcount c.2 x.
(** emplace below an existing directory, while numbers are left *)
Definition legal_call (c : db * refs) (k : call) : Prop :=
  match k with KEmplace p _ _ => isdir c.1 p /\ room c.1 | _ => True end.

Lemma idle_inv c : idle c -> TInv (begin_tx c.1 c.2).
Proof. intros H. exact (tx_inv _ H). Qed.
Lemma tidy_none d r : Inv d -> tidy (d, r) -> forall x, ~ gone d r x.
Proof. intros H Ht. apply gone_nil. intros o Ho. apply Ht. apply is_orphan_iff; assumption. Qed.
Lemma clean_tidy t : TInv t -> tidy (t_db t, t_refs t) -> tx_clean t = Done t.
Proof.
  intros HT Ht. destruct (tx_clean_spec t HT) as (R & HR & -> & _). assert (R = ∅) as ->.
  { apply set_eq. intros x. split; [|set_solver]. intros Hx. apply HR in Hx. exfalso. eapply tidy_none; [apply HT|exact Ht|exact Hx]. }
  rewrite cleaned_empty, doom_all_empty. destruct t; reflexivity.
Qed.
Lemma clean_makes_tidy t t' : TInv t -> tx_clean t = Done t' -> tidy (t_db t', t_refs t').
Proof.
  intros HT E. destruct (clean_api t HT) as (t2 & E2 & _ & _ & _ & H). assert (t2 = t') as -> by congruence. cbn zeta in H.
  destruct H as (_ & Ho & _ & Hc & _). intros x Hx. cbn [fst snd] in *. rewrite Hc. apply Ho, Hx.
Qed.
Lemma step_val_cases t o r t' : step_val t o = Done (r, t') -> exists r', step t o = Done (r', t') /\ match r, r' with Ok _, Ok _ => True | Err e, Err e' => e = e' | _, _ => False end.
Proof. intros E. rewrite step_val_step, E. destruct r; eexists; (split; [reflexivity|]); cbn; auto. Qed.
(** the operations of the calls leave the transaction as it was when they fail *)
Definition call_op (o : op) : bool := match o with OEmplace _ _ _ | OLock _ | OWritelink _ _ => true | ORelease _ n => n =? 1 | _ => false end.
Lemma call_err t o e t' : TInv t -> legal t o -> call_op o = true -> step_val t o = Done (Err e, t') -> t' = t.
Proof.
  intros HT Hl Hc E. destruct o; try discriminate Hc; cbn [step_val legal] in *.
  - destruct Hl as [Hd Hr]. destruct (emplace_spec t p n a HT Hd Hr) as [(e' & _ & E')|[(_ & e' & i & _ & _ & _ & E' & _)|(_ & _ & k & R & _ & _ & _ & _ & E' & _)]]; rewrite E' in E; congruence.
  - cbn [step] in E. unfold writelink in E. destruct (d_inodes (t_db t) !! ino); [|cbn in E; congruence]. destruct (negb _); cbn in E; congruence.
  - cbn [step] in E. unfold lock, incref in E. destruct (t_refs t !! ino) as [[? []]|]; cbn in E; try congruence. injection E as _ <-. destruct t; reflexivity.
  - cbn [step] in E. unfold release in E. cbn [call_op] in Hc. apply Z.eqb_eq in Hc. subst n. cbn [Z.eqb] in E. destruct (decref_cases (t_refs t) ino 1 ltac:(lia)) as [(_ & b & _ & Ed)|[_ Ed]]; rewrite Ed in E; cbn in E; congruence.
Qed.
Lemma with_run c o : idle c -> legal (begin_tx c.1 c.2) o -> call_op o = true ->
  (exists x c', with_rw_txn c o = Done (x, c') /\ idle c' /\ match x with Ok _ => tidy c' | Err _ => c' = c end) \/
  (with_rw_txn c o = Throw /\ exists x, o = ORelease x 1 /\ refcount c.2 x = 0).
Proof.
  intros Hi Hl Hc. pose proof (idle_inv c Hi) as HT. unfold with_rw_txn. destruct (step_inv _ _ HT Hl) as [(r & t' & Es & HT')|(Es & x & n & -> & Hn)].
  - destruct (step_val (begin_tx c.1 c.2) o) as [[x t1]| | |] eqn:Ev; try (rewrite step_val_step, Ev in Es; discriminate Es).
    pose proof Es as Es'. rewrite step_val_step, Ev in Es'. injection Es' as _ ->. cbn [obind]. left. destruct x as [v|e].
    + destruct (clean_api t' HT') as (t2 & E2 & HT2 & _). rewrite E2. cbn [obind]. eexists _, _. split; [reflexivity|]. split; [|exact (clean_makes_tidy t' t2 HT' E2)].
      apply (reachable_run (wbegin c) [EOp o; EOp OClean; ECommit]); [exact Hi| |].
      * split; [exact Hl|]. intros w' _. split; [exact I|]. intros w'' _. split; [exact I|]. intros; exact I.
      * cbn [wrun wstep wbegin w_tx w_comm]. rewrite Es. cbn [obind w_tx w_comm step]. rewrite E2. reflexivity.
    + apply call_err in Ev as ->; try assumption. cbn. eexists _, _. split; [reflexivity|]. destruct c; auto.
  - right. destruct (n =? 1) eqn:En; [|cbn in Hc; congruence]. apply Z.eqb_eq in En. subst n. cbn [begin_tx t_refs] in Hn. assert (refcount c.2 x = 0) by (pose proof (refcount_nonneg _ x (tinv_refs _ HT)) as Hp; cbn [begin_tx t_refs] in Hp; lia).
    split; [|eauto]. rewrite step_val_step in Es. destruct (step_val _ _) as [[]| | |]; try discriminate Es. reflexivity.
Qed.
Definition is_write (k : call) : bool := match k with KEmplace _ _ _ | KLock _ | KRelease _ | KWritelink _ _ => true | _ => false end.
Definition succeeded (a : answer) : bool := match a with AVal (Ok _) | ABytes (Ok _) | AAttr (Ok _) => true | _ => false end.

(** ** C57 *)
(** Every legal call in every state returns; a call that fails or throws changes nothing; after
    a write call that succeeds nothing waits for removal; the state after it is again one
    the theorems C10-C25 apply to. *)
Theorem C57_calls : forall c k, idle c -> legal_call c k -> exists a c', api c k = Done (a, c') /\ idle c' /\
  (succeeded a = false -> c' = c) /\ (is_write k = false -> c' = c) /\ (is_write k && succeeded a = true -> tidy c') /\ (tidy c -> tidy c') /\
  (a = AThrown -> exists x, k = KRelease x /\ refcount c.2 x = 0).
Proof.
  intros c k Hi Hl. assert (Hsame : forall a, a <> AThrown -> is_write k = false -> exists a' c', Done (a, c) = Done (a', c') /\ idle c' /\ (succeeded a' = false -> c' = c) /\ (is_write k = false -> c' = c) /\ (is_write k && succeeded a' = true -> tidy c') /\ (tidy c -> tidy c') /\
    (a' = AThrown -> exists x, k = KRelease x /\ refcount c.2 x = 0)).
  { intros a Ha Hw. exists a, c. rewrite Hw. cbn [andb]. split_and!; auto; congruence. }
  assert (Hwr : forall o, legal (begin_tx c.1 c.2) o -> call_op o = true -> is_write k = true -> (forall x, o = ORelease x 1 -> k = KRelease x) ->
    exists a c', match with_rw_txn c o with Done (x, c) => Done (AVal x, c) | Throw => Done (AThrown, c) | Crash => Crash | Diverge => Diverge end = Done (a, c') /\ idle c' /\
    (succeeded a = false -> c' = c) /\ (is_write k = false -> c' = c) /\ (is_write k && succeeded a = true -> tidy c') /\ (tidy c -> tidy c') /\
    (a = AThrown -> exists x, k = KRelease x /\ refcount c.2 x = 0)).
  { intros o Ho Hc Hw Hk. destruct (with_run c o Hi Ho Hc) as [(x & c' & -> & Hi' & Hx)|(-> & x & -> & Hx)].
    - exists (AVal x), c'. rewrite Hw. split; [reflexivity|]. split; [exact Hi'|]. destruct x; cbn [succeeded andb]; (split_and!; try discriminate; auto). intros Ht. rewrite Hx. exact Ht.
    - exists AThrown, c. rewrite Hw. split_and!; auto; try congruence; try discriminate. intros _. exists x. auto. }
  destruct k; cbn [api legal_call is_write] in *.
  - apply Hwr; try reflexivity; try discriminate. destruct Hl as [Hd Hr]. split; [apply isdir_is_dir, Hd|exact Hr].
  - apply Hwr; try reflexivity; try discriminate; try exact I.
  - apply Hwr; try reflexivity; try (cbn; lia). intros y E. injection E as ->. reflexivity.
  - apply Hwr; try reflexivity; try discriminate; try exact I.
  - apply Hsame; [discriminate|reflexivity].
  - apply Hsame; [discriminate|reflexivity].
  - apply Hsame; [discriminate|reflexivity].
  - apply Hsame; [discriminate|reflexivity].
  - apply Hsame; [discriminate|reflexivity].
  - assert (Hv : view (wbegin c) c.1) by (left; reflexivity).
    destruct (C22_path (wbegin c) c.1 x Hi Hv) as [(comps & _ & _ & ->)|[_ ->]]; apply Hsame; (discriminate || reflexivity).
Qed.
(** opening leaves nothing to be cleaned either *)
Theorem C57_open_tidy : forall root c, idle c -> exists c', open_cache root c.1 = Done c' /\ idle c' /\ forall x, ~ is_orphan c'.1 x.
Proof.
  intros root c Hi. destruct (open_cache_spec root c.1) as (R & HR & E & HI & Hr & Ho).
  { rewrite init_db_id; apply (idle_inv _ Hi). }
  eexists. split; [exact E|]. split.
  - apply (reachable_run (wbegin c) [ECrash root]); [exact Hi|split; [exact I|intros; exact I]|]. cbn [wrun wstep wbegin w_comm]. rewrite E. reflexivity.
  - intros x Hx. apply (proj1 (is_orphan_iff _ _ HI)) in Hx. cbn [fst] in Hx. rewrite Ho in Hx. set_solver.
Qed.
(** emplace of a valid name: the entry is there with its attributes, nothing but an entry of another
    type under the same name (and what falls with it) is removed, everything else is as before *)
Theorem C57_emplace : forall c p n a, idle c -> tidy c -> isdir c.1 p -> room c.1 ->
  Z.of_nat (length n) <= 503 -> ~ 0 ∈ n -> ~ 47 ∈ n ->
  exists i c', api c (KEmplace p n a) = Done (AVal (Ok i), c') /\
    api c' (KLookup p n) = Done (AVal (Ok i), c') /\ api c' (KGetattr i) = Done (AAttr (Ok a), c') /\ api c' (KParent i) = Done (AVal (Ok p), c') /\
    (forall x, refcount c'.2 x = refcount c.2 x) /\
    let removed x := exists old a0, lookup c.1 p n = Ok old /\ getattr c.1 old = Ok a0 /\ ftype (a_mode a0) <> ftype (a_mode a) /\ falls c.1 c.2 old x in
    (forall x, removed x -> getattr c'.1 x = Err ENOENT) /\
    (forall x, x <> i -> ~ removed x -> same_inode c.1 c'.1 x) /\
    (forall q m, u64 q -> (q, m) <> (p, n) -> ~ removed q -> lookup c'.1 q m = lookup c.1 q m).
Proof.
  intros c p n a Hi Ht Hd Hr Hn H0 H47. pose proof (idle_inv c Hi) as HT. pose proof (tinv_db _ HT) as HI. cbn [begin_tx t_db] in HI.
  assert (Hnr : forall x, ~ reclaimable c.1 c.2 x).
  { intros x Hx. apply (proj1 (reclaimable_gone _ _ _ HI (tinv_refs _ HT))) in Hx. destruct c as [d r]. exact (tidy_none d r HI Ht x Hx). }
  destruct (C11_emplace_total (wbegin c) p n a Hi Hd Hr Hn H0 H47) as (i & t' & E). cbn [wbegin w_tx] in E.
  destruct (emplace_api _ p n a i t' HT (isdir_is_dir _ _ Hd) Hr (Hnr p) E) as (_ & HT' & H1 & H2 & H3 & _ & _ & Hc & _ & Hcase).
  assert (Htd : tidy (t_db t', t_refs t')).
  { destruct (emplace_spec _ p n a HT (isdir_is_dir _ _ Hd) Hr) as [(e' & _ & E')|[(_ & e' & j & _ & _ & _ & E' & _)|(_ & _ & k & R & _ & _ & HI1 & HR & E' & HT2)]]; rewrite E' in E; [congruence| |].
    - injection E as _ <-. intros x Hx. cbn [fst snd t_db t_refs begin_tx] in *. apply Ht. destruct Hcase as [(_ & _ & _ & _ & _ & _ & _ & _ & Hpar)|(_ & _ & Hni & _)].
      + split; [apply Hx|]. rewrite <- Hpar. apply Hx.
      + apply is_orphan_iff in Hx; [|apply HT']. apply is_orphan_iff; [exact HI|]. exact Hx.
    - injection E as _ <-. intros x Hx. cbn [fst snd t_db t_refs] in *. rewrite (Hc x). apply (cleaned_no_gone _ _ R HR HI1). apply is_orphan_iff; [apply HT2|exact Hx]. }
  exists i, (t_db t', t_refs t'). cbn [api]. unfold with_rw_txn. cbn [step_val]. rewrite E. cbn [obind]. rewrite (clean_tidy t' HT' Htd). cbn [obind].
  split; [reflexivity|]. cbn [fst snd]. rewrite H1, H2, H3. split_and!; try reflexivity; [exact Hc| | |].
  - intros x (old & a0 & Hl & Ha & Hty & Hf). destruct Hcase as [(Hl' & (a1 & Ha1 & Hty1) & _)|(_ & _ & _ & _ & _ & _ & rem & Hrem & Hg & _)].
    + cbn [begin_tx t_db] in *. assert (old = i) by congruence. subst old. congruence.
    + apply Hg, Hrem. right. exists old. auto.
  - intros x Hx Hnx. destruct Hcase as [(_ & _ & _ & _ & _ & Hs & Hrl & _)|(_ & _ & _ & _ & Hty & _ & rem & Hrem & _ & Hs & _)].
    + destruct (Hs x Hx) as [Ha Hf]. split_and!; auto.
    + apply Hs; [exact Hx|]. intros Hy. apply Hrem in Hy as [Hy|(old & Hl & Hf)]; [exact (Hnr x Hy)|]. apply Hnx. exists old.
      assert (Hpu : u64 p). { destruct (isdir_is_dir _ _ Hd) as (j & Hj & _). apply (u64_of_inode _ _ _ HI Hj). }
      pose proof Hl as Hl2. apply lookup_treei in Hl2 as (e & He & _); [|exact HI|exact Hpu]. destruct (treei_facts _ _ _ _ HI He) as (_ & [a0 Ha0] & _). exists a0. split_and!; auto. eapply Hty; eassumption.
  - intros q m Hq Hne Hnx. destruct Hcase as [(_ & _ & _ & _ & _ & _ & _ & Hlk & _)|(_ & _ & _ & _ & Hty & _ & rem & Hrem & _ & _ & Hlk & _)]; [apply Hlk, Hq|].
    apply Hlk; [exact Hq|exact Hne|]. intros Hy. apply Hrem in Hy as [Hy|(old & Hl & Hf)]; [exact (Hnr q Hy)|]. apply Hnx. exists old.
    assert (Hpu : u64 p). { destruct (isdir_is_dir _ _ Hd) as (j & Hj & _). apply (u64_of_inode _ _ _ HI Hj). }
    pose proof Hl as Hl2. apply lookup_treei in Hl2 as (e & He & _); [|exact HI|exact Hpu]. destruct (treei_facts _ _ _ _ HI He) as (_ & [a0 Ha0] & _). exists a0. split_and!; auto. eapply Hty; eassumption.
Qed.
Theorem C57_lock : forall c x, idle c -> tidy c -> refcount c.2 x + 1 < 2 ^ 64 ->
  (doomed c.2 x = true -> api c (KLock x) = Done (AVal (Err ESTALE), c)) /\
  (doomed c.2 x = false -> exists r, api c (KLock x) = Done (AVal (Ok 0), (c.1, r)) /\ refcount r x = refcount c.2 x + 1 /\ forall y, y <> x -> refcount r y = refcount c.2 y).
Proof.
  intros c x Hi Ht Hb. pose proof (idle_inv c Hi) as HT. cbn [api]. unfold with_rw_txn. cbn [step_val step]. unfold lock, incref. cbn [begin_tx t_refs t_db t_hooks t_rw].
  pose proof (refcount_nonneg _ x (tinv_refs _ HT)) as Hp. cbn [begin_tx t_refs] in Hp. unfold doomed, refcount in *. destruct c as [d r]. cbn [fst snd] in *. split; intros Hdm.
  - destruct (r !! x) as [[m dm]|]; [|discriminate Hdm]. subst dm. reflexivity.
  - assert (Hcl : forall m, 0 < m -> tx_clean (Tx d (<[x := (m, false)]> r) [RbDecref x] None) = Done (Tx d (<[x := (m, false)]> r) [RbDecref x] None)).
    { intros m Hm. apply clean_tidy.
      - split; [apply HT| |repeat constructor]. intros y k b. cbn [t_refs]. destruct (decide (y = x)) as [->|Hne]; [rewrite lookup_insert; intros E; injection E as <- _; lia|rewrite lookup_insert_ne by congruence; apply (tinv_refs _ HT)].
      - intros y Hy. cbn [fst snd t_db t_refs] in *. unfold refcount. destruct (decide (y = x)) as [->|Hne]; [rewrite lookup_insert; lia|rewrite lookup_insert_ne by congruence; apply (Ht y Hy)]. }
    destruct (r !! x) as [[m dm]|].
    + subst dm. unfold no_value. cbn [obind app]. rewrite w64_id by lia. rewrite Hcl by lia. unfold commit_tx. cbn [obind t_db t_refs]. eexists. split; [reflexivity|]. split; [rewrite lookup_insert; reflexivity|]. intros y Hy. rewrite lookup_insert_ne by congruence. reflexivity.
    + unfold no_value. cbn [obind app]. rewrite Hcl by lia. unfold commit_tx. cbn [obind t_db t_refs]. eexists. split; [reflexivity|]. split; [rewrite lookup_insert; reflexivity|]. intros y Hy. rewrite lookup_insert_ne by congruence. reflexivity.
Qed.
Lemma falls_ext d r r' x y : (forall z, refcount r z = refcount r' z) -> falls d r x y -> falls d r' x y.
Proof. intros H Hf. induction Hf as [Hx|p n z Hf IH Hl Hz]; [apply falls_top; rewrite <- H; exact Hx|]. eapply falls_entry; [exact IH|exact Hl|rewrite <- H; exact Hz]. Qed.
(** releasing the last reference of an inode outside the tree removes it, with everything below it nobody holds *)
Theorem C57_release : forall c x, idle c -> tidy c ->
  (refcount c.2 x = 0 -> api c (KRelease x) = Done (AThrown, c)) /\
  (0 < refcount c.2 x -> exists c', api c (KRelease x) = Done (AVal (Ok 0), c') /\
     refcount c'.2 x = refcount c.2 x - 1 /\ (forall y, y <> x -> refcount c'.2 y = refcount c.2 y) /\
     pruned c.1 c'.1 (fun y => is_orphan c.1 x /\ refcount c.2 x = 1 /\ falls c.1 c'.2 x y)).
Proof.
  intros c x Hi Ht. pose proof (idle_inv c Hi) as HT. cbn [api]. unfold with_rw_txn. cbn [step_val step]. unfold release. cbn [begin_tx t_refs t_db t_hooks t_rw Z.eqb].
  destruct (decref_cases c.2 x 1 ltac:(lia)) as [(Hle & b & Eb & ->)|(Hlt & ->)]; (split; intros Hc; [try lia; try reflexivity|]); [|lia].
  unfold no_value. cbn [obind app]. set (r1 := <[x := (refcount c.2 x - 1, b)]> c.2).
  assert (R1 : refcount r1 x = refcount c.2 x - 1) by (unfold r1; generalize (refcount c.2 x - 1); intros m; unfold refcount; rewrite lookup_insert; reflexivity).
  assert (R2 : forall y, y <> x -> refcount r1 y = refcount c.2 y) by (intros y Hy; unfold refcount, r1; rewrite lookup_insert_ne by congruence; reflexivity).
  assert (HT1 : TInv (Tx c.1 r1 [RbIncref x 1] None)).
  { split; [apply HT| |repeat constructor; lia]. intros y k b'. cbn [t_refs]. unfold r1. destruct (decide (y = x)) as [->|Hne]; [rewrite lookup_insert; intros E; injection E as <- _; lia|rewrite lookup_insert_ne by congruence; apply (tinv_refs _ HT)]. }
  destruct (clean_api _ HT1) as (t' & -> & HT' & _ & _ & Hpr & _ & _ & Hcnt & _). cbn [t_db t_refs] in Hpr, Hcnt. cbn [obind].
  exists (t_db t', t_refs t'). split; [reflexivity|]. cbn [fst snd]. split; [rewrite Hcnt; exact R1|]. split; [intros y Hy; rewrite Hcnt; apply R2, Hy|].
  eapply pruned_iff; [|exact Hpr]. intros y. split.
  - induction 1 as [y Ho Hy|p n y Hp IH Hl Hy].
    + destruct (decide (y = x)) as [->|Hne]; [|specialize (Ht y Ho); rewrite R2 in Hy by exact Hne; lia]. split; [exact Ho|]. split; [lia|]. apply falls_top. rewrite Hcnt. exact Hy.
    + destruct IH as (Ho & H1 & Hf). split_and!; auto. eapply falls_entry; [exact Hf|exact Hl|]. rewrite Hcnt. exact Hy.
  - intros (Ho & H1 & Hf). apply (falls_ext _ _ r1) in Hf; [|exact Hcnt]. clear -Ho Hf. induction Hf as [Hx|p n z Hf IH Hl Hz]; [apply rec_orphan; assumption|]. eapply rec_entry; eassumption.
Qed.
Theorem C57_writelink : forall c x dst, idle c -> tidy c ->
  (~ has_inode c.1 x -> api c (KWritelink x dst) = Done (AVal (Err ENOENT), c)) /\
  (forall a, getattr c.1 x = Ok a -> ftype (a_mode a) <> S_IFLNK -> api c (KWritelink x dst) = Done (AVal (Err EINVAL), c)) /\
  (forall a, getattr c.1 x = Ok a -> ftype (a_mode a) = S_IFLNK -> exists c', api c (KWritelink x dst) = Done (AVal (Ok 0), c') /\
     api c' (KReadlink x) = Done (ABytes (Ok dst), c') /\ getattr c'.1 x = Ok (set_size (Z.of_nat (length dst)) a) /\ c'.2 = c.2 /\
     (forall y, y <> x -> same_inode c.1 c'.1 y) /\ (forall y, parent_of c'.1 y = parent_of c.1 y) /\ (forall p n, lookup c'.1 p n = lookup c.1 p n)).
Proof.
  intros c x dst Hi Ht. destruct (C20_writelink (wbegin c) x dst Hi) as (H1 & H2 & H3). cbn [wbegin w_tx w_comm begin_tx t_db] in H1, H2, H3. cbn [api]. unfold with_rw_txn. cbn [step_val step].
  split; [|split].
  - intros H. rewrite (H1 H). cbn. destruct c; reflexivity.
  - intros a Ha Hty. rewrite (H2 a Ha Hty). cbn. destruct c; reflexivity.
  - intros a Ha Hty. destruct (H3 a Ha Hty) as (t' & E & G1 & G2 & G3 & G4 & G5 & _ & G6 & G7). 
    assert (HT' : TInv t').
    { destruct (step_inv _ (OWritelink x dst) (idle_inv c Hi) I) as [(r' & t2 & E2 & HT2)|(E2 & _)]; cbn [step] in E2; rewrite E in E2; [congruence|discriminate]. }
    cbn [begin_tx t_refs] in G6. rewrite E. unfold no_value. cbn [obind]. rewrite (clean_tidy t' HT').
    + cbn [obind]. exists (commit_tx t'). split; [reflexivity|]. unfold commit_tx. cbn [fst snd]. rewrite G1. split_and!; auto.
    + intros y Hy. cbn [fst snd] in *. rewrite G6. apply Ht. split; [apply Hy|]. rewrite <- G4. apply Hy.
Qed.
(** whatever was committed is there after a crash; only inodes outside the tree, which were kept for their holders, are gone *)
Theorem C57_durable : forall root c, idle c -> exists c', open_cache root c.1 = Done c' /\
  pruned c.1 c'.1 (reclaimable c.1 ∅) /\ (forall x, ~ is_orphan c'.1 x) /\ forall x, refcount c'.2 x = 0.
Proof.
  intros root c Hi. pose proof (idle_inv c Hi) as HT. destruct (C57_open_tidy root c Hi) as (c' & E & Hi' & Ho). exists c'. split; [exact E|].
  unfold open_cache in E. rewrite init_db_id in E by apply HT.
  assert (HT0 : TInv (begin_tx c.1 ∅)) by (split; [apply HT|apply refs_ok_empty|constructor]).
  destruct (clean_api _ HT0) as (t1 & E1 & HT1 & _ & _ & Hpr & Hor & _ & Hcnt & _). rewrite E1 in E. cbn [obind] in E.
  rewrite (clean_tidy t1 HT1) in E. 2: { intros x Hx. cbn [fst snd] in *. rewrite Hcnt. apply Hor, Hx. }
  cbn [obind] in E. injection E as <-. split; [exact Hpr|]. split; [exact Ho|]. intros x. unfold commit_tx. cbn [snd]. rewrite Hcnt. reflexivity.
Qed.
(** ** A concrete case *)
Definition calls_from (c : db * refs) (l : list call) : outcome (list answer * (db * refs)) :=
  fold_left (fun o k => dlet (xs, c) := o in dlet (a, c) := api c k in Done (xs ++ [a], c)) l (Done ([], c)).
Definition sample_calls : list call :=
  [KEmplace 1 (nm 100) dirA; KEmplace 2 (nm 102) regA; KLock 2; KEmplace 1 (nm 100) lnkA; KParent 2; KWritelink 4 [97]; KRelease 2; KGetattr 2; KGetattr 3;
   KPath 4; KReadlink 4; KRelease 2; KEmplace 1 [47] regA; KWritelink 1 [97]; KLock 2; KName 4].
Example C57_sample : exists c0 c, open_cache (A 0) db_empty = Done c0 /\ calls_from c0 sample_calls = Done (
  [AVal (Ok 2); AVal (Ok 3); AVal (Ok 0); AVal (Ok 4); AVal (Ok 0); AVal (Ok 0); AVal (Ok 0); AAttr (Err ENOENT); AAttr (Err ENOENT);
   ABytes (Ok [47; 100]); ABytes (Ok [97]); AThrown; AVal (Err EINVAL); AVal (Err EINVAL); AVal (Err ESTALE); ABytes (Ok (nm 100))], c) /\ idle c0.
Proof.
  destruct (open_cache (A 0) db_empty) as [c0| | |] eqn:E0; try (vm_compute in E0; discriminate E0). exists c0.
  assert (H : match open_cache (A 0) db_empty with Done c0 => match calls_from c0 sample_calls with Done (xs, _) => Some xs | _ => None end | _ => None end = Some
    [AVal (Ok 2); AVal (Ok 3); AVal (Ok 0); AVal (Ok 4); AVal (Ok 0); AVal (Ok 0); AVal (Ok 0); AAttr (Err ENOENT); AAttr (Err ENOENT);
   ABytes (Ok [47; 100]); ABytes (Ok [97]); AThrown; AVal (Err EINVAL); AVal (Err EINVAL); AVal (Err ESTALE); ABytes (Ok (nm 100))]) by (vm_compute; reflexivity).
  rewrite E0 in H. destruct (calls_from c0 sample_calls) as [[xs c]| | |]; try discriminate H. exists c. split; [reflexivity|]. split; [congruence|].
  exists (A 0), (wbegin c0), []. split; [unfold wopen; rewrite E0; reflexivity|]. split; [exact I|reflexivity].
Qed.
Print Assumptions C57_calls.
Print Assumptions C57_open_tidy.
Print Assumptions C57_emplace.
Print Assumptions C57_lock.
Print Assumptions C57_release.
Print Assumptions C57_writelink.
Print Assumptions C57_durable.
