(** Every request of a legal history is handled and keeps the invariants. *)
From Verif Require Export FsLoops.

Lemma dec_special n : {special n} + {~ special n}.
Proof. destruct (decide (special n)); auto. Qed.
Lemma told_plus_want e k : told_plus (want_plus e) k = if decide (special (be_name e)) then k else told (be_ino e) (a_mode (be_attr e)) k.
Proof. unfold told_plus, special. reflexivity. Qed.
Lemma kcount_told_plus L k y : kcount (foldr told_plus k (map want_plus L)) y = kcount k y + uses y L.
Proof.
  induction L as [|e L IH]; [unfold uses; cbn; lia|]. cbn [map foldr]. rewrite told_plus_want, uses_cons. destruct (decide (special (be_name e))) as [Hs|Hs].
  - destruct (decide (~ special (be_name e) /\ be_ino e = y)) as [[? ?]|]; [contradiction|]. rewrite IH. lia.
  - rewrite kcount_told, IH. destruct (Z.eqb_spec (be_ino e) y); destruct (decide (~ special (be_name e) /\ be_ino e = y)) as [[? ?]|Hn]; try lia. exfalso. apply Hn. auto.
Qed.
Lemma dirs_told_plus L k y : y ∈ k_dirs (foldr told_plus k (map want_plus L)) -> y ∈ k_dirs k \/
  exists e, e ∈ L /\ ~ special (be_name e) /\ be_ino e = y /\ ftype (a_mode (be_attr e)) = S_IFDIR.
Proof.
  induction L as [|e L IH]; [auto|]. cbn [map foldr]. rewrite told_plus_want. destruct (decide (special (be_name e))) as [Hs|Hs].
  - intros Hy. destruct (IH Hy) as [?|(e' & ? & ?)]; [auto|]. right. exists e'. split; [right; assumption|assumption].
  - intros Hy. apply told_dirs in Hy as [Hy|[-> Hm]]; [|right; exists e; split; [left|auto]]. destruct (IH Hy) as [?|(e' & ? & ?)]; [auto|]. right. exists e'. split; [right; assumption|assumption].
Qed.
Lemma reads_plus L : Forall bent_ok L -> kernel_reads_plus (concat (map rec_plus L)) = map want_plus L.
Proof. intros H. unfold kernel_reads_plus. apply kparse_plus_all; [assumption|]. apply recs_plus_length. Qed.
Lemma reads_dirents L : Forall bent_ok L -> kernel_reads (concat (map rec_dirent L)) = map want L.
Proof. intros H. unfold kernel_reads. apply kparse_all; [assumption|]. apply recs_length. Qed.
Lemma fits_sub f size l pre post P : fits f size l pre post -> Forall P l -> Forall P pre.
Proof. intros (-> & _) H. apply Forall_app in H. tauto. Qed.
Lemma snap_small W s k id snap dir : FInv W s k -> W + 3 < 2 ^ 63 -> s_plus s !! id = Some (snap, dir) -> small snap.
Proof.
  intros HF HW Hid. destruct (fi_snap _ _ _ HF _ _ _ Hid) as [_ (_ & (n & n' & Hn & Hn' & Hle) & _)]. destruct (dr_next _ _ _ (fi_dr _ _ _ HF)) as (m & Hm & Hmle).
  exists n. split; [assumption|]. assert (n' = m) by congruence. lia.
Qed.
Lemma plus_bents W s k id snap dir cur l e P `{!forall x, Decision (P x)} : FInv W s k -> AInv s -> W + 3 < 2 ^ 63 -> s_plus s !! id = Some (snap, dir) -> scan snap dir cur l e ->
  Forall bent_ok (filter P (map to_bent l)).
Proof.
  intros HF HA HW Hid Hs. pose proof (scan_bents snap dir cur l e (proj1 (fi_snap _ _ _ HF _ _ _ Hid)) (proj2 HA _ _ _ Hid) (snap_small _ _ _ _ _ _ HF HW Hid) Hs) as Hok.
  apply Forall_forall. intros b Hb. apply elem_of_list_filter in Hb as [_ Hb]. exact (proj1 (Forall_forall _ _) Hok b Hb).
Qed.
Lemma uses_touched y size pre post : 0 < size \/ pre = [] -> uses y (touched size pre post) = uses y pre + (if 0 <? size then uses y (take 1 post) else 0).
Proof. unfold touched. destruct (Z.ltb_spec 0 size); intros [?| ->]; try lia; try apply uses_app; reflexivity. Qed.

Lemma plus_FInv W s k id size off snap dir : FInv W s k -> AInv s -> s_plus s !! id = Some (snap, dir) -> W + weight s (QPlusRun id size off) + 3 < 2 ^ 63 ->
  exists s' rep, h_plus s id size off = Done (s', [rep]) /\ FInv (W + weight s (QPlusRun id size off)) s' (kstep k (QPlusRun id size off) [rep]) /\ AInv s'.
Proof.
  intros HF HA Hid HW. destruct (h_plus_total W s k id size off snap dir HF Hid ltac:(lia)) as (l & e & pre & post & rep & Hs & Hfit & E & Hdr & HR & Hrep). cbv zeta in *.
  set (r' := fold_left lock1 (touched size pre post) (s_refs s)) in *. exists (Fst (s_db s) r' (delete id (s_plus s))), rep. split; [exact E|].
  split; [|split; [exact (proj1 HA)|intros id' ds x Hx; cbn [s_plus] in Hx; apply lookup_delete_Some in Hx as [_ Hx]; exact (proj2 HA _ _ _ Hx)]].
  destruct (fi_snap _ _ _ HF _ _ _ Hid) as [Hsi Hcov].
  assert (Hbents : Forall bent_ok pre). { cbn [weight] in HW. eapply fits_sub; [exact Hfit|]. eapply (plus_bents W s k); [exact HF|exact HA|lia|exact Hid|exact Hs]. }
  assert (Hdm : forall y, doomed r' y = doomed (s_refs s) y) by (intros y; apply locks_doomed).
  assert (Hk : (forall y, kcount k y <= kcount (kstep k (QPlusRun id size off) [rep]) y <= kcount k y + uses y pre) /\
    (forall y, y ∈ k_dirs (kstep k (QPlusRun id size off) [rep]) -> y ∈ k_dirs k \/ exists b, b ∈ pre /\ ~ special (be_name b) /\ be_ino b = y /\ ftype (a_mode (be_attr b)) = S_IFDIR)).
  { destruct Hrep as [[-> _]|[-> _]]; cbn [kstep].
    - rewrite reads_plus by assumption. split; [intros y; rewrite kcount_told_plus; pose proof (uses_nonneg y pre); lia|intros y; apply dirs_told_plus].
    - split; [intros y; pose proof (uses_nonneg y pre); lia|auto]. }
  destruct Hk as [Hk Hkd]. split; cbn [s_db s_refs s_plus].
  - exact Hdr.
  - intros y. rewrite HR. pose proof (fi_k _ _ _ HF y). specialize (Hk y). rewrite uses_touched by (destruct Hfit as (_ & _ & ?); destruct (Z_lt_le_dec 0 size); auto).
    pose proof (uses_nonneg y (take 1 post)). pose proof (uses_nonneg y pre). destruct (0 <? size); lia.
  - intros y Hy. destruct (Hkd y Hy) as [?|(b & Hb & Hsp & <- & Hm)]; [eapply fi_kd; eassumption|].
    assert (Hb' : b ∈ filter (kept (s_refs s)) (map to_bent l)) by (destruct Hfit as (-> & _); set_solver).
    apply elem_of_list_filter in Hb' as [[?|Hkp] Hb']; [contradiction|]. pose proof (proj1 (Forall_forall _ _) (scan_has _ _ _ _ _ Hs) b Hb') as Hg. cbn in Hg. apply getattr_Ok in Hg as (i & Hi & Hia).
    destruct (proj1 Hcov _ _ Hi) as [(j & Hj & Hty)|Hd]; [|congruence]. destruct (inv_next _ (dr_inv _ _ _ Hdr)) as (n & Hn & _ & Hlt).
    split; [exists n; split; [exact Hn|]; apply (Hlt _ _ Hj)|]. intros i' Hi'. assert (i' = j) by congruence. subst i'. rewrite Hty, Hia. exact Hm.
  - intros id' ds x Hx. apply lookup_delete_Some in Hx as [_ Hx]. destruct (fi_snap _ _ _ HF _ _ _ Hx) as [Hi Hc]. split; [assumption|]. destruct Hc as (C1 & C2 & C3). split; [|auto].
    intros y i Hy. destruct (C1 y i Hy) as [?|?]; [auto|]. right. rewrite Hdm. assumption.
Qed.
Lemma begin_FInv W s k id x : FInv W s k -> FInv W (Fst (s_db s) (s_refs s) (<[id := (s_db s, x)]> (s_plus s))) k.
Proof.
  intros [H1 H2 H3 H4]. split; cbn [s_db s_refs s_plus]; try assumption. intros id' ds y Hy. destruct (decide (id = id')) as [->|Hne].
  - rewrite lookup_insert in Hy. injection Hy as <- <-. split; [exact (dr_inv _ _ _ H1)|apply covers_refl, (dr_inv _ _ _ H1)].
  - rewrite lookup_insert_ne in Hy by assumption. eapply H4; eassumption.
Qed.
Lemma open_FInv W root d : 0 <= W -> attrs_ok root -> Inv (init_db root d) -> DA d -> (exists n, d_next (init_db root d) = Some n /\ n <= W + 2) ->
  exists d' r, open_cache root d = Done (d', r) /\ FInv W (Fst d' r ∅) k0 /\ AInv (Fst d' r ∅).
Proof.
  intros HW0 Hroot Hi HA (n & Hn & Hle). destruct (open_cache_spec root d Hi) as (R & HR & E & Hi' & Hr' & Ho). eexists _, _. split; [exact E|]. split.
  - split; cbn [s_db s_refs s_plus].
    + split; try assumption.
      * exists n. split; [exact Hn|lia].
      * intros y. rewrite refcount_doom_all. unfold refcount. rewrite lookup_empty. lia.
      * intros y Hy. apply doomed_doom_all in Hy as [Hy|Hy]; [|discriminate]. split.
        -- destruct (d_inodes (cleaned R (init_db root d)) !! y) eqn:Ey; [|reflexivity]. apply cleaned_inodes in Ey as [? _]. contradiction.
        -- exists n. split; [exact Hn|]. apply HR, gone_has in Hy as [Hy _]; [|assumption]. apply has_inode_iff in Hy as [i Hy]. destruct (inv_next _ Hi) as (n' & Hn' & _ & Hlt). assert (n' = n) by congruence. subst. apply (Hlt _ _ Hy).
      * intros y Hy. rewrite refcount_doom_all in Hy. unfold refcount in Hy. rewrite lookup_empty in Hy. lia.
    + intros y. rewrite refcount_doom_all. unfold kcount, k0, refcount. cbn [k_cnt]. rewrite !lookup_empty. cbn. lia.
    + intros y Hy. cbn in Hy. set_solver.
    + intros id ds x Hx. rewrite lookup_empty in Hx. discriminate.
  - split; [|intros id ds x Hx; cbn in Hx; rewrite lookup_empty in Hx; discriminate]. cbn [s_db]. apply DA_cleaned. unfold init_db. destruct (d_next d); [exact HA|].
    intros x i Hx. cbn in Hx. destruct (decide (1 = x)) as [<-|Hne].
    + unfold ROOT_INO in Hx. rewrite lookup_insert in Hx. injection Hx as <-. cbn. revert Hroot. unfold attrs_ok, set_mode. cbn. unfold S_IFDIR. intuition lia.
    + unfold ROOT_INO in Hx. rewrite lookup_insert_ne in Hx by assumption. exact (HA _ _ Hx).
Qed.

(** a request that leaves the kernel waiting: only the first half of readdirplus and a restart *)
Definition unanswered (q : request) : Prop := match q with QPlusBegin _ _ | QRestart _ => True | _ => False end.
Record step_ok (W : Z) (s : fstate) (k : kst) (q : request) (s' : fstate) (o : option (list reply)) : Prop := {
  so_ainv : AInv s';
  so_none : unanswered q -> o = None;
  so_some : ~ unanswered q -> exists l r, o = Some l /\ (sent_of o).1 = [r];
  so_inv : (sent_of o).2 = false -> FInv (W + weight s q) s' (kstep k q (sent_of o).1);
  so_thrown : (sent_of o).2 = true -> s' = s /\ exists x size off, q = QReaddir x size off /\ (~ has_inode (s_db s) x \/ is_orphan (s_db s) x) }.
Lemma step_one W s k q s' r : ~ unanswered q -> AInv s' -> FInv (W + weight s q) s' (kstep k q [r]) -> step_ok W s k q s' (Some [r]).
Proof.
  intros Hu HA HF. assert (E : sent_of (Some [r]) = ([r], false)) by (cbn [sent_of]; apply answer_one). split.
  - assumption.
  - contradiction.
  - intros _. exists [r], r. rewrite E. split; reflexivity.
  - intros _. rewrite E. assumption.
  - rewrite E. discriminate.
Qed.
Lemma readdir_one s x size off l : readdir_case s x size off l -> (exists r, l = [r] /\ answer l = ([r], false)) \/
  (exists e b, l = [RErr e; RBuf b] /\ answer l = ([RErr e], true) /\ (~ has_inode (s_db s) x \/ is_orphan (s_db s) x)).
Proof. intros [l' e pre post|l' pre|?|l' e pre ? ? ? ? ? Ho]; [left..|right]; eauto 6 using answer_one, answer_two. exists e, (concat (map rec_dirent pre)). split; [reflexivity|]. split; [reflexivity|]. tauto. Qed.

Lemma fstep_spec W s k q : FInv W s k -> AInv s -> klegal k s q -> enough W s q -> exists s' o, fstep s q = Done (s', o) /\ step_ok W s k q s' o.
Proof.
  intros HF HA Hl HW. unfold enough in HW.
  assert (H63 : 2 ^ 63 < 2 ^ 64) by lia.
  assert (HW0 : 0 <= W). { pose proof (refcount_nonneg (s_refs s) 0 (dr_refs _ _ _ (fi_dr _ _ _ HF))). pose proof (dr_cnt _ _ _ (fi_dr _ _ _ HF) 0). lia. }
  destruct q as [b p n|x n|fs|x|b x|b x|x size off|x|id x|id size off|tag|root]; cbn [fstep klegal] in *.
  - destruct Hl as [Hk Hb]. cbn [weight] in HW. destruct (h_lookup_total W s k b p n HF Hk ltac:(lia)) as (s' & l & -> & Hc).
    destruct (lookup_FInv W s k b p n s' l HF Hk ltac:(lia) Hc) as (r & -> & HF'). eexists _, _. split; [reflexivity|]. apply step_one; [auto| |exact HF'].
    eapply (lookup_AInv W s k); [exact HF|exact Hk|exact Hb|lia|exact Hc|exact HA].
  - cbn [weight] in HW. destruct (h_forget_spec W s k x n HF ltac:(lia) Hl) as (t & E & _ & Hd & _). rewrite E. destruct (forget_FInv W s k x n _ _ HF ltac:(lia) Hl E) as [_ HF'].
    eexists _, _. split; [reflexivity|]. apply step_one; [auto| |cbn [weight kstep]; rewrite Z.add_0_r; exact HF'].
    apply AInv_after; [exact HA|rewrite Hd; exact (proj1 HA)].
  - cbn [weight] in HW. destruct Hl as [Hl1 Hl2]. destruct (h_forget_multi_spec W s k fs HF ltac:(lia) Hl1 Hl2) as (t & E & _ & Hd & _). rewrite E. destruct (forget_multi_FInv W s k fs _ _ HF ltac:(lia) Hl1 Hl2 E) as [_ HF'].
    eexists _, _. split; [reflexivity|]. apply step_one; [auto| |cbn [weight kstep]; rewrite Z.add_0_r; exact HF'].
    apply AInv_after; [exact HA|rewrite Hd; exact (proj1 HA)].
  - unfold h_getattr. cbn [weight]. destruct (getattr (s_db s) x); (eexists _, _; split; [reflexivity|]; apply step_one; [auto|exact HA|cbn [weight kstep]; rewrite Z.add_0_r; exact HF]).
  - cbn [weight] in HW. destruct (h_readlink_total W s k b x HF) as (s' & l & -> & Hc). destruct (readlink_FInv W s k b x s' l HF ltac:(lia) Hc) as [[r ->] HF'].
    eexists _, _. split; [reflexivity|]. apply step_one; [auto| |cbn [weight kstep]; rewrite Z.add_0_r; exact HF']. eapply (readlink_AInv W s k); [exact HF|exact Hl|exact Hc|exact HA].
  - destruct Hl as [Hk Hb]. destruct (h_opendir_total W s k b x HF Hk ltac:(lia)) as (s' & l & E & Hc & Hs'). rewrite E.
    assert (HA' : AInv s') by (eapply (opendir_AInv W s k b x); [exact HF|exact Hk|exact Hb|lia|exact E|exact HA]).
    assert (Hlr : exists r, l = [r]) by (destruct Hc; eauto). destruct Hlr as [r ->].
    eexists _, _. split; [reflexivity|]. apply step_one; [auto|exact HA'|]. cbn [kstep].
    destruct Hs' as [->|(t & -> & Hw & Hrc)].
    + eapply FInv_weaken; [exact HF|]. cbn [weight]. destruct (path _ _) as [[?|?]| | |]; try lia. destruct (b_opendir _ _) as [[? ?]|]; lia.
    + eapply fi_commit; [exact HF|exact Hw| |auto]. intros y. rewrite Hrc. apply (fi_k _ _ _ HF).
  - destruct (h_readdir_total s x size off (dr_inv _ _ _ (fi_dr _ _ _ HF))) as (l & -> & Hc). eexists _, _. split; [reflexivity|].
    destruct (readdir_one _ _ _ _ _ Hc) as [(r & -> & _)|(e & bb & -> & Ea & Ho)].
    + apply step_one; [auto|exact HA|]. cbn [weight kstep]. rewrite Z.add_0_r. exact HF.
    + split; cbn [sent_of]; rewrite ?Ea; cbn [fst snd]; [exact HA|contradiction|eauto|discriminate|]. intros _. split; [reflexivity|]. eauto 6.
  - eexists _, _. split; [reflexivity|]. apply step_one; [auto|exact HA|]. cbn [weight kstep]. rewrite Z.add_0_r. exact HF.
  - eexists _, _. split; [reflexivity|]. split; cbn [sent_of fst snd unanswered]; auto.
    + split; [exact (proj1 HA)|]. intros id' ds y Hy. cbn [s_plus] in Hy. destruct (decide (id = id')) as [->|Hne]; [rewrite lookup_insert in Hy; injection Hy as <- <-; exact (proj1 HA)|].
      rewrite lookup_insert_ne in Hy by assumption. exact (proj2 HA _ _ _ Hy).
    + tauto.
    + intros _. cbn [weight kstep]. rewrite Z.add_0_r. apply begin_FInv, HF.
    + discriminate.
  - destruct (s_plus s !! id) as [[snap dir]|] eqn:Hid; [|contradiction].
    destruct (plus_FInv W s k id size off snap dir HF HA Hid HW) as (s' & rep & -> & HF' & HA'). eexists _, _. split; [reflexivity|]. apply step_one; [auto|exact HA'|exact HF'].
  - eexists _, _. split; [reflexivity|]. apply step_one; [auto|exact HA|]. cbn [weight kstep]. rewrite Z.add_0_r. exact HF.
  - pose proof (dr_inv _ _ _ (fi_dr _ _ _ HF)) as Hi. destruct (open_FInv W root (s_db s) HW0 Hl) as (d' & r & -> & HF' & HA').
    + rewrite init_db_id by assumption. assumption.
    + exact (proj1 HA).
    + rewrite init_db_id by assumption. exact (dr_next _ _ _ (fi_dr _ _ _ HF)).
    + cbn [obind]. eexists _, _. split; [reflexivity|]. split; cbn [sent_of fst snd unanswered]; auto; [tauto| |discriminate]. intros _. cbn [weight kstep]. rewrite Z.add_0_r. exact HF'.
Qed.

Lemma hist_inv W s k h : hist W s k h -> FInv W s k /\ AInv s /\ 0 <= W.
Proof.
  induction 1 as [root d r Ha E|W s k h q s' o sent _ [HF [HA HW]] Hl Hen E Es].
  - destruct (open_FInv 0 root db_empty ltac:(lia) Ha (init_db_inv root)) as (d' & r' & E' & HF & HA).
    + intros x i Hx. cbn in Hx. rewrite lookup_empty in Hx. discriminate.
    + exists 2. split; [reflexivity|lia].
    + rewrite E' in E. injection E as <- <-. split; [assumption|]. split; [assumption|lia].
  - destruct (fstep_spec W s k q HF HA Hl Hen) as (s2 & o2 & E2 & Hok). rewrite E2 in E. injection E as -> ->.
    assert (Hw : 0 <= weight s q). { destruct q; cbn [weight]; try lia. destruct (path _ _) as [[?|?]| | |]; try lia. destruct (b_opendir _ _) as [[? ?]|]; lia. }
    pose proof (so_inv _ _ _ _ _ _ Hok) as HF'. rewrite Es in HF'. cbn [fst snd] in HF'. split; [auto|]. split; [exact (so_ainv _ _ _ _ _ _ Hok)|lia].
Qed.
