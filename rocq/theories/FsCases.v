(** What each handler does in a consistent state, case by case. *)
From Verif Require Export FsInv.

Definition begun (s : fstate) : tx := begin_tx (s_db s) (s_refs s).
Definition after (t : tx) (s : fstate) : fstate := set_dbr (t_db t) (t_refs t) s.

Inductive lookup_case (s : fstate) (b : backend) (p : Z) (n : bytes) : fstate -> list reply -> Prop :=
| lc_nopath : (forall comps, ~ walk (s_db s) 1 comps p) -> lookup_case s b p n s [RErr ENOENT]
| lc_badname comps st e : walk (s_db s) 1 comps p -> b_lstat b 0 (spell comps ++ [47] ++ n) = Ok st ->
    check_name n true = Err e -> lookup_case s b p n s [RErr e]
| lc_online comps st c t1 t2 : walk (s_db s) 1 comps p -> b_lstat b 0 (spell comps ++ [47] ++ n) = Ok st ->
    emplace (begun s) p n (from_backend_stat st) = Done (Ok c, t1) -> lock t1 c = Done (Ok tt, t2) ->
    lookup_case s b p n (after t2 s) [REntry c (from_backend_stat st)]
| lc_offline comps c a t2 : walk (s_db s) 1 comps p -> b_lstat b 0 (spell comps ++ [47] ++ n) = Err ENOTCONN ->
    lookup (s_db s) p n = Ok c -> getattr (s_db s) c = Ok a -> lock (begun s) c = Done (Ok tt, t2) ->
    lookup_case s b p n (after t2 s) [REntry c a]
| lc_absent comps : walk (s_db s) 1 comps p -> b_lstat b 0 (spell comps ++ [47] ++ n) = Err ENOTCONN ->
    lookup (s_db s) p n = Err ENOENT -> test_flag (s_db s) p SYNCED = Ok true -> lookup_case s b p n s [RErr ENOENT]
| lc_unknown comps : walk (s_db s) 1 comps p -> b_lstat b 0 (spell comps ++ [47] ++ n) = Err ENOTCONN ->
    lookup (s_db s) p n = Err ENOENT -> test_flag (s_db s) p SYNCED <> Ok true -> lookup_case s b p n s [RErr EIO]
| lc_refused comps e : walk (s_db s) 1 comps p -> b_lstat b 0 (spell comps ++ [47] ++ n) = Err ENOTCONN ->
    lookup (s_db s) p n = Err e -> e <> ENOENT -> lookup_case s b p n s [RErr e]
| lc_error comps e x t1 : walk (s_db s) 1 comps p -> b_lstat b 0 (spell comps ++ [47] ++ n) = Err e -> e <> ENOTCONN ->
    unlink_name (begun s) p n = Done (x, t1) -> lookup_case s b p n (after t1 s) [RErr e].

Lemma lock_present d r hs rw c W : DR W d r -> W + 3 < 2 ^ 64 -> d_inodes d !! c <> None -> exists t2, lock (Tx d r hs rw) c = Done (Ok tt, t2) /\
  t_db t2 = d /\ (forall x, refcount (t_refs t2) x = refcount r x + (if c =? x then 1 else 0)).
Proof.
  intros Hdr HW Hc. pose proof (dr_refs _ _ _ Hdr) as Hr. assert (Hc0 : 0 <= refcount r c <= W) by (split; [apply refcount_nonneg; assumption|apply (dr_cnt _ _ _ Hdr)]).
  unfold lock, incref. cbn [t_refs t_db t_hooks t_rw]. unfold refcount in Hc0. destruct (r !! c) as [[m b]|] eqn:Em.
  - destruct b; [exfalso; apply Hc; apply (dr_doom _ _ _ Hdr); unfold doomed; rewrite Em; reflexivity|].
    eexists. split; [reflexivity|]. split; [reflexivity|]. intros x. cbn [t_refs]. unfold refcount. destruct (Z.eqb_spec c x) as [->|].
    + rewrite lookup_insert, Em. unfold w64. rewrite Z.mod_small; lia.
    + rewrite lookup_insert_ne by assumption. lia.
  - eexists. split; [reflexivity|]. split; [reflexivity|]. intros x. cbn [t_refs]. unfold refcount. destruct (Z.eqb_spec c x) as [->|].
    + rewrite lookup_insert, Em. lia.
    + rewrite lookup_insert_ne by assumption. lia.
Qed.

Lemma h_lookup_total W s k b p n : FInv W s k -> kdir k p -> W + 5 < 2 ^ 64 ->
  exists s' l, h_lookup s b p n = Done (s', l) /\ lookup_case s b p n s' l.
Proof.
  intros HI Hp HW. pose proof (fi_dr _ _ _ HI) as Hdr. pose proof (dr_inv _ _ _ Hdr) as H. pose proof (kdir_is_dir _ _ _ _ HI Hp) as Hdir.
  unfold h_lookup. cbn [begin_tx t_db]. destruct (path_spec (s_db s) p H) as [(comps & Hw & Ep)|(Hw & Ep)]; rewrite Ep; cbn [obind].
  2:{ eexists _, _. split; [reflexivity|]. cbn [t_refs begin_tx]. rewrite set_dbr_id. constructor. assumption. }
  destruct (b_lstat b 0 (spell comps ++ [47] ++ n)) as [st|e] eqn:El.
  - fold (begun s). assert (Hroom : room (t_db (begun s))) by (eapply way_room; [apply way_begin; exact Hdr|lia]).
    assert (HT : TInv (begun s)) by (eapply way_tinv; apply way_begin; exact Hdr).
    destruct (step_inv (begun s) (OEmplace p n (from_backend_stat st)) HT (conj Hdir Hroom)) as [(r & t1 & E1 & _)|(_ & x & m & Hx & _)]; [|discriminate].
    assert (HWay : way W (begun s) (W + 1) t1) by (change 1 with (cost (OEmplace p n (from_backend_stat st))); eapply way_step; [apply way_begin; exact Hdr|split; assumption|lia|discriminate|exact E1]).
    cbn [step] in E1. unfold drop_val in E1. destruct (emplace (begun s) p n (from_backend_stat st)) as [[x1 t1']| | |] eqn:Ee; try discriminate. cbn [obind] in E1.
    injection E1 as E1 ->. cbn [obind]. destruct x1 as [c|e].
    + assert (Hc : getattr (t_db t1) c = Ok (from_backend_stat st)).
      { eapply (emplace_api (begun s) p n _ c t1 HT Hdir Hroom); [|exact Ee]. rewrite reclaimable_gone; [|exact H|apply (dr_refs _ _ _ Hdr)]. eapply linked_not_gone; eassumption. }
      apply getattr_Ok in Hc as (ci & Hci & _). destruct t1 as [d1 r1 hs1 rw1].
      destruct (lock_present d1 r1 hs1 rw1 c (W + 1)) as (t2 & E2 & _ & _); [exact (wy_dr _ _ _ _ HWay)|lia|cbn in Hci; congruence|].
      rewrite E2. cbn [obind]. eexists _, _. split; [reflexivity|]. eapply lc_online; eassumption.
    + destruct (emplace_spec (begun s) p n (from_backend_stat st) HT Hdir Hroom) as [(err & Hcn & E')|[(_ & ? & ? & _ & _ & _ & E' & _)|(_ & _ & ? & ? & _ & _ & _ & _ & E' & _)]]; rewrite E' in Ee; try discriminate.
      injection Ee as <- <-. eexists _, _. split; [reflexivity|]. cbn [t_refs begin_tx begun]. rewrite set_dbr_id. eapply lc_badname; eassumption.
  - destruct (Z.eqb_spec e ENOTCONN) as [->|Hne].
    + destruct (lookup (s_db s) p n) as [c|e] eqn:Elk.
      * pose proof Elk as Hlk. apply lookup_Ok in Hlk as (_ & en & Hen & Hc); [|assumption|apply (is_dir_u64 _ _ H Hdir)].
        destruct (treen_child _ _ _ _ H Hen) as (_ & _ & ci & Hci & _). rewrite Hc in Hci.
        unfold getattr. rewrite Hci. destruct (lock_present (s_db s) (s_refs s) [] None c W) as (t2 & E2 & _ & _); [assumption|lia|congruence|].
        change (begin_tx (s_db s) (s_refs s)) with (Tx (s_db s) (s_refs s) [] None). rewrite E2. cbn [obind].
        eexists _, _. split; [reflexivity|]. eapply lc_offline; try eassumption. unfold getattr. rewrite Hci. reflexivity.
      * destruct (Z.eqb_spec e ENOENT) as [->|Hne].
        -- destruct (test_flag (s_db s) p SYNCED) as [[|]|] eqn:Ef; (eexists _, _; split; [reflexivity|]; cbn [t_refs]; rewrite set_dbr_id);
             [eapply lc_absent; eassumption|eapply lc_unknown; try eassumption; rewrite Ef; discriminate..].
        -- eexists _, _. split; [reflexivity|]. cbn [t_refs begin_tx]. rewrite set_dbr_id. eapply lc_refused; eassumption.
    + fold (begun s). assert (HT : TInv (begun s)) by (eapply way_tinv; apply way_begin; exact Hdr).
      destruct (step_inv (begun s) (OUnlinkName p n) HT I) as [(r & t1 & E1 & _)|(_ & x & m & Hx & _)]; [|discriminate]. cbn [step] in E1. rewrite E1. cbn [obind].
      eexists _, _. split; [reflexivity|]. eapply lc_error; eassumption.
Qed.

(** ** replies *)
Lemma answer_one r : answer [r] = ([r], false).
Proof. destruct r; vm_compute; reflexivity. Qed.
Lemma kcount_told x m k y : kcount (told x m k) y = kcount k y + (if x =? y then 1 else 0).
Proof.
  unfold kcount at 1, told. cbn [k_cnt]. destruct (Z.eqb_spec x y) as [->|]; [rewrite lookup_insert; reflexivity|]. rewrite lookup_insert_ne by assumption. unfold kcount. lia.
Qed.
Lemma told_dirs x m k y : y ∈ k_dirs (told x m k) -> y ∈ k_dirs k \/ y = x /\ ftype m = S_IFDIR.
Proof.
  unfold told. cbn [k_dirs]. destruct (Z.eqb_spec (ftype m) S_IFDIR) as [E|]; [|auto]. rewrite elem_of_union, elem_of_singleton. tauto.
Qed.
Lemma kcount_forgot x n k y : kcount (forgot x n k) y = kcount k y - (if x =? y then n else 0).
Proof.
  unfold kcount at 1, forgot. cbn [k_cnt]. destruct (Z.eqb_spec x y) as [->|]; [rewrite lookup_insert; reflexivity|]. rewrite lookup_insert_ne by assumption. unfold kcount. lia.
Qed.
Lemma lock_refcount t c t2 W : DR W (t_db t) (t_refs t) -> W + 3 < 2 ^ 64 -> lock t c = Done (Ok tt, t2) ->
  t_db t2 = t_db t /\ forall x, refcount (t_refs t2) x = refcount (t_refs t) x + (if c =? x then 1 else 0).
Proof.
  intros Hdr HW E. assert (Hc0 : forall x, 0 <= refcount (t_refs t) x <= W) by (intros x; split; [apply refcount_nonneg, (dr_refs _ _ _ Hdr)|apply (dr_cnt _ _ _ Hdr)]).
  unfold lock, incref in E. destruct (t_refs t !! c) as [[m []]|] eqn:Em; [discriminate| |]; injection E as <-; (split; [reflexivity|]); intros x; specialize (Hc0 x); cbn [t_refs];
    unfold refcount in *; (destruct (Z.eqb_spec c x) as [->|]; [rewrite lookup_insert, Em in *; unfold w64; rewrite ?Z.mod_small by lia; lia|rewrite lookup_insert_ne by assumption; lia]).
Qed.
Lemma way_lock W t0 W' t c t2 : way W t0 W' t -> W' + 3 < 2 ^ 64 -> d_inodes (t_db t) !! c <> None -> lock t c = Done (Ok tt, t2) ->
  way W t0 (W' + 1) t2.
Proof.
  intros HWay HW Hc E. eapply (way_step W t0 W' t (OLock c) (Ok tt)); [assumption|exact I|assumption| |exact E].
  intros x [= <-]. auto.
Qed.
Lemma way_emplace W t0 W' t p n a x t1 : way W t0 W' t -> is_dir (t_db t) p -> W' + 3 < 2 ^ 64 -> emplace t p n a = Done (x, t1) ->
  way W t0 (W' + 1) t1 /\ forall y, refcount (t_refs t1) y = refcount (t_refs t) y.
Proof.
  intros HWay Hdir HW E. assert (Hleg : legal t (OEmplace p n a)) by (split; [assumption|eapply way_room; eassumption]).
  assert (E' : exists r, step t (OEmplace p n a) = Done (r, t1)) by (cbn [step]; rewrite E; cbn; eauto). destruct E' as [r E'].
  split; [eapply (way_step W t0 W' t (OEmplace p n a) r); [assumption..|discriminate|exact E']|].
  intros y. rewrite (step_refcount t _ _ _ y (way_tinv _ _ _ _ HWay) Hleg E'). reflexivity.
Qed.
Lemma way_plain W t0 W' t o r t1 : way W t0 W' t -> W' + 3 < 2 ^ 64 -> step t o = Done (r, t1) ->
  (match o with OEmplace _ _ _ | OLock _ | ORelease _ _ => False | _ => True end) ->
  way W t0 W' t1 /\ forall y, refcount (t_refs t1) y = refcount (t_refs t) y.
Proof.
  intros HWay HW E Ho. assert (Hleg : legal t o) by (destruct o; [contradiction|exact I..|contradiction]).
  split; [replace W' with (W' + cost o) by (destruct o; cbn; try contradiction; lia); eapply way_step; [eassumption..| |exact E]; intros x ->; contradiction|].
  intros y. rewrite (step_refcount t _ _ _ y (way_tinv _ _ _ _ HWay) Hleg E). destruct o; try contradiction; reflexivity.
Qed.
Lemma getattr_dir d c a : getattr d c = Ok a -> ftype (a_mode a) = S_IFDIR -> is_dir d c.
Proof. intros E Ht. apply getattr_Ok in E as (i & Hi & <-). exists i. auto. Qed.

Lemma lookup_way W s k b p n s' l : FInv W s k -> kdir k p -> W + 5 < 2 ^ 64 -> lookup_case s b p n s' l ->
  (s' = s /\ exists e, l = [RErr e]) \/
  (exists t e, s' = after t s /\ l = [RErr e] /\ way W (begun s) W t /\ forall x, refcount (t_refs t) x = refcount (s_refs s) x) \/
  (exists t c a, s' = after t s /\ l = [REntry c a] /\ way W (begun s) (W + 2) t /\ getattr (t_db t) c = Ok a /\ lookup (t_db t) p n = Ok c /\
     forall x, refcount (t_refs t) x = refcount (s_refs s) x + if c =? x then 1 else 0).
Proof.
  intros HI Hp HW Hc. pose proof (fi_dr _ _ _ HI) as Hdr. pose proof (dr_inv _ _ _ Hdr) as H. pose proof (kdir_is_dir _ _ _ _ HI Hp) as Hdir.
  pose proof (way_begin _ _ _ Hdr) as W0. fold (begun s) in W0.
  destruct Hc as [Hn|comps st e Hw El Hcn|comps st c t1 t2 Hw El E1 E2|comps c a t2 Hw El Hl Ha E2|comps Hw El Hl Hf|comps Hw El Hl Hf|comps e Hw El Hl He|comps e x t1 Hw El He E1];
    try (left; split; [reflexivity|]; eexists; reflexivity).
  - right; right. exists t2, c, (from_backend_stat st). destruct (way_emplace _ _ _ _ _ _ _ _ _ W0 Hdir ltac:(lia) E1) as [W1 R1].
    assert (Hg : ~ reclaimable (t_db (begun s)) (t_refs (begun s)) p) by (rewrite reclaimable_gone; [eapply linked_not_gone; eassumption|exact H|apply (dr_refs _ _ _ Hdr)]).
    destruct (emplace_api (begun s) p n _ c t1 (way_tinv _ _ _ _ W0) Hdir (way_room _ _ _ _ W0 ltac:(lia)) Hg E1) as (_ & _ & Hlk & Hga & _).
    destruct (lock_refcount _ _ _ _ (wy_dr _ _ _ _ W1) ltac:(lia) E2) as [Ed R2].
    assert (Hcin : d_inodes (t_db t1) !! c <> None) by (apply getattr_Ok in Hga as (ci & Hci & _); congruence).
    split; [reflexivity|]. split; [reflexivity|]. split; [replace (W + 2) with (W + 1 + 1) by lia; eapply way_lock; try eassumption; lia|].
    rewrite Ed. split; [assumption|]. split; [assumption|]. intros y. rewrite R2, R1. reflexivity.
  - right; right. exists t2, c, a. destruct (lock_refcount (begun s) _ _ W Hdr ltac:(lia) E2) as [Ed R2].
    assert (Hcin : d_inodes (t_db (begun s)) !! c <> None) by (apply getattr_Ok in Ha as (ci & Hci & _); cbn; congruence).
    split; [reflexivity|]. split; [reflexivity|]. split; [eapply way_weaken; [eapply way_lock; try eassumption; lia|lia]|].
    rewrite Ed. split; [assumption|]. split; [assumption|]. intros y. rewrite R2. reflexivity.
  - right; left. exists t1, e. split; [reflexivity|]. split; [reflexivity|].
    destruct (way_plain W (begun s) W (begun s) (OUnlinkName p n) x t1 W0 ltac:(lia) E1 I) as [A B]. split; [assumption|]. intros y. rewrite B. reflexivity.
Qed.
Lemma FInv_weaken W W' s k : FInv W s k -> W <= W' -> FInv W' s k.
Proof.
  intros [[a b (n & Hn & Hle) c d e] B C D] Hw. split; [split; [assumption..| | |assumption|assumption]|assumption..].
  - exists n. split; [assumption|lia].
  - intros x. specialize (c x). lia.
Qed.
Lemma lookup_FInv W s k b p n s' l : FInv W s k -> kdir k p -> W + 5 < 2 ^ 64 -> lookup_case s b p n s' l ->
  exists r, l = [r] /\ FInv (W + 2) s' (kstep k (QLookup b p n) l).
Proof.
  intros HI Hp HW Hc. destruct (lookup_way _ _ _ _ _ _ _ _ HI Hp HW Hc) as [(-> & e & ->)|[(t & e & -> & -> & Hw & Hr)|(t & c & a & -> & -> & Hw & Ha & _ & Hr)]];
    eexists; (split; [reflexivity|]); cbn [kstep].
  - eapply FInv_weaken; [eassumption|lia].
  - eapply FInv_weaken; [|shelve]. eapply fi_commit; [exact HI|exact Hw| |auto]. intros x. rewrite Hr. apply (fi_k _ _ _ HI).
    Unshelve. lia.
  - eapply fi_commit; [exact HI|exact Hw| |].
    + intros x. rewrite Hr, kcount_told. pose proof (fi_k _ _ _ HI x). destruct (c =? x); lia.
    + intros x Hx. apply told_dirs in Hx as [Hx|[-> Ht]]; [auto|right]. eapply getattr_dir; eassumption.
Qed.

(** ** forget *)
Lemma release_held t x n : 0 <= n <= refcount (t_refs t) x -> exists t', release t x n = Done (Ok tt, t').
Proof.
  intros Hn. unfold release. destruct (Z.eqb_spec n 0) as [->|Hn0]; [eauto|].
  destruct (decref_cases (t_refs t) x n) as [(_ & b & _ & E)|(? & _)]; [lia| |lia]. rewrite E. cbn. eauto.
Qed.
Lemma way_release W t0 W' t x n t1 : way W t0 W' t -> W' + 3 < 2 ^ 64 -> 0 <= n -> release t x n = Done (Ok tt, t1) ->
  way W t0 W' t1 /\ t_db t1 = t_db t /\ forall y, refcount (t_refs t1) y = refcount (t_refs t) y - if x =? y then n else 0.
Proof.
  intros HWay HW Hn E. split; [|split].
  - replace W' with (W' + cost (ORelease x n)) by (cbn; lia). eapply (way_step W t0 W' t (ORelease x n)); [assumption|exact Hn|assumption|discriminate|exact E].
  - unfold release in E. destruct (n =? 0); [injection E as <-; reflexivity|]. destruct (decref (t_refs t) x n) as [[[?|?] ?]| | |]; cbn in E; try discriminate. injection E as <-. reflexivity.
  - intros y. rewrite (step_refcount t (ORelease x n) (Ok tt) t1 y (way_tinv _ _ _ _ HWay) Hn E). cbn [count_after]. destruct (x =? y); lia.
Qed.
Lemma h_forget_spec W s k x n : FInv W s k -> W + 3 < 2 ^ 64 -> 0 <= n <= kcount k x -> exists t, h_forget s x n = Done (after t s, [RNone]) /\
  way W (begun s) W t /\ t_db t = s_db s /\ forall y, refcount (t_refs t) y = refcount (s_refs s) y - if x =? y then n else 0.
Proof.
  intros HI HW Hn. pose proof (fi_k _ _ _ HI x) as Hk. destruct (release_held (begun s) x n) as [t E]; [cbn; lia|].
  exists t. unfold h_forget. fold (begun s). rewrite E. cbn [obind]. split; [reflexivity|].
  eapply (way_release W (begun s) W (begun s)); [apply way_begin; apply (fi_dr _ _ _ HI)|assumption|lia|exact E].
Qed.
Lemma forget_total_nonneg x l : Forall (fun f => 0 <= f.2) l -> 0 <= forget_total x l.
Proof. induction 1 as [|[y n] l Hn _ IH]; cbn; [lia|]. cbn in Hn. unfold forget_total in IH. destruct (y =? x); lia. Qed.
Lemma releases_spec W t0 W' l : W' + 3 < 2 ^ 64 -> forall t, way W t0 W' t -> Forall (fun f => 0 <= f.2) l ->
  (forall x, forget_total x l <= refcount (t_refs t) x) ->
  exists t', releases t l = Done t' /\ way W t0 W' t' /\ t_db t' = t_db t /\ forall x, refcount (t_refs t') x = refcount (t_refs t) x - forget_total x l.
Proof.
  intros HW. induction l as [|[x n] l IH]; intros t HWay Hl Hle; cbn [releases].
  - exists t. split_and!; auto. intros x. cbn. lia.
  - inversion Hl as [|? ? Hn Hl']; subst. cbn [snd] in Hn. pose proof (forget_total_nonneg x l Hl') as Hnn. pose proof (Hle x) as Hx. cbn in Hx. unfold forget_total in Hnn. rewrite Z.eqb_refl in Hx.
    destruct (release_held t x n) as [t1 E1]; [lia|]. rewrite E1. cbn [obind]. destruct (way_release _ _ _ _ _ _ _ HWay HW Hn E1) as (W1 & Ed & R1).
    destruct (IH t1 W1 Hl') as (t2 & E2 & W2 & Ed2 & R2).
    { intros y. rewrite R1. specialize (Hle y). cbn in Hle. unfold forget_total. destruct (x =? y); lia. }
    exists t2. split_and!; auto; [congruence|]. intros y. rewrite R2, R1. cbn. unfold forget_total. destruct (x =? y); lia.
Qed.
Lemma kcount_forgot_all k l x : kcount (foldr (fun f k => forgot f.1 f.2 k) k l) x = kcount k x - forget_total x l.
Proof. induction l as [|[y n] l IH]; cbn [foldr]; [cbn; lia|]. rewrite kcount_forgot, IH. cbn. unfold forget_total. destruct (y =? x); lia. Qed.
Lemma dirs_forgot_all k l : k_dirs (foldr (fun f k => forgot f.1 f.2 k) k l) = k_dirs k.
Proof. induction l as [|f l IH]; cbn; [reflexivity|assumption]. Qed.
Lemma h_forget_multi_spec W s k l : FInv W s k -> W + 3 < 2 ^ 64 -> Forall (fun f => 0 <= f.2) l -> (forall x, forget_total x l <= kcount k x) ->
  exists t, h_forget_multi s l = Done (after t s, [RNone]) /\
  way W (begun s) W t /\ t_db t = s_db s /\ forall x, refcount (t_refs t) x = refcount (s_refs s) x - forget_total x l.
Proof.
  intros HI HW Hl Hle. destruct (releases_spec W (begun s) W l HW (begun s)) as (t & E & A & B & C); [apply way_begin; apply (fi_dr _ _ _ HI)|assumption| |].
  { intros x. specialize (Hle x). pose proof (fi_k _ _ _ HI x). cbn. lia. }
  exists t. unfold h_forget_multi. fold (begun s). rewrite E. split; [reflexivity|auto].
Qed.
Lemma forget_FInv W s k x n s' l : FInv W s k -> W + 3 < 2 ^ 64 -> 0 <= n <= kcount k x -> h_forget s x n = Done (s', l) -> l = [RNone] /\ FInv W s' (forgot x n k).
Proof.
  intros HI HW Hn E. destruct (h_forget_spec W s k x n HI HW Hn) as (t & E' & A & B & C). rewrite E' in E. injection E as <- <-. split; [reflexivity|].
  eapply fi_commit; [exact HI|exact A| |auto]. intros y. rewrite C, kcount_forgot. pose proof (fi_k _ _ _ HI y). destruct (Z.eqb_spec x y) as [->|]; lia.
Qed.
Lemma forget_multi_FInv W s k fs s' l : FInv W s k -> W + 3 < 2 ^ 64 -> Forall (fun f => 0 <= f.2) fs -> (forall x, forget_total x fs <= kcount k x) ->
  h_forget_multi s fs = Done (s', l) -> l = [RNone] /\ FInv W s' (foldr (fun f k => forgot f.1 f.2 k) k fs).
Proof.
  intros HI HW Hf Hle E. destruct (h_forget_multi_spec W s k fs HI HW Hf Hle) as (t & E' & A & B & C). rewrite E' in E. injection E as <- <-. split; [reflexivity|].
  eapply fi_commit; [exact HI|exact A| |rewrite dirs_forgot_all; auto]. intros y. rewrite C, kcount_forgot_all. pose proof (fi_k _ _ _ HI y). pose proof (forget_total_nonneg y fs Hf). specialize (Hle y). lia.
Qed.

(** ** readlink *)
Inductive readlink_case (s : fstate) (b : backend) (x : Z) : fstate -> list reply -> Prop :=
| rl_nopath : (forall comps, ~ walk (s_db s) 1 comps x) -> readlink_case s b x s [RErr ENOENT]
| rl_online comps link r t1 : walk (s_db s) 1 comps x -> b_readlink b (backend_path (spell comps)) = Ok link ->
    writelink (begun s) x link = Done (r, t1) -> readlink_case s b x (after t1 s) [RReadlink (cstr link)]
| rl_offline comps link : walk (s_db s) 1 comps x -> b_readlink b (backend_path (spell comps)) = Err ENOTCONN ->
    readlink (s_db s) x = Ok link -> readlink_case s b x s [RReadlink (cstr link)]
| rl_unknown comps e : walk (s_db s) 1 comps x -> b_readlink b (backend_path (spell comps)) = Err ENOTCONN ->
    readlink (s_db s) x = Err e -> readlink_case s b x s [RErr e]
| rl_error comps e r t1 : walk (s_db s) 1 comps x -> b_readlink b (backend_path (spell comps)) = Err e -> e <> ENOTCONN ->
    unlink_ino (begun s) x = Done (r, t1) -> readlink_case s b x (after t1 s) [RErr e].
Lemma h_readlink_total W s k b x : FInv W s k -> exists s' l, h_readlink s b x = Done (s', l) /\ readlink_case s b x s' l.
Proof.
  intros HI. pose proof (fi_dr _ _ _ HI) as Hdr. pose proof (dr_inv _ _ _ Hdr) as H. assert (HT : TInv (begun s)) by (eapply way_tinv; apply way_begin; exact Hdr).
  unfold h_readlink. fold (begun s). change (t_db (begun s)) with (s_db s).
  destruct (path_spec (s_db s) x H) as [(comps & Hw & Ep)|(Hw & Ep)]; rewrite Ep; cbn [obind].
  2:{ eexists _, _. split; [reflexivity|]. cbn [t_refs begun begin_tx]. rewrite set_dbr_id. constructor. assumption. }
  destruct (b_readlink b (backend_path (spell comps))) as [link|e] eqn:El.
  - destruct (step_inv (begun s) (OWritelink x link) HT I) as [(r & t1 & E1 & _)|(_ & ? & ? & Hx & _)]; [|discriminate]. cbn [step] in E1. rewrite E1. cbn [obind].
    eexists _, _. split; [reflexivity|]. eapply rl_online; eassumption.
  - destruct (Z.eqb_spec e ENOTCONN) as [->|Hne].
    + destruct (readlink (s_db s) x) as [link|e] eqn:Er; eexists _, _; (split; [reflexivity|]); cbn [t_refs begun begin_tx]; rewrite set_dbr_id; [eapply rl_offline|eapply rl_unknown]; eassumption.
    + destruct (step_inv (begun s) (OUnlinkIno x) HT I) as [(r & t1 & E1 & _)|(_ & ? & ? & Hx & _)]; [|discriminate]. cbn [step] in E1. rewrite E1. cbn [obind].
      eexists _, _. split; [reflexivity|]. eapply rl_error; eassumption.
Qed.
Lemma readlink_way W s k b x s' l : FInv W s k -> W + 3 < 2 ^ 64 -> readlink_case s b x s' l -> (exists r, l = [r]) /\
  (s' = s \/ exists t, s' = after t s /\ way W (begun s) W t /\ forall y, refcount (t_refs t) y = refcount (s_refs s) y).
Proof.
  intros HI HW Hc. pose proof (way_begin _ _ _ (fi_dr _ _ _ HI)) as W0. fold (begun s) in W0.
  destruct Hc as [|? link r t1 Hw El E1| | |? e r t1 Hw El He E1]; (split; [eauto|]); try (left; reflexivity); right; exists t1; (split; [reflexivity|]).
  - apply (way_plain W (begun s) W (begun s) (OWritelink x link) r t1 W0 HW E1 I).
  - apply (way_plain W (begun s) W (begun s) (OUnlinkIno x) r t1 W0 HW E1 I).
Qed.
Lemma readlink_FInv W s k b x s' l : FInv W s k -> W + 3 < 2 ^ 64 -> readlink_case s b x s' l -> (exists r, l = [r]) /\ FInv W s' k.
Proof.
  intros HI HW Hc. destruct (readlink_way _ _ _ _ _ _ _ HI HW Hc) as [Hl [->|(t & -> & Hw & Hr)]]; (split; [assumption|]); [assumption|].
  eapply fi_commit; [exact HI|exact Hw| |auto]. intros y. rewrite Hr. apply (fi_k _ _ _ HI).
Qed.

(** ** opendir *)
(** the attributes of a name at the end of a listing: its last successful lstat *)
Fixpoint last_stat (b : backend) (bp : bytes) (i : nat) (names : list bytes) (n : bytes) (acc : option attrs) : option attrs :=
  match names with
  | [] => acc
  | m :: names =>
    last_stat b bp (S i) names n
      (if decide (m = n) then match b_lstat b i (join_path bp m) with Ok st => Some (from_backend_stat st) | Err _ => acc end else acc)
  end.
Lemma sync_entries_spec W t0 b dir bp names : forall i t m W', session dir t m -> way W t0 W' t -> W' + Z.of_nat (length names) + 3 < 2 ^ 64 ->
  exists t' m', sync_entries t b dir bp i names = Done t' /\ session dir t' m' /\ way W t0 (W' + Z.of_nat (length names)) t' /\
    (forall y, refcount (t_refs t') y = refcount (t_refs t) y) /\
    (forall n, valid_name n -> snd <$> m' !! n = last_stat b bp i names n (snd <$> m !! n)) /\
    (forall n, ~ valid_name n -> m' !! n = m !! n).
Proof.
  induction names as [|n names IH]; intros i t m W' HS HWay HW; cbn [sync_entries].
  - exists t, m. cbn [length Z.of_nat]. rewrite Z.add_0_r. split_and!; auto.
  - cbn [length] in HW. destruct (b_lstat b i (join_path bp n)) as [st|e] eqn:El.
    + pose proof (s_dir _ _ _ (session_inv _ _ _ HS)) as Hdir. pose proof (way_room _ _ _ _ HWay ltac:(lia)) as Hroom.
      destruct (step_inv t (OEmplace dir n (from_backend_stat st)) (way_tinv _ _ _ _ HWay) (conj Hdir Hroom)) as [(r & t1 & E1 & _)|(_ & ? & ? & Hx & _)]; [|discriminate].
      cbn [step] in E1. unfold drop_val in E1. destruct (emplace t dir n (from_backend_stat st)) as [[x1 t1']| | |] eqn:Ee; try discriminate. cbn [obind] in E1 |- *. clear E1.
      destruct (way_emplace _ _ _ _ _ _ _ _ _ HWay Hdir ltac:(lia) Ee) as [W1 R1].
      assert (HS1 : session dir t1' (match x1 with Ok c => <[n := (c, from_backend_stat st)]> m | Err _ => m end)) by (destruct x1; [eapply ses_emplace|eapply ses_reject]; eassumption).
      destruct (IH (S i) t1' _ (W' + 1) HS1 W1 ltac:(lia)) as (t2 & m2 & E2 & HS2 & W2 & R2 & M2 & N2).
      exists t2, m2. split; [assumption|]. split; [assumption|]. split; [replace (W' + Z.of_nat (length (n :: names))) with (W' + 1 + Z.of_nat (length names)) by (cbn [length]; lia); assumption|].
      split; [intros y; rewrite R2, R1; reflexivity|].
      assert (Hx1 : valid_name n <-> exists c, x1 = Ok c).
      { destruct (emplace_spec t dir n (from_backend_stat st) (way_tinv _ _ _ _ HWay) Hdir Hroom) as [(err & Hcn & E')|[(Hv & ? & ? & _ & _ & _ & E' & _)|(Hv & _ & ? & ? & _ & _ & _ & _ & E' & _)]];
          rewrite E' in Ee; injection Ee as <- _; unfold valid_name in *; split; eauto; try (intros [? ?]; discriminate). intros Hv. congruence. }
      split.
      * intros n' Hv. rewrite (M2 n' Hv). cbn [last_stat]. rewrite El. f_equal. destruct (decide (n = n')) as [->|Hne].
        -- apply Hx1 in Hv as [c ->]. rewrite lookup_insert. reflexivity.
        -- destruct x1; [rewrite lookup_insert_ne by assumption|]; reflexivity.
      * intros n' Hv. rewrite (N2 n' Hv). destruct x1 as [c|]; [|reflexivity]. rewrite lookup_insert_ne; [reflexivity|]. intros ->. apply Hv. apply Hx1. eauto.
    + destruct (IH (S i) t m W' HS HWay ltac:(lia)) as (t2 & m2 & E2 & HS2 & W2 & R2 & M2 & N2). exists t2, m2. split; [assumption|]. split; [assumption|].
      split; [eapply way_weaken; [exact W2|cbn [length]; lia]|]. split; [assumption|]. split; [|assumption].
      intros n' Hv. rewrite (M2 n' Hv). cbn [last_stat]. rewrite El. destruct (decide (n = n')); reflexivity.
Qed.

Inductive opendir_case (s : fstate) (b : backend) (x : Z) : fstate -> list reply -> Prop :=
| od_nopath : (forall comps, ~ walk (s_db s) 1 comps x) -> opendir_case s b x s [RErr ENOENT]
| od_refused comps e : walk (s_db s) 1 comps x -> b_opendir b (backend_path (spell comps)) = Err e -> e <> ENOTCONN -> opendir_case s b x s [RErr e]
| od_offline comps : walk (s_db s) 1 comps x -> b_opendir b (backend_path (spell comps)) = Err ENOTCONN -> opendir_case s b x s [ROpen]
| od_sync comps names e0 t1 t2 m t3 r t4 : walk (s_db s) 1 comps x -> b_opendir b (backend_path (spell comps)) = Ok (names, e0) ->
    start_dir_rewrite (begun s) x = Done (Ok tt, t1) ->
    (exists W t0 W', session x t1 ∅ /\ way W t0 W' t1 /\ W' + Z.of_nat (length names) + 3 < 2 ^ 64) ->
    sync_entries t1 b x (backend_path (spell comps)) 0 names = Done t2 -> session x t2 m ->
    (forall n, valid_name n -> snd <$> m !! n = last_stat b (backend_path (spell comps)) 0 names n None) ->
    (forall n, ~ valid_name n -> m !! n = None) ->
    update_flags t2 x [SYNCED] [] = Done (Ok tt, t3) -> finish_dir_rewrite t3 = Done (r, t4) ->
    opendir_case s b x (after t4 s) [ROpen].
Lemma h_opendir_total W s k b x : FInv W s k -> kdir k x -> W + weight s (QOpendir b x) + 3 < 2 ^ 64 ->
  exists s' l, h_opendir s b x = Done (s', l) /\ opendir_case s b x s' l /\
  (s' = s \/ exists t, s' = after t s /\ way W (begun s) (W + weight s (QOpendir b x)) t /\ forall y, refcount (t_refs t) y = refcount (s_refs s) y).
Proof.
  intros HI Hx HW. pose proof (fi_dr _ _ _ HI) as Hdr. pose proof (dr_inv _ _ _ Hdr) as H. assert (HT : TInv (begun s)) by (eapply way_tinv; apply way_begin; exact Hdr).
  pose proof (kdir_is_dir _ _ _ _ HI Hx) as Hdir.
  unfold h_opendir. fold (begun s). change (t_db (begun s)) with (s_db s). cbn [weight] in *.
  destruct (path_spec (s_db s) x H) as [(comps & Hw & Ep)|(Hw & Ep)]; rewrite Ep in *; cbn [obind].
  2:{ eexists _, _. split; [reflexivity|]. cbn [t_refs begun begin_tx]. rewrite set_dbr_id. split; [constructor; assumption|auto]. }
  destruct (b_opendir b (backend_path (spell comps))) as [[names e0]|e] eqn:El.
  2:{ destruct (Z.eqb_spec e ENOTCONN) as [->|Hne]; eexists _, _; (split; [reflexivity|]); cbn [t_refs begun begin_tx t_db]; rewrite set_dbr_id; (split; [|auto]); [eapply od_offline|eapply od_refused]; eassumption. }
  pose proof (way_begin _ _ _ Hdr) as W0. fold (begun s) in W0.
  assert (Es : exists t1, start_dir_rewrite (begun s) x = Done (Ok tt, t1)) by (unfold start_dir_rewrite; cbn [t_rw begun begin_tx]; destruct (from_key _ _ _); eauto).
  destruct Es as [t1 E1]. rewrite E1. cbn [obind].
  destruct (way_plain W (begun s) W (begun s) (OStartRewrite x) (Ok tt) t1 W0 ltac:(lia) E1 I) as [W1 R1].
  assert (HS1 : session x t1 ∅).
  { eapply ses_start; [exact HT|reflexivity|exact Hdir| |exact E1]. rewrite reclaimable_gone; [eapply linked_not_gone; eassumption|exact H|apply (dr_refs _ _ _ Hdr)]. }
  destruct (sync_entries_spec W (begun s) b x (backend_path (spell comps)) names 0 t1 ∅ W HS1 W1 HW) as (t2 & m & E2 & HS2 & W2 & R2 & M2 & N2). rewrite E2. cbn [obind].
  assert (Ef : exists t3, update_flags t2 x [SYNCED] [] = Done (Ok tt, t3)).
  { pose proof (s_dir _ _ _ (session_inv _ _ _ HS2)) as (i & Hi & _). unfold update_flags. rewrite Hi. eauto. }
  destruct Ef as [t3 E3]. rewrite E3. cbn [obind].
  destruct (way_plain W (begun s) _ t2 (OFlags x [SYNCED] []) (Ok tt) t3 W2 HW E3 I) as [W3 R3].
  destruct (step_inv t3 OFinishRewrite (way_tinv _ _ _ _ W3) I) as [(r & t4 & E4 & _)|(_ & ? & ? & Hx' & _)]; [|discriminate].
  destruct (way_plain W (begun s) _ t3 OFinishRewrite r t4 W3 HW E4 I) as [W4 R4]. cbn [step] in E4. rewrite E4. cbn [obind].
  eexists _, _. split; [reflexivity|]. split.
  - eapply od_sync; try eassumption. exists W, (begun s), W. auto.
  - right. exists t4. split; [reflexivity|]. split; [exact W4|]. intros y. rewrite R4, R3, R2, R1. reflexivity.
Qed.
