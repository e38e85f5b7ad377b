(** Which requests change the attributes of an inode. *)
From Verif Require Export FsLinks FsClean.

(** ** specification: the request is about [x] *)
(** [x] is the entry that lookup asks for, an entry of the directory that opendir lists, or the
    symbolic link that readlink reads; and the request got an answer from the backend. *)
Inductive concerns (s : fstate) (x : Z) : request -> Prop :=
| co_lookup b p n pp st : asked s p = Some pp -> b_lstat b 0 (pp ++ [47] ++ n) = Ok st -> lookup (s_db s) p n = Ok x -> concerns s x (QLookup b p n)
| co_opendir b p pp l n : asked s p = Some pp -> b_opendir b (backend_path pp) = Ok l -> lookup (s_db s) p n = Ok x -> concerns s x (QOpendir b p)
| co_readlink b pp l a : asked s x = Some pp -> b_readlink b (backend_path pp) = Ok l -> getattr (s_db s) x = Ok a -> ftype (a_mode a) = S_IFLNK -> concerns s x (QReadlink b x).

(** ** attributes are kept except for the inodes in [T] *)
Definition ak (T : Z -> Prop) (d d' : db) : Prop := next_le d d' /\
  (forall x i', d_inodes d' !! x = Some i' -> d_inodes d !! x = None -> exists k, d_next d = Some k /\ k <= x) /\
  forall x i i', d_inodes d !! x = Some i -> d_inodes d' !! x = Some i' -> ~ T x -> i_attr i' = i_attr i.
Lemma ak_refl T d : Inv d -> ak T d d.
Proof. intros H. split; [apply next_le_refl; assumption|]. split; [congruence|]. intros x i i' H1 H2 _. congruence. Qed.
Lemma ak_trans T d1 d2 d3 : Inv d1 -> ak T d1 d2 -> ak T d2 d3 -> ak T d1 d3.
Proof.
  intros H1 (N1 & A1 & B1) (N2 & A2 & B2). pose proof N1 as (k1 & k2 & K1 & K2 & K3). split; [eapply next_le_trans; eassumption|]. split.
  - intros x i' Hi' Hn. destruct (d_inodes d2 !! x) as [j|] eqn:Ej; [eapply A1; eassumption|]. destruct (A2 _ _ Hi' Ej) as (k & Hk & Hle). exists k1. split; [assumption|]. assert (k = k2) by congruence. lia.
  - intros x i i' Hi Hi' HT. destruct (d_inodes d2 !! x) as [j|] eqn:Ej; [rewrite (B2 _ _ _ Ej Hi' HT); eapply B1; eassumption|]. exfalso. destruct (A2 _ _ Hi' Ej) as (k & Hk & Hle).
    destruct (inv_next' _ H1) as (k0 & Hk0 & _ & Hlt). specialize (Hlt _ _ Hi). assert (k0 = k1) by congruence. assert (k = k2) by congruence. lia.
Qed.
Lemma step_ak (T : Z -> Prop) t o res t' : TInv t -> legal t o -> step t o = Done (res, t') ->
  (forall x i i', d_inodes (t_db t) !! x = Some i -> d_inodes (t_db t') !! x = Some i' -> touches (t_db t) o x -> ~ T x -> i_attr i' = i_attr i) -> ak T (t_db t) (t_db t').
Proof.
  intros HT Hl E Ht. destruct (step_fr _ _ _ _ HT Hl E) as [HT' [(k & k' & Ek & Ek' & Hle & Hnew) Hfr]]. split; [exists k, k'; auto|]. split.
  - intros x i' Hi' Hn. exists k. split; [assumption|]. apply (Hnew _ _ Hn Hi').
  - intros x i i' Hi Hi' HnT. destruct (Hfr _ _ Hi) as [(G & _)|(j & G & _ & G2 & _)]; [congruence|]. assert (j = i') by congruence. subst j.
    assert (Hdec : touches (t_db t) o x \/ ~ touches (t_db t) o x).
    { destruct o as [p n a|c|p c|p n| |y b|y f c|y| |y|y n]; cbn [touches]; try tauto; [|destruct (decide (y = x)); tauto..]. destruct (lookup (t_db t) p n) as [c|e]; [|right; discriminate]. destruct (decide (c = x)) as [->|Hne]; [tauto|right; congruence]. }
    destruct Hdec as [?|Hd]; [eapply Ht; eassumption|]. apply G2. exact Hd.
Qed.
Lemma cleaned_ak T R d : Inv d -> ak T d (cleaned R d).
Proof.
  intros H. destruct (inv_next' _ H) as (k & Hk & _). split; [exists k, k; split; [assumption|]; split; [exact Hk|lia]|]. split.
  - intros x i' Hi' Hn. apply cleaned_inodes in Hi' as (_ & j & Hj & _). congruence.
  - intros x i i' Hi Hi' _. apply cleaned_inodes in Hi' as (_ & j & Hj & ->). assert (j = i) by congruence. subst j. unfold unpar_set. destruct (decide _); reflexivity.
Qed.
Lemma emplace_ak (T : Z -> Prop) t p n a r t1 : TInv t -> is_dir (t_db t) p -> room (t_db t) -> emplace t p n a = Done (r, t1) -> (forall x, lookup (t_db t) p n = Ok x -> T x) -> ak T (t_db t) (t_db t1).
Proof.
  intros HT Hdir Hroom E Hx. assert (Es : exists r, step t (OEmplace p n a) = Done (r, t1)) by (cbn [step]; rewrite E; eexists; reflexivity). destruct Es as [r' Es].
  apply (step_ak T t (OEmplace p n a) r' t1 HT (conj Hdir Hroom) Es). intros x i i' _ _ Ht Hn. destruct (Hn (Hx _ Ht)).
Qed.
Lemma untouched_ak T t o res t' : TInv t -> legal t o -> step t o = Done (res, t') -> (forall x, ~ touches (t_db t) o x) -> ak T (t_db t) (t_db t').
Proof. intros HT Hl E Hn. eapply step_ak; [eassumption..|]. intros x i i' _ _ Ht. destruct (Hn _ Ht). Qed.
Lemma flags_ak T t x s c r t1 : TInv t -> update_flags t x s c = Done (r, t1) -> ak T (t_db t) (t_db t1).
Proof.
  intros HT E. assert (Es : exists r, step t (OFlags x s c) = Done (r, t1)) by (cbn [step]; rewrite E; eexists; reflexivity). destruct Es as [r' Es].
  apply (step_ak T t (OFlags x s c) r' t1 HT I Es). intros y i i' Hi Hi' _ _. unfold update_flags in E. destruct (d_inodes (t_db t) !! x) as [j|] eqn:Ej; injection E as _ <-; [|congruence].
  cbn [t_db with_db d_inodes set_inodes] in Hi'. destruct (decide (x = y)) as [->|Hne]; [rewrite lookup_insert in Hi'; injection Hi' as <-; cbn [i_attr]; congruence|]. rewrite lookup_insert_ne in Hi' by assumption. congruence.
Qed.
Lemma kn_lookup d p n x a : Inv d -> u64 p -> kn d p n x a -> lookup d p n = Ok x.
Proof. intros H Hu Hk. apply knows_kn in Hk as [Hk _]; assumption. Qed.

Lemma ak_fstep W s k q s' o : FInv W s k -> AInv s -> klegal k s q -> enough W s q -> fstep s q = Done (s', o) -> ak (fun x => concerns s x q) (s_db s) (s_db s').
Proof.
  intros HF HA Hl HW E.  unfold enough in HW. assert (H63 : 2 ^ 63 < 2 ^ 64) by lia. pose proof (fi_dr _ _ _ HF) as Hdr. pose proof (dr_inv _ _ _ Hdr) as Hi.
  assert (HW0 : 0 <= weight s q). { destruct q; cbn [weight]; try lia. destruct (path _ _) as [[?|?]| | |]; try lia. destruct (b_opendir _ _) as [[? ?]|]; lia. }
  assert (Hsame : ak (fun x => concerns s x q) (s_db s) (s_db s)) by (apply ak_refl; exact Hi).
  assert (HT : TInv (begun s)) by (eapply way_tinv; apply way_begin; exact Hdr).
  destruct q as [b p' n'|x m|fs|x|b x|b x|x size off|x|id x|id size off|tag|root]; cbn [fstep klegal] in *.
  - destruct Hl as [Hk Hb]. cbn [weight] in HW. destruct (h_lookup_total W s k b p' n' HF Hk ltac:(lia)) as (s2 & l & E2 & Hc). rewrite E2 in E. injection E as <- <-. pose proof (kdir_is_dir _ _ _ _ HF Hk) as Hdir.
    assert (Hroom : room (t_db (begun s))) by (eapply way_room; [apply way_begin; exact Hdr|lia]).
    destruct Hc as [Hw|comps st' e Hw El' Hcn|comps st' c t1 t2 Hw El' Ee Elk|comps c a t2 Hw El' Hl Hg Elk|comps Hw El' Hl Hs|comps Hw El' Hl Hs|comps e Hw El' Hl He|comps e x t1 Hw El' He Eu]; try exact Hsame.
    + assert (HW1 : way W (begun s) (W + 1) t1) by (eapply way_emplace; [apply way_begin; exact Hdr|exact Hdir|lia|exact Ee]).
      destruct (lock_refcount t1 c t2 (W + 1) (wy_dr _ _ _ _ HW1) ltac:(lia) Elk) as [Ed _]. cbn [s_db after set_dbr]. rewrite Ed. apply (emplace_ak _ (begun s) _ _ _ _ _ HT Hdir Hroom Ee). intros x Hx. econstructor; [apply asked_walk; eassumption|eassumption|exact Hx].
    + destruct (lock_refcount (begun s) c t2 W Hdr ltac:(lia) Elk) as [Ed _]. cbn [s_db after set_dbr]. rewrite Ed. exact Hsame.
    + cbn [s_db after set_dbr]. assert (Es : exists r, step (begun s) (OUnlinkName p' n') = Done (r, t1)) by (cbn [step]; rewrite Eu; eexists; reflexivity). destruct Es as [r Es]. apply (untouched_ak _ (begun s) (OUnlinkName p' n') _ _ HT I Es). intros y [].
  - destruct (h_forget_spec W s k x m HF ltac:(lia) Hl) as (t & E2 & _ & Hd & _). rewrite E2 in E. injection E as <- <-. cbn [s_db after set_dbr]. rewrite Hd. exact Hsame.
  - destruct Hl as [Hl1 Hl2]. destruct (h_forget_multi_spec W s k fs HF ltac:(lia) Hl1 Hl2) as (t & E2 & _ & Hd & _). rewrite E2 in E. injection E as <- <-. cbn [s_db after set_dbr]. rewrite Hd. exact Hsame.
  - unfold h_getattr in E. destruct (getattr (s_db s) x); injection E as <- <-; exact Hsame.
  - destruct (h_readlink_total W s k b x HF) as (s2 & l & E2 & Hc). rewrite E2 in E. injection E as <- <-. destruct Hc as [Hw|comps link r t1 Hw El E1|comps link Hw El Hr|comps e Hw El Hr|comps e r t1 Hw El He E1]; try exact Hsame; cbn [s_db after set_dbr].
    + assert (Es : exists r, step (begun s) (OWritelink x link) = Done (r, t1)) by (cbn [step]; rewrite E1; eexists; reflexivity). destruct Es as [r' Es].
      apply (step_ak _ (begun s) (OWritelink x link) r' t1 HT I Es). cbn [touches]. change (t_db (begun s)) with (s_db s). intros y i i' Hy Hy' <- Hn. unfold writelink in E1. change (t_db (begun s)) with (s_db s) in E1. rewrite Hy in E1.
      destruct (Z.eqb_spec (ftype (a_mode (i_attr i))) S_IFLNK) as [Ety|Ety]; cbn [negb] in E1; injection E1 as _ <-; [|change (t_db (begun s)) with (s_db s) in Hy'; congruence].
      exfalso. apply Hn. econstructor; [apply asked_walk; eassumption|eassumption| |exact Ety]. unfold getattr. rewrite Hy. reflexivity.
    + assert (Es : exists r, step (begun s) (OUnlinkIno x) = Done (r, t1)) by (cbn [step]; rewrite E1; eexists; reflexivity). destruct Es as [r' Es]. apply (untouched_ak _ (begun s) (OUnlinkIno x) _ _ HT I Es). intros y [].
  - destruct Hl as [Hk Hb]. destruct (h_opendir_total W s k b x HF Hk ltac:(lia)) as (s2 & l & E2 & Hc & _). rewrite E2 in E. injection E as <- <-. pose proof (kdir_is_dir _ _ _ _ HF Hk) as Hdir.
    destruct Hc as [Hw|comps e Hw El He|comps Hw El|comps names e0 t1 t2 m t3 r t4 Hw El E1 (W1 & t0 & W' & HS1 & HW1 & HWl) E2' HS2 Hm Hm' E3 E4]; try exact Hsame. cbn [s_db after set_dbr].
    assert (Hd1 : t_db t1 = s_db s). { unfold start_dir_rewrite in E1. cbn in E1. destruct (from_key _ _ _); injection E1; intros; subst; reflexivity. }
    assert (HS3 : session x t3 m) by (eapply ses_flags; eassumption).
    assert (Hux : u64 x) by (destruct Hdir as (j & Hj & _); apply (inode_range _ _ _ Hi Hj)).
    pose proof (s_inv _ _ _ (session_inv _ _ _ HS2)) as HT2. pose proof (s_inv _ _ _ (session_inv _ _ _ HS3)) as HT3.
    set (T := fun y => concerns s y (QOpendir b x) \/ d_inodes (s_db s) !! y = None).
    assert (HK2 : ak T (s_db s) (t_db t2) /\ keeps_from (s_db s) t2).
    { eapply (sync_entries_inv (fun t => ak T (s_db s) (t_db t) /\ keeps_from (s_db s) t) W1 t0 b x (backend_path (spell comps)) names); [|exact HS1|exact HW1|exact HWl|exact E2'|unfold keeps_from; rewrite Hd1; split; [apply ak_refl; exact Hi|split; [apply next_le_refl; exact Hi|apply keeps_refl]]].
      intros t n a y t' A1 A2 A3 A4 [A5 A6]. split; [|eapply keeps_emplace; eassumption].
      eapply (ak_trans _ _ (t_db t)); [exact Hi|exact A5|]. apply (emplace_ak _ t x n a y t' A1 A2 A3 A4). intros z Hz. destruct (d_inodes (s_db s) !! z) as [iz|] eqn:Ez; [left|right; exact Ez].
      assert (Hkz : exists az, kn (t_db t) x n z az). { apply lookup_Ok in Hz as (_ & e & He & <-); [|exact (tinv_db _ A1)|exact Hux]. destruct (treen_child _ _ _ _ (tinv_db _ A1) He) as (_ & _ & i & Hie & _). exists (i_attr i), e, i. auto. }
      destruct Hkz as [az Hkz]. destruct (proj2 A6 _ _ _ _ Hkz) as [[a0 Hk0]|Hno]; [|congruence]. econstructor; [apply asked_walk; eassumption|eassumption|]. eapply kn_lookup; eassumption. }
    destruct HK2 as [HK2 _]. assert (Hfin : ak T (s_db s) (t_db t4)).
    { eapply (ak_trans _ _ (t_db t3)); [exact Hi|eapply (ak_trans _ _ (t_db t2)); [exact Hi|exact HK2|]|].
      - eapply flags_ak; eassumption.
      - apply (untouched_ak _ t3 OFinishRewrite r t4 HT3 I E4). intros y []. }
    destruct Hfin as (N & F & G). split; [exact N|]. split; [exact F|]. intros y i i' Hy Hy' Hn. apply (G y i i' Hy Hy'). intros [?|?]; [contradiction|congruence].
  - destruct (h_readdir_total s x size off Hi) as (l & E2 & _). rewrite E2 in E. injection E as <- <-. exact Hsame.
  - injection E as <- <-. exact Hsame.
  - injection E as <- <-. exact Hsame.
  - destruct (s_plus s !! id) as [[snap dir]|] eqn:Hid; [|contradiction]. destruct (h_plus_total W s k id size off snap dir HF Hid ltac:(lia)) as (l & e & pre & post & rep & _ & _ & E2 & _). rewrite E2 in E. injection E as <- <-. exact Hsame.
  - injection E as <- <-. exact Hsame.
  - destruct (open_cache root (s_db s)) as [[d r]| | |] eqn:Eo; try discriminate. cbn [obind] in E. injection E as <- <-. cbn [s_db].
    destruct (open_cache_spec root (s_db s) ltac:(rewrite init_db_id by assumption; assumption)) as (R & HR & E' & _). rewrite E' in Eo. injection Eo as <- <-. rewrite init_db_id by assumption.
    apply cleaned_ak. exact Hi.
Qed.
