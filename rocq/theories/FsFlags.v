(** Which requests change whether a directory is marked as completely known. *)
From Verif Require Export FsPaths FsChange.

(** ** flags are kept except for the inodes in [T] *)
Definition fk (T : Z -> Prop) (d d' : db) : Prop := next_le d d' /\
  (forall x i', d_inodes d' !! x = Some i' -> d_inodes d !! x = None -> exists k, d_next d = Some k /\ k <= x) /\
  forall x i i', d_inodes d !! x = Some i -> d_inodes d' !! x = Some i' ->
    ftype (a_mode (i_attr i')) = ftype (a_mode (i_attr i)) /\ (~ T x -> i_flags i' = i_flags i).
Lemma fk_refl T d : Inv d -> fk T d d.
Proof. intros H. split; [apply next_le_refl; assumption|]. split; [congruence|]. intros x i i' H1 H2. replace i' with i by congruence. auto. Qed.
Lemma fk_trans T d1 d2 d3 : Inv d1 -> fk T d1 d2 -> fk T d2 d3 -> fk T d1 d3.
Proof.
  intros H1 (N1 & A1 & B1) (N2 & A2 & B2). pose proof N1 as (k1 & k2 & K1 & K2 & K3). split; [eapply next_le_trans; eassumption|]. split.
  - intros x i' Hi' Hn. destruct (d_inodes d2 !! x) as [j|] eqn:Ej; [eapply A1; eassumption|]. destruct (A2 _ _ Hi' Ej) as (k & Hk & Hle). exists k1. split; [assumption|]. assert (k = k2) by congruence. lia.
  - intros x i i' Hi Hi'. destruct (d_inodes d2 !! x) as [j|] eqn:Ej.
    + destruct (B1 _ _ _ Hi Ej) as [T1 F1]. destruct (B2 _ _ _ Ej Hi') as [T2 F2]. split; [congruence|]. intros HT. rewrite (F2 HT). exact (F1 HT).
    + exfalso. destruct (A2 _ _ Hi' Ej) as (k & Hk & Hle).
      destruct (inv_next' _ H1) as (k0 & Hk0 & _ & Hlt). specialize (Hlt _ _ Hi). assert (k0 = k1) by congruence. assert (k = k2) by congruence. lia.
Qed.
Lemma step_fk (T : Z -> Prop) t o res t' : TInv t -> legal t o -> step t o = Done (res, t') ->
  (forall x i i', d_inodes (t_db t) !! x = Some i -> d_inodes (t_db t') !! x = Some i' -> touches (t_db t) o x -> ~ T x -> i_flags i' = i_flags i) -> fk T (t_db t) (t_db t').
Proof.
  intros HT Hl E Ht. destruct (step_fr _ _ _ _ HT Hl E) as [HT' [(k & k' & Ek & Ek' & Hle & Hnew) Hfr]]. split; [exists k, k'; auto|]. split.
  - intros x i' Hi' Hn. exists k. split; [assumption|]. apply (Hnew _ _ Hn Hi').
  - intros x i i' Hi Hi'. destruct (Hfr _ _ Hi) as [(G & _)|(j & G & G1 & G2 & _)]; [congruence|]. assert (j = i') by congruence. subst j. split; [exact G1|]. intros HnT.
    assert (Hdec : touches (t_db t) o x \/ ~ touches (t_db t) o x).
    { destruct o as [p n a|c|p c|p n| |y b|y f c|y| |y|y n]; cbn [touches]; try tauto; [|destruct (decide (y = x)); tauto..]. destruct (lookup (t_db t) p n) as [c|e]; [|right; discriminate]. destruct (decide (c = x)) as [->|Hne]; [tauto|right; congruence]. }
    destruct Hdec as [?|Hd]; [eapply Ht; eassumption|]. apply G2. exact Hd.
Qed.
Lemma cleaned_fk T R d : Inv d -> fk T d (cleaned R d).
Proof.
  intros H. destruct (inv_next' _ H) as (k & Hk & _). split; [exists k, k; split; [assumption|]; split; [exact Hk|lia]|]. split.
  - intros x i' Hi' Hn. apply cleaned_inodes in Hi' as (_ & j & Hj & _). congruence.
  - intros x i i' Hi Hi'. apply cleaned_inodes in Hi' as (_ & j & Hj & ->). assert (j = i) by congruence. subst j. unfold unpar_set. destruct (decide _); split; reflexivity.
Qed.
Lemma emplace_fk (T : Z -> Prop) t p n a r t1 : TInv t -> is_dir (t_db t) p -> room (t_db t) -> emplace t p n a = Done (r, t1) -> (forall x, lookup (t_db t) p n = Ok x -> T x) -> fk T (t_db t) (t_db t1).
Proof.
  intros HT Hdir Hroom E Hx. assert (Es : exists r, step t (OEmplace p n a) = Done (r, t1)) by (cbn [step]; rewrite E; eexists; reflexivity). destruct Es as [r' Es].
  apply (step_fk T t (OEmplace p n a) r' t1 HT (conj Hdir Hroom) Es). intros x i i' _ _ Ht Hn. destruct (Hn (Hx _ Ht)).
Qed.
Lemma untouched_fk T t o res t' : TInv t -> legal t o -> step t o = Done (res, t') -> (forall x, ~ touches (t_db t) o x) -> fk T (t_db t) (t_db t').
Proof. intros HT Hl E Hn. eapply step_fk; [eassumption..|]. intros x i i' _ _ Ht. destruct (Hn _ Ht). Qed.
Lemma flags_fk (T : Z -> Prop) t x s c r t1 : TInv t -> T x -> update_flags t x s c = Done (r, t1) -> fk T (t_db t) (t_db t1).
Proof.
  intros HT Hx E. assert (Es : exists r, step t (OFlags x s c) = Done (r, t1)) by (cbn [step]; rewrite E; eexists; reflexivity). destruct Es as [r' Es].
  apply (step_fk T t (OFlags x s c) r' t1 HT I Es). intros y i i' Hi Hi' <- Hn. contradiction.
Qed.
(** the request marks the directory [x] as known *)
Definition marks (s : fstate) (x : Z) (q : request) : Prop :=
  match q with QOpendir b y => y = x /\ exists pp l, asked s x = Some pp /\ b_opendir b (backend_path pp) = Ok l | _ => False end.

Lemma fk_fstep W s k q s' o : FInv W s k -> AInv s -> klegal k s q -> enough W s q -> fstep s q = Done (s', o) -> fk (fun x => concerns s x q \/ marks s x q) (s_db s) (s_db s').
Proof.
  intros HF HA Hl HW E.  unfold enough in HW. assert (H63 : 2 ^ 63 < 2 ^ 64) by lia. pose proof (fi_dr _ _ _ HF) as Hdr. pose proof (dr_inv _ _ _ Hdr) as Hi.
  assert (HW0 : 0 <= weight s q). { destruct q; cbn [weight]; try lia. destruct (path _ _) as [[?|?]| | |]; try lia. destruct (b_opendir _ _) as [[? ?]|]; lia. }
  assert (Hsame : fk (fun x => concerns s x q \/ marks s x q) (s_db s) (s_db s)) by (apply fk_refl; exact Hi).
  assert (HT : TInv (begun s)) by (eapply way_tinv; apply way_begin; exact Hdr).
  destruct q as [b p' n'|x m|fs|x|b x|b x|x size off|x|id x|id size off|tag|root]; cbn [fstep klegal] in *.
  - destruct Hl as [Hk Hb]. cbn [weight] in HW. destruct (h_lookup_total W s k b p' n' HF Hk ltac:(lia)) as (s2 & l & E2 & Hc). rewrite E2 in E. injection E as <- <-. pose proof (kdir_is_dir _ _ _ _ HF Hk) as Hdir.
    assert (Hroom : room (t_db (begun s))) by (eapply way_room; [apply way_begin; exact Hdr|lia]).
    destruct Hc as [Hw|comps st' e Hw El' Hcn|comps st' c t1 t2 Hw El' Ee Elk|comps c a t2 Hw El' Hl Hg Elk|comps Hw El' Hl Hs|comps Hw El' Hl Hs|comps e Hw El' Hl He|comps e x t1 Hw El' He Eu]; try exact Hsame.
    + assert (HW1 : way W (begun s) (W + 1) t1) by (eapply way_emplace; [apply way_begin; exact Hdr|exact Hdir|lia|exact Ee]).
      destruct (lock_refcount t1 c t2 (W + 1) (wy_dr _ _ _ _ HW1) ltac:(lia) Elk) as [Ed _]. cbn [s_db after set_dbr]. rewrite Ed. apply (emplace_fk _ (begun s) _ _ _ _ _ HT Hdir Hroom Ee). intros x Hx. left. econstructor; [apply asked_walk; eassumption|eassumption|exact Hx].
    + destruct (lock_refcount (begun s) c t2 W Hdr ltac:(lia) Elk) as [Ed _]. cbn [s_db after set_dbr]. rewrite Ed. exact Hsame.
    + cbn [s_db after set_dbr]. assert (Es : exists r, step (begun s) (OUnlinkName p' n') = Done (r, t1)) by (cbn [step]; rewrite Eu; eexists; reflexivity). destruct Es as [r Es]. apply (untouched_fk _ (begun s) (OUnlinkName p' n') _ _ HT I Es). intros y [].
  - destruct (h_forget_spec W s k x m HF ltac:(lia) Hl) as (t & E2 & _ & Hd & _). rewrite E2 in E. injection E as <- <-. cbn [s_db after set_dbr]. rewrite Hd. exact Hsame.
  - destruct Hl as [Hl1 Hl2]. destruct (h_forget_multi_spec W s k fs HF ltac:(lia) Hl1 Hl2) as (t & E2 & _ & Hd & _). rewrite E2 in E. injection E as <- <-. cbn [s_db after set_dbr]. rewrite Hd. exact Hsame.
  - unfold h_getattr in E. destruct (getattr (s_db s) x); injection E as <- <-; exact Hsame.
  - destruct (h_readlink_total W s k b x HF) as (s2 & l & E2 & Hc). rewrite E2 in E. injection E as <- <-. destruct Hc as [Hw|comps link r t1 Hw El E1|comps link Hw El Hr|comps e Hw El Hr|comps e r t1 Hw El He E1]; try exact Hsame; cbn [s_db after set_dbr].
    + assert (Es : exists r, step (begun s) (OWritelink x link) = Done (r, t1)) by (cbn [step]; rewrite E1; eexists; reflexivity). destruct Es as [r' Es].
      apply (step_fk _ (begun s) (OWritelink x link) r' t1 HT I Es). cbn [touches]. change (t_db (begun s)) with (s_db s). intros y i i' Hy Hy' <- Hn. unfold writelink in E1. change (t_db (begun s)) with (s_db s) in E1. rewrite Hy in E1.
      destruct (Z.eqb_spec (ftype (a_mode (i_attr i))) S_IFLNK) as [Ety|Ety]; cbn [negb] in E1; injection E1 as _ <-; [|change (t_db (begun s)) with (s_db s) in Hy'; congruence].
      exfalso. apply Hn. left. econstructor; [apply asked_walk; eassumption|eassumption| |exact Ety]. unfold getattr. rewrite Hy. reflexivity.
    + assert (Es : exists r, step (begun s) (OUnlinkIno x) = Done (r, t1)) by (cbn [step]; rewrite E1; eexists; reflexivity). destruct Es as [r' Es]. apply (untouched_fk _ (begun s) (OUnlinkIno x) _ _ HT I Es). intros y [].
  - destruct Hl as [Hk Hb]. destruct (h_opendir_total W s k b x HF Hk ltac:(lia)) as (s2 & l & E2 & Hc & _). rewrite E2 in E. injection E as <- <-. pose proof (kdir_is_dir _ _ _ _ HF Hk) as Hdir.
    destruct Hc as [Hw|comps e Hw El He|comps Hw El|comps names e0 t1 t2 m t3 r t4 Hw El E1 (W1 & t0 & W' & HS1 & HW1 & HWl) E2' HS2 Hm Hm' E3 E4]; try exact Hsame. cbn [s_db after set_dbr].
    assert (Hd1 : t_db t1 = s_db s). { unfold start_dir_rewrite in E1. cbn in E1. destruct (from_key _ _ _); injection E1; intros; subst; reflexivity. }
    assert (HS3 : session x t3 m) by (eapply ses_flags; eassumption).
    assert (Hux : u64 x) by (destruct Hdir as (j & Hj & _); apply (inode_range _ _ _ Hi Hj)).
    pose proof (s_inv _ _ _ (session_inv _ _ _ HS2)) as HT2. pose proof (s_inv _ _ _ (session_inv _ _ _ HS3)) as HT3.
    set (T := fun y => (concerns s y (QOpendir b x) \/ marks s y (QOpendir b x)) \/ d_inodes (s_db s) !! y = None).
    assert (HTx : T x) by (left; right; split; [reflexivity|]; exists (spell comps), (names, e0); split; [apply asked_walk; assumption|exact El]).
    assert (HK2 : fk T (s_db s) (t_db t2) /\ keeps_from (s_db s) t2).
    { eapply (sync_entries_inv (fun t => fk T (s_db s) (t_db t) /\ keeps_from (s_db s) t) W1 t0 b x (backend_path (spell comps)) names); [|exact HS1|exact HW1|exact HWl|exact E2'|unfold keeps_from; rewrite Hd1; split; [apply fk_refl; exact Hi|split; [apply next_le_refl; exact Hi|apply keeps_refl]]].
      intros t n a y t' A1 A2 A3 A4 [A5 A6]. split; [|eapply keeps_emplace; eassumption].
      eapply (fk_trans _ _ (t_db t)); [exact Hi|exact A5|]. apply (emplace_fk _ t x n a y t' A1 A2 A3 A4). intros z Hz. destruct (d_inodes (s_db s) !! z) as [iz|] eqn:Ez; [left; left|right; exact Ez].
      assert (Hkz : exists az, kn (t_db t) x n z az). { apply lookup_Ok in Hz as (_ & e & He & <-); [|exact (tinv_db _ A1)|exact Hux]. destruct (treen_child _ _ _ _ (tinv_db _ A1) He) as (_ & _ & i & Hie & _). exists (i_attr i), e, i. auto. }
      destruct Hkz as [az Hkz]. destruct (proj2 A6 _ _ _ _ Hkz) as [[a0 Hk0]|Hno]; [|congruence]. econstructor; [apply asked_walk; eassumption|eassumption|]. eapply kn_lookup; eassumption. }
    destruct HK2 as [HK2 _]. assert (Hfin : fk T (s_db s) (t_db t4)).
    { eapply (fk_trans _ _ (t_db t3)); [exact Hi|eapply (fk_trans _ _ (t_db t2)); [exact Hi|exact HK2|]|].
      - eapply flags_fk; eassumption.
      - apply (untouched_fk _ t3 OFinishRewrite r t4 HT3 I E4). intros y []. }
    destruct Hfin as (N & F & G). split; [exact N|]. split; [exact F|]. intros y i i' Hy Hy'. destruct (G y i i' Hy Hy') as [G1 G2]. split; [exact G1|]. intros Hn. apply G2. intros [?|?]; [contradiction|congruence].
  - destruct (h_readdir_total s x size off Hi) as (l & E2 & _). rewrite E2 in E. injection E as <- <-. exact Hsame.
  - injection E as <- <-. exact Hsame.
  - injection E as <- <-. exact Hsame.
  - destruct (s_plus s !! id) as [[snap dir]|] eqn:Hid; [|contradiction]. destruct (h_plus_total W s k id size off snap dir HF Hid ltac:(lia)) as (l & e & pre & post & rep & _ & _ & E2 & _). rewrite E2 in E. injection E as <- <-. exact Hsame.
  - injection E as <- <-. exact Hsame.
  - destruct (open_cache root (s_db s)) as [[d r]| | |] eqn:Eo; try discriminate. cbn [obind] in E. injection E as <- <-. cbn [s_db].
    destruct (open_cache_spec root (s_db s) ltac:(rewrite init_db_id by assumption; assumption)) as (R & HR & E' & _). rewrite E' in Eo. injection Eo as <- <-. rewrite init_db_id by assumption.
    apply cleaned_fk. exact Hi.
Qed.
Lemma flag_fk T d d' x : fk T d d' -> ~ T x -> d_inodes d !! x <> None -> d_inodes d' !! x <> None -> test_flag d' x SYNCED = test_flag d x SYNCED.
Proof.
  intros (_ & _ & G) Hn H H'. unfold test_flag. destruct (d_inodes d !! x) as [i|] eqn:Ei; [|contradiction]. destruct (d_inodes d' !! x) as [i'|] eqn:Ei'; [|contradiction]. rewrite (proj2 (G _ _ _ Ei Ei') Hn). reflexivity.
Qed.
Lemma dir_fk T d d' x : fk T d d' -> d_inodes d !! x <> None -> is_dir d' x -> is_dir d x.
Proof. intros (_ & _ & G) H (i' & Hi' & Ht). destruct (d_inodes d !! x) as [i|] eqn:Ei; [|contradiction]. exists i. split; [exact Ei|]. destruct (G _ _ _ Ei Hi') as [G1 _]. congruence. Qed.

(** ** an entry that is written again is not marked any more *)
Section cleared.
Context (d0 : db) (dir : Z) (m : bytes) (y : Z).
Hypothesis Hd0 : Inv d0.
Hypothesis Hy : d_inodes d0 !! y <> None.
Hypothesis Hm : valid_name m.
Definition unmarked (d : db) : Prop := forall a, kn d dir m y a -> test_flag d y SYNCED <> Ok true.
Lemma emplace_unmarked t n' a' x1 t1 : TInv t -> is_dir (t_db t) dir -> room (t_db t) -> keeps_from d0 t -> emplace t dir n' a' = Done (x1, t1) ->
  n' = m \/ unmarked (t_db t) -> unmarked (t_db t1).
Proof using Hd0 Hy Hm.
  intros HT Hdir Hroom [Hnx _] E Hor a Hk Hf. destruct (decide (n' = m)) as [->|Hne].
  - destruct (emplace_spec t dir m a' HT Hdir Hroom) as [(err & Hcn & E')|[(_ & e' & i' & He' & Hi' & Hty' & E' & HT')|(_ & Hty' & kk & R & Hkk & Hfresh & Hd1 & HR & E' & HT')]].
    + unfold valid_name in Hm. congruence.
    + rewrite E' in E. injection E as <- <-. cbn [t_db] in Hk, Hf. destruct Hk as (e & i & H1 & H2 & H3 & H4). cbn [d_treen d_inodes set_inodes] in H1, H3. assert (e' = e) by congruence. subst e'. unfold test_flag in Hf. cbn [d_inodes set_inodes] in Hf. rewrite H2, lookup_insert in Hf. discriminate.
    + destruct (emplace_kn_rev t dir m a' x1 t1 dir m y a HT Hdir Hroom E Hk) as [[? _]|(_ & _ & -> & _)]; [congruence|]. rewrite E' in E. injection E as -> _. exfalso.
      destruct (d_inodes d0 !! y) as [i|] eqn:Ey; [|contradiction]. destruct (has_below _ _ _ Hd0 Ey) as (k1 & Hk1 & Hlt). destruct Hnx as (k2 & k3 & E2 & E3 & Hle). rewrite E3 in Hkk. rewrite Hk1 in E2. injection E2 as ->. injection Hkk as ->. lia.
  - destruct Hor as [?|Hor]; [contradiction|]. destruct (emplace_kn_rev t dir n' a' x1 t1 dir m y a HT Hdir Hroom E Hk) as [[_ H1]|(_ & ? & _)]; [|congruence]. apply (Hor _ H1). eapply emplace_flag; eassumption.
Qed.
Lemma sync_unmarked W t0 b bp : forall (names : list bytes) i t mm W' t', session dir t mm -> way W t0 W' t -> W' + Z.of_nat (length names) + 3 < 2 ^ 64 -> sync_entries t b dir bp i names = Done t' -> keeps_from d0 t ->
  (exists j st, names !! j = Some m /\ b_lstat b (i + j) (join_path bp m) = Ok st) \/ unmarked (t_db t) -> unmarked (t_db t').
Proof using Hd0 Hy Hm.
  induction names as [|n' names IH]; intros i t mm W' t' HS HWay HW E HA Hor; cbn [sync_entries] in E; [injection E as <-; destruct Hor as [(j & st & Hj & _)|Hor]; [discriminate|exact Hor]|].
  cbn [length] in HW.
  assert (Hor' : (exists st, n' = m /\ b_lstat b i (join_path bp m) = Ok st) \/ (exists j st, names !! j = Some m /\ b_lstat b (S i + j) (join_path bp m) = Ok st) \/ unmarked (t_db t)).
  { destruct Hor as [([|j] & st & Hj & Hl)|Hor]; [|right; left; exists j, st; split; [exact Hj|]; replace (S i + j)%nat with (i + S j)%nat by lia; auto|auto]. left. exists st. rewrite Nat.add_0_r in Hl. cbn in Hj. split; [congruence|auto]. }
  destruct (b_lstat b i (join_path bp n')) as [st|e] eqn:El.
  2:{ eapply IH; [exact HS|exact HWay|lia|exact E|exact HA|]. destruct Hor' as [(st & -> & Hl)|Hor']; [congruence|exact Hor']. }
  pose proof (s_dir _ _ _ (session_inv _ _ _ HS)) as Hdir. pose proof (way_room _ _ _ _ HWay ltac:(lia)) as Hroom.
  destruct (emplace t dir n' (from_backend_stat st)) as [[x1 t1]| | |] eqn:Ee; try discriminate. cbn [obind] in E.
  destruct (way_emplace _ _ _ _ _ _ _ _ _ HWay Hdir ltac:(lia) Ee) as [W1 R1].
  assert (HS1 : session dir t1 (match x1 with Ok c => <[n' := (c, from_backend_stat st)]> mm | Err _ => mm end)) by (destruct x1; [eapply ses_emplace|eapply ses_reject]; eassumption).
  eapply IH; [exact HS1|exact W1|lia|exact E|eapply keeps_emplace; [exact Hd0|exact (way_tinv _ _ _ _ HWay)|exact Hdir|exact Hroom|exact Ee|exact HA]|].
  destruct Hor' as [(st' & -> & Hl)|[Hor'|Hor']]; [right|left; exact Hor'|right]; (eapply emplace_unmarked; [exact (way_tinv _ _ _ _ HWay)|exact Hdir|exact Hroom|exact HA|exact Ee|]); auto.
Qed.
End cleared.
Lemma finish_flag dir t m res t' y : session dir t m -> finish_dir_rewrite t = Done (res, t') -> test_flag (t_db t') y SYNCED = test_flag (t_db t) y SYNCED.
Proof. intros HS E. destruct (session_finish dir t m HS) as (r & t2 & E2 & _ & _ & _ & _ & _ & _ & _ & Hsame & _). rewrite E in E2. injection E2 as <- <-. destruct (Hsame y) as (_ & _ & H). apply H. Qed.

(** ** Specification: when the listing of a directory is complete *)
(** the request read the whole directory at the path [pre] *)
Definition lists_path (s : fstate) (q : request) (pre : list bytes) : Prop :=
  match q with QOpendir b x => asked s x = Some (spell pre) /\ exists l, b_opendir b (backend_path (spell pre)) = Ok l | _ => False end.
(** the request got the attributes of the directory at [pre] itself: by a lookup of its name, or
    by the listing of the directory it is in *)
Definition tells_path (s : fstate) (q : request) (pre : list bytes) : Prop :=
  exists pre' n a, pre = pre' ++ [n] /\ word_of s q pre' n = Is a.
(** [complete h pre b]: after [h], a listing of the directory at [pre] counts as complete ([b]):
    it was read, since then nothing on its path was denied - and it was not looked at itself. *)
Inductive complete : list event -> list bytes -> bool -> Prop :=
| com_nil pre : complete [] pre false
| com_list h e pre : lists_path (ev_s e) (ev_q e) pre -> complete (h ++ [e]) pre true
| com_void h e pre : denies_path (ev_s e) (ev_q e) pre S_IFDIR -> complete (h ++ [e]) pre false
| com_told h e pre : tells_path (ev_s e) (ev_q e) pre -> complete (h ++ [e]) pre false
| com_same h e pre b : complete h pre b -> ~ lists_path (ev_s e) (ev_q e) pre -> ~ denies_path (ev_s e) (ev_q e) pre S_IFDIR -> ~ tells_path (ev_s e) (ev_q e) pre ->
    complete (h ++ [e]) pre b.

(** ** One request *)
Definition marked_at (d : db) (pre : list bytes) : Prop := exists x, twalk d pre x S_IFDIR /\ test_flag d x SYNCED = Ok true.
Lemma flag_there d x : test_flag d x SYNCED = Ok true -> d_inodes d !! x <> None.
Proof. unfold test_flag. destruct (d_inodes d !! x); [discriminate|]. discriminate. Qed.
(** a marked directory was there before, and at the same path *)
Lemma marked_before W s k h q s' o pre x : hist W s k h -> klegal k s q -> enough W s q -> fstep s q = Done (s', o) -> Inv (s_db s') ->
  twalk (s_db s') pre x S_IFDIR -> test_flag (s_db s') x SYNCED = Ok true -> twalk (s_db s) pre x S_IFDIR /\ (test_flag (s_db s) x SYNCED = Ok true \/ lists s q x).
Proof.
  intros Hh Hl Hen E Hi' Hw Hf. pose proof (hist_Inv _ _ _ _ Hh) as Hi. destruct (hist_inv _ _ _ _ Hh) as (HF & HA & HW).
  pose proof (flag_step W s k q s' o x HF HA Hl Hen E Hf) as Hor. split; [|exact Hor]. pose proof (fk_fstep _ _ _ _ _ _ HF HA Hl Hen E) as Hfk.
  assert (Hd : is_dir (s_db s) x).
  { eapply dir_fk; [exact Hfk| |eapply twalk_dir; eassumption]. destruct Hor as [Hf0|(b & pp & l & -> & Ha & _)]; [apply flag_there; exact Hf0|].
    destruct Hl as [Hkd _]. destruct (kdir_is_dir _ _ _ _ HF Hkd) as (i & Hx & _). congruence. }
  apply walk_twalk; [exact Hi| |exact Hd]. destruct (step_pathkeeps _ _ _ _ _ _ _ Hh Hl Hen E Hi') as [_ Hp]. apply Hp; [apply dir_below; assumption|]. eapply twalk_walk; eassumption.
Qed.
Lemma denied_both W s k h q s' o pre x : hist W s k h -> klegal k s q -> enough W s q -> fstep s q = Done (s', o) -> Inv (s_db s') ->
  twalk (s_db s) pre x S_IFDIR -> twalk (s_db s') pre x S_IFDIR -> ~ denies_path s q pre S_IFDIR.
Proof.
  intros Hh Hl Hen E Hi' Hw Hw' (pre1 & m & post & -> & Hd). pose proof (hist_Inv _ _ _ _ Hh) as Hi. pose proof (twalk_names _ _ _ _ Hi Hw) as Hns. apply Forall_app in Hns as [Hns1 Hns2]. inversion Hns2 as [|? ? Hsm _]; subst.
  assert (Hd' : denies s q pre1 m S_IFDIR) by (destruct post; exact Hd).
  assert (Hy : exists y, twalk (s_db s) (pre1 ++ [m]) y S_IFDIR /\ twalk (s_db s') (pre1 ++ [m]) y S_IFDIR).
  { destruct post as [|n post _] using rev_ind; [eauto|]. replace (pre1 ++ m :: post ++ [n]) with (((pre1 ++ [m]) ++ post) ++ [n]) in Hw, Hw' by (rewrite <- !app_assoc; reflexivity).
    apply twalk_inv in Hw as (p & a & Hp & Hk & _). apply twalk_inv in Hw' as (p' & a' & Hp' & Hk' & _). destruct (twalk_prefix _ _ _ _ _ _ _ Hp' Hk') as (y & n1 & c1 & a1 & Hy & Hky). exists y. split; [|exact Hy]. eapply dir_before; eassumption. }
  destruct Hy as (y & Hy & Hy'). exact (denied_core _ _ _ _ _ _ _ _ _ _ Hh Hl Hen E Hi' Hns1 Hsm Hy Hy' Hd').
Qed.
Lemma not_listed_twice s q pre x : Inv (s_db s) -> Forall noslash pre -> twalk (s_db s) pre x S_IFDIR -> lists s q x -> lists_path s q pre.
Proof. intros Hi Hns Hw (b & pp & l & -> & Ha & Ho). cbn [lists_path]. rewrite (asked_walk _ _ _ Hi (twalk_walk _ _ _ _ Hi Hw)) in Ha. injection Ha as <-. split; [apply asked_walk; [exact Hi|eapply twalk_walk; eassumption]|]. eauto. Qed.
Lemma told_unmarked W s k h q s' o pre n a x : hist W s k h -> klegal k s q -> enough W s q -> fstep s q = Done (s', o) -> Inv (s_db s') ->
  twalk (s_db s) (pre ++ [n]) x S_IFDIR -> twalk (s_db s') (pre ++ [n]) x S_IFDIR -> word_of s q pre n = Is a -> test_flag (s_db s') x SYNCED <> Ok true.
Proof.
  intros Hh Hl Hen E Hi' Hw Hw' Hwd. pose proof (hist_Inv _ _ _ _ Hh) as Hi. destruct (hist_inv _ _ _ _ Hh) as (HF & HA & HW).
  pose proof (twalk_names _ _ _ _ Hi Hw) as Hns. apply Forall_app in Hns as [Hns1 Hns2]. apply twalk_inv in Hw as (p & a0 & Hp & Hk & Ht). apply twalk_inv in Hw' as (p' & a1 & Hp' & Hk' & Ht').
  pose proof (dir_before _ _ _ _ _ _ _ _ _ _ _ _ Hh Hl Hen E Hi' Hp' Hk') as Hpp. destruct (twalk_fun _ _ _ _ _ _ Hi Hp Hpp) as [<- _]. clear Hpp.
  pose proof (kn_valid _ _ _ _ _ Hi Hk) as Hv. assert (Hxd : d_inodes (s_db s) !! x <> None) by (destruct Hk as (? & ? & _ & _ & Hx & _); congruence).
  pose proof (fi_dr _ _ _ HF) as Hdr. assert (HT : TInv (begun s)) by (eapply way_tinv; apply way_begin; exact Hdr). unfold enough in Hen. assert (H63 : 2 ^ 63 < 2 ^ 64) by lia.
  assert (Hkf : keeps_from (s_db s) (begun s)) by (split; [apply next_le_refl; exact Hi|apply keeps_refl]).
  destruct q as [b p1 n1|y z|fs|y|b y|b y|y size off|y|id y|id size off|tag|root]; cbn [word_of] in Hwd; try discriminate.
  - destruct (decide _) as [[-> Ha]|]; [|discriminate]. apply (same_place _ _ _ _ Hi Hns1 Hp) in Ha. subst p1. cbn [fstep] in E. destruct Hl as [Hkd Hb]. cbn [weight] in Hen. pose proof (kdir_is_dir _ _ _ _ HF Hkd) as Hdir.
    assert (Hroom : room (t_db (begun s))) by (eapply way_room; [apply way_begin; exact Hdr|lia]).
    destruct (h_lookup_total W s k b p n HF Hkd ltac:(lia)) as (s2 & l & E2 & Hc). rewrite E2 in E. injection E as <- <-. rewrite spell_snoc in Hwd. pose proof (asked_walk _ _ _ Hi (twalk_walk _ _ _ _ Hi Hp)) as Hask.
    destruct Hc as [Hnw|comps st' e Hcw El' Hcn|comps st' c t1 t2 Hcw El' Ee Elk|comps c ac t2 Hcw El' Hlc Hg Elk|comps Hcw El' Hlc Hs|comps Hcw El' Hlc Hs|comps e Hcw El' Hlc He|comps e r t1 Hcw El' He Eu].
    1: destruct (Hnw _ (twalk_walk _ _ _ _ Hi Hp)).
    all: rewrite (asked_walk _ _ _ Hi Hcw) in Hask; injection Hask as Hask; rewrite <- Hask, El' in Hwd; try (cbn in Hwd; discriminate).
    + unfold valid_name in Hv. congruence.
    + assert (HW1 : way W (begun s) (W + 1) t1) by (eapply way_emplace; [apply way_begin; exact Hdr|exact Hdir|lia|exact Ee]).
      destruct (lock_refcount t1 c t2 (W + 1) (wy_dr _ _ _ _ HW1) ltac:(lia) Elk) as [Ed _]. cbn [s_db after set_dbr] in *. rewrite Ed in *.
      refine (emplace_unmarked (s_db s) p n x Hi Hxd Hv (begun s) n _ _ t1 HT Hdir Hroom Hkf Ee (or_introl eq_refl) _ Hk').
    + destruct (e =? ENOTCONN); discriminate.
  - destruct (decide _) as [Ha|]; [|discriminate]. destruct (b_readlink _ _) as [|e]; [discriminate|]. destruct (e =? ENOTCONN); discriminate.
  - destruct (decide _) as [Ha|]; [|discriminate]. apply (same_place _ _ _ _ Hi Hns1 Hp) in Ha. subst y. cbn [fstep] in E. destruct Hl as [Hkd Hb]. destruct (h_opendir_total W s k b p HF Hkd ltac:(lia)) as (s2 & l & E2 & Hc & _). rewrite E2 in E. injection E as <- _.
    pose proof (asked_walk _ _ _ Hi (twalk_walk _ _ _ _ Hi Hp)) as Hask.
    destruct Hc as [Hnw|comps e Hcw Eo' He|comps Hcw Eo'|comps names' e0' t1 t2 mm t3 r t4 Hcw Eo' E1 HSW E3 HS2 Hm Hm' E4 E5].
    1: destruct (Hnw _ (twalk_walk _ _ _ _ Hi Hp)).
    all: rewrite (asked_walk _ _ _ Hi Hcw) in Hask; injection Hask as Hask; rewrite <- Hask, Eo' in Hwd; try discriminate.
    destruct (last_stat _ _ _ _ _ _) as [a2|] eqn:Els; [|discriminate]. apply listed_iff in Els as (j & st & Hj & Hst & _). destruct HSW as (W1 & t0 & W2 & HS1 & HW1 & HWl).
    assert (Hd1 : t_db t1 = s_db s). { unfold start_dir_rewrite in E1. cbn in E1. destruct (from_key _ _ _); injection E1; intros; subst; reflexivity. }
    cbn [s_db after set_dbr] in *. assert (HS3 : session p t3 mm) by (eapply ses_flags; eassumption). assert (HT3 : TInv t3) by (apply (s_inv _ _ _ (session_inv p t3 mm HS3))).
    pose proof (finish_sub _ _ _ _ _ _ _ HT3 E5 Hk') as Hk3. apply (update_flags_kn _ _ _ _ _ _ _ _ _ _ E4) in Hk3. rewrite (finish_flag _ _ _ _ _ x HS3 E5).
    assert (Hne : p <> x). { intros ->. pose proof (twalk_walk _ _ _ _ Hi Hp) as Hw1. assert (Hw2 : walk (s_db s) 1 (pre ++ [n]) x) by (eapply twalk_walk; [exact Hi|econstructor; [exact Hp|exact Hk]]). pose proof (walk_unique _ _ _ _ Hi Hw1 Hw2) as Eq. apply (f_equal length) in Eq. rewrite app_length in Eq. cbn in Eq. lia. }
    assert (Hf3 : test_flag (t_db t3) x SYNCED = test_flag (t_db t2) x SYNCED).
    { unfold update_flags in E4. destruct (d_inodes (t_db t2) !! p) as [j2|] eqn:Ej; [|discriminate]. injection E4 as <-. cbn [t_db with_db]. unfold test_flag. cbn [d_inodes set_inodes]. rewrite lookup_insert_ne by exact Hne. reflexivity. }
    rewrite Hf3. refine (sync_unmarked (s_db s) p n x Hi Hxd Hv W1 t0 b _ names' 0 t1 _ _ t2 HS1 HW1 HWl E3 _ _ a1 Hk3).
    + split; rewrite Hd1; [apply next_le_refl; exact Hi|apply keeps_refl].
    + left. exists j, st. auto.
Qed.
Lemma lists_marks W s k h q s' o pre : hist W s k h -> klegal k s q -> enough W s q -> fstep s q = Done (s', o) -> Inv (s_db s') -> Forall noslash pre -> lists_path s q pre -> marked_at (s_db s') pre.
Proof.
  intros Hh Hl Hen E Hi' Hns HL. pose proof (hist_Inv _ _ _ _ Hh) as Hi. destruct (hist_inv _ _ _ _ Hh) as (HF & HA & HW). destruct q as [b p1 n1|y z|fs|y|b y|b y|y size off|y|id y|id size off|tag|root]; cbn [lists_path] in HL; try contradiction.
  destruct HL as (Ha & [names e0] & Ho). pose proof Hl as [Hkd Hb]. pose proof (kdir_is_dir _ _ _ _ HF Hkd) as Hdir. pose proof (asked_spell _ _ _ Hi Hns Ha) as Hw. pose proof (walk_twalk _ _ _ Hi Hw Hdir) as Htw. exists y. split.
  - destruct (twalk_step _ _ _ _ _ _ _ _ _ _ Hh Hl Hen E Hi' Htw) as [?|Hd]; [assumption|exfalso]. destruct Hd as (pre1 & m & post & -> & (Ha1 & _)).
    apply (asked_spell _ _ _ Hi) in Ha1; [|apply Forall_app in Hns; tauto]. pose proof (walk_unique _ _ _ _ Hi Hw Ha1) as Eq. apply (f_equal length) in Eq. rewrite app_length in Eq. cbn in Eq. lia.
  - unfold enough in Hen. assert (H63 : 2 ^ 63 < 2 ^ 64) by lia. cbn [fstep] in E. destruct (h_opendir_total W s k b y HF Hkd ltac:(lia)) as (s2 & l & E2 & Hc & _). rewrite E2 in E. injection E as <- _.
    destruct Hc as [Hnw|comps e Hcw Eo' He|comps Hcw Eo'|comps names' e0' t1 t2 mm t3 r t4 Hcw Eo' E1 HSW E3 HS2 Hm Hm' E4 E5].
    1: destruct (Hnw _ Hw).
    all: rewrite (asked_walk _ _ _ Hi Hcw) in Ha; injection Ha as Ha; rewrite <- Ha, Eo' in Ho; try discriminate.
    destruct (sync_facts_ok s b y comps names' t1 t2 mm t3 r t4 Hdir E1 HSW E3 HS2 Hm Hm' E4 E5) as [_ _ _ _ Hfl _]. exact Hfl.
Qed.
Lemma marked_step W s k h q s' o pre : hist W s k h -> klegal k s q -> enough W s q -> fstep s q = Done (s', o) -> Inv (s_db s') -> Forall noslash pre ->
  ~ lists_path s q pre -> ~ denies_path s q pre S_IFDIR -> ~ tells_path s q pre -> marked_at (s_db s') pre <-> marked_at (s_db s) pre.
Proof.
  intros Hh Hl Hen E Hi' Hns HnL HnD HnT. pose proof (hist_Inv _ _ _ _ Hh) as Hi. destruct (hist_inv _ _ _ _ Hh) as (HF & HA & HW). split.
  - intros (x & Hw' & Hf'). destruct (marked_before _ _ _ _ _ _ _ _ _ Hh Hl Hen E Hi' Hw' Hf') as [Hw [Hf|Hli]]; [exists x; auto|]. destruct HnL. eapply not_listed_twice; eassumption.
  - intros (x & Hw & Hf). destruct (twalk_step _ _ _ _ _ _ _ _ _ _ Hh Hl Hen E Hi' Hw) as [Hw'|]; [|contradiction]. exists x. split; [exact Hw'|].
    rewrite (flag_fk _ _ _ x (fk_fstep _ _ _ _ _ _ HF HA Hl Hen E)); [exact Hf| |apply flag_there; exact Hf|eapply twalk_here; eassumption].
    pose proof (asked_walk _ _ _ Hi (twalk_walk _ _ _ _ Hi Hw)) as Hask.
    assert (Hpar : forall p n, u64 p -> lookup (s_db s) p n = Ok x -> exists pre' a, pre = pre' ++ [n] /\ twalk (s_db s) pre' p S_IFDIR /\ kn (s_db s) p n x a).
    { intros p n Hu Hlk. assert (Hkx : exists a, kn (s_db s) p n x a). { apply lookup_Ok in Hlk as (_ & e & He & <-); [|exact Hi|exact Hu]. destruct (treen_child _ _ _ _ Hi He) as (_ & _ & i & Hie & _). exists (i_attr i), e, i. auto. }
      destruct Hkx as [a Hkx]. destruct pre as [|n2 pre2 _] using rev_ind.
      - exfalso. inversion Hw as [Ex|names2 p2 n3 c3 a3 Hp3 Hk3 En]; [|destruct names2; discriminate]. subst x. destruct (kn_treei _ _ _ _ _ Hi Hkx) as (e & i & He & _). destruct (inv_treei _ Hi _ _ _ He) as (_ & Hne1 & _). apply Hne1. reflexivity.
      - apply twalk_inv in Hw as (p2 & a2 & Hp2 & Hk2 & _). destruct (kn_inj _ _ _ _ _ _ _ _ Hi Hk2 Hkx) as [-> ->]. exists pre2, a. auto. }
    intros [Hc|Hm].
    + destruct Hc as [b p n pp st Ha Hst Hlk|b p pp l n Ha Ho Hlk|b pp l a Ha Hl' Hg Hty].
      * assert (Hu : u64 p) by (destruct Hl as [Hkd _]; destruct (kdir_is_dir _ _ _ _ HF Hkd) as (j & Hj & _); apply (inode_range _ _ _ Hi Hj)). destruct (Hpar p n Hu Hlk) as (pre' & a & -> & Hp & Hk). apply HnT.
        exists pre', n, (from_backend_stat st). split; [reflexivity|]. cbn [word_of]. rewrite (asked_walk _ _ _ Hi (twalk_walk _ _ _ _ Hi Hp)) in *. injection Ha as <-. rewrite decide_True by auto. rewrite spell_snoc, Hst. reflexivity.
      * pose proof Hl as [Hkd _]. assert (Hu : u64 p) by (destruct (kdir_is_dir _ _ _ _ HF Hkd) as (j & Hj & _); apply (inode_range _ _ _ Hi Hj)). destruct (Hpar p n Hu Hlk) as (pre' & a & -> & Hp & Hk). apply HnT.
        pose proof (asked_walk _ _ _ Hi (twalk_walk _ _ _ _ Hi Hp)) as Hap. rewrite Hap in Ha. injection Ha as <-. destruct l as [names e0].
        apply twalk_inv in Hw' as (p' & a1 & Hp' & Hk' & _). pose proof (dir_before _ _ _ _ _ _ _ _ _ _ _ _ Hh Hl Hen E Hi' Hp' Hk') as Hpp. destruct (twalk_fun _ _ _ _ _ _ Hi Hp Hpp) as [<- _].
        pose proof (kn_valid _ _ _ _ _ Hi Hk) as Hv. pose proof (news_step W s k _ s' o p n HF HA Hl Hen E Hv Hu) as [_ Hks]. cbn [news] in Hks. rewrite Z.eqb_refl, Hap, Ho in Hks.
        destruct (last_stat b (backend_path (spell pre')) 0 names n None) as [a2|] eqn:Els; [|destruct (Hks _ _ Hk')]. exists pre', n, a2. split; [reflexivity|]. cbn [word_of]. rewrite decide_True by exact Hap. rewrite Ho, Els. reflexivity.
      * destruct (twalk_dir _ _ _ Hi Hw) as (i & Hx & Hd). unfold getattr in Hg. rewrite Hx in Hg. injection Hg as <-. rewrite Hd in Hty. discriminate.
    + destruct q; cbn [marks] in Hm; try contradiction. destruct Hm as (-> & pp & l & Ha & Ho). rewrite Hask in Ha. injection Ha as <-. apply HnL. cbn [lists_path]. eauto.
Qed.

(** ** Histories *)
Lemma open_unmarked root d r pre : open_cache root db_empty = Done (d, r) -> ~ marked_at d pre.
Proof.
  intros E (x & _ & Hf). destruct (open_cache_spec root db_empty (init_db_inv root)) as (R & _ & E' & _). rewrite E' in E. injection E as <- <-. rewrite cleaned_test_flag in Hf. destruct (decide _); [discriminate|].
  unfold test_flag in Hf. cbn in Hf. unfold ROOT_INO in Hf. destruct (decide (1 = x)) as [<-|Hne]; [rewrite lookup_insert in Hf; discriminate|rewrite lookup_insert_ne, lookup_empty in Hf by assumption; discriminate].
Qed.
Lemma complete_marked h pre b : complete h pre b -> Forall noslash pre -> forall W s k, hist W s k h -> marked_at (s_db s) pre <-> b = true.
Proof.
  induction 1 as [pre|h e pre HL|h e pre HD|h e pre HT|h e pre b HC IH HnL HnD HnT]; intros Hns W s k Hh.
  - inversion Hh as [root d r Ha E E1 E2 E3 E4|W0 s0 k0' h0 q0 s1 o0 sent0 Hx1 Hx2 Hx3 Hx4 Hx5 E1 E2 E3 E4]; [|destruct h0; discriminate]. cbn [s_db]. split; [intros Hm; destruct (open_unmarked _ _ _ _ E Hm)|discriminate].
  - pose proof (hist_Inv _ _ _ _ Hh) as Hi'. apply hist_last in Hh as (W0 & k0' & s' & o & sent & H0 & Hl & Hen & E & Es & Ee & -> & -> & ->). split; [reflexivity|]. intros _. eapply lists_marks; eassumption.
  - pose proof (hist_Inv _ _ _ _ Hh) as Hi'. apply hist_last in Hh as (W0 & k0' & s' & o & sent & H0 & Hl & Hen & E & Es & Ee & -> & -> & ->). split; [|discriminate]. intros (x & Hw' & Hf').
    destruct (marked_before _ _ _ _ _ _ _ _ _ H0 Hl Hen E Hi' Hw' Hf') as [Hw _]. destruct (denied_both _ _ _ _ _ _ _ _ _ H0 Hl Hen E Hi' Hw Hw' HD).
  - pose proof (hist_Inv _ _ _ _ Hh) as Hi'. apply hist_last in Hh as (W0 & k0' & s' & o & sent & H0 & Hl & Hen & E & Es & Ee & -> & -> & ->). split; [|discriminate]. intros (x & Hw' & Hf').
    destruct (marked_before _ _ _ _ _ _ _ _ _ H0 Hl Hen E Hi' Hw' Hf') as [Hw _]. destruct HT as (pre' & n & a & -> & Hwd). destruct (told_unmarked _ _ _ _ _ _ _ _ _ _ _ H0 Hl Hen E Hi' Hw Hw' Hwd Hf').
  - pose proof (hist_Inv _ _ _ _ Hh) as Hi'. apply hist_last in Hh as (W0 & k0' & s' & o & sent & H0 & Hl & Hen & E & Es & Ee & -> & -> & ->). rewrite <- (IH Hns _ _ _ H0). eapply marked_step; eassumption.
Qed.
(** ** [complete] is a function *)
Lemma lists_path_or s q pre : lists_path s q pre \/ ~ lists_path s q pre.
Proof. destruct q as [| | | | |b y| | | | | |]; cbn [lists_path]; try tauto. destruct (decide (asked s y = Some (spell pre))); [|tauto]. destruct (b_opendir b _) as [l|]; [left; eauto|]. right. intros (_ & l & ?). discriminate. Qed.
Lemma tells_path_or s q pre : tells_path s q pre \/ ~ tells_path s q pre.
Proof.
  destruct pre as [|n pre _] using rev_ind; [right; intros (pre' & n & a & E & _); destruct pre'; discriminate|]. destruct (word_of s q pre n) eqn:Ew; [right|right|left; exists pre, n, a; auto|right]; intros (pre' & n' & a' & E & Ew'); apply app_inj_tail in E as [<- <-]; congruence.
Qed.
Lemma complete_total h pre : exists b, complete h pre b.
Proof.
  induction h as [|e h [b IH]] using rev_ind; [eexists; constructor|]. destruct (lists_path_or (ev_s e) (ev_q e) pre); [eexists; apply com_list; assumption|]. destruct (denies_path_or (ev_s e) (ev_q e) pre S_IFDIR); [eexists; apply com_void; assumption|].
  destruct (tells_path_or (ev_s e) (ev_q e) pre); [eexists; apply com_told; assumption|]. eexists. apply com_same; eassumption.
Qed.
Lemma complete_fun W s k h pre b b' : hist W s k h -> Forall noslash pre -> complete h pre b -> complete h pre b' -> b = b'.
Proof.
  intros Hh Hns H H'. pose proof (complete_marked _ _ _ H Hns _ _ _ Hh) as E. pose proof (complete_marked _ _ _ H' Hns _ _ _ Hh) as E'. destruct b, b'; try reflexivity; exfalso; [assert (false = true) by tauto|assert (false = true) by tauto]; discriminate.
Qed.
