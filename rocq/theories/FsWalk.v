(** Paths: which path of the mount the kernel knows an inode by, and how long it stays so. *)
From Verif Require Export FsPlusStream FsClean.
From Verif Require PropsFs.

(** ** Specification *)
(** [known_as h x names ty]: by the requests and replies [h] alone, the kernel reached the inode
    [x], of type [ty], by looking up [names] one after the other, from the root (or by reading
    some of them in the listing that a readdirplus sent). *)
Inductive known_as : list event -> Z -> list bytes -> Z -> Prop :=
| ka_root : known_as [] ROOT_INO [] S_IFDIR
| ka_later h e x names ty : known_as h x names ty -> known_as (h ++ [e]) x names ty
| ka_lookup h s b p n c a names : known_as h p names S_IFDIR ->
    known_as (h ++ [Ev s (QLookup b p n) [REntry c a]]) c (names ++ [n]) (ftype (a_mode a))
| ka_plus h s0 id dir sent0 mid s size off buf y names : known_as h dir names S_IFDIR ->
    (forall e z, e ∈ mid -> ev_q e <> QPlusBegin id z) -> y ∈ kernel_reads_plus buf -> ~ special (ke_name (kp_ent y)) ->
    known_as (h ++ Ev s0 (QPlusBegin id dir) sent0 :: mid ++ [Ev s (QPlusRun id size off) [RBuf buf]]) (kp_node y) (names ++ [ke_name (kp_ent y)]) (ftype (kp_mode y)).
(** The backend, when asked in this request, said that the entry [n] of the directory at the
    path [pre] is not there, or that it is not of type [ty]. *)
Definition denies (s : fstate) (q : request) (pre : list bytes) (n : bytes) (ty : Z) : Prop :=
  match q with
  | QLookup b p n' => n' = n /\ asked s p = Some (spell pre) /\
      ((exists e, b_lstat b 0 (spell (pre ++ [n])) = Err e /\ e <> ENOTCONN) \/
       (exists st, b_lstat b 0 (spell (pre ++ [n])) = Ok st /\ ftype (a_mode st) <> ty))
  | QOpendir b x => asked s x = Some (spell pre) /\ exists names e0, b_opendir b (backend_path (spell pre)) = Ok (names, e0) /\
      ((forall i, names !! i = Some n -> exists e, b_lstat b i (join_path (backend_path (spell pre)) n) = Err e) \/
       (exists i st, names !! i = Some n /\ b_lstat b i (join_path (backend_path (spell pre)) n) = Ok st /\ ftype (a_mode st) <> ty))
  | QReadlink b c => asked s c = Some (spell (pre ++ [n])) /\ exists e, b_readlink b (backend_path (spell (pre ++ [n]))) = Err e /\ e <> ENOTCONN
  | _ => False
  end.
(** ... about some component of the path [names]; all but the last are directories *)
Definition denies_path (s : fstate) (q : request) (names : list bytes) (ty : Z) : Prop :=
  exists pre n post, names = pre ++ n :: post /\ denies s q pre n (match post with [] => ty | _ => S_IFDIR end).

(** ** One entry *)
Lemma spell_snoc pre n : spell (pre ++ [n]) = spell pre ++ [47] ++ n.
Proof. rewrite spell_app. unfold spell at 2. cbn [map concat]. rewrite app_nil_r. reflexivity. Qed.

Definition has_entry (x : Z) (n : bytes) (c ty : Z) (d : db) : Prop := exists a, kn d x n c a /\ ftype (a_mode a) = ty.
Lemma emplace_has t dir n' a' x1 t1 n c ty : TInv t -> is_dir (t_db t) dir -> room (t_db t) -> is_dir (t_db t1) dir -> emplace t dir n' a' = Done (x1, t1) ->
  (n' = n -> ftype (a_mode a') = ty) -> has_entry dir n c ty (t_db t) -> has_entry dir n c ty (t_db t1).
Proof.
  intros HT Hdir Hroom Hdir1 E Hty (a & Hk & Ha). destruct (decide (n' = n)) as [->|Hne].
  - specialize (Hty eq_refl). destruct Hk as (e & i & E1 & E2 & E3 & E4).
    destruct (emplace_spec t dir n a' HT Hdir Hroom) as [(err & Hcn & E')|[(_ & e' & i' & He' & Hi' & Hty' & E' & HT')|(_ & Hty' & _)]].
    + rewrite E' in E. injection E as <- <-. exists a. split; [exists e, i; auto|exact Ha].
    + rewrite E' in E. injection E as <- <-. cbn [t_db]. assert (e' = e) by congruence. subst e'. exists a'. split; [|exact Hty]. exists e, (mkinode a' dir). split; [exact E1|]. split; [exact E2|]. split; [|reflexivity]. rewrite <- E2. apply lookup_insert.
    + exfalso. apply (Hty' e i E1); [congruence|]. rewrite E4. congruence.
  - destruct (emplace_kn t dir n' a' x1 t1 dir n c a HT Hdir Hroom E) as [H1 _]. destruct (H1 ltac:(congruence) Hk) as [H2|H2]; [exists a; auto|]. destruct Hdir1 as (i & Hi & _). congruence.
Qed.
Lemma sync_has W t0 b dir bp n c ty : forall (names : list bytes) i t m W' t', session dir t m -> way W t0 W' t -> W' + Z.of_nat (length names) + 3 < 2 ^ 64 -> sync_entries t b dir bp i names = Done t' ->
  (forall j st, names !! j = Some n -> b_lstat b (i + j) (join_path bp n) = Ok st -> ftype (a_mode st) = ty) ->
  has_entry dir n c ty (t_db t) -> has_entry dir n c ty (t_db t').
Proof.
  induction names as [|n' names IH]; intros i t m W' t' HS HWay HW E Hst HA; cbn [sync_entries] in E; [injection E as <-; exact HA|].
  assert (Hst' : forall j st, names !! j = Some n -> b_lstat b (S i + j) (join_path bp n) = Ok st -> ftype (a_mode st) = ty).
  { intros j st Hj Hl. apply (Hst (S j) st Hj). replace (i + S j)%nat with (S i + j)%nat by lia. exact Hl. }
  cbn [length] in HW. destruct (b_lstat b i (join_path bp n')) as [st|e] eqn:El; [|eapply IH; [exact HS|exact HWay|lia|exact E|exact Hst'|exact HA]].
  pose proof (s_dir _ _ _ (session_inv _ _ _ HS)) as Hdir. pose proof (way_room _ _ _ _ HWay ltac:(lia)) as Hroom.
  destruct (emplace t dir n' (from_backend_stat st)) as [[x1 t1]| | |] eqn:Ee; try discriminate. cbn [obind] in E.
  destruct (way_emplace _ _ _ _ _ _ _ _ _ HWay Hdir ltac:(lia) Ee) as [W1 R1].
  assert (HS1 : session dir t1 (match x1 with Ok c => <[n' := (c, from_backend_stat st)]> m | Err _ => m end)) by (destruct x1; [eapply ses_emplace|eapply ses_reject]; eassumption).
  eapply IH; [exact HS1|exact W1|lia|exact E|exact Hst'|]. eapply emplace_has; [exact (way_tinv _ _ _ _ HWay)|exact Hdir|exact Hroom|exact (s_dir _ _ _ (session_inv _ _ _ HS1))|exact Ee| |exact HA].
  intros ->. apply (Hst 0%nat st eq_refl). rewrite Nat.add_0_r. exact El.
Qed.
Lemma finish_sub t res t' p n c a : TInv t -> finish_dir_rewrite t = Done (res, t') -> kn (t_db t') p n c a -> kn (t_db t) p n c a.
Proof.
  intros HT E Hk. pose proof (tinv_db _ HT) as H. unfold finish_dir_rewrite in E. destruct (t_rw t) as [S|] eqn:Er; injection E as _ <-; [|exact Hk]. cbn [t_db] in Hk.
  apply fold_orphan_kn in Hk; [tauto|exact H].
Qed.

Lemma last_stat_acc b bp n : forall names i acc, acc <> None -> last_stat b bp i names n acc <> None.
Proof.
  induction names as [|n' names IH]; intros i acc Ha; cbn [last_stat]; [exact Ha|]. apply IH. repeat case_match; congruence.
Qed.
Lemma last_stat_some b bp n : forall (names : list bytes) i acc j st, names !! j = Some n -> b_lstat b (i + j) (join_path bp n) = Ok st -> exists a, last_stat b bp i names n acc = Some a.
Proof.
  induction names as [|n' names IH]; intros i acc j st Hj Hl; [discriminate|]. cbn [last_stat]. destruct j as [|j].
  - cbn in Hj. injection Hj as ->. rewrite Nat.add_0_r in Hl. destruct (last_stat b bp (S i) names n _) eqn:E; [eauto|]. exfalso. revert E. apply last_stat_acc. rewrite Hl. rewrite decide_True by reflexivity. discriminate.
  - apply (IH (S i) _ j st Hj). replace (S i + j)%nat with (i + S j)%nat by lia. exact Hl.
Qed.
Lemma stat_types b bp n ty : forall (names : list bytes) i, (forall j st, names !! j = Some n -> b_lstat b (i + j) (join_path bp n) = Ok st -> ftype (a_mode st) = ty) \/
  (exists j st, names !! j = Some n /\ b_lstat b (i + j) (join_path bp n) = Ok st /\ ftype (a_mode st) <> ty).
Proof.
  induction names as [|n' names IH]; intros i; [left; intros j st Hj; discriminate|].
  destruct (IH (S i)) as [Hall|(j & st & H1 & H2 & H3)]; [|right; exists (S j), st; split; [exact H1|]; replace (i + S j)%nat with (S i + j)%nat by lia; auto].
  assert (Hrest : forall j st, names !! j = Some n -> b_lstat b (i + S j) (join_path bp n) = Ok st -> ftype (a_mode st) = ty).
  { intros j st Hj Hs. apply (Hall j st Hj). replace (S i + j)%nat with (i + S j)%nat by lia. exact Hs. }
  destruct (decide (n' = n)) as [->|Hne]; [|left; intros [|j] st Hj Hs; [cbn in Hj; congruence|eapply Hrest; eassumption]].
  destruct (b_lstat b i (join_path bp n)) as [st|e] eqn:El.
  - destruct (Z.eq_dec (ftype (a_mode st)) ty) as [Ht|Ht].
    + left. intros [|j] st' Hj Hs; [|eapply Hrest; eassumption]. rewrite Nat.add_0_r in Hs. congruence.
    + right. exists 0%nat, st. rewrite Nat.add_0_r. auto.
  - left. intros [|j] st' Hj Hs; [|eapply Hrest; eassumption]. rewrite Nat.add_0_r in Hs. congruence.
Qed.
Lemma entry_kept W s k h q s' o p n c a pre : hist W s k h -> klegal k s q -> enough W s q -> fstep s q = Done (s', o) -> Inv (s_db s') ->
  kn (s_db s) p n c a -> asked s p = Some (spell pre) -> d_inodes (s_db s') !! p <> None ->
  has_entry p n c (ftype (a_mode a)) (s_db s') \/ denies s q pre n (ftype (a_mode a)).
Proof.
  intros Hh Hl Hen E Hi' Hk Hask Hp. destruct (hist_inv _ _ _ _ Hh) as (HF & HA & HW). pose proof (fi_dr _ _ _ HF) as Hdr. pose proof (dr_inv _ _ _ Hdr) as Hi.
  pose proof (kn_valid _ _ _ _ _ Hi Hk) as Hv. pose proof (kn_u64 _ _ _ _ _ Hi Hk) as Hu.
  pose proof (news_step W s k q s' o p n HF HA Hl Hen E Hv Hu) as [_ Hks].
  assert (Hnl : ~ lost (s_db s') p) by (intros [? _]; contradiction).
  destruct (news s q p n) as [| |a1] eqn:En.
  - left. destruct Hks as [Hks _]. destruct (Hks c a ltac:(left; exact Hk)) as [?|?]; [exists a; auto|contradiction].
  - right. destruct q; cbn [news] in En; try discriminate.
    + destruct (decide _) as [[-> ->]|] in En; [|discriminate]. rewrite Hask in En. cbn [denies]. rewrite spell_snoc. split; [reflexivity|]. split; [exact Hask|]. left.
      destruct (b_lstat b 0 _) as [|e] in En |- *; [discriminate|]. destruct (Z.eqb_spec e ENOTCONN); [discriminate|]. eauto.
    + destruct (lookup (s_db s) p n) as [c'|] eqn:El; [|discriminate]. destruct (Z.eqb_spec c' ino) as [->|]; [|discriminate].
      destruct (asked s ino) as [pp|] eqn:Ea; [|discriminate]. destruct (b_readlink b (backend_path pp)) as [link|e] eqn:Er; [destruct (getattr _ _); [destruct (_ =? _)|]; discriminate|]. destruct (Z.eqb_spec e ENOTCONN); [discriminate|].
      cbn [denies]. assert (Hpp : pp = spell (pre ++ [n])).
      { destruct (asked_some _ _ _ Hi Hask) as (cs & Hw & Hs). assert (Hw2 : walk (s_db s) 1 (cs ++ [n]) ino) by (apply walk_app; exists p; split; [exact Hw|]; cbn [walk]; eauto).
        rewrite (asked_walk _ _ _ Hi Hw2) in Ea. injection Ea as <-. rewrite !spell_snoc, Hs. reflexivity. }
      subst pp. split; [exact Ea|]. eauto.
    + destruct (Z.eqb_spec ino p) as [->|]; [|discriminate]. rewrite Hask in En. destruct (b_opendir b _) as [[names e0]|] eqn:Eo; [|discriminate]. destruct (last_stat _ _ _ _ _ _) eqn:Els; [discriminate|].
      cbn [denies]. split; [exact Hask|]. exists names, e0. split; [exact Eo|]. left. intros i Hin. destruct (b_lstat b i _) as [st|e] eqn:Est; [exfalso|eauto].
      destruct (last_stat_some b (backend_path (spell pre)) n names 0 None i st Hin Est) as [a' Ha']. congruence.
  - destruct q as [b p' n'|x m|fs|x|b x|b x|x size off|x|id x|id size off|tag|root]; cbn [news] in En; try discriminate.
    + destruct (decide _) as [[-> ->]|] in En; [|discriminate]. rewrite Hask in En. destruct (b_lstat b 0 (spell pre ++ [47] ++ n)) as [st|e] eqn:El; [|destruct (e =? ENOTCONN); discriminate].
      injection En as <-. destruct (Z.eq_dec (ftype (a_mode st)) (ftype (a_mode a))) as [Ht|Ht]; [left|right; cbn [denies]; rewrite spell_snoc; split; [reflexivity|]; split; [exact Hask|]; right; eauto].
      destruct (PropsFs.C34_connected W s k h b p n _ st Hh Hl Hen Hask El (proj2 (PropsFs.good_name_iff n) Hv)) as (c1 & s1 & (o1 & E1 & _) & Hlk & Hg & Hsame & _). rewrite E in E1. injection E1 as <- _.
      destruct (proj2 (knows_kn _ _ _ _ _ Hi Hu) Hk) as [K1 K2]. assert (c1 = c) by (apply (Hsame c a K1 K2); congruence). subst c1.
      exists (from_backend_stat st). split; [|cbn [a_mode from_backend_stat]; exact Ht]. destruct Hks as [c2 Hk2].
      apply (knows_kn _ _ _ _ _ Hi' Hu). split; assumption.
    + left. destruct (lookup (s_db s) p n) as [c'|] eqn:El; [|discriminate]. destruct (Z.eqb_spec c' x) as [->|]; [|discriminate].
      destruct (h_readlink_total W s k b x HF) as (s2 & l & E2 & Hc). cbn [fstep] in E. rewrite E2 in E. injection E as <- _.
      destruct (asked s x) as [pp|] eqn:Ea; [|discriminate]. destruct (b_readlink b (backend_path pp)) as [link|e] eqn:Er; [|destruct (e =? ENOTCONN); discriminate].
      destruct (getattr (s_db s) x) as [ax|] eqn:Eg; [|discriminate]. destruct (Z.eqb_spec (ftype (a_mode ax)) S_IFLNK) as [Hty|]; [|discriminate]. injection En as <-.
      pose proof (proj1 (knows_kn _ _ _ _ _ Hi Hu) (conj El Eg)) as HK. destruct (kn_fun _ _ _ _ _ _ _ Hk HK) as [-> ->].
      destruct Hks as [c2 Hk2]. exists (set_size (Z.of_nat (length link)) ax). split; [|reflexivity].
      assert (Hc2 : exists a3, kn (s_db s) p n c2 a3); [|destruct Hc2 as [a3 Hc2]; destruct (kn_fun _ _ _ _ _ _ _ HK Hc2) as [<- _]; exact Hk2].
      destruct Hc as [Hw|comps link' r t1 Hw Er' Ew|comps link' Hw Er' _|comps e Hw Er' _|comps e r t1 Hw Er' He Eu]; try (rewrite (asked_walk _ _ _ Hi Hw) in Ea; injection Ea as <-); try congruence; try (exists (set_size (Z.of_nat (length link)) ax); exact Hk2).
      cbn [s_db after set_dbr] in Hk2. destruct (writelink_kn _ _ _ _ _ p n c2 (set_size (Z.of_nat (length link)) ax) Ew) as [_ H2]. destruct (H2 Hk2) as [H3|(_ & a0 & H3 & _)]; eauto.
    + destruct (Z.eqb_spec x p) as [->|]; [|discriminate]. rewrite Hask in En. destruct (b_opendir b (backend_path (spell pre))) as [[names e0]|] eqn:Eo; [|discriminate].
      destruct (last_stat b (backend_path (spell pre)) 0 names n None) as [a2|] eqn:Els; [|discriminate]. injection En as ->.
      destruct (stat_types b (backend_path (spell pre)) n (ftype (a_mode a)) names 0) as [Hall|Hbad]; [|right; cbn [denies]; split; [exact Hask|]; exists names, e0; split; [exact Eo|]; right; exact Hbad].
      left. destruct Hl as [Hkd Hb]. unfold enough in Hen. destruct (h_opendir_total W s k b p HF Hkd ltac:(lia)) as (s2 & l & E2 & Hc & _). cbn [fstep] in E. rewrite E2 in E. injection E as <- _.
      destruct Hc as [Hw|comps e Hw Eo' He|comps Hw Eo'|comps names' e0' t1 t2 m t3 r t4 Hw Eo' E1 HSW E3 HS2 Hm Hm' E4 E5].
      1:{ rewrite asked_none in Hask by assumption. discriminate. }
      all: rewrite (asked_walk _ _ _ Hi Hw) in Hask; injection Hask as Hask; rewrite Hask in *; rewrite Eo' in Eo; try discriminate.
      injection Eo as -> ->. destruct HSW as (W1 & t0 & W2 & HS1 & HW1 & HWl).
      assert (Hd1 : t_db t1 = s_db s). { unfold start_dir_rewrite in E1. cbn in E1. destruct (from_key _ _ _); injection E1; intros; subst; reflexivity. }
      assert (H2 : has_entry p n c (ftype (a_mode a)) (t_db t2)).
      { eapply (sync_has W1 t0 b p (backend_path (spell pre)) n c (ftype (a_mode a)) names 0); [exact HS1|exact HW1|exact HWl|exact E3|intros j st; apply Hall|]. rewrite Hd1. exists a. auto. }
      destruct Hks as [c2 Hk2]. cbn [s_db after set_dbr] in Hk2 |- *.
      assert (HT3 : TInv t3) by (apply (s_inv _ _ _ (session_inv p t3 m ltac:(eapply ses_flags; eassumption)))). pose proof (finish_sub _ _ _ _ _ _ _ HT3 E5 Hk2) as Hk3. apply (update_flags_kn _ _ _ _ _ _ _ _ _ _ E4) in Hk3.
      destruct H2 as (a3 & H3 & H4). destruct (kn_fun _ _ _ _ _ _ _ H3 Hk3) as [<- <-]. exists a3. auto.
Qed.

(** ** Paths *)
(** [names] leads to [x] of type [ty], through directories *)
Inductive twalk (d : db) : list bytes -> Z -> Z -> Prop :=
| tw_root : twalk d [] ROOT_INO S_IFDIR
| tw_step names p n c a : twalk d names p S_IFDIR -> kn d p n c a -> twalk d (names ++ [n]) c (ftype (a_mode a)).
Lemma twalk_walk d names x ty : Inv d -> twalk d names x ty -> walk d 1 names x.
Proof.
  intros Hi. induction 1 as [|names p n c a _ IH Hk]; [reflexivity|]. apply walk_app. exists p. split; [exact IH|]. cbn [walk]. exists c. split; [|reflexivity].
  exact (proj1 (proj2 (knows_kn _ _ _ _ _ Hi (kn_u64 _ _ _ _ _ Hi Hk)) Hk)).
Qed.
Lemma twalk_here d names x ty : Inv d -> twalk d names x ty -> d_inodes d !! x <> None.
Proof.
  intros Hi [|names' p n c a _ (e & i & _ & _ & Hx & _)]; [|congruence]. destruct (inv_root _ Hi) as (i & Hr & _). change ROOT_INO with 1. congruence.
Qed.
Lemma denies_more s q names n ty : denies_path s q names S_IFDIR -> denies_path s q (names ++ [n]) ty.
Proof.
  intros (pre & m & post & -> & Hd). exists pre, m, (post ++ [n]). split; [rewrite <- app_assoc; reflexivity|]. destruct post; exact Hd.
Qed.
Lemma twalk_step W s k h q s' o names x ty : hist W s k h -> klegal k s q -> enough W s q -> fstep s q = Done (s', o) -> Inv (s_db s') ->
  twalk (s_db s) names x ty -> twalk (s_db s') names x ty \/ denies_path s q names ty.
Proof.
  intros Hh Hl Hen E Hi'. destruct (hist_inv _ _ _ _ Hh) as (HF & HA & HW). pose proof (dr_inv _ _ _ (fi_dr _ _ _ HF)) as Hi.
  induction 1 as [|names p n c a Hp IH Hk]; [left; constructor|]. destruct IH as [IH|IH]; [|right; apply denies_more; exact IH].
  destruct (entry_kept W s k h q s' o p n c a names Hh Hl Hen E Hi' Hk (asked_walk _ _ _ Hi (twalk_walk _ _ _ _ Hi Hp)) (twalk_here _ _ _ _ Hi' IH)) as [(a' & Hk' & Ht)|Hd].
  - left. rewrite <- Ht. econstructor; eassumption.
  - right. exists names, n, []. auto.
Qed.
Lemma hist_Inv W s k h : hist W s k h -> Inv (s_db s).
Proof. intros H. destruct (hist_inv _ _ _ _ H) as (HF & _). exact (dr_inv _ _ _ (fi_dr _ _ _ HF)). Qed.

(** the only path an inode can have *)
Definition only_path (d : db) (x : Z) (names : list bytes) : Prop := below d x /\ forall comps, walk d 1 comps x -> comps = names.
Lemma only_kept d d' x names : pathkeeps d d' -> only_path d x names -> only_path d' x names.
Proof. intros [Hn Hp] [Hb Hw]. split; [eapply below_le; eassumption|]. intros comps Hc. apply Hw, Hp; assumption. Qed.
Lemma only_root d : Inv d -> only_path d ROOT_INO [].
Proof.
  intros Hi. split; [|intros comps Hc; eapply walk_unique; [exact Hi|exact Hc|reflexivity]]. destruct (inv_root _ Hi) as (i & Hr & _). eapply has_below; eassumption.
Qed.
Lemma only_child d p n c a names : Inv d -> only_path d p names -> kn d p n c a -> only_path d c (names ++ [n]).
Proof.
  intros Hi [_ Hp] Hk. split; [destruct Hk as (e & i & _ & _ & Hx & _); eapply has_below; eassumption|]. intros comps Hc.
  destruct (kn_treei _ _ _ _ _ Hi Hk) as (e & i & He & Hn & _). pose proof (treei_facts _ _ _ _ Hi He) as Hf.
  destruct (walk_last _ _ _ Hi Hc) as [[-> Hr]|(c0 & n' & p' & e' & -> & Hw & He' & Hn')].
  - destruct Hf as (_ & _ & _ & ? & _). contradiction.
  - destruct (treei_facts _ _ _ _ Hi He') as (Hf' & _). destruct Hf as (Hf & _). assert (p' = p) by congruence. subst p'. assert (e' = e) by congruence. subst e'. rewrite (Hp _ Hw). congruence.
Qed.
(** what a lookup or a readdirplus announced *)
Lemma lookup_announced W s k h s1 b p n c a : hist W s k (h ++ [Ev s1 (QLookup b p n) [REntry c a]]) -> kn (s_db s) p n c a.
Proof.
  intros H1. apply hist_last in H1 as (W0 & k0' & s' & o & sent & H0 & [Hk Hb] & Hen0 & E & Es & Ee & -> & -> & ->). cbn [ev_s ev_q] in *. injection Ee as <-.
  destruct (hist_inv _ _ _ _ H0) as (HF0 & HA0 & HW0). unfold enough in Hen0. cbn [weight fstep] in *. destruct (h_lookup_total W0 s1 k0' b p n HF0 Hk ltac:(lia)) as (s2' & l & E2 & Hc). rewrite E2 in E. injection E as <- <-.
  pose proof (kdir_is_dir _ _ _ _ HF0 Hk) as Hdir. assert (Hup : u64 p) by (destruct Hdir as (i & Hix & _); apply (inode_range _ _ _ (dr_inv _ _ _ (fi_dr _ _ _ HF0)) Hix)).
  destruct (lookup_way W0 s1 k0' b p n _ _ HF0 Hk ltac:(lia) Hc) as [[-> [? ->]]|[(t & e & -> & -> & _)|(t & c' & a' & -> & -> & Hw & Hg & Hlk & _)]]; cbn [sent_of] in Es; rewrite answer_one in Es; [discriminate|discriminate|]. injection Es as <- <-.
  cbn [s_db after set_dbr]. apply knows_kn; [exact (tinv_db _ (way_tinv _ _ _ _ Hw))|exact Hup|split; assumption].
Qed.
Lemma scan_attr d dir cur l e : scan d dir cur l e -> Forall (fun b => getattr d (be_ino b) = Ok (be_attr b)) (map to_bent l).
Proof. induction 1; cbn [map]; constructor; auto. Qed.
Lemma plus_announced W s k h id size off snap dir s' buf y : hist W s k h -> enough W s (QPlusRun id size off) -> s_plus s !! id = Some (snap, dir) ->
  h_plus s id size off = Done (s', [RBuf buf]) -> y ∈ kernel_reads_plus buf -> ~ special (ke_name (kp_ent y)) ->
  exists a, kn snap dir (ke_name (kp_ent y)) (kp_node y) a /\ kp_mode y = a_mode a.
Proof.
  intros H Hen Hid E Hy Hsp. destruct (hist_inv _ _ _ _ H) as (HF & HA & HW). unfold enough in Hen. assert (H63 : 2 ^ 63 < 2 ^ 64) by lia. destruct (fi_snap _ _ _ HF _ _ _ Hid) as [His _].
  destruct (h_plus_total W s k id size off snap dir HF Hid ltac:(lia)) as (l & e & pre & post & rep & Hsc & Hfit & E2 & _ & _ & Hrep). rewrite E2 in E. injection E as _ ->.
  destruct Hrep as [[Eb _]|(Eb & _)]; [|discriminate]. injection Eb as ->. cbn [weight] in Hen.
  assert (Hb : Forall bent_ok (filter (kept (s_refs s)) (map to_bent l))) by (eapply (plus_bents W s k); [exact HF|exact HA|lia|exact Hid|exact Hsc]).
  rewrite (reads_plus pre) in Hy by (eapply fits_sub; eassumption). apply elem_of_list_fmap in Hy as (be & -> & Hin). 
  assert (Hin' : be ∈ map to_bent l). { destruct Hfit as (Hf & _). assert (be ∈ filter (kept (s_refs s)) (map to_bent l)) as Hx by (rewrite Hf; apply elem_of_app; auto). apply elem_of_list_filter in Hx. tauto. }
  pose proof (scan_child _ _ _ _ _ His Hsc) as Hall. rewrite Forall_forall in Hall. destruct (Hall _ Hin') as [?|(e' & He' & Hn')]; [contradiction|].
  pose proof (scan_attr _ _ _ _ _ Hsc) as Hatt. rewrite Forall_forall in Hatt. specialize (Hatt _ Hin').
  exists (be_attr be). split; [|reflexivity]. cbn [want_plus kp_node kp_ent ke_name]. destruct (treei_facts _ _ _ _ His He') as (_ & _ & _ & _ & _ & _ & Hu & _).
  apply knows_kn; [exact His|exact Hu|]. split; [|exact Hatt]. apply lookup_treei; eauto.
Qed.

(** ** Histories *)
Lemma goes_pathkeeps W s k es W2 s2 k2 : goes W s k es W2 s2 k2 -> forall h, hist W s k h -> pathkeeps (s_db s) (s_db s2).
Proof.
  induction 1 as [W s k|W s k q s' o sent es W2 s2 k2 A1 A2 A3 A4 A5 IH]; intros h Hh; [apply pathkeeps_refl; eapply hist_Inv; exact Hh|].
  assert (H1 : hist (W + weight s q) s' (kstep k q sent) (h ++ [Ev s q sent])) by (econstructor; eassumption).
  eapply pathkeeps_trans; [|eapply IH; exact H1]. eapply step_pathkeeps; try eassumption. eapply hist_Inv; exact H1.
Qed.
Lemma goes_twalk W s k es W2 s2 k2 names x ty : goes W s k es W2 s2 k2 -> forall h, hist W s k h -> twalk (s_db s) names x ty ->
  twalk (s_db s2) names x ty \/ exists e, e ∈ es /\ denies_path (ev_s e) (ev_q e) names ty.
Proof.
  induction 1 as [W s k|W s k q s' o sent es W2 s2 k2 A1 A2 A3 A4 A5 IH]; intros h Hh Hw; [auto|].
  assert (H1 : hist (W + weight s q) s' (kstep k q sent) (h ++ [Ev s q sent])) by (econstructor; eassumption).
  destruct (twalk_step W s k h q s' o names x ty Hh A1 A2 A3 (hist_Inv _ _ _ _ H1) Hw) as [Hw'|Hd]; [|right; exists (Ev s q sent); split; [left|exact Hd]].
  destruct (IH _ H1 Hw') as [?|(e & He & Hd)]; [auto|right; exists e; split; [right; exact He|exact Hd]].
Qed.
(** the snapshot a readdirplus reply was made from *)
Lemma plus_begun W s k h s0 id dir sent0 mid s1 size off buf : hist W s k (h ++ Ev s0 (QPlusBegin id dir) sent0 :: mid ++ [Ev s1 (QPlusRun id size off) [RBuf buf]]) ->
  (forall e z, e ∈ mid -> ev_q e <> QPlusBegin id z) ->
  exists W0 k0 W1 k1 h1 sx, hist W0 s0 k0 h /\ goes W0 s0 k0 (Ev s0 (QPlusBegin id dir) sent0 :: mid ++ [Ev s1 (QPlusRun id size off) [RBuf buf]]) W s k /\
    hist W1 s1 k1 h1 /\ enough W1 s1 (QPlusRun id size off) /\ s_plus s1 !! id = Some (s_db s0, dir) /\ h_plus s1 id size off = Done (sx, [RBuf buf]).
Proof.
  intros H Hmid. destruct (hist_split _ _ _ _ _ H) as (W0 & sA & k0 & H0 & HG). pose proof HG as HG'.
  inversion HG as [|? ? ? q s' o sent es ? ? ? A1 A2 A3 A4 A5]; subst. cbn [fstep] in A3. injection A3 as <- <-.
  destruct (goes_app _ _ _ _ _ _ _ _ A5) as (W1 & sB & k1 & G1 & G2). inversion G2 as [|? ? ? q' s'' o' sent' es' ? ? ? B1 B2 B3 B4 B5]; subst.
  assert (H1 : hist (W0 + weight s0 (QPlusBegin id dir)) (Fst (s_db s0) (s_refs s0) (<[id:=(s_db s0, dir)]> (s_plus s0))) (kstep k0 (QPlusBegin id dir) sent0) (h ++ [Ev s0 (QPlusBegin id dir) sent0])) by (econstructor; try eassumption; reflexivity).
  exists W0, k0, W1, k1. eexists. cbn [fstep] in B3. destruct (h_plus s1 id size off) as [[sx l]| | |] eqn:Eh; try discriminate B3. cbn [obind] in B3. injection B3 as <- <-.
  exists sx. split; [exact H0|]. split; [exact HG'|]. split; [eapply goes_hist; [exact G1|exact H1]|]. split; [exact B2|].
  destruct (goes_snap _ _ _ _ _ _ _ id G1 Hmid _ (Some (s_db s0, dir)) H1 ltac:(cbn [s_plus]; apply lookup_insert)) as [Es|Es].
  - split; [exact Es|]. assert (HB : hist W1 s1 k1 ((h ++ [Ev s0 (QPlusBegin id dir) sent0]) ++ mid)) by (eapply goes_hist; [exact G1|exact H1]). destruct (hist_inv _ _ _ _ HB) as (HFB & _). unfold enough in B2.
    destruct (h_plus_total W1 s1 k1 id size off _ _ HFB Es ltac:(lia)) as (l' & e & pre & post & rep & _ & _ & E2 & _). rewrite E2 in Eh. injection Eh as _ <-. cbn [sent_of] in B4. rewrite answer_one in B4. injection B4 as ->. reflexivity.
  - cbn [klegal] in B1. contradiction.
Qed.
(** An inode has the path it is known by, and no other. *)
Lemma known_only h x names ty : known_as h x names ty -> forall W s k, hist W s k h -> only_path (s_db s) x names.
Proof.
  induction 1 as [|h e x names ty Hk IH|h s0 b p n c a names Hk IH|h s0 id dir sent0 mid s1 size off buf y names Hk IH Hmid Hy Hsp]; intros W s k H.
  - apply only_root. eapply hist_Inv; exact H.
  - pose proof (hist_Inv _ _ _ _ H) as Hi. apply hist_last in H as (W0 & k0' & s' & o & sent & H0 & Hl & Hen & E & Es & _ & _ & -> & _). eapply only_kept; [|eapply IH; exact H0]. eapply step_pathkeeps; eassumption.
  - pose proof (hist_Inv _ _ _ _ H) as Hi. eapply only_child; [exact Hi| |eapply lookup_announced; exact H]. apply hist_last in H as (W0 & k0' & s' & o & sent & H0 & Hl & Hen & E & Es & _ & _ & -> & _). eapply only_kept; [|eapply IH; exact H0]. eapply step_pathkeeps; eassumption.
  - destruct (plus_begun _ _ _ _ _ _ _ _ _ _ _ _ _ H Hmid) as (W0 & k0' & W1 & k1 & h1 & sx & H0 & HG & H1 & Hen & Hid & Eh). destruct (plus_announced _ _ _ _ _ _ _ _ _ _ _ _ H1 Hen Hid Eh Hy Hsp) as (a & Ha & _).
    eapply only_kept; [eapply goes_pathkeeps; [exact HG|exact H0]|]. eapply only_child; [eapply hist_Inv; exact H0|eapply IH; exact H0|exact Ha].
Qed.
(** It has that path as long as the backend did not deny it. *)
Lemma known_or_denied h x names ty : known_as h x names ty -> forall W s k, hist W s k h ->
  twalk (s_db s) names x ty \/ exists e, e ∈ h /\ denies_path (ev_s e) (ev_q e) names ty.
Proof.
  induction 1 as [|h e x names ty Hk IH|h s0 b p n c a names Hk IH|h s0 id dir sent0 mid s1 size off buf y names Hk IH Hmid Hy Hsp]; intros W s k H.
  - left. constructor.
  - pose proof (hist_Inv _ _ _ _ H) as Hi. apply hist_last in H as (W0 & k0' & s' & o & sent & H0 & Hl & Hen & E & Es & _ & _ & -> & _). destruct (IH _ _ _ H0) as [Hw|(e' & He & Hd)]; [|right; exists e'; split; [apply elem_of_app; auto|exact Hd]].
    destruct (twalk_step _ _ _ _ _ _ _ _ _ _ H0 Hl Hen E Hi Hw) as [?|Hd]; [auto|]. right. exists e. split; [apply elem_of_app; right; apply elem_of_list_here|exact Hd].
  - pose proof (hist_Inv _ _ _ _ H) as Hi. pose proof (lookup_announced _ _ _ _ _ _ _ _ _ _ H) as Ha. apply hist_last in H as (W0 & k0' & s' & o & sent & H0 & Hl & Hen & E & Es & _ & _ & -> & _). destruct (IH _ _ _ H0) as [Hw|(e' & He & Hd)]; [|right; exists e'; split; [apply elem_of_app; auto|apply denies_more, Hd]].
    destruct (twalk_step _ _ _ _ _ _ _ _ _ _ H0 Hl Hen E Hi Hw) as [Hw'|Hd]; [left; econstructor; eassumption|]. right. eexists. split; [apply elem_of_app; right; apply elem_of_list_here|apply denies_more, Hd].
  - destruct (plus_begun _ _ _ _ _ _ _ _ _ _ _ _ _ H Hmid) as (W0 & k0' & W1 & k1 & h1 & sx & H0 & HG & H1 & Hen & Hid & Eh). destruct (plus_announced _ _ _ _ _ _ _ _ _ _ _ _ H1 Hen Hid Eh Hy Hsp) as (a & Ha & Hm). rewrite Hm.
    destruct (IH _ _ _ H0) as [Hw|(e' & He & Hd)]; [|right; exists e'; split; [apply elem_of_app; auto|apply denies_more, Hd]].
    assert (Hw2 : twalk (s_db s0) (names ++ [ke_name (kp_ent y)]) (kp_node y) (ftype (a_mode a))) by (econstructor; eassumption).
    destruct (goes_twalk _ _ _ _ _ _ _ _ _ _ HG _ H0 Hw2) as [?|(e' & He & Hd)]; [auto|right; exists e'; split; [apply elem_of_app; auto|exact Hd]].
Qed.
