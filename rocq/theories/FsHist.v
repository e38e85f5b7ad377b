(** How histories change what is known. *)
From Verif Require Export FsNews.

Lemma asked_walk s x comps : Inv (s_db s) -> walk (s_db s) 1 comps x -> asked s x = Some (spell comps).
Proof.
  intros H Hw. unfold asked. destruct (path_spec (s_db s) x H) as [(c' & Hw' & ->)|[Hno _]]; [|destruct (Hno _ Hw)].
  rewrite (walk_unique _ _ _ _ H Hw Hw'). reflexivity.
Qed.
Lemma asked_none s x : Inv (s_db s) -> (forall comps, ~ walk (s_db s) 1 comps x) -> asked s x = None.
Proof. intros H Hw. unfold asked. destruct (path_spec (s_db s) x H) as [(c' & Hw' & ->)|[Hno ->]]; [destruct (Hw _ Hw')|reflexivity]. Qed.
Lemma asked_some s x pp : Inv (s_db s) -> asked s x = Some pp -> exists comps, walk (s_db s) 1 comps x /\ pp = spell comps.
Proof. intros H. unfold asked. destruct (path_spec (s_db s) x H) as [(c' & Hw' & ->)|[Hno ->]]; [|discriminate]. intros E. injection E as <-. eauto. Qed.
Lemma asked_not_lost s x pp : Inv (s_db s) -> asked s x = Some pp -> ~ lost (s_db s) x.
Proof.
  intros H E [Hn _]. apply asked_some in E as (comps & Hw & _); [|assumption]. destruct (walk_last _ _ _ H Hw) as [[-> _]|(c & n & p & e & _ & _ & He & _)].
  - destruct (inv_root _ H) as (i & Hi & _). congruence.
  - destruct (inv_treei _ H _ _ _ He) as (_ & _ & _ & _ & (i & Hi & _) & _). congruence.
Qed.

(** the effect of a request on the entry [n] of [p] *)
Record know_step (d d' : db) (p : Z) (n : bytes) (r : report) : Prop := {
  ks_lost : lost d p -> lost d' p;
  ks_entry : match r with
    | Silent => (forall c a, kol p n c a d -> kol p n c a d') /\ (forall c a, kn d' p n c a -> kn d p n c a)
    | Gone => forall c a, ~ kn d' p n c a
    | Now a => exists c, kn d' p n c a
    end }.
Lemma know_same d p n : know_step d d p n Silent.
Proof. split; [auto|]. split; auto. Qed.

Lemma lookup_know W s k b p' n' s' l p n : FInv W s k -> kdir k p' -> W + 5 < 2 ^ 64 -> lookup_case s b p' n' s' l -> valid_name n ->
  know_step (s_db s) (s_db s') p n (news s (QLookup b p' n') p n).
Proof.
  intros HF Hk HW Hc Hv. pose proof (fi_dr _ _ _ HF) as Hdr. pose proof (dr_inv _ _ _ Hdr) as H. pose proof (kdir_is_dir _ _ _ _ HF Hk) as Hdir.
  assert (HT : TInv (begun s)) by (eapply way_tinv; apply way_begin; exact Hdr).
  assert (Hroom : room (t_db (begun s))) by (eapply way_room; [apply way_begin; exact Hdr|lia]).
  cbn [news]. destruct Hc as [Hw|comps st e Hw El Hcn|comps st c t1 t2 Hw El Ee Elk|comps c a t2 Hw El Hl Hg Elk|comps Hw El Hl Hs|comps Hw El Hl Hs|comps e Hw El Hl He|comps e x t1 Hw El He Eu].
  - destruct (decide (p' = p /\ n' = n)) as [[-> ->]|_]; [rewrite asked_none by assumption|]; apply know_same.
  - destruct (decide (p' = p /\ n' = n)) as [[-> ->]|_]; [|apply know_same]. unfold valid_name in Hv. congruence.
  - assert (Hr2 : t_db t2 = t_db t1). { eapply lock_refcount; [|..|exact Elk]. 1: { destruct (way_emplace _ _ _ _ _ _ _ _ _ (way_begin _ _ _ Hdr) Hdir ltac:(lia) Ee) as [Hw1 _]. exact (wy_dr _ _ _ _ Hw1). } lia. }
    cbn [s_db after set_dbr]. rewrite Hr2.
    assert (Es : exists r, step (begun s) (OEmplace p' n' (from_backend_stat st)) = Done (r, t1)) by (cbn [step]; unfold drop_val; rewrite Ee; eexists; reflexivity). destruct Es as [r Es].
    assert (Hlost : lost (s_db s) p -> lost (t_db t1) p) by (apply (step_lost (begun s) (OEmplace p' n' (from_backend_stat st)) r t1 p HT (conj Hdir Hroom) Es)).
    destruct (decide (p' = p /\ n' = n)) as [[-> ->]|Hne].
    + rewrite (asked_walk _ _ _ H Hw), El. split; [exact Hlost|]. exists c.
      destruct (lookup_way W s k b p n _ _ HF Hk HW (lc_online s b p n comps st c t1 t2 Hw El Ee Elk)) as [[E ?]|[(t & e & _ & E & _)|(t & c' & a' & E1 & E & Hway & Hg & Hl & _)]]; [destruct H0; discriminate|discriminate|].
      injection E as <- <-. assert (t_db t = t_db t1). { apply (f_equal s_db) in E1. cbn in E1. congruence. } rewrite <- H0. apply knows_kn; [exact (tinv_db _ (way_tinv _ _ _ _ Hway))| |split; assumption].
      destruct Hdir as (i & Hi & _). apply (inode_range _ _ _ H Hi).
    + assert (Hpn : (p, n) <> (p', n')) by (intros E; injection E as -> ->; auto). split; [exact Hlost|]. split.
      * intros c' a. apply (emplace_kol _ _ _ _ _ _ _ _ _ _ HT Hdir Hroom Ee Hpn).
      * intros c' a Hk'. destruct (emplace_kn_rev _ _ _ _ _ _ _ _ _ _ HT Hdir Hroom Ee Hk') as [[_ ?]|(-> & -> & _)]; [assumption|]. contradiction.
  - assert (Hr2 : t_db t2 = s_db s) by (apply (lock_refcount (begun s) c t2 W Hdr ltac:(lia) Elk)). cbn [s_db after set_dbr]. rewrite Hr2.
    destruct (decide (p' = p /\ n' = n)) as [[-> ->]|_]; [rewrite (asked_walk _ _ _ H Hw), El; cbn|]; apply know_same.
  - destruct (decide (p' = p /\ n' = n)) as [[-> ->]|_]; [rewrite (asked_walk _ _ _ H Hw), El; cbn|]; apply know_same.
  - destruct (decide (p' = p /\ n' = n)) as [[-> ->]|_]; [rewrite (asked_walk _ _ _ H Hw), El; cbn|]; apply know_same.
  - destruct (decide (p' = p /\ n' = n)) as [[-> ->]|_]; [rewrite (asked_walk _ _ _ H Hw), El; cbn|]; apply know_same.
  - assert (Es : exists r, step (begun s) (OUnlinkName p' n') = Done (r, t1)) by (cbn [step]; rewrite Eu; eexists; reflexivity). destruct Es as [r Es].
    cbn [s_db after set_dbr]. destruct (decide (p' = p /\ n' = n)) as [[-> ->]|Hne].
    + rewrite (asked_walk _ _ _ H Hw), El. apply Z.eqb_neq in He. rewrite He. split; [apply (step_lost (begun s) (OUnlinkName p n) r t1 p HT I Es)|].
      intros c a Hk'. destruct (proj2 (unlink_name_kn _ _ _ _ _ _ _ _ _ HT Eu) Hk') as [_ Hne]. congruence.
    + assert (Hpn : (p, n) <> (p', n')) by (intros E; injection E as -> ->; auto). split; [apply (step_lost (begun s) (OUnlinkName p' n') r t1 p HT I Es)|]. split.
      * intros c a [Hk'|Hk']; [|right; apply (step_lost (begun s) (OUnlinkName p' n') r t1 p HT I Es Hk')]. apply (kn_or_lost (begun s) (OUnlinkName p' n') r t1 p n c a HT I Es Hk'). apply (proj1 (unlink_name_kn _ _ _ _ _ _ _ _ _ HT Eu) Hpn Hk').
      * intros c a Hk'. apply (proj2 (unlink_name_kn _ _ _ _ _ _ _ _ _ HT Eu) Hk').
Qed.

Lemma readlink_know W s k b x s' l p n : FInv W s k -> W + 3 < 2 ^ 64 -> readlink_case s b x s' l -> valid_name n -> u64 p ->
  know_step (s_db s) (s_db s') p n (news s (QReadlink b x) p n).
Proof.
  intros HF HW Hc Hv Hp. pose proof (fi_dr _ _ _ HF) as Hdr. pose proof (dr_inv _ _ _ Hdr) as H.
  assert (HT : TInv (begun s)) by (eapply way_tinv; apply way_begin; exact Hdr).
  assert (Hsame : asked s x = None \/ (exists comps, walk (s_db s) 1 comps x /\ b_readlink b (backend_path (spell comps)) = Err ENOTCONN) -> know_step (s_db s) (s_db s) p n (news s (QReadlink b x) p n)).
  { intros Hn. cbn [news]. destruct (lookup (s_db s) p n) as [c'|]; [|apply know_same]. destruct (c' =? x); [|apply know_same].
    destruct Hn as [->|(comps & Hw & El)]; [apply know_same|]. rewrite (asked_walk _ _ _ H Hw), El. apply know_same. }
  destruct Hc as [Hw|comps link r t1 Hw El Ewl|comps link Hw El Hrl|comps e Hw El Hrl|comps e r t1 Hw El He Eu].
  - apply Hsame. left. apply asked_none; assumption.
  - cbn [s_db after set_dbr]. assert (Es : exists r, step (begun s) (OWritelink x link) = Done (r, t1)) by (cbn [step]; rewrite Ewl; eexists; reflexivity). destruct Es as [r' Es].
    assert (Hlost : lost (s_db s) p -> lost (t_db t1) p) by (apply (step_lost (begun s) (OWritelink x link) r' t1 p HT I Es)).
    destruct (lookup (s_db s) p n) as [c'|] eqn:Elk; cbn [news]; rewrite Elk.
    + destruct (Z.eqb_spec c' x) as [->|Hne].
      * rewrite (asked_walk _ _ _ H Hw), El. unfold writelink in Ewl. unfold getattr. change (t_db (begun s)) with (s_db s) in Ewl. destruct (d_inodes (s_db s) !! x) as [i|] eqn:Ei; [|injection Ewl as _ <-; apply know_same].
        destruct (ftype (a_mode (i_attr i)) =? S_IFLNK) eqn:Ety; cbn [negb] in Ewl; injection Ewl as _ <-; [|apply know_same].
        split; [exact Hlost|]. assert (Hk : kn (s_db s) p n x (i_attr i)) by (apply knows_kn; [assumption..|]; split; [assumption|]; unfold getattr; rewrite Ei; reflexivity).
        destruct Hk as (e & j & He & Hex & Hj & _). exists x, e. eexists. cbn [t_db with_db d_treen d_inodes set_links set_inodes]. rewrite lookup_insert. split; [exact He|]. split; [exact Hex|]. split; reflexivity.
      * split; [exact Hlost|]. split.
        -- intros c a [Hk|Hk]; [left|right; auto]. apply (proj1 (writelink_kn _ _ _ _ _ _ _ _ _ Ewl)); [|exact Hk]. apply knows_kn in Hk as [Hk _]; [|assumption..]. congruence.
        -- intros c a Hk. destruct (proj2 (writelink_kn _ _ _ _ _ _ _ _ _ Ewl) Hk) as [?|(-> & a0 & Hk0 & _)]; [assumption|]. apply knows_kn in Hk0 as [Hk0 _]; [|assumption..]. change (t_db (begun s)) with (s_db s) in Hk0. congruence.
    + split; [exact Hlost|]. split.
      * intros c a [Hk|Hk]; [|right; auto]. apply knows_kn in Hk as [Hk _]; [|assumption..]. congruence.
      * intros c a Hk. assert (Hk0 : exists a0, kn (s_db s) p n c a0) by (destruct (proj2 (writelink_kn _ _ _ _ _ _ _ _ _ Ewl) Hk) as [?|(-> & a0 & Hk0 & _)]; eauto). destruct Hk0 as [a0 Hk0]. apply knows_kn in Hk0 as [Hk0 _]; [|assumption..]. congruence.
  - apply Hsame. right. eauto.
  - apply Hsame. right. eauto.
  - cbn [s_db after set_dbr]. assert (Es : exists r, step (begun s) (OUnlinkIno x) = Done (r, t1)) by (cbn [step]; rewrite Eu; eexists; reflexivity). destruct Es as [r' Es].
    assert (Hlost : lost (s_db s) p -> lost (t_db t1) p) by (apply (step_lost (begun s) (OUnlinkIno x) r' t1 p HT I Es)).
    assert (Hother : (forall c a, kn (s_db s) p n c a -> c <> x) -> know_step (s_db s) (t_db t1) p n Silent).
    { intros Hne. split; [exact Hlost|]. split.
      - intros c a [Hk|Hk]; [|right; auto]. apply (kn_or_lost (begun s) (OUnlinkIno x) r' t1 p n c a HT I Es Hk). apply (proj1 (unlink_ino_kn _ _ _ _ _ _ _ _ HT Eu)); [eapply Hne; exact Hk|exact Hk].
      - intros c a Hk. apply (proj2 (unlink_ino_kn _ _ _ _ _ _ _ _ HT Eu) Hk). }
    destruct (lookup (s_db s) p n) as [c'|] eqn:Elk; cbn [news]; rewrite Elk.
    + destruct (Z.eqb_spec c' x) as [->|Hne].
      * rewrite (asked_walk _ _ _ H Hw), El. apply Z.eqb_neq in He. rewrite He. split; [exact Hlost|]. intros c a Hk. destruct (proj2 (unlink_ino_kn _ _ _ _ _ _ _ _ HT Eu) Hk) as [Hk0 Hne]. apply knows_kn in Hk0 as [Hk0 _]; [|assumption..]. change (t_db (begun s)) with (s_db s) in Hk0. congruence.
      * apply Hother. intros c a Hk. apply knows_kn in Hk as [Hk _]; [|assumption..]. congruence.
    + apply Hother. intros c a Hk. apply knows_kn in Hk as [Hk _]; [|assumption..]. congruence.
Qed.

Lemma opendir_know W s k b x s' l p n : FInv W s k -> kdir k x -> opendir_case s b x s' l -> valid_name n ->
  know_step (s_db s) (s_db s') p n (news s (QOpendir b x) p n).
Proof.
  intros HF Hk Hc Hv. pose proof (fi_dr _ _ _ HF) as Hdr. pose proof (dr_inv _ _ _ Hdr) as H. pose proof (kdir_is_dir _ _ _ _ HF Hk) as Hdir.
  cbn [news]. destruct Hc as [Hw|comps e Hw El He|comps Hw El|comps names e0 t1 t2 m t3 r t4 Hw El E1 HSW E2 HS2 Hm Hm' E3 E4].
  - destruct (Z.eqb_spec x p) as [->|_]; [rewrite asked_none by assumption|]; apply know_same.
  - destruct (Z.eqb_spec x p) as [->|_]; [rewrite (asked_walk _ _ _ H Hw), El|]; apply know_same.
  - destruct (Z.eqb_spec x p) as [->|_]; [rewrite (asked_walk _ _ _ H Hw), El|]; apply know_same.
  - destruct (sync_facts_ok s b x comps names t1 t2 m t3 r t4 Hdir E1 HSW E2 HS2 Hm Hm' E3 E4) as [Hkeep Hold Hhere Hlost _ _]. cbn [s_db after set_dbr].
    destruct (Z.eqb_spec x p) as [->|Hne].
    + rewrite (asked_walk _ _ _ H Hw), El. destruct (last_stat _ _ _ _ _ _) as [a|] eqn:Els.
      * split; [apply Hlost|]. apply Hhere. auto.
      * split; [apply Hlost|]. intros c a Hk'. assert (He : exists c, kn (t_db t4) p n c a) by eauto. apply Hhere in He as [_ He]. congruence.
    + split; [apply Hlost|]. split; [intros c a; apply Hkeep; auto|intros c a; apply Hold; auto].
Qed.

Lemma restart_know d r d' p n root : Inv d -> open_cache root d = Done (d', r) -> know_step d d' p n Silent.
Proof.
  intros H E. destruct (open_cache_spec root d ltac:(rewrite init_db_id by assumption; assumption)) as (R & HR & E' & _). rewrite E' in E. injection E as <- <-. rewrite init_db_id in HR by assumption. rewrite init_db_id by assumption.
  assert (Hl : lost d p -> lost (cleaned R d) p).
  { intros [Hn (k & Hk & Hlt)]. split; [|exists k; split; [exact Hk|exact Hlt]]. destruct (d_inodes (cleaned R d) !! p) eqn:Ep; [|reflexivity]. apply cleaned_inodes in Ep as [_ (j & Ep & _)]. congruence. }
  split; [exact Hl|]. split.
  - intros c a [Hk|Hk]; [|right; auto]. destruct (cleaned_kn R d ∅ p n c a H HR Hk) as [?|Hn]; [left; assumption|]. right. split; [assumption|].
    destruct (inv_next _ H) as (k & Hk' & _ & Hlt). exists k. split; [exact Hk'|]. destruct (kn_treei _ _ _ _ _ H Hk) as (e & i & He & _). destruct (inv_treei _ H _ _ _ He) as (_ & _ & _ & (j & Hj & _) & _). apply (Hlt _ _ Hj).
  - intros c a. apply cleaned_kn_rev.
Qed.

Lemma news_step W s k q s' o p n : FInv W s k -> AInv s -> klegal k s q -> enough W s q -> fstep s q = Done (s', o) -> valid_name n -> u64 p ->
  know_step (s_db s) (s_db s') p n (news s q p n).
Proof.
  intros HF HA Hl HW E Hv Hp. unfold enough in HW. assert (H63 : 2 ^ 63 < 2 ^ 64) by lia. pose proof (dr_inv _ _ _ (fi_dr _ _ _ HF)) as Hi.
  assert (HW0 : 0 <= weight s q). { destruct q; cbn [weight]; try lia. destruct (path _ _) as [[?|?]| | |]; try lia. destruct (b_opendir _ _) as [[? ?]|]; lia. }
  destruct q as [b p' n'|x m|fs|x|b x|b x|x size off|x|id x|id size off|tag|root]; cbn [fstep klegal] in *.
  - destruct Hl as [Hk Hb]. cbn [weight] in HW. destruct (h_lookup_total W s k b p' n' HF Hk ltac:(lia)) as (s2 & l & E2 & Hc). rewrite E2 in E. injection E as <- <-. eapply lookup_know; try eassumption. lia.
  - destruct (h_forget_spec W s k x m HF ltac:(lia) Hl) as (t & E2 & _ & Hd & _). rewrite E2 in E. injection E as <- <-. cbn [s_db after set_dbr news]. rewrite Hd. apply know_same.
  - destruct Hl as [Hl1 Hl2]. destruct (h_forget_multi_spec W s k fs HF ltac:(lia) Hl1 Hl2) as (t & E2 & _ & Hd & _). rewrite E2 in E. injection E as <- <-. cbn [s_db after set_dbr news]. rewrite Hd. apply know_same.
  - unfold h_getattr in E. destruct (getattr (s_db s) x); injection E as <- <-; apply know_same.
  - destruct (h_readlink_total W s k b x HF) as (s2 & l & E2 & Hc). rewrite E2 in E. injection E as <- <-. eapply readlink_know; try eassumption. lia.
  - destruct Hl as [Hk Hb]. destruct (h_opendir_total W s k b x HF Hk ltac:(lia)) as (s2 & l & E2 & Hc & _). rewrite E2 in E. injection E as <- <-. eapply opendir_know; eassumption.
  - destruct (h_readdir_total s x size off Hi) as (l & E2 & _). rewrite E2 in E. injection E as <- <-. apply know_same.
  - injection E as <- <-. apply know_same.
  - injection E as <- <-. apply know_same.
  - destruct (s_plus s !! id) as [[snap dir]|] eqn:Hid; [|contradiction]. destruct (h_plus_total W s k id size off snap dir HF Hid ltac:(lia)) as (l & e & pre & post & rep & _ & _ & E2 & _). rewrite E2 in E. injection E as <- <-. apply know_same.
  - injection E as <- <-. apply know_same.
  - destruct (open_cache root (s_db s)) as [[d r]| | |] eqn:Eo; try discriminate. cbn [obind] in E. injection E as <- <-. cbn [s_db]. eapply restart_know; eassumption.
Qed.

(** ** the SYNCED flag *)
Lemma unlink_ino_flag t y x t1 z : TInv t -> unlink_ino t y = Done (x, t1) -> test_flag (t_db t1) z SYNCED = Ok true -> test_flag (t_db t) z SYNCED = Ok true.
Proof.
  intros HT E. pose proof (tinv_db _ HT) as H. pose proof (make_orphan_flag (t_db t) y z SYNCED H) as HM. pose proof (make_orphan_inv (t_db t) y H) as Hi1.
  unfold unlink_ino in E. destruct (make_orphan (t_db t) y) as [[u|e] d1]; cbn [snd] in *.
  - destruct (tx_clean_spec (with_db d1 t)) as (R & HR & Ec & _); [destruct HT; split; assumption|]. rewrite Ec in E. cbn in E. injection E as _ <-. cbn [t_db t_refs with_db] in *. rewrite cleaned_test_flag. destruct (decide _); [discriminate|]. rewrite HM. auto.
  - injection E as _ <-. cbn [t_db with_db]. rewrite HM. auto.
Qed.
Lemma unlink_name_flag t p n x t1 z : TInv t -> unlink_name t p n = Done (x, t1) -> test_flag (t_db t1) z SYNCED = Ok true -> test_flag (t_db t) z SYNCED = Ok true.
Proof. intros HT E. unfold unlink_name in E. destruct (d_treen (t_db t) !! (p, n)) as [e|]; [eapply unlink_ino_flag; eassumption|]. injection E as _ <-. auto. Qed.
Lemma writelink_flag t y b x t1 z f : writelink t y b = Done (x, t1) -> test_flag (t_db t1) z f = test_flag (t_db t) z f.
Proof.
  intros E. unfold writelink in E. destruct (d_inodes (t_db t) !! y) as [j|] eqn:Ej; [|injection E as _ <-; auto]. destruct (negb _); injection E as _ <-; [auto|]. cbn [t_db with_db]. unfold test_flag. cbn [d_inodes set_links set_inodes].
  destruct (decide (y = z)) as [->|Hne]; [rewrite lookup_insert, Ej; reflexivity|rewrite lookup_insert_ne by assumption; reflexivity].
Qed.
Lemma flag_step W s k q s' o x : FInv W s k -> AInv s -> klegal k s q -> enough W s q -> fstep s q = Done (s', o) ->
  test_flag (s_db s') x SYNCED = Ok true -> test_flag (s_db s) x SYNCED = Ok true \/ lists s q x.
Proof.
  intros HF HA Hl HW E. unfold enough in HW. assert (H63 : 2 ^ 63 < 2 ^ 64) by lia. pose proof (fi_dr _ _ _ HF) as Hdr. pose proof (dr_inv _ _ _ Hdr) as Hi.
  assert (HT : TInv (begun s)) by (eapply way_tinv; apply way_begin; exact Hdr).
  assert (HW0 : 0 <= weight s q). { destruct q; cbn [weight]; try lia. destruct (path _ _) as [[?|?]| | |]; try lia. destruct (b_opendir _ _) as [[? ?]|]; lia. }
  assert (Hroom : room (t_db (begun s))) by (eapply way_room; [apply way_begin; exact Hdr|lia]).
  destruct q as [b p n|y m|fs|y|b y|b y|y size off|y|id y|id size off|tag|root]; cbn [fstep klegal] in *.
  - left. destruct Hl as [Hk Hb]. cbn [weight] in HW. pose proof (kdir_is_dir _ _ _ _ HF Hk) as Hdir.
    destruct (h_lookup_total W s k b p n HF Hk ltac:(lia)) as (s2 & l & E2 & Hc). rewrite E2 in E. injection E as <- <-.
    destruct Hc as [Hw|comps st e Hw El Hcn|comps st c t1 t2 Hw El Ee Elk|comps c a t2 Hw El Hl Hg Elk|comps Hw El Hl Hs|comps Hw El Hl Hs|comps e Hw El Hl He|comps e r t1 Hw El He Eu]; try assumption; cbn [s_db after set_dbr] in *.
    + assert (Hr2 : t_db t2 = t_db t1). { eapply lock_refcount; [|..|exact Elk]. 1: { destruct (way_emplace _ _ _ _ _ _ _ _ _ (way_begin _ _ _ Hdr) Hdir ltac:(lia) Ee) as [Hw1 _]. exact (wy_dr _ _ _ _ Hw1). } lia. }
      rewrite Hr2 in H. eapply (emplace_flag _ _ _ _ _ _ _ HT Hdir Hroom Ee). assumption.
    + assert (Hr2 : t_db t2 = s_db s) by (apply (lock_refcount (begun s) c t2 W Hdr ltac:(lia) Elk)). rewrite Hr2 in H. assumption.
    + eapply (unlink_name_flag (begun s)); eassumption.
  - destruct (h_forget_spec W s k y m HF ltac:(lia) Hl) as (t & E2 & _ & Hd & _). rewrite E2 in E. injection E as <- <-. cbn [s_db after set_dbr]. rewrite Hd. auto.
  - destruct Hl as [Hl1 Hl2]. destruct (h_forget_multi_spec W s k fs HF ltac:(lia) Hl1 Hl2) as (t & E2 & _ & Hd & _). rewrite E2 in E. injection E as <- <-. cbn [s_db after set_dbr]. rewrite Hd. auto.
  - unfold h_getattr in E. destruct (getattr (s_db s) y); injection E as <- <-; auto.
  - left. destruct (h_readlink_total W s k b y HF) as (s2 & l & E2 & Hc). rewrite E2 in E. injection E as <- <-.
    destruct Hc as [Hw|comps link r t1 Hw El Ewl|comps link Hw El Hrl|comps e Hw El Hrl|comps e r t1 Hw El He Eu]; try assumption; cbn [s_db after set_dbr] in *.
    + rewrite (writelink_flag _ _ _ _ _ _ _ Ewl) in H. assumption.
    + eapply (unlink_ino_flag (begun s)); eassumption.
  - destruct Hl as [Hk Hb]. pose proof (kdir_is_dir _ _ _ _ HF Hk) as Hdir. destruct (h_opendir_total W s k b y HF Hk ltac:(lia)) as (s2 & l & E2 & Hc & _). rewrite E2 in E. injection E as <- <-.
    destruct Hc as [Hw|comps e Hw El He|comps Hw El|comps names e0 t1 t2 m t3 r t4 Hw El E1 HSW E2' HS2 Hm Hm' E3 E4]; auto.
    destruct (sync_facts_ok s b y comps names t1 t2 m t3 r t4 Hdir E1 HSW E2' HS2 Hm Hm' E3 E4) as [_ _ _ _ Hfl Hfls]. cbn [s_db after set_dbr].
    destruct (decide (x = y)) as [->|Hne]; [|left; auto]. intros _. right. exists b, (spell comps), (names, e0). split; [reflexivity|]. split; [apply asked_walk; assumption|assumption].
  - destruct (h_readdir_total s y size off Hi) as (l & E2 & _). rewrite E2 in E. injection E as <- <-. auto.
  - injection E as <- <-. auto.
  - injection E as <- <-. auto.
  - destruct (s_plus s !! id) as [[snap dir]|] eqn:Hid; [|contradiction]. destruct (h_plus_total W s k id size off snap dir HF Hid ltac:(lia)) as (l & e & pre & post & rep & _ & _ & E2 & _). rewrite E2 in E. injection E as <- <-. auto.
  - injection E as <- <-. auto.
  - destruct (open_cache root (s_db s)) as [[d r]| | |] eqn:Eo; try discriminate. cbn [obind] in E. injection E as <- <-. cbn [s_db].
    destruct (open_cache_spec root (s_db s) ltac:(rewrite init_db_id by assumption; assumption)) as (R & HR & E' & _). rewrite E' in Eo. injection Eo as <- <-. rewrite init_db_id by assumption. rewrite cleaned_test_flag. destruct (decide _); [discriminate|auto].
Qed.

(** ** histories *)
Lemma hist_suffix (P : fstate -> Prop) (Q : event -> Prop) :
  (forall W s k h q s' o sent, hist W s k h -> klegal k s q -> enough W s q -> fstep s q = Done (s', o) -> sent_of o = (sent, false) -> Q (Ev s q sent) -> P s -> P s') ->
  forall h1 h2 W s k, hist W s k (h1 ++ h2) -> Forall Q h2 -> (forall W1 s1 k1, hist W1 s1 k1 h1 -> P s1) -> P s.
Proof.
  intros HP h1 h2. induction h2 as [|e h2 IH] using rev_ind; intros W s k H HQ H1.
  - rewrite app_nil_r in H. eapply H1, H.
  - rewrite app_assoc in H. apply Forall_app in HQ as [HQ He]. inversion H as [? ? ? ? ? E1 E2 E3 E4|W0 s0 k0' h q s' o sent H0 Hl Hen Hst Hsent E1 E2 E3 E4].
    + exfalso. symmetry in E4. apply app_eq_nil in E4 as [_ E4]. discriminate.
    + apply app_inj_tail in E4 as [-> <-]. subst. eapply HP; try eassumption; [inversion He; assumption|]. eapply IH; eassumption.
Qed.
Lemma hist_last W s k h e : hist W s k (h ++ [e]) -> exists W0 k0 s' o sent, hist W0 (ev_s e) k0 h /\ klegal k0 (ev_s e) (ev_q e) /\ enough W0 (ev_s e) (ev_q e) /\
  fstep (ev_s e) (ev_q e) = Done (s', o) /\ sent_of o = (sent, false) /\ e = Ev (ev_s e) (ev_q e) sent /\ W = W0 + weight (ev_s e) (ev_q e) /\ s = s' /\ k = kstep k0 (ev_q e) sent.
Proof.
  intros H. inversion H as [? ? ? ? ? E1 E2 E3 E4|W0 s0 k0' h' q s' o sent H0 Hl Hen Hst Hsent E1 E2 E3 E4].
  - exfalso. symmetry in E4. apply app_eq_nil in E4 as [_ E4]. discriminate.
  - apply app_inj_tail in E4 as [-> <-]. subst. cbn [ev_s ev_q]. exists W0, k0', s, o, sent. repeat split; assumption.
Qed.
Lemma belief_from_app old h1 h2 p n : belief_from old (h1 ++ h2) p n = belief_from (belief_from old h1 p n) h2 p n.
Proof. revert old. induction h1 as [|e h1 IH]; intros old; [reflexivity|]. apply IH. Qed.
Lemma belief_snoc h e p n : belief (h ++ [e]) p n = learn (belief h p n) (news (ev_s e) (ev_q e) p n).
Proof. unfold belief. rewrite belief_from_app. reflexivity. Qed.
#[global] Instance lost_dec d p : Decision (lost d p).
Proof.
  unfold lost. destruct (d_inodes d !! p); [right; intros [? _]; discriminate|]. destruct (d_next d) as [k|]; [|right; intros (_ & k & ? & _); discriminate].
  destruct (decide (p < k)); [left; eauto|]. right. intros (_ & k' & E & Hlt). injection E as <-. contradiction.
Defined.

Lemma belief_kn W s k h p n : hist W s k h -> valid_name n -> u64 p -> lost (s_db s) p \/ forall a, (exists c, kn (s_db s) p n c a) <-> belief h p n = Some a.
Proof.
  intros H Hv Hp. induction H as [root d r Ha E|W s k h q s' o sent H IH Hl Hen E Es].
  - right. intros a. split; [|discriminate]. intros [c (e & i & He & _)]. exfalso. destruct (open_cache_spec root db_empty (init_db_inv root)) as (R & _ & E' & _). rewrite E' in E. injection E as <- <-.
    cbn [s_db] in He. cbn in He. rewrite map_filter_lookup, lookup_empty in He. discriminate.
  - destruct (hist_inv _ _ _ _ H) as (HF & HA & _). destruct (news_step W s k q s' o p n HF HA Hl Hen E Hv Hp) as [Hlost Hent].
    destruct (decide (lost (s_db s') p)) as [?|Hnl]; [left; assumption|]. right. destruct IH as [IH|IH]; [contradiction (Hnl (Hlost IH))|]. intros a. rewrite belief_snoc. cbn [ev_s ev_q].
    destruct (news s q p n) as [| |a'] eqn:En; cbn [learn].
    + destruct Hent as [F B]. rewrite <- IH. split.
      * intros [c Hk]. exists c. apply B. assumption.
      * intros [c Hk]. exists c. destruct (F c a (or_introl Hk)) as [?|?]; [assumption|contradiction].
    + split; [intros [c Hk]; destruct (Hent _ _ Hk)|discriminate].
    + destruct Hent as [c Hc]. split.
      * intros [c' Hk]. destruct (kn_fun _ _ _ _ _ _ _ Hc Hk) as [_ ->]. reflexivity.
      * intros Ea. injection Ea as <-. eauto.
Qed.
Lemma synced_listed W s k h x : hist W s k h -> test_flag (s_db s) x SYNCED = Ok true -> exists e, e ∈ h /\ lists (ev_s e) (ev_q e) x.
Proof.
  induction 1 as [root d r Ha E|W s k h q s' o sent H IH Hl Hen E Es]; intros Hf.
  - exfalso. destruct (open_cache_spec root db_empty (init_db_inv root)) as (R & _ & E' & _). rewrite E' in E. injection E as <- <-. cbn [s_db] in Hf. rewrite cleaned_test_flag in Hf. destruct (decide _); [discriminate|].
    unfold test_flag in Hf. cbn in Hf. unfold ROOT_INO in Hf. destruct (decide (1 = x)) as [<-|Hne]; [rewrite lookup_insert in Hf; discriminate|rewrite lookup_insert_ne, lookup_empty in Hf by assumption; discriminate].
  - destruct (hist_inv _ _ _ _ H) as (HF & HA & _). destruct (flag_step W s k q s' o x HF HA Hl Hen E Hf) as [Hf'|Hli].
    + destruct (IH Hf') as (e & He & Hl'). exists e. split; [apply elem_of_app; auto|assumption].
    + exists (Ev s q sent). split; [apply elem_of_app; right; left|assumption].
Qed.

(** ** counts *)
Definition unheld (s : fstate) (k : kst) (y : Z) : Z := refcount (s_refs s) y - kcount k y.
Lemma step_counts W s k q s' o sent y : FInv W s k -> AInv s -> klegal k s q -> enough W s q -> fstep s q = Done (s', o) -> sent_of o = (sent, false) ->
  match q with
  | QPlusRun id size off => exists snap dir l e pre post, s_plus s !! id = Some (snap, dir) /\ scan snap dir (w64 off) l e /\
      fits direntplus_size size (filter (kept (s_refs s)) (map to_bent l)) pre post /\
      ((sent = [RBuf (concat (map rec_plus pre))] /\ unheld s' (kstep k q sent) y = unheld s k y + if 0 <? size then uses y (take 1 post) else 0) \/
       (sent = [RErr e] /\ e <> 0 /\ post = [] /\ is_orphan snap dir /\ unheld s' (kstep k q sent) y = unheld s k y + uses y pre) \/
       (sent = [RErr e] /\ e <> 0 /\ l = [] /\ unheld s' (kstep k q sent) y = unheld s k y))
  | QRestart _ => unheld s' (kstep k q sent) y = 0
  | _ => unheld s' (kstep k q sent) y = unheld s k y
  end.
Proof.
  intros HF HA Hl HW E Es. unfold enough in HW. assert (H63 : 2 ^ 63 < 2 ^ 64) by lia. pose proof (fi_dr _ _ _ HF) as Hdr. pose proof (dr_inv _ _ _ Hdr) as Hi.
  assert (HW0 : 0 <= weight s q). { destruct q; cbn [weight]; try lia. destruct (path _ _) as [[?|?]| | |]; try lia. destruct (b_opendir _ _) as [[? ?]|]; lia. }
  unfold unheld. destruct q as [b p n|x m|fs|x|b x|b x|x size off|x|id x|id size off|tag|root]; cbn [fstep klegal] in *.
  - destruct Hl as [Hk Hb]. cbn [weight] in HW. destruct (h_lookup_total W s k b p n HF Hk ltac:(lia)) as (s2 & l & E2 & Hc). rewrite E2 in E. injection E as <- <-.
    destruct (lookup_way W s k b p n _ _ HF Hk ltac:(lia) Hc) as [[-> (e & ->)]|[(t & e & -> & -> & _ & Hr)|(t & c & a & -> & -> & _ & _ & _ & Hr)]]; cbn [sent_of] in Es; rewrite answer_one in Es; injection Es as <-; cbn [kstep after set_dbr s_refs].
    + reflexivity.
    + rewrite Hr. reflexivity.
    + rewrite Hr, kcount_told. lia.
  - destruct (h_forget_spec W s k x m HF ltac:(lia) Hl) as (t & E2 & _ & _ & Hr). rewrite E2 in E. injection E as <- <-. cbn [kstep after set_dbr s_refs]. rewrite Hr, kcount_forgot. lia.
  - destruct Hl as [Hl1 Hl2]. destruct (h_forget_multi_spec W s k fs HF ltac:(lia) Hl1 Hl2) as (t & E2 & _ & Hd & Hr). rewrite E2 in E. injection E as <- <-. cbn [kstep after set_dbr s_refs]. rewrite Hr, kcount_forgot_all. lia.
  - unfold h_getattr in E. destruct (getattr (s_db s) x); injection E as <- <-; reflexivity.
  - destruct (h_readlink_total W s k b x HF) as (s2 & l & E2 & Hc). rewrite E2 in E. injection E as <- <-. destruct (readlink_way W s k b x _ _ HF ltac:(lia) Hc) as [_ [->|(t & -> & _ & Hr)]]; cbn [kstep after set_dbr s_refs]; [reflexivity|]. rewrite Hr. reflexivity.
  - destruct Hl as [Hk Hb]. destruct (h_opendir_total W s k b x HF Hk ltac:(lia)) as (s2 & l & E2 & Hc & Hs). rewrite E2 in E. injection E as <- <-. destruct Hs as [->|(t & -> & _ & Hr)]; cbn [kstep after set_dbr s_refs]; [reflexivity|]. rewrite Hr. reflexivity.
  - destruct (h_readdir_total s x size off Hi) as (l & E2 & _). rewrite E2 in E. injection E as <- <-. reflexivity.
  - injection E as <- <-. reflexivity.
  - injection E as <- <-. reflexivity.
  - destruct (s_plus s !! id) as [[snap dir]|] eqn:Hid; [|contradiction]. destruct (h_plus_total W s k id size off snap dir HF Hid ltac:(lia)) as (l & e & pre & post & rep & Hsc & Hfit & E2 & _ & Hr & Hrep). rewrite E2 in E. injection E as <- <-.
    cbn [sent_of] in Es. rewrite answer_one in Es. injection Es as <-. cbn [s_refs].
    exists snap, dir, l, e, pre, post. split; [reflexivity|]. split; [exact Hsc|]. split; [exact Hfit|].
    assert (Hpre : 0 < size \/ pre = []) by (destruct Hfit as (_ & _ & Hz); destruct (Z.ltb_spec 0 size); [left; lia|right; auto]).
    destruct Hrep as [[-> _]|(-> & He & Hs & -> & _ & Ho)].
    + left. split; [reflexivity|]. cbn [kstep].
      assert (Hb : Forall bent_ok (filter (kept (s_refs s)) (map to_bent l))) by (eapply plus_bents; try eassumption; lia).
      rewrite (reads_plus pre) by (eapply fits_sub; eassumption). rewrite kcount_told_plus, Hr, (uses_touched y size pre post Hpre). lia.
    + destruct Ho as [[-> Hnh]|Ho].
      * right; right. split; [reflexivity|]. split; [exact He|]. split; [reflexivity|]. cbn [kstep]. rewrite Hr. destruct Hfit as (Hf & _). cbn in Hf. symmetry in Hf. apply app_eq_nil in Hf as [-> _]. unfold touched. destruct (0 <? size); change (uses y _) with 0; lia.
      * right; left. split; [reflexivity|]. split; [exact He|]. split; [reflexivity|]. split; [exact Ho|]. cbn [kstep]. rewrite Hr, (uses_touched y size pre [] Hpre). cbn [take]. destruct (0 <? size); change (uses y []) with 0; lia.
  - injection E as <- <-. reflexivity.
  - destruct (open_cache root (s_db s)) as [[d r]| | |] eqn:Eo; try discriminate. cbn [obind] in E. injection E as <- <-. cbn [s_refs kstep].
    destruct (open_cache_spec root (s_db s) ltac:(rewrite init_db_id by assumption; assumption)) as (R & HR & E' & _). rewrite E' in Eo. injection Eo as <- <-. rewrite refcount_doom_all. unfold refcount, kcount, k0. cbn [k_cnt]. rewrite !lookup_empty. reflexivity.
Qed.
