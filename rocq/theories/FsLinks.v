(** What is known of symbolic links, along histories. *)
From Verif Require Export FsStream.

(** ** specification: what the backend told about the target of [x] *)
(** The request of this event asked the backend for the target of [x], by the path that [x] then
    had, and got it; and [x] was a symbolic link in what was known. *)
Definition tells (e : event) (x : Z) : option bytes :=
  match ev_q e with
  | QReadlink b y =>
    if y =? x then
      match asked (ev_s e) x, getattr (s_db (ev_s e)) x with
      | Some pp, Ok a => match b_readlink b (backend_path pp) with Ok l => if ftype (a_mode a) =? S_IFLNK then Some l else None | Err _ => None end
      | _, _ => None
      end
    else None
  | _ => None
  end.
(** the last of these answers *)
Definition told_link (h : list event) (x : Z) : option bytes :=
  fold_left (fun acc e => match tells e x with Some l => Some l | None => acc end) h None.
Lemma told_link_snoc h e x : told_link (h ++ [e]) x = match tells e x with Some l => Some l | None => told_link h x end.
Proof. unfold told_link. rewrite fold_left_app. reflexivity. Qed.
Lemma told_link_some h x l : told_link h x = Some l -> exists e, e ∈ h /\ tells e x = Some l.
Proof.
  revert l. induction h as [|e h IH] using rev_ind; intros l E; [discriminate|]. rewrite told_link_snoc in E. destruct (tells e x) as [l'|] eqn:Et.
  - injection E as ->. exists e. split; [set_solver|assumption].
  - destruct (IH _ E) as (e' & He & Ht). exists e'. split; [set_solver|assumption].
Qed.

(** ** link texts are kept *)
Definition lk (d d' : db) : Prop := next_le d d' /\ forall x i', d_inodes d' !! x = Some i' ->
  d_links d' !! x = d_links d !! x /\ (d_inodes d !! x = None -> exists k, d_next d = Some k /\ k <= x).
Lemma no_link d x : Inv d -> d_inodes d !! x = None -> d_links d !! x = None.
Proof. intros H E. destruct (d_links d !! x) as [b|] eqn:Eb; [|reflexivity]. destruct (links_ino _ H _ _ Eb). congruence. Qed.
Lemma lk_refl d : Inv d -> lk d d.
Proof. intros H. split; [apply next_le_refl; assumption|]. intros x i Hi. split; [reflexivity|congruence]. Qed.
Lemma lk_trans d1 d2 d3 : Inv d1 -> Inv d2 -> lk d1 d2 -> lk d2 d3 -> lk d1 d3.
Proof.
  intros H1 H2 [N1 L1] [N2 L2]. split; [eapply next_le_trans; eassumption|]. intros x i Hi. destruct (L2 _ _ Hi) as [E2 F2].
  destruct (d_inodes d2 !! x) as [j|] eqn:Ej.
  - destruct (L1 _ _ Ej) as [E1 F1]. split; [congruence|exact F1].
  - destruct (F2 eq_refl) as (k2 & Hk2 & Hle). destruct N1 as (k1 & k2' & A1 & A2 & A3). assert (k2' = k2) by congruence. subst k2'.
    assert (Hn : d_inodes d1 !! x = None). { destruct (d_inodes d1 !! x) as [i1|] eqn:E1; [|reflexivity]. destruct (inv_next' _ H1) as (k & Hk & _ & Hlt). specialize (Hlt _ _ E1). assert (k = k1) by congruence. lia. }
    split; [rewrite E2, (no_link d2), (no_link d1) by assumption; reflexivity|]. intros _. exists k1. split; [assumption|lia].
Qed.
(** an operation that writes no link *)
Lemma step_lk t o res t' : TInv t -> legal t o -> step t o = Done (res, t') -> (forall x, ~ relinks o x) ->
  (forall x b, d_links (t_db t') !! x = Some b -> d_links (t_db t) !! x = Some b) -> lk (t_db t) (t_db t').
Proof.
  intros HT Hl E Ho Hs. destruct (step_fr _ _ _ _ HT Hl E) as [HT' [(k & k' & Ek & Ek' & Hle & Hnew) Hfr]]. pose proof (tinv_db _ HT) as H.
  split; [exists k, k'; auto|]. intros x i' Hi'. destruct (d_inodes (t_db t) !! x) as [i|] eqn:Ei.
  - split; [|congruence]. destruct (Hfr _ _ Ei) as [(G & _)|(j & _ & _ & _ & G)]; [congruence|]. apply G. apply Ho.
  - split; [|intros _; exists k; split; [assumption|apply (Hnew _ _ Ei Hi')]]. rewrite (no_link (t_db t)) by assumption. destruct (d_links (t_db t') !! x) as [b|] eqn:Eb; [|reflexivity].
    apply Hs in Eb. rewrite (no_link (t_db t)) in Eb by assumption. discriminate.
Qed.
Lemma detached_links d p n : d_links (detached_name d p n) = d_links d.
Proof. unfold detached_name. destruct (d_treen d !! (p, n)); [|reflexivity]. destruct (d_inodes d !! _); reflexivity. Qed.
Lemma emplace_lk t p n a r t1 : TInv t -> is_dir (t_db t) p -> room (t_db t) -> emplace t p n a = Done (r, t1) -> lk (t_db t) (t_db t1).
Proof.
  intros HT Hdir Hroom E. assert (Es : exists r, step t (OEmplace p n a) = Done (r, t1)) by (cbn [step]; rewrite E; eexists; reflexivity). destruct Es as [r' Es].
  apply (step_lk t (OEmplace p n a) r' t1 HT (conj Hdir Hroom) Es); [intros x []|]. intros x b.
  destruct (emplace_spec t p n a HT Hdir Hroom) as [(err & _ & E')|[(_ & e' & i' & He' & Hi' & Hty & E' & _)|(_ & _ & kk & R & Hkk & Hfresh & _ & _ & E' & _)]]; rewrite E' in E; injection E as _ <-; cbn [t_db].
  - auto.
  - auto.
  - intros Hb. apply cleaned_links in Hb as [_ Hb]. cbn [added d_links] in Hb. rewrite detached_links in Hb. exact Hb.
Qed.
Lemma unlink_ino_lk t c r t1 : TInv t -> unlink_ino t c = Done (r, t1) -> lk (t_db t) (t_db t1).
Proof.
  intros HT E. assert (Es : exists r, step t (OUnlinkIno c) = Done (r, t1)) by (cbn [step]; rewrite E; eexists; reflexivity). destruct Es as [r' Es].
  apply (step_lk t (OUnlinkIno c) r' t1 HT I Es); [intros x []|]. intros x b.
  destruct (unlink_ino_spec t c HT) as [(_ & E')|[(_ & E')|(d1 & Hd1 & _ & R & _ & E' & _)]]; rewrite E' in E; injection E as _ <-; auto. cbn [t_db]. intros Hb. apply cleaned_links in Hb as [_ Hb].
  destruct Hd1 as [[_ ->]|(p & e & i & _ & _ & ->)]; exact Hb.
Qed.
Lemma unlink_name_lk t p n r t1 : TInv t -> unlink_name t p n = Done (r, t1) -> lk (t_db t) (t_db t1).
Proof.
  intros HT E. unfold unlink_name in E. destruct (d_treen (t_db t) !! (p, n)) as [e|]; [eapply unlink_ino_lk; eassumption|]. injection E as _ <-. apply lk_refl. exact (tinv_db _ HT).
Qed.
Lemma flags_lk t x s c r t1 : TInv t -> update_flags t x s c = Done (r, t1) -> lk (t_db t) (t_db t1).
Proof.
  intros HT E. assert (Es : exists r, step t (OFlags x s c) = Done (r, t1)) by (cbn [step]; rewrite E; eexists; reflexivity). destruct Es as [r' Es].
  apply (step_lk t (OFlags x s c) r' t1 HT I Es); [intros y []|]. intros y b. unfold update_flags in E. destruct (d_inodes (t_db t) !! x); injection E as _ <-; auto.
Qed.
Lemma make_orphan_links d c : d_links (make_orphan d c).2 = d_links d.
Proof.
  unfold make_orphan. destruct (parent_of d c) as [p|]; [|reflexivity]. destruct (p =? INVALID_INO); [reflexivity|]. destruct (d_treei d !! (p, c)); [|reflexivity]. cbn. destruct (d_inodes d !! c); reflexivity.
Qed.
Lemma fold_orphan_links l : forall d, d_links (fold_left (fun d ino => (make_orphan d ino).2) l d) = d_links d.
Proof. induction l as [|c l IH]; intros d; [reflexivity|]. cbn [fold_left]. rewrite IH. apply make_orphan_links. Qed.
Lemma finish_lk t r t1 : TInv t -> finish_dir_rewrite t = Done (r, t1) -> lk (t_db t) (t_db t1).
Proof.
  intros HT E. apply (step_lk t OFinishRewrite r t1 HT I E); [intros y []|]. intros y b. unfold finish_dir_rewrite in E. destruct (t_rw t); injection E as _ <-; cbn [t_db]; [rewrite fold_orphan_links|]; auto.
Qed.
Lemma cleaned_lk R d : Inv d -> lk d (cleaned R d).
Proof.
  intros H. destruct (inv_next' _ H) as (k & Hk & _). split; [exists k, k; split; [assumption|]; split; [exact Hk|lia]|]. intros x i Hi. pose proof Hi as Hi2. apply cleaned_inodes in Hi2 as (Hx & j & Hj & _). split; [|congruence].
  apply option_eq. intros b. rewrite cleaned_links. tauto.
Qed.

Definition nolink (q : request) : Prop := match q with QReadlink _ _ => False | _ => True end.
Lemma lk_step W s k q s' o : FInv W s k -> AInv s -> klegal k s q -> enough W s q -> fstep s q = Done (s', o) -> nolink q -> lk (s_db s) (s_db s').
Proof.
  intros HF HA Hl HW E Hq. unfold enough in HW. assert (H63 : 2 ^ 63 < 2 ^ 64) by lia. pose proof (fi_dr _ _ _ HF) as Hdr. pose proof (dr_inv _ _ _ Hdr) as Hi.
  assert (HW0 : 0 <= weight s q). { destruct q; cbn [weight]; try lia. destruct (path _ _) as [[?|?]| | |]; try lia. destruct (b_opendir _ _) as [[? ?]|]; lia. }
  pose proof (lk_refl _ Hi) as Hsame.
  assert (HT : TInv (begun s)) by (eapply way_tinv; apply way_begin; exact Hdr).
  destruct q as [b p' n'|x m|fs|x|b x|b x|x size off|x|id x|id size off|tag|root]; cbn [fstep klegal nolink] in *; try contradiction.
  - destruct Hl as [Hk Hb]. cbn [weight] in HW. destruct (h_lookup_total W s k b p' n' HF Hk ltac:(lia)) as (s2 & l & E2 & Hc). rewrite E2 in E. injection E as <- <-. pose proof (kdir_is_dir _ _ _ _ HF Hk) as Hdir.
    assert (Hroom : room (t_db (begun s))) by (eapply way_room; [apply way_begin; exact Hdr|lia]).
    destruct Hc as [Hw|comps st' e Hw El' Hcn|comps st' c t1 t2 Hw El' Ee Elk|comps c a t2 Hw El' Hl Hg Elk|comps Hw El' Hl Hs|comps Hw El' Hl Hs|comps e Hw El' Hl He|comps e x t1 Hw El' He Eu]; try exact Hsame.
    + assert (HW1 : way W (begun s) (W + 1) t1) by (eapply way_emplace; [apply way_begin; exact Hdr|exact Hdir|lia|exact Ee]).
      destruct (lock_refcount t1 c t2 (W + 1) (wy_dr _ _ _ _ HW1) ltac:(lia) Elk) as [Ed _]. cbn [s_db after set_dbr]. rewrite Ed. exact (emplace_lk (begun s) _ _ _ _ _ HT Hdir Hroom Ee).
    + destruct (lock_refcount (begun s) c t2 W Hdr ltac:(lia) Elk) as [Ed _]. cbn [s_db after set_dbr]. rewrite Ed. exact Hsame.
    + cbn [s_db after set_dbr]. exact (unlink_name_lk (begun s) _ _ _ _ HT Eu).
  - destruct (h_forget_spec W s k x m HF ltac:(lia) Hl) as (t & E2 & _ & Hd & _). rewrite E2 in E. injection E as <- <-. cbn [s_db after set_dbr]. rewrite Hd. exact Hsame.
  - destruct Hl as [Hl1 Hl2]. destruct (h_forget_multi_spec W s k fs HF ltac:(lia) Hl1 Hl2) as (t & E2 & _ & Hd & _). rewrite E2 in E. injection E as <- <-. cbn [s_db after set_dbr]. rewrite Hd. exact Hsame.
  - unfold h_getattr in E. destruct (getattr (s_db s) x); injection E as <- <-; exact Hsame.
  - destruct Hl as [Hk Hb]. destruct (h_opendir_total W s k b x HF Hk ltac:(lia)) as (s2 & l & E2 & Hc & _). rewrite E2 in E. injection E as <- <-. pose proof (kdir_is_dir _ _ _ _ HF Hk) as Hdir.
    destruct Hc as [Hw|comps e Hw El He|comps Hw El|comps names e0 t1 t2 m t3 r t4 Hw El E1 (W1 & t0 & W' & HS1 & HW1 & HWl) E2' HS2 Hm Hm' E3 E4]; try exact Hsame. cbn [s_db after set_dbr].
    assert (Hd1 : t_db t1 = s_db s). { unfold start_dir_rewrite in E1. cbn in E1. destruct (from_key _ _ _); injection E1; intros; subst; reflexivity. }
    assert (HS3 : session x t3 m) by (eapply ses_flags; eassumption).
    pose proof (s_inv _ _ _ (session_inv _ _ _ HS2)) as HT2. pose proof (s_inv _ _ _ (session_inv _ _ _ HS3)) as HT3.
    assert (HK2 : lk (s_db s) (t_db t2)).
    { eapply (sync_entries_inv (fun t => lk (s_db s) (t_db t)) W1 t0 b x (backend_path (spell comps)) names); [|exact HS1|exact HW1|exact HWl|exact E2'|rewrite Hd1; exact Hsame].
      intros t n a y t' A1 A2 A3 A4 A5. eapply lk_trans; [exact Hi|exact (tinv_db _ A1)|exact A5|eapply emplace_lk; eassumption]. }
    eapply (lk_trans _ (t_db t3)); [exact Hi|exact (tinv_db _ HT3)|eapply (lk_trans _ (t_db t2)); [exact Hi|exact (tinv_db _ HT2)|exact HK2|]|].
    + eapply flags_lk; eassumption.
    + eapply finish_lk; eassumption.
  - destruct (h_readdir_total s x size off Hi) as (l & E2 & _). rewrite E2 in E. injection E as <- <-. exact Hsame.
  - injection E as <- <-. exact Hsame.
  - injection E as <- <-. exact Hsame.
  - destruct (s_plus s !! id) as [[snap dir]|] eqn:Hid; [|contradiction]. destruct (h_plus_total W s k id size off snap dir HF Hid ltac:(lia)) as (l & e & pre & post & rep & _ & _ & E2 & _). rewrite E2 in E. injection E as <- <-. exact Hsame.
  - injection E as <- <-. exact Hsame.
  - destruct (open_cache root (s_db s)) as [[d r]| | |] eqn:Eo; try discriminate. cbn [obind] in E. injection E as <- <-. cbn [s_db].
    destruct (open_cache_spec root (s_db s) ltac:(rewrite init_db_id by assumption; assumption)) as (R & HR & E' & _). rewrite E' in Eo. injection Eo as <- <-. rewrite init_db_id by assumption.
    apply cleaned_lk. exact Hi.
Qed.

(** ** the invariant *)
Record LInv (s : fstate) (h : list event) : Prop := {
  li_link : forall x, has_inode (s_db s) x -> d_links (s_db s) !! x = told_link h x;
  li_next : forall x l, told_link h x = Some l -> exists k, d_next (s_db s) = Some k /\ x < k }.
Lemma asked_has s x pp : Inv (s_db s) -> asked s x = Some pp -> has_inode (s_db s) x.
Proof. intros H E. apply (asked_parent s x pp H E). Qed.
Lemma below_has d x : Inv d -> has_inode d x -> exists k, d_next d = Some k /\ x < k.
Proof. intros H Hx. apply has_inode_iff in Hx as [i Hi]. destruct (inv_next' _ H) as (k & Hk & _ & Hlt). exists k. split; [assumption|]. specialize (Hlt _ _ Hi). lia. Qed.
Lemma tells_has e x l : Inv (s_db (ev_s e)) -> tells e x = Some l -> has_inode (s_db (ev_s e)) x.
Proof.
  intros H. unfold tells. destruct (ev_q e); try discriminate. destruct (_ =? x); [|discriminate]. destruct (asked (ev_s e) x) as [pp|] eqn:Ea; [|discriminate]. intros _. eapply asked_has; eassumption.
Qed.
Lemma LInv_keep s s' h e : Inv (s_db s) -> LInv s h -> lk (s_db s) (s_db s') -> ev_s e = s -> (forall x, tells e x = None) -> LInv s' (h ++ [e]).
Proof.
  intros H [L1 L2] [(k & k' & A1 & A2 & A3) L] <- Ht. split.
  - intros x Hx. rewrite told_link_snoc, Ht. apply has_inode_iff in Hx as [i Hi]. destruct (L _ _ Hi) as [-> Hn]. destruct (d_inodes (s_db (ev_s e)) !! x) as [j|] eqn:Ej; [apply L1, has_inode_iff; eauto|].
    rewrite no_link by assumption. destruct (told_link h x) as [l|] eqn:El; [|reflexivity]. destruct (L2 _ _ El) as (k1 & K1 & K2). destruct (Hn eq_refl) as (k2 & K3 & K4). assert (k1 = k2) by congruence. lia.
  - intros x l. rewrite told_link_snoc, Ht. intros El. destruct (L2 _ _ El) as (k1 & K1 & K2). exists k'. split; [assumption|]. assert (k1 = k) by congruence. lia.
Qed.
Lemma LInv_step W s k h q s' o sent : FInv W s k -> AInv s -> klegal k s q -> enough W s q -> fstep s q = Done (s', o) -> LInv s h -> LInv s' (h ++ [Ev s q sent]).
Proof.
  intros HF HA Hl HW E HL. pose proof (fi_dr _ _ _ HF) as Hdr. pose proof (dr_inv _ _ _ Hdr) as Hi. assert (HT : TInv (begun s)) by (eapply way_tinv; apply way_begin; exact Hdr).
  destruct q as [b p' n'|x m|fs|x|b x|b x|x size off|x|id x|id size off|tag|root]; try (eapply (LInv_keep s); [exact Hi|exact HL|eapply lk_step; [exact HF|exact HA|exact Hl|exact HW|exact E|exact I]|reflexivity|intros y; reflexivity]).
  cbn [fstep] in E. destruct (h_readlink_total W s k b x HF) as (s2 & l & E2 & Hc). rewrite E2 in E. injection E as <- <-.
  assert (Hnone : forall comps err, walk (s_db s) 1 comps x -> b_readlink b (backend_path (spell comps)) = Err err -> forall y, tells (Ev s (QReadlink b x) sent) y = None).
  { intros comps err Hw El y. cbn [tells ev_q ev_s]. destruct (Z.eqb_spec x y) as [<-|]; [|reflexivity]. rewrite (asked_walk _ _ _ Hi Hw), El. destruct (getattr (s_db s) x); reflexivity. }
  destruct Hc as [Hw|comps link r t1 Hw El E1|comps link Hw El Hr|comps e Hw El Hr|comps e r t1 Hw El He E1].
  - apply (LInv_keep s); [exact Hi|exact HL|apply lk_refl; exact Hi|reflexivity|]. intros y. cbn [tells ev_q ev_s]. destruct (Z.eqb_spec x y) as [<-|]; [|reflexivity]. rewrite (asked_none _ _ Hi Hw). reflexivity.
  - unfold writelink in E1. change (t_db (begun s)) with (s_db s) in E1. pose proof (asked_walk _ _ _ Hi Hw) as Ea. destruct (d_inodes (s_db s) !! x) as [i|] eqn:Ei; [|exfalso; apply (asked_has _ _ _ Hi) in Ea; apply has_inode_iff in Ea as [? ?]; congruence].
    assert (Eg : getattr (s_db s) x = Ok (i_attr i)) by (unfold getattr; rewrite Ei; reflexivity).
    destruct (ftype (a_mode (i_attr i)) =? S_IFLNK) eqn:Ety; cbn [negb] in E1; injection E1 as _ <-.
    + assert (Htl : forall y, tells (Ev s (QReadlink b x) sent) y = if x =? y then Some link else None).
      { intros y. cbn [tells ev_q ev_s]. destruct (Z.eqb_spec x y) as [<-|]; [|reflexivity]. rewrite Ea, Eg, El, Ety. reflexivity. }
      destruct HL as [L1 L2]. split.
      * intros y Hy. rewrite told_link_snoc, Htl. cbn [s_db after set_dbr t_db with_db d_links set_links]. destruct (Z.eqb_spec x y) as [<-|Hne]; [apply lookup_insert|]. rewrite lookup_insert_ne by assumption. cbn [set_inodes d_links]. change (t_db (begun s)) with (s_db s). apply L1.
        apply has_inode_iff in Hy as [j Hj]. apply has_inode_iff. exists j. cbn [s_db after set_dbr t_db with_db d_inodes set_links set_inodes] in Hj. rewrite lookup_insert_ne in Hj by assumption. exact Hj.
      * intros y l. rewrite told_link_snoc, Htl. cbn [s_db after set_dbr t_db with_db d_next set_links set_inodes]. change (t_db (begun s)) with (s_db s). destruct (Z.eqb_spec x y) as [<-|Hne]; [intros _|apply L2]. apply below_has; [assumption|]. apply has_inode_iff. eauto.
    + apply (LInv_keep s); [exact Hi|exact HL|apply lk_refl; exact Hi|reflexivity|]. intros y. cbn [tells ev_q ev_s]. destruct (Z.eqb_spec x y) as [<-|]; [|reflexivity]. rewrite Ea, Eg, El, Ety. reflexivity.
  - apply (LInv_keep s); [exact Hi|exact HL|apply lk_refl; exact Hi|reflexivity|]. eapply Hnone; eassumption.
  - apply (LInv_keep s); [exact Hi|exact HL|apply lk_refl; exact Hi|reflexivity|]. eapply Hnone; eassumption.
  - apply (LInv_keep s); [exact Hi|exact HL| |reflexivity|]; [cbn [s_db after set_dbr]; exact (unlink_ino_lk (begun s) _ _ _ HT E1)|eapply Hnone; eassumption].
Qed.
Lemma hist_links W s k h : hist W s k h -> LInv s h.
Proof.
  induction 1 as [root d r Hok E|W s k h q s' o sent Hh IH Hl HW E Es].
  - split; [|intros x l E']; [|discriminate E']. intros x Hx. cbn [s_db] in *. change (told_link [] x) with (@None bytes).
    destruct (d_links d !! x) as [b|] eqn:Eb; [|reflexivity]. exfalso. destruct (open_cache_spec root db_empty) as (R & HR & E' & _).
    { apply init_db_inv. }
    rewrite E' in E. injection E as <- _. apply cleaned_links in Eb as [_ Eb]. cbn in Eb. rewrite lookup_empty in Eb. discriminate.
  - destruct (hist_inv _ _ _ _ Hh) as (HF & HA & _). eapply LInv_step; eassumption.
Qed.
