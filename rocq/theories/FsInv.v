(** Invariant of the file system: the database, the reference table, the kernel's counts. *)
From Verif Require Export FsSpec TxnFacts.

(** ** one cache operation: numbers used and inodes doomed *)
Lemma make_orphan_next d c : d_next (make_orphan d c).2 = d_next d.
Proof.
  unfold make_orphan. destruct (parent_of d c) as [p|]; [|reflexivity]. destruct (p =? INVALID_INO); [reflexivity|].
  destruct (d_treei d !! (p, c)) as [e|]; [|reflexivity]. cbn. destruct (d_inodes d !! c); reflexivity.
Qed.
Lemma fold_orphan_next l : forall d, d_next (fold_left (fun d ino => (make_orphan d ino).2) l d) = d_next d.
Proof. induction l as [|c l IH]; intros d; [reflexivity|]. cbn [fold_left]. rewrite IH. apply make_orphan_next. Qed.
Lemma detached_name_next d p n : d_next (detached_name d p n) = d_next d.
Proof. unfold detached_name. destruct (d_treen d !! (p, n)); [|reflexivity]. destruct (d_inodes d !! _); reflexivity. Qed.

Lemma step_shape t o res t' : TInv t -> legal t o -> step t o = Done (res, t') ->
  ((forall x, doomed (t_refs t') x = true -> doomed (t_refs t) x = true) /\ d_next (t_db t') = d_next (t_db t)) \/
  (exists d1 R, t_db t' = cleaned R d1 /\ t_refs t' = doom_all R (t_refs t) /\ Inv d1 /\ (forall x, x ∈ R -> gone d1 (t_refs t) x) /\
     (d_next d1 = d_next (t_db t) \/ exists p n a k, o = OEmplace p n a /\ d_next (t_db t) = Some k /\ d_next d1 = Some (k + 1))).
Proof.
  intros HT Hleg E. pose proof (tinv_db _ HT) as H.
  assert (Hul : forall c res t', unlink_ino t c = Done (res, t') ->
     ((forall x, doomed (t_refs t') x = true -> doomed (t_refs t) x = true) /\ d_next (t_db t') = d_next (t_db t)) \/
     (exists d1 R, t_db t' = cleaned R d1 /\ t_refs t' = doom_all R (t_refs t) /\ Inv d1 /\ (forall x, x ∈ R -> gone d1 (t_refs t) x) /\ d_next d1 = d_next (t_db t))).
  { clear - HT H. intros c res t' E.
    destruct (unlink_ino_spec t c HT) as [(_ & E')|[(_ & E')|(d1 & Hd1 & Hi1 & R & HR & E' & HT')]]; rewrite E' in E; injection E as _ <-; [left; auto..|].
    right. exists d1, R. cbn [t_db t_refs]. split_and!; auto; [intros x Hx; apply HR; assumption|].
    destruct Hd1 as [[_ ->]|(p & e & i & He & Hi & ->)]; reflexivity. }
  assert (Hul' : forall c res t', unlink_ino t c = Done (res, t') ->
     ((forall x, doomed (t_refs t') x = true -> doomed (t_refs t) x = true) /\ d_next (t_db t') = d_next (t_db t)) \/
     (exists d1 R, t_db t' = cleaned R d1 /\ t_refs t' = doom_all R (t_refs t) /\ Inv d1 /\ (forall x, x ∈ R -> gone d1 (t_refs t) x) /\
     (d_next d1 = d_next (t_db t) \/ exists p n a k, o = OEmplace p n a /\ d_next (t_db t) = Some k /\ d_next d1 = Some (k + 1)))).
  { intros c r1 t1 E1. destruct (Hul _ _ _ E1) as [?|(d1 & R & ? & ? & ? & ? & ?)]; [left; assumption|right; exists d1, R; auto 8]. }
  destruct o as [p n a|c|p c|p n| |y b|y s c|y| |y|y k]; cbn [step] in E.
  - destruct Hleg as [Hdir Hroom]. unfold drop_val in E. destruct (emplace t p n a) as [[r1 t1]| | |] eqn:Ee; try discriminate.
    cbn in E. injection E as <- <-.
    destruct (emplace_spec t p n a HT Hdir Hroom) as
      [(err & _ & E')|[(Hv & e & oi & He & Hoi & Hty & E' & HT2)|(Hv & Hty & k & R & Hk & Hfresh & Hd1 & HR & E' & HT2)]];
      rewrite E' in Ee; injection Ee as <- <-; [left; auto..|].
    right. exists (added p n a k (detached_name (t_db t) p n)), R. cbn [t_db t_refs]. split_and!; auto; [intros x Hx; apply HR; assumption|].
    right. exists p, n, a, k. auto.
  - eapply Hul'. eassumption.
  - eapply Hul'. eassumption.
  - unfold unlink_name in E. destruct (d_treen (t_db t) !! (p, n)) as [e|]; [eapply Hul'; eassumption|]. injection E as _ <-. left. auto.
  - destruct (tx_clean_spec t HT) as (R & HR & E' & _). rewrite E' in E. cbn in E. injection E as _ <-.
    right. exists (t_db t), R. cbn [t_db t_refs]. split_and!; auto. intros x Hx. apply HR. assumption.
  - unfold writelink in E. destruct (d_inodes (t_db t) !! y) as [i|]; [|injection E as _ <-; left; auto].
    destruct (negb _); injection E as _ <-; left; auto.
  - unfold update_flags in E. destruct (d_inodes (t_db t) !! y) as [i|]; injection E as _ <-; left; auto.
  - unfold start_dir_rewrite in E. destruct (t_rw t); [injection E as _ <-; left; auto|]. destruct (from_key _ _ _); injection E as _ <-; left; auto.
  - unfold finish_dir_rewrite in E. destruct (t_rw t) as [S|]; injection E as _ <-; left; [|auto]. cbn [t_refs t_db]. split; [auto|apply fold_orphan_next].
  - unfold lock, incref in E. left. destruct (t_refs t !! y) as [[m []]|] eqn:Ey; injection E as _ <-; cbn [t_refs t_db]; (split; [|reflexivity]); intros x; try tauto;
      unfold doomed; (destruct (decide (x = y)) as [->|]; [rewrite lookup_insert; discriminate|rewrite lookup_insert_ne by congruence; auto]).
  - unfold release in E. destruct (k =? 0); [injection E as _ <-; left; auto|]. unfold decref in E. destruct (k =? 0); [discriminate|].
    destruct (t_refs t !! y) as [[m b]|] eqn:Ey; [|discriminate]. destruct (m <? k); [discriminate|]. cbn in E. injection E as _ <-. left. cbn [t_refs t_db].
    split; [|reflexivity]. intros x. unfold doomed. destruct (decide (x = y)) as [->|]; [rewrite lookup_insert, Ey; auto|rewrite lookup_insert_ne by congruence; auto].
Qed.

(** ** the database and the reference table *)
Record DR (W : Z) (d : db) (r : refs) : Prop := {
  dr_inv : Inv d;
  dr_refs : refs_ok r;
  dr_next : exists n, d_next d = Some n /\ n <= W + 2;
  dr_cnt : forall x, refcount r x <= W;
  dr_doom : forall x, doomed r x = true -> d_inodes d !! x = None /\ exists n, d_next d = Some n /\ x < n;
  dr_held : forall x, 0 < refcount r x -> d_inodes d !! x <> None }.
(** everything in [d] is still in [d'] with the same type, or doomed; what was removed before does not come back *)
Definition covers (r : refs) (d d' : db) : Prop :=
  (forall x i, d_inodes d !! x = Some i -> (exists j, d_inodes d' !! x = Some j /\ ftype (a_mode (i_attr j)) = ftype (a_mode (i_attr i))) \/ doomed r x = true) /\
  next_le d d' /\
  (forall x n, d_inodes d !! x = None -> d_next d = Some n -> x < n -> d_inodes d' !! x = None).
Definition more_doomed (r r' : refs) : Prop := forall x, doomed r x = true -> doomed r' x = true.
Lemma covers_refl r d : Inv d -> covers r d d.
Proof. intros H. split; [|split; [apply next_le_refl; assumption|auto]]. intros x i Hi. left. eauto. Qed.
Lemma covers_trans r r' d1 d2 d3 : covers r d1 d2 -> covers r' d2 d3 -> more_doomed r r' -> covers r' d1 d3.
Proof.
  intros (A1 & B1 & C1) (A2 & B2 & C2) Hm. split; [|split; [eapply next_le_trans; eassumption|]].
  - intros x i Hi. destruct (A1 x i Hi) as [(j & Hj & Ej)|Hd]; [|right; auto]. destruct (A2 x j Hj) as [(l & Hl & El)|Hd]; [|auto]. left. exists l. split; congruence.
  - intros x n Hn Hnx Hx. destruct B1 as (a1 & a2 & Ha1 & Ha2 & Hle). eapply C2; [eapply C1; eassumption|eassumption|]. assert (a1 = n) by congruence. lia.
Qed.
Definition cost (o : op) : Z := match o with OEmplace _ _ _ | OLock _ => 1 | _ => 0 end.

Lemma step_DR W t o res t' : DR W (t_db t) (t_refs t) -> hooks_ok (t_hooks t) -> legal t o -> W + 3 < 2 ^ 64 ->
  (forall x, o = OLock x -> d_inodes (t_db t) !! x <> None \/ doomed (t_refs t) x = true) ->
  step t o = Done (res, t') ->
  DR (W + cost o) (t_db t') (t_refs t') /\ hooks_ok (t_hooks t') /\ covers (t_refs t') (t_db t) (t_db t') /\ more_doomed (t_refs t) (t_refs t').
Proof.
  intros [H Hr (nx & Hnx & Hnxle) Hcnt Hdoom Hheld] Hh Hleg HW Hlock E.
  assert (HT : TInv t) by (split; assumption).
  destruct (step_fr t o res t' HT Hleg E) as [HT' [(k & k' & Hk & Hk' & Hkk & Hnew) Hfr]].
  destruct (step_more t o res t' HT Hleg E) as (M1 & M2 & M3 & _ & _).
  assert (Hk2 : k = nx) by congruence. subst k.
  assert (Hcost : 0 <= cost o) by (destruct o; cbn; lia).
  assert (Hrc : forall x, refcount (t_refs t') x = count_after o res x (refcount (t_refs t) x)) by (intros x; eapply step_refcount; eassumption).
  assert (Hnn : forall x, 0 <= refcount (t_refs t) x) by (intros x; apply refcount_nonneg; assumption).
  pose proof (tinv_db _ HT') as H'. pose proof (tinv_refs _ HT') as Hr'.
  assert (Hcb : forall x, refcount (t_refs t') x <= refcount (t_refs t) x + cost o).
  { intros x. rewrite Hrc. specialize (Hnn x). specialize (Hcnt x). destruct o; cbn [count_after cost]; try lia; try (destruct res; lia).
    - destruct res; [|lia]. destruct (_ =? x); [|lia]. unfold w64. rewrite Z.mod_small; lia.
    - destruct res; [|lia]. destruct (_ =? x); cbn in Hleg; lia. }
  assert (Hold : forall x, d_inodes (t_db t) !! x = None -> x < nx -> d_inodes (t_db t') !! x = None).
  { intros x Hn Hx. destruct (d_inodes (t_db t') !! x) as [i|] eqn:Ei; [|reflexivity]. specialize (Hnew x i Hn Ei). lia. }
  split; [|split; [apply (tinv_hooks _ HT')|split; [|exact M1]]].
  - split; [assumption..| | | |].
    + exists k'. split; [assumption|]. destruct (step_shape t o res t' HT Hleg E) as [[_ Hs]|(d1 & R & Ed & _ & _ & _ & Hs)].
      * assert (k' = nx) by congruence. lia.
      * rewrite Ed in Hk'. cbn [cleaned d_next] in Hk'. destruct Hs as [Hs|(p & n & a & k & -> & Hk2 & Hs)]; [assert (k' = nx) by congruence; lia|].
        assert (k' = nx + 1) by congruence. cbn. lia.
    + intros x. specialize (Hcb x). specialize (Hcnt x). lia.
    + intros x Hx. assert (Hor : doomed (t_refs t) x = true \/ d_inodes (t_db t') !! x = None /\ exists n, d_next (t_db t') = Some n /\ x < n).
      { destruct (step_shape t o res t' HT Hleg E) as [[Hs _]|(d1 & R & Ed & Er & Hi1 & HR & Hs)]; [left; auto|].
        rewrite Er in Hx. apply doomed_doom_all in Hx as [Hx|Hx]; [|left; assumption]. right. rewrite Ed. split.
        - destruct (d_inodes (cleaned R d1) !! x) as [i|] eqn:Ei; [|reflexivity]. apply cleaned_inodes in Ei as [? _]. contradiction.
        - destruct (gone_has _ _ _ Hi1 (HR _ Hx)) as [Hin _]. apply has_inode_iff in Hin as [i Hi]. destruct (inv_next _ Hi1) as (n & Hn & _ & Hlt). exists n. split; [exact Hn|]. apply (Hlt _ _ Hi). }
      destruct Hor as [Hd|?]; [|assumption]. destruct (Hdoom x Hd) as [Hn (n & Hn' & Hlt)]. assert (n = nx) by congruence. subst n. split; [apply Hold; assumption|].
      exists k'. split; [assumption|lia].
    + intros x Hx. destruct (decide (0 < refcount (t_refs t) x)) as [Hpos|Hnp].
      * specialize (Hheld x Hpos). destruct (d_inodes (t_db t) !! x) as [i|] eqn:Ei; [|contradiction]. destruct (Hfr x i Ei) as [(_ & _ & ?)|(j & Hj & _)]; [lia|]. rewrite Hj. discriminate.
      * assert (o = OLock x).
        { rewrite Hrc in Hx. destruct o; cbn [count_after] in Hx; try lia; try (destruct res; lia).
          - destruct res; [|lia]. destruct (Z.eqb_spec ino x); [congruence|lia].
          - destruct res; [|lia]. destruct (Z.eqb_spec ino x); cbn in Hleg; lia. }
        subst o. cbn [step] in E. unfold lock in E. destruct (Hlock x eq_refl) as [Hin|Hd].
        -- destruct (incref (t_refs t) x 1) as [[|] r']; injection E as _ <-; assumption.
        -- exfalso. unfold incref in E. unfold doomed in Hd. destruct (t_refs t !! x) as [[m b]|] eqn:Em; [|discriminate]. rewrite Hd in E. injection E as _ <-. cbn [t_refs] in Hx. lia.
  - split; [|split; [exists nx, k'; auto|]]; [|intros x n Hn Hn' Hx; apply Hold; [assumption|]; assert (n = nx) by congruence; lia].
    intros x i Hi. destruct (Hfr x i Hi) as [(Hn & _)|(j & Hj & Ej & _)]; [|left; eauto].
    right. apply M2; [congruence|assumption].
Qed.

(** ** a transaction on the way *)
Record way (W : Z) (t0 : tx) (W' : Z) (t : tx) : Prop := {
  wy_dr : DR W' (t_db t) (t_refs t);
  wy_hooks : hooks_ok (t_hooks t);
  wy_covers : covers (t_refs t) (t_db t0) (t_db t);
  wy_doomed : more_doomed (t_refs t0) (t_refs t);
  wy_le : W <= W' }.
Lemma way_tinv W t0 W' t : way W t0 W' t -> TInv t.
Proof. intros [[? ? _ _ _ _] ? _ _ _]. split; assumption. Qed.
Lemma way_begin W d r : DR W d r -> way W (begin_tx d r) W (begin_tx d r).
Proof. intros H. split; cbn; [assumption|constructor|apply covers_refl; apply H|intros x; auto|lia]. Qed.
Lemma way_step W t0 W' t o res t' : way W t0 W' t -> legal t o -> W' + 3 < 2 ^ 64 ->
  (forall x, o = OLock x -> d_inodes (t_db t) !! x <> None \/ doomed (t_refs t) x = true) ->
  step t o = Done (res, t') -> way W t0 (W' + cost o) t'.
Proof.
  intros [A B C D L] Hleg HW Hl E. destruct (step_DR _ _ _ _ _ A B Hleg HW Hl E) as (A' & B' & C' & D').
  split; [assumption..| | |].
  - eapply covers_trans; eassumption.
  - intros x Hx. apply D', D, Hx.
  - destruct o; cbn [cost]; lia.
Qed.
Lemma way_room W t0 W' t : way W t0 W' t -> W' + 3 < 2 ^ 64 -> room (t_db t).
Proof. intros [[_ _ (n & Hn & Hle) _ _ _] _ _ _ _] HW. exists n. split; [assumption|lia]. Qed.

(** ** the invariant *)
Definition dir_if_there (d : db) (x : Z) : Prop :=
  (exists n, d_next d = Some n /\ x < n) /\ forall i, d_inodes d !! x = Some i -> ftype (a_mode (i_attr i)) = S_IFDIR.
Record FInv (W : Z) (s : fstate) (k : kst) : Prop := {
  fi_dr : DR W (s_db s) (s_refs s);
  fi_k : forall x, 0 <= kcount k x <= refcount (s_refs s) x;
  fi_kd : forall x, x ∈ k_dirs k -> dir_if_there (s_db s) x;
  fi_snap : forall id ds x, s_plus s !! id = Some (ds, x) -> Inv ds /\ covers (s_refs s) ds (s_db s) }.

Lemma kdir_is_dir W s k x : FInv W s k -> kdir k x -> is_dir (s_db s) x.
Proof.
  intros [Hdr Hk Hkd _] [->|[Hx Hc]].
  - destruct (inv_root _ (dr_inv _ _ _ Hdr)) as (i & Hi & _ & Ht). exists i. auto.
  - destruct (Hkd x Hx) as [_ Hi]. pose proof (dr_held _ _ _ Hdr x ltac:(specialize (Hk x); lia)) as Hn.
    destruct (d_inodes (s_db s) !! x) as [i|] eqn:Ei; [|contradiction]. exists i. auto.
Qed.
Lemma covers_dir r d d' x : Inv d -> Inv d' -> covers r d d' -> (forall y, doomed r y = true -> d_inodes d' !! y = None) ->
  dir_if_there d x -> dir_if_there d' x.
Proof.
  intros H H' (A & (a & b & Ha & Hb & Hab) & C) Hd [(n & Hn & Hx) Hi]. split; [exists b; split; [assumption|]; assert (a = n) by congruence; lia|].
  intros i Hi'. destruct (d_inodes d !! x) as [j|] eqn:Ej.
  - destruct (A x j Ej) as [(l & Hl & El)|Hdm]; [|rewrite (Hd _ Hdm) in Hi'; discriminate]. specialize (Hi j eq_refl). congruence.
  - rewrite (C x n Ej Hn Hx) in Hi'. discriminate.
Qed.
Lemma DR_doom W d r : DR W d r -> forall y, doomed r y = true -> d_inodes d !! y = None.
Proof. intros H y Hy. apply (dr_doom _ _ _ H y Hy). Qed.

(** a transaction that commits; the kernel learns no new directory, or one that is there *)
Lemma fi_commit W s k W' t k' : FInv W s k -> way W (begin_tx (s_db s) (s_refs s)) W' t ->
  (forall x, 0 <= kcount k' x <= refcount (t_refs t) x) ->
  (forall x, x ∈ k_dirs k' -> x ∈ k_dirs k \/ is_dir (t_db t) x) ->
  FInv W' (set_dbr (t_db t) (t_refs t) s) k'.
Proof.
  intros [Hdr Hk Hkd Hs] [A B C D L] Hk' Hd'. cbn [begin_tx t_db t_refs] in *.
  split; cbn [set_dbr s_db s_refs s_plus]; [assumption..| |].
  - intros x Hx. destruct (Hd' x Hx) as [Hx'|(i & Hi & Ht)].
    + eapply covers_dir; [apply (dr_inv _ _ _ Hdr)|apply (dr_inv _ _ _ A)|exact C|apply (DR_doom _ _ _ A)|auto].
    + split; [|intros j Hj; congruence]. destruct (inv_next _ (dr_inv _ _ _ A)) as (n & Hn & _ & Hlt). exists n. split; [assumption|]. apply (Hlt _ _ Hi).
  - intros id ds x Hx. destruct (Hs id ds x Hx) as [Hi Hc]. split; [assumption|]. eapply covers_trans; eassumption.
Qed.
Lemma way_weaken W t0 W' W'' t : way W t0 W' t -> W' <= W'' -> way W t0 W'' t.
Proof.
  intros [[a b (n & Hn & Hle) c d e] B C D L] Hw. split; [split; [assumption..| | |assumption|assumption]|assumption..|lia].
  - exists n. split; [assumption|lia].
  - intros x. specialize (c x). lia.
Qed.
Lemma fi_id W s k : FInv W s k -> s = set_dbr (s_db s) (s_refs s) s.
Proof. destruct s. reflexivity. Qed.
Lemma set_dbr_id s : set_dbr (s_db s) (s_refs s) s = s.
Proof. destruct s. reflexivity. Qed.

(** a linked inode is not reclaimable *)
Lemma linked_not_gone d r comps p : Inv d -> walk d 1 comps p -> ~ gone d r p.
Proof.
  intros H. revert p. induction comps as [|m comps IH] using rev_ind; intros p Hw G.
  - cbn in Hw. subst p. inversion G as [o Ho _|q c e _ He _]; subst; [apply (inv_root_orph _ H); assumption|].
    destruct (treei_facts _ _ _ _ H He) as (_ & _ & _ & Hne & _). congruence.
  - destruct (walk_last _ _ _ H Hw) as [[_ Hnil]|(c & n & q & e & Hc & Hw' & He & _)]; [destruct comps; discriminate|].
    apply app_inj_tail in Hc as [<- <-]. inversion G as [o Ho _|q' c' e' G' He' _]; subst.
    + destruct (inv_orphan _ H _ Ho) as (i & Hi & Hi0). destruct (treei_facts _ _ _ _ H He) as (Hp & _ & _ & _ & Hq0 & _).
      pose proof (treei_par _ _ _ _ _ H Hi He). congruence.
    + destruct (treei_facts _ _ _ _ H He) as (Hp & _). destruct (treei_facts _ _ _ _ H He') as (Hp' & _). assert (q' = q) by congruence. subst q'. eapply IH; eassumption.
Qed.
