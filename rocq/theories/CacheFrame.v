(** Effects of the write operations in terms of the read operations. *)
From Verif Require Export CacheFacts.

(** ** reads after [cleaned] *)
Lemma cleaned_getattr R d x : getattr (cleaned R d) x = if decide (x ∈ R) then Err ENOENT else getattr d x.
Proof.
  unfold getattr. destruct (d_inodes (cleaned R d) !! x) as [i|] eqn:E.
  - apply cleaned_inodes in E as (Hx & j & -> & ->). rewrite decide_False by assumption. f_equal.
    unfold unpar_set. destruct (decide _); reflexivity.
  - destruct (decide (x ∈ R)); [reflexivity|]. destruct (d_inodes d !! x) as [j|] eqn:Ej; [|reflexivity].
    exfalso. assert (E2 : d_inodes (cleaned R d) !! x = Some (unpar_set R j)) by (apply cleaned_inodes; eauto). congruence.
Qed.
Lemma cleaned_test_flag R d x f : test_flag (cleaned R d) x f = if decide (x ∈ R) then Err ENOENT else test_flag d x f.
Proof.
  unfold test_flag. destruct (d_inodes (cleaned R d) !! x) as [i|] eqn:E.
  - apply cleaned_inodes in E as (Hx & j & -> & ->). rewrite decide_False by assumption. f_equal.
    unfold unpar_set. destruct (decide _); reflexivity.
  - destruct (decide (x ∈ R)); [reflexivity|]. destruct (d_inodes d !! x) as [j|] eqn:Ej; [|reflexivity].
    exfalso. assert (E2 : d_inodes (cleaned R d) !! x = Some (unpar_set R j)) by (apply cleaned_inodes; eauto). congruence.
Qed.
Lemma cleaned_readlink R d x : readlink (cleaned R d) x = if decide (x ∈ R) then Err ENOENT else readlink d x.
Proof.
  unfold readlink. destruct (decide (x ∈ R)) as [Hx|Hx].
  - destruct (d_links (cleaned R d) !! x) as [b|] eqn:E; [apply cleaned_links in E as [? _]; contradiction|].
    pose proof (cleaned_getattr R d x) as Hg. rewrite decide_True in Hg by assumption. apply getattr_Err in Hg as [-> _]. reflexivity.
  - destruct (d_links d !! x) as [b|] eqn:E.
    + rewrite (proj2 (cleaned_links R d x b)) by auto. reflexivity.
    + destruct (d_links (cleaned R d) !! x) as [b|] eqn:E'; [apply cleaned_links in E' as [_ E']; congruence|].
      pose proof (cleaned_getattr R d x) as Hg. rewrite decide_False in Hg by assumption. unfold getattr in Hg.
      destruct (d_inodes (cleaned R d) !! x), (d_inodes d !! x); congruence || reflexivity.
Qed.
Lemma cleaned_lookup R d p n : Inv d -> Inv (cleaned R d) -> u64 p -> p ∉ R -> lookup (cleaned R d) p n = lookup d p n.
Proof.
  intros H H' Hp HR. apply lookup_ext; auto. apply option_eq. intros e. rewrite cleaned_treen. tauto.
Qed.
Lemma cleaned_lookup_gone R d p n : Inv (cleaned R d) -> u64 p -> p ∈ R -> forall c, lookup (cleaned R d) p n <> Ok c.
Proof.
  intros H' Hp HR c E. apply lookup_Ok in E as (_ & e & He & _); auto. apply cleaned_treen in He as [? _]. contradiction.
Qed.
Lemma cleaned_parent R d x p : x ∉ R -> parent_of d x = Ok p ->
  parent_of (cleaned R d) x = Ok (if decide (x <> 1 /\ p ∈ R) then 0 else p).
Proof.
  intros Hx E. unfold parent_of in *. unfold ROOT_INO in *. destruct (Z.eqb_spec x 1) as [->|Hne].
  - rewrite decide_False by tauto. assumption.
  - destruct (d_inodes d !! x) as [i|] eqn:Ei; [|discriminate]. injection E as <-.
    assert (E2 : d_inodes (cleaned R d) !! x = Some (unpar_set R i)) by (apply cleaned_inodes; eauto). rewrite E2.
    f_equal. unfold unpar_set. destruct (decide (i_parent i ∈ R)); [rewrite decide_True by auto|rewrite decide_False by tauto]; reflexivity.
Qed.

(** ** reads after [detach1] and [added] *)
Lemma detach1_getattr p c n i d x : d_inodes d !! c = Some i -> getattr (detach1 p c n i d) x = getattr d x.
Proof.
  intros Hi. unfold getattr. cbn. destruct (decide (x = c)) as [->|Hne].
  - rewrite lookup_insert, Hi. reflexivity.
  - rewrite lookup_insert_ne by congruence. reflexivity.
Qed.
Lemma detach1_test_flag p c n i d x f : d_inodes d !! c = Some i -> test_flag (detach1 p c n i d) x f = test_flag d x f.
Proof.
  intros Hi. unfold test_flag. cbn. destruct (decide (x = c)) as [->|Hne].
  - rewrite lookup_insert, Hi. reflexivity.
  - rewrite lookup_insert_ne by congruence. reflexivity.
Qed.
Lemma detach1_readlink p c n i d x : d_inodes d !! c = Some i -> readlink (detach1 p c n i d) x = readlink d x.
Proof.
  intros Hi. unfold readlink. cbn. destruct (d_links d !! x); [reflexivity|]. destruct (decide (x = c)) as [->|Hne].
  - rewrite lookup_insert, Hi. reflexivity.
  - rewrite lookup_insert_ne by congruence. reflexivity.
Qed.
Lemma detach1_parent p c n i d x : Inv d -> c <> 1 ->
  parent_of (detach1 p c n i d) x = if decide (x = c) then Ok 0 else parent_of d x.
Proof.
  intros H Hc. unfold parent_of, ROOT_INO. cbn. destruct (Z.eqb_spec x 1) as [->|Hne].
  - rewrite decide_False by congruence. reflexivity.
  - destruct (decide (x = c)) as [->|Hxc]; [rewrite lookup_insert; reflexivity|].
    rewrite lookup_insert_ne by congruence. reflexivity.
Qed.
Lemma detach1_lookup p c n i d q m : Inv d -> Inv (detach1 p c n i d) -> u64 q -> (q, m) <> (p, n) ->
  lookup (detach1 p c n i d) q m = lookup d q m.
Proof. intros H H' Hq Hne. apply lookup_ext; auto. cbn. rewrite lookup_delete_ne by congruence. reflexivity. Qed.

(** ** what is gone after detaching / adding *)
Lemma falls_gone_ge d r o x : Inv d -> u64 o -> falls d r o x -> o <= x /\ u64 x.
Proof.
  intros H Ho Hf. induction Hf as [Hr|p n x Hp IH Hl Hr]; [split; [lia|assumption]|].
  destruct IH as [IH1 IH2]. apply lookup_treei in Hl as (e & He & _); auto.
  destruct (treei_facts _ _ _ _ H He) as (_ & _ & _ & _ & _ & ? & _ & ?). split; [lia|assumption].
Qed.
Lemma gone_u64 d r x : Inv d -> gone d r x -> u64 x.
Proof.
  intros H Hg. inversion Hg as [o Ho _|q c e _ He _]; subst.
  - destruct (inv_orphan _ H _ Ho) as (i & Hi & _). apply (u64_of_inode _ _ _ H Hi).
  - apply (treei_facts _ _ _ _ H He).
Qed.
Lemma gone_has d r x : Inv d -> gone d r x -> has_inode d x /\ refcount r x <= 0.
Proof.
  intros H Hg. inversion Hg as [o Ho Hr|q c e _ He Hr]; subst; (split; [|assumption]).
  - destruct (inv_orphan _ H _ Ho) as (i & Hi & _). apply has_inode_iff. eauto.
  - apply (treei_facts _ _ _ _ H He).
Qed.

Lemma gone_detach d r p c e i x : Inv d -> refs_ok r -> d_treei d !! (p, c) = Some e -> d_inodes d !! c = Some i ->
  gone (detach1 p c (de_name e) i d) r x <-> gone d r x \/ falls d r c x.
Proof.
  intros H Hr He Hi. destruct (treei_facts _ _ _ _ H He) as (_ & _ & _ & _ & _ & Hpc & Hpu & Hcu). split.
  - induction 1 as [x Hx Hrx|q x f Hq IH Hf Hrx]; cbn in *.
    + apply elem_of_union in Hx as [Hx|Hx]; [left; apply gone_orphan; assumption|].
      apply elem_of_singleton in Hx as ->. right. apply falls_top. pose proof (refcount_nonneg r c Hr). lia.
    + apply lookup_delete_Some in Hf as [_ Hf]. destruct IH as [IH|IH].
      * left. eapply gone_child; eassumption.
      * right. eapply (falls_entry _ _ _ q (de_name f)); [exact IH| |pose proof (refcount_nonneg r x Hr); lia].
        apply lookup_treei; [assumption|apply (treei_facts _ _ _ _ H Hf)|eauto].
  - intros [Hg|Hf].
    + induction Hg as [x Hx Hrx|q x f Hq IH Hf Hrx].
      * apply gone_orphan; [cbn; set_solver|assumption].
      * destruct (decide ((p, c) = (q, x))) as [E|E].
        -- injection E as -> ->. apply gone_orphan; [cbn; set_solver|assumption].
        -- eapply gone_child; [exact IH| |assumption]. cbn. apply lookup_delete_Some. eauto.
    + induction Hf as [Hrx|q n x Hq IH Hl Hrx].
      * apply gone_orphan; [cbn; set_solver|lia].
      * destruct (falls_gone_ge _ _ _ _ H Hcu Hq) as [Hge Hqu]. apply lookup_treei in Hl as (f & Hf & _); auto.
        eapply gone_child; [exact IH| |lia]. cbn. apply lookup_delete_Some. split; [|exact Hf].
        intros E. injection E as -> ->. lia.
Qed.

Lemma gone_added d r p n a k x : Inv d -> d_inodes d !! k = None -> ~ gone d r p ->
  gone (added p n a k d) r x <-> gone d r x.
Proof.
  intros H Hk Hp. split.
  - induction 1 as [x Hx Hrx|q x f Hq IH Hf Hrx]; cbn in *.
    + apply gone_orphan; assumption.
    + destruct (decide ((p, k) = (q, x))) as [E|E].
      * injection E as -> ->. contradiction.
      * rewrite lookup_insert_ne in Hf by assumption. eapply gone_child; eassumption.
  - induction 1 as [x Hx Hrx|q x f Hq IH Hf Hrx].
    + apply gone_orphan; assumption.
    + eapply gone_child; [exact IH| |exact Hrx]. cbn. rewrite lookup_insert_ne; [exact Hf|].
      intros E. injection E as -> ->. destruct (treei_facts _ _ _ _ H Hf) as (_ & Hx & _).
      apply has_inode_iff in Hx as [? ?]. congruence.
Qed.

(** ** emplace *)
Lemma emplace_api t p n a i t' : TInv t -> is_dir (t_db t) p -> room (t_db t) ->
  ~ reclaimable (t_db t) (t_refs t) p ->
  emplace t p n a = Done (Ok i, t') ->
  let d := t_db t in let d' := t_db t' in let r := t_refs t in
  valid_name n /\ TInv t' /\
  lookup d' p n = Ok i /\ getattr d' i = Ok a /\ parent_of d' i = Ok p /\ name_in d' p i = Ok n /\
  (forall f, 0 <= f -> test_flag d' i f = Ok false) /\
  (forall x, refcount (t_refs t') x = refcount r x) /\ t_hooks t' = t_hooks t /\
  ((* the name existed with the same type *)
   (lookup d p n = Ok i /\ (exists a0, getattr d i = Ok a0 /\ ftype (a_mode a0) = ftype (a_mode a)) /\
    t_refs t' = r /\ d_next d' = d_next d /\
    t_rw t' = (match t_rw t with None => None | Some s => Some (s ∖ {[i]}) end) /\
    (forall x, x <> i -> getattr d' x = getattr d x /\ forall f, test_flag d' x f = test_flag d x f) /\
    (forall x, readlink d' x = readlink d x) /\
    (forall q m, u64 q -> lookup d' q m = lookup d q m) /\
    (forall x, parent_of d' x = parent_of d x)) \/
   (* it is new or replaces an entry of another type *)
   (d_next d = Some i /\ d_next d' = Some (i + 1) /\ ~ has_inode d i /\ t_rw t' = t_rw t /\
    (forall c a0, lookup d p n = Ok c -> getattr d c = Ok a0 -> ftype (a_mode a0) <> ftype (a_mode a)) /\
    readlink d' i = Err EINVAL /\
    exists removed : Z -> Prop,
      (forall x, removed x <-> reclaimable d r x \/ exists c, lookup d p n = Ok c /\ falls d r c x) /\
      (forall x, removed x -> getattr d' x = Err ENOENT /\ readlink d' x = Err ENOENT) /\
      (forall x, x <> i -> ~ removed x -> getattr d' x = getattr d x /\ readlink d' x = readlink d x /\
                 forall f, test_flag d' x f = test_flag d x f) /\
      (forall q m, u64 q -> (q, m) <> (p, n) -> ~ removed q -> lookup d' q m = lookup d q m) /\
      (forall x, doomed (t_refs t') x = true <-> removed x \/ doomed r x = true))).
Proof.
  intros HT Hdir Hroom Hnr E d d' r. pose proof (tinv_db _ HT) as H. fold d in H.
  pose proof (tinv_refs _ HT) as Hr. fold r in Hr.
  rewrite reclaimable_gone in Hnr by assumption. fold d r in Hnr.
  assert (Hpu : u64 p). { destruct Hdir as (j & Hj & _). apply (u64_of_inode _ _ _ H Hj). }
  assert (Hp0 : p <> 0). { destruct Hdir as (j & Hj & _). apply (u64_of_inode _ _ _ H Hj). }
  destruct (emplace_spec t p n a HT Hdir Hroom) as
    [(err & _ & E')|[(Hv & e & oi & He & Hoi & Hty & E' & HT')|(Hv & Hty & k & R & Hk & Hfresh & Hd1 & HR & E' & HT')]];
    rewrite E' in E; [discriminate| |]; injection E as <- <-; subst d'; cbn [t_db t_refs t_hooks t_rw] in *.
  - (* same type *) fold d in He, Hoi.
    destruct (treen_child _ _ _ _ H He) as (Hti & Hname & (i' & Hi' & Hpar)).
    assert (i' = oi) by congruence. subst i'.
    destruct (treei_facts _ _ _ _ H Hti) as (Hparent & _ & _ & Hne1 & _ & _ & _ & Hcu).
    pose proof (tinv_db _ HT') as H'. cbn [t_db] in H'.
    change (t_db t) with d in HT', H' |- *. set (d' := set_inodes (<[de_ino e := mkinode a p]> (d_inodes d)) d) in *.
    assert (Hlk : forall q m, u64 q -> lookup d' q m = lookup d q m).
    { intros q m Hq. apply lookup_ext; auto. }
    assert (Hl : lookup d p n = Ok (de_ino e)) by (apply lookup_Ok; eauto).
    assert (Hpo : forall x, parent_of d' x = parent_of d x).
    { intros x. unfold parent_of. destruct (x =? ROOT_INO); [reflexivity|]. cbn.
      destruct (decide (x = de_ino e)) as [->|Hx]; [rewrite lookup_insert, Hoi; cbn; congruence|].
      rewrite lookup_insert_ne by congruence. reflexivity. }
    assert (Hl' : lookup d' p n = Ok (de_ino e)) by (rewrite Hlk by assumption; assumption).
    cbn zeta. split_and!; auto.
    + unfold getattr. cbn. rewrite lookup_insert. reflexivity.
    + rewrite Hpo. assumption.
    + apply name_in_Ok; auto. eauto.
    + intros f Hf. unfold test_flag. cbn. rewrite lookup_insert. unfold flag_test. cbn [i_flags mkinode]. rewrite Z.land_0_l. reflexivity.
    + left. split_and!; auto.
      * exists (i_attr oi). split; [apply getattr_Ok; eauto|assumption].
      * intros x Hx. unfold getattr, test_flag. cbn. rewrite lookup_insert_ne by congruence. auto.
      * intros x. unfold readlink. cbn. destruct (d_links d !! x); [reflexivity|].
        destruct (decide (x = de_ino e)) as [->|Hx]; [rewrite lookup_insert, Hoi; reflexivity|].
        rewrite lookup_insert_ne by congruence. reflexivity.
  - (* fresh *)
    change (t_db t) with d in Hd1, HR, HT', Hty, Hfresh |- *. set (d0 := detached_name d p n) in *. set (d1 := added p n a k d0) in *.
    fold d in Hk, Hfresh, Hty. fold r in HR, HT' |- *.
    destruct (detached_name_spec d p n H) as (Hi0 & Hn0 & Hk0 & Hd0). fold d0 in Hi0, Hn0, Hk0, Hd0.
    assert (Hfresh0 : d_inodes d0 !! k = None).
    { unfold d0, detached_name. destruct (d_treen d !! (p, n)) as [e|]; [|assumption].
      destruct (d_inodes d !! de_ino e) as [j|] eqn:Ej; [|assumption]. cbn. rewrite lookup_insert_ne; [assumption|congruence]. }
    assert (Hg0 : forall x, gone d0 r x <-> gone d r x \/ exists c, lookup d p n = Ok c /\ falls d r c x).
    { intros x. unfold d0, detached_name. destruct (d_treen d !! (p, n)) as [e|] eqn:He.
      - destruct (treen_child _ _ _ _ H He) as (Hti & Hname & (j & Hj & Hpar)). rewrite Hj.
        rewrite <- Hname. rewrite (gone_detach _ _ _ _ _ _ x H Hr Hti Hj).
        assert (Hl : forall c, lookup d p n = Ok c <-> c = de_ino e).
        { intros c. rewrite lookup_Ok by assumption. split; [intros (_ & e' & He' & <-); congruence|intros ->; eauto]. }
        rewrite Hname. split; intros [|Hx]; auto.
        + right. exists (de_ino e). split; [apply Hl; reflexivity|assumption].
        + destruct Hx as (c & Hc & Hx). apply Hl in Hc as ->. auto.
      - split; [auto|]. intros [|(c & Hc & _)]; [assumption|]. apply lookup_Ok in Hc as (_ & e & He' & _); auto. congruence. }
    assert (Hnp0 : ~ gone d0 r p).
    { rewrite Hg0. intros [|(c & Hc & Hf)]; [contradiction|]. apply lookup_treei in Hc as (e & He & _); auto.
      destruct (treei_facts _ _ _ _ H He) as (_ & _ & _ & _ & _ & Hlt & _ & Hcu).
      destruct (falls_gone_ge _ _ _ _ H Hcu Hf). lia. }
    assert (HR' : forall x, x ∈ R <-> reclaimable d r x \/ exists c, lookup d p n = Ok c /\ falls d r c x).
    { intros x. rewrite HR. unfold d1. rewrite gone_added by assumption. rewrite Hg0, reclaimable_gone by assumption. reflexivity. }
    assert (HkR : k ∉ R).
    { rewrite HR. intros Hg. unfold d1 in Hg. apply gone_added in Hg; auto. apply gone_has in Hg as [Hx _]; auto.
      apply has_inode_iff in Hx as [? ?]. congruence. }
    assert (HpR : p ∉ R). { rewrite HR. unfold d1. rewrite gone_added by assumption. assumption. }
    assert (Hku : u64 k /\ k <> 1).
    { destruct (inv_next _ H) as (k' & Hk' & ? & _). rewrite Hk in Hk'. injection Hk' as <-. unfold u64. lia. }
    destruct Hku as [Hku Hk1].
    pose proof (tinv_db _ HT') as H'. cbn [t_db] in H'.
    assert (Hti1 : d_treei (cleaned R d1) !! (p, k) = Some (Dirent 0 0 k n)).
    { apply cleaned_treei. split; [assumption|]. cbn. apply lookup_insert. }
    assert (Hga : forall x, x <> k -> getattr d1 x = getattr d x /\ readlink d1 x = readlink d x /\ forall f, test_flag d1 x f = test_flag d x f).
    { intros x Hx. assert (G0 : getattr d0 x = getattr d x /\ readlink d0 x = readlink d x /\ forall f, test_flag d0 x f = test_flag d x f).
      { unfold d0, detached_name. destruct (d_treen d !! (p, n)) as [e|]; [|auto].
        destruct (d_inodes d !! de_ino e) as [j|] eqn:Ej; [|auto].
        rewrite detach1_getattr, detach1_readlink by assumption. split_and!; auto. intros f. apply detach1_test_flag. assumption. }
      destruct G0 as (G1 & G2 & G3). rewrite <- G1, <- G2. unfold getattr, readlink, test_flag in *. cbn.
      rewrite !lookup_insert_ne by congruence. split_and!; auto. }
    split_and!; auto.
    + apply lookup_treei; [assumption..|]. eexists. split; [exact Hti1|reflexivity].
    + rewrite cleaned_getattr, decide_False by assumption. unfold getattr. cbn. rewrite lookup_insert. reflexivity.
    + apply (treei_facts _ _ _ _ H' Hti1).
    + apply name_in_Ok; auto. eexists. split; [exact Hti1|reflexivity].
    + intros f Hf. rewrite cleaned_test_flag, decide_False by assumption. unfold test_flag. cbn. rewrite lookup_insert.
      unfold flag_test. cbn [i_flags mkinode]. rewrite Z.land_0_l. reflexivity.
    + intros x. apply refcount_doom_all.
    + right. split_and!; auto.
      * intros Hx. apply has_inode_iff in Hx as [? ?]. congruence.
      * intros c a0 Hc Ha. apply lookup_Ok in Hc as (_ & e & He & <-); auto. apply getattr_Ok in Ha as (j & Hj & <-). eauto.
      * rewrite cleaned_readlink, decide_False by assumption. unfold readlink. cbn. rewrite lookup_insert.
        assert (Hl : d_links d0 !! k = None); [|rewrite Hl; reflexivity].
        destruct (d_links d0 !! k) as [b|] eqn:Eb; [|reflexivity]. destruct (inv_links _ Hi0 _ _ Eb) as (j & Hj & _). congruence.
      * exists (fun x => x ∈ R). split_and!.
        -- exact HR'.
        -- intros x Hx. rewrite cleaned_getattr, cleaned_readlink, !decide_True by assumption. auto.
        -- intros x Hx HxR. rewrite cleaned_getattr, cleaned_readlink, !decide_False by assumption.
           destruct (Hga x Hx) as (G1 & G2 & G3). split_and!; auto. intros f. rewrite cleaned_test_flag, decide_False by assumption. auto.
        -- intros q m Hq Hne HqR. rewrite cleaned_lookup by assumption. apply lookup_ext; auto. cbn.
           rewrite lookup_insert_ne by congruence. unfold d0, detached_name.
           destruct (d_treen d !! (p, n)) as [e|]; [|reflexivity].
           destruct (d_inodes d !! de_ino e) as [j|]; [|reflexivity]. cbn. rewrite lookup_delete_ne by congruence. reflexivity.
        -- intros x. unfold doomed. rewrite doom_all_lookup. destruct (decide (x ∈ R)); [tauto|]. tauto.
Qed.
