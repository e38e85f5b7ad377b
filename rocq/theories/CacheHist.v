(** Facts about single operations that are carried through histories: what an operation
    can do to an inode that already exists, and how inode numbers are consumed. *)
From Verif Require Export CacheFrame.

(** The operation names [x] as an object to modify. *)
Definition touches (d : db) (o : op) (x : Z) : Prop :=
  match o with
  | OEmplace p n a => lookup d p n = Ok x
  | OWritelink y _ => y = x
  | OFlags y _ _ => y = x
  | _ => False
  end.
Definition relinks (o : op) (x : Z) : Prop := match o with OWritelink y _ => y = x | _ => False end.

(** table-level frame: existing inodes are kept unless nobody holds them *)
Definition fr (r : refs) (T L : Z -> Prop) (d d' : db) : Prop :=
  (exists k k', d_next d = Some k /\ d_next d' = Some k' /\ k <= k' /\
     forall x i, d_inodes d !! x = None -> d_inodes d' !! x = Some i -> k <= x < k') /\
  forall x i, d_inodes d !! x = Some i ->
    (d_inodes d' !! x = None /\ d_links d' !! x = None /\ refcount r x <= 0) \/
    (exists j, d_inodes d' !! x = Some j /\ ftype (a_mode (i_attr j)) = ftype (a_mode (i_attr i)) /\
       (~ T x -> i_attr j = i_attr i /\ i_flags j = i_flags i) /\
       (~ L x -> d_links d' !! x = d_links d !! x)).
Definition nobody (x : Z) : Prop := False.

Lemma inv_next' d : Inv d -> exists k, d_next d = Some k /\ 2 <= k < 2 ^ 64 /\ forall x i, d_inodes d !! x = Some i -> 1 <= x < k.
Proof. intros H. destruct (inv_next _ H) as (k & Hk & ? & Hx). exists k. split_and!; auto; try lia. Qed.

Lemma fr_refl r T L d : Inv d -> fr r T L d d.
Proof.
  intros H. destruct (inv_next' _ H) as (k & Hk & _). split.
  - exists k, k. split_and!; auto; [lia|]. intros x i E E'. congruence.
  - intros x i Hi. right. exists i. auto.
Qed.
Lemma fr_trans r T L d1 d2 d3 : (forall x b, d_links d2 !! x = Some b -> exists i, d_inodes d2 !! x = Some i) ->
  (forall x b, d_links d3 !! x = Some b -> exists i, d_inodes d3 !! x = Some i) ->
  (forall x i k, d_inodes d1 !! x = Some i -> d_next d1 = Some k -> x < k) ->
  fr r T L d1 d2 -> fr r T L d2 d3 -> fr r T L d1 d3.
Proof.
  intros Hl2 Hl3 Hb (( k1 & k2 & E1 & E2 & Hle & Hn) & H) ((k2' & k3 & E2' & E3 & Hle' & Hn') & H').
  rewrite E2 in E2'. injection E2' as <-. split.
  - exists k1, k3. split_and!; auto; [lia|]. intros x i Hx Hx3.
    destruct (d_inodes d2 !! x) as [j|] eqn:E.
    + specialize (Hn _ _ Hx E). lia.
    + specialize (Hn' _ _ E Hx3). lia.
  - intros x i Hi. destruct (H _ _ Hi) as [(G1 & G2 & G3)|(j & G1 & G2 & G3 & G4)].
    + left. assert (E : d_inodes d3 !! x = None).
      { destruct (d_inodes d3 !! x) as [j|] eqn:E; [|reflexivity]. specialize (Hn' _ _ G1 E). specialize (Hb _ _ _ Hi E1). lia. }
      split_and!; auto. destruct (d_links d3 !! x) as [b|] eqn:Eb; [|reflexivity]. destruct (Hl3 _ _ Eb). congruence.
    + destruct (H' _ _ G1) as [(F1 & F2 & F3)|(j' & F1 & F2 & F3 & F4)]; [left; auto|right].
      exists j'. split_and!; auto; [congruence| |].
      * intros HT. destruct (G3 HT), (F3 HT). split; congruence.
      * intros HL. rewrite F4, G4; auto.
Qed.
Lemma fr_weaken r (T L T' L' : Z -> Prop) d d' : (forall x, T x -> T' x) -> (forall x, L x -> L' x) -> fr r T L d d' -> fr r T' L' d d'.
Proof.
  intros HT HL [G H]. split; [exact G|]. intros x i Hi. destruct (H _ _ Hi) as [|(j & A & B & C & D)]; [auto|right].
  exists j. split_and!; auto.
Qed.
Lemma links_ino d : Inv d -> forall x b, d_links d !! x = Some b -> exists i, d_inodes d !! x = Some i.
Proof. intros H x b Hb. destruct (inv_links _ H _ _ Hb) as (i & Hi & _). eauto. Qed.
Lemma ino_lt d : Inv d -> forall x i k, d_inodes d !! x = Some i -> d_next d = Some k -> x < k.
Proof. intros H x i k Hi Hk. destruct (inv_next' _ H) as (k' & Hk' & _ & Hx). rewrite Hk in Hk'. injection Hk' as <-. specialize (Hx _ _ Hi). lia. Qed.
Lemma fr_trans_inv r T L d1 d2 d3 : Inv d1 -> Inv d2 -> Inv d3 ->
  fr r T L d1 d2 -> fr r T L d2 d3 -> fr r T L d1 d3.
Proof. intros H1 H2 H3. apply fr_trans; [apply links_ino; assumption..|]. apply ino_lt. assumption. Qed.

Lemma fr_cleaned r T L R d : Inv d -> (forall x, x ∈ R -> refcount r x <= 0) -> fr r T L d (cleaned R d).
Proof.
  intros H HR. destruct (inv_next' _ H) as (k & Hk & _). split.
  - exists k, k. split_and!; auto; [lia|]. intros x i E E'. apply cleaned_inodes in E' as (_ & j & Ej & _). congruence.
  - intros x i Hi. destruct (decide (x ∈ R)) as [Hx|Hx]; [left|right].
    + pose proof (cleaned_getattr R d x) as Hg. rewrite decide_True in Hg by assumption. apply getattr_Err in Hg as [Hg _].
      split_and!; auto. destruct (d_links (cleaned R d) !! x) as [b|] eqn:E; [|reflexivity]. apply cleaned_links in E as [? _]. contradiction.
    + exists (unpar_set R i). split; [apply cleaned_inodes; eauto|]. unfold unpar_set. destruct (decide _); cbn [i_attr i_flags set_parent]; (split_and!; auto);
        intros _; apply option_eq; intros b; rewrite cleaned_links; tauto.
Qed.
Lemma fr_detach1 r T L p c e i d : Inv d -> d_treei d !! (p, c) = Some e -> d_inodes d !! c = Some i ->
  fr r T L d (detach1 p c (de_name e) i d).
Proof.
  intros H He Hi. destruct (inv_next' _ H) as (k & Hk & _). split.
  - exists k, k. split_and!; auto; [lia|]. intros x j E E'. cbn in E'. apply lookup_insert_Some in E' as [[-> _]|[_ ?]]; congruence.
  - intros x j Hj. right. cbn. destruct (decide (x = c)) as [->|Hne].
    + rewrite lookup_insert. assert (j = i) by congruence. subst j. eexists. split; [reflexivity|]. auto.
    + rewrite lookup_insert_ne by congruence. eexists; split_and!; eauto.
Qed.
Lemma fr_make_orphan r T L d c : Inv d -> fr r T L d (make_orphan d c).2.
Proof.
  intros H. destruct (make_orphan_cases d c H) as [[_ E]|[[_ E]|[[_ E]|(p & e & i & He & Hi & E)]]]; rewrite E; cbn [snd];
    try (apply fr_refl; assumption). apply fr_detach1; assumption.
Qed.
Lemma fr_fold r T L l d : Inv d -> fr r T L d (fold_left (fun d ino => (make_orphan d ino).2) l d).
Proof.
  revert d. induction l as [|c l IH]; intros d H; cbn [fold_left]; [apply fr_refl; assumption|].
  pose proof (make_orphan_inv d c H) as H'.
  eapply fr_trans_inv; [exact H|exact H'|apply fold_orphan_inv; assumption|apply fr_make_orphan; assumption|apply IH; assumption].
Qed.
Lemma fr_reshape r (T L : Z -> Prop) d x i j : Inv d -> d_inodes d !! x = Some i -> T x ->
  ftype (a_mode (i_attr j)) = ftype (a_mode (i_attr i)) -> fr r T L d (set_inodes (<[x := j]> (d_inodes d)) d).
Proof.
  intros H Hi HT Hty. destruct (inv_next' _ H) as (k & Hk & _). split.
  - exists k, k. split_and!; auto; [lia|]. intros y j' E E'. cbn in E'. apply lookup_insert_Some in E' as [[-> _]|[_ ?]]; congruence.
  - intros y i' Hi'. right. cbn. destruct (decide (y = x)) as [->|Hne].
    + rewrite lookup_insert. assert (i' = i) by congruence. subst i'. exists j. split_and!; auto. contradiction.
    + rewrite lookup_insert_ne by congruence. eexists; split_and!; eauto.
Qed.
Lemma fr_added r T L p n a k d : d_next d = Some k -> d_inodes d !! k = None -> k + 1 < 2 ^ 64 -> 0 <= k ->
  fr r T L d (added p n a k d).
Proof.
  intros Hk Hf Hr H0. split.
  - exists k, (k + 1). cbn. split_and!; auto; try lia.
    intros x i E E'. apply lookup_insert_Some in E' as [[<- _]|[_ E']]; [lia|congruence].
  - intros x i Hi. right. cbn. rewrite lookup_insert_ne by congruence. eexists; split_and!; eauto.
Qed.
Lemma fr_detached_name r T L d p n : Inv d -> fr r T L d (detached_name d p n).
Proof.
  intros H. unfold detached_name. destruct (d_treen d !! (p, n)) as [e|] eqn:He; [|apply fr_refl; assumption].
  destruct (treen_child _ _ _ _ H He) as (Hti & Hname & (i & Hi & Hpar)). rewrite Hi, <- Hname.
  apply fr_detach1; assumption.
Qed.

Lemma gone_ref d r x : gone d r x -> refcount r x <= 0.
Proof. destruct 1; assumption. Qed.

Lemma step_fr t o res t' : TInv t -> legal t o -> step t o = Done (res, t') ->
  TInv t' /\ fr (t_refs t) (touches (t_db t) o) (relinks o) (t_db t) (t_db t').
Proof.
  intros HT Hleg E. pose proof (tinv_db _ HT) as H.
  assert (HT' : TInv t').
  { destruct (step_inv t o HT Hleg) as [(r & t2 & E2 & HT2)|(E2 & _)]; rewrite E2 in E; [injection E as _ <-; assumption|discriminate]. }
  split; [assumption|]. pose proof (tinv_db _ HT') as H'. set (d := t_db t) in *.
  assert (Hul : forall c res t', unlink_ino t c = Done (res, t') -> fr (t_refs t) nobody nobody d (t_db t')).
  { clear - HT H. intros c res t' E. destruct (unlink_ino_spec t c HT) as [(_ & E')|[(_ & E')|(d1 & Hd1 & Hi1 & R & HR & E' & HT')]];
      rewrite E' in E; injection E as _ <-; try (apply fr_refl; assumption). cbn.
    pose proof (tinv_db _ HT') as H'. eapply fr_trans_inv; [exact H|exact Hi1|exact H'| |].
    - destruct Hd1 as [[_ ->]|(p & e & i & He & Hi & ->)]; [apply fr_refl; assumption|apply fr_detach1; assumption].
    - apply fr_cleaned; [assumption|]. intros x Hx. apply HR in Hx. eapply gone_ref. eassumption. }
  assert (Hnn : forall T L d1 d2, fr (t_refs t) nobody nobody d1 d2 -> fr (t_refs t) T L d1 d2).
  { intros. eapply fr_weaken; [..|eassumption]; intros ? []. }
  destruct o as [p n a|c|p c|p n| |x b|x s c|x| |x|x n]; cbn [step touches relinks] in *.
  - destruct Hleg as [Hdir Hroom]. unfold drop_val in E. destruct (emplace t p n a) as [[r1 t1]| | |] eqn:Ee; try discriminate.
    cbn in E. injection E as _ <-.
    assert (Hpu : u64 p). { destruct Hdir as (j & Hj & _). apply (u64_of_inode _ _ _ H Hj). }
    assert (Hp0 : p <> 0). { destruct Hdir as (j & Hj & _). apply (u64_of_inode _ _ _ H Hj). }
    destruct (emplace_spec t p n a HT Hdir Hroom) as
      [(err & _ & E')|[(Hv & e & oi & He & Hoi & Hty & E' & HT2)|(Hv & Hty & k & R & Hk & Hfresh & Hd1 & HR & E' & HT2)]];
      rewrite E' in Ee; injection Ee as _ <-.
    + apply fr_refl. assumption.
    + cbn. apply (fr_reshape _ _ _ _ _ oi); auto. apply lookup_Ok; [assumption..|]. split; [assumption|eauto].
    + cbn. apply Hnn. destruct (detached_name_spec d p n H) as (Hi0 & Hn0 & Hk0 & Hd0). 
      pose proof (tinv_db _ HT2) as H2. cbn in H2. fold d in Hd1, HR, H2, Hk, Hfresh.
      assert (Hfresh0 : d_inodes (detached_name d p n) !! k = None).
      { unfold detached_name. destruct (d_treen d !! (p, n)) as [e|]; [|assumption].
        destruct (d_inodes d !! de_ino e) as [j|] eqn:Ej; [|assumption]. cbn. rewrite lookup_insert_ne; [assumption|congruence]. }
      destruct Hroom as (k' & Hk' & Hlt). fold d in Hk'. rewrite Hk in Hk'. injection Hk' as <-.
      destruct (inv_next' _ H) as (k' & Hk' & Hb & _). rewrite Hk in Hk'. injection Hk' as <-.
      eapply fr_trans_inv; [exact H|exact Hi0|exact H2|apply fr_detached_name; assumption|].
      eapply fr_trans_inv; [exact Hi0|exact Hd1|exact H2|apply fr_added; [congruence|assumption..|lia]|].
      apply fr_cleaned; [assumption|]. intros x Hx. apply HR in Hx. eapply gone_ref. eassumption.
  - apply Hnn. eapply Hul. eassumption.
  - apply Hnn. eapply Hul. exact E.
  - unfold unlink_name in E. destruct (d_treen (t_db t) !! (p, n)) as [e|]; [|injection E as _ <-; apply fr_refl; assumption].
    apply Hnn. eapply Hul. exact E.
  - destruct (tx_clean_spec t HT) as (R & HR & E' & _). rewrite E' in E. cbn in E. injection E as _ <-. cbn.
    apply fr_cleaned; [assumption|]. intros x Hx. apply HR in Hx. eapply gone_ref. eassumption.
  - unfold writelink in E. destruct (d_inodes (t_db t) !! x) as [i|] eqn:Ei; [|injection E as _ <-; apply fr_refl; assumption].
    destruct (Z.eqb_spec (ftype (a_mode (i_attr i))) S_IFLNK) as [Et|Et]; cbn [negb] in E; [|injection E as _ <-; apply fr_refl; assumption].
    injection E as _ <-. cbn. 
    set (j := Inode (i_flags i) (i_parent i) (set_size (Z.of_nat (length b)) (i_attr i))).
    destruct (fr_reshape (t_refs t) (fun y => x = y) (fun y => x = y) d x i j H Ei eq_refl eq_refl) as [G1 G2].
    split; [exact G1|]. intros y i' Hi'. destruct (G2 _ _ Hi') as [(K1 & K2 & K3)|(j' & K1 & K2 & K3 & K4)]; [left|right].
    + split_and!; auto. cbn. rewrite lookup_insert_ne; [exact K2|]. intros <-. cbn in K1. rewrite lookup_insert in K1. discriminate.
    + exists j'. split_and!; auto. intros Hy. cbn. rewrite lookup_insert_ne by congruence. apply K4. assumption.
  - unfold update_flags in E. destruct (d_inodes (t_db t) !! x) as [i|] eqn:Ei; [|injection E as _ <-; apply fr_refl; assumption].
    injection E as _ <-. apply (fr_reshape _ _ _ _ _ i); [assumption..|reflexivity|reflexivity].
  - unfold start_dir_rewrite in E. destruct (t_rw t); [injection E as _ <-; apply fr_refl; assumption|].
    destruct (from_key _ _ _); injection E as _ <-; apply fr_refl; assumption.
  - unfold finish_dir_rewrite in E. destruct (t_rw t); injection E as _ <-; [|apply fr_refl; assumption].
    cbn [t_db]. apply fr_fold. assumption.
  - unfold lock in E. destruct (incref _ _ _) as [[?|?] ?]; injection E as _ <-; apply fr_refl; assumption.
  - unfold release in E. destruct (n =? 0); [injection E as _ <-; apply fr_refl; assumption|].
    destruct (decref _ _ _) as [[[?|?] ?]| | |]; cbn in E; try discriminate. injection E as _ <-. apply fr_refl; assumption.
Qed.

(** ** reference counts under one operation *)
Definition count_after (o : op) (res_ : res unit) (x n : Z) : Z :=
  match o, res_ with
  | OLock y, Ok _ => if y =? x then w64 (n + 1) else n
  | ORelease y k, Ok _ => if y =? x then n - k else n
  | _, _ => n
  end.
Lemma step_refcount t o res t' x : TInv t -> legal t o -> step t o = Done (res, t') ->
  refcount (t_refs t') x = count_after o res x (refcount (t_refs t) x).
Proof.
  intros HT Hleg E. pose proof (tinv_db _ HT) as H.
  assert (Hul : forall c res t', unlink_ino t c = Done (res, t') -> refcount (t_refs t') x = refcount (t_refs t) x).
  { clear - HT H. intros c res t' E. destruct (unlink_ino_spec t c HT) as [(_ & E')|[(_ & E')|(d1 & Hd1 & Hi1 & R & HR & E' & HT')]];
      rewrite E' in E; injection E as _ <-; try reflexivity. cbn. apply refcount_doom_all. }
  destruct o as [p n a|c|p c|p n| |y b|y s c|y| |y|y n]; cbn [step count_after] in *.
  - destruct Hleg as [Hdir Hroom]. unfold drop_val in E. destruct (emplace t p n a) as [[r1 t1]| | |] eqn:Ee; try discriminate.
    cbn in E. injection E as _ <-.
    destruct (emplace_spec t p n a HT Hdir Hroom) as
      [(err & _ & E')|[(Hv & e & oi & He & Hoi & Hty & E' & HT2)|(Hv & Hty & k & R & Hk & Hfresh & Hd1 & HR & E' & HT2)]];
      rewrite E' in Ee; injection Ee as _ <-; try reflexivity. cbn. apply refcount_doom_all.
  - eapply Hul. eassumption.
  - eapply Hul. exact E.
  - unfold unlink_name in E. destruct (d_treen (t_db t) !! (p, n)) as [e|]; [|injection E as _ <-; reflexivity].
    eapply Hul. exact E.
  - destruct (tx_clean_spec t HT) as (R & HR & E' & _). rewrite E' in E. cbn in E. injection E as _ <-. cbn. apply refcount_doom_all.
  - unfold writelink in E. destruct (d_inodes (t_db t) !! y) as [i|]; [|injection E as _ <-; reflexivity].
    destruct (negb _); injection E as _ <-; reflexivity.
  - unfold update_flags in E. destruct (d_inodes (t_db t) !! y) as [i|]; injection E as _ <-; reflexivity.
  - unfold start_dir_rewrite in E. destruct (t_rw t); [injection E as _ <-; reflexivity|].
    destruct (from_key _ _ _); injection E as _ <-; reflexivity.
  - unfold finish_dir_rewrite in E. destruct (t_rw t); injection E as _ <-; reflexivity.
  - unfold lock, incref in E. unfold refcount. destruct (t_refs t !! y) as [[k [|]]|] eqn:Ey; injection E as <- <-; cbn [t_refs].
    + reflexivity.
    + destruct (Z.eqb_spec y x) as [<-|Hne]; [rewrite lookup_insert, Ey; reflexivity|rewrite lookup_insert_ne by congruence; reflexivity].
    + destruct (Z.eqb_spec y x) as [<-|Hne]; [rewrite lookup_insert, Ey; reflexivity|rewrite lookup_insert_ne by congruence; reflexivity].
  - unfold release in E. destruct (Z.eqb_spec n 0) as [->|Hn]; [injection E as <- <-; destruct (y =? x); lia|].
    destruct (decref_cases (t_refs t) y n) as [(Hle & b & Ey & Ed)|(Hlt & Ed)]; [cbn in Hleg; lia| |]; rewrite Ed in E; cbn in E; [|discriminate].
    injection E as <- <-. cbn [t_refs]. unfold refcount. destruct (Z.eqb_spec y x) as [<-|Hne].
    + rewrite lookup_insert, Ey. reflexivity.
    + rewrite lookup_insert_ne by congruence. reflexivity.
Qed.
