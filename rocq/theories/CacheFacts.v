(** Facts about the read operations on consistent databases. *)
From Coq Require Import Sorted.
From Verif Require Export CacheSpec.

Lemma u64_of_inode d x i : Inv d -> d_inodes d !! x = Some i -> u64 x /\ x <> 0.
Proof. intros H Hx. pose proof (inode_range _ _ _ H Hx). split; [tauto|lia]. Qed.

Lemma getattr_Ok d x a : getattr d x = Ok a <-> exists i, d_inodes d !! x = Some i /\ i_attr i = a.
Proof.
  unfold getattr. destruct (d_inodes d !! x) as [i|]; split.
  - intros E. injection E as <-. eauto.
  - intros (j & E & <-). injection E as <-. reflexivity.
  - discriminate.
  - intros (j & E & _). discriminate.
Qed.
Lemma getattr_Err d x e : getattr d x = Err e <-> d_inodes d !! x = None /\ e = ENOENT.
Proof.
  unfold getattr. destruct (d_inodes d !! x) as [i|]; split; try discriminate.
  - intros [E _]. discriminate.
  - intros E. injection E as <-. auto.
  - intros [_ ->]. reflexivity.
Qed.
Lemma has_inode_iff d x : has_inode d x <-> exists i, d_inodes d !! x = Some i.
Proof.
  unfold has_inode. setoid_rewrite getattr_Ok. split; [intros (a & i & ? & ?); eauto|intros (i & ?); eauto].
Qed.
Lemma is_orphan_iff d x : Inv d -> is_orphan d x <-> x ∈ d_orphans d.
Proof.
  intros H. unfold is_orphan, parent_of, ROOT_INO. split.
  - intros [Hne E]. destruct (Z.eqb_spec x 1); [contradiction|]. destruct (d_inodes d !! x) as [i|] eqn:Hi; [|discriminate].
    injection E as E. eapply inv_parent0; eassumption.
  - intros Ho. assert (x <> 1) by (intros ->; apply (inv_root_orph _ H Ho)). split; [assumption|].
    destruct (Z.eqb_spec x 1); [contradiction|]. destruct (inv_orphan _ H _ Ho) as (i & -> & ->). reflexivity.
Qed.

(** lookup, parent and name in terms of the inode-keyed table *)
Lemma lookup_treei d p n c : Inv d -> u64 p ->
  lookup d p n = Ok c <-> exists e, d_treei d !! (p, c) = Some e /\ de_name e = n.
Proof.
  intros H Hp. rewrite lookup_Ok by assumption. split.
  - intros (_ & e & He & <-). destruct (inv_treen _ H _ _ _ He) as (<- & _ & Hi). eauto.
  - intros (e & He & <-). destruct (inv_treei _ H _ _ _ He) as (<- & _ & Hpc & _ & _ & Hn). split; [lia|eauto].
Qed.
(** without the range hypothesis *)
Lemma name_in_Ok d p c n : Inv d -> p <> 0 -> c <> 1 ->
  name_in d p c = Ok n <-> exists e, d_treei d !! (p, c) = Some e /\ de_name e = n.
Proof.
  intros H Hp Hc. unfold name_in, ROOT_INO, INVALID_INO.
  destruct (Z.eqb_spec c 1), (Z.eqb_spec p 0); try contradiction. cbn [orb].
  destruct (d_treei d !! (p, c)) as [e|]; split.
  - intros E. injection E as <-. eauto.
  - intros (e' & E & <-). injection E as <-. reflexivity.
  - discriminate.
  - intros (e' & E & _). discriminate.
Qed.
Lemma treei_facts d p c e : Inv d -> d_treei d !! (p, c) = Some e ->
  parent_of d c = Ok p /\ has_inode d c /\ is_dir d p /\ c <> 1 /\ p <> 0 /\ p < c /\ u64 p /\ u64 c.
Proof.
  intros H He. destruct (inv_treei _ H _ _ _ He) as (_ & Hc & Hpc & Hd & (i & Hi & Hp) & _).
  destruct (treei_u64 _ _ _ H He) as [U1 U2]. cbn in *. split_and!; auto; try lia.
  - rewrite (parent_of_spec _ _ _ H Hi Hc). congruence.
  - apply has_inode_iff. eauto.
Qed.

Lemma reclaimable_gone d r x : Inv d -> refs_ok r -> reclaimable d r x <-> gone d r x.
Proof.
  intros H Hr. split.
  - induction 1 as [x Ho Hx|p n x Hp IH Hl Hx].
    + apply gone_orphan; [apply is_orphan_iff; assumption|lia].
    + assert (u64 p). { inversion IH as [o Ho _|q c e _ He _]; subst.
        - destruct (inv_orphan _ H _ Ho) as (i & Hi & _). apply (u64_of_inode _ _ _ H Hi).
        - apply (treei_facts _ _ _ _ H He). }
      apply lookup_treei in Hl as (e & He & _); auto. eapply gone_child; [exact IH|exact He|lia].
  - induction 1 as [x Ho Hx|p c e Hp IH He Hx].
    + apply rec_orphan; [apply is_orphan_iff; assumption|]. pose proof (refcount_nonneg r x Hr). lia.
    + eapply (rec_entry _ _ p (de_name e)); [exact IH| |pose proof (refcount_nonneg r c Hr); lia].
      apply lookup_treei; [assumption|apply (treei_facts _ _ _ _ H He)|]. eauto.
Qed.

(** two databases that agree on an entry answer the same *)
Lemma lookup_ext d d' p n : Inv d -> Inv d' -> u64 p ->
  d_treen d !! (p, n) = d_treen d' !! (p, n) -> lookup d p n = lookup d' p n.
Proof.
  intros H H' Hp E. unfold lookup. destruct (check_name n false); [|reflexivity].
  destruct (p =? INVALID_INO); [reflexivity|]. rewrite !lookup_scan_spec by assumption. rewrite E. reflexivity.
Qed.

(** ** readdir *)
Lemma filter_suffix {K V} (enc : K -> bytes) (b : bytes) (E : list (K * V)) :
  StronglySorted (kle enc) E -> exists pre, E = pre ++ filter (fun e => ble b (enc e.1)) E.
Proof.
  induction 1 as [|x l Hs [pre IH] Hall]; [exists []; reflexivity|].
  rewrite filter_cons. destruct (decide (ble b (enc x.1))) as [Hb|Hb].
  - exists []. cbn. f_equal. rewrite <- (app_nil_l (filter _ _)). symmetry.
    assert (Hf : filter (fun e => ble b (enc e.1)) l = l); [|rewrite Hf; reflexivity].
    clear -Hall Hb. induction l as [|y l IHl]; [reflexivity|]. rewrite filter_cons.
    apply Forall_cons in Hall as [Hy Hall]. rewrite decide_True; [f_equal; auto|].
    eapply ble_trans; [exact Hb|exact Hy].
  - exists (x :: pre). cbn. f_equal. assumption.
Qed.
Lemma NoDup_fst_filter {K V} (P : K * V -> Prop) `{!forall x, Decision (P x)} (l : list (K * V)) :
  NoDup (map fst l) -> NoDup (map fst (filter P l)).
Proof.
  induction l as [|x l IH]; [cbn; auto|]. rewrite filter_cons. intros Hn. inversion Hn as [|? ? Hx Hn']; subst.
  destruct (decide _); cbn; [|auto]. constructor; [|auto].
  intros Hin. apply elem_of_list_fmap in Hin as (z & Hz & Hin). apply elem_of_list_filter in Hin as [_ Hin].
  apply Hx. apply elem_of_list_fmap. eauto.
Qed.
(** lower_bound of an existing key: the list starts at that entry *)
Lemma from_key_at {K V} `{Countable K} (enc : K -> bytes) (m : gmap K V) pre x post b :
  (forall k k' v v', m !! k = Some v -> m !! k' = Some v' -> enc k = enc k' -> k = k') ->
  from_key enc m b = pre ++ x :: post -> from_key enc m (enc x.1) = x :: post.
Proof.
  intros Hinj E.
  assert (Hx : x ∈ from_key enc m b) by (rewrite E; set_solver).
  destruct x as [k v]. pose proof (proj1 (elem_of_from _ _ _ _ _) Hx) as [Hk Hb]. cbn.
  assert (E1 : from_key enc m (enc k) = filter (fun e => ble (enc k) (enc e.1)) (from_key enc m b)).
  { unfold from_key. rewrite list_filter_filter. apply list_filter_iff. intros [k' v']. cbn. split.
    - intros Hle. split; [assumption|]. eapply ble_trans; eassumption.
    - tauto. }
  pose proof (from_sorted enc m b) as Hs.
  assert (Hnd : NoDup (map fst (from_key enc m b))).
  { apply NoDup_fst_filter. apply (NoDup_entries enc m). }
  rewrite E1, E in *. rewrite filter_app. clear E1.
  assert (Hpre : filter (fun e => ble (enc k) (enc e.1)) pre = []).
  { destruct (filter (fun e => ble (enc k) (enc e.1)) pre) as [|[k' v'] l] eqn:Ef; [reflexivity|]. exfalso.
    assert (Hin : (k', v') ∈ filter (fun e => ble (enc k) (enc e.1)) pre) by (rewrite Ef; left).
    apply elem_of_list_filter in Hin as [Hle Hin]. cbn in Hle.
    assert (Hle2 : ble (enc k') (enc k)).
    { clear -Hs Hin. induction pre as [|y pre IH]; [apply elem_of_nil in Hin; contradiction|].
      cbn in Hs. inversion Hs as [|? ? Hs' Hall]; subst. apply elem_of_cons in Hin as [<-|Hin]; [|auto].
      rewrite Forall_forall in Hall. apply (Hall (k, v)). set_solver. }
    assert (Hk' : m !! k' = Some v'). { apply (proj1 (elem_of_from enc m b k' v')). rewrite E. set_solver. }
    assert (k' = k) by (eapply Hinj; eauto using ble_antisym). subst k'.
    rewrite map_app in Hnd. apply NoDup_app in Hnd as (_ & Hd & _). apply (Hd k).
    - apply elem_of_list_fmap. exists (k, v'). auto.
    - cbn. left. }
  rewrite Hpre. cbn [app]. rewrite filter_cons, decide_True by apply ble_refl. f_equal.
  assert (Hs2 : StronglySorted (kle enc) ((k, v) :: post)).
  { clear -Hs. induction pre as [|y pre IH]; [assumption|]. cbn in Hs. inversion Hs; subst. auto. }
  inversion Hs2 as [|? ? _ Hall]; subst. clear -Hall. induction post as [|y post IH]; [reflexivity|].
  apply Forall_cons in Hall as [Hy Hall]. rewrite filter_cons, decide_True by exact Hy. f_equal. auto.
Qed.

Definition raw_entries (d : db) (dir : Z) : list ((Z * Z) * dirent) :=
  filter (fun e => e.1.1 = dir) (from_key enc_ii (d_treei d) (le64 dir)).
Definition raw_others (d : db) (dir : Z) : list ((Z * Z) * dirent) :=
  filter (fun e => e.1.1 <> dir) (from_key enc_ii (d_treei d) (le64 dir)).
Definition dir_entries (d : db) (dir : Z) : list (Z * bytes) :=
  map (fun e => (e.1.2, de_name e.2)) (raw_entries d dir).

Lemma raw_split d dir : Inv d -> u64 dir ->
  from_key enc_ii (d_treei d) (le64 dir) = raw_entries d dir ++ raw_others d dir.
Proof.
  intros H Hu. apply scan_split_ii; [assumption|]. intros k v Hk. apply (treei_u64 _ _ _ H Hk).
Qed.
Lemma elem_raw_entries d dir k e : k.1 = dir ->
  (k, e) ∈ raw_entries d dir <-> d_treei d !! k = Some e.
Proof.
  intros Hk. unfold raw_entries. rewrite elem_of_list_filter, elem_of_from. cbn. split; [tauto|].
  intros He. split_and!; auto. destruct k as [p c]. cbn in Hk. subst. apply scan_before.
Qed.
Lemma raw_entries_dir d dir k e : (k, e) ∈ raw_entries d dir -> k.1 = dir /\ d_treei d !! k = Some e.
Proof.
  intros Hin. unfold raw_entries in Hin. rewrite elem_of_list_filter, elem_of_from in Hin. cbn in Hin. tauto.
Qed.
Lemma elem_dir_entries d dir c n : (c, n) ∈ dir_entries d dir <-> exists e, d_treei d !! (dir, c) = Some e /\ de_name e = n.
Proof.
  unfold dir_entries. rewrite elem_of_list_fmap. split.
  - intros ([[p c'] e] & E & Hin). cbn in E. injection E as -> ->. destruct (raw_entries_dir _ _ _ _ Hin) as [Hp He].
    cbn in Hp. subst. eauto.
  - intros (e & He & <-). exists ((dir, c), e). split; [reflexivity|]. apply elem_raw_entries; auto.
Qed.

Lemma treei_inj d : Inv d -> forall k k' v v', d_treei d !! k = Some v -> d_treei d !! k' = Some v' ->
  enc_ii k = enc_ii k' -> k = k'.
Proof.
  intros H [p c] [p' c'] v v' Hk Hk' E. destruct (treei_u64 _ _ _ H Hk), (treei_u64 _ _ _ H Hk').
  apply enc_ii_inj in E as [-> ->]; auto.
Qed.

Lemma le64_zero_min c : ble (le64 0) (le64 c).
Proof.
  unfold le64. generalize 8%nat. intros n. revert c. induction n as [|n IH]; intros c; [discriminate|].
  cbn [le]. unfold ble. cbn [bcmp]. pose proof (Z.mod_pos_bound c 256 ltac:(lia)).
  change (0 mod 256) with 0. change (0 / 256) with 0.
  destruct (Z.compare_spec 0 (c mod 256)); [apply IH|discriminate|lia].
Qed.
Lemma from_key_zero d dir : Inv d -> u64 dir ->
  from_key enc_ii (d_treei d) (enc_ii (dir, 0)) = from_key enc_ii (d_treei d) (le64 dir).
Proof.
  intros H Hu. unfold from_key.
  assert (Hall : forall e, e ∈ entries enc_ii (d_treei d) -> ble (enc_ii (dir, 0)) (enc_ii e.1) <-> ble (le64 dir) (enc_ii e.1)).
  { intros [[q c] e] Hin. apply elem_of_entries in Hin. cbn [fst snd]. destruct (treei_u64 _ _ _ H Hin) as [Hq _]. cbn in Hq. split.
    - intros Hle. eapply ble_trans; [|exact Hle]. apply scan_before.
    - intros Hle. destruct (decide (q = dir)) as [->|Hne].
      + unfold enc_ii. cbn [fst snd]. unfold ble. rewrite bcmp_app by reflexivity. rewrite bcmp_refl. apply le64_zero_min.
      + apply ble_lt_eq. left. unfold enc_ii in *. cbn [fst snd] in *. apply scan_after; assumption. }
  revert Hall. generalize (entries enc_ii (d_treei d)). induction l as [|x l IH]; intros Hall; [reflexivity|].
  rewrite !filter_cons. rewrite IH by (intros; apply Hall; right; assumption).
  apply decide_ext. apply Hall. left.
Qed.

(** what a reader gets who has just been given the last entry before [l] *)
Definition first_of (l : list (Z * bytes)) : res (Z * bytes) :=
  match l with [] => Err 0 | x :: _ => Ok x end.
Lemma first_raw (dir : Z) (post post' : list ((Z * Z) * dirent)) : (forall k e, (k, e) ∈ post -> k.1 = dir) ->
  (forall k e, (k, e) ∈ post' -> k.1 <> dir) ->
  match post ++ post' with
  | [] => Err 0
  | ((q, c), e) :: _ => if negb (q =? dir) then Err 0 else Ok (c, de_name e)
  end = first_of (map (fun e => (e.1.2, de_name e.2)) post).
Proof.
  intros H1 H2. destruct post as [|[[q c] e] post].
  - cbn. destruct post' as [|[[q c] e] post']; [reflexivity|]. specialize (H2 (q, c) e ltac:(left)). cbn in H2.
    destruct (Z.eqb_spec q dir); [contradiction|reflexivity].
  - cbn. specialize (H1 (q, c) e ltac:(left)). cbn in H1. subst. rewrite Z.eqb_refl. reflexivity.
Qed.

(** the parent of an attached inode is smaller; the root is its own parent *)
Lemma parent_lt d x p : Inv d -> parent_of d x = Ok p -> x = 1 /\ p = 1 \/ x <> 1 /\ p = 0 \/ x <> 1 /\ 1 <= p < x.
Proof.
  intros H E. unfold parent_of, ROOT_INO in E. destruct (Z.eqb_spec x 1) as [->|Hne]; [injection E as <-; auto|].
  destruct (d_inodes d !! x) as [i|] eqn:Hi; [|discriminate]. injection E as E.
  destruct (decide (p = 0)) as [->|Hp]; [auto|]. destruct (inv_parent _ H _ _ Hi) as [e He]; [congruence|].
  destruct (inv_treei _ H _ _ _ He) as (_ & _ & Hpc & _). right. right. lia.
Qed.

Lemma readdir_start d dir p : Inv d -> u64 dir -> parent_of d dir = Ok p -> p <> 0 ->
  readdir d dir p = first_of (dir_entries d dir).
Proof.
  intros H Hu Hp Hp0. unfold readdir. destruct (Z.eqb_spec p 0); [contradiction|]. rewrite Hp.
  rewrite Z.eqb_refl. cbn [negb andb]. rewrite from_key_zero, raw_split by assumption.
  pose proof (first_raw dir (raw_entries d dir) (raw_others d dir)) as Hf.
  unfold dir_entries. rewrite <- Hf; clear Hf.
  2: { intros k e Hin. apply (raw_entries_dir _ _ _ _ Hin). }
  2: { intros k e Hin. apply elem_of_list_filter in Hin as [Hk _]. assumption. }
  destruct (raw_entries d dir ++ raw_others d dir) as [|[[q c] e] l] eqn:El; [reflexivity|].
  destruct (Z.eqb_spec q dir) as [->|]; [|reflexivity]. cbn [negb].
  assert (He : d_treei d !! (dir, c) = Some e).
  { apply (proj1 (elem_of_from enc_ii (d_treei d) (le64 dir) (dir, c) e)). rewrite raw_split by assumption.
    rewrite El. left. }
  destruct (inv_treei _ H _ _ _ He) as (_ & Hc1 & Hpc & _).
  destruct (Z.eqb_spec c p) as [->|]; [|reflexivity]. exfalso.
  destruct (parent_lt _ _ _ H Hp) as [[-> ->]|[[? ->]|[? ?]]]; lia.
Qed.
Lemma readdir_next d dir p pre c n post : Inv d -> u64 dir -> parent_of d dir = Ok p -> p <> 0 ->
  dir_entries d dir = pre ++ (c, n) :: post -> readdir d dir c = first_of post.
Proof.
  intros H Hu Hp Hp0 E.
  assert (Hc : exists e, d_treei d !! (dir, c) = Some e /\ de_name e = n).
  { apply elem_dir_entries. rewrite E. set_solver. }
  destruct Hc as (e & He & Hn). destruct (inv_treei _ H _ _ _ He) as (_ & Hc1 & Hpc & _).
  assert (Hcp : c <> p) by (destruct (parent_lt _ _ _ H Hp) as [[-> ->]|[[? ->]|[? ?]]]; lia).
  unfold readdir. destruct (Z.eqb_spec c 0); [lia|]. rewrite Hp.
  destruct (Z.eqb_spec c p); [contradiction|]. destruct (Z.eqb_spec c dir); [lia|]. cbn [negb andb].
  unfold dir_entries in E. apply map_eq_app in E as (rp & rs & Er & Ep & Es).
  destruct rs as [|[[q c'] e'] rs]; [discriminate|]. cbn in Es. injection Es as -> Hn' Es.
  assert (q = dir). { apply (raw_entries_dir d dir (q, c) e'). rewrite Er. set_solver. }
  subst q.
  assert (Hat : from_key enc_ii (d_treei d) (enc_ii (dir, c)) = ((dir, c), e') :: rs ++ raw_others d dir).
  { pose proof (from_key_at enc_ii (d_treei d) rp ((dir, c), e') (rs ++ raw_others d dir) (le64 dir)) as Hf.
    apply Hf; [apply treei_inj; assumption|]. rewrite raw_split, Er by assumption.
    rewrite <- app_assoc. reflexivity. }
  rewrite Hat. rewrite !Z.eqb_refl. cbn [negb]. rewrite <- Es.
  apply (first_raw dir).
  - intros k f Hin. apply (raw_entries_dir d dir k f). rewrite Er. set_solver.
  - intros k f Hin. apply elem_of_list_filter in Hin as [Hk _]. assumption.
Qed.

Lemma listing_from d dir p prev pre post : Inv d -> u64 dir -> parent_of d dir = Ok p -> p <> 0 ->
  dir_entries d dir = pre ++ post -> readdir d dir prev = first_of post ->
  listing d dir prev post.
Proof.
  intros H Hu Hp Hp0. revert prev pre. induction post as [|[c n] post IH]; intros prev pre E Hr.
  - apply listing_eof. assumption.
  - apply listing_entry; [assumption|]. apply (IH c (pre ++ [(c, n)])).
    + rewrite <- app_assoc. assumption.
    + eapply readdir_next; eassumption.
Qed.

Lemma dir_entries_nodup d dir : Inv d -> NoDup (map fst (dir_entries d dir)) /\ NoDup (map snd (dir_entries d dir)).
Proof.
  intros H.
  assert (Hnd : NoDup (map fst (raw_entries d dir))).
  { unfold raw_entries, from_key. apply NoDup_fst_filter, NoDup_fst_filter. apply (NoDup_entries enc_ii). }
  assert (Hin : forall x, x ∈ raw_entries d dir -> x.1.1 = dir /\ d_treei d !! x.1 = Some x.2).
  { intros [k e] Hx. apply raw_entries_dir in Hx. assumption. }
  unfold dir_entries. revert Hnd Hin. generalize (raw_entries d dir).
  induction l as [|[[q c] e] l IH]; intros Hnd Hin; [split; constructor|]. cbn in *.
  inversion Hnd as [|? ? Hnx Hnd']; subst. destruct IH as [IH1 IH2]; auto.
  { intros x Hx. apply Hin. right; assumption. }
  destruct (Hin ((q, c), e) ltac:(left)) as [Hq He]. cbn in Hq, He. subst q. split; constructor; auto.
  - intros Hx. apply Hnx. rewrite map_map in Hx. cbn in Hx. apply elem_of_list_fmap in Hx as ([[q' c'] e'] & -> & Hx).
    destruct (Hin _ ltac:(right; exact Hx)) as [Hq' _]. cbn in *. subst. apply elem_of_list_fmap. exists ((dir, c'), e'). auto.
  - intros Hx. apply Hnx. rewrite map_map in Hx. cbn in Hx. apply elem_of_list_fmap in Hx as ([[q' c'] e'] & En & Hx).
    destruct (Hin _ ltac:(right; exact Hx)) as [Hq' He']. cbn in *. subst q'.
    destruct (inv_treei _ H _ _ _ He) as (Hi & _ & _ & _ & _ & Hn).
    destruct (inv_treei _ H _ _ _ He') as (Hi' & _ & _ & _ & _ & Hn').
    rewrite En in Hn. rewrite Hn in Hn'. injection Hn' as <-. apply elem_of_list_fmap. exists ((dir, c'), e).
    split; [cbn; congruence|assumption].
Qed.

(** ** path *)
Definition upto (d : db) (x : Z) : nat := size (filter (fun k => k <= x) (dom (d_inodes d))).
Lemma upto_lt d x y i : d_inodes d !! x = Some i -> y < x -> (upto d y < upto d x)%nat.
Proof.
  intros Hi Hlt. unfold upto. apply subset_size.
  assert (x ∈ dom (d_inodes d)) by (apply elem_of_dom; eauto). split.
  - intros k. rewrite !elem_of_filter. intros [? ?]. split; [lia|assumption].
  - intros Hsub. specialize (Hsub x). rewrite !elem_of_filter in Hsub. assert (x <= y); [|lia]. apply Hsub. split; [lia|assumption].
Qed.
Lemma upto_le d x : (upto d x <= size (d_inodes d))%nat.
Proof. unfold upto. rewrite <- size_dom. apply subseteq_size. intros k. rewrite elem_of_filter. tauto. Qed.

Lemma walk_app d x c1 c2 y : walk d x (c1 ++ c2) y <-> exists z, walk d x c1 z /\ walk d z c2 y.
Proof.
  revert x. induction c1 as [|n c1 IH]; intros x; cbn.
  - split; [intros Hw; eauto|intros (z & -> & Hw); assumption].
  - split.
    + intros (z & Hl & Hw). apply IH in Hw as (z' & Hw1 & Hw2). eauto.
    + intros (z' & (z & Hl & Hw1) & Hw2). exists z. split; [assumption|]. apply IH. eauto.
Qed.
Lemma spell_app c1 c2 : spell (c1 ++ c2) = spell c1 ++ spell c2.
Proof. unfold spell. rewrite map_app, concat_app. reflexivity. Qed.
Lemma walk_u64 d x comps y : Inv d -> u64 x -> walk d x comps y -> u64 y.
Proof.
  intros H. revert x. induction comps as [|n comps IH]; intros x Hx; cbn; [intros <-; assumption|].
  intros (z & Hl & Hw). apply (IH z); [|assumption]. apply lookup_treei in Hl as (e & He & _); auto.
  apply (treei_facts _ _ _ _ H He).
Qed.
(** the last component *)
Lemma walk_last d comps y : Inv d -> walk d 1 comps y ->
  y = 1 /\ comps = [] \/
  exists c n p e, comps = c ++ [n] /\ walk d 1 c p /\ d_treei d !! (p, y) = Some e /\ de_name e = n.
Proof.
  intros H Hw. destruct comps as [|n comps _] using rev_ind; [left; cbn in Hw; auto|]. right.
  apply walk_app in Hw as (p & Hw1 & (z & Hl & Hz)). cbn in Hz. subst z. exists comps, n, p.
  apply lookup_treei in Hl as (e & He & Hn); [|assumption|eapply walk_u64; [eassumption| |eassumption]; unfold u64; lia].
  eauto 10.
Qed.

Lemma rev_comp (buf n : bytes) : rev ((buf ++ rev n) ++ [47]) = 47 :: n ++ rev buf.
Proof. rewrite !rev_app_distr, rev_involutive. reflexivity. Qed.
Lemma path_loop_spec fuel d x buf : Inv d -> x <> 1 -> (upto d x < fuel)%nat ->
  (exists comps, walk d 1 comps x /\ path_loop fuel d x buf = Done (Ok (spell comps ++ rev buf))) \/
  ((forall comps, ~ walk d 1 comps x) /\ path_loop fuel d x buf = Done (Err ENOENT)).
Proof.
  intros H. revert x buf. induction fuel as [|fuel IH]; intros x buf Hx Hf; [lia|]. cbn [path_loop].
  destruct (parent_of d x) as [p|err] eqn:Hp.
  2: { right. unfold parent_of, ROOT_INO in Hp. destruct (Z.eqb_spec x 1); [contradiction|].
       destruct (d_inodes d !! x) as [i|] eqn:Hi; [discriminate|]. injection Hp as <-. split; [|reflexivity].
       intros comps Hw. apply walk_last in Hw as [[? _]|(c & n' & q & e & _ & _ & He & _)]; auto.
       destruct (inv_treei _ H _ _ _ He) as (_ & _ & _ & _ & (j & Hj & _) & _). congruence. }
  assert (Hi : exists i, d_inodes d !! x = Some i /\ i_parent i = p).
  { unfold parent_of, ROOT_INO in Hp. destruct (Z.eqb_spec x 1); [contradiction|].
    destruct (d_inodes d !! x) as [i|] eqn:Hi; [|discriminate]. injection Hp as <-. eauto. }
  destruct Hi as (i & Hi & Hip).
  destruct (decide (p = 0)) as [->|Hp0].
  - (* orphan: the next round asks for inode 0 *)
    unfold name_in. rewrite (proj2 (Z.eqb_eq 0 INVALID_INO) eq_refl), orb_true_r. cbn [orb].
    change (0 =? ROOT_INO) with false. cbn iota.
    assert (H0 : d_inodes d !! 0 = None).
    { destruct (d_inodes d !! 0) eqn:E; [|reflexivity]. pose proof (inode_range _ _ _ H E). lia. }
    pose proof (upto_lt d x 0 i Hi) as Hu. pose proof (inode_range _ _ _ H Hi).
    destruct fuel as [|fuel]; [lia|]. cbn [path_loop]. unfold parent_of. change (0 =? ROOT_INO) with false. cbn iota.
    rewrite H0. right. split; [|reflexivity].
    intros comps Hw. apply walk_last in Hw as [[? _]|(c & n' & q & e & _ & _ & He & _)]; auto.
    pose proof (treei_par _ _ _ _ _ H Hi He). destruct (inv_treei _ H _ _ _ He) as (_ & _ & Hq & _). lia.
  - destruct (inv_parent _ H _ _ Hi) as [e He]; [congruence|]. rewrite Hip in He.
    destruct (inv_treei _ H _ _ _ He) as (_ & _ & Hpx & _).
    assert (Hnm : name_in d p x = Ok (de_name e)) by (apply name_in_Ok; eauto).
    rewrite Hnm. unfold ROOT_INO. destruct (Z.eqb_spec p 1) as [->|Hp1].
    + left. exists [de_name e]. cbn zeta. split.
      * exists x. split; [|reflexivity]. apply lookup_treei; [assumption|unfold u64; lia|eauto].
      * do 2 f_equal. rewrite rev_comp. unfold spell. cbn [map concat app]. rewrite app_nil_r. reflexivity.
    + cbn zeta. destruct (IH p ((buf ++ rev (de_name e)) ++ [47]) Hp1) as [(comps & Hw & E)|[Hno E]].
      { pose proof (upto_lt d x p i Hi). lia. }
      * left. exists (comps ++ [de_name e]). split.
        -- apply walk_app. exists p. split; [assumption|]. exists x. split; [|reflexivity].
           apply lookup_treei; [assumption|apply (treei_u64 _ _ _ H He)|eauto].
        -- rewrite E, rev_comp. do 2 f_equal. rewrite spell_app, <- app_assoc. f_equal.
           unfold spell. cbn [map concat app]. rewrite app_nil_r. reflexivity.
      * right. split; [|assumption]. intros comps Hw.
        apply walk_last in Hw as [[? _]|(c & n' & q & f & _ & Hw & Hf' & _)]; auto.
        pose proof (treei_par _ _ _ _ _ H Hi Hf'). apply (Hno c). congruence.
Qed.
Lemma path_spec d x : Inv d ->
  (exists comps, walk d 1 comps x /\ path d x = Done (Ok (spell comps))) \/
  ((forall comps, ~ walk d 1 comps x) /\ path d x = Done (Err ENOENT)).
Proof.
  intros H. unfold path, ROOT_INO. destruct (Z.eqb_spec x 1) as [->|Hx].
  - left. exists []. split; reflexivity.
  - destruct (path_loop_spec (S (size (d_inodes d))) d x [] H Hx) as [(comps & Hw & E)|[Hno E]].
    + pose proof (upto_le d x). lia.
    + left. exists comps. split; [assumption|]. rewrite E. cbn. rewrite app_nil_r. reflexivity.
    + right. auto.
Qed.
Lemma walk_unique d c1 c2 x : Inv d -> walk d 1 c1 x -> walk d 1 c2 x -> c1 = c2.
Proof.
  intros H. revert c2 x. induction c1 as [|n c1 IH] using rev_ind; intros c2 x H1 H2.
  - cbn in H1. subst x. apply walk_last in H2 as [[_ ->]|(c & n & p & e & -> & _ & He & _)]; auto.
    destruct (inv_treei _ H _ _ _ He) as (_ & Hne & _). congruence.
  - apply walk_last in H1 as [[_ E]|(c & n' & p & e & E & Hw & He & Hn)]; auto; [destruct c1; discriminate|].
    apply app_inj_tail in E as [-> ->].
    apply walk_last in H2 as [[-> _]|(c' & n2 & p' & e' & -> & Hw' & He' & Hn')]; auto.
    { destruct (inv_treei _ H _ _ _ He) as (_ & Hne & _). congruence. }
    destruct (inv_treei _ H _ _ _ He) as (_ & _ & _ & _ & (i & Hi & Hp) & _).
    pose proof (treei_par _ _ _ _ _ H Hi He'). assert (p' = p) by congruence. subst p'.
    assert (e' = e) by congruence. subst. f_equal. apply (IH c' (i_parent i)); assumption.
Qed.
