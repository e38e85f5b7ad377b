(** Invariant of the cache database and its preservation. *)
From Coq Require Import Sorted.
From Verif Require Export CacheModel.

Definition is_dir (d : db) (x : Z) : Prop :=
  exists i, d_inodes d !! x = Some i /\ ftype (a_mode (i_attr i)) = S_IFDIR.
Definition valid_name (n : bytes) : Prop := check_name n true = Ok tt.

Record Inv (d : db) : Prop := {
  inv_next : exists n, d_next d = Some n /\ 2 <= n < 2 ^ 64 /\
    forall x i, d_inodes d !! x = Some i -> 1 <= x < n;
  inv_root : exists i, d_inodes d !! 1 = Some i /\ i_parent i = 0 /\ ftype (a_mode (i_attr i)) = S_IFDIR;
  inv_root_orph : 1 ∉ d_orphans d;
  inv_treei : forall p c e, d_treei d !! (p, c) = Some e ->
    de_ino e = c /\ c <> 1 /\ 1 <= p < c /\ is_dir d p /\
    (exists i, d_inodes d !! c = Some i /\ i_parent i = p) /\
    d_treen d !! (p, de_name e) = Some e;
  inv_treen : forall p n e, d_treen d !! (p, n) = Some e ->
    de_name e = n /\ valid_name n /\ d_treei d !! (p, de_ino e) = Some e;
  inv_parent : forall c i, d_inodes d !! c = Some i -> i_parent i <> 0 ->
    exists e, d_treei d !! (i_parent i, c) = Some e;
  inv_orphan : forall c, c ∈ d_orphans d -> exists i, d_inodes d !! c = Some i /\ i_parent i = 0;
  inv_parent0 : forall c i, d_inodes d !! c = Some i -> c <> 1 -> i_parent i = 0 -> c ∈ d_orphans d;
  inv_links : forall c b, d_links d !! c = Some b ->
    exists i, d_inodes d !! c = Some i /\ ftype (a_mode (i_attr i)) = S_IFLNK
}.

Lemma inode_range d x i : Inv d -> d_inodes d !! x = Some i -> 1 <= x /\ u64 x.
Proof. intros H Hx. destruct (inv_next _ H) as (n & _ & Hn & Hr). specialize (Hr _ _ Hx). unfold u64. lia. Qed.
Lemma treei_u64 d k e : Inv d -> d_treei d !! k = Some e -> u64 k.1 /\ u64 k.2.
Proof.
  intros H Hk. destruct k as [p c]. destruct (inv_treei _ H _ _ _ Hk) as (_ & _ & Hpc & (i & Hi & _) & (j & Hj & _) & _).
  cbn. split; eapply inode_range; eauto.
Qed.
Lemma treen_u64 d k e : Inv d -> d_treen d !! k = Some e -> u64 k.1.
Proof.
  intros H Hk. destruct k as [p n]. destruct (inv_treen _ H _ _ _ Hk) as (_ & _ & Hi).
  apply (treei_u64 _ _ _ H Hi).
Qed.
Lemma treei_par d c i p e : Inv d -> d_inodes d !! c = Some i -> d_treei d !! (p, c) = Some e -> p = i_parent i.
Proof.
  intros H Hc He. destruct (inv_treei _ H _ _ _ He) as (_ & _ & _ & _ & (j & Hj & <-) & _). congruence.
Qed.

(** ** make_orphan *)
Definition detach1 (p c : Z) (n : bytes) (i : inode) (d : db) : db :=
  Db (d_next d) (<[c := set_parent 0 i]> (d_inodes d)) (delete (p, c) (d_treei d))
     (delete (p, n) (d_treen d)) (d_orphans d ∪ {[c]}) (d_links d).

Lemma parent_of_spec d x i : Inv d -> d_inodes d !! x = Some i -> x <> 1 -> parent_of d x = Ok (i_parent i).
Proof. intros H Hx Hne. unfold parent_of, ROOT_INO. destruct (Z.eqb_spec x 1); [contradiction|]. rewrite Hx. reflexivity. Qed.

Lemma make_orphan_attached d p c e i : Inv d -> d_treei d !! (p, c) = Some e -> d_inodes d !! c = Some i ->
  make_orphan d c = (Ok tt, detach1 p c (de_name e) i d).
Proof.
  intros H He Hi. pose proof (treei_par _ _ _ _ _ H Hi He) as ->.
  destruct (inv_treei _ H _ _ _ He) as (_ & Hne & Hp & _).
  unfold make_orphan. rewrite (parent_of_spec _ _ _ H Hi Hne).
  destruct (Z.eqb_spec (i_parent i) INVALID_INO) as [E|_]; [unfold INVALID_INO in E; lia|].
  rewrite He. cbn. rewrite Hi. reflexivity.
Qed.
Lemma make_orphan_root d : Inv d -> make_orphan d 1 = (Err EIO, d).
Proof.
  intros H. unfold make_orphan, parent_of. cbn. destruct (d_treei d !! (1, 1)) eqn:E; [|reflexivity].
  destruct (inv_treei _ H _ _ _ E) as (_ & Hx & _). congruence.
Qed.
Lemma make_orphan_missing d c : Inv d -> d_inodes d !! c = None -> make_orphan d c = (Err ENOENT, d).
Proof.
  intros H Hc. unfold make_orphan, parent_of, ROOT_INO. destruct (Z.eqb_spec c 1) as [->|_].
  - destruct (inv_root _ H) as (i & Hi & _). congruence.
  - rewrite Hc. reflexivity.
Qed.
Lemma make_orphan_orphan d c : Inv d -> c ∈ d_orphans d -> make_orphan d c = (Ok tt, d).
Proof.
  intros H Hc. destruct (inv_orphan _ H _ Hc) as (i & Hi & Hp).
  assert (c <> 1) by (intros ->; apply (inv_root_orph _ H Hc)).
  unfold make_orphan. rewrite (parent_of_spec _ _ _ H Hi) by assumption. rewrite Hp. reflexivity.
Qed.

Lemma detach1_inv d p c e i : Inv d -> d_treei d !! (p, c) = Some e -> d_inodes d !! c = Some i ->
  Inv (detach1 p c (de_name e) i d).
Proof.
  intros H He Hi.
  destruct (inv_treei _ H _ _ _ He) as (Hino & Hc1 & Hpc & Hdir & (i' & Hi' & Hpar) & Hn).
  assert (i' = i) by congruence. subst i'.
  split; cbn.
  - destruct (inv_next _ H) as (n & Hn1 & Hn2 & Hr). exists n. split_and!; try lia; try assumption.
    intros x j. destruct (decide (x = c)) as [->|Hne].
    + rewrite lookup_insert. intros _. apply (Hr _ _ Hi).
    + rewrite lookup_insert_ne by congruence. apply Hr.
  - rewrite lookup_insert_ne by congruence. apply (inv_root _ H).
  - rewrite not_elem_of_union, not_elem_of_singleton. split; [apply (inv_root_orph _ H)|congruence].
  - intros q x f Hf. apply lookup_delete_Some in Hf as [Hne Hf].
    destruct (inv_treei _ H _ _ _ Hf) as (F1 & F2 & F3 & (j & Fj & Fd) & (k & Fk & Fp) & Fn).
    assert (Hxc : x <> c). { intros ->. apply Hne. f_equal. rewrite Hi in Fk. injection Fk as <-. lia. }
    split_and!; auto; try lia.
    + unfold is_dir. cbn. destruct (decide (q = c)) as [->|].
      * rewrite lookup_insert. eexists. split; [reflexivity|]. cbn. congruence.
      * rewrite lookup_insert_ne by congruence. eauto.
    + rewrite lookup_insert_ne by congruence. eauto.
    + apply lookup_delete_Some. split; [|assumption]. intros E. injection E as -> E.
      rewrite <- E in Fn. rewrite Hn in Fn. injection Fn as <-. congruence.
  - intros q m f Hf. apply lookup_delete_Some in Hf as [Hne Hf].
    destruct (inv_treen _ H _ _ _ Hf) as (F1 & F2 & F3). split_and!; auto.
    apply lookup_delete_Some. split; [|assumption]. intros E. injection E as -> E.
    rewrite <- E, He in F3. injection F3 as ->. congruence.
  - intros x j Hj Hp. destruct (decide (x = c)) as [->|Hne].
    + rewrite lookup_insert in Hj. injection Hj as <-. cbn in Hp. lia.
    + rewrite lookup_insert_ne in Hj by congruence. destruct (inv_parent _ H _ _ Hj Hp) as [f Hf].
      exists f. apply lookup_delete_Some. split; [|assumption]. congruence.
  - intros x Hx. destruct (decide (x = c)) as [->|Hne].
    + rewrite lookup_insert. eexists. split; [reflexivity|]. reflexivity.
    + rewrite lookup_insert_ne by congruence. apply (inv_orphan _ H). set_solver.
  - intros x j Hj Hne Hp. destruct (decide (x = c)) as [->|Hxc]; [set_solver|].
    rewrite lookup_insert_ne in Hj by congruence. pose proof (inv_parent0 _ H _ _ Hj Hne Hp). set_solver.
  - intros x b Hb. destruct (inv_links _ H _ _ Hb) as (j & Hj & Hl). destruct (decide (x = c)) as [->|Hxc].
    + rewrite lookup_insert. eexists. split; [reflexivity|]. cbn. congruence.
    + rewrite lookup_insert_ne by congruence. eauto.
Qed.

(** every case of make_orphan *)
Lemma make_orphan_cases d c : Inv d ->
  (c = 1 /\ make_orphan d c = (Err EIO, d)) \/
  (d_inodes d !! c = None /\ make_orphan d c = (Err ENOENT, d)) \/
  (c ∈ d_orphans d /\ make_orphan d c = (Ok tt, d)) \/
  (exists p e i, d_treei d !! (p, c) = Some e /\ d_inodes d !! c = Some i /\
    make_orphan d c = (Ok tt, detach1 p c (de_name e) i d)).
Proof.
  intros H. destruct (decide (c = 1)) as [->|Hne]. { left. split; [reflexivity|apply make_orphan_root, H]. }
  right. destruct (d_inodes d !! c) as [i|] eqn:Hi.
  2: { left. split; [reflexivity|apply make_orphan_missing; assumption]. }
  right. destruct (decide (i_parent i = 0)) as [Hp|Hp].
  - left. pose proof (inv_parent0 _ H _ _ Hi Hne Hp). split; [assumption|apply make_orphan_orphan; assumption].
  - right. destruct (inv_parent _ H _ _ Hi Hp) as [e He]. exists (i_parent i), e, i.
    split_and!; auto. apply make_orphan_attached; assumption.
Qed.
Lemma make_orphan_inv d c : Inv d -> Inv (make_orphan d c).2.
Proof.
  intros H. destruct (make_orphan_cases d c H) as [[_ ->]|[[_ ->]|[[_ ->]|(p & e & i & He & Hi & ->)]]]; cbn; auto.
  apply detach1_inv; assumption.
Qed.

(** ** orphaning all children of a directory *)
Definition unpar (o : Z) (i : inode) : inode := if decide (i_parent i = o) then set_parent 0 i else i.
Definition children (d : db) (o : Z) : gset Z :=
  set_map (D:=gset Z) (fun k : Z * Z => k.2) (filter (fun k : Z * Z => k.1 = o) (dom (d_treei d))).
Lemma elem_children d o c : c ∈ children d o <-> exists e, d_treei d !! (o, c) = Some e.
Proof.
  unfold children. rewrite elem_of_map. split.
  - intros ((p & c') & -> & Hk). apply elem_of_filter in Hk as [Hp Hk]. cbn in *. subst p.
    apply elem_of_dom in Hk as [e He]. eauto.
  - intros [e He]. exists (o, c). split; [reflexivity|]. apply elem_of_filter. split; [reflexivity|].
    apply elem_of_dom. eauto.
Qed.
Definition detach (o : Z) (d : db) : db :=
  Db (d_next d) (unpar o <$> d_inodes d)
     (filter (fun kv => kv.1.1 <> o) (d_treei d)) (filter (fun kv => kv.1.1 <> o) (d_treen d))
     (d_orphans d ∪ children d o) (d_links d).

Lemma db_ext d d' : d_next d = d_next d' -> d_inodes d = d_inodes d' -> d_treei d = d_treei d' ->
  d_treen d = d_treen d' -> d_orphans d = d_orphans d' -> d_links d = d_links d' -> d = d'.
Proof. destruct d, d'; cbn; congruence. Qed.

Lemma detach_none d o : Inv d -> 1 <= o -> (forall c, d_treei d !! (o, c) = None) -> detach o d = d.
Proof.
  intros H Ho Hnone. apply db_ext; cbn; try reflexivity.
  - apply map_eq. intros x. rewrite lookup_fmap. destruct (d_inodes d !! x) as [i|] eqn:E; [|reflexivity].
    cbn. f_equal. unfold unpar. destruct (decide (i_parent i = o)) as [Hp|]; [|reflexivity].
    destruct (inv_parent _ H _ _ E) as [e He]; [lia|]. rewrite Hp, Hnone in He. discriminate.
  - apply map_filter_id. intros [p c] e He. cbn. intros ->. rewrite Hnone in He. discriminate.
  - apply map_filter_id. intros [p c] e He. cbn. intros ->. destruct (inv_treen _ H _ _ _ He) as (_ & _ & Hx).
    rewrite Hnone in Hx. discriminate.
  - assert (children d o = ∅) as ->; [|set_solver]. apply set_eq. intros x. rewrite elem_children, Hnone.
    split; [intros [? ?]; discriminate|set_solver].
Qed.

Lemma detach_step d o c e i : Inv d -> d_treei d !! (o, c) = Some e -> d_inodes d !! c = Some i ->
  detach o (detach1 o c (de_name e) i d) = detach o d.
Proof.
  intros H He Hi. pose proof (treei_par _ _ _ _ _ H Hi He) as Hp.
  destruct (inv_treei _ H _ _ _ He) as (_ & _ & Hoc & _ & _ & Hn).
  apply db_ext; cbn; try reflexivity.
  - apply map_eq. intros x. rewrite !lookup_fmap. destruct (decide (x = c)) as [->|Hne].
    + rewrite lookup_insert, Hi. cbn. f_equal. unfold unpar. cbn.
      rewrite decide_False by lia. rewrite decide_True by congruence. reflexivity.
    + rewrite lookup_insert_ne by congruence. reflexivity.
  - apply map_eq. intros [p x]. apply option_eq. intros f. rewrite !map_filter_lookup_Some, lookup_delete_Some. cbn.
    split; [intros [[_ ?] ?]|intros [? ?]]; repeat split; auto. congruence.
  - apply map_eq. intros [p x]. apply option_eq. intros f. rewrite !map_filter_lookup_Some, lookup_delete_Some. cbn.
    split; [intros [[_ ?] ?]|intros [? ?]]; repeat split; auto. congruence.
  - apply set_eq. intros x. rewrite !elem_of_union, !elem_children, elem_of_singleton. cbn.
    split.
    + intros [[?| ->]|[f Hf]]; [tauto|eauto|]. apply lookup_delete_Some in Hf as [_ Hf]. eauto.
    + intros [?|[f Hf]]; [tauto|]. destruct (decide (x = c)) as [->|Hne]; [tauto|].
      right. exists f. apply lookup_delete_Some. split; [congruence|assumption].
Qed.

Lemma lower_bound_none_of d o : Inv d -> u64 o ->
  match lower_bound enc_ii (d_treei d) (le64 o) with
  | None => forall c, d_treei d !! (o, c) = None
  | Some ((q, c), e) => d_treei d !! (q, c) = Some e /\ (q <> o -> forall c, d_treei d !! (o, c) = None)
  end.
Proof.
  intros H Ho. destruct (lower_bound enc_ii (d_treei d) (le64 o)) as [[[q c] e]|] eqn:E.
  - apply lower_bound_Some in E as (H1 & H2 & H3). split; [assumption|]. intros Hne c'.
    destruct (d_treei d !! (o, c')) as [e'|] eqn:E'; [|reflexivity]. exfalso.
    assert (Hu : u64 q) by apply (treei_u64 _ _ _ H H1).
    specialize (H3 _ _ E'). unfold enc_ii in *. cbn in *.
    pose proof (scan_after o q (le64 c) (le64 c') Ho Hu Hne H2) as Hlt.
    apply (blt_irrefl (le64 o ++ le64 c')). eapply blt_le_trans; [exact Hlt|]. apply H3, scan_before.
  - intros c. destruct (d_treei d !! (o, c)) as [e|] eqn:E'; [|reflexivity]. exfalso.
    apply (lower_bound_None _ _ _ E _ _ E'). apply scan_before.
Qed.

Lemma orphan_children_spec fuel d o : Inv d -> 1 <= o -> u64 o -> (size (d_treei d) < fuel)%nat ->
  orphan_children fuel d o = Done (detach o d) /\ Inv (detach o d).
Proof.
  revert d. induction fuel as [|fuel IH]; intros d H Ho Hu Hf; [lia|]. cbn [orphan_children].
  pose proof (lower_bound_none_of d o H Hu) as Hlb.
  destruct (lower_bound enc_ii (d_treei d) (le64 o)) as [[[q c] e]|].
  - destruct Hlb as [He Hq]. destruct (Z.eqb_spec q o) as [->|Hne]; cbn [negb].
    + destruct (inv_treei _ H _ _ _ He) as (-> & _ & _ & _ & (i & Hi & _) & _).
      rewrite (make_orphan_attached _ _ _ _ _ H He Hi). cbn [snd].
      rewrite <- (detach_step _ _ _ _ _ H He Hi). apply IH; auto.
      * apply detach1_inv; assumption.
      * cbn. rewrite map_size_delete_Some by eauto.
        assert (size (d_treei d) <> 0%nat); [|lia]. intros E. apply map_size_empty_inv in E.
        rewrite E in He. rewrite lookup_empty in He. discriminate.
    + specialize (Hq Hne). rewrite (detach_none _ _ H Ho Hq). auto.
  - rewrite (detach_none _ _ H Ho Hlb). auto.
Qed.

(** ** removal of one orphan *)
Definition remove (o : Z) (d : db) : db :=
  Db (d_next d) (delete o (d_inodes d)) (d_treei d) (d_treen d) (d_orphans d ∖ {[o]}) (delete o (d_links d)).

Lemma remove_inv d o : Inv d -> o ∈ d_orphans d -> (forall c, d_treei d !! (o, c) = None) -> Inv (remove o d).
Proof.
  intros H Ho Hnone.
  assert (Ho1 : o <> 1) by (intros ->; apply (inv_root_orph _ H Ho)).
  split; cbn.
  - destruct (inv_next _ H) as (n & Hn1 & Hn2 & Hr). exists n. split_and!; try lia; try assumption.
    intros x j Hj. apply lookup_delete_Some in Hj as [_ Hj]. eauto.
  - rewrite lookup_delete_ne by congruence. apply (inv_root _ H).
  - pose proof (inv_root_orph _ H). set_solver.
  - intros p c e He. destruct (inv_treei _ H _ _ _ He) as (F1 & F2 & F3 & (j & Fj & Fd) & (k & Fk & Fp) & Fn).
    assert (p <> o) by (intros ->; rewrite Hnone in He; discriminate).
    assert (c <> o). { intros ->. destruct (inv_orphan _ H _ Ho) as (k' & Hk' & Hp'). rewrite Fk in Hk'. injection Hk' as <-. lia. }
    split_and!; auto; try lia; unfold is_dir; cbn; rewrite lookup_delete_ne by congruence; eauto.
  - apply (inv_treen _ H).
  - intros c i Hi Hp. apply lookup_delete_Some in Hi as [_ Hi]. eapply inv_parent; eauto.
  - intros c Hc. apply elem_of_difference in Hc as [Hc Hne]. rewrite lookup_delete_ne by set_solver.
    apply (inv_orphan _ H _ Hc).
  - intros c i Hi Hne Hp. apply lookup_delete_Some in Hi as [Hx Hi].
    pose proof (inv_parent0 _ H _ _ Hi Hne Hp). set_solver.
  - intros c b Hb. apply lookup_delete_Some in Hb as [Hx Hb]. destruct (inv_links _ H _ _ Hb) as (i & Hi & Hl).
    rewrite lookup_delete_ne by congruence. eauto.
Qed.

(** ** The effect of removing a set [R] of inodes *)
Definition unpar_set (R : gset Z) (i : inode) : inode := if decide (i_parent i ∈ R) then set_parent 0 i else i.
Definition children_of (d : db) (R : gset Z) : gset Z :=
  set_map (D:=gset Z) (fun k : Z * Z => k.2) (filter (fun k : Z * Z => k.1 ∈ R) (dom (d_treei d))).
Lemma elem_children_of d R c : c ∈ children_of d R <-> exists p e, p ∈ R /\ d_treei d !! (p, c) = Some e.
Proof.
  unfold children_of. rewrite elem_of_map. split.
  - intros ((p & c') & -> & Hk). apply elem_of_filter in Hk as [Hp Hk]. cbn in *.
    apply elem_of_dom in Hk as [e He]. eauto.
  - intros (p & e & Hp & He). exists (p, c). split; [reflexivity|]. apply elem_of_filter. split; [assumption|].
    apply elem_of_dom. eauto.
Qed.
Definition cleaned (R : gset Z) (d : db) : db :=
  Db (d_next d)
     (unpar_set R <$> filter (fun kv => kv.1 ∉ R) (d_inodes d))
     (filter (fun kv => kv.1.1 ∉ R) (d_treei d)) (filter (fun kv => kv.1.1 ∉ R) (d_treen d))
     ((d_orphans d ∪ children_of d R) ∖ R)
     (filter (fun kv => kv.1 ∉ R) (d_links d)).

Lemma cleaned_inodes R d x i : d_inodes (cleaned R d) !! x = Some i <->
  x ∉ R /\ exists j, d_inodes d !! x = Some j /\ i = unpar_set R j.
Proof.
  cbn. rewrite lookup_fmap_Some. setoid_rewrite map_filter_lookup_Some. cbn. split.
  - intros (j & <- & Hj & Hx). eauto.
  - intros (Hx & j & Hj & ->). eauto.
Qed.
Lemma cleaned_treei R d p c e : d_treei (cleaned R d) !! (p, c) = Some e <-> p ∉ R /\ d_treei d !! (p, c) = Some e.
Proof. cbn. rewrite map_filter_lookup_Some. cbn. tauto. Qed.
Lemma cleaned_treen R d p n e : d_treen (cleaned R d) !! (p, n) = Some e <-> p ∉ R /\ d_treen d !! (p, n) = Some e.
Proof. cbn. rewrite map_filter_lookup_Some. cbn. tauto. Qed.
Lemma cleaned_links R d x b : d_links (cleaned R d) !! x = Some b <-> x ∉ R /\ d_links d !! x = Some b.
Proof. cbn. rewrite map_filter_lookup_Some. cbn. tauto. Qed.
Lemma cleaned_orphans R d x : x ∈ d_orphans (cleaned R d) <->
  x ∉ R /\ (x ∈ d_orphans d \/ exists p e, p ∈ R /\ d_treei d !! (p, x) = Some e).
Proof. cbn. rewrite elem_of_difference, elem_of_union, elem_children_of. tauto. Qed.

Lemma cleaned_empty d : cleaned ∅ d = d.
Proof.
  apply db_ext; [reflexivity|..].
  - apply map_eq. intros x. apply option_eq. intros i. rewrite cleaned_inodes. split.
    + intros (_ & j & Hj & ->). unfold unpar_set. rewrite decide_False by set_solver. assumption.
    + intros Hi. split; [set_solver|]. exists i. split; [assumption|]. unfold unpar_set.
      rewrite decide_False by set_solver. reflexivity.
  - apply map_eq. intros [p c]. apply option_eq. intros e. rewrite cleaned_treei. set_solver.
  - apply map_eq. intros [p c]. apply option_eq. intros e. rewrite cleaned_treen. set_solver.
  - apply set_eq. intros x. rewrite cleaned_orphans. split; [intros (_ & [?|(p & e & Hp & _)]); set_solver|set_solver].
  - apply map_eq. intros x. apply option_eq. intros b. rewrite cleaned_links. set_solver.
Qed.

Lemma cleaned_single d o : Inv d -> o ∈ d_orphans d -> cleaned {[o]} d = remove o (detach o d).
Proof.
  intros H Ho. destruct (inv_orphan _ H _ Ho) as (i & Hi & Hp).
  assert (Ho0 : o <> 0). { pose proof (inode_range _ _ _ H Hi). lia. }
  assert (Hself : forall p e, d_treei d !! (p, o) = Some e -> False).
  { intros p e He. pose proof (treei_par _ _ _ _ _ H Hi He). destruct (inv_treei _ H _ _ _ He) as (_ & _ & ? & _). lia. }
  apply db_ext; [reflexivity|..].
  - apply map_eq. intros x. apply option_eq. intros j. rewrite cleaned_inodes. cbn. rewrite lookup_delete_Some, lookup_fmap_Some.
    unfold unpar_set, unpar. split.
    + intros (Hx & k & Hk & ->). split; [set_solver|]. exists k. split; [|assumption].
      destruct (decide (i_parent k = o)) as [->|]; [rewrite decide_True by set_solver; reflexivity|].
      rewrite decide_False by set_solver. reflexivity.
    + intros (Hx & k & <- & Hk). split; [set_solver|]. exists k. split; [assumption|].
      destruct (decide (i_parent k = o)) as [->|]; [rewrite decide_True by set_solver; reflexivity|].
      rewrite decide_False by set_solver. reflexivity.
  - apply map_eq. intros [p c]. apply option_eq. intros e. rewrite cleaned_treei. cbn. rewrite map_filter_lookup_Some. cbn. set_solver.
  - apply map_eq. intros [p c]. apply option_eq. intros e. rewrite cleaned_treen. cbn. rewrite map_filter_lookup_Some. cbn. set_solver.
  - apply set_eq. intros x. rewrite cleaned_orphans. cbn. rewrite elem_of_difference, elem_of_union, elem_children. set_solver.
  - apply map_eq. intros x. apply option_eq. intros b. rewrite cleaned_links. cbn. rewrite lookup_delete_Some. set_solver.
Qed.

Lemma reap_spec d o : Inv d -> o ∈ d_orphans d ->
  reap d o = Done (cleaned {[o]} d) /\ Inv (cleaned {[o]} d).
Proof.
  intros H Ho. destruct (inv_orphan _ H _ Ho) as (i & Hi & Hp).
  destruct (inode_range _ _ _ H Hi) as [Ho1 Hou].
  rewrite (cleaned_single _ _ H Ho).
  destruct (orphan_children_spec (S (size (d_treei d))) d o H Ho1 Hou) as [Hoc Hid]; [lia|].
  split.
  - unfold reap. rewrite Hi. cbn zeta.
    assert (Hlnk : ftype (a_mode (i_attr i)) <> S_IFLNK -> d_links d !! o = None).
    { intros Hl. destruct (d_links d !! o) as [b|] eqn:E; [|reflexivity].
      destruct (inv_links _ H _ _ E) as (j & Hj & Hjl). congruence. }
    assert (Hdir : ftype (a_mode (i_attr i)) <> S_IFDIR -> forall c, d_treei d !! (o, c) = None).
    { intros Hd c. destruct (d_treei d !! (o, c)) as [e|] eqn:E; [|reflexivity].
      destruct (inv_treei _ H _ _ _ E) as (_ & _ & _ & (j & Hj & Hjd) & _). congruence. }
    destruct (Z.eqb_spec (ftype (a_mode (i_attr i))) S_IFLNK) as [El|El].
    + rewrite (detach_none _ _ H Ho1) by (apply Hdir; rewrite El; discriminate). reflexivity.
    + specialize (Hlnk El). destruct (Z.eqb_spec (ftype (a_mode (i_attr i))) S_IFDIR) as [Ed|Ed].
      * rewrite Hoc. cbn. do 2 f_equal. unfold remove. cbn. rewrite (delete_notin (d_links d) o) by assumption. reflexivity.
      * rewrite (detach_none _ _ H Ho1) by (apply Hdir; assumption). cbn. do 2 f_equal. unfold remove. cbn.
        rewrite (delete_notin (d_links d) o) by assumption. reflexivity.
  - apply remove_inv; [assumption|cbn; set_solver|].
    intros c. cbn. apply map_filter_lookup_None. right. intros e _. cbn. congruence.
Qed.

(** composition *)
Lemma cleaned_comp R' d o : Inv d -> o ∈ d_orphans d -> o ∉ R' ->
  (forall p c e, p ∈ R' -> d_treei d !! (p, c) = Some e -> p <> o) ->
  cleaned R' (cleaned {[o]} d) = cleaned ({[o]} ∪ R') d.
Proof.
  intros H Ho Hn _. destruct (inv_orphan _ H _ Ho) as (i & Hi & Hp).
  assert (Ho0 : o <> 0). { pose proof (inode_range _ _ _ H Hi). lia. }
  apply db_ext; [reflexivity|..].
  - apply map_eq. intros x. apply option_eq. intros j. rewrite !cleaned_inodes. split.
    + intros (Hx & k & Hk & ->). apply cleaned_inodes in Hk as (Hx' & k' & Hk' & ->).
      split; [set_solver|]. exists k'. split; [assumption|]. unfold unpar_set.
      destruct (decide (i_parent k' ∈ {[o]})) as [E|E]; cbn.
      * rewrite (decide_True (P:=i_parent k' ∈ _ ∪ _)) by set_solver. destruct (decide (0 ∈ R')); reflexivity.
      * destruct (decide (i_parent k' ∈ R')); [rewrite decide_True by set_solver|rewrite decide_False by set_solver]; reflexivity.
    + intros (Hx & k & Hk & ->). split; [set_solver|]. exists (unpar_set {[o]} k). split.
      { apply cleaned_inodes. split; [set_solver|eauto]. }
      unfold unpar_set.
      destruct (decide (i_parent k ∈ {[o]})) as [E|E]; cbn.
      * rewrite (decide_True (P:=i_parent k ∈ _ ∪ _)) by set_solver. destruct (decide (0 ∈ R')); reflexivity.
      * destruct (decide (i_parent k ∈ R')); [rewrite decide_True by set_solver|rewrite decide_False by set_solver]; reflexivity.
  - apply map_eq. intros [p c]. apply option_eq. intros e. rewrite !cleaned_treei. set_solver.
  - apply map_eq. intros [p c]. apply option_eq. intros e. rewrite !cleaned_treen. set_solver.
  - apply set_eq. intros x. rewrite !cleaned_orphans. setoid_rewrite cleaned_treei. split.
    + intros (Hx & [(Hx' & [?|(p & e & Hpo & He)])|(p & e & Hpr & _ & He)]).
      * set_solver.
      * split; [set_solver|]. right. exists p, e. set_solver.
      * split; [|right; exists p, e; set_solver].
        rewrite not_elem_of_union. split; [|assumption]. rewrite not_elem_of_singleton. intros ->.
        pose proof (treei_par _ _ _ _ _ H Hi He). destruct (inv_treei _ H _ _ _ He) as (_ & _ & ? & _). lia.
    + intros (Hx & [?|(p & e & Hpr & He)]).
      * split; [set_solver|]. left. split; [set_solver|]. auto.
      * split; [set_solver|]. apply elem_of_union in Hpr as [Hpr|Hpr].
        -- left. split; [set_solver|]. right. eauto.
        -- destruct (decide (p = o)) as [->|Hpo]; [left; split; [set_solver|]; right; exists o, e; set_solver|].
           right. exists p, e. set_solver.
  - apply map_eq. intros x. apply option_eq. intros b. rewrite !cleaned_links. set_solver.
Qed.

(** ** clean_orphans *)
(** An inode that clean_orphans must remove: an unreferenced orphan, or an unreferenced
    child of a removed directory. *)
Inductive gone (d : db) (r : refs) : Z -> Prop :=
| gone_orphan o : o ∈ d_orphans d -> refcount r o <= 0 -> gone d r o
| gone_child p c e : gone d r p -> d_treei d !! (p, c) = Some e -> refcount r c <= 0 -> gone d r c.

Definition doom_all (R : gset Z) (r : refs) : refs :=
  set_to_map (fun x => (x, (refcount r x, true))) R ∪ r.
Lemma doom_all_lookup R r x : doom_all R r !! x = if decide (x ∈ R) then Some (refcount r x, true) else r !! x.
Proof.
  unfold doom_all. destruct (decide (x ∈ R)) as [Hx|Hx].
  - apply lookup_union_Some_l. apply lookup_set_to_map; [cbn; intros; congruence|]. eauto.
  - rewrite lookup_union_r; [reflexivity|]. destruct (_ !! x) as [v|] eqn:E; [|reflexivity].
    apply lookup_set_to_map in E as (y & Hy & E); [|cbn; intros; congruence]. injection E as -> _. contradiction.
Qed.
Lemma refcount_doom_all R r x : refcount (doom_all R r) x = refcount r x.
Proof.
  unfold refcount at 1. rewrite doom_all_lookup. destruct (decide (x ∈ R)); [reflexivity|].
  reflexivity.
Qed.
Lemma doom_victim r o : refcount r o <= 0 -> (doom r o).2 = doom_all {[o]} r.
Proof.
  intros Ho. apply map_eq. intros x. rewrite doom_all_lookup. unfold doom, refcount in *.
  destruct (r !! o) as [[n dm]|] eqn:E.
  - destruct (Z.ltb_spec 0 n); [lia|]. cbn. destruct (decide (x ∈ {[o]})) as [Hx|Hx].
    + apply elem_of_singleton in Hx as ->. rewrite lookup_insert, E. reflexivity.
    + rewrite lookup_insert_ne by set_solver. reflexivity.
  - cbn. destruct (decide (x ∈ {[o]})) as [Hx|Hx].
    + apply elem_of_singleton in Hx as ->. rewrite lookup_insert, E. reflexivity.
    + rewrite lookup_insert_ne by set_solver. reflexivity.
Qed.
Lemma doom_all_comp R o r : doom_all R (doom_all {[o]} r) = doom_all ({[o]} ∪ R) r.
Proof.
  apply map_eq. intros x. rewrite !doom_all_lookup, refcount_doom_all.
  destruct (decide (x ∈ R)), (decide (x ∈ {[o]})), (decide (x ∈ {[o]} ∪ R)); try reflexivity; set_solver.
Qed.
Lemma doom_all_empty r : doom_all ∅ r = r.
Proof. apply map_eq. intros x. rewrite doom_all_lookup. rewrite decide_False by set_solver. reflexivity. Qed.

Lemma elem_orphan_list d x : x ∈ orphan_list d <-> x ∈ d_orphans d.
Proof.
  unfold orphan_list. rewrite elem_of_list_fmap. split.
  - intros ([y []] & -> & Hy). apply elem_of_entries in Hy. apply lookup_gset_to_gmap_Some in Hy. tauto.
  - intros Hx. exists (x, ()). split; [reflexivity|]. apply elem_of_entries. apply lookup_gset_to_gmap_Some. auto.
Qed.
Lemma next_victim_Some d r o : next_victim d r = Some o -> o ∈ d_orphans d /\ refcount r o <= 0.
Proof.
  unfold next_victim. intros E. assert (Hin : o ∈ filter (fun o => bool_decide (refcount r o <= 0)) (orphan_list d)).
  { destruct (filter _ _); [discriminate|]. injection E as ->. left. }
  apply elem_of_list_filter in Hin as [H1 H2]. apply bool_decide_unpack in H1. rewrite elem_orphan_list in H2. auto.
Qed.
Lemma next_victim_None d r : next_victim d r = None -> forall o, o ∈ d_orphans d -> ~ refcount r o <= 0.
Proof.
  unfold next_victim. intros E o Ho Hr. apply elem_orphan_list in Ho.
  assert (Hin : o ∈ filter (fun o => bool_decide (refcount r o <= 0)) (orphan_list d)).
  { apply elem_of_list_filter. split; [apply bool_decide_pack; assumption|assumption]. }
  destruct (filter _ _); [apply elem_of_nil in Hin; assumption|discriminate].
Qed.

Lemma gone_reap d r o x : Inv d -> o ∈ d_orphans d -> refcount r o <= 0 ->
  gone d r x <-> x = o \/ gone (cleaned {[o]} d) (doom_all {[o]} r) x.
Proof.
  intros H Ho Hr. split.
  - induction 1 as [x Hx Hrx|p c e Hp IH He Hrc].
    + destruct (decide (x = o)) as [->|Hne]; [auto|]. right. apply gone_orphan.
      * apply cleaned_orphans. split; [set_solver|auto].
      * rewrite refcount_doom_all. assumption.
    + destruct (decide (c = o)) as [->|Hne]; [auto|]. right. destruct IH as [->|IH].
      * apply gone_orphan; [|rewrite refcount_doom_all; assumption]. apply cleaned_orphans.
        split; [set_solver|]. right. exists o, e. set_solver.
      * destruct (decide (p = o)) as [->|Hpo].
        -- apply gone_orphan; [|rewrite refcount_doom_all; assumption]. apply cleaned_orphans.
           split; [set_solver|]. right. exists o, e. set_solver.
        -- eapply gone_child; [exact IH| |rewrite refcount_doom_all; assumption].
           apply cleaned_treei. split; [set_solver|eassumption].
  - intros [->|Hg]; [apply gone_orphan; assumption|].
    induction Hg as [x Hx Hrx|p c e Hp IH He Hrc]; rewrite refcount_doom_all in *.
    + apply cleaned_orphans in Hx as (_ & [Hx|(p & e & Hp & He)]); [apply gone_orphan; assumption|].
      apply elem_of_singleton in Hp as ->. eapply gone_child; [apply gone_orphan|..]; eassumption.
    + apply cleaned_treei in He as [_ He]. eapply gone_child; eassumption.
Qed.

Lemma clean_loop_spec fuel d r : Inv d -> (size (d_inodes d) < fuel)%nat ->
  exists R : gset Z, (forall x, x ∈ R <-> gone d r x) /\
    clean_loop fuel d r = Done (cleaned R d, doom_all R r) /\ Inv (cleaned R d).
Proof.
  revert d r. induction fuel as [|fuel IH]; intros d r H Hf; [lia|]. cbn [clean_loop].
  destruct (next_victim d r) as [o|] eqn:Ev.
  - apply next_victim_Some in Ev as [Ho Hr]. destruct (reap_spec d o H Ho) as [-> Hi]. cbn [obind].
    rewrite (doom_victim _ _ Hr).
    destruct (inv_orphan _ H _ Ho) as (i & Hio & Hp).
    destruct (IH (cleaned {[o]} d) (doom_all {[o]} r) Hi) as (R & HR & Heq & HiR).
    { rewrite (cleaned_single _ _ H Ho). cbn. rewrite map_size_delete_Some; [|rewrite lookup_fmap, Hio; eauto].
      rewrite map_size_fmap.
      assert (size (d_inodes d) <> 0%nat); [|lia]. intros E. apply map_size_empty_inv in E.
      rewrite E, lookup_empty in Hio. discriminate. }
    assert (Hno : o ∉ R).
    { intros HoR. apply HR in HoR. inversion HoR as [x Hx Hrx|p c e Hgp He Hrc]; subst.
      - apply cleaned_orphans in Hx as [Hx _]. set_solver.
      - apply cleaned_treei in He as [_ He]. pose proof (treei_par _ _ _ _ _ H Hio He).
        destruct (inv_treei _ H _ _ _ He) as (_ & _ & ? & _). lia. }
    assert (Hcomp : cleaned R (cleaned {[o]} d) = cleaned ({[o]} ∪ R) d).
    { apply cleaned_comp; auto. intros; congruence. }
    exists ({[o]} ∪ R). split_and!.
    + intros x. rewrite elem_of_union, elem_of_singleton, HR. symmetry. apply gone_reap; assumption.
    + rewrite Heq, Hcomp, doom_all_comp. reflexivity.
    + rewrite <- Hcomp. assumption.
  - exists ∅. rewrite cleaned_empty, doom_all_empty. split_and!; auto.
    intros x. split; [set_solver|]. intros Hg. exfalso. induction Hg as [x Hx Hrx|]; [|assumption].
    eapply next_victim_None; eassumption.
Qed.

Lemma clean_orphans_spec d r : Inv d ->
  exists R : gset Z, (forall x, x ∈ R <-> gone d r x) /\
    clean_orphans d r = Done (cleaned R d, doom_all R r) /\ Inv (cleaned R d).
Proof. intros H. apply clean_loop_spec; [assumption|]. unfold clean_fuel. lia. Qed.
