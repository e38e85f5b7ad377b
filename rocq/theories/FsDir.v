(** The loops of readdir and readdirplus. *)
From Verif Require Export FsCases.

(** ** the entries from a position on, with their attributes, and the error that ends them *)
Definition dent : Type := Z * bytes * attrs.
Inductive scan (d : db) (dir : Z) : Z -> list dent -> Z -> Prop :=
| scan_end cur e : readdir d dir cur = Err e -> scan d dir cur [] e
| scan_stat cur x n e : readdir d dir cur = Ok (x, n) -> getattr d x = Err e -> scan d dir cur [] e
| scan_entry cur x n a l e : readdir d dir cur = Ok (x, n) -> getattr d x = Ok a -> scan d dir x l e ->
    scan d dir cur ((x, n, a) :: l) e.
Lemma scan_fun d dir cur l e : scan d dir cur l e -> forall l' e', scan d dir cur l' e' -> l = l' /\ e = e'.
Proof.
  induction 1 as [cur e Hr|cur x n e Hr Hg|cur x n a l e Hr Hg _ IH]; intros l' e' H'; inversion H' as [? ? Hr'|? ? ? ? Hr' Hg'|? ? ? ? ? ? Hr' Hg' Hs']; subst; try congruence.
  - split; congruence.
  - split; congruence.
  - assert (x0 = x) by congruence. assert (n0 = n) by congruence. assert (a0 = a) by congruence. subst. destruct (IH _ _ Hs') as [-> ->]. auto.
Qed.

Lemma readdir_next' d dir p pre c n post : Inv d -> u64 dir -> parent_of d dir = Ok p ->
  dir_entries d dir = pre ++ (c, n) :: post -> readdir d dir c = first_of post.
Proof.
  intros H Hu Hp E.
  assert (Hc : exists e, d_treei d !! (dir, c) = Some e /\ de_name e = n).
  { apply elem_dir_entries. rewrite E. set_solver. }
  destruct Hc as (e & He & Hn). destruct (inv_treei _ H _ _ _ He) as (_ & Hc1 & Hpc & _).
  assert (Hcp : c <> p) by (destruct (parent_lt _ _ _ H Hp) as [[-> ->]|[[? ->]|[? ?]]]; lia).
  unfold readdir. destruct (Z.eqb_spec c 0); [lia|]. rewrite Hp.
  destruct (Z.eqb_spec c p); [contradiction|]. destruct (Z.eqb_spec c dir); [lia|]. cbn [negb andb].
  unfold dir_entries in E. apply map_eq_app in E as (rp & rs & Er & Ep & Es).
  destruct rs as [|[[q c'] e'] rs]; [discriminate|]. cbn in Es. injection Es as -> Hn' Es.
  assert (q = dir). { apply (raw_entries_dir d dir (q, c) e'). rewrite Er. set_solver. }
  subst q.
  assert (Hat : from_key enc_ii (d_treei d) (enc_ii (dir, c)) = ((dir, c), e') :: rs ++ raw_others d dir).
  { pose proof (from_key_at enc_ii (d_treei d) rp ((dir, c), e') (rs ++ raw_others d dir) (le64 dir)) as Hf.
    apply Hf; [apply treei_inj; assumption|]. rewrite raw_split, Er by assumption.
    rewrite <- app_assoc. reflexivity. }
  rewrite Hat. rewrite !Z.eqb_refl. cbn [negb]. rewrite <- Es.
  apply (first_raw dir).
  - intros k f Hin. apply (raw_entries_dir d dir k f). rewrite Er. set_solver.
  - intros k f Hin. apply elem_of_list_filter in Hin as [Hk _]. assumption.
Qed.

(** the attributes of the entries of a directory *)
Definition with_attr (d : db) (e : Z * bytes) : dent :=
  (e, match getattr d e.1 with Ok a => a | Err _ => Attrs 0 0 0 0 (0, 0) (0, 0) (0, 0) 0 end).
Lemma entry_getattr d dir c n : Inv d -> (c, n) ∈ dir_entries d dir -> exists a, getattr d c = Ok a /\ with_attr d (c, n) = (c, n, a).
Proof.
  intros H Hin. apply elem_dir_entries in Hin as (e & He & _). destruct (treei_facts _ _ _ _ H He) as (_ & [a Ha] & _). exists a. split; [assumption|].
  unfold with_attr. cbn [fst]. rewrite Ha. reflexivity.
Qed.
Lemma scan_from d dir p prev pre post : Inv d -> u64 dir -> parent_of d dir = Ok p ->
  dir_entries d dir = pre ++ post -> readdir d dir prev = first_of post -> scan d dir prev (map (with_attr d) post) 0.
Proof.
  intros H Hu Hp. revert prev pre. induction post as [|[c n] post IH]; intros prev pre E Hr; cbn [map].
  - apply scan_end. assumption.
  - destruct (entry_getattr d dir c n H) as (a & Ha & ->); [rewrite E; set_solver|]. eapply scan_entry; [exact Hr|exact Ha|].
    apply (IH c (pre ++ [(c, n)])); [rewrite <- app_assoc; assumption|]. eapply readdir_next'; eassumption.
Qed.
(** after "." and "..": the next entry in key order, or the end *)
Lemma readdir_inside d dir p cur : Inv d -> u64 dir -> parent_of d dir = Ok p -> cur <> 0 -> ~ (cur = dir /\ cur <> p) ->
  exists pre post, dir_entries d dir = pre ++ post /\ readdir d dir cur = first_of post.
Proof.
  intros H Hu Hp Hc Hnd.
  assert (Hin : forall c e b rest, ((dir, c), e) :: rest = from_key enc_ii (d_treei d) b \/ ((dir, c), e) ∈ from_key enc_ii (d_treei d) b -> (c, de_name e) ∈ dir_entries d dir).
  { intros c e b rest Hb. apply elem_dir_entries. exists e. split; [|reflexivity]. apply (proj1 (elem_of_from enc_ii (d_treei d) b (dir, c) e)). destruct Hb as [<-|Hb]; [left|assumption]. }
  assert (Hend : exists pre post, dir_entries d dir = pre ++ post /\ @Err (Z * bytes) 0 = first_of post) by (exists (dir_entries d dir), []; rewrite app_nil_r; auto).
  assert (Hmid : forall c n, (c, n) ∈ dir_entries d dir -> exists pre post, dir_entries d dir = pre ++ post /\ Ok (c, n) = first_of post).
  { intros c n Hcn. apply elem_of_list_split in Hcn as (pre & post & E). exists pre, ((c, n) :: post). auto. }
  unfold readdir. destruct (Z.eqb_spec cur 0); [contradiction|]. rewrite Hp.
  destruct (negb (cur =? p) && (cur =? dir)) eqn:Eb; [exfalso; apply Hnd; apply andb_prop in Eb as [E1 E2]; apply negb_true_iff in E1; lia|].
  set (b := enc_ii (dir, if cur =? p then 0 else cur)).
  destruct (from_key enc_ii (d_treei d) b) as [|[[q c] e] l] eqn:El; [exact Hend|].
  destruct (Z.eqb_spec q dir) as [->|]; cbn [negb]; [|exact Hend].
  destruct (Z.eqb_spec c cur) as [->|].
  - destruct l as [|[[q' c'] e'] l]; [exact Hend|]. destruct (Z.eqb_spec q' dir) as [->|]; cbn [negb]; [|exact Hend].
    apply Hmid. apply (Hin c' e' b []). right. rewrite El. right. left.
  - apply Hmid. apply (Hin c e b l). left. rewrite El. reflexivity.
Qed.
Lemma dir_entries_length d dir : (length (dir_entries d dir) <= size (d_treei d))%nat.
Proof.
  unfold dir_entries, raw_entries, from_key, entries. rewrite map_length.
  assert (Hf : forall (A : Type) (P : A -> Prop) (D : forall x, Decision (P x)) (l : list A), (length (filter P l) <= length l)%nat).
  { intros A P D l. induction l as [|x l IH]; [cbn; lia|]. rewrite filter_cons. destruct (decide (P x)); cbn [length]; lia. }
  etransitivity; [apply Hf|]. etransitivity; [apply Hf|]. rewrite (Permutation_length (merge_sort_Permutation _ _)). unfold size, map_size. lia.
Qed.

(** everything readdir can do *)
Lemma scan_total d dir cur : Inv d -> exists l e, scan d dir cur l e /\ (length l <= size (d_treei d) + 2)%nat /\
  (e = 0 \/ e = ENOENT \/ e = EIO) /\
  (e <> 0 -> l = [] /\ ~ has_inode d dir \/ is_orphan d dir).
Proof.
  intros H. destruct (decide (has_inode d dir)) as [Hin|Hin] || (destruct (d_inodes d !! dir) as [i|] eqn:Hin).
  2:{ assert (Hp : parent_of d dir = Err ENOENT).
      { unfold parent_of. destruct (Z.eqb_spec dir ROOT_INO) as [->|]; [|rewrite Hin; reflexivity]. destruct (inv_root _ H) as (j & Hj & _). unfold ROOT_INO in Hin. congruence. }
      assert (Hno : ~ has_inode d dir) by (rewrite has_inode_iff; intros [? ?]; congruence).
      destruct (Z.eqb_spec cur 0) as [->|Hc].
      - exists [], ENOENT. split; [eapply scan_stat; [unfold readdir; cbn; reflexivity|unfold getattr; rewrite Hin; reflexivity]|]. split; [cbn; lia|]. auto.
      - exists [], EIO. split; [apply scan_end; unfold readdir; destruct (Z.eqb_spec cur 0); [contradiction|]; rewrite Hp; reflexivity|]. split; [cbn; lia|]. auto. }
  destruct (inode_range _ _ _ H Hin) as [H1 Hu].
  assert (Hp : exists p, parent_of d dir = Ok p /\ (p = dir <-> dir = 1)).
  { unfold parent_of, ROOT_INO. destruct (Z.eqb_spec dir 1) as [->|]; [exists 1; split; [reflexivity|lia]|]. rewrite Hin. exists (i_parent i). split; [reflexivity|]. split; [|contradiction].
    intros E. destruct (parent_lt d dir (i_parent i) H) as [[? ?]|[[? ?]|[? ?]]]; try lia. unfold parent_of, ROOT_INO. destruct (Z.eqb_spec dir 1); [contradiction|]. rewrite Hin. reflexivity. }
  destruct Hp as (p & Hp & Hpd).
  assert (Hga : getattr d dir = Ok (i_attr i)) by (unfold getattr; rewrite Hin; reflexivity).
  assert (Hins : forall cur, cur <> 0 -> ~ (cur = dir /\ cur <> p) -> exists l, scan d dir cur l 0 /\ (length l <= size (d_treei d))%nat).
  { intros c Hc Hnd. destruct (readdir_inside d dir p c H Hu Hp Hc Hnd) as (pre & post & E & Hr). exists (map (with_attr d) post).
    split; [eapply scan_from; eassumption|]. rewrite map_length. pose proof (dir_entries_length d dir) as HL. rewrite E, app_length in HL. lia. }
  assert (Hfrom : forall cur, cur <> 0 -> exists l e, scan d dir cur l e /\ (length l <= size (d_treei d) + 1)%nat /\ (e = 0 \/ e = ENOENT \/ e = EIO) /\ (e <> 0 -> is_orphan d dir)).
  { intros c Hc. destruct (decide (c = dir /\ c <> p)) as [[-> Hne]|Hnd].
    - assert (Hdd : readdir d dir dir = Ok (p, DOTDOT)).
      { unfold readdir. destruct (Z.eqb_spec dir 0); [contradiction|]. rewrite Hp. destruct (Z.eqb_spec dir p); [contradiction|]. rewrite Z.eqb_refl. reflexivity. }
      destruct (Z.eqb_spec p 0) as [->|Hp0].
      + exists [], ENOENT. split; [eapply scan_stat; [exact Hdd|]|].
        * unfold getattr. destruct (d_inodes d !! 0) as [j|] eqn:Ej; [destruct (inode_range _ _ _ H Ej); lia|reflexivity].
        * split; [cbn; lia|]. split; [auto|]. intros _. split; [|exact Hp]. unfold ROOT_INO; lia.
      + assert (Hga' : exists a, getattr d p = Ok a).
        { assert (Hne1 : dir <> 1) by lia. pose proof (parent_of_spec _ _ _ H Hin Hne1) as Hp'. assert (Hpp : i_parent i = p) by congruence.
          destruct (inv_parent _ H _ _ Hin ltac:(lia)) as [e He]. rewrite Hpp in He. destruct (treei_facts _ _ _ _ H He) as (_ & _ & (j & Hj & _) & _). exists (i_attr j). unfold getattr. rewrite Hj. reflexivity. }
        destruct Hga' as [a Ha]. destruct (Hins p Hp0) as (l & Hl & Hlen); [intros [? ?]; congruence|].
        exists ((p, DOTDOT, a) :: l), 0. split; [eapply scan_entry; eassumption|]. cbn [length]. split; [lia|]. split; [auto|congruence].
    - destruct (Hins c Hc Hnd) as (l & Hl & Hlen). exists l, 0. split; [assumption|]. split; [lia|]. split; [auto|congruence]. }
  destruct (Z.eqb_spec cur 0) as [->|Hc].
  - destruct (Hfrom dir ltac:(lia)) as (l & e & Hl & Hlen & He & Ho). exists ((dir, DOT, i_attr i) :: l), e. split; [eapply scan_entry; [unfold readdir; cbn; reflexivity|exact Hga|exact Hl]|].
    cbn [length]. split; [lia|]. split; [assumption|]. intros Hn. right. auto.
  - destruct (Hfrom cur Hc) as (l & e & Hl & Hlen & He & Ho). exists l, e. split; [assumption|]. split; [lia|]. split; [assumption|]. intros Hn. right. auto.
Qed.
