(** Property theorems C73, continued: writing to a damaged cache database. *)
From Coq Require Import Sorted.
From Verif Require Import LmdbDamage PropsDamage PropsCodec CacheFacts LmdbRel.

(** ** Specification *)
(** the entries of the directory [o] in the tree of inode numbers are those whose key begins with its number *)
Definition in_dir (o : Z) (k : bytes) : Prop := exists rest, k = le64 o ++ rest.
(** the inode number in an entry record *)
Definition child_of (v : bytes) : Z := unle (take 8 (drop 8 v)).
(** the entry can be read, its key says the same as its record, and the child's record names [o] as its parent *)
Definition sound_child (b : bdb) (o : Z) (k v : bytes) : Prop :=
  ~ malformed 16 v /\ k = le64 o ++ le64 (child_of v) /\ b_parent b (child_of v) = Done (Ok o).
(** the entry cannot be read, or that of its child in the directory that the child's record names cannot *)
Definition trips (b : bdb) (v : bytes) : Prop :=
  malformed 16 v \/ exists p v', b_parent b (child_of v) = Done (Ok p) /\ p <> INVALID_INO /\ b_treei b !! (le64 p ++ le64 (child_of v)) = Some v' /\ malformed 16 v'.

(** ** Lemmas *)
Lemma ser_bytes pad i : is_bytes (ser pad i).
Proof. unfold ser, ser_inode, is_bytes. cbn [concat]. rewrite !Forall_app. split_and!; try apply le_bytes. apply Forall_nil_2. Qed.
Lemma real_ins m k v : real m -> is_bytes k -> is_bytes v -> real (<[k := v]> m).
Proof. intros Hr Hk Hv k' v' E. apply lookup_insert_Some in E as [[<- <-]|[_ E]]; [auto|exact (Hr _ _ E)]. Qed.
Lemma real_del m k : real m -> real (delete k m).
Proof. intros Hr k' v' E. apply lookup_delete_Some in E as [_ E]. exact (Hr _ _ E). Qed.
Lemma child_u64 v e : is_bytes v -> parse_dirent v = Ok e -> u64 (child_of v) /\ de_ino e = child_of v.
Proof.
  intros Hb He. split; [|apply dirent_fields, He]. unfold child_of. pose proof (unle_range (take 8 (drop 8 v)) (take_bytes 8 _ (drop_bytes 8 v Hb))) as H.
  unfold u64. rewrite take_length in H. split; [lia|]. eapply Z.lt_le_trans; [apply H|]. transitivity (256 ^ 8); [|reflexivity]. apply Z.pow_le_mono_r; lia.
Qed.
Lemma unle_zeros k n : unle (k ++ repeat 0 n) = unle k.
Proof. induction k as [|x k IH]; cbn [app unle]; [|rewrite IH; reflexivity]. induction n as [|n IH]; cbn [repeat unle]; [reflexivity|]. rewrite IH. reflexivity. Qed.
(** the loop over a directory starts at its first entry *)
Lemma head_dir m o : real m -> u64 o ->
  match cursor m (le64 o) with
  | [] => forall k v, m !! k = Some v -> ~ in_dir o k
  | (k, v) :: _ => m !! k = Some v /\
      if (unle (take 8 k) =? o) then in_dir o k /\ (forall k' v', m !! k' = Some v' -> in_dir o k' -> ble k k')
      else forall k v, m !! k = Some v -> ~ in_dir o k
  end.
Proof.
  intros Hr Ho. pose proof (first_cursor m (le64 o)) as H. destruct (cursor m (le64 o)) as [|[k v] l].
  - intros k v E [r ->]. apply (H _ _ E), scan_before.
  - destruct H as [(Hk & Hle & _ & Hmin) _]. split; [exact Hk|]. destruct (Hr _ _ Hk) as [Bk _]. destruct (Z.eqb_spec (unle (take 8 k)) o) as [E|E].
    + split.
      * destruct (le_lt_dec 8 (length k)) as [L|L]; [exists (drop 8 k); apply take8_of in E; [|assumption..]; rewrite <- E; symmetry; apply take_drop|]. exfalso.
        rewrite take_ge in E by lia. rewrite <- (unle_zeros k (8 - length k)) in E. set (k2 := k ++ repeat 0 (8 - length k)) in *.
        assert (L2 : length k2 = 8%nat) by (subst k2; rewrite app_length, repeat_length; lia).
        assert (B2 : is_bytes k2). { apply Forall_app. split; [exact Bk|]. apply Forall_forall. intros x Hx. apply elem_of_list_In, repeat_spec in Hx. subst. lia. }
        assert (E2 : k2 = le64 o). { rewrite <- (take_ge k2 8) by lia. apply take8_of; [assumption..|lia|]. rewrite take_ge by lia. exact E. }
        rewrite <- E2 in Hle. apply Hle. subst k2. pose proof (bcmp_app k k (repeat 0 (8 - length k)) [] eq_refl) as C. rewrite app_nil_r, bcmp_refl in C. rewrite C. destruct (8 - length k)%nat eqn:En; [lia|reflexivity].
      * intros k' v' E' [r ->]. apply (Hmin _ _ E'); [apply scan_before|exact I].
    + intros k' v' E' [r ->]. apply E. assert (Hkk : ble k (le64 o ++ r)) by (apply (Hmin _ _ E'); [apply scan_before|exact I]).
      apply ble_lt_eq in Hkk as [Hkk| ->].
      * destruct (LmdbDamage.between _ _ _ Hle Hkk) as (m' & -> & _). rewrite take8. apply unle_le64, Ho.
      * rewrite take8. apply unle_le64, Ho.
Qed.
Definition clean_db (b : bdb) : Prop := real (b_inodes b) /\ real (b_treei b).
(** what make_orphan does to an inode of any database *)
Lemma mo_spec pad b c : clean_db b -> u64 c -> exists r, b_parent b c = Done r /\
  match r with
  | Err e => b_make_orphan pad b c = Done (Err e, b)
  | Ok p =>
    if p =? INVALID_INO then b_make_orphan pad b c = Done (Ok tt, b)
    else match b_treei b !! (le64 p ++ le64 c) with
    | None => b_make_orphan pad b c = Done (Err EIO, b)
    | Some v => if malformed_dec 16 v then b_make_orphan pad b c = Crash
                else exists b', b_make_orphan pad b c = Done (Ok tt, b') /\ clean_db b' /\ b_treei b' = delete (le64 p ++ le64 c) (b_treei b) /\
                     b_orphans b' = <[le64 c := [0]]> (b_orphans b) /\ (forall x, u64 x -> x <> c -> b_parent b' x = b_parent b x) /\
                     (forall x, u64 x -> x <> c -> b_inodes b' !! le64 x = b_inodes b !! le64 x) /\
                     b_parent b' c = Done (Ok (if c =? ROOT_INO then ROOT_INO else INVALID_INO))
    end
  end.
Proof.
  intros [Hi Ht] Hc. destruct (parent_returns b c Hi) as [r Hp]. exists r. split; [exact Hp|]. unfold b_make_orphan. rewrite Hp. cbn [obind]. destruct r as [p|e]; [|reflexivity].
  destruct (p =? INVALID_INO); [reflexivity|]. destruct (b_treei b !! _) as [v|] eqn:E; [|reflexivity]. destruct (Ht _ _ E) as [_ Bv].
  destruct (malformed_dec 16 v) as [M|M].
  - destruct (parse_dirent v) as [e|e] eqn:P; [|reflexivity]. exfalso. apply (proj1 (dirent_ok_iff v Bv)); eauto.
  - destruct (proj2 (dirent_ok_iff v Bv) M) as [e ->]. cbn [b_inodes bset_orphans bset_treen bset_treei].
    assert (K : forall b', b_inodes b' = b_inodes b \/ (exists i, inode_ok i /\ b_inodes b' = <[le64 c := ser pad (set_parent 0 i)]> (b_inodes b)) ->
      (c <> ROOT_INO -> exists i, inode_ok i /\ b_inodes b' = <[le64 c := ser pad (set_parent 0 i)]> (b_inodes b)) ->
      b_treei b' = delete (le64 p ++ le64 c) (b_treei b) -> b_orphans b' = <[le64 c := [0]]> (b_orphans b) ->
      clean_db b' /\ b_treei b' = delete (le64 p ++ le64 c) (b_treei b) /\ b_orphans b' = <[le64 c := [0]]> (b_orphans b) /\ (forall x, u64 x -> x <> c -> b_parent b' x = b_parent b x) /\
      (forall x, u64 x -> x <> c -> b_inodes b' !! le64 x = b_inodes b !! le64 x) /\
      b_parent b' c = Done (Ok (if c =? ROOT_INO then ROOT_INO else INVALID_INO))).
    { intros b' H1 H2 H3 H4.
      assert (L : forall x, u64 x -> x <> c -> b_inodes b' !! le64 x = b_inodes b !! le64 x).
      { intros x Hx Hne. destruct H1 as [->|(i & _ & ->)]; [reflexivity|]. apply lookup_insert_ne. intros Ex. apply Hne. symmetry. apply le64_inj; assumption. }
      split_and!.
      - split; [|rewrite H3; apply real_del, Ht]. destruct H1 as [->|(i & _ & ->)]; [exact Hi|]. apply real_ins; [exact Hi|apply le_bytes|apply ser_bytes].
      - exact H3.
      - exact H4.
      - intros x Hx Hne. unfold b_parent. rewrite L by assumption. reflexivity.
      - exact L.
      - unfold b_parent. destruct (Z.eqb_spec c ROOT_INO) as [->|Hne]; [reflexivity|]. destruct (H2 Hne) as (i & Oi & ->). rewrite lookup_insert.
        pose proof (parse_ser_inode 0 0 0 (pad (set_parent 0 i)) (set_parent 0 i) []) as P. rewrite app_nil_r in P. unfold ser. rewrite P; [reflexivity| |reflexivity].
        destruct Oi as (O1 & O2 & O3). unfold inode_ok, set_parent. cbn [i_flags i_parent i_attr]. split_and!; try assumption; unfold u64; lia. }
    destruct (b_inodes b !! le64 c) as [w|] eqn:Ew.
    + destruct (Hi _ _ Ew) as [_ Bw]. destruct (C30_inode_parse_exact 0 w Bw) as [[H1 H2]|[(_ & H & _)|(H1 & _ & i & r0 & r2 & pd & H2 & H3 & H4)]].
      * rewrite H2. cbn [obind]. eexists. split; [reflexivity|]. apply K; [left; reflexivity| |reflexivity..]. intros Hne. exfalso.
        unfold b_parent in Hp. destruct (Z.eqb_spec c ROOT_INO); [contradiction|]. rewrite Ew, H2 in Hp. discriminate Hp.
      * destruct H. reflexivity.
      * rewrite H2. cbn [obind]. eexists. split; [reflexivity|]. apply K; [right; exists i; split; [exact H3|reflexivity]| |reflexivity..]. intros _. exists i. split; [exact H3|reflexivity].
    + eexists. split; [reflexivity|]. apply K; [left; reflexivity| |reflexivity..]. intros Hne. exfalso. unfold b_parent in Hp. destruct (Z.eqb_spec c ROOT_INO); [contradiction|]. rewrite Ew in Hp. discriminate Hp.
Qed.
Lemma bytes_u64 v : is_bytes v -> u64 (child_of v).
Proof.
  intros Hb. unfold child_of. pose proof (unle_range (take 8 (drop 8 v)) (take_bytes 8 _ (drop_bytes 8 v Hb))) as H.
  unfold u64. rewrite take_length in H. split; [lia|]. eapply Z.lt_le_trans; [apply H|]. transitivity (256 ^ 8); [|reflexivity]. apply Z.pow_le_mono_r; lia.
Qed.
Lemma pair_inj p q c d : u64 c -> u64 d -> le64 p ++ le64 c = le64 q ++ le64 d -> c = d.
Proof. intros Hc Hd E. apply app_inj_1 in E as [_ E]; [|rewrite !le64_length; reflexivity]. apply le64_inj; assumption. Qed.
(** the first entry of a directory that has one *)
Definition first_entry (b : bdb) (o : Z) (k v : bytes) : Prop :=
  b_treei b !! k = Some v /\ in_dir o k /\ forall k' v', b_treei b !! k' = Some v' -> in_dir o k' -> ble k k'.
Lemma children_step pad fuel b o k v : clean_db b -> u64 o -> first_entry b o k v ->
  b_orphan_children pad (S fuel) b o =
  match parse_dirent v with Err _ => Crash | Ok e => dlet (_, b) := b_make_orphan pad b (de_ino e) in b_orphan_children pad fuel b o end.
Proof.
  intros [_ Ht] Ho (Hk & Hd & Hmin). cbn [b_orphan_children]. pose proof (head_dir (b_treei b) o Ht Ho) as H. destruct (cursor _ _) as [|[k1 v1] l].
  - destruct (H _ _ Hk Hd).
  - destruct H as [H1 H]. destruct (unle (take 8 k1) =? o) eqn:E; [|destruct (H _ _ Hk Hd)]. destruct H as [H2 H3]. cbn [negb].
    assert (k1 = k) by (apply ble_antisym; [apply (H3 _ _ Hk Hd)|apply (Hmin _ _ H1 H2)]). subst k1. rewrite Hk in H1. injection H1 as <-. reflexivity.
Qed.
Lemma children_none pad fuel b o : clean_db b -> u64 o -> (forall k v, b_treei b !! k = Some v -> ~ in_dir o k) -> b_orphan_children pad (S fuel) b o = Done b.
Proof.
  intros [_ Ht] Ho Hn. cbn [b_orphan_children]. pose proof (head_dir (b_treei b) o Ht Ho) as H. destruct (cursor _ _) as [|[k1 v1] l]; [reflexivity|].
  destruct H as [H1 H]. destruct (unle (take 8 k1) =? o); [|reflexivity]. destruct H as [H2 _]. destruct (Hn _ _ H1 H2).
Qed.
Lemma first_or_none b o : clean_db b -> u64 o -> (exists k v, first_entry b o k v) \/ (forall k v, b_treei b !! k = Some v -> ~ in_dir o k).
Proof.
  intros [_ Ht] Ho. pose proof (head_dir (b_treei b) o Ht Ho) as H. destruct (cursor _ _) as [|[k1 v1] l]; [right; exact H|]. destruct H as [H1 H].
  destruct (unle (take 8 k1) =? o); [|right; exact H]. left. exists k1, v1. destruct H. split_and!; assumption.
Qed.
(** an entry that orphaning its child does not remove *)
Definition stuck (b : bdb) (k v : bytes) : Prop := exists r, b_parent b (child_of v) = Done r /\
  match r with
  | Err _ => True
  | Ok p => p = INVALID_INO \/ match b_treei b !! (le64 p ++ le64 (child_of v)) with None => True | Some v' => ~ malformed 16 v' /\ le64 p ++ le64 (child_of v) <> k end
  end.
Lemma stuck_diverges pad o k v : u64 o -> ~ malformed 16 v -> forall fuel b, clean_db b -> first_entry b o k v -> stuck b k v -> b_orphan_children pad fuel b o = Diverge.
Proof.
  intros Ho M. induction fuel as [|fuel IH]; intros b Hb Hf Hs; [reflexivity|]. destruct (proj2 Hb _ _ (proj1 Hf)) as [_ Bv]. rewrite (children_step pad fuel b o k v Hb Ho Hf).
  destruct (proj2 (dirent_ok_iff v Bv) M) as [e Pe]. destruct (child_u64 v e Bv Pe) as [Hc Ec]. rewrite Pe, Ec. destruct Hs as (r & Hp & Hr). destruct (mo_spec pad b (child_of v) Hb Hc) as (r' & Hp' & H). rewrite Hp in Hp'. injection Hp' as <-.
  assert (Keep : stuck b k v) by (exists r; split; assumption).
  destruct r as [p|e'].
  - destruct (Z.eqb_spec p INVALID_INO) as [Hz|Hz].
    + rewrite H. cbn [obind]. apply IH; assumption.
    + destruct Hr as [Hr|Hr]; [contradiction|]. destruct (b_treei b !! (le64 p ++ le64 (child_of v))) as [v'|] eqn:E.
      * destruct Hr as [M' Hne]. destruct (malformed_dec 16 v') as [|_]; [contradiction|]. destruct H as (b' & -> & Hb' & Ht' & _ & _ & _ & Hp'). cbn [obind]. destruct Hf as (F1 & F2 & F3). apply IH; [exact Hb'| |].
        -- split_and!; [rewrite Ht', lookup_delete_ne by exact Hne; exact F1|exact F2|]. intros k1 v1 E1 D1. rewrite Ht' in E1. apply lookup_delete_Some in E1 as [_ E1]. apply (F3 _ _ E1 D1).
        -- eexists. split; [exact Hp'|]. cbn beta iota. destruct (Z.eqb_spec (child_of v) ROOT_INO) as [Er|Er]; [|left; reflexivity]. right. assert (p = ROOT_INO).
           { unfold b_parent in Hp. rewrite Er in Hp. cbn in Hp. injection Hp as <-. reflexivity. } subst p. rewrite Ht', lookup_delete. exact I.
      * rewrite H. cbn [obind]. apply IH; assumption.
  - rewrite H. cbn [obind]. apply IH; assumption.
Qed.
(** orphaning a sound child *)
Lemma sound_step pad b o k v : clean_db b -> u64 o -> o <> INVALID_INO -> b_treei b !! k = Some v -> sound_child b o k v ->
  exists b', b_make_orphan pad b (child_of v) = Done (Ok tt, b') /\ clean_db b' /\ b_treei b' = delete k (b_treei b) /\ b_orphans b' = <[le64 (child_of v) := [0]]> (b_orphans b) /\
    (forall x, u64 x -> x <> child_of v -> b_parent b' x = b_parent b x /\ b_inodes b' !! le64 x = b_inodes b !! le64 x) /\
    (forall k' v', k' <> k -> b_treei b !! k' = Some v' -> (sound_child b' o k' v' <-> sound_child b o k' v') /\ (trips b' v' <-> trips b v')).
Proof.
  intros Hb Ho Hz Hk (M & Ek & Hp). destruct (proj2 Hb _ _ Hk) as [_ Bv]. pose proof (bytes_u64 v Bv) as Hc. destruct (mo_spec pad b (child_of v) Hb Hc) as (r & Hp' & H). rewrite Hp in Hp'. injection Hp' as <-.
  destruct (Z.eqb_spec o INVALID_INO); [contradiction|]. rewrite <- Ek, Hk in H. destruct (malformed_dec 16 v) as [|_]; [contradiction|]. destruct H as (b' & E & Hb' & Ht' & Ho' & Hx & Hi & Hpc).
  exists b'. split_and!; try assumption; [intros; split; auto|]. intros k' v' Hne Hk'. destruct (proj2 Hb _ _ Hk') as [_ Bv']. pose proof (bytes_u64 v' Bv') as Hc'.
  destruct (Z.eq_dec (child_of v') (child_of v)) as [Ec|Ec].
  - split.
    + split; intros (_ & Ek' & _); exfalso; apply Hne; rewrite Ek', Ek, Ec; reflexivity.
    + split; (intros [Mv|(p & w & H1 & H2 & H3 & H4)]; [left; exact Mv|exfalso]).
      * rewrite Ec, Hpc in H1. injection H1 as <-. destruct (Z.eqb_spec (child_of v) ROOT_INO) as [Er|Er]; [|apply H2; reflexivity].
        assert (o = ROOT_INO) as Eo. { unfold b_parent in Hp. rewrite Er in Hp. cbn in Hp. injection Hp as <-. reflexivity. } rewrite Ec, Ht', Ek, Eo, lookup_delete in H3. discriminate H3.
      * rewrite Ec, Hp in H1. injection H1 as <-. rewrite Ec, <- Ek, Hk in H3. injection H3 as <-. contradiction.
  -
    split; [unfold sound_child; rewrite (Hx _ Hc' Ec); reflexivity|]. unfold trips. rewrite (Hx _ Hc' Ec), Ht'.
    assert (L : forall p, delete k (b_treei b) !! (le64 p ++ le64 (child_of v')) = b_treei b !! (le64 p ++ le64 (child_of v'))).
    { intros p. apply lookup_delete_ne. rewrite Ek. intros Eq. apply Ec. symmetry. exact (pair_inj _ _ _ _ Hc Hc' Eq). }
    setoid_rewrite L. reflexivity.
Qed.

(** ** The entries of a directory that is removed (cache.cpp:1058-1072) *)
(** If every entry is sound, all of them are taken out and their inodes become orphans; nothing else
    in the tree changes, and no other inode record. *)
Definition emptied (b : bdb) (o : Z) (b' : bdb) : Prop :=
  (forall k, in_dir o k -> b_treei b' !! k = None) /\ (forall k, ~ in_dir o k -> b_treei b' !! k = b_treei b !! k) /\
  (forall x, u64 x -> is_Some (b_treei b !! (le64 o ++ le64 x)) -> b_orphans b' !! le64 x = Some [0]) /\
  (forall x, u64 x -> b_treei b !! (le64 o ++ le64 x) = None -> b_orphans b' !! le64 x = b_orphans b !! le64 x /\ b_inodes b' !! le64 x = b_inodes b !! le64 x).
Lemma children_sound pad o : u64 o -> o <> INVALID_INO -> forall fuel b, clean_db b -> (size (b_treei b) < fuel)%nat ->
  (forall k v, b_treei b !! k = Some v -> in_dir o k -> sound_child b o k v) -> exists b', b_orphan_children pad fuel b o = Done b' /\ clean_db b' /\ emptied b o b'.
Proof.
  intros Ho Hz. induction fuel as [|fuel IH]; intros b Hb Hs Hall; [lia|]. destruct (first_or_none b o Hb Ho) as [(k & v & Hf)|Hn].
  - rewrite (children_step pad fuel b o k v Hb Ho Hf). destruct Hf as (Hk & Hd & Hmin). destruct (Hall _ _ Hk Hd) as (M & Ek & Hp). destruct (proj2 Hb _ _ Hk) as [_ Bv]. pose proof (bytes_u64 v Bv) as Hc.
    destruct (proj2 (dirent_ok_iff v Bv) M) as [e Pe]. rewrite Pe, (proj2 (child_u64 v e Bv Pe)). destruct (sound_step pad b o k v Hb Ho Hz Hk) as (b1 & -> & Hb1 & Ht1 & Ho1 & Hx1 & Hk1); [split_and!; assumption|]. cbn [obind].
    destruct (IH b1 Hb1) as (b' & E & Hb' & F1 & F2 & F3 & F4).
    + rewrite Ht1. pose proof (map_size_delete_Some k (b_treei b) (ex_intro _ v Hk)) as S. rewrite S. assert (size (b_treei b) <> 0)%nat by (intros Z0; apply map_size_empty_inv in Z0; rewrite Z0, lookup_empty in Hk; discriminate Hk). lia.
    + intros k' v' E' D'. rewrite Ht1 in E'. apply lookup_delete_Some in E' as [Hne E']. apply (proj1 (Hk1 k' v' (not_eq_sym Hne) E')). apply Hall; assumption.
    + exists b'. split; [exact E|]. split; [exact Hb'|]. split_and!.
      * exact F1.
      * intros k' D'. rewrite F2 by exact D'. rewrite Ht1. apply lookup_delete_ne. intros <-. contradiction.
      * intros x Hx Hin. destruct (Z.eq_dec x (child_of v)) as [->|Hne].
        -- assert (Hgone : b_treei b1 !! (le64 o ++ le64 (child_of v)) = None) by (rewrite Ht1, Ek, lookup_delete; reflexivity).
           destruct (F4 _ Hx Hgone) as [-> _]. rewrite Ho1. apply lookup_insert.
        -- apply F3; [exact Hx|]. rewrite Ht1, Ek, lookup_delete_ne; [exact Hin|]. intros Eq. apply Hne. symmetry. exact (pair_inj _ _ _ _ Hc Hx Eq).
      * intros x Hx Hno. assert (Hne : x <> child_of v) by (intros ->; rewrite <- Ek, Hk in Hno; discriminate Hno).
        assert (Hno1 : b_treei b1 !! (le64 o ++ le64 x) = None) by (rewrite Ht1; apply lookup_delete_None; right; exact Hno).
        destruct (F4 _ Hx Hno1) as [-> ->]. destruct (Hx1 _ Hx Hne) as [_ ->]. split; [|reflexivity]. rewrite Ho1. apply lookup_insert_ne. intros Eq. apply Hne. symmetry. apply le64_inj; assumption.
  - rewrite (children_none pad fuel b o Hb Ho Hn). exists b. split; [reflexivity|]. split; [exact Hb|]. split_and!.
    + intros k D. destruct (b_treei b !! k) as [v|] eqn:E; [destruct (Hn _ _ E D)|reflexivity].
    + reflexivity.
    + intros x _ [v E]. destruct (Hn _ _ E). exists (le64 x). reflexivity.
    + split; reflexivity.
Qed.
(** Otherwise the first entry, in key order, that is not sound decides: an assertion fails, or the loop
    never ends. *)
Lemma children_unsound pad o : u64 o -> o <> INVALID_INO -> forall fuel b k v, clean_db b -> (size (b_treei b) < fuel)%nat ->
  b_treei b !! k = Some v -> in_dir o k -> ~ sound_child b o k v -> (forall k' v', b_treei b !! k' = Some v' -> in_dir o k' -> blt k' k -> sound_child b o k' v') ->
  (trips b v -> b_orphan_children pad fuel b o = Crash) /\ (~ trips b v -> b_orphan_children pad fuel b o = Diverge).
Proof.
  intros Ho Hz. induction fuel as [|fuel IH]; intros b k v Hb Hs Hk Hd Hun Hall; [lia|]. destruct (first_or_none b o Hb Ho) as [(k1 & v1 & Hf)|Hn]; [|destruct (Hn _ _ Hk Hd)].
  destruct (decide (k1 = k)) as [->|Hne1].
  - assert (v1 = v) by (destruct Hf as (E & _); rewrite Hk in E; congruence). subst v1. destruct (proj2 Hb _ _ Hk) as [_ Bv]. pose proof (bytes_u64 v Bv) as Hc. destruct (malformed_dec 16 v) as [M|M].
    + split; [|intros Hnt; destruct Hnt; left; exact M]. intros _. rewrite (children_step pad fuel b o k v Hb Ho Hf). destruct (parse_dirent v) as [e|e] eqn:P; [|reflexivity]. exfalso. apply (proj1 (dirent_ok_iff v Bv)); eauto.
    + destruct (mo_spec pad b (child_of v) Hb Hc) as (r & Hp & H). split.
      * intros [Mv|(p & w & H1 & H2 & H3 & H4)]; [contradiction|]. rewrite Hp in H1. injection H1 as ->. destruct (Z.eqb_spec p INVALID_INO); [contradiction|]. rewrite H3 in H. destruct (malformed_dec 16 w) as [_|]; [|contradiction].
        rewrite (children_step pad fuel b o k v Hb Ho Hf). destruct (proj2 (dirent_ok_iff v Bv) M) as [e Pe]. rewrite Pe, (proj2 (child_u64 v e Bv Pe)), H. reflexivity.
      * intros Hnt. apply (stuck_diverges pad o k v Ho M (S fuel) b Hb Hf). exists r. split; [exact Hp|]. destruct r as [p|e]; [|exact I]. destruct (Z.eq_dec p INVALID_INO) as [Ez|Ez]; [left; exact Ez|right].
        destruct (b_treei b !! (le64 p ++ le64 (child_of v))) as [w|] eqn:E; [|exact I]. split; [intros Mw; apply Hnt; right; eauto 10|]. intros Eq. apply Hun. split; [exact M|]. destruct Hd as [rest Er].
        assert (Hpu : u64 p). { destruct (Z.eq_dec (child_of v) ROOT_INO) as [Ec|Ec]; [unfold b_parent in Hp; rewrite Ec in Hp; cbn in Hp; injection Hp as <-; split; [discriminate|reflexivity]|]. apply (proj2 (parent_record b _ p Hp Ec (proj1 Hb))). }
        rewrite <- Eq in Er. pose proof Er as Er2. apply app_inj_1 in Er as [Er _]; [|rewrite !le64_length; reflexivity]. apply le64_inj in Er; [|assumption..]. subst p. split; [symmetry; exact Eq|exact Hp].
  - pose proof Hf as (Hk1 & Hd1 & Hmin). assert (Hlt : blt k1 k) by (pose proof (Hmin _ _ Hk Hd) as L; apply ble_lt_eq in L as [L|L]; [exact L|contradiction]).
    pose proof (Hall _ _ Hk1 Hd1 Hlt) as Hs1. pose proof Hs1 as (M & Ek & Hp). destruct (proj2 Hb _ _ Hk1) as [_ Bv].
    rewrite (children_step pad fuel b o k1 v1 Hb Ho Hf). destruct (proj2 (dirent_ok_iff v1 Bv) M) as [e Pe]. rewrite Pe, (proj2 (child_u64 v1 e Bv Pe)).
    destruct (sound_step pad b o k1 v1 Hb Ho Hz Hk1 Hs1) as (b1 & -> & Hb1 & Ht1 & Ho1 & Hx1 & Hkk). cbn [obind].
    destruct (Hkk k v (not_eq_sym Hne1) Hk) as [Q1 Q2]. rewrite <- Q2. apply (IH b1 k v Hb1).
    + rewrite Ht1. pose proof (map_size_delete_Some k1 (b_treei b) (ex_intro _ v1 Hk1)) as S. rewrite S. assert (size (b_treei b) <> 0)%nat by (intros Z0; apply map_size_empty_inv in Z0; rewrite Z0, lookup_empty in Hk; discriminate Hk). lia.
    + rewrite Ht1, lookup_delete_ne by exact Hne1. exact Hk.
    + exact Hd.
    + rewrite Q1. exact Hun.
    + intros k' v' E' D' L'. rewrite Ht1 in E'. apply lookup_delete_Some in E' as [Hne' E']. apply (proj1 (Hkk k' v' (not_eq_sym Hne') E')). apply Hall; assumption.
Qed.
Theorem C73_children : forall pad b o, clean_db b -> u64 o -> o <> INVALID_INO ->
  let run := b_orphan_children pad (S (size (b_treei b))) b o in
  ((forall k v, b_treei b !! k = Some v -> in_dir o k -> sound_child b o k v) -> exists b', run = Done b' /\ emptied b o b') /\
  forall k v, b_treei b !! k = Some v -> in_dir o k -> ~ sound_child b o k v -> (forall k' v', b_treei b !! k' = Some v' -> in_dir o k' -> blt k' k -> sound_child b o k' v') ->
    (trips b v -> run = Crash) /\ (~ trips b v -> run = Diverge).
Proof.
  intros pad b o Hb Ho Hz run. split.
  - intros Hall. destruct (children_sound pad o Ho Hz (S (size (b_treei b))) b Hb (Nat.lt_succ_diag_r _) Hall) as (b' & E & _ & H). exists b'. split; assumption.
  - intros k v Hk Hd Hu Hall. exact (children_unsound pad o Ho Hz (S (size (b_treei b))) b k v Hb (Nat.lt_succ_diag_r _) Hk Hd Hu Hall).
Qed.
(** ** Removing a directory *)
Lemma all_of_one k v : all_of {[k := v]} = [(k, v)].
Proof. unfold all_of, entries. rewrite map_to_list_singleton. reflexivity. Qed.
Lemma all_of_none : all_of ∅ = [].
Proof. unfold all_of, entries. rewrite map_to_list_empty. reflexivity. Qed.
Lemma reap_dir pad b o i : clean_db b -> record_says b o (Ok i) -> ftype (a_mode (i_attr i)) = S_IFDIR ->
  b_reap pad b o = dlet b := b_orphan_children pad (S (size (b_treei b))) b o in
    Done (bset_orphans (delete (le64 o) (b_orphans b)) (bset_inodes (delete (le64 o) (b_inodes b)) b)).
Proof.
  intros [Hi _] Hs Hf. destruct (record_total b o Hi) as (r & Hr & He). rewrite (C73_one_reading b o _ _ Hr Hs) in He. unfold b_reap. destruct (b_inodes b !! le64 o) as [v|]; [|discriminate He].
  rewrite He. cbn [obind]. rewrite Hf. change (S_IFDIR =? S_IFLNK) with false. change (S_IFDIR =? S_IFDIR) with true. cbn iota. destruct (b_orphan_children _ _ _ _); reflexivity.
Qed.
Lemma free_doom r o : refcount r o = 0 -> exists r', doom r o = (Ok tt, r').
Proof. unfold refcount, doom. destruct (r !! o) as [[n d]|]; [intros ->; eexists; reflexivity|eexists; reflexivity]. Qed.
(** the cleaning meets a single orphan, a directory nobody has locked *)
Lemma clean_one_dir pad b r o w i : clean_db b -> u64 o -> o <> INVALID_INO -> b_orphans b = {[le64 o := w]} -> refcount r o = 0 -> record_says b o (Ok i) -> ftype (a_mode (i_attr i)) = S_IFDIR ->
  forall k v, b_treei b !! k = Some v -> in_dir o k -> ~ sound_child b o k v -> (forall k' v', b_treei b !! k' = Some v' -> in_dir o k' -> blt k' k -> sound_child b o k' v') ->
  (trips b v -> b_clean_orphans pad b r = Crash) /\ (~ trips b v -> b_clean_orphans pad b r = Diverge).
Proof.
  intros Hb Ho Hz Eo Hr Hs Hf k v Hk Hd Hu Hall. destruct (free_doom r o Hr) as [r' Er]. destruct (proj2 (C73_children pad b o Hb Ho Hz) k v Hk Hd Hu Hall) as [H1 H2].
  unfold b_clean_orphans. cbn [b_clean_loop]. rewrite Eo, all_of_one. cbn [b_victim]. unfold get_ino. rewrite le64_length, unle_le64 by exact Ho. cbn [Nat.eqb obind]. rewrite Er. cbn [obind].
  rewrite (reap_dir pad b o i Hb Hs Hf). split; intros T; [rewrite (H1 T)|rewrite (H2 T)]; reflexivity.
Qed.
(** Opening a database with one orphan, a directory (it was removed while in use): the mount fails an
    assertion or hangs exactly as the first unsound entry says. *)
Theorem C73_open_orphan_dir : forall pad root b c o w i k v, real_db b -> b_meta b !! NEXT_INO = Some c -> u64 o -> o <> INVALID_INO -> b_orphans b = {[le64 o := w]} ->
  record_says b o (Ok i) -> ftype (a_mode (i_attr i)) = S_IFDIR ->
  b_treei b !! k = Some v -> in_dir o k -> ~ sound_child b o k v -> (forall k' v', b_treei b !! k' = Some v' -> in_dir o k' -> blt k' k -> sound_child b o k' v') ->
  (trips b v -> b_open pad root b = Crash) /\ (~ trips b v -> b_open pad root b = Diverge).
Proof.
  intros pad root b c o w i k v (R1 & R2 & _) Hm Ho Hz Eo Hs Hf Hk Hd Hu Hall. unfold b_open, b_init. rewrite Hm. unfold b_tx_clean at 1 3. cbn [bt_db bt_refs].
  assert (H0 : refcount ∅ o = 0) by (unfold refcount; rewrite lookup_empty; reflexivity).
  destruct (clean_one_dir pad b ∅ o w i (conj R1 R2) Ho Hz Eo H0 Hs Hf k v Hk Hd Hu Hall) as [H1 H2]. split; intros T; [rewrite (H1 T)|rewrite (H2 T)]; reflexivity.
Qed.
(** Removing a directory: its own entry and record are in order, and so are the entries up to [k]. *)
Theorem C73_unlink_dir : forall pad t o i w k v, real_db (bt_db t) -> u64 o -> o <> ROOT_INO -> b_orphans (bt_db t) = ∅ -> refcount (bt_refs t) o = 0 ->
  record_says (bt_db t) o (Ok i) -> ftype (a_mode (i_attr i)) = S_IFDIR -> i_parent i <> INVALID_INO -> o <> INVALID_INO ->
  b_treei (bt_db t) !! (le64 (i_parent i) ++ le64 o) = Some w -> ~ malformed 16 w ->
  b_treei (bt_db t) !! k = Some v -> in_dir o k -> k <> le64 (i_parent i) ++ le64 o -> ~ sound_child (bt_db t) o k v ->
  (forall k' v', b_treei (bt_db t) !! k' = Some v' -> in_dir o k' -> blt k' k -> sound_child (bt_db t) o k' v') ->
  (trips (bt_db t) v -> b_unlink_ino pad t o = Crash) /\ (~ trips (bt_db t) v -> b_unlink_ino pad t o = Diverge).
Proof.
  intros pad t o i w k v (R1 & R2 & _) Ho Hro Eo Hr Hs Hf Hpz Hz Hw Mw Hk Hd Hkne Hu Hall. set (b := bt_db t) in *. assert (Hb : clean_db b) by (split; assumption).
  assert (Hp : b_parent b o = Done (Ok (i_parent i))). { destruct (parent_says b o R1 Hro) as (r & Hr1 & ->). rewrite (C73_one_reading b o _ _ Hr1 Hs). reflexivity. }
  unfold b_unlink_ino. fold b. destruct (mo_spec pad b o Hb Ho) as (r & Hp' & H). rewrite Hp in Hp'. injection Hp' as <-. destruct (Z.eqb_spec (i_parent i) INVALID_INO); [contradiction|]. rewrite Hw in H.
  destruct (malformed_dec 16 w) as [|_]; [contradiction|]. destruct H as (b' & E & Hb' & Ht' & Ho' & Hx & Hi & Hpc). rewrite E. cbn [obind]. destruct (Z.eqb_spec o ROOT_INO) as [|_]; [contradiction|].
  assert (T : forall k' v', k' <> le64 (i_parent i) ++ le64 o -> in_dir o k' -> b_treei b !! k' = Some v' -> (sound_child b' o k' v' <-> sound_child b o k' v') /\ (trips b' v' <-> trips b v')).
  { intros k' v' Hne Hd' Hk'. destruct (R2 _ _ Hk') as [_ Bv']. pose proof (bytes_u64 v' Bv') as Hc'. destruct (Z.eq_dec (child_of v') o) as [Ec|Ec].
    - split.
      + split; intros (_ & Ek' & Hp2); exfalso.
        * rewrite Ec, Hpc in Hp2. injection Hp2 as Hp2. symmetry in Hp2. contradiction.
        * rewrite Ec, Hp in Hp2. injection Hp2 as Hp2. apply Hne. rewrite Ek', Ec, Hp2. reflexivity.
      + split; (intros [Mv|(p & w' & H1 & H2 & H3 & H4)]; [left; exact Mv|exfalso]).
        * rewrite Ec, Hpc in H1. injection H1 as <-. apply H2. reflexivity.
        * rewrite Ec, Hp in H1. injection H1 as <-. rewrite Ec, Hw in H3. injection H3 as <-. contradiction.
    - split; [unfold sound_child; rewrite (Hx _ Hc' Ec); reflexivity|]. unfold trips. rewrite (Hx _ Hc' Ec), Ht'.
      assert (L : forall p, delete (le64 (i_parent i) ++ le64 o) (b_treei b) !! (le64 p ++ le64 (child_of v')) = b_treei b !! (le64 p ++ le64 (child_of v'))).
      { intros p. apply lookup_delete_ne. intros Eq. apply Ec. symmetry. exact (pair_inj _ _ _ _ Ho Hc' Eq). }
      setoid_rewrite L. reflexivity. }
  assert (Hs' : exists i', record_says b' o (Ok i') /\ ftype (a_mode (i_attr i')) = S_IFDIR).
  { destruct (record_total b' o (proj1 Hb')) as (r & Hr1 & He). destruct r as [i'|e].
    - exists i'. split; [exact Hr1|]. destruct (record_total b o R1) as (r0 & Hr0 & He0). rewrite (C73_one_reading b o _ _ Hr0 Hs) in He0. destruct (b_inodes b !! le64 o) as [u|] eqn:Eu; [|discriminate He0].
      assert (Ei : b_inodes b' !! le64 o = Some (ser pad (set_parent 0 i))).
      { unfold b_make_orphan in E. rewrite Hp in E. cbn [obind] in E. destruct (Z.eqb_spec (i_parent i) INVALID_INO); [contradiction|]. rewrite Hw in E.
        destruct (parse_dirent w); [|discriminate E]. cbn [b_inodes bset_orphans bset_treen bset_treei] in E. rewrite Eu, He0 in E. cbn [obind] in E. injection E as <-. cbn [b_inodes bset_inodes]. apply lookup_insert. }
      rewrite Ei in He. unfold ser in He. pose proof (parse_ser_inode 0 0 0 (pad (set_parent 0 i)) (set_parent 0 i) []) as P. rewrite app_nil_r in P. rewrite P in He; [injection He as <-; exact Hf| |reflexivity].
      assert (Oi : inode_ok i) by (inversion Hs; assumption). destruct Oi as (O1 & O2 & O3). unfold inode_ok, set_parent. cbn [i_flags i_parent i_attr]. split_and!; try assumption; unfold u64; lia.
    - exfalso. unfold b_parent in Hpc. destruct (Z.eqb_spec o ROOT_INO) as [|_]; [contradiction|]. destruct (b_inodes b' !! le64 o); [rewrite He in Hpc|]; discriminate Hpc. }
  destruct Hs' as (i' & Hs' & Hf').
  assert (Eo' : b_orphans b' = {[le64 o := [0]]}) by (rewrite Ho', Eo; reflexivity).
  assert (Hk' : b_treei b' !! k = Some v) by (rewrite Ht'; rewrite lookup_delete_ne by (intros Eq; apply Hkne; symmetry; exact Eq); exact Hk).
  destruct (T k v Hkne Hd Hk) as [T1 T2].
  destruct (clean_one_dir pad b' (bt_refs t) o [0] i' Hb' Ho Hz Eo' Hr Hs' Hf' k v Hk' Hd) as [H1 H2].
  { rewrite T1. exact Hu. }
  { intros k2 v2 E2 D2 L2. rewrite Ht' in E2. apply lookup_delete_Some in E2 as [N2 E2]. apply (proj1 (T k2 v2 (not_eq_sym N2) D2 E2)), Hall; assumption. }
  unfold b_tx_clean. cbn [bt_db bt_refs bwith_db]. rewrite <- T2. split; intros Q; [rewrite (H1 Q)|rewrite (H2 Q)]; reflexivity.
Qed.
(** The everyday case: the record of one file in the directory is lost.  Removing the directory never ends. *)
Theorem C73_unlink_hangs : forall pad t o i w c v e, real_db (bt_db t) -> u64 o -> o <> ROOT_INO -> o <> INVALID_INO -> b_orphans (bt_db t) = ∅ -> refcount (bt_refs t) o = 0 ->
  record_says (bt_db t) o (Ok i) -> ftype (a_mode (i_attr i)) = S_IFDIR -> i_parent i <> INVALID_INO ->
  b_treei (bt_db t) !! (le64 (i_parent i) ++ le64 o) = Some w -> ~ malformed 16 w ->
  u64 c -> c <> ROOT_INO -> c <> o -> b_treei (bt_db t) !! (le64 o ++ le64 c) = Some v -> ~ malformed 16 v -> child_of v = c -> record_says (bt_db t) c (Err e) ->
  (forall k' v', b_treei (bt_db t) !! k' = Some v' -> in_dir o k' -> k' <> le64 o ++ le64 c -> sound_child (bt_db t) o k' v') ->
  b_unlink_ino pad t o = Diverge.
Proof.
  intros pad t o i w c v e R Ho Hro Hz Eo Hr Hs Hf Hpz Hw Mw Hc Hcr Hco Hv Mv Ec He Hall.
  assert (Hp : b_parent (bt_db t) c = Done (Err e)). { destruct (parent_says (bt_db t) c (proj1 R) Hcr) as (r & Hr1 & ->). rewrite (C73_one_reading (bt_db t) c _ _ Hr1 He). reflexivity. }
  destruct (C73_unlink_dir pad t o i w (le64 o ++ le64 c) v R Ho Hro Eo Hr Hs Hf Hpz Hz Hw Mw Hv) as [_ H].
  - exists (le64 c). reflexivity.
  - intros Eq. apply Hco. exact (pair_inj _ _ _ _ Hc Ho Eq).
  - intros (_ & _ & Hp2). rewrite Ec, Hp in Hp2. discriminate Hp2.
  - intros k' v' E' D' L'. apply Hall; try assumption. intros ->. exact (blt_irrefl _ L').
  - apply H. intros [M|(p & w' & H1 & _)]; [contradiction|]. rewrite Ec, Hp in H1. discriminate H1.
Qed.
(** ** The other write operations *)
(** update_flags: the record decides alone, and only its flags change *)
Theorem C73_flags : forall pad t x s c, real_db (bt_db t) -> exists r, record_says (bt_db t) x r /\
  match r with
  | Err e => b_update_flags pad t x s c = Done (Err e, t)
  | Ok i => exists t', b_update_flags pad t x s c = Done (Ok tt, t') /\ bt_refs t' = bt_refs t /\ bt_hooks t' = bt_hooks t /\ bt_rw t' = bt_rw t /\
      bt_db t' = bset_inodes (<[le64 x := ser pad (Inode (fold_left flag_clear c (fold_left flag_set s (i_flags i))) (i_parent i) (i_attr i))]> (b_inodes (bt_db t))) (bt_db t)
  end.
Proof.
  intros pad t x s c (R & _). destruct (record_total (bt_db t) x R) as (r & Hs & He). exists r. split; [exact Hs|]. unfold b_update_flags.
  destruct (b_inodes (bt_db t) !! le64 x) as [v|]; [rewrite He; destruct r as [i|e]; cbn [obind]|subst r; reflexivity]; [|reflexivity]. eexists. split; [reflexivity|]. split_and!; reflexivity.
Qed.
(** writelink: an unreadable record answers EIO; the link's size and destination are written together *)
Theorem C73_writelink : forall pad t x d, real_db (bt_db t) -> exists r, record_says (bt_db t) x r /\
  match r with
  | Err e => b_writelink pad t x d = Done (Err (if e =? ENOENT then ENOENT else EIO), t)
  | Ok i => if ftype (a_mode (i_attr i)) =? S_IFLNK
            then exists t', b_writelink pad t x d = Done (Ok tt, t') /\ b_readlink (bt_db t') x = Done (Ok d) /\ b_treei (bt_db t') = b_treei (bt_db t) /\ b_treen (bt_db t') = b_treen (bt_db t) /\
                   b_inodes (bt_db t') = <[le64 x := ser pad (Inode (i_flags i) (i_parent i) (set_size (Z.of_nat (length d)) (i_attr i)))]> (b_inodes (bt_db t))
            else b_writelink pad t x d = Done (Err EINVAL, t)
  end.
Proof.
  intros pad t x d (R & _). destruct (record_total (bt_db t) x R) as (r & Hs & He). exists r. split; [exact Hs|]. unfold b_writelink.
  destruct (b_inodes (bt_db t) !! le64 x) as [v|] eqn:E; [|subst r; reflexivity]. rewrite He. cbn [obind]. destruct r as [i|e].
  - destruct (ftype (a_mode (i_attr i)) =? S_IFLNK); cbn [negb]; [|reflexivity]. eexists. split; [reflexivity|]. split; [|split_and!; reflexivity].
    unfold b_readlink. cbn [bt_db bwith_db b_links bset_links]. rewrite lookup_insert. reflexivity.
  - inversion Hs as [Ea|v' Ev Mv|]; subst; [congruence|]. reflexivity.
Qed.
(** unlink(ino) fails, and then changes nothing, exactly if the record or the entry it names is missing or the
    record unreadable; it fails an assertion if that entry is unreadable *)
Theorem C73_unlink : forall pad t x, real_db (bt_db t) -> u64 x -> x <> ROOT_INO -> exists r, record_says (bt_db t) x r /\
  match r with
  | Err e => b_unlink_ino pad t x = Done (Err e, t)
  | Ok i => i_parent i <> INVALID_INO ->
      match b_treei (bt_db t) !! (le64 (i_parent i) ++ le64 x) with
      | None => b_unlink_ino pad t x = Done (Err EIO, t)
      | Some v => if malformed_dec 16 v then b_unlink_ino pad t x = Crash else forall e t', b_unlink_ino pad t x <> Done (Err e, t')
      end
  end.
Proof.
  intros pad t x (R1 & R2 & R3) Hx Hr. destruct (parent_says (bt_db t) x R1 Hr) as (r & Hs & Hp). exists r. split; [exact Hs|].
  destruct (mo_spec pad (bt_db t) x (conj R1 R2) Hx) as (r' & Hp' & H). rewrite Hp in Hp'. injection Hp' as <-. unfold b_unlink_ino. destruct r as [i|e]; cbn [on_ok] in H.
  - intros Hz. destruct (Z.eqb_spec (i_parent i) INVALID_INO); [contradiction|]. destruct (b_treei (bt_db t) !! _) as [v|].
    + destruct (malformed_dec 16 v); [rewrite H; reflexivity|]. destruct H as (b' & -> & _). intros e t'. cbn [obind]. destruct (b_tx_clean _ _); discriminate.
    + rewrite H. cbn [obind]. destruct t. reflexivity.
  - rewrite H. cbn [obind]. destruct t. reflexivity.
Qed.
(** unlink(parent, name): only the entry of that name is consulted for the number *)
Theorem C73_unlink_name : forall pad t p n, real_db (bt_db t) ->
  b_unlink_name pad t p n = match b_treen (bt_db t) !! (le64 p ++ n) with
                            | None => Done (Err ENOENT, t)
                            | Some v => if malformed_dec 16 v then Crash else b_unlink_ino pad t (child_of v)
                            end.
Proof.
  intros pad t p n (_ & _ & R). unfold b_unlink_name. destruct (b_treen (bt_db t) !! _) as [v|] eqn:E; [|reflexivity]. destruct (R _ _ E) as [_ Bv]. destruct (malformed_dec 16 v) as [M|M].
  - destruct (parse_dirent v) as [e|e] eqn:P; [|reflexivity]. exfalso. apply (proj1 (dirent_ok_iff v Bv)); eauto.
  - destruct (proj2 (dirent_ok_iff v Bv) M) as [e Pe]. rewrite Pe, (proj2 (child_u64 v e Bv Pe)). reflexivity.
Qed.
(** start_dir_rewrite throws exactly if, going on from the start of the directory, a key that is not two
    inode numbers comes before any key of another directory *)
Lemma scan_throws dir l : u64 dir -> Forall (fun x => is_bytes x.1) l ->
  (b_rewrite_scan dir l = Throw <-> exists l1 k v l2, l = l1 ++ (k, v) :: l2 /\ length k <> 16%nat /\ Forall (fun x => length x.1 = 16%nat /\ in_dir dir x.1) l1) /\
  (b_rewrite_scan dir l = Throw \/ exists s, b_rewrite_scan dir l = Done s).
Proof.
  intros Hd. induction l as [|[k v] l IH]; intros Hb.
  - split; [|right; eexists; reflexivity]. split; [discriminate|]. intros (l1 & k & v & l2 & E & _). destruct l1; discriminate E.
  - apply Forall_cons in Hb as [Bk Hb]. cbn [fst] in Bk. destruct (IH Hb) as [IH1 IH2]. cbn [b_rewrite_scan]. destruct (Nat.eqb_spec (length k) 16) as [L|L]; cbn [negb].
    + destruct (Z.eqb_spec (unle (take 8 k)) dir) as [E|E].
      * apply take8_of in E; [|assumption..|lia]. assert (D : in_dir dir k) by (exists (drop 8 k); rewrite <- E; symmetry; apply take_drop).
        split; [|destruct IH2 as [->|[s ->]]; [left; reflexivity|right; eexists; reflexivity]]. split.
        -- intros H. assert (H' : b_rewrite_scan dir l = Throw) by (destruct IH2 as [->|[s Es]]; [reflexivity|rewrite Es in H; discriminate H]).
           apply IH1 in H' as (l1 & k' & v' & l2 & -> & Hl & Hf). exists ((k, v) :: l1), k', v', l2. split; [reflexivity|]. split; [exact Hl|]. apply Forall_cons. split; [split; assumption|exact Hf].
        -- intros (l1 & k' & v' & l2 & Eq & Hl & Hf). destruct l1 as [|x l1]; [injection Eq as -> -> ->; contradiction|]. injection Eq as <- ->. apply Forall_cons in Hf as [_ Hf].
           assert (H' : b_rewrite_scan dir (l1 ++ (k', v') :: l2) = Throw) by (apply IH1; exists l1, k', v', l2; auto). rewrite H'. reflexivity.
      * split; [|right; eexists; reflexivity]. split; [discriminate|]. intros (l1 & k' & v' & l2 & Eq & Hl & Hf). destruct l1 as [|x l1]; [injection Eq as -> -> ->; contradiction|]. injection Eq as <- ->.
        apply Forall_cons in Hf as [[_ [r Er]] _]. cbn [fst] in Er. subst k. destruct E. rewrite take8. apply unle_le64, Hd.
    + split; [|left; reflexivity]. split; [|reflexivity]. intros _. exists [], k, v, l. split; [reflexivity|]. split; [exact L|constructor].
Qed.
Theorem C73_start_rewrite : forall t dir, real_db (bt_db t) -> u64 dir -> bt_rw t = None ->
  (b_start_dir_rewrite t dir = Throw <->
   exists k v, b_treei (bt_db t) !! k = Some v /\ ble (le64 dir) k /\ length k <> 16%nat /\
     forall k' v', b_treei (bt_db t) !! k' = Some v' -> ble (le64 dir) k' -> blt k' k -> length k' = 16%nat /\ in_dir dir k') /\
  (b_start_dir_rewrite t dir = Throw \/ exists t', b_start_dir_rewrite t dir = Done (Ok tt, t')).
Proof.
  intros t dir (_ & R & _) Hd Hrw. unfold b_start_dir_rewrite. rewrite Hrw. pose proof (cursor_bytes (b_treei (bt_db t)) (le64 dir) R) as Hb.
  assert (Hb1 : Forall (fun x : bytes * bytes => is_bytes x.1) (cursor (b_treei (bt_db t)) (le64 dir))) by (eapply Forall_impl; [exact Hb|intros x [Hx _]; exact Hx]).
  destruct (scan_throws dir _ Hd Hb1) as [H1 H2].
  assert (Q : (exists l1 k v l2, cursor (b_treei (bt_db t)) (le64 dir) = l1 ++ (k, v) :: l2 /\ length k <> 16%nat /\ Forall (fun x => length x.1 = 16%nat /\ in_dir dir x.1) l1) <->
    exists k v, b_treei (bt_db t) !! k = Some v /\ ble (le64 dir) k /\ length k <> 16%nat /\
     forall k' v', b_treei (bt_db t) !! k' = Some v' -> ble (le64 dir) k' -> blt k' k -> length k' = 16%nat /\ in_dir dir k').
  { split.
    - intros (l1 & k & v & l2 & E & L & F). destruct (cursor_split _ _ _ _ _ _ E) as (A & B & C & _). exists k, v. split_and!; try assumption. intros k' v' E' L' B'. rewrite Forall_forall in F. apply (F (k', v')), C. auto.
    - intros (k & v & A & B & L & F). destruct (cursor_at _ _ _ _ A B) as (l1 & l2 & E). destruct (cursor_split _ _ _ _ _ _ E) as (_ & _ & C & _). exists l1, k, v, l2. split_and!; try assumption.
      apply Forall_forall. intros [k' v'] Hin. apply C in Hin as (A1 & A2 & A3). exact (F _ _ A1 A2 A3). }
  rewrite <- Q, <- H1. destruct (cursor (b_treei (bt_db t)) (le64 dir)) as [|x l] eqn:Ec.
  - cbn [b_rewrite_scan]. split; [split; discriminate|right; eexists; reflexivity].
  - destruct H2 as [->|[s ->]]; cbn [obind]; [split; [tauto|left; reflexivity]|]. split; [split; discriminate|right; eexists; reflexivity].
Qed.
(** An orphan whose record is unreadable is reclaimed without a look at its entries: they stay, and name a
    directory that does not exist. *)
Theorem C73_open_orphan_garbage : forall pad root b c o w, real_db b -> b_meta b !! NEXT_INO = Some c -> u64 o -> b_orphans b = {[le64 o := w]} -> record_says b o (Err EINVAL) ->
  exists b' r, b_open pad root b = Done (b', r) /\ b_treei b' = b_treei b /\ b_treen b' = b_treen b /\ b_orphans b' = ∅ /\ b_inodes b' = delete (le64 o) (b_inodes b).
Proof.
  intros pad root b c o w (R1 & R2 & _) Hm Ho Eo Hs. unfold b_open, b_init. rewrite Hm. unfold b_tx_clean at 1. cbn [bt_db bt_refs]. unfold b_clean_orphans. rewrite Eo, map_size_singleton. rewrite Nat.add_1_r.
  destruct (record_total b o R1) as (r & Hr & He). rewrite (C73_one_reading b o _ _ Hr Hs) in He. destruct (b_inodes b !! le64 o) as [v|] eqn:Ev; [|discriminate He].
  cbn [b_clean_loop]. rewrite Eo, all_of_one. cbn [b_victim]. unfold get_ino. rewrite le64_length, unle_le64 by exact Ho. cbn [Nat.eqb obind]. unfold doom. rewrite lookup_empty. cbn [obind].
  unfold b_reap. rewrite Ev, He. cbn [obind]. cbn [b_orphans bset_inodes bset_orphans]. rewrite Eo, delete_singleton. rewrite all_of_none. cbn [b_victim obind fst snd].
  rewrite tx_clean_none by reflexivity. cbn [obind bt_db bt_refs]. eexists _, _. split; [reflexivity|]. split_and!; reflexivity.
Qed.

(** ** Samples *)
(** root > "d" (2) > "a" (3), "bb" (4), and the record of 4 is cut off *)
Definition hang_db : bdb := BDb {[NEXT_INO := le64 5]}
  (<[le64 1 := dmg_inode 0 S_IFDIR]> (<[le64 2 := dmg_inode 1 S_IFDIR]> (<[le64 3 := dmg_inode 2 S_IFREG]> {[le64 4 := take 40 (dmg_inode 2 S_IFREG)]})))
  (<[le64 1 ++ le64 2 := dmg_entry 2 [100]]> (<[le64 2 ++ le64 3 := dmg_entry 3 [97]]> {[le64 2 ++ le64 4 := dmg_entry 4 [98; 98]]}))
  (<[le64 1 ++ [100] := dmg_entry 2 [100]]> (<[le64 2 ++ [97] := dmg_entry 3 [97]]> {[le64 2 ++ [98; 98] := dmg_entry 4 [98; 98]]}))
  ∅ ∅.
Example C73_hang_sample : b_unlink_ino (fun _ => 0) (BTx hang_db ∅ [] None) 2 = Diverge.
Proof.
  apply (C73_unlink_hangs (fun _ => 0) (BTx hang_db ∅ [] None) 2 (Inode 0 1 (Attrs 5 0 0 0 (0, 0) (0, 0) (0, 0) S_IFDIR)) (dmg_entry 2 [100]) 4 (dmg_entry 4 [98; 98]) EINVAL).
  - cbn [bt_db]. split_and!; apply realb_ok; vm_compute; reflexivity.
  - split; [discriminate|reflexivity].
  - discriminate.
  - discriminate.
  - reflexivity.
  - reflexivity.
  - apply (says _ _ (dmg_inode 1 S_IFDIR) _ 0 0 0); [vm_compute; reflexivity| |vm_compute; reflexivity|].
    + intros [H|[(x & y & H & Hx)|H]]; [discriminate H|injection H as <- _; apply Hx; reflexivity|vm_compute in H; lia].
    + unfold inode_ok, attrs_ok, ts_ok, u64, s64. cbn [i_flags i_parent i_attr a_size a_nblocks a_uid a_gid a_atime a_mtime a_ctime a_mode fst snd]. change S_IFDIR with 16384. lia.
  - reflexivity.
  - discriminate.
  - vm_compute. reflexivity.
  - intros [H|[(x & y & H & Hx)|H]]; [discriminate H|injection H as <- _; apply Hx; reflexivity|vm_compute in H; lia].
  - split; [discriminate|reflexivity].
  - discriminate.
  - discriminate.
  - vm_compute. reflexivity.
  - intros [H|[(x & y & H & Hx)|H]]; [discriminate H|injection H as <- _; apply Hx; reflexivity|vm_compute in H; lia].
  - reflexivity.
  - apply (says_garbage _ _ (take 40 (dmg_inode 2 S_IFREG))); [vm_compute; reflexivity|]. right. right. vm_compute. lia.
  - intros k' v' E [r ->] Hne. cbn [bt_db b_treei hang_db] in E. apply lookup_insert_Some in E as [[E _]|[_ E]]; [apply app_inj_1 in E as [E _]; [discriminate E|reflexivity]|].
    apply lookup_insert_Some in E as [[E <-]|[_ E]]; [|apply lookup_singleton_Some in E as [E _]; destruct (Hne (eq_sym E))].
    rewrite <- E. split; [|split; [reflexivity|vm_compute; reflexivity]].
    intros [H|[(x & y & H & Hx)|H]]; [discriminate H|injection H as <- _; apply Hx; reflexivity|vm_compute in H; lia].
Qed.
(** In the database of C73_sample the first entry of "d" is unreadable: removing "d" fails an assertion.  Without
    its record "d" is reclaimed at the next start, and "bb" still has its entry in it. *)
Example C73_writes_sample :
  b_unlink_ino (fun _ => 0) (BTx dmg ∅ [] None) 2 = Crash /\
  (dlet (_, t) := b_update_flags (fun _ => 0) (BTx dmg ∅ [] None) 4 [0] [] in Done (size (b_inodes (bt_db t)))) = Done 6%nat /\
  (dlet (r, _) := b_writelink (fun _ => 0) (BTx dmg ∅ [] None) 4 [97] in Done r) = Done (Err EIO) /\
  (dlet (b, _) := b_open (fun _ => 0) (Attrs 0 0 0 0 (0, 0) (0, 0) (0, 0) 0) (bset_orphans {[le64 2 := [0]]} (bset_inodes (<[le64 2 := []]> (b_inodes dmg)) dmg)) in
    Done (b_getattr b 2, b_name_in b 2 4)) = Done (Done (Err ENOENT), Done (Ok [98; 98])).
Proof. split_and!; vm_compute; reflexivity. Qed.
Print Assumptions C73_children.
Print Assumptions C73_open_orphan_dir.
Print Assumptions C73_unlink_dir.
Print Assumptions C73_unlink_hangs.
Print Assumptions C73_flags.
Print Assumptions C73_writelink.
Print Assumptions C73_unlink.
Print Assumptions C73_unlink_name.
Print Assumptions C73_start_rewrite.
Print Assumptions C73_open_orphan_garbage.
