(** Lemmas for C75: no view is read after an update, so that Lmdb.v and LmdbViews.v agree as long as
    every inode record has the length of an inode. *)
From Verif Require Export LmdbViews.

(** every inode record is 96 bytes long *)
Definition sized (b : bdb) : Prop := forall k v, b_inodes b !! k = Some v -> length v = 96%nat.
(** the outcome without the count of updates *)
Definition plain_mem {A} (x : outcome (A * mem)) : outcome (A * bdb) := dlet (a, m) := x in Done (a, m_db m).
Definition plain_db (x : outcome mem) : outcome bdb := dlet m := x in Done (m_db m).
Definition plain_tx {A} (x : outcome (A * mtx)) : outcome (A * btx) := dlet (a, t) := x in Done (a, mt_tx t).
Definition plain_t (x : outcome mtx) : outcome btx := dlet t := x in Done (mt_tx t).
(** what the operation leaves if it comes to an end *)
Definition leaves {A} (P : A -> Prop) (x : outcome A) : Prop := match x with Done a => P a | _ => True end.

Lemma sized_ins k v b : length v = 96%nat -> sized b -> sized (bset_inodes (<[k := v]> (b_inodes b)) b).
Proof. intros Hv Hb k' v' E. cbn [bset_inodes b_inodes] in E. apply lookup_insert_Some in E as [[_ <-]|[_ E]]; [exact Hv|exact (Hb _ _ E)]. Qed.
Lemma sized_del k b : sized b -> sized (bset_inodes (delete k (b_inodes b)) b).
Proof. intros Hb k' v' E. cbn [bset_inodes b_inodes] in E. apply lookup_delete_Some in E as [_ E]. exact (Hb _ _ E). Qed.
Lemma ser_len pad i : length (ser pad i) = 96%nat.
Proof. unfold ser. rewrite ser_inode_length. reflexivity. Qed.

Section sim.
Context (pad : inode -> Z) (junk : nat -> view -> bytes).
Lemma look_now m d : look junk m (View (m_writes m) d) = d.
Proof. unfold look. cbn [v_taken v_bytes]. rewrite Nat.eqb_refl. reflexivity. Qed.
Lemma put_same m k v i : sized (m_db m) -> b_inodes (m_db m) !! k = Some v ->
  m_cursor_put junk m (View (m_writes m) k) (ser pad i) = written (fun b => bset_inodes (<[k := ser pad i]> (b_inodes b)) b) m.
Proof. intros Hs E. unfold m_cursor_put. rewrite look_now, E, (Hs _ _ E), ser_len. reflexivity. Qed.

(** *** sizes are kept *)
Lemma sized_make_orphan b ino : sized b -> leaves (fun x => sized x.2) (b_make_orphan pad b ino).
Proof.
  intros Hs. unfold b_make_orphan. destruct (b_parent b ino) as [[p|e]| | |]; cbn [leaves obind snd]; auto.
  destruct (p =? INVALID_INO); [exact Hs|]. destruct (b_treei b !! _) as [v|]; [|exact Hs]. destruct (parse_dirent v) as [e|e]; cbn [leaves]; auto.
  cbn [b_inodes bset_orphans bset_treen bset_treei]. destruct (b_inodes b !! le64 ino) as [w|] eqn:E; [|exact Hs]. destruct (parse_inode 0 w) as [[i|e']| | |]; cbn [leaves obind snd]; auto.
  exact (sized_ins (le64 ino) (ser pad (set_parent 0 i)) b (ser_len pad _) Hs).
Qed.
Lemma sized_children fuel : forall b o, sized b -> leaves sized (b_orphan_children pad fuel b o).
Proof.
  induction fuel as [|fuel IH]; intros b o Hs; [exact I|]. cbn [b_orphan_children]. destruct (cursor _ _) as [|[k v] l]; [exact Hs|]. destruct (negb _); [exact Hs|].
  destruct (parse_dirent v) as [e|e]; [|exact I]. pose proof (sized_make_orphan b (de_ino e) Hs) as H. destruct (b_make_orphan pad b (de_ino e)) as [[r b']| | |]; cbn [obind leaves snd] in *; auto.
Qed.
Lemma sized_reap b o : sized b -> leaves sized (b_reap pad b o).
Proof.
  intros Hs. unfold b_reap. destruct (b_inodes b !! le64 o) as [v|]; [|exact Hs]. destruct (parse_inode 0 v) as [[i|e]| | |]; cbn [obind leaves]; auto.
  2: apply sized_del, Hs.
  - destruct (_ =? S_IFLNK); [exact (sized_del (le64 o) (bset_links (delete (le64 o) (b_links b)) b) Hs)|]. destruct (_ =? S_IFDIR); [|apply sized_del, Hs].
    pose proof (sized_children (S (size (b_treei b))) b o Hs) as H. destruct (b_orphan_children _ _ _ _); cbn [obind leaves] in *; auto. exact (sized_del (le64 o) _ H).
Qed.
Lemma sized_clean fuel : forall b r, sized b -> leaves (fun x => sized x.1) (b_clean_loop pad fuel b r).
Proof.
  induction fuel as [|fuel IH]; intros b r Hs; [exact I|]. cbn [b_clean_loop]. destruct (b_victim _ _) as [[[o r']|]| | |]; cbn [obind leaves]; auto.
  pose proof (sized_reap b o Hs) as H. destruct (b_reap pad b o); cbn [obind leaves] in *; auto.
Qed.

(** *** the operations agree *)
Lemma make_orphan_same m ino : sized (m_db m) -> plain_mem (m_make_orphan pad junk m ino) = b_make_orphan pad (m_db m) ino.
Proof.
  intros Hs. unfold m_make_orphan, b_make_orphan. destruct (b_parent (m_db m) ino) as [[p|e]| | |]; cbn [plain_mem obind]; auto.
  destruct (p =? INVALID_INO); [reflexivity|]. unfold m_find at 1. destruct (b_treei (m_db m) !! _) as [v|]; [|reflexivity].
  rewrite look_now. destruct (parse_dirent v) as [e|e]; [|reflexivity]. unfold part. cbn [v_taken]. rewrite look_now.
  set (m' := written _ _). unfold m_find. change (b_inodes (m_db m')) with (b_inodes (m_db m)). cbn [b_inodes bset_orphans bset_treen bset_treei].
  destruct (b_inodes (m_db m) !! le64 ino) as [w|] eqn:E; [|reflexivity]. rewrite look_now. destruct (parse_inode 0 w) as [[i|e']| | |]; [|reflexivity..]. cbn [obind plain_mem].
  rewrite (put_same m' _ w); [reflexivity|exact Hs|exact E].
Qed.
Lemma make_orphan_cases m ino : sized (m_db m) ->
  match m_make_orphan pad junk m ino with
  | Done (r, m') => b_make_orphan pad (m_db m) ino = Done (r, m_db m') /\ sized (m_db m')
  | Crash => b_make_orphan pad (m_db m) ino = Crash | Throw => b_make_orphan pad (m_db m) ino = Throw | Diverge => b_make_orphan pad (m_db m) ino = Diverge
  end.
Proof.
  intros Hs. pose proof (make_orphan_same m ino Hs) as H. pose proof (sized_make_orphan (m_db m) ino Hs) as H'. rewrite <- H in H'.
  destruct (m_make_orphan pad junk m ino) as [[r m']| | |]; cbn [plain_mem obind leaves snd] in *; auto.
Qed.
Lemma children_same fuel : forall m o, sized (m_db m) -> plain_db (m_orphan_children pad junk fuel m o) = b_orphan_children pad fuel (m_db m) o.
Proof.
  induction fuel as [|fuel IH]; intros m o Hs; [reflexivity|]. cbn [m_orphan_children b_orphan_children]. destruct (cursor _ _) as [|[k v] l]; [reflexivity|]. cbn [m_views map fst snd].
  rewrite !look_now. destruct (negb _); [reflexivity|]. destruct (parse_dirent v) as [e|e]; [|reflexivity].
  pose proof (make_orphan_cases m (de_ino e) Hs) as H. destruct (m_make_orphan pad junk m (de_ino e)) as [[r m']| | |]; cbn [obind plain_db].
  - destruct H as [-> H]. cbn [obind]. apply IH, H.
  - rewrite H. reflexivity.
  - rewrite H. reflexivity.
  - rewrite H. reflexivity.
Qed.
Lemma reap_same m o : sized (m_db m) -> plain_db (m_reap pad junk m o) = b_reap pad (m_db m) o.
Proof.
  intros Hs. unfold m_reap, b_reap, m_find. destruct (b_inodes (m_db m) !! le64 o) as [v|] eqn:E; [|reflexivity]. rewrite look_now. destruct (parse_inode 0 v) as [[i|e]| | |]; [|reflexivity..].
  cbn [obind]. destruct (_ =? S_IFLNK); [reflexivity|]. destruct (_ =? S_IFDIR); [|reflexivity].
  rewrite <- (children_same (S (size (b_treei (m_db m)))) m o Hs). destruct (m_orphan_children _ _ _ _ _); reflexivity.
Qed.
Lemma victim_same m r l : m_victim junk m r (m_views m l) = b_victim r l.
Proof.
  induction l as [|[k v] l IH]; [reflexivity|]. cbn [m_views map m_victim b_victim fst snd]. rewrite look_now. destruct (get_ino k); cbn [obind]; auto. destruct (doom r a) as [[x|e] r']; [reflexivity|exact IH].
Qed.
Lemma clean_same fuel : forall m r, sized (m_db m) ->
  (dlet (m, r) := m_clean_loop pad junk fuel m r in Done (m_db m, r)) = b_clean_loop pad fuel (m_db m) r.
Proof.
  induction fuel as [|fuel IH]; intros m r Hs; [reflexivity|]. cbn [m_clean_loop b_clean_loop]. rewrite victim_same. destruct (b_victim _ _) as [[[o r']|]| | |]; cbn [obind]; auto.
  pose proof (reap_same m o Hs) as H. pose proof (sized_reap (m_db m) o Hs) as H'. rewrite <- H in H' |- *. destruct (m_reap pad junk m o) as [m'| | |]; cbn [plain_db obind leaves] in *; auto.
Qed.
Lemma tx_clean_same t : sized (bt_db (mt_tx t)) -> plain_t (m_tx_clean pad junk t) = b_tx_clean pad (mt_tx t).
Proof.
  intros Hs. unfold m_tx_clean, b_tx_clean, b_clean_orphans. rewrite <- (clean_same _ (mem_of t) _ Hs). destruct (m_clean_loop _ _ _ _ _) as [[m r]| | |]; reflexivity.
Qed.
Lemma sized_tx_clean t : sized (bt_db t) -> leaves (fun t => sized (bt_db t)) (b_tx_clean pad t).
Proof.
  intros Hs. unfold b_tx_clean, b_clean_orphans. pose proof (sized_clean (S (size (b_inodes (bt_db t)) + size (b_orphans (bt_db t)))) (bt_db t) (bt_refs t) Hs) as H.
  destruct (b_clean_loop _ _ _ _); cbn [obind leaves bt_db] in *; auto.
Qed.
Lemma unlink_ino_same t x : sized (bt_db (mt_tx t)) -> plain_tx (m_unlink_ino pad junk t x) = b_unlink_ino pad (mt_tx t) x.
Proof.
  intros Hs. unfold m_unlink_ino, b_unlink_ino. pose proof (make_orphan_cases (mem_of t) x Hs) as H. change (m_db (mem_of t)) with (bt_db (mt_tx t)) in H.
  destruct (m_make_orphan _ _ _ _) as [[r m]| | |]; [destruct H as [-> H]|rewrite H; reflexivity..]. cbn [obind]. destruct r as [u|e]; [|reflexivity].
  rewrite <- (tx_clean_same (with_mem m t) H : _ = b_tx_clean pad (bwith_db (m_db m) (mt_tx t))). destruct (m_tx_clean _ _ _); reflexivity.
Qed.

Lemma allocate_same m : plain_mem (m_allocate junk m) = b_allocate (m_db m).
Proof.
  unfold m_allocate, b_allocate, m_find. destruct (b_meta (m_db m) !! NEXT_INO) as [v|]; [|reflexivity]. rewrite look_now. destruct (get_ino v); reflexivity.
Qed.
Lemma sized_allocate b : sized b -> leaves (fun x => sized x.2) (b_allocate b).
Proof. intros Hs. unfold b_allocate. destruct (b_meta b !! NEXT_INO) as [v|]; [|exact I]. destruct (get_ino v); cbn [obind leaves]; auto. Qed.
(** the second half of emplace *)
Definition b_fresh (t : btx) (p : Z) (n : bytes) (a : attrs) (b : bdb) : outcome (res Z * btx) :=
  dlet (ino, b) := b_allocate b in
  let b := bset_inodes (<[le64 ino := ser pad (mkinode a p)]> (b_inodes b)) b in
  let v := ser_dirent 0 (Dirent 0 0 ino n) in
  let b := bset_treen (<[le64 p ++ n := v]> (b_treen b)) b in
  let b := bset_treei (<[le64 p ++ le64 ino := v]> (b_treei b)) b in
  dlet t := b_tx_clean pad (bwith_db b t) in
  Done (Ok ino, t).
Definition m_fresh (t : mtx) (p : Z) (n : bytes) (a : attrs) (m : mem) : outcome (res Z * mtx) :=
  dlet (ino, m) := m_allocate junk m in
  let m := written (fun b => bset_inodes (<[le64 ino := ser pad (mkinode a p)]> (b_inodes b)) b) m in
  let v := ser_dirent 0 (Dirent 0 0 ino n) in
  let m := written (fun b => bset_treen (<[le64 p ++ n := v]> (b_treen b)) b) m in
  let m := written (fun b => bset_treei (<[le64 p ++ le64 ino := v]> (b_treei b)) b) m in
  dlet t := m_tx_clean pad junk (with_mem m t) in
  Done (Ok ino, t).
Lemma fresh_same t p n a m : sized (m_db m) -> plain_tx (m_fresh t p n a m) = b_fresh (mt_tx t) p n a (m_db m).
Proof.
  intros Hs. unfold m_fresh, b_fresh. pose proof (allocate_same m) as H. pose proof (sized_allocate (m_db m) Hs) as H'. rewrite <- H in H' |- *.
  destruct (m_allocate junk m) as [[x m']| | |]; cbn [plain_mem obind leaves snd] in *; [|reflexivity..].
  cbv zeta. set (m2 := written _ (written _ _)). match goal with |- _ = (dlet t := b_tx_clean pad ?T in _) => change T with (bwith_db (m_db m2) (mt_tx t)) end. rewrite <- (tx_clean_same (with_mem m2 t) (sized_ins (le64 x) (ser pad (mkinode a p)) (m_db m') (ser_len pad _) H') : _ = b_tx_clean pad (bwith_db (m_db m2) (mt_tx t))).
  destruct (m_tx_clean _ _ _); reflexivity.
Qed.
Lemma sized_fresh t p n a b : sized b -> leaves (fun x => sized (bt_db x.2)) (b_fresh t p n a b).
Proof.
  intros Hs. unfold b_fresh. pose proof (sized_allocate b Hs) as H'. destruct (b_allocate b) as [[x b']| | |]; cbn [obind leaves snd] in *; [|exact I..].
  set (b2 := bset_treei _ _). pose proof (sized_tx_clean (bwith_db b2 t) (sized_ins (le64 x) (ser pad (mkinode a p)) b' (ser_len pad _) H')) as H.
  destruct (b_tx_clean _ _); cbn [obind leaves snd] in *; auto.
Qed.
Lemma emplace_same t p n a : sized (bt_db (mt_tx t)) -> plain_tx (m_emplace pad junk t p n a) = b_emplace pad (mt_tx t) p n a.
Proof.
  intros Hs. unfold m_emplace, b_emplace. destruct (check_name n true) as [u|e]; [|reflexivity]. fold (m_fresh t p n a). fold (b_fresh (mt_tx t) p n a).
  unfold m_find at 1. change (m_db (mem_of t)) with (bt_db (mt_tx t)).
  destruct (b_treen (bt_db (mt_tx t)) !! _) as [v|] eqn:E; [|exact (fresh_same t p n a (mem_of t) Hs)].
  rewrite look_now. destruct (parse_dirent v) as [e|e]; [|reflexivity]. unfold m_find. change (m_db (mem_of t)) with (bt_db (mt_tx t)).
  destruct (b_inodes (bt_db (mt_tx t)) !! le64 (de_ino e)) as [w|] eqn:E2; [|reflexivity]. rewrite look_now.
  destruct (parse_inode 0 w) as [[oi|e2]| | |]; cbn [obind]; [|reflexivity..]. destruct (_ =? _).
  - rewrite (put_same (mem_of t) _ w); [reflexivity|exact Hs|exact E2].
  - pose proof (make_orphan_cases (mem_of t) (de_ino e) Hs) as H. change (m_db (mem_of t)) with (bt_db (mt_tx t)) in H.
    destruct (m_make_orphan _ _ _ _) as [[r m]| | |]; [destruct H as [-> H]|rewrite H; reflexivity..]. cbn [obind]. exact (fresh_same t p n a m H).
Qed.
Lemma sized_emplace t p n a : sized (bt_db t) -> leaves (fun x => sized (bt_db x.2)) (b_emplace pad t p n a).
Proof.
  intros Hs. unfold b_emplace. destruct (check_name n true) as [u|e]; [|exact Hs]. fold (b_fresh t p n a).
  destruct (b_treen (bt_db t) !! _) as [v|]; [|apply sized_fresh, Hs]. destruct (parse_dirent v) as [e|e]; [|exact I].
  destruct (b_inodes (bt_db t) !! _) as [w|]; [|exact I]. destruct (parse_inode 0 w) as [[oi|e2]| | |]; cbn [obind]; [|exact I..]. destruct (_ =? _).
  - exact (sized_ins _ _ _ (ser_len pad _) Hs).
  - pose proof (sized_make_orphan (bt_db t) (de_ino e) Hs) as H. destruct (b_make_orphan _ _ _) as [[r b]| | |]; cbn [obind leaves snd] in *; [|exact I..]. apply sized_fresh, H.
Qed.
Lemma sized_unlink_ino t x : sized (bt_db t) -> leaves (fun x => sized (bt_db x.2)) (b_unlink_ino pad t x).
Proof.
  intros Hs. unfold b_unlink_ino. pose proof (sized_make_orphan (bt_db t) x Hs) as H. destruct (b_make_orphan _ _ _) as [[[u|e] b]| | |]; cbn [obind leaves snd] in *; auto.
  pose proof (sized_tx_clean (bwith_db b t) H) as H2. destruct (b_tx_clean _ _); cbn [obind leaves snd] in *; auto.
Qed.
Lemma unlink_name_same t p n : sized (bt_db (mt_tx t)) -> plain_tx (m_unlink_name pad junk t p n) = b_unlink_name pad (mt_tx t) p n.
Proof.
  intros Hs. unfold m_unlink_name, b_unlink_name, m_find. change (m_db (mem_of t)) with (bt_db (mt_tx t)). destruct (b_treen _ !! _) as [v|]; [|reflexivity].
  rewrite look_now. destruct (parse_dirent v) as [e|e]; [apply unlink_ino_same, Hs|reflexivity].
Qed.
Lemma sized_unlink_name t p n : sized (bt_db t) -> leaves (fun x => sized (bt_db x.2)) (b_unlink_name pad t p n).
Proof. intros Hs. unfold b_unlink_name. destruct (b_treen _ !! _) as [v|]; [|exact Hs]. destruct (parse_dirent v); [apply sized_unlink_ino, Hs|exact I]. Qed.
Lemma writelink_same t x d : sized (bt_db (mt_tx t)) -> plain_tx (m_writelink pad junk t x d) = b_writelink pad (mt_tx t) x d.
Proof.
  intros Hs. unfold m_writelink, b_writelink, m_find. change (m_db (mem_of t)) with (bt_db (mt_tx t)). destruct (b_inodes _ !! _) as [v|] eqn:E; [|reflexivity].
  rewrite look_now. destruct (parse_inode 0 v) as [[i|e]| | |]; cbn [obind]; [|reflexivity..]. destruct (negb _); [reflexivity|]. rewrite (put_same (mem_of t) _ v); [reflexivity|exact Hs|exact E].
Qed.
Lemma sized_writelink t x d : sized (bt_db t) -> leaves (fun x => sized (bt_db x.2)) (b_writelink pad t x d).
Proof.
  intros Hs. unfold b_writelink. destruct (b_inodes _ !! _) as [v|]; [|exact Hs]. destruct (parse_inode 0 v) as [[i|e]| | |]; cbn [obind]; [|exact Hs|exact I..]. destruct (negb _); [exact Hs|].
  exact (sized_ins (le64 x) _ _ (ser_len pad _) Hs).
Qed.
Lemma flags_same t x s c : sized (bt_db (mt_tx t)) -> plain_tx (m_update_flags pad junk t x s c) = b_update_flags pad (mt_tx t) x s c.
Proof.
  intros Hs. unfold m_update_flags, b_update_flags, m_find. change (m_db (mem_of t)) with (bt_db (mt_tx t)). destruct (b_inodes _ !! _) as [v|] eqn:E; [|reflexivity].
  rewrite look_now. destruct (parse_inode 0 v) as [[i|e]| | |]; cbn [obind]; [|reflexivity..]. rewrite (put_same (mem_of t) _ v); [reflexivity|exact Hs|exact E].
Qed.
Lemma sized_flags t x s c : sized (bt_db t) -> leaves (fun x => sized (bt_db x.2)) (b_update_flags pad t x s c).
Proof.
  intros Hs. unfold b_update_flags. destruct (b_inodes _ !! _) as [v|]; [|exact Hs]. destruct (parse_inode 0 v) as [[i|e]| | |]; cbn [obind]; [|exact Hs|exact I..].
  exact (sized_ins (le64 x) _ _ (ser_len pad _) Hs).
Qed.
Lemma scan_same m dir l : m_rewrite_scan junk m dir (m_views m l) = b_rewrite_scan dir l.
Proof.
  induction l as [|[k v] l IH]; [reflexivity|]. cbn [m_views map m_rewrite_scan b_rewrite_scan fst snd]. rewrite look_now. destruct (negb _); [reflexivity|]. destruct (_ =? dir); [|reflexivity].
  fold (m_views m l). rewrite IH. reflexivity.
Qed.
Lemma start_same t d : plain_tx (m_start_dir_rewrite junk t d) = b_start_dir_rewrite (mt_tx t) d.
Proof.
  unfold m_start_dir_rewrite, b_start_dir_rewrite. destruct (bt_rw (mt_tx t)); [reflexivity|]. change (m_db (mem_of t)) with (bt_db (mt_tx t)).
  destruct (cursor _ _) as [|kv l] eqn:E; [reflexivity|]. rewrite <- (scan_same (mem_of t)). cbn [m_views map]. destruct (m_rewrite_scan _ _ _ _); reflexivity.
Qed.
Lemma all_same l : forall m, sized (m_db m) -> plain_db (m_orphan_all pad junk m l) = b_orphan_all pad (m_db m) l.
Proof.
  induction l as [|x l IH]; intros m Hs; [reflexivity|]. cbn [m_orphan_all b_orphan_all]. pose proof (make_orphan_cases m x Hs) as H.
  destruct (m_make_orphan _ _ _ _) as [[r m']| | |]; [destruct H as [-> H]|rewrite H; reflexivity..]. exact (IH m' H).
Qed.
Lemma sized_all l : forall b, sized b -> leaves sized (b_orphan_all pad b l).
Proof.
  induction l as [|x l IH]; intros b Hs; [exact Hs|]. cbn [b_orphan_all]. pose proof (sized_make_orphan b x Hs) as H. destruct (b_make_orphan _ _ _) as [[r b']| | |]; cbn [obind leaves snd] in *; auto.
Qed.
Lemma finish_same t : sized (bt_db (mt_tx t)) -> plain_tx (m_finish_dir_rewrite pad junk t) = b_finish_dir_rewrite pad (mt_tx t).
Proof.
  intros Hs. unfold m_finish_dir_rewrite, b_finish_dir_rewrite. destruct (bt_rw (mt_tx t)) as [s|]; [|reflexivity]. rewrite <- (all_same _ (mem_of t) Hs). destruct (m_orphan_all _ _ _ _); reflexivity.
Qed.
Lemma no_value_same (x : outcome (res unit * mtx)) y : plain_tx x = y -> plain_tx (no_value x) = no_value y.
Proof. intros <-. destruct x as [[r t]| | |]; reflexivity. Qed.
Lemma lift_same n x : plain_tx (m_lift n x) = x.
Proof. destruct x as [[r t]| | |]; reflexivity. Qed.
Lemma step_same t o : sized (bt_db (mt_tx t)) -> plain_tx (mstep pad junk t o) = bstep pad (mt_tx t) o.
Proof.
  intros Hs. destruct o; cbn [mstep bstep]; try apply no_value_same.
  - apply emplace_same, Hs.
  - apply unlink_ino_same, Hs.
  - apply unlink_ino_same, Hs.
  - apply unlink_name_same, Hs.
  - rewrite <- (tx_clean_same t Hs). destruct (m_tx_clean _ _ _); reflexivity.
  - apply writelink_same, Hs.
  - apply flags_same, Hs.
  - apply start_same.
  - apply finish_same, Hs.
  - apply lift_same.
  - apply lift_same.
Qed.
Lemma leaves_no_value {T} (P : T -> Prop) (x : outcome (res unit * T)) : leaves (fun y => P y.2) x -> leaves (fun y => P y.2) (no_value x).
Proof. destruct x as [[r t]| | |]; exact (fun H => H). Qed.
Lemma sized_step t o : sized (bt_db t) -> leaves (fun x => sized (bt_db x.2)) (bstep pad t o).
Proof.
  intros Hs. destruct o; cbn [bstep]; try apply (leaves_no_value (fun t => sized (bt_db t))).
  - apply sized_emplace, Hs.
  - apply sized_unlink_ino, Hs.
  - apply sized_unlink_ino, Hs.
  - apply sized_unlink_name, Hs.
  - pose proof (sized_tx_clean t Hs) as H. destruct (b_tx_clean _ _); exact H.
  - apply sized_writelink, Hs.
  - apply sized_flags, Hs.
  - unfold b_start_dir_rewrite. destruct (bt_rw t); [exact Hs|]. destruct (cursor _ _) as [|kv l]; [exact Hs|]. destruct (b_rewrite_scan _ _); [exact Hs|exact I..].
  - unfold b_finish_dir_rewrite. destruct (bt_rw t) as [s|]; [|exact Hs]. pose proof (sized_all (merge_sort Z.le (elements s)) _ Hs) as H. destruct (b_orphan_all _ _ _); exact H.
  - unfold b_lock. destruct (incref _ _ _) as [[u|e] r]; exact Hs.
  - unfold b_release. destruct (_ =? 0); [exact Hs|]. destruct (decref _ _ _) as [[[u|e] r]| | |]; try exact I. exact Hs.
Qed.
Lemma sized_init root b : sized b -> sized (b_init pad root b).
Proof. intros Hs. unfold b_init. destruct (b_meta b !! NEXT_INO); [exact Hs|]. exact (sized_ins (le64 ROOT_INO) _ b (ser_len pad _) Hs). Qed.
Lemma open_same root b : sized b -> (dlet t := m_open pad junk root b in Done (bt_db (mt_tx t), bt_refs (mt_tx t))) = b_open pad root b.
Proof.
  intros Hs. unfold m_open, b_open. set (t0 := MTx _ _). assert (H0 : sized (bt_db (mt_tx t0))) by (apply sized_init, Hs).
  change (BTx (b_init pad root b) ∅ [] None) with (mt_tx t0). clearbody t0. pose proof (sized_tx_clean (mt_tx t0) H0) as H1. rewrite <- (tx_clean_same t0 H0) in H1 |- *.
  destruct (m_tx_clean pad junk t0) as [t1| | |]; cbn [plain_t obind leaves] in *; [|reflexivity..]. rewrite <- (tx_clean_same t1 H1). destruct (m_tx_clean pad junk t1); reflexivity.
Qed.
Lemma sized_open root b : sized b -> leaves (fun x => sized x.1) (b_open pad root b).
Proof.
  intros Hs. unfold b_open. pose proof (sized_tx_clean (BTx (b_init pad root b) ∅ [] None) (sized_init root b Hs)) as H1. destruct (b_tx_clean pad _) as [t1| | |]; cbn [obind leaves] in *; [|exact I..].
  pose proof (sized_tx_clean t1 H1) as H2. destruct (b_tx_clean pad t1); exact H2.
Qed.
(** histories *)
Definition plain_w (w : mworld) : bworld := BWorld (mw_comm w) (mt_tx (mw_tx w)).
Definition sized_w (w : bworld) : Prop := sized (bw_comm w) /\ sized (bt_db (bw_tx w)).
Lemma world_step w e : sized_w (plain_w w) -> (dlet (x, w) := mwstep pad junk w e in Done (x, plain_w w)) = bwstep pad (plain_w w) e.
Proof.
  intros [H1 H2]. destruct e as [o| | |root]; cbn [mwstep bwstep].
  - rewrite <- (step_same (mw_tx w) o H2 : _ = bstep pad (bw_tx (plain_w w)) o). destruct (mstep _ _ _ _) as [[x t]| | |]; reflexivity.
  - reflexivity.
  - cbn [plain_w bw_tx]. destruct (run_rollbacks _ _); reflexivity.
  - rewrite <- (open_same root (mw_comm w) H1 : _ = b_open pad root (bw_comm (plain_w w))). destruct (m_open _ _ _ _); reflexivity.
Qed.
Lemma sized_world w e : sized_w w -> leaves (fun x => sized_w x.2) (bwstep pad w e).
Proof.
  intros [H1 H2]. destruct e as [o| | |root]; cbn [bwstep].
  - pose proof (sized_step (bw_tx w) o H2) as H. destruct (bstep _ _ _) as [[x t]| | |]; cbn [obind leaves snd] in *; auto. split; assumption.
  - split; assumption.
  - destruct (run_rollbacks _ _); cbn [obind leaves snd]; auto. split; assumption.
  - pose proof (sized_open root (bw_comm w) H1) as H. destruct (b_open _ _ _) as [[b r]| | |]; cbn [obind leaves snd] in *; auto. split; assumption.
Qed.
Lemma world_run l : forall w, sized_w (plain_w w) -> (dlet (x, w) := mwrun pad junk w l in Done (x, plain_w w)) = bwrun pad (plain_w w) l.
Proof.
  induction l as [|e l IH]; intros w Hs; [reflexivity|]. cbn [mwrun bwrun]. pose proof (sized_world (plain_w w) e Hs) as H. rewrite <- (world_step w e Hs) in H |- *.
  destruct (mwstep pad junk w e) as [[x w']| | |]; cbn [obind leaves snd] in *; [|reflexivity..]. rewrite <- (IH w' H). destruct (mwrun pad junk w' l) as [[xs w2]| | |]; reflexivity.
Qed.
End sim.
