(** Property theorems C75: views into database memory.

    [junk] is what database memory shows once an update has made a view of it invalid: anything,
    and different at every update.  Nothing the cache does depends on it. *)
From Verif Require Import LmdbViews LmdbViewsSim.
From Verif Require Import PropsCodec.

(** ** Any database with inode records of the right length *)
(** Every operation of a transaction, on every database whose inode records are 96 bytes long
    (the other tables may hold anything), returns and writes what its arguments and the tables
    determine. *)
Theorem C75_step : forall pad junk t o, sized (bt_db (mt_tx t)) ->
  plain_tx (mstep pad junk t o) = bstep pad (mt_tx t) o.
Proof. intros. apply step_same. assumption. Qed.
(** and it leaves such a database *)
Theorem C75_sized : forall pad t o x t', sized (bt_db t) -> bstep pad t o = Done (x, t') -> sized (bt_db t').
Proof. intros pad t o x t' Hs E. pose proof (sized_step pad t o Hs) as H. rewrite E in H. exact H. Qed.
(** ** All histories *)
(** From a new cache on, through operations, commits, aborts and crashes in any order: the results
    and the tables are those of the history without any invalid memory. *)
Theorem C75_history : forall pad junk root l,
  (dlet w := mwopen pad junk root in dlet (xs, w) := mwrun pad junk w l in Done (xs, plain_w w)) =
  (dlet w := bwopen pad root in bwrun pad w l).
Proof.
  intros pad junk root l. assert (H0 : sized bdb_empty) by (intros k v E; exact (False_ind _ (lookup_empty_Some (M:=gmap (list Z)) k v E))).
  unfold mwopen, bwopen. pose proof (sized_open pad root bdb_empty H0) as H. rewrite <- (open_same pad junk root bdb_empty H0) in H |- *.
  destruct (m_open pad junk root bdb_empty) as [t| | |]; cbn [obind leaves fst] in *; [|reflexivity..]. apply (world_run pad junk l (mbegin (bt_db (mt_tx t)) (bt_refs (mt_tx t)))). split; exact H.
Qed.
(** two runs whose invalid memory shows different bytes cannot be told apart *)
Theorem C75_any_memory : forall pad junk junk' root l,
  (dlet w := mwopen pad junk root in dlet (xs, w) := mwrun pad junk w l in Done (xs, plain_w w)) =
  (dlet w := mwopen pad junk' root in dlet (xs, w) := mwrun pad junk' w l in Done (xs, plain_w w)).
Proof. intros. rewrite !C75_history. reflexivity. Qed.

(** ** An inode record that is too long *)
(** Inode::parse accepts it (C30), and the operations that write the inode back under the key that
    find() returned take it out of the page before they read that key: they report success, the
    inode is gone, and its record is filed under whatever the page shows there by then. *)
Definition moved (junk : nat -> view -> bytes) (t : mtx) (k buf : bytes) (t' : mtx) : Prop :=
  b_inodes (bt_db (mt_tx t')) = <[junk (S (mt_writes t)) (View (mt_writes t) k) := buf]> (delete k (b_inodes (bt_db (mt_tx t)))).
Lemma put_moves junk m k old buf : b_inodes (m_db m) !! k = Some old -> length old <> length buf ->
  b_inodes (m_db (m_cursor_put junk m (View (m_writes m) k) buf)) = <[junk (S (m_writes m)) (View (m_writes m) k) := buf]> (delete k (b_inodes (m_db m))).
Proof.
  intros E Hl. unfold m_cursor_put. rewrite look_now, E. destruct (Nat.eqb_spec (length old) (length buf)); [contradiction|]. unfold look. cbn [written m_writes v_taken].
  destruct (Nat.eqb_spec (m_writes m) (S (m_writes m))); [lia|]. reflexivity.
Qed.
Theorem C75_long_flags : forall pad junk t x v i s c, b_inodes (bt_db (mt_tx t)) !! le64 x = Some v -> parse_inode 0 v = Done (Ok i) -> length v <> 96%nat ->
  exists t', m_update_flags pad junk t x s c = Done (Ok tt, t') /\
    moved junk t (le64 x) (ser pad (Inode (fold_left flag_clear c (fold_left flag_set s (i_flags i))) (i_parent i) (i_attr i))) t'.
Proof.
  intros pad junk t x v i s c E P L. unfold m_update_flags, m_find. change (m_db (mem_of t)) with (bt_db (mt_tx t)). rewrite E, look_now, P. cbn [obind]. eexists. split; [reflexivity|].
  apply (put_moves junk (mem_of t) _ v); [exact E|rewrite ser_len; exact L].
Qed.
Theorem C75_long_writelink : forall pad junk t x v i d, b_inodes (bt_db (mt_tx t)) !! le64 x = Some v -> parse_inode 0 v = Done (Ok i) -> length v <> 96%nat -> ftype (a_mode (i_attr i)) = S_IFLNK ->
  exists t', m_writelink pad junk t x d = Done (Ok tt, t') /\
    moved junk t (le64 x) (ser pad (Inode (i_flags i) (i_parent i) (set_size (Z.of_nat (length d)) (i_attr i)))) t'.
Proof.
  intros pad junk t x v i d E P L F. unfold m_writelink, m_find. change (m_db (mem_of t)) with (bt_db (mt_tx t)). rewrite E, look_now, P. cbn [obind]. rewrite F, Z.eqb_refl. cbn [negb]. eexists. split; [reflexivity|].
  apply (put_moves junk (mem_of t) _ v); [exact E|rewrite ser_len; exact L].
Qed.
Theorem C75_long_emplace : forall pad junk t p n a w e v i, check_name n true = Ok tt ->
  b_treen (bt_db (mt_tx t)) !! (le64 p ++ n) = Some w -> parse_dirent w = Ok e ->
  b_inodes (bt_db (mt_tx t)) !! le64 (de_ino e) = Some v -> parse_inode 0 v = Done (Ok i) -> length v <> 96%nat -> ftype (a_mode (i_attr i)) = ftype (a_mode a) ->
  exists t', m_emplace pad junk t p n a = Done (Ok (de_ino e), t') /\ moved junk t (le64 (de_ino e)) (ser pad (mkinode a p)) t'.
Proof.
  intros pad junk t p n a w e v i N W D E P L F. unfold m_emplace. rewrite N. unfold m_find at 1. change (m_db (mem_of t)) with (bt_db (mt_tx t)). rewrite W, look_now, D. unfold m_find. change (m_db (mem_of t)) with (bt_db (mt_tx t)).
  rewrite E, look_now, P. cbn [obind]. rewrite F, Z.eqb_refl. eexists. split; [reflexivity|].
  apply (put_moves junk (mem_of t) _ v); [exact E|rewrite ser_len; exact L].
Qed.
(** so the inode that was "updated" is not found any more *)
Theorem C75_long_lost : forall junk t x buf t', moved junk t (le64 x) buf t' -> junk (S (mt_writes t)) (View (mt_writes t) (le64 x)) <> le64 x ->
  b_getattr (bt_db (mt_tx t')) x = Done (Err ENOENT).
Proof. intros junk t x buf t' H Hne. unfold b_getattr. rewrite H, lookup_insert_ne by exact Hne. rewrite lookup_delete. reflexivity. Qed.

(** ** Samples *)
Definition vroot : attrs := Attrs 0 0 0 0 (0, 0) (0, 0) (0, 0) 0.
Definition vdir (n : Z) : op := OEmplace 1 [n] (set_mode S_IFDIR vroot).
Definition vfile (p n : Z) : op := OEmplace p [n] (set_mode 32768 vroot).
Definition vlink (p n : Z) : op := OEmplace p [n] (set_mode S_IFLNK vroot).
(** entries replaced by others of the same and of another type, a whole directory removed, a link
    written, a listing rewritten, with crashes in between; invalid memory is full of 255s *)
Definition vsample : list bev :=
  map BOp [vdir 100; vfile 2 97; vfile 2 98; vlink 1 108; OWritelink 5 [97; 47]; vfile 2 97; vlink 2 98; OFlags 2 [0] []; OLock 3; OUnlinkName 1 [100]] ++
  [BCommit; BCrash vroot] ++ map BOp [vfile 1 108; vdir 101; OStartRewrite 1; vdir 101; OFinishRewrite; OClean] ++ [BCommit].
Definition ones (_ : nat) (v : view) : bytes := map (fun _ => 255) (v_bytes v).
Example C75_sample :
  (dlet w := mwopen (fun _ => 7) ones vroot in dlet (xs, w) := mwrun (fun _ => 7) ones w vsample in
   Done (xs, map fst (all_of (b_inodes (mw_comm w))))) =
  Done ([Ok 2; Ok 3; Ok 4; Ok 5; Ok 0; Ok 3; Ok 6; Ok 0; Ok 0; Ok 0; Ok 0; Ok 0; Ok 7; Ok 8; Ok 0; Ok 8; Ok 0; Ok 0; Ok 0], map le64 [1; 8]).
Proof. vm_compute. reflexivity. Qed.
(** a root inode with one byte too many: setting a flag succeeds and loses the inode *)
Definition vlong : mtx := MTx (BTx (bset_inodes {[ le64 1 := ser (fun _ => 7) (mkinode (set_mode S_IFDIR vroot) 0) ++ [0] ]} bdb_empty) ∅ [] None) 0.
Theorem C75_refuted_long : exists t' : mtx, b_getattr (bt_db (mt_tx vlong)) 1 = Done (Ok (set_mode S_IFDIR vroot)) /\
  mstep (fun _ => 7) ones vlong (OFlags 1 [0] []) = Done (Ok 0, t') /\ b_getattr (bt_db (mt_tx t')) 1 = Done (Err ENOENT).
Proof. eexists. split; [vm_compute; reflexivity|]. split; [vm_compute; reflexivity|]. vm_compute. reflexivity. Qed.
Print Assumptions C75_step.
Print Assumptions C75_sized.
Print Assumptions C75_history.
Print Assumptions C75_any_memory.
Print Assumptions C75_long_flags.
Print Assumptions C75_long_writelink.
Print Assumptions C75_long_emplace.
Print Assumptions C75_long_lost.
Print Assumptions C75_refuted_long.
