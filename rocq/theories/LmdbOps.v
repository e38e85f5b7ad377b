(** Every operation on the tables of bytes agrees with the one on the decoded tables. *)
From Verif Require Export LmdbRel CacheWorld.

Inductive osim {A B} (R : A -> B -> Prop) : outcome A -> outcome B -> Prop :=
| osim_done a b : R a b -> osim R (Done a) (Done b)
| osim_throw : osim R Throw Throw
| osim_crash : osim R Crash Crash
| osim_diverge : osim R Diverge Diverge.
Lemma osim_bind {A B A' B'} (R : A -> B -> Prop) (S : A' -> B' -> Prop) x y f g :
  osim R x y -> (forall a b, R a b -> osim S (f a) (g b)) -> osim S (obind x f) (obind y g).
Proof. intros [a b H| | |] Hf; cbn [obind]; auto; constructor. Qed.
Lemma osim_mono {A B} (R S : A -> B -> Prop) x y : (forall a b, R a b -> S a b) -> osim R x y -> osim S x y.
Proof. intros H [a b Hr| | |]; constructor; auto. Qed.

(** arguments in the ranges of their C++ types *)
Definition op_ok (o : op) : Prop :=
  match o with
  | OEmplace p _ a => u64 p /\ attrs_ok a
  | OUnlinkIno x => u64 x
  | OUnlinkChild _ x => u64 x
  | OUnlinkName p _ => u64 p
  | OWritelink x d => u64 x /\ Z.of_nat (length d) < 2 ^ 64
  | OFlags x _ _ => u64 x
  | OStartRewrite x => u64 x
  | _ => True
  end.
(** [step] with the inode number emplace returns; 0 stands for no value *)
Definition step_val (t : tx) (o : op) : outcome (res Z * tx) :=
  match o with
  | OEmplace p n a => emplace t p n a
  | _ => no_value (step t o)
  end.
Lemma step_val_step t o : step t o = drop_val (step_val t o).
Proof.
  destruct o; cbn [step_val]; try reflexivity; unfold no_value, drop_val; destruct (step t _) as [[[u|e] t']| | |]; cbn; try reflexivity; destruct u; reflexivity.
Qed.

Local Arguments le64 : simpl never.
Local Arguments w64 : simpl never.
Local Arguments NEXT_INO : simpl never.
Local Arguments singletonM : simpl never.
Local Arguments insert : simpl never.
Section ops.
Context (pad : inode -> Z).
Lemma V_ser i : inode_ok i -> V_inode i (ser pad i).
Proof. intros Hi. split; [exact Hi|]. eexists. reflexivity. Qed.
Definition R1 (x : res unit * bdb) (y : res unit * db) : Prop := x.1 = y.1 /\ Rep x.2 y.2.
Lemma u64_0 : u64 0. Proof. split; [lia|reflexivity]. Qed.

Lemma s_make_orphan b d x : Rep b d -> u64 x -> osim R1 (b_make_orphan pad b x) (Done (make_orphan d x)).
Proof.
  intros HR Hx. unfold b_make_orphan, make_orphan. destruct (r_parent b d HR x Hx) as [-> Hp]. cbn [obind].
  destruct (parent_of d x) as [p|e]; [|constructor; split; [reflexivity|exact HR]]. specialize (Hp p eq_refl).
  destruct (p =? INVALID_INO); [constructor; split; [reflexivity|exact HR]|].
  pose proof (rl_treei b d HR p x Hp Hx) as Hi. destruct (d_treei d !! (p, x)) as [e|]; [|rewrite Hi; constructor; split; [reflexivity|exact HR]].
  destruct Hi as (Hde & v & -> & ->). cbn [b_inodes bset_orphans bset_treen bset_treei d_inodes set_orphans set_treen set_treei].
  assert (HR' : Rep (bset_orphans (<[le64 x := [0]]> (b_orphans b)) (bset_treen (delete (le64 p ++ de_name e) (b_treen b)) (bset_treei (delete (le64 p ++ le64 x) (b_treei b)) b)))
    (set_orphans (d_orphans d ∪ {[x]}) (set_treen (delete (p, de_name e) (d_treen d)) (set_treei (delete (p, x) (d_treei d)) d)))).
  { split; cbn; try apply HR.
    - apply (tab_delete _ _ _ enc_ii_inj' _ _ (p, x) (rep_treei _ _ HR)). split; assumption.
    - apply (tab_delete _ _ _ enc_in_inj' _ _ (p, de_name e) (rep_treen _ _ HR)). exact Hp.
    - unfold T_orphans. rewrite (union_comm_L (d_orphans d)), gset_to_gmap_union_singleton. apply (tab_insert _ _ _ le64_inj'); [exact (rep_orphans _ _ HR)|exact Hx|reflexivity]. }
  pose proof (rl_inode b d HR x Hx) as Hn. destruct (d_inodes d !! x) as [i|] eqn:Ei.
  - destruct Hn as (Hok & v' & -> & ->). cbn [obind]. constructor. split; [reflexivity|]. destruct HR' as [H1 H2 H3 H4 H5 H6]. split; cbn [snd] in *; try assumption.
    apply (tab_insert _ _ _ le64_inj'); [exact H2|exact Hx|]. apply V_ser. destruct Hok as (Ha & Hb & Hc). split; [exact Ha|]. split; [exact u64_0|exact Hc].
  - rewrite Hn. constructor. split; [reflexivity|exact HR'].
Qed.
Lemma s_allocate b d : Rep b d -> osim (fun x y => x.1 = y.1 /\ u64 x.1 /\ Rep x.2 y.2) (b_allocate b) (allocate d).
Proof.
  intros HR. unfold b_allocate, allocate. pose proof (rep_next _ _ HR) as Hn. destruct (d_next d) as [n|] eqn:En.
  - destruct Hn as [Hn Em]. rewrite Em, lookup_singleton. cbn [obind]. unfold get_ino. rewrite le64_length. cbn [Nat.eqb obind]. rewrite (unle_le64 n Hn).
    constructor. split; [reflexivity|]. split; [exact Hn|]. destruct HR as [H1 H2 H3 H4 H5 H6]. split; cbn; try assumption.
    split; [apply w64_u64|]. apply insert_singleton.
  - rewrite Hn, lookup_empty. constructor.
Qed.
Lemma s_orphan_children fuel : forall b d o, Rep b d -> u64 o -> osim Rep (b_orphan_children pad fuel b o) (orphan_children fuel d o).
Proof.
  induction fuel as [|fuel IH]; intros b d o HR Ho; [constructor|]. cbn [b_orphan_children orphan_children]. unfold lower_bound.
  pose proof (tab_from _ _ _ enc_ii_inj' _ _ (le64 o) (rep_treei _ _ HR)) as HF.
  destruct HF as [|[[q c] e] [k v] l l' Hs HF]; [constructor; exact HR|]. cbn [head]. destruct Hs as (Hm & Ek & HV). cbn [fst snd] in *.
  destruct (tab_ok _ _ _ _ _ (rep_treei _ _ HR) _ _ Hm) as [Hq Hc]. cbn [fst snd] in Hq, Hc. subst k. unfold enc_ii. cbn [fst snd]. rewrite take8, unle_le64 by assumption.
  destruct (q =? o); cbn [negb]; [|constructor; exact HR]. rewrite (V_dirent_parse _ _ HV).
  change (orphan_children fuel (make_orphan d (de_ino e)).2 o) with (obind (Done (make_orphan d (de_ino e))) (fun x => orphan_children fuel x.2 o)).
  eapply osim_bind; [apply s_make_orphan; [exact HR|apply HV]|]. intros [x1 b1] [x2 d2] [_ Hr]. apply IH; [exact Hr|exact Ho].
Qed.
Lemma s_reap b d o : Rep b d -> u64 o -> osim Rep (b_reap pad b o) (reap d o).
Proof.
  intros HR Ho. unfold b_reap, reap. eapply (osim_bind Rep).
  - pose proof (rl_inode b d HR o Ho) as Hn. destruct (d_inodes d !! o) as [i|] eqn:Ei; [|rewrite Hn; constructor; exact HR].
    destruct Hn as (Hok & v & -> & ->). cbn [obind]. eapply (osim_bind Rep).
    + destruct (_ =? S_IFLNK); [constructor|]; [|destruct (_ =? S_IFDIR); [|constructor; exact HR]].
      * destruct HR as [H1 H2 H3 H4 H5 H6]. split; cbn; try assumption. apply (tab_delete _ _ _ le64_inj'); assumption.
      * rewrite (tab_size _ _ _ enc_ii_inj' _ _ (rep_treei _ _ HR)). apply s_orphan_children; assumption.
    + intros b1 d1 HR1. constructor. destruct HR1 as [H1 H2 H3 H4 H5 H6]. split; cbn; try assumption. apply (tab_delete _ _ _ le64_inj'); assumption.
  - intros b1 d1 HR1. constructor. destruct HR1 as [H1 H2 H3 H4 H5 H6]. split; cbn; try assumption. unfold T_orphans. rewrite gset_to_gmap_difference_singleton. apply (tab_delete _ _ _ le64_inj'); assumption.
Qed.
Lemma doom_err r x : (exists e r', doom r x = (Err e, r')) <-> 0 < refcount r x.
Proof.
  unfold doom, refcount. destruct (r !! x) as [[n dm]|]; [|split; [intros (? & ? & ?); discriminate|lia]]. destruct (0 <? n) eqn:E.
  - apply Z.ltb_lt in E. split; eauto.
  - apply Z.ltb_ge in E. split; [intros (? & ? & ?); discriminate|lia].
Qed.
Lemma s_victim r (m : gmap Z unit) l l' : (forall x a, m !! x = Some a -> u64 x) -> Forall2 (same le64 V_one m) l l' ->
  b_victim r l' = Done (match head (filter (fun o => bool_decide (refcount r o <= 0)) l.*1) with None => None | Some o => Some (o, (doom r o).2) end) /\
  (forall o, head (filter (fun o => bool_decide (refcount r o <= 0)) l.*1) = Some o -> u64 o).
Proof.
  intros Hok. induction 1 as [|[x u] [k v] l l' Hs HF IH]; [split; [reflexivity|discriminate]|]. destruct Hs as (Hm & Ek & _). cbn [fst snd] in *. subst k.
  specialize (Hok _ _ Hm) as Hx. cbn [b_victim]. unfold get_ino. rewrite le64_length, (unle_le64 x Hx). cbn [Nat.eqb obind]. rewrite fmap_cons. cbn [fst]. rewrite filter_cons.
  destruct (doom r x) as [[u'|e] r'] eqn:Ed.
  - rewrite decide_True. 2: { apply bool_decide_pack. destruct (decide (0 < refcount r x)) as [H|H]; [|lia]. apply doom_err in H as (? & ? & H). congruence. }
    cbn [head]. rewrite Ed. split; [reflexivity|]. intros o E. injection E as <-. exact Hx.
  - rewrite decide_False; [exact IH|]. intros Hb. apply bool_decide_unpack in Hb. assert (H : 0 < refcount r x) by (apply doom_err; eauto). lia.
Qed.
Definition RD (x : bdb * refs) (y : db * refs) : Prop := Rep x.1 y.1 /\ x.2 = y.2.
Lemma s_clean_loop fuel : forall b d r, Rep b d -> osim RD (b_clean_loop pad fuel b r) (clean_loop fuel d r).
Proof.
  induction fuel as [|fuel IH]; intros b d r HR; [constructor|]. cbn [b_clean_loop clean_loop].
  destruct (s_victim r (gset_to_gmap () (d_orphans d)) (entries le64 (gset_to_gmap () (d_orphans d))) (all_of (b_orphans b))) as [-> Hu].
  { intros x a Ha. exact (tab_ok _ _ _ _ _ (rep_orphans _ _ HR) _ _ Ha). }
  { apply (tab_entries _ _ _ le64_inj' _ _ (rep_orphans _ _ HR)). }
  cbn [obind]. unfold next_victim, orphan_list. destruct (head _) as [o|] eqn:Eh; [|constructor; split; [exact HR|reflexivity]].
  eapply osim_bind; [apply s_reap; [exact HR|exact (Hu o eq_refl)]|]. intros b1 d1 HR1. apply IH, HR1.
Qed.
Lemma s_clean b d r : Rep b d -> osim RD (b_clean_orphans pad b r) (clean_orphans d r).
Proof.
  intros HR. unfold b_clean_orphans, clean_orphans, clean_fuel. rewrite (tab_size _ _ _ le64_inj' _ _ (rep_inodes _ _ HR)), (tab_size _ _ _ le64_inj' _ _ (rep_orphans _ _ HR)).
  replace (size (gset_to_gmap () (d_orphans d))) with (size (d_orphans d)); [apply s_clean_loop, HR|]. rewrite <- size_dom, dom_gset_to_gmap. reflexivity.
Qed.
Record RT (bt : btx) (t : tx) : Prop := {
  rt_db : Rep (bt_db bt) (t_db t); rt_refs : bt_refs bt = t_refs t; rt_hooks : bt_hooks bt = t_hooks t; rt_rw : bt_rw bt = t_rw t;
  rt_set : forall s x, t_rw t = Some s -> x ∈ s -> u64 x }.
Definition RV {A} (x : res A * btx) (y : res A * tx) : Prop := x.1 = y.1 /\ RT x.2 y.2.
Lemma RT_db bt t b d : RT bt t -> Rep b d -> RT (bwith_db b bt) (with_db d t).
Proof. intros [H1 H2 H3 H4 H5] H. split; cbn; assumption. Qed.
Lemma s_tx_clean bt t : RT bt t -> osim RT (b_tx_clean pad bt) (tx_clean t).
Proof.
  intros HT. unfold b_tx_clean, tx_clean. rewrite (rt_refs _ _ HT). eapply osim_bind; [apply s_clean, (rt_db _ _ HT)|]. intros [b r] [d r'] [HR Er]. cbn [fst snd] in *. subst r'. constructor.
  destruct HT as [H1 H2 H3 H4 H5]. split; cbn; try assumption. reflexivity.
Qed.
Lemma s_emplace bt t p n a : RT bt t -> u64 p -> attrs_ok a -> osim RV (b_emplace pad bt p n a) (emplace t p n a).
Proof.
  intros HT Hp Ha. unfold b_emplace, emplace. destruct (check_name n true); [|constructor; split; [reflexivity|exact HT]].
  assert (Hi : inode_ok (mkinode a p)) by (split; [cbn; lia|split; assumption]).
  assert (Hfresh : forall b d, Rep b d -> osim RV
    (dlet (ino, b) := b_allocate b in
      let b := bset_inodes (<[le64 ino := ser pad (mkinode a p)]> (b_inodes b)) b in
      let v := ser_dirent 0 (Dirent 0 0 ino n) in
      let b := bset_treen (<[le64 p ++ n := v]> (b_treen b)) b in
      let b := bset_treei (<[le64 p ++ le64 ino := v]> (b_treei b)) b in
      dlet t := b_tx_clean pad (bwith_db b bt) in Done (Ok ino, t))
    (dlet (ino, d) := allocate d in
      let d := set_inodes (<[ino := mkinode a p]> (d_inodes d)) d in
      let d := set_treen (<[(p, n) := Dirent 0 0 ino n]> (d_treen d)) d in
      let d := set_treei (<[(p, ino) := Dirent 0 0 ino n]> (d_treei d)) d in
      dlet t := tx_clean (with_db d t) in Done (Ok ino, t))).
  { intros b d HR. eapply osim_bind; [apply s_allocate, HR|]. intros [x b1] [x' d1] (E & Hx & HR1). cbn [fst snd] in E, Hx, HR1. subst x'. cbn zeta.
    assert (HVd : V_dirent (Dirent 0 0 x n) (ser_dirent 0 (Dirent 0 0 x n))) by (split; [split; [cbn; lia|split; [cbn; lia|exact Hx]]|reflexivity]).
    eapply osim_bind.
    - apply s_tx_clean. apply RT_db; [exact HT|]. destruct HR1 as [H1 H2 H3 H4 H5 H6]. split; cbn; try assumption.
      + apply (tab_insert _ _ _ le64_inj'); [exact H2|exact Hx|apply V_ser, Hi].
      + apply (tab_insert _ _ _ enc_ii_inj' _ _ (p, x)); [exact H3|split; assumption|exact HVd].
      + apply (tab_insert _ _ _ enc_in_inj' _ _ (p, n)); [exact H4|exact Hp|exact HVd].
    - intros t1 t2 HT1. constructor. split; [reflexivity|exact HT1]. }
  pose proof (rl_treen _ _ (rt_db _ _ HT) p n Hp) as Hn. destruct (d_treen (t_db t) !! (p, n)) as [e|]; [|rewrite Hn; apply Hfresh, (rt_db _ _ HT)].
  destruct Hn as (He & v & -> & ->). assert (Hold : u64 (de_ino e)) by apply He.
  pose proof (rl_inode _ _ (rt_db _ _ HT) (de_ino e) Hold) as Hn. destruct (d_inodes (t_db t) !! de_ino e) as [oi|]; [|rewrite Hn; constructor].
  destruct Hn as (Hok & v' & -> & ->). cbn [obind]. destruct (_ =? _).
  - constructor. split; [reflexivity|]. destruct HT as [HR H2 H3 H4 H5]. split; cbn; try assumption.
    + destruct HR as [G1 G2 G3 G4 G5 G6]. split; cbn; try assumption. apply (tab_insert _ _ _ le64_inj'); [exact G2|exact Hold|apply V_ser, Hi].
    + rewrite H4. reflexivity.
    + intros s x Es Hx. destruct (t_rw t) as [s0|]; [|discriminate]. injection Es as <-. apply (H5 s0); [reflexivity|set_solver].
  - pose proof (s_make_orphan _ _ (de_ino e) (rt_db _ _ HT) Hold) as Hm.
    match goal with |- osim _ _ ?y => change y with (obind (Done (make_orphan (t_db t) (de_ino e))) (fun z => dlet (ino, d) := allocate z.2 in
      let d := set_inodes (<[ino := mkinode a p]> (d_inodes d)) d in
      let d := set_treen (<[(p, n) := Dirent 0 0 ino n]> (d_treen d)) d in
      let d := set_treei (<[(p, ino) := Dirent 0 0 ino n]> (d_treei d)) d in
      dlet t := tx_clean (with_db d t) in Done (Ok ino, t))) end.
    eapply osim_bind; [exact Hm|]. intros [x1 b1] [x2 d2] [_ HR1]. apply Hfresh. exact HR1.
Qed.
Lemma s_unlink_ino bt t x : RT bt t -> u64 x -> osim RV (b_unlink_ino pad bt x) (unlink_ino t x).
Proof.
  intros HT Hx. unfold b_unlink_ino, unlink_ino. pose proof (s_make_orphan _ _ x (rt_db _ _ HT) Hx) as Hm. destruct (make_orphan (t_db t) x) as [r d]. 
  inversion Hm as [[r' b] y [E HR] Eb Ey| | |]; subst. cbn [fst snd] in *. subst r'. cbn [obind]. destruct r as [u|e].
  - eapply osim_bind; [apply s_tx_clean, RT_db; eassumption|]. intros t1 t2 HT1. constructor. split; [reflexivity|exact HT1].
  - constructor. split; [reflexivity|]. apply RT_db; assumption.
Qed.
Lemma s_unlink_name bt t p n : RT bt t -> u64 p -> osim RV (b_unlink_name pad bt p n) (unlink_name t p n).
Proof.
  intros HT Hp. unfold b_unlink_name, unlink_name. pose proof (rl_treen _ _ (rt_db _ _ HT) p n Hp) as Hn. destruct (d_treen (t_db t) !! (p, n)) as [e|].
  - destruct Hn as (He & v & -> & ->). apply s_unlink_ino; [exact HT|apply He].
  - rewrite Hn. constructor. split; [reflexivity|exact HT].
Qed.
Lemma s_writelink bt t x dst : RT bt t -> u64 x -> Z.of_nat (length dst) < 2 ^ 64 -> osim RV (b_writelink pad bt x dst) (writelink t x dst).
Proof.
  intros HT Hx Hl. unfold b_writelink, writelink. pose proof (rl_inode _ _ (rt_db _ _ HT) x Hx) as Hn. destruct (d_inodes (t_db t) !! x) as [i|]; [|rewrite Hn; constructor; split; [reflexivity|exact HT]].
  destruct Hn as (Hok & v & -> & ->). cbn [obind]. destruct (negb _); [constructor; split; [reflexivity|exact HT]|]. constructor. split; [reflexivity|]. apply RT_db; [exact HT|].
  destruct (rt_db _ _ HT) as [G1 G2 G3 G4 G5 G6]. split; cbn; try assumption.
  - apply (tab_insert _ _ _ le64_inj'); [exact G2|exact Hx|]. apply V_ser. destruct Hok as (H1 & H2 & H3 & H4). split; [exact H1|]. split; [exact H2|]. split; [split; cbn; lia|exact H4].
  - apply (tab_insert _ _ _ le64_inj'); [exact G6|exact Hx|reflexivity].
Qed.
Lemma flags_range l c f : 0 <= f < 2 ^ 16 -> 0 <= fold_left flag_clear c (fold_left flag_set l f) < 2 ^ 16.
Proof.
  intros Hf. assert (H1 : forall l f, 0 <= f < 2 ^ 16 -> 0 <= fold_left flag_set l f < 2 ^ 16).
  { clear. induction l as [|a l IH]; intros f Hf; cbn [fold_left]; [exact Hf|]. apply IH. unfold flag_set, w16. apply Z.mod_pos_bound. reflexivity. }
  assert (H2 : forall l f, 0 <= f < 2 ^ 16 -> 0 <= fold_left flag_clear l f < 2 ^ 16).
  { clear. induction l as [|a l IH]; intros f Hf; cbn [fold_left]; [exact Hf|]. apply IH. unfold flag_clear, w16. apply Z.mod_pos_bound. reflexivity. }
  auto.
Qed.
Lemma s_flags bt t x l c : RT bt t -> u64 x -> osim RV (b_update_flags pad bt x l c) (update_flags t x l c).
Proof.
  intros HT Hx. unfold b_update_flags, update_flags. pose proof (rl_inode _ _ (rt_db _ _ HT) x Hx) as Hn. destruct (d_inodes (t_db t) !! x) as [i|]; [|rewrite Hn; constructor; split; [reflexivity|exact HT]].
  destruct Hn as (Hok & v & -> & ->). cbn [obind]. constructor. split; [reflexivity|]. apply RT_db; [exact HT|].
  destruct (rt_db _ _ HT) as [G1 G2 G3 G4 G5 G6]. split; cbn; try assumption.
  apply (tab_insert _ _ _ le64_inj'); [exact G2|exact Hx|]. apply V_ser. destruct Hok as (H1 & H2 & H3). split; [apply flags_range, H1|]. split; assumption.
Qed.
Lemma s_rewrite_scan d dir l l' : (forall k a, d !! k = Some a -> ok_ii k) -> Forall2 (same enc_ii V_dirent d) l l' ->
  b_rewrite_scan dir l' = Done (rewrite_scan dir l) /\ forall x, x ∈ rewrite_scan dir l -> u64 x.
Proof.
  intros Hok. induction 1 as [|[[q c] e] [k v] l l' Hs HF [IH IH']]; [split; [reflexivity|cbn; set_solver]|]. destruct Hs as (Hm & Ek & HV). cbn [fst snd] in *.
  destruct (Hok _ _ Hm) as [Hq Hc]. cbn [fst snd] in Hq, Hc. subst k. cbn [b_rewrite_scan rewrite_scan]. unfold enc_ii. cbn [fst snd]. rewrite app_length, !le64_length, take8, drop8, !unle_le64 by assumption. cbn [Nat.add Nat.eqb negb].
  destruct (q =? dir); [|split; [reflexivity|set_solver]]. rewrite IH. cbn [obind]. split; [reflexivity|]. intros x Hx. apply elem_of_union in Hx as [Hx|Hx]; [apply elem_of_singleton in Hx as ->; exact Hc|auto].
Qed.
Lemma s_start bt t x : RT bt t -> u64 x -> osim RV (b_start_dir_rewrite bt x) (start_dir_rewrite t x).
Proof.
  intros HT Hx. unfold b_start_dir_rewrite, start_dir_rewrite. rewrite (rt_rw _ _ HT). destruct (t_rw t) as [s|] eqn:Er; [constructor; split; [reflexivity|exact HT]|].
  pose proof (tab_from _ _ _ enc_ii_inj' _ _ (le64 x) (rep_treei _ _ (rt_db _ _ HT))) as HF.
  destruct (s_rewrite_scan (d_treei (t_db t)) x _ _ (tab_ok _ _ _ _ _ (rep_treei _ _ (rt_db _ _ HT))) HF) as [Es Hs].
  destruct HF as [|y z l l' Hyz HF]; [constructor; split; [reflexivity|exact HT]|]. rewrite Es. cbn [obind]. constructor. split; [reflexivity|].
  destruct HT as [H1 H2 H3 H4 H5]. split; cbn [bt_db bt_refs bt_hooks bt_rw t_db t_refs t_hooks t_rw snd]; try assumption; [reflexivity|]. intros s0 y0 E Hy. injection E as <-. auto.
Qed.
Lemma s_orphan_all l : forall b d, Rep b d -> Forall u64 l -> osim Rep (b_orphan_all pad b l) (Done (fold_left (fun d ino => (make_orphan d ino).2) l d)).
Proof.
  induction l as [|x l IH]; intros b d HR Hl; [constructor; exact HR|]. apply Forall_cons in Hl as [Hx Hl]. cbn [b_orphan_all fold_left].
  pose proof (s_make_orphan b d x HR Hx) as Hm. destruct (make_orphan d x) as [r d1]. inversion Hm as [[r' b1] y [E HR1] Eb Ey| | |]; subst. cbn [fst snd] in *. cbn [obind]. apply IH; assumption.
Qed.
Lemma s_finish bt t : RT bt t -> osim RV (b_finish_dir_rewrite pad bt) (finish_dir_rewrite t).
Proof.
  intros HT. unfold b_finish_dir_rewrite, finish_dir_rewrite. rewrite (rt_rw _ _ HT). destruct (t_rw t) as [s|] eqn:Er; [|constructor; split; [reflexivity|exact HT]].
  assert (Hl : Forall u64 (merge_sort Z.le (elements s))).
  { apply Forall_forall. intros x Hx. rewrite merge_sort_Permutation in Hx. apply elem_of_elements in Hx. exact (rt_set _ _ HT s x Er Hx). }
  pose proof (s_orphan_all _ _ _ (rt_db _ _ HT) Hl) as Ho. cbn zeta. remember (fold_left _ _ _) as d1. inversion Ho as [b y HR Eb Ey| | |]; subst y. cbn [obind]. constructor. split; [reflexivity|].
  destruct HT as [H1 H2 H3 H4 H5]. split; cbn; try assumption; [reflexivity|discriminate].
Qed.
Lemma s_no_value x y : osim RV x y -> osim RV (no_value x) (no_value y).
Proof.
  intros H. unfold no_value. eapply osim_bind; [exact H|]. intros [r t] [r' t'] [E HT]. cbn [fst] in E. subst r'. constructor. split; [reflexivity|exact HT].
Qed.
(** every operation *)
Theorem s_step bt t o : RT bt t -> op_ok o -> osim RV (bstep pad bt o) (step_val t o).
Proof.
  intros HT Ho. destruct o; cbn [bstep step_val step op_ok] in *.
  - apply s_emplace; tauto.
  - apply s_no_value, s_unlink_ino; assumption.
  - apply s_no_value, s_unlink_ino; assumption.
  - apply s_no_value, s_unlink_name; assumption.
  - change (no_value (dlet t0 := tx_clean t in Done (Ok tt, t0))) with (obind (obind (tx_clean t) (fun t0 => Done (Ok tt, t0))) (fun '(r, t1) => Done (match r with Ok _ => Ok 0 | Err e => Err e end, t1))).
    pose proof (s_tx_clean bt t HT) as Hc. destruct Hc as [t1 t2 H1| | |]; cbn [obind]; constructor. split; [reflexivity|exact H1].
  - apply s_no_value, s_writelink; tauto.
  - apply s_no_value, s_flags; assumption.
  - apply s_no_value, s_start; assumption.
  - apply s_no_value, s_finish; assumption.
  - apply s_no_value. unfold b_lock, lock. rewrite (rt_refs _ _ HT). destruct (incref (t_refs t) ino 1) as [[u|e] r]; constructor; (split; [reflexivity|]); destruct HT as [H1 H2 H3 H4 H5]; (split; cbn; try assumption; try reflexivity). rewrite H3. reflexivity.
  - apply s_no_value. unfold b_release, release. destruct (n =? 0); [constructor; split; [reflexivity|exact HT]|]. rewrite (rt_refs _ _ HT). destruct (decref (t_refs t) ino n) as [[[u|e] r]| | |]; cbn [obind]; try constructor.
    split; [reflexivity|]. destruct HT as [H1 H2 H3 H4 H5]. split; cbn; try assumption; [reflexivity|]. rewrite H3. reflexivity.
Qed.
End ops.
