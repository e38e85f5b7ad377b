(** Property theorems C20-C25 (links, flags, paths, names, reference counts, abort). *)
From Verif Require Import CacheApi PropsCache.

(** concrete histories *)
Definition runs_to (l : list ev) (w : world) : Prop :=
  match wopen (A 0) with Done w0 => legal_runb w0 l = true /\ wrun w0 l = Done w | _ => False end.
Lemma runs_reachable l w : runs_to l w -> reachable w.
Proof.
  unfold runs_to. destruct (wopen (A 0)) as [w0| | |] eqn:E0; try contradiction. intros [Hl Hr].
  exists (A 0), w0, l. split_and!; auto. apply legal_runb_ok. assumption.
Qed.
Definition world_after (l : list ev) : world :=
  match run_sample l with Done w => w | _ => sample_world end.
Lemma world_after_reachable l :
  match wopen (A 0) with Done w0 => legal_runb w0 l && match wrun w0 l with Done _ => true | _ => false end | _ => false end = true ->
  reachable (world_after l).
Proof.
  unfold world_after, run_sample. intros H. destruct (wopen (A 0)) as [w0| | |] eqn:E0; try discriminate. cbn [obind].
  apply andb_prop in H as [H1 H2]. destruct (wrun w0 l) as [w| | |] eqn:E; try discriminate.
  exists (A 0), w0, l. split_and!; auto. apply legal_runb_ok. assumption.
Qed.

(** ** C20: link targets *)
(** one call, every case *)
Theorem C20_writelink : forall w x b, reachable w ->
  let t := w_tx w in let d := t_db t in
  (~ has_inode d x -> writelink t x b = Done (Err ENOENT, t)) /\
  (forall a, getattr d x = Ok a -> ftype (a_mode a) <> S_IFLNK -> writelink t x b = Done (Err EINVAL, t)) /\
  (forall a, getattr d x = Ok a -> ftype (a_mode a) = S_IFLNK -> exists t',
     writelink t x b = Done (Ok tt, t') /\
     readlink (t_db t') x = Ok b /\
     getattr (t_db t') x = Ok (set_size (Z.of_nat (length b)) a) /\
     (forall y, y <> x -> same_inode d (t_db t') y) /\
     (forall y, parent_of (t_db t') y = parent_of d y) /\
     (forall p n, lookup (t_db t') p n = lookup d p n) /\
     (forall f, test_flag (t_db t') x f = test_flag d x f) /\
     t_refs t' = t_refs t /\ t_hooks t' = t_hooks t).
Proof.
  intros w x b Hr t d. unfold writelink. fold d. split_and!.
  - intros Hn. destruct (d_inodes d !! x) as [i|] eqn:E; [|reflexivity]. exfalso. apply Hn. apply has_inode_iff. eauto.
  - intros a Ha Ht. apply getattr_Ok in Ha as (i & Hi & <-). rewrite Hi. rewrite (proj2 (Z.eqb_neq _ _) Ht). reflexivity.
  - intros a Ha Ht. apply getattr_Ok in Ha as (i & Hi & <-). rewrite Hi. rewrite (proj2 (Z.eqb_eq _ _) Ht). cbn [negb].
    eexists. split; [reflexivity|]. cbn. split_and!; auto.
    + unfold readlink. cbn. rewrite lookup_insert. reflexivity.
    + unfold getattr. cbn. rewrite lookup_insert. reflexivity.
    + intros y Hy. unfold same_inode, getattr, readlink, test_flag. cbn. rewrite !lookup_insert_ne by congruence. auto.
    + intros y. unfold parent_of. destruct (y =? ROOT_INO); [reflexivity|]. cbn.
      destruct (decide (y = x)) as [->|Hne]; [rewrite lookup_insert, Hi; reflexivity|rewrite lookup_insert_ne by congruence; reflexivity].
    + intros f. unfold test_flag. cbn. rewrite lookup_insert, Hi. reflexivity.
Qed.
Print Assumptions C20_writelink.

(** readlink on things that are not links or do not exist *)
Theorem C20_readlink_kinds : forall w d x, reachable w -> view w d ->
  (~ has_inode d x -> readlink d x = Err ENOENT) /\
  (forall a, getattr d x = Ok a -> ftype (a_mode a) <> S_IFLNK -> readlink d x = Err EINVAL) /\
  (forall a, getattr d x = Ok a -> ftype (a_mode a) = S_IFLNK -> (exists b, readlink d x = Ok b) \/ readlink d x = Err EINVAL).
Proof.
  intros w d x Hr Hv. pose proof (view_inv _ _ Hr Hv) as H. unfold readlink. split_and!.
  - intros Hn. destruct (d_links d !! x) as [b|] eqn:El.
    + exfalso. apply Hn. apply has_inode_iff. eapply links_ino; eassumption.
    + destruct (d_inodes d !! x) as [i|] eqn:E; [|reflexivity]. exfalso. apply Hn. apply has_inode_iff. eauto.
  - intros a Ha Ht. apply getattr_Ok in Ha as (i & Hi & <-). destruct (d_links d !! x) as [b|] eqn:El.
    + exfalso. destruct (inv_links _ H _ _ El) as (j & Hj & Hl). congruence.
    + rewrite Hi. reflexivity.
  - intros a Ha Ht. apply getattr_Ok in Ha as (i & Hi & <-). destruct (d_links d !! x) as [b|]; [eauto|]. rewrite Hi. auto.
Qed.
Print Assumptions C20_readlink_kinds.

Definition ops_only (l : list ev) : Prop := Forall (fun e => match e with EOp _ => True | _ => False end) l.
Definition no_writelink (x : Z) (l : list ev) : Prop :=
  Forall (fun e => match e with EOp (OWritelink y _) => y <> x | _ => True end) l.

Lemma wrun_app w l1 l2 : wrun w (l1 ++ l2) = (dlet w1 := wrun w l1 in wrun w1 l2).
Proof. revert w. induction l1 as [|e l1 IH]; intros w; [reflexivity|]. cbn. destruct (wstep w e); cbn; auto. Qed.
Lemma legal_run_app l1 : forall w l2, legal_run w (l1 ++ l2) -> legal_run w l1 /\ forall w1, wrun w l1 = Done w1 -> legal_run w1 l2.
Proof.
  induction l1 as [|e l1 IH]; intros w l2 H.
  - split; [exact I|]. intros w1 E. injection E as <-. assumption.
  - destruct H as [H1 H2]. split.
    + split; [assumption|]. intros w' E. apply (IH w' l2). auto.
    + intros w1 E. cbn in E. destruct (wstep w e) as [w'| | |] eqn:E1; try discriminate. cbn in E. eapply (IH w' l2); auto.
Qed.
Lemma reachable_run w l w' : reachable w -> legal_run w l -> wrun w l = Done w' -> reachable w'.
Proof.
  intros (root & w0 & l0 & E0 & Hl0 & Er0) Hl Er. exists root, w0, (l0 ++ l). split; [assumption|]. split.
  - clear E0. revert w0 Hl0 Er0. induction l0 as [|e l0 IH]; intros w0 Hl0 Er0.
    + injection Er0 as ->. assumption.
    + destruct Hl0 as [H1 H2]. split; [assumption|]. intros w1 E1. cbn in Er0. rewrite E1 in Er0. cbn in Er0. auto.
  - rewrite wrun_app, Er0. cbn. assumption.
Qed.

Lemma ops_link x b l : forall w w', WInv w -> legal_run w l -> wrun w l = Done w' -> ops_only l -> no_writelink x l ->
  link_or_gone x b (t_db (w_tx w)) -> link_or_gone x b (t_db (w_tx w')).
Proof.
  induction l as [|e l IH]; intros w w' HW Hleg E Ho Hn H.
  - injection E as <-. assumption.
  - cbn in E. destruct (wstep w e) as [w1| | |] eqn:E1; try discriminate. cbn in E. destruct Hleg as [Hl1 Hl2].
    inversion Ho as [|? ? Ho1 Ho2]; subst. inversion Hn as [|? ? Hn1 Hn2]; subst.
    pose proof (wstep_inv _ _ _ HW Hl1 E1) as HW1. apply (IH w1 w' HW1 (Hl2 _ E1) E Ho2 Hn2).
    destruct e as [o| | |root]; try contradiction. cbn in E1.
    destruct (step (w_tx w) o) as [[res t']| | |] eqn:Es; try discriminate. injection E1 as <-. cbn.
    eapply step_link; [apply (winv_tx _ HW)|exact Hl1|exact Es| |assumption]. destruct o; cbn; auto.
Qed.
Lemma no_writelink_relinks x l : no_writelink x l -> Forall (fun e => match e with EOp o => ~ relinks o x | _ => True end) l.
Proof. intros H. eapply Forall_impl; [exact H|]. intros [o| | |]; auto. destruct o; cbn; auto. Qed.

(** The last successful writelink decides, until the inode is gone: inside its transaction
    ([l1]) and, once committed, for ever after ([l2]: transactions, aborts, crashes), for the
    open transaction and for the committed database.  A number that is gone stays gone. *)
Theorem C20_last_writelink_decides : forall w x b t1 l1 w2 l2 w3, reachable w ->
  writelink (w_tx w) x b = Done (Ok tt, t1) ->
  let w1 := World (w_comm w) t1 in
  legal_run w1 (l1 ++ ECommit :: l2) -> wrun w1 l1 = Done w2 -> wrun w2 (ECommit :: l2) = Done w3 ->
  ops_only l1 -> no_writelink x l1 -> no_writelink x l2 ->
  (readlink (t_db (w_tx w2)) x = Ok b \/ ~ has_inode (t_db (w_tx w2)) x) /\
  forall d, view w3 d -> readlink d x = Ok b \/ ~ has_inode d x.
Proof.
  intros w x b t1 l1 w2 l2 w3 Hr E1 w1 Hleg Hrun1 Hrun2 Ho Hn1 Hn2. pose proof (reachable_inv _ Hr) as HW.
  assert (Es : wstep w (EOp (OWritelink x b)) = Done w1) by (cbn; rewrite E1; reflexivity).
  pose proof (wstep_inv w (EOp (OWritelink x b)) w1 HW I Es) as HW1.
  assert (Hl0 : link_or_gone x b (t_db (w_tx w1))).
  { left. cbn. unfold writelink in E1. destruct (d_inodes (t_db (w_tx w)) !! x) as [i|]; [|discriminate].
    destruct (negb _); [discriminate|]. injection E1 as <-. unfold readlink. cbn. rewrite lookup_insert. reflexivity. }
  destruct (legal_run_app _ _ _ Hleg) as [Hlg1 Hlg2]. specialize (Hlg2 _ Hrun1).
  pose proof (ops_link x b l1 w1 w2 HW1 Hlg1 Hrun1 Ho Hn1 Hl0) as Hl2.
  assert (Hsimp : forall d, link_or_gone x b d -> readlink d x = Ok b \/ ~ has_inode d x) by (intros d [|[? _]]; auto).
  split; [auto|]. pose proof (wrun_inv _ _ _ HW1 Hlg1 Hrun1) as HW2.
  cbn [wrun] in Hrun2. destruct (wstep w2 ECommit) as [w2'| | |] eqn:Ec; try discriminate. cbn [obind] in Hrun2.
  destruct Hlg2 as [_ Hlg2]. specialize (Hlg2 _ Ec). pose proof (wstep_inv w2 ECommit w2' HW2 I Ec) as HW2'. cbn in Ec. injection Ec as <-.
  intros d Hv. apply Hsimp.
  destruct (wrun_link x b l2 _ w3 HW2' Hlg2 Hrun2 (no_writelink_relinks _ _ Hn2)) as [G1 G2]; [exact Hl2|exact Hl2|].
  destruct Hv as [->| ->]; assumption.
Qed.
Print Assumptions C20_last_writelink_decides.
Example C20_sample : exists t1, writelink (w_tx sample_world) 4 [1; 2] = Done (Ok tt, t1) /\
  exists w3, wrun (World (w_comm sample_world) t1) [EOp (OLock 4); ECommit; EOp (OUnlinkIno 4); ECommit; ECrash (A 0)] = Done w3 /\
    readlink (w_comm w3) 4 = Err ENOENT.
Proof. eexists. split; [vm_compute; reflexivity|]. eexists. split; [vm_compute; reflexivity|]; vm_compute; reflexivity. Qed.

(** ** C21: flags *)
Lemma land_pow2_testbit a f : 0 <= f -> negb (Z.land a (2 ^ f) =? 0) = Z.testbit a f.
Proof.
  intros Hf. destruct (Z.testbit a f) eqn:E.
  - destruct (Z.eqb_spec (Z.land a (2 ^ f)) 0) as [H|H]; [|reflexivity]. exfalso.
    assert (Z.testbit (Z.land a (2 ^ f)) f = false) by (rewrite H; apply Z.bits_0).
    rewrite Z.land_spec, E, Z.pow2_bits_true in H0 by assumption. discriminate.
  - destruct (Z.eqb_spec (Z.land a (2 ^ f)) 0) as [H|H]; [reflexivity|]. exfalso. apply H. apply Z.bits_inj'. intros k Hk.
    rewrite Z.land_spec, Z.bits_0. destruct (Z.eq_dec k f) as [->|Hne]; [rewrite E; reflexivity|].
    rewrite Z.pow2_bits_false by congruence. apply andb_false_r.
Qed.
Lemma flag_test_bit fl f : 0 <= f -> flag_test fl f = Z.testbit fl f.
Proof. intros. unfold flag_test. apply land_pow2_testbit. assumption. Qed.
Lemma w16_testbit z f : 0 <= f < 16 -> Z.testbit (w16 z) f = Z.testbit z f.
Proof. intros. unfold w16. change 65536 with (2 ^ 16). rewrite Z.mod_pow2_bits_low by lia. reflexivity. Qed.
Lemma flag_set_bit fl g f : 0 <= f < 16 -> 0 <= g < 16 -> Z.testbit (flag_set fl g) f = Z.testbit fl f || (f =? g).
Proof.
  intros Hf Hg. unfold flag_set. rewrite w16_testbit by lia. rewrite Z.lor_spec. f_equal.
  rewrite Z.pow2_bits_eqb by lia. apply Z.eqb_sym.
Qed.
Lemma flag_clear_bit fl g f : 0 <= f < 16 -> 0 <= g < 16 -> Z.testbit (flag_clear fl g) f = Z.testbit fl f && negb (f =? g).
Proof.
  intros Hf Hg. unfold flag_clear. rewrite w16_testbit by lia. rewrite Z.land_spec. f_equal.
  rewrite Z.lnot_spec by lia. rewrite w16_testbit by lia. rewrite Z.pow2_bits_eqb by lia. rewrite (Z.eqb_sym g f). reflexivity.
Qed.
Lemma fold_set_bit l : forall fl f, 0 <= f < 16 -> Forall (fun g => 0 <= g < 16) l ->
  Z.testbit (fold_left flag_set l fl) f = Z.testbit fl f || existsb (Z.eqb f) l.
Proof.
  induction l as [|g l IH]; intros fl f Hf Hl; cbn [fold_left existsb]; [rewrite orb_false_r; reflexivity|].
  inversion Hl; subst. rewrite IH by assumption. rewrite flag_set_bit by assumption. rewrite orb_assoc. reflexivity.
Qed.
Lemma fold_clear_bit l : forall fl f, 0 <= f < 16 -> Forall (fun g => 0 <= g < 16) l ->
  Z.testbit (fold_left flag_clear l fl) f = Z.testbit fl f && negb (existsb (Z.eqb f) l).
Proof.
  induction l as [|g l IH]; intros fl f Hf Hl; cbn [fold_left existsb]; [rewrite andb_true_r; reflexivity|].
  inversion Hl; subst. rewrite IH by assumption. rewrite flag_clear_bit by assumption. rewrite negb_orb, andb_assoc. reflexivity.
Qed.
Lemma existsb_elem f l : existsb (Z.eqb f) l = bool_decide (f ∈ l).
Proof.
  case_bool_decide as H.
  - apply existsb_exists. exists f. split; [apply elem_of_list_In; assumption|apply Z.eqb_refl].
  - destruct (existsb (Z.eqb f) l) eqn:E; [|reflexivity]. exfalso. apply existsb_exists in E as (g & Hg & Eg). apply Z.eqb_eq in Eg. subst.
    apply H. apply elem_of_list_In. assumption.
Qed.
Theorem C21_update_flags : forall w x to_set to_clear, reachable w ->
  let t := w_tx w in let d := t_db t in
  Forall (fun g => 0 <= g < 16) to_set -> Forall (fun g => 0 <= g < 16) to_clear ->
  (~ has_inode d x -> update_flags t x to_set to_clear = Done (Err ENOENT, t)) /\
  (has_inode d x -> exists t', update_flags t x to_set to_clear = Done (Ok tt, t') /\
     let d' := t_db t' in
     (forall f, 0 <= f < 16 -> exists old, test_flag d x f = Ok old /\
        test_flag d' x f = Ok (if decide (f ∈ to_clear) then false else if decide (f ∈ to_set) then true else old)) /\
     getattr d' x = getattr d x /\ readlink d' x = readlink d x /\
     (forall y, y <> x -> same_inode d d' y) /\
     (forall y, parent_of d' y = parent_of d y) /\ (forall p n, lookup d' p n = lookup d p n) /\
     t_refs t' = t_refs t /\ t_hooks t' = t_hooks t /\ t_rw t' = t_rw t).
Proof.
  intros w x ts tc Hr t d Hs Hc. unfold update_flags. fold d. split.
  - intros Hn. destruct (d_inodes d !! x) as [i|] eqn:E; [|reflexivity]. exfalso. apply Hn. apply has_inode_iff. eauto.
  - intros Hx. apply has_inode_iff in Hx as [i Hi]. rewrite Hi. eexists. split; [reflexivity|]. cbn. split_and!; auto.
    + intros f Hf. exists (flag_test (i_flags i) f). split; [unfold test_flag; rewrite Hi; reflexivity|].
      unfold test_flag. cbn. rewrite lookup_insert. cbn [i_flags]. f_equal. rewrite !flag_test_bit by lia.
      rewrite fold_clear_bit, fold_set_bit by assumption. rewrite !existsb_elem.
      destruct (decide (f ∈ tc)), (decide (f ∈ ts)); repeat case_bool_decide; try contradiction;
        destruct (Z.testbit (i_flags i) f); reflexivity.
    + unfold getattr. cbn. rewrite lookup_insert, Hi. reflexivity.
    + unfold readlink. cbn. rewrite lookup_insert, Hi. reflexivity.
    + intros y Hy. unfold same_inode, getattr, readlink, test_flag. cbn. rewrite !lookup_insert_ne by congruence. auto.
    + intros y. unfold parent_of. destruct (y =? ROOT_INO); [reflexivity|]. cbn.
      destruct (decide (y = x)) as [->|Hne]; [rewrite lookup_insert, Hi; reflexivity|rewrite lookup_insert_ne by congruence; reflexivity].
Qed.
Print Assumptions C21_update_flags.
(** re-emplacing a name clears all flags *)
Theorem C21_emplace_resets : forall w p n a i t' f, reachable w ->
  let t := w_tx w in let d := t_db t in
  isdir d p -> room d -> ~ reclaimable d (t_refs t) p -> emplace t p n a = Done (Ok i, t') -> 0 <= f ->
  test_flag (t_db t') i f = Ok false.
Proof.
  intros w p n a i t' f Hr t d Hd Hroom Hnr E Hf.
  destruct (emplace_api t p n a i t' (tx_inv _ Hr) (isdir_is_dir _ _ Hd) Hroom Hnr E) as (_ & _ & _ & _ & _ & _ & H & _). auto.
Qed.
Print Assumptions C21_emplace_resets.

(** ** C22: path *)
(** path() always returns: for an inode that can be reached from the root it spells the unique
    sequence of names leading to it, for every other number it fails with ENOENT. *)
Theorem C22_path : forall w d x, reachable w -> view w d ->
  (exists comps, walk d ROOT_INO comps x /\ (forall comps', walk d ROOT_INO comps' x -> comps' = comps) /\
                 path d x = Done (Ok (spell comps))) \/
  ((forall comps, ~ walk d ROOT_INO comps x) /\ path d x = Done (Err ENOENT)).
Proof.
  intros w d x Hr Hv. pose proof (view_inv _ _ Hr Hv) as H. destruct (path_spec d x H) as [(comps & Hw & E)|[Hn E]].
  - left. exists comps. split_and!; auto. intros comps' Hw'. eapply walk_unique; eassumption.
  - right. auto.
Qed.
Print Assumptions C22_path.
(** the components can be read off the string: no name contains '/' *)
Theorem C22_components : forall w d x comps, reachable w -> view w d -> walk d ROOT_INO comps x ->
  Forall (fun n => ~ 47 ∈ n) comps.
Proof.
  intros w d x comps Hr Hv. pose proof (view_inv _ _ Hr Hv) as H.
  assert (Hgen : forall comps y, u64 y -> walk d y comps x -> Forall (fun n : bytes => ~ 47 ∈ n) comps); [|apply (Hgen comps ROOT_INO); unfold u64, ROOT_INO; lia].
  clear comps. induction comps as [|n comps IH]; intros y Hy Hw; [constructor|]. destruct Hw as (z & Hl & Hw).
  apply lookup_Ok in Hl as (_ & e & He & <-); auto. destruct (treen_child _ _ _ _ H He) as (Hti & _).
  destruct (treei_facts _ _ _ _ H Hti) as (_ & _ & _ & _ & _ & _ & _ & Hu). constructor; [|eapply IH; eassumption].
  destruct (inv_treen _ H _ _ _ He) as (_ & Hval & _). unfold valid_name, check_name in Hval.
  destruct (_ <? _); [discriminate|]. cbn [negb] in Hval. destruct (existsb _ n) eqn:Ex; [discriminate|].
  intros Hin. apply elem_of_list_In in Hin. apply not_true_iff_false in Ex. apply Ex. apply existsb_exists. exists 47. auto.
Qed.
Print Assumptions C22_components.
(** emplace does not check that the parent exists: with the next inode number as parent it
    creates an inode that is its own parent, and path() of it never returns. *)
Theorem C22_unchecked_parent_refuted : exists w i t', reachable w /\
  emplace (w_tx w) i (nm 97) regA = Done (Ok i, t') /\ forall fuel buf, path_loop fuel (t_db t') i buf = Diverge.
Proof.
  exists (world_after []), 2. assert (Hr : reachable (world_after [])) by (apply world_after_reachable; vm_compute; reflexivity).
  eexists. split; [assumption|]. split; [vm_compute; reflexivity|].
  match goal with |- forall fuel buf, path_loop fuel ?dd _ buf = _ => set (d := dd) end.
  assert (E1 : parent_of d 2 = Ok 2) by (vm_compute; reflexivity). assert (E2 : name_in d 2 2 = Ok (nm 97)) by (vm_compute; reflexivity).
  induction fuel as [|fuel IH]; intros buf; [reflexivity|]. cbn [path_loop]. rewrite E1, E2. cbn [Z.eqb ROOT_INO Pos.eqb]. apply IH.
Qed.

(** ** C23: names *)
Theorem C23_stored_names : forall w d p n c, reachable w -> view w d -> u64 p -> lookup d p n = Ok c ->
  Z.of_nat (length n) <= 503 /\ ~ 0 ∈ n /\ ~ 47 ∈ n.
Proof.
  intros w d p n c Hr Hv Hp Hl. pose proof (view_inv _ _ Hr Hv) as H. apply lookup_Ok in Hl as (_ & e & He & _); auto.
  destruct (inv_treen _ H _ _ _ He) as (_ & Hval & _). split; [apply valid_name_len; assumption|].
  unfold valid_name, check_name in Hval. destruct (_ <? _); [discriminate|]. cbn [negb] in Hval.
  destruct (existsb _ n) eqn:Ex; [discriminate|]. apply not_true_iff_false in Ex.
  split; intros Hin; apply elem_of_list_In in Hin; apply Ex; apply existsb_exists; eexists; (split; [exact Hin|reflexivity]).
Qed.
Print Assumptions C23_stored_names.
Theorem C23_bad_names : forall t p n a,
  (503 < Z.of_nat (length n) -> emplace t p n a = Done (Err ENAMETOOLONG, t) /\ lookup (t_db t) p n = Err ENAMETOOLONG) /\
  (Z.of_nat (length n) <= 503 -> 0 ∈ n \/ 47 ∈ n -> emplace t p n a = Done (Err EINVAL, t)).
Proof.
  intros t p n a. split.
  - intros Hlen. unfold emplace, lookup, check_name, MAX_NAME. destruct (Z.ltb_spec (511 - 8) (Z.of_nat (length n))); [auto|lia].
  - intros Hlen Hbad. unfold emplace, check_name, MAX_NAME. destruct (Z.ltb_spec (511 - 8) (Z.of_nat (length n))); [lia|]. cbn [negb].
    assert (Ex : existsb (fun c => (c =? 0) || (c =? 47)) n = true).
    { apply existsb_exists. destruct Hbad as [Hin|Hin]; apply elem_of_list_In in Hin; eexists; (split; [exact Hin|reflexivity]). }
    rewrite Ex. reflexivity.
Qed.
Print Assumptions C23_bad_names.

(** ** C24: reference counts *)
Inductive refop := RInc (x n : Z) | RDec (x n : Z) | RDoom (x : Z).
(** one call on the reference table; false: it was refused (an errno or an exception) and the
    table is unchanged *)
Definition ref_step (r : refs) (o : refop) : bool * refs :=
  match o with
  | RInc x n => match incref r x n with (Ok _, r') => (true, r') | (Err _, _) => (false, r) end
  | RDec x n => match decref r x n with Done (Ok _, r') => (true, r') | _ => (false, r) end
  | RDoom x => match doom r x with (Ok _, r') => (true, r') | (Err _, _) => (false, r) end
  end.
Fixpoint ref_run (r : refs) (l : list refop) : list (refop * bool) * refs :=
  match l with
  | [] => ([], r)
  | o :: l => let '(b, r') := ref_step r o in let '(log, r'') := ref_run r' l in ((o, b) :: log, r'')
  end.
(** successful locks minus successful releases of [x] in a log *)
Fixpoint balance (x : Z) (log : list (refop * bool)) : Z :=
  match log with
  | [] => 0
  | (RInc y n, true) :: log => (if y =? x then n else 0) + balance x log
  | (RDec y n, true) :: log => (if y =? x then - n else 0) + balance x log
  | _ :: log => balance x log
  end.
Fixpoint total_inc (l : list refop) : Z :=
  match l with [] => 0 | RInc _ n :: l => n + total_inc l | _ :: l => total_inc l end.
Definition positive (o : refop) : Prop := match o with RInc _ n => 0 <= n | RDec _ n => 0 < n | RDoom _ => True end.

Lemma ref_step_balance r o b r' x : refs_ok r -> positive o -> (forall y, refcount r y + total_inc [o] < 2 ^ 64) ->
  ref_step r o = (b, r') -> refs_ok r' /\ refcount r' x = refcount r x + balance x [(o, b)].
Proof.
  intros Hok Hpos Hb E. destruct o as [y n|y n|y]; cbn [ref_step positive total_inc] in *.
  - unfold incref in E. destruct (r !! y) as [[m [|]]|] eqn:Ey; injection E as <- <-.
    + split; [assumption|]. cbn. lia.
    + assert (Hm : 0 <= m) by (eapply Hok; eassumption).
      assert (Hs : w64 (m + n) = m + n). { apply w64_small. specialize (Hb y). unfold refcount in Hb. rewrite Ey in Hb. lia. }
      split.
      * intros z k b. destruct (decide (z = y)) as [->|]; [rewrite lookup_insert|rewrite lookup_insert_ne by congruence; apply Hok]. intros Eq. injection Eq as <- _. lia.
      * cbn. unfold refcount. destruct (Z.eqb_spec y x) as [<-|Hne]; [rewrite lookup_insert, Ey; lia|rewrite lookup_insert_ne by congruence; lia].
    + split.
      * intros z k b. destruct (decide (z = y)) as [->|]; [rewrite lookup_insert|rewrite lookup_insert_ne by congruence; apply Hok]. intros Eq. injection Eq as <- _. lia.
      * cbn. unfold refcount. destruct (Z.eqb_spec y x) as [<-|Hne]; [rewrite lookup_insert, Ey; lia|rewrite lookup_insert_ne by congruence; lia].
  - destruct (decref_cases r y n Hpos) as [(Hle & dm & Ey & Ed)|(Hlt & Ed)]; rewrite Ed in E; injection E as <- <-.
    + split.
      * intros z k b. destruct (decide (z = y)) as [->|]; [rewrite lookup_insert|rewrite lookup_insert_ne by congruence; apply Hok]. intros Eq. injection Eq as <- _. lia.
      * cbn. unfold refcount at 1. destruct (Z.eqb_spec y x) as [<-|Hne]; [rewrite lookup_insert; lia|rewrite lookup_insert_ne by congruence; fold (refcount r x); lia].
    + split; [assumption|]. cbn. lia.
  - unfold doom in E. destruct (r !! y) as [[m dm]|] eqn:Ey; [destruct (Z.ltb_spec 0 m)|]; injection E as <- <-.
    + split; [assumption|]. cbn. lia.
    + assert (Hm : 0 <= m) by (eapply Hok; eassumption). split.
      * intros z k b. destruct (decide (z = y)) as [->|]; [rewrite lookup_insert|rewrite lookup_insert_ne by congruence; apply Hok]. intros Eq. injection Eq as <- _. lia.
      * cbn. unfold refcount. destruct (decide (x = y)) as [->|Hne]; [rewrite lookup_insert, Ey; lia|rewrite lookup_insert_ne by congruence; lia].
    + split.
      * intros z k b. destruct (decide (z = y)) as [->|]; [rewrite lookup_insert|rewrite lookup_insert_ne by congruence; apply Hok]. intros Eq. injection Eq as <- _. lia.
      * cbn. unfold refcount. destruct (decide (x = y)) as [->|Hne]; [rewrite lookup_insert, Ey; lia|rewrite lookup_insert_ne by congruence; lia].
Qed.
Lemma balance_cons x e log : balance x (e :: log) = balance x [e] + balance x log.
Proof. destruct e as [[y n|y n|y] [|]]; cbn; lia. Qed.
Lemma total_inc_nonneg l : Forall positive l -> 0 <= total_inc l.
Proof. induction 1 as [|o l Ho _ IH]; cbn; [lia|]. destruct o; cbn in *; lia. Qed.
Lemma ref_step_le r o b r' : refs_ok r -> positive o -> (forall y, refcount r y + total_inc [o] < 2 ^ 64) ->
  ref_step r o = (b, r') -> forall y, refcount r' y <= refcount r y + total_inc [o].
Proof.
  intros Hok Hpos Hb E y. destruct (ref_step_balance r o b r' y Hok Hpos Hb E) as [_ ->].
  destruct o as [z n|z n|z], b; cbn in *; try lia; destruct (z =? y); lia.
Qed.

Theorem C24_counts : forall l log r, Forall positive l -> total_inc l < 2 ^ 64 ->
  ref_run ∅ l = (log, r) ->
  (* the count is successful locks minus successful releases, and never negative *)
  (forall x, refcount r x = balance x log /\ 0 <= refcount r x).
Proof.
  intros l log r Hl Hb E x.
  enough (Hgen : forall l r0 log r, refs_ok r0 -> Forall positive l -> (forall y, refcount r0 y + total_inc l < 2 ^ 64) -> ref_run r0 l = (log, r) ->
     refs_ok r /\ refcount r x = refcount r0 x + balance x log).
  { destruct (Hgen l ∅ log r) as [Hok Hc]; auto.
    - apply refs_ok_empty.
    - rewrite Hc. unfold refcount. rewrite lookup_empty. split; [lia|]. rewrite <- (Z.add_0_l (balance x log)).
      change (0 <= 0 + balance x log). assert (Hz : refcount (∅ : refs) x = 0) by (unfold refcount; rewrite lookup_empty; reflexivity).
      rewrite Hz in Hc. rewrite <- Hc. apply refcount_nonneg. assumption. }
  clear. induction l as [|o l IH]; intros r0 log r Hok Hl Hb E.
  - injection E as <- <-. cbn. split; [assumption|lia].
  - cbn [ref_run] in E. destruct (ref_step r0 o) as [b r1] eqn:Es. destruct (ref_run r1 l) as [log' r2] eqn:Er. injection E as <- <-.
    inversion Hl as [|? ? Hp Hl']; subst. pose proof (total_inc_nonneg _ Hl') as Hnn.
    assert (Ht : total_inc (o :: l) = total_inc [o] + total_inc l) by (destruct o; cbn; lia).
    assert (Hb0 : forall y, refcount r0 y + total_inc [o] < 2 ^ 64) by (intros y; specialize (Hb y); lia).
    destruct (ref_step_balance r0 o b r1 x Hok Hp Hb0 Es) as [Hok1 Hc1].
    destruct (IH r1 log' r2 Hok1 Hl') as [Hok2 Hc2]; auto.
    { intros y. pose proof (ref_step_le r0 o b r1 Hok Hp Hb0 Es y). specialize (Hb y). lia. }
    split; [assumption|]. rewrite Hc2, Hc1, (balance_cons x (o, b) log'). lia.
Qed.
Print Assumptions C24_counts.
(** when each call is refused *)
Theorem C24_refusals : forall r x n,
  (doomed r x = true -> incref r x n = (Err ESTALE, r)) /\
  (doomed r x = false -> exists v r', incref r x n = (Ok v, r')) /\
  (0 < n -> refcount r x < n -> decref r x n = Throw) /\
  (0 < n <= refcount r x -> exists r', decref r x n = Done (Ok (refcount r x - n), r')) /\
  (0 < refcount r x -> doom r x = (Err EBUSY, r)) /\
  (refcount r x <= 0 -> exists r', doom r x = (Ok tt, r') /\ doomed r' x = true).
Proof.
  intros r x n. split_and!.
  - unfold doomed, incref. destruct (r !! x) as [[m dm]|]; [intros ->; reflexivity|discriminate].
  - unfold doomed, incref. destruct (r !! x) as [[m dm]|]; [intros ->; eauto|eauto].
  - intros Hn Hlt. destruct (decref_cases r x n Hn) as [(Hle & _)|(_ & E)]; [lia|assumption].
  - intros [Hn Hle]. destruct (decref_cases r x n Hn) as [(_ & b & _ & E)|(? & E)]; [eauto|lia].
  - unfold refcount, doom. destruct (r !! x) as [[m dm]|]; [|lia]. intros Hm. destruct (Z.ltb_spec 0 m); [reflexivity|lia].
  - unfold refcount, doom, doomed. destruct (r !! x) as [[m dm]|].
    + intros Hm. destruct (Z.ltb_spec 0 m); [lia|]. eexists. split; [reflexivity|]. rewrite lookup_insert. reflexivity.
    + intros _. eexists. split; [reflexivity|]. rewrite lookup_insert. reflexivity.
Qed.
Print Assumptions C24_refusals.
(** doomed for ever *)
Theorem C24_doomed_stays : forall l r log r' x, doomed r x = true -> ref_run r l = (log, r') -> doomed r' x = true.
Proof.
  induction l as [|o l IH]; intros r log r' x Hd E; [injection E as <- <-; assumption|].
  cbn [ref_run] in E. destruct (ref_step r o) as [b r1] eqn:Es. destruct (ref_run r1 l) as [log' r2] eqn:Er. injection E as <- <-.
  eapply IH; [|exact Er]. clear IH Er. unfold doomed in *. destruct (r !! x) as [[m dm]|] eqn:Ex; [|discriminate]. subst dm.
  destruct o as [y n|y n|y]; cbn [ref_step] in Es.
  - unfold incref in Es. destruct (decide (y = x)) as [->|Hne].
    + rewrite Ex in Es. injection Es as <- <-. rewrite Ex. reflexivity.
    + destruct (r !! y) as [[k [|]]|]; injection Es as <- <-; rewrite ?lookup_insert_ne by congruence; rewrite Ex; reflexivity.
  - unfold decref in Es. destruct (n =? 0); [injection Es as <- <-; rewrite Ex; reflexivity|]. destruct (r !! y) as [[k dm]|] eqn:Ey; [|injection Es as <- <-; rewrite Ex; reflexivity].
    destruct (k <? n); injection Es as <- <-; [rewrite Ex; reflexivity|]. destruct (decide (y = x)) as [->|Hne].
    + rewrite lookup_insert. congruence.
    + rewrite lookup_insert_ne by congruence. rewrite Ex. reflexivity.
  - unfold doom in Es. destruct (r !! y) as [[k dm]|] eqn:Ey; [destruct (0 <? k)|]; injection Es as <- <-; try (rewrite Ex; reflexivity);
      (destruct (decide (y = x)) as [->|Hne]; [rewrite lookup_insert; reflexivity|rewrite lookup_insert_ne by congruence; rewrite Ex; reflexivity]).
Qed.
Print Assumptions C24_doomed_stays.
Example C24_sample : fst (ref_run ∅ [RInc 7 2; RDec 7 1; RDoom 7; RDec 7 2; RDec 7 1; RDoom 7; RInc 7 1])
  = [(RInc 7 2, true); (RDec 7 1, true); (RDoom 7, false); (RDec 7 2, false); (RDec 7 1, true); (RDoom 7, true); (RInc 7 1, false)].
Proof. vm_compute. reflexivity. Qed.

(** ** C25: abort *)
(** The full claim: abort always works and gives back counts and lockability.  *)
Definition C25_full : Prop := forall w l w', reachable w -> w_tx w = begin_tx (w_comm w) (t_refs (w_tx w)) ->
  legal_run w (map EOp l) -> wrun w (map EOp l) = Done w' ->
  exists r, abort_tx (w_tx w') = Done r /\
    forall x, refcount r x = refcount (t_refs (w_tx w)) x /\ doomed r x = doomed (t_refs (w_tx w)) x.

Lemma ops_trail l : forall w w' r0 f B, WInv w -> legal_run w (map EOp l) -> wrun w (map EOp l) = Done w' -> refs_ok r0 ->
  trail r0 (t_hooks (w_tx w)) f -> (forall x, refcount (t_refs (w_tx w)) x = f x) -> (forall x, f x <= B) ->
  B + Z.of_nat (length l) < 2 ^ 64 ->
  exists f', trail r0 (t_hooks (w_tx w')) f' /\ (forall x, refcount (t_refs (w_tx w')) x = f' x).
Proof.
  induction l as [|o l IH]; intros w w' r0 f B HW Hleg E H0 Htr Hf HB Hov.
  - injection E as <-. eauto.
  - cbn [map wrun] in E. destruct (wstep w (EOp o)) as [w1| | |] eqn:E1; try discriminate. cbn [obind] in E. destruct Hleg as [Hl1 Hl2].
    pose proof (wstep_inv _ _ _ HW Hl1 E1) as HW1. cbn [length] in Hov. rewrite Nat2Z.inj_succ in Hov.
    cbn in E1. destruct (step (w_tx w) o) as [[res t']| | |] eqn:Es; try discriminate.
    destruct (step_trail _ _ _ _ r0 f (winv_tx _ HW) Hl1 Es H0 Htr Hf) as (f' & Htr' & Hf' & Hle).
    { intros x. specialize (HB x). lia. }
    injection E1 as <-. eapply (IH _ w' r0 f' (B + 1)); [exact HW1| |exact E|assumption|exact Htr'|exact Hf'| |lia].
    + apply Hl2. cbn. rewrite Es. reflexivity.
    + intros x. specialize (Hle x). specialize (HB x). lia.
Qed.
(** Proved: if abort works, all counts are as before; and it works, and lockability is also
    as before, if the transaction did not remove inodes it had released. *)
Theorem C25_abort_partial : forall w l w', reachable w -> w_tx w = begin_tx (w_comm w) (t_refs (w_tx w)) ->
  legal_run w (map EOp l) -> wrun w (map EOp l) = Done w' ->
  (forall x, refcount (t_refs (w_tx w)) x + Z.of_nat (length l) < 2 ^ 64) ->
  (forall r, abort_tx (w_tx w') = Done r -> forall x, refcount r x = refcount (t_refs (w_tx w)) x) /\
  ((forall x n, RbIncref x n ∈ t_hooks (w_tx w') -> doomed (t_refs (w_tx w')) x = false) ->
   exists r, abort_tx (w_tx w') = Done r /\ forall x, doomed r x = doomed (t_refs (w_tx w')) x).
Proof.
  intros w l w' Hr Hb Hleg E Hov. pose proof (reachable_inv _ Hr) as HW. pose proof (tinv_refs _ (winv_tx _ HW)) as H0.
  destruct (ops_trail l w w' (t_refs (w_tx w)) (refcount (t_refs (w_tx w))) (2 ^ 64 - 1 - Z.of_nat (length l)) HW Hleg E H0) as (f & Htr & Hf).
  - rewrite Hb. constructor.
  - reflexivity.
  - intros x. specialize (Hov x). lia.
  - lia.
  - split.
    + intros r Ea. exact (rollback_counts _ _ _ H0 Htr _ _ Hf Ea).
    + intros Hd. exact (rollback_runs _ _ _ H0 Htr _ Hf Hd).
Qed.
Print Assumptions C25_abort_partial.
(** Two ways in which the full claim fails. 1: an inode removed in an aborted transaction exists
    again afterwards but can never be locked again. *)
Theorem C25_refuted_doomed : exists w l w' r, reachable w /\ w_tx w = begin_tx (w_comm w) (t_refs (w_tx w)) /\
  legal_run w (map EOp l) /\ wrun w (map EOp l) = Done w' /\ abort_tx (w_tx w') = Done r /\
  has_inode (w_comm w) 2 /\ doomed (t_refs (w_tx w)) 2 = false /\ doomed r 2 = true.
Proof.
  set (l0 := [EOp (OEmplace 1 (nm 97) regA); ECommit]).
  assert (Hr : reachable (world_after l0)) by (apply world_after_reachable; vm_compute; reflexivity).
  exists (world_after l0), [OUnlinkIno 2]. eexists _, _. split; [assumption|]. split; [vm_compute; reflexivity|].
  split; [apply legal_runb_ok; vm_compute; reflexivity|]. split; [vm_compute; reflexivity|]. split; [vm_compute; reflexivity|].
  split; [exists regA; vm_compute; reflexivity|]. split; [vm_compute; reflexivity|]; vm_compute; reflexivity.
Qed.
(** 2: releasing the last reference to an orphan, cleaning, and aborting fails an assertion. *)
Theorem C25_refuted_crash : exists w l w', reachable w /\ w_tx w = begin_tx (w_comm w) (t_refs (w_tx w)) /\
  legal_run w (map EOp l) /\ wrun w (map EOp l) = Done w' /\ abort_tx (w_tx w') = Crash.
Proof.
  set (l0 := [EOp (OEmplace 1 (nm 97) regA); EOp (OLock 2); EOp (OUnlinkIno 2); ECommit]).
  assert (Hr : reachable (world_after l0)) by (apply world_after_reachable; vm_compute; reflexivity).
  exists (world_after l0), [ORelease 2 1; OClean]. eexists. split; [assumption|]. split; [vm_compute; reflexivity|].
  split; [apply legal_runb_ok; vm_compute; reflexivity|]. split; [vm_compute; reflexivity|]; vm_compute; reflexivity.
Qed.
Theorem C25_full_false : ~ C25_full.
Proof.
  intros H. destruct C25_refuted_crash as (w & l & w' & Hr & Hb & Hl & E & Ec). destruct (H w l w' Hr Hb Hl E) as (r & Ea & _). congruence.
Qed.
(** Number reuse after an abort meets such a left-over mark: a new file that can not be locked. *)
Theorem C25_refuted_fresh_unlockable : exists w t', reachable w /\ ~ has_inode (w_comm w) 2 /\
  emplace (w_tx w) 1 (nm 98) regA = Done (Ok 2, t') /\ lock t' 2 = Done (Err ESTALE, t').
Proof.
  set (l0 := [EOp (OEmplace 1 (nm 97) regA); EOp (OUnlinkIno 2); EAbort]).
  assert (Hr : reachable (world_after l0)) by (apply world_after_reachable; vm_compute; reflexivity).
  exists (world_after l0). eexists. split; [assumption|]. split; [intros [a Ha]; vm_compute in Ha; discriminate|]. split; [vm_compute; reflexivity|]; vm_compute; reflexivity.
Qed.

(** ** witnesses for the hypotheses of C15, C18, C19 *)
Definition held_world : world := world_after (take 7 sample_events).
Lemma held_reachable : reachable held_world.
Proof. apply world_after_reachable. vm_compute. reflexivity. Qed.
Definition held_run : list ev :=
  [EOp (OUnlinkIno 2); EOp (OUnlinkIno 3); EOp (OLock 4); EAbort; EOp (OUnlinkIno 2); ECommit; EOp OClean].
Example C15_sample : w_tx held_world = begin_tx (w_comm held_world) (t_refs (w_tx held_world)) /\
  has_inode (w_comm held_world) 3 /\ refcount (t_refs (w_tx held_world)) 3 = 1 /\ legal_run held_world held_run /\
  Forall (keeps 3) held_run /\ exists w', wrun held_world held_run = Done w' /\ getattr (w_comm w') 2 = Err ENOENT /\ getattr (w_comm w') 3 = Ok regA.
Proof.
  split; [vm_compute; reflexivity|]. split; [exists regA; vm_compute; reflexivity|]. split; [vm_compute; reflexivity|].
  split; [apply legal_runb_ok; vm_compute; reflexivity|]. split; [unfold held_run; repeat (constructor; cbn; try exact I)|].
  eexists. split; [vm_compute; reflexivity|]. split; [vm_compute; reflexivity|]; vm_compute; reflexivity.
Qed.
Example C18_sample : exists e, listing (w_comm held_world) 1 0 ((1, DOT) :: e) /\ length e = 2%nat.
Proof.
  destruct (C18_readdir_enumerates held_world (w_comm held_world) 1 1 held_reachable (or_introl eq_refl)) as (e & Hl & Hin & Hnd & _).
  - exists (set_mode S_IFDIR (A 0)). vm_compute. reflexivity.
  - reflexivity.
  - lia.
  - cbn [Z.eqb ROOT_INO Pos.eqb app] in Hl. exists e. split; [assumption|].
    assert (Hl2 : listing (w_comm held_world) 1 0 [(1, DOT); (2, nm 100); (4, nm 108)]).
    { eapply listing_entry; [vm_compute; reflexivity|]. eapply listing_entry; [vm_compute; reflexivity|]. eapply listing_entry; [vm_compute; reflexivity|]. apply listing_eof. vm_compute. reflexivity. }
    pose proof (C18_listing_unique _ _ _ _ _ Hl Hl2) as E. injection E as ->. reflexivity.
Qed.
(** a rewrite of /d, which holds "f": "g" is created, the rewrite removes "f" *)
Example C19_sample : exists t, session 2 t {[ nm 103 := (5, regA) ]} /\
  lookup (t_db t) 2 (nm 102) = Ok 3 /\ exists t', finish_dir_rewrite t = Done (Ok tt, t') /\ lookup (t_db t') 2 (nm 102) = Err ENOENT /\
  lookup (t_db t') 2 (nm 103) = Ok 5 /\ getattr (t_db t') 3 = Ok regA.
Proof.
  pose proof held_reachable as Hr. set (d := t_db (w_tx held_world)).
  assert (Hv : view held_world d) by (right; reflexivity).
  destruct (C10_tree_consistent _ d Hr Hv) as (Hiff & _). pose proof (view_inv _ _ Hr Hv) as Hi.
  assert (Hnr : ~ reclaimable d (t_refs (w_tx held_world)) 2).
  { intros Hrec. apply reclaimable_gone in Hrec; [|assumption|apply (tx_inv _ Hr)].
    assert (E2 : d_treei d !! (1, 2) <> None) by (vm_compute; discriminate).
    assert (H1 : ~ gone d (t_refs (w_tx held_world)) 1).
    { intros G. inversion G as [x Hx _|q x f _ Hf _]; subst; [apply (inv_root_orph _ Hi); assumption|].
      destruct (treei_facts _ _ _ _ Hi Hf) as (_ & _ & _ & ? & _). congruence. }
    inversion Hrec as [x Hx _|q x f Hq Hf _]; subst.
    - apply is_orphan_iff in Hx; [|assumption]. destruct Hx as [_ Hp]. vm_compute in Hp. discriminate.
    - destruct (treei_facts _ _ _ _ Hi Hf) as (Hp & _). assert (Hp2 : parent_of d 2 = Ok 1) by (vm_compute; reflexivity).
      rewrite Hp2 in Hp. injection Hp as <-. contradiction. }
  destruct (start_dir_rewrite (w_tx held_world) 2) as [[[[]|] t1]| | |] eqn:E1; try (vm_compute in E1; discriminate).
  assert (S1 : session 2 t1 ∅).
  { apply (C19_session_starts held_world 2 t1 Hr); [vm_compute; reflexivity|exists dirA; split; vm_compute; reflexivity|exact Hnr|exact E1]. }
  vm_compute in E1. injection E1 as <-.
  match type of S1 with session _ ?t _ => destruct (emplace t 2 (nm 103) regA) as [[[i|] t2]| | |] eqn:E2; try (vm_compute in E2; discriminate) end.
  assert (Ei : i = 5) by (vm_compute in E2; congruence). subst i.
  match type of S1 with session _ ?t _ => assert (Hroom : room (t_db t)) by (apply roomb_ok; vm_compute; reflexivity) end.
  exists t2. split; [exact (ses_emplace 2 _ _ _ _ _ _ S1 Hroom E2)|].
  vm_compute in E2. injection E2 as <-. split; [vm_compute; reflexivity|]. eexists. split; [vm_compute; reflexivity|].
  split_and!; vm_compute; reflexivity.
Qed.
