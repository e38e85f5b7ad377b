(** Property theorems C10-C25 (the metadata cache used by one thread).

    [reachable w] are the states after any history of transactions on a fresh database:
    operations, commits, aborts, crashes followed by reopening.  [view w d] says that [d] is
    what a reader of the committed database or the open transaction itself sees.  The
    vocabulary (has_inode, is_orphan, reclaimable, falls, walk, listing, ...) is in CacheSpec.v
    and refers to the results of the read operations only. *)
From Verif Require Import CacheApi.

Definition view (w : world) (d : db) : Prop := d = w_comm w \/ d = t_db (w_tx w).
Lemma view_inv w d : reachable w -> view w d -> Inv d.
Proof. intros Hr Hv. destruct (reachable_inv _ Hr) as [Hc Ht]. destruct Hv as [->| ->]; [assumption|apply (tinv_db _ Ht)]. Qed.
Lemma tx_inv w : reachable w -> TInv (w_tx w).
Proof. intros Hr. apply (reachable_inv _ Hr). Qed.

(** ** A concrete history: /d, /d/f, /l -> "d/f"; /d/f is locked; one commit; then /d/f is
    unlinked while held and /d/g is created in the open transaction. *)
Definition A (mode : Z) : attrs := Attrs 10 1 1000 1000 (1, 0) (2, 0) (3, 0) mode.
Definition dirA := A (S_IFDIR + 493). Definition regA := A (S_IFREG + 420). Definition lnkA := A (S_IFLNK + 511).
Definition nm (c : Z) : bytes := [c].
Definition sample_events : list ev :=
  [ EOp (OEmplace 1 (nm 100) dirA); EOp (OEmplace 2 (nm 102) regA); EOp (OEmplace 1 (nm 108) lnkA);
    EOp (OWritelink 4 [100; 47; 102]); EOp (OFlags 2 [0] []); EOp (OLock 3); ECommit ;
    EOp (OUnlinkName 2 (nm 102)); EOp (OEmplace 2 (nm 103) regA) ].
Definition run_sample (l : list ev) : outcome world := dlet w := wopen (A 0) in wrun w l.
Definition sample_world : world :=
  match run_sample sample_events with Done w => w | _ => World db_empty (begin_tx db_empty ∅) end.
Lemma sample_reachable : reachable sample_world.
Proof.
  exists (A 0). destruct (wopen (A 0)) as [w0| | |] eqn:E0; try (vm_compute in E0; discriminate).
  exists w0, sample_events. split; [reflexivity|].
  assert (Hl : match wopen (A 0) with Done w => legal_runb w sample_events | _ => false end = true) by (vm_compute; reflexivity).
  rewrite E0 in Hl. split; [apply legal_runb_ok; assumption|].
  assert (Hd : match run_sample sample_events with Done _ => true | _ => false end = true) by (vm_compute; reflexivity).
  unfold sample_world, run_sample in *. rewrite E0 in *. cbn [obind] in *. destruct (wrun w0 sample_events); try discriminate. reflexivity.
Qed.
(** the two views of the sample differ: 3 is still /d/f in the committed database, and a held
    orphan in the transaction *)
Example sample_facts :
  lookup (w_comm sample_world) 2 (nm 102) = Ok 3 /\ lookup (t_db (w_tx sample_world)) 2 (nm 102) = Err ENOENT /\
  getattr (t_db (w_tx sample_world)) 3 = Ok regA /\ parent_of (t_db (w_tx sample_world)) 3 = Ok 0 /\
  lookup (t_db (w_tx sample_world)) 2 (nm 103) = Ok 5 /\ refcount (t_refs (w_tx sample_world)) 3 = 1 /\
  readlink (w_comm sample_world) 4 = Ok [100; 47; 102] /\ test_flag (w_comm sample_world) 2 0 = Ok true /\
  path (w_comm sample_world) 3 = Done (Ok [47; 100; 47; 102]).
Proof. vm_compute. repeat split; reflexivity. Qed.

(** ** C10: one consistent tree *)
(** [d] is one consistent tree *)
Definition consistent (d : db) : Prop :=
  (* the name view and the inode view agree *)
  (forall p n c, u64 p -> lookup d p n = Ok c <-> p <> 0 /\ c <> ROOT_INO /\ name_in d p c = Ok n /\ parent_of d c = Ok p) /\
  (* entries lead from existing directories to existing inodes *)
  (forall p n c, u64 p -> lookup d p n = Ok c ->
     has_inode d c /\ exists a, getattr d p = Ok a /\ ftype (a_mode a) = S_IFDIR) /\
  (* an inode has at most one parent and name *)
  (forall p n q m c, u64 p -> u64 q -> lookup d p n = Ok c -> lookup d q m = Ok c -> p = q /\ n = m) /\
  (* an inode is the root, in a directory, or an orphan *)
  (forall c, has_inode d c -> c = ROOT_INO \/ is_orphan d c \/ exists p n, u64 p /\ lookup d p n = Ok c).
Lemma inv_consistent d : Inv d -> consistent d.
Proof.
  intros H.
  assert (Hiff : forall p n c, u64 p -> lookup d p n = Ok c <-> p <> 0 /\ c <> ROOT_INO /\ name_in d p c = Ok n /\ parent_of d c = Ok p).
  { intros p n c Hp. rewrite lookup_treei by assumption. split.
    - intros (e & He & <-). destruct (treei_facts _ _ _ _ H He) as (? & ? & ? & ? & ? & _). split_and!; auto. apply name_in_Ok; eauto.
    - intros (Hp0 & Hc & Hn & _). apply name_in_Ok in Hn; auto. }
  split_and!; auto.
  - intros p n c Hp Hl. apply lookup_treei in Hl as (e & He & _); auto. destruct (treei_facts _ _ _ _ H He) as (_ & Hh & (i & Hi & Hd) & _).
    split; [assumption|]. exists (i_attr i). split; [apply getattr_Ok; eauto|assumption].
  - intros p n q m c Hp Hq Hl Hl'. apply Hiff in Hl as (_ & _ & Hn & Hpp); auto. apply Hiff in Hl' as (_ & _ & Hn' & Hqq); auto.
    assert (p = q) by congruence. subst. split; congruence.
  - intros c Hc. destruct (Z.eq_dec c ROOT_INO) as [->|Hne]; [auto|right]. apply has_inode_iff in Hc as [i Hi].
    destruct (Z.eq_dec (i_parent i) 0) as [E|E].
    + left. split; [assumption|]. rewrite (parent_of_spec _ _ _ H Hi Hne). congruence.
    + right. destruct (inv_parent _ H _ _ Hi E) as (e & He). exists (i_parent i), (de_name e).
      destruct (treei_facts _ _ _ _ H He) as (_ & _ & _ & _ & _ & _ & Hu & _). split; [assumption|]. apply lookup_treei; eauto.
Qed.
Theorem C10_tree_consistent : forall w d, reachable w -> view w d ->
  (* the name view and the inode view agree *)
  (forall p n c, u64 p -> lookup d p n = Ok c <-> p <> 0 /\ c <> ROOT_INO /\ name_in d p c = Ok n /\ parent_of d c = Ok p) /\
  (* entries lead from existing directories to existing inodes *)
  (forall p n c, u64 p -> lookup d p n = Ok c ->
     has_inode d c /\ exists a, getattr d p = Ok a /\ ftype (a_mode a) = S_IFDIR) /\
  (* an inode has at most one parent and name *)
  (forall p n q m c, u64 p -> u64 q -> lookup d p n = Ok c -> lookup d q m = Ok c -> p = q /\ n = m) /\
  (* an inode is the root, in a directory, or an orphan *)
  (forall c, has_inode d c -> c = ROOT_INO \/ is_orphan d c \/ exists p n, u64 p /\ lookup d p n = Ok c).
Proof. intros w d Hr Hv. exact (inv_consistent d (view_inv _ _ Hr Hv)). Qed.
Print Assumptions C10_tree_consistent.

(** ** C11: emplace *)
Definition isdir (d : db) (p : Z) : Prop := exists a, getattr d p = Ok a /\ ftype (a_mode a) = S_IFDIR.
Lemma isdir_is_dir d p : isdir d p -> is_dir d p.
Proof. intros (a & Ha & Ht). apply getattr_Ok in Ha as (i & Hi & <-). exists i. auto. Qed.

(** The directory must not itself be waiting for removal (an orphan nobody holds). *)
Theorem C11_emplace : forall w p n a i t', reachable w ->
  let t := w_tx w in let d := t_db t in let r := t_refs t in
  isdir d p -> room d -> ~ reclaimable d r p ->
  emplace t p n a = Done (Ok i, t') ->
  let d' := t_db t' in
  lookup d' p n = Ok i /\ getattr d' i = Ok a /\ parent_of d' i = Ok p /\ name_in d' p i = Ok n /\
  (* which inodes it removes: those waiting for removal anyway and what a replaced entry of
     another type drags along *)
  exists removed : Z -> Prop,
    (forall x, removed x -> reclaimable d r x \/
       exists c a0, lookup d p n = Ok c /\ getattr d c = Ok a0 /\ ftype (a_mode a0) <> ftype (a_mode a) /\ falls d r c x) /\
    (* every other inode and name is as before *)
    (forall x, x <> i -> ~ removed x -> same_inode d d' x) /\
    (forall q m, u64 q -> (q, m) <> (p, n) -> ~ removed q -> lookup d' q m = lookup d q m).
Proof.
  intros w p n a i t' Hr t d r Hd Hroom Hnr E d'.
  destruct (emplace_api t p n a i t' (tx_inv _ Hr) (isdir_is_dir _ _ Hd) Hroom Hnr E) as
    (_ & _ & H1 & H2 & H3 & H4 & _ & _ & _ & [(Hl & (a0 & Ha0 & Hty) & _ & _ & _ & Hs & Hrl & Hlk & _)|(Hk & _ & _ & _ & Hty & _ & rem & Hrem & _ & Hs & Hlk & _)]).
  - split_and!; auto. exists (fun _ => False). split_and!; [tauto| |].
    + intros x Hx _. destruct (Hs x Hx) as [Ha Hf]. split_and!; auto.
    + intros q m Hq _ _. apply Hlk. assumption.
  - split_and!; auto. exists rem. split_and!; auto.
    intros x Hx. apply Hrem in Hx as [Hx|(c & Hc & Hf)]; [auto|]. right. 
    pose proof Hc as Hc'. pose proof (tinv_db _ (tx_inv _ Hr)) as H. fold t in H. fold d in H.
    assert (Hpu : u64 p). { destruct (isdir_is_dir _ _ Hd) as (j & Hj & _). apply (u64_of_inode _ _ _ H Hj). }
    apply lookup_treei in Hc' as (e & He & _); auto. destruct (treei_facts _ _ _ _ H He) as (_ & [a0 Ha0] & _).
    exists c, a0. split_and!; auto. eapply Hty; eassumption.
Qed.
Print Assumptions C11_emplace.

(** emplace succeeds on every valid name *)
Theorem C11_emplace_total : forall w p n a, reachable w ->
  isdir (t_db (w_tx w)) p -> room (t_db (w_tx w)) ->
  Z.of_nat (length n) <= 503 -> ~ 0 ∈ n -> ~ 47 ∈ n ->
  exists i t', emplace (w_tx w) p n a = Done (Ok i, t').
Proof.
  intros w p n a Hr Hd Hroom Hlen H0 H47.
  destruct (emplace_spec _ p n a (tx_inv _ Hr) (isdir_is_dir _ _ Hd) Hroom) as
      [(err & Hc & E')|[(Hv & e & oi & He & Hoi & Hty & E' & HT')|(Hv & Hty & k & R & Hk & Hfresh & Hd1 & HR & E' & HT')]]; [exfalso|eauto..].
  unfold check_name, MAX_NAME in Hc. destruct (Z.ltb_spec (511 - 8) (Z.of_nat (length n))); [lia|]. cbn [negb] in Hc.
  destruct (existsb _ n) eqn:Ex; [|discriminate]. apply existsb_exists in Ex as (c & Hin & Hc2).
  apply elem_of_list_In in Hin. apply orb_prop in Hc2 as [Hc2|Hc2]; apply Z.eqb_eq in Hc2; subst; contradiction.
Qed.
Print Assumptions C11_emplace_total.
Example C11_sample : let t := w_tx sample_world in
  isdir (t_db t) 2 /\ room (t_db t) /\ ~ reclaimable (t_db t) (t_refs t) 2 /\
  (exists t', emplace t 2 (nm 103) lnkA = Done (Ok 6, t')) /\ (exists t', emplace t 2 (nm 103) (A (S_IFREG + 1)) = Done (Ok 5, t')).
Proof.
  intros t. split; [exists dirA; split; vm_compute; reflexivity|]. split; [apply roomb_ok; vm_compute; reflexivity|]. split.
  { rewrite reclaimable_gone by (apply (tinv_db _ (tx_inv _ sample_reachable)) || apply (tinv_refs _ (tx_inv _ sample_reachable))).
    intros G. inversion G as [x Hx _|q x f G' Hf _]; subst.
    - apply (is_orphan_iff _ _ (tinv_db _ (tx_inv _ sample_reachable))) in Hx as [_ Hx]. vm_compute in Hx. discriminate.
    - destruct (treei_facts _ _ _ _ (tinv_db _ (tx_inv _ sample_reachable)) Hf) as (Hp & _). vm_compute in Hp. injection Hp as <-.
      apply gone_has in G' as [_ _]; [|apply (tinv_db _ (tx_inv _ sample_reachable))].
      inversion G as [x Hx _|q x f' G'' Hf' _]; subst; [|].
      + apply (is_orphan_iff _ _ (tinv_db _ (tx_inv _ sample_reachable))) in Hx as [_ Hx]. vm_compute in Hx. discriminate.
      + destruct (treei_facts _ _ _ _ (tinv_db _ (tx_inv _ sample_reachable)) Hf') as (Hp & _). vm_compute in Hp. injection Hp as <-.
        inversion G'' as [x Hx _|q x f'' _ Hf'' _]; subst.
        * apply (inv_root_orph _ (tinv_db _ (tx_inv _ sample_reachable))) in Hx. assumption.
        * destruct (treei_facts _ _ _ _ (tinv_db _ (tx_inv _ sample_reachable)) Hf'') as (_ & _ & _ & ? & _). congruence. }
  split.
  - destruct (emplace t 2 (nm 103) lnkA) as [[r t']| | |] eqn:E; try (vm_compute in E; discriminate).
    exists t'. assert (Er : match emplace t 2 (nm 103) lnkA with Done (r, _) => r | _ => Err 0 end = Ok 6) by (vm_compute; reflexivity). rewrite E in Er. congruence.
  - destruct (emplace t 2 (nm 103) (A (S_IFREG + 1))) as [[r t']| | |] eqn:E; try (vm_compute in E; discriminate).
    exists t'. assert (Er : match emplace t 2 (nm 103) (A (S_IFREG + 1)) with Done (r, _) => r | _ => Err 0 end = Ok 5) by (vm_compute; reflexivity). rewrite E in Er. congruence.
Qed.

(** ** C12: inode numbers of re-emplaced names *)
Theorem C12_same_type_keeps_number : forall w p n a c a0, reachable w ->
  let t := w_tx w in let d := t_db t in
  isdir d p -> room d -> lookup d p n = Ok c -> getattr d c = Ok a0 -> ftype (a_mode a0) = ftype (a_mode a) ->
  exists t', emplace t p n a = Done (Ok c, t').
Proof.
  intros w p n a c a0 Hr t d Hd Hroom Hl Ha Hty. subst d. subst t. pose proof (tinv_db _ (tx_inv _ Hr)) as H.
  assert (Hpu : u64 p). { destruct (isdir_is_dir _ _ Hd) as (j & Hj & _). apply (u64_of_inode _ _ _ H Hj). }
  apply lookup_Ok in Hl as (_ & e & He & <-); auto. apply getattr_Ok in Ha as (i & Hi & <-).
  destruct (emplace_spec _ p n a (tx_inv _ Hr) (isdir_is_dir _ _ Hd) Hroom) as
      [(err & Hc & E')|[(Hv & e' & oi & He' & Hoi & Hty' & E' & HT')|(Hv & Hty' & k & R & Hk & Hfresh & Hd1 & HR & E' & HT')]].
  - exfalso. destruct (inv_treen _ H _ _ _ He) as (_ & Hv & _). unfold valid_name in Hv. congruence.
  - assert (e' = e) by congruence. subst. eauto.
  - exfalso. eapply Hty'; eassumption.
Qed.
Print Assumptions C12_same_type_keeps_number.
(** With another type, the number is one that no inode had in any earlier committed state nor
    in any earlier state of this transaction: see C13, with [C12_new_type_new_number]. *)
Theorem C12_new_type_new_number : forall w p n a c a0 i t', reachable w ->
  let t := w_tx w in let d := t_db t in
  isdir d p -> room d -> lookup d p n = Ok c -> getattr d c = Ok a0 -> ftype (a_mode a0) <> ftype (a_mode a) ->
  emplace t p n a = Done (Ok i, t') -> i <> c /\ ~ has_inode d i.
Proof.
  intros w p n a c a0 i t' Hr t d Hd Hroom Hl Ha Hty E. subst d. subst t. pose proof (tinv_db _ (tx_inv _ Hr)) as H.
  assert (Hpu : u64 p). { destruct (isdir_is_dir _ _ Hd) as (j & Hj & _). apply (u64_of_inode _ _ _ H Hj). }
  apply lookup_Ok in Hl as (_ & e & He & <-); auto. apply getattr_Ok in Ha as (j & Hj & <-).
  destruct (emplace_spec _ p n a (tx_inv _ Hr) (isdir_is_dir _ _ Hd) Hroom) as
      [(err & Hc & E')|[(Hv & e' & oi & He' & Hoi & Hty' & E' & HT')|(Hv & Hty' & k & R & Hk & Hfresh & Hd1 & HR & E' & HT')]].
  - rewrite E' in E. discriminate.
  - exfalso. assert (e' = e) by congruence. subst. congruence.
  - rewrite E' in E. injection E as <- _. split; [intros ->; congruence|].
    intros Hh. apply has_inode_iff in Hh as [? ?]. congruence.
Qed.
Print Assumptions C12_new_type_new_number.

(** ** C13: numbers are never reused *)
(** Whatever happens after a state was committed - commits, aborts, crashes -, a number that
    named an inode in it is never given to a new entry. *)
Theorem C13_no_reuse_committed : forall w0 l w p n a k t', reachable w0 -> legal_run w0 l -> wrun w0 l = Done w ->
  has_inode (w_comm w0) k ->
  isdir (t_db (w_tx w)) p -> room (t_db (w_tx w)) ->
  emplace (w_tx w) p n a = Done (Ok k, t') ->
  lookup (t_db (w_tx w)) p n = Ok k.
Proof.
  intros w0 l w p n a k t' Hr0 Hl Hrun Hk Hd Hroom E.
  destruct (wrun_next l w0 w (reachable_inv _ Hr0) (reachable_next _ Hr0) Hl Hrun) as (HW & HN & Hle & _).
  pose proof (winv_tx _ HW) as HT. pose proof (tinv_db _ HT) as H.
  assert (Hpu : u64 p /\ p <> 0). { destruct (isdir_is_dir _ _ Hd) as (j & Hj & _). apply (u64_of_inode _ _ _ H Hj). }
  destruct (emplace_spec _ p n a HT (isdir_is_dir _ _ Hd) Hroom) as
      [(err & Hc & E')|[(Hv & e' & oi & He' & Hoi & Hty' & E' & HT')|(Hv & Hty' & k' & R & Hk' & Hfresh & Hd1 & HR & E' & HT')]]; rewrite E' in E.
  - discriminate.
  - injection E as <- _. apply lookup_Ok; [assumption|apply Hpu|]. split; [apply Hpu|eauto].
  - injection E as -> _. exfalso.
    destruct (next_le_has _ _ k (winv_comm _ (reachable_inv _ Hr0)) Hk (next_le_trans _ _ _ Hle HN)) as (k2 & Hk2 & Hlt). rewrite Hk' in Hk2. injection Hk2 as <-. lia.
Qed.
Print Assumptions C13_no_reuse_committed.
(** The same for the states of the running transaction, as long as nothing is thrown away. *)
Theorem C13_no_reuse_transaction : forall w0 l w p n a k t', reachable w0 -> legal_run w0 l -> wrun w0 l = Done w ->
  Forall (fun e => match e with EOp _ | ECommit => True | _ => False end) l ->
  has_inode (t_db (w_tx w0)) k ->
  isdir (t_db (w_tx w)) p -> room (t_db (w_tx w)) ->
  emplace (w_tx w) p n a = Done (Ok k, t') ->
  lookup (t_db (w_tx w)) p n = Ok k.
Proof.
  intros w0 l w p n a k t' Hr0 Hl Hrun HF Hk Hd Hroom E.
  destruct (wrun_next l w0 w (reachable_inv _ Hr0) (reachable_next _ Hr0) Hl Hrun) as (HW & HN & _ & Hle). specialize (Hle HF).
  pose proof (winv_tx _ HW) as HT. pose proof (tinv_db _ HT) as H.
  assert (Hpu : u64 p /\ p <> 0). { destruct (isdir_is_dir _ _ Hd) as (j & Hj & _). apply (u64_of_inode _ _ _ H Hj). }
  destruct (emplace_spec _ p n a HT (isdir_is_dir _ _ Hd) Hroom) as
      [(err & Hc & E')|[(Hv & e' & oi & He' & Hoi & Hty' & E' & HT')|(Hv & Hty' & k' & R & Hk' & Hfresh & Hd1 & HR & E' & HT')]]; rewrite E' in E.
  - discriminate.
  - injection E as <- _. apply lookup_Ok; [assumption|apply Hpu|]. split; [apply Hpu|eauto].
  - injection E as -> _. exfalso.
    destruct (next_le_has _ _ k (tinv_db _ (winv_tx _ (reachable_inv _ Hr0))) Hk Hle) as (k2 & Hk2 & Hlt). rewrite Hk' in Hk2. injection Hk2 as <-. lia.
Qed.
Print Assumptions C13_no_reuse_transaction.

(** ** C14: unlink *)
Theorem C14_unlink : forall w p n c, reachable w -> u64 p ->
  let t := w_tx w in let d := t_db t in let r := t_refs t in
  lookup d p n = Ok c ->
  exists t', unlink_name t p n = Done (Ok tt, t') /\ unlink_ino t c = Done (Ok tt, t') /\
    let d' := t_db t' in
    lookup d' p n = Err ENOENT /\
    exists removed : Z -> Prop,
      (forall x, removed x <-> reclaimable d r x \/ falls d r c x) /\
      (forall x, removed x -> getattr d' x = Err ENOENT /\ readlink d' x = Err ENOENT) /\
      (forall x, ~ removed x -> same_inode d d' x) /\
      (forall q m, u64 q -> (q, m) <> (p, n) -> ~ removed q -> lookup d' q m = lookup d q m) /\
      (0 < refcount r c -> is_orphan d' c).
Proof.
  intros w p n c Hr Hu t d r Hl. destruct (unlink_api t p n c (tx_inv _ Hr) Hu Hl) as
    (t' & E1 & E2 & _ & _ & _ & rem & H1 & H2 & H3 & H4 & H5 & H6 & _).
  exists t'. cbn zeta. do 3 (split; [assumption|]). exists rem. split_and!; auto.
Qed.
Print Assumptions C14_unlink.
Theorem C14_unlink_missing : forall w p n, reachable w -> u64 p -> p <> 0 -> Z.of_nat (length n) <= 503 ->
  (forall c, lookup (t_db (w_tx w)) p n <> Ok c) ->
  unlink_name (w_tx w) p n = Done (Err ENOENT, w_tx w).
Proof.
  intros w p n Hr Hu Hp Hlen Hno. pose proof (tinv_db _ (tx_inv _ Hr)) as H. unfold unlink_name.
  destruct (d_treen (t_db (w_tx w)) !! (p, n)) as [e|] eqn:He; [|reflexivity]. exfalso. apply (Hno (de_ino e)). apply lookup_Ok; eauto.
Qed.
Print Assumptions C14_unlink_missing.
Theorem C14_unlink_missing_inode : forall w x, reachable w -> ~ has_inode (t_db (w_tx w)) x ->
  unlink_ino (w_tx w) x = Done (Err ENOENT, w_tx w).
Proof.
  intros w x Hr Hx. destruct (unlink_ino_spec (w_tx w) x (tx_inv _ Hr)) as [(-> & E)|[(_ & E)|(d1 & Hd1 & _)]].
  - exfalso. apply Hx. destruct (inv_root _ (tinv_db _ (tx_inv _ Hr))) as (i & Hi & _). apply has_inode_iff. eauto.
  - assumption.
  - exfalso. apply Hx. apply has_inode_iff. destruct Hd1 as [[Ho _]|(p & e & i & _ & Hi & _)]; [|eauto].
    destruct (inv_orphan _ (tinv_db _ (tx_inv _ Hr)) _ Ho) as (i & Hi & _). eauto.
Qed.
Print Assumptions C14_unlink_missing_inode.
(** removing by (parent, inode) ignores the parent: it succeeds for a wrong one *)
Theorem C14_unlink_child_refuted : exists w, reachable w /\ parent_of (t_db (w_tx w)) 5 = Ok 2 /\
  exists t', unlink_child (w_tx w) 1 5 = Done (Ok tt, t') /\ getattr (t_db t') 5 = Err ENOENT.
Proof.
  exists sample_world. split; [apply sample_reachable|]. split; [vm_compute; reflexivity|].
  eexists. split; vm_compute; reflexivity.
Qed.

(** ** C15: locked inodes survive *)
(** After a commit at which [x] is locked, [x] stays in the committed database and in every
    later transaction, whatever operations, commits and aborts follow, as long as [x] is not
    released and the process does not end; and it reads the same unless written explicitly. *)
Theorem C15_locked_inode_survives : forall w l w' x, reachable w -> legal_run w l -> wrun w l = Done w' ->
  w_tx w = begin_tx (w_comm w) (t_refs (w_tx w)) ->   (* just committed / begun *)
  has_inode (w_comm w) x -> 0 < refcount (t_refs (w_tx w)) x ->
  Forall (keeps x) l ->
  (forall y, refcount (t_refs (w_tx w)) y + Z.of_nat (length l) < 2 ^ 64) ->
  has_inode (w_comm w') x /\ has_inode (t_db (w_tx w')) x /\ 0 < refcount (t_refs (w_tx w')) x /\
  (untouched x w l -> same_inode (w_comm w) (w_comm w') x /\ same_inode (w_comm w) (t_db (w_tx w')) x).
Proof.
  intros w l w' x Hr Hl Hrun Hb Hx Hpos Hk Hov. pose proof (reachable_inv _ Hr) as HW.
  set (B := 2 ^ 64 - 1 - Z.of_nat (length l)).
  assert (HH : Held x B w (t_refs (w_tx w)) (refcount (t_refs (w_tx w)))).
  { split; auto; try (intros y; specialize (Hov y); unfold B; lia).
    - apply (tinv_refs _ (winv_tx _ HW)).
    - rewrite Hb. constructor.
    - rewrite Hb. intros n Hn. apply elem_of_nil in Hn. contradiction.
    - rewrite Hb. assumption. }
  destruct (wrun_held x l w w' B _ _ HW Hl Hrun Hk ltac:(unfold B; lia) HH) as [(B' & r0 & f & HH') Hs].
  split_and!; [apply (held_comm _ _ _ _ _ HH')|apply (held_tx _ _ _ _ _ HH')| |].
  - rewrite (held_f _ _ _ _ _ HH'). pose proof (trail_ge _ _ _ x (held_trail _ _ _ _ _ HH') (held_no _ _ _ _ _ HH')). pose proof (held_x _ _ _ _ _ HH'). lia.
  - intros Hu. apply Hs; auto using same_inode_refl. rewrite Hb. apply same_inode_refl.
Qed.
Print Assumptions C15_locked_inode_survives.
(** Inside one transaction: one operation, any state. *)
Theorem C15_one_operation : forall w o res t' x, reachable w -> legal (w_tx w) o ->
  step (w_tx w) o = Done (res, t') ->
  has_inode (t_db (w_tx w)) x -> 0 < refcount (t_refs (w_tx w)) x ->
  has_inode (t_db t') x /\ (~ touches (t_db (w_tx w)) o x -> same_inode (t_db (w_tx w)) (t_db t') x).
Proof.
  intros w o res t' x Hr Hl E Hx Hpos. destruct (step_fr _ _ _ _ (tx_inv _ Hr) Hl E) as [_ Hfr].
  destruct (fr_held _ _ _ _ _ _ Hfr Hx Hpos) as [H1 H2]. split; [assumption|]. intros Ht. apply H2; [assumption|].
  intros HL. apply Ht. apply relinks_touches. assumption.
Qed.
Print Assumptions C15_one_operation.

(** ** C16: orphan cleaning *)
Theorem C16_clean_orphans : forall w, reachable w ->
  let t := w_tx w in let d := t_db t in let r := t_refs t in
  exists t', tx_clean t = Done t' /\
  let d' := t_db t' in
  pruned d d' (reclaimable d r) /\
  (forall x, is_orphan d' x -> 0 < refcount r x) /\
  (forall x, is_orphan d' x <-> ~ reclaimable d r x /\ (is_orphan d x \/ exists p n, reclaimable d r p /\ lookup d p n = Ok x)) /\
  (forall x, refcount (t_refs t') x = refcount r x) /\
  (forall x, doomed (t_refs t') x = true <-> reclaimable d r x \/ doomed r x = true).
Proof.
  intros w Hr t d r. destruct (clean_api t (tx_inv _ Hr)) as (t' & E & _ & _ & _ & H). exists t'. split; [assumption|]. exact H.
Qed.
Print Assumptions C16_clean_orphans.

(** ** C17: the root *)
Theorem C17_root : forall w d, reachable w -> view w d ->
  isdir d ROOT_INO /\ parent_of d ROOT_INO = Ok ROOT_INO /\ ~ is_orphan d ROOT_INO /\
  (forall p n, u64 p -> lookup d p n <> Ok ROOT_INO).
Proof.
  intros w d Hr Hv. pose proof (view_inv _ _ Hr Hv) as H. destruct (inv_root _ H) as (i & Hi & _ & Ht). split_and!.
  - exists (i_attr i). split; [apply getattr_Ok; eauto|assumption].
  - reflexivity.
  - intros [? _]. congruence.
  - intros p n Hp E. apply lookup_treei in E as (e & He & _); auto. destruct (treei_facts _ _ _ _ H He) as (_ & _ & _ & Hne & _). apply Hne. reflexivity.
Qed.
Theorem C17_root_not_removable : forall w p, reachable w ->
  unlink_ino (w_tx w) ROOT_INO = Done (Err EIO, w_tx w) /\ unlink_child (w_tx w) p ROOT_INO = Done (Err EIO, w_tx w).
Proof.
  intros w p Hr. assert (E : unlink_ino (w_tx w) 1 = Done (Err EIO, w_tx w)).
  { destruct (unlink_ino_spec (w_tx w) 1 (tx_inv _ Hr)) as [(_ & E)|[(Hn & E)|(d1 & Hd1 & _)]]; [assumption|exfalso..].
    - destruct (inv_root _ (tinv_db _ (tx_inv _ Hr))) as (i & Hi & _). congruence.
    - destruct Hd1 as [[Ho _]|(q & e & i & He & _)].
      + apply (inv_root_orph _ (tinv_db _ (tx_inv _ Hr))). assumption.
      + destruct (treei_facts _ _ _ _ (tinv_db _ (tx_inv _ Hr)) He) as (_ & _ & _ & ? & _). congruence. }
  split; exact E.
Qed.
Print Assumptions C17_root.
Print Assumptions C17_root_not_removable.

(** ** C18: readdir *)
(** A reader starting at 0 who passes each returned inode number to the next call sees ".",
    ".." (except in the root directory), and then every entry exactly once, and then reaches
    the end. *)
Theorem C18_readdir_enumerates : forall w d dir p, reachable w -> view w d ->
  has_inode d dir -> parent_of d dir = Ok p -> p <> 0 ->
  exists entries,
    listing d dir 0 ((dir, DOT) :: (if dir =? ROOT_INO then [] else [(p, DOTDOT)]) ++ entries) /\
    (forall c n, (c, n) ∈ entries <-> lookup d dir n = Ok c) /\
    NoDup (map fst entries) /\ NoDup (map snd entries).
Proof.
  intros w d dir p Hr Hv Hx Hp Hp0. pose proof (view_inv _ _ Hr Hv) as H.
  assert (Hu : u64 dir /\ dir <> 0). { apply has_inode_iff in Hx as [i Hi]. apply (u64_of_inode _ _ _ H Hi). }
  destruct Hu as [Hu Hd0]. exists (dir_entries d dir). split_and!.
  - assert (Hfrom : listing d dir p (dir_entries d dir)).
    { eapply (listing_from d dir p p [] (dir_entries d dir)); eauto. apply readdir_start; assumption. }
    eapply listing_entry; [reflexivity|]. destruct (parent_lt _ _ _ H Hp) as [[-> ->]|[[? ?]|[Hne Hlt]]]; [exact Hfrom|contradiction|].
    unfold ROOT_INO. rewrite (proj2 (Z.eqb_neq dir 1) Hne). cbn [app]. eapply listing_entry; [|exact Hfrom].
    unfold readdir. rewrite (proj2 (Z.eqb_neq dir 0) Hd0). rewrite Hp. rewrite Z.eqb_refl. 
    assert (Hdp : dir =? p = false) by (apply Z.eqb_neq; lia). rewrite Hdp. reflexivity.
  - intros c n. rewrite elem_dir_entries. rewrite lookup_treei by assumption. reflexivity.
  - apply (dir_entries_nodup _ _ H).
  - apply (dir_entries_nodup _ _ H).
Qed.
Print Assumptions C18_readdir_enumerates.
Theorem C18_listing_unique : forall d dir prev l1 l2, listing d dir prev l1 -> listing d dir prev l2 -> l1 = l2.
Proof.
  intros d dir prev l1 l2 H. revert l2. induction H as [prev E|prev x n l E _ IH]; intros l2 H2; inversion H2 as [? E'|? x' n' l' E' Hl']; subst; try congruence.
  assert (x' = x /\ n' = n) as [-> ->] by (split; congruence). f_equal. apply IH. assumption.
Qed.
(** A held orphan directory can not be listed: "." and ".." alternate for ever. *)
Theorem C18_orphan_refuted : exists w x, reachable w /\ isdir (t_db (w_tx w)) x /\ is_orphan (t_db (w_tx w)) x /\
  forall l, ~ listing (t_db (w_tx w)) x 0 l.
Proof.
  set (w := match run_sample [EOp (OEmplace 1 (nm 100) dirA); EOp (OLock 2); EOp (OUnlinkIno 2)] with Done w => w | _ => sample_world end).
  assert (Hr : reachable w).
  { exists (A 0). destruct (wopen (A 0)) as [w0| | |] eqn:E0; try (vm_compute in E0; discriminate).
    exists w0, [EOp (OEmplace 1 (nm 100) dirA); EOp (OLock 2); EOp (OUnlinkIno 2)]. split; [reflexivity|].
    assert (Hl : match wopen (A 0) with Done w => legal_runb w [EOp (OEmplace 1 (nm 100) dirA); EOp (OLock 2); EOp (OUnlinkIno 2)] | _ => false end = true) by (vm_compute; reflexivity).
    rewrite E0 in Hl. split; [apply legal_runb_ok; assumption|].
    assert (Hd : match run_sample [EOp (OEmplace 1 (nm 100) dirA); EOp (OLock 2); EOp (OUnlinkIno 2)] with Done _ => true | _ => false end = true) by (vm_compute; reflexivity).
    unfold w, run_sample in *. rewrite E0 in *. cbn [obind] in *. destruct (wrun w0 _); try discriminate. reflexivity. }
  exists w, 2. split; [assumption|]. split; [exists dirA; split; vm_compute; reflexivity|]. split; [split; vm_compute; [discriminate|reflexivity]|].
  assert (E0 : readdir (t_db (w_tx w)) 2 0 = Ok (2, DOT)) by (vm_compute; reflexivity).
  assert (E2 : readdir (t_db (w_tx w)) 2 2 = Ok (0, DOTDOT)) by (vm_compute; reflexivity).
  enough (Hno : forall prev l, listing (t_db (w_tx w)) 2 prev l -> prev = 0 \/ prev = 2 -> False).
  { intros l Hl. eapply Hno; [exact Hl|auto]. }
  induction 1 as [prev E|prev x n l E _ IH]; intros [->| ->]; try congruence.
  - apply IH. right. congruence.
  - apply IH. left. congruence.
Qed.

(** ** C19: directory rewriting *)
(** [session dir t m]: see CacheDir.v; it starts in any state with the hypotheses of C11. *)
Theorem C19_rewrite : forall dir t m, session dir t m -> exists res t',
  finish_dir_rewrite t = Done (res, t') /\
  (forall n c, lookup (t_db t') dir n = Ok c <-> exists a, m !! n = Some (c, a)) /\
  (forall n i a, m !! n = Some (i, a) -> getattr (t_db t') i = Ok a) /\
  (forall q n, u64 q -> q <> dir -> lookup (t_db t') q n = lookup (t_db t) q n) /\
  (forall x, same_inode (t_db t) (t_db t') x) /\
  (forall n c, lookup (t_db t) dir n = Ok c -> m !! n = None -> is_orphan (t_db t') c).
Proof.
  intros dir t m HS. destruct (session_finish _ _ _ HS) as (res & t' & E & _ & _ & _ & _ & _ & H1 & H2 & H3 & H4 & H5).
  exists res, t'. split_and!; auto.
Qed.
Print Assumptions C19_rewrite.
Theorem C19_session_starts : forall w dir t1, reachable w -> t_rw (w_tx w) = None ->
  isdir (t_db (w_tx w)) dir -> ~ reclaimable (t_db (w_tx w)) (t_refs (w_tx w)) dir ->
  start_dir_rewrite (w_tx w) dir = Done (Ok tt, t1) -> session dir t1 ∅.
Proof. intros. eapply ses_start; eauto using tx_inv, isdir_is_dir. Qed.
(** finish_dir_rewrite reports EBADFD although everything went well, if no directory entry
    sorts at or behind the rewritten directory *)
Theorem C19_finish_result_refuted : exists t t1 t2, reachable (World (t_db t) t) /\ isdir (t_db t) 2 /\
  start_dir_rewrite t 2 = Done (Ok tt, t1) /\ finish_dir_rewrite t1 = Done (Err EBADFD, t2).
Proof.
  set (w := match run_sample [EOp (OEmplace 1 (nm 100) dirA); ECommit] with Done w => w | _ => sample_world end).
  assert (Hr : reachable w).
  { exists (A 0). destruct (wopen (A 0)) as [w0| | |] eqn:E0; try (vm_compute in E0; discriminate).
    exists w0, [EOp (OEmplace 1 (nm 100) dirA); ECommit]. split; [reflexivity|].
    assert (Hl : match wopen (A 0) with Done w => legal_runb w [EOp (OEmplace 1 (nm 100) dirA); ECommit] | _ => false end = true) by (vm_compute; reflexivity).
    rewrite E0 in Hl. split; [apply legal_runb_ok; assumption|].
    assert (Hd : match run_sample [EOp (OEmplace 1 (nm 100) dirA); ECommit] with Done _ => true | _ => false end = true) by (vm_compute; reflexivity).
    unfold w, run_sample in *. rewrite E0 in *. cbn [obind] in *. destruct (wrun w0 _); try discriminate. reflexivity. }
  exists (w_tx w), (w_tx w), (w_tx w). split.
  { assert (Ew : w = World (t_db (w_tx w)) (w_tx w)) by (vm_compute; reflexivity). rewrite <- Ew. assumption. }
  split; [exists dirA; split; vm_compute; reflexivity|]. split; vm_compute; reflexivity.
Qed.
