(** Specifications of the cache operations and preservation of the invariant. *)
From Coq Require Import Sorted.
From Verif Require Export CacheInv.

(** ** lookup finds exactly the entry stored under (parent, name) *)
Lemma lookup_scan_others p n (l : list ((Z * bytes) * dirent)) : (forall k e, (k, e) ∈ l -> k.1 <> p) -> lookup_scan p n l = Err ENOENT.
Proof.
  induction l as [|[[q m] e] l IH]; intros H; [reflexivity|]. cbn [lookup_scan].
  destruct (negb (length m =? length n)%nat).
  - apply IH. intros k f Hin. apply (H k f). right; assumption.
  - destruct (Z.eqb_spec q p) as [->|Hne]; [|reflexivity]. exfalso. apply (H (p, m) e); [left|reflexivity].
Qed.
Lemma lookup_scan_mine (p : Z) (n : bytes) (mine others : list ((Z * bytes) * dirent)) (M : gmap (Z * bytes) dirent) :
  (forall k e, (k, e) ∈ mine -> k.1 = p /\ M !! k = Some e) ->
  (forall k e, (k, e) ∈ others -> k.1 <> p) ->
  lookup_scan p n (mine ++ others) =
    match M !! (p, n) with
    | Some e => if decide ((p, n) ∈ mine.*1) then Ok (de_ino e) else Err ENOENT
    | None => Err ENOENT
    end.
Proof.
  intros Hm Ho. induction mine as [|[[q m] e] l IH].
  - cbn [app]. rewrite lookup_scan_others by assumption. destruct (M !! (p, n)); [|reflexivity].
    rewrite decide_False; [reflexivity|]. apply not_elem_of_nil.
  - destruct (Hm (q, m) e) as [Hq He]; [left|]. cbn in Hq. subst q.
    assert (IH' : lookup_scan p n (l ++ others) = match M !! (p, n) with
      | Some e => if decide ((p, n) ∈ l.*1) then Ok (de_ino e) else Err ENOENT | None => Err ENOENT end).
    { apply IH. intros k f Hin. apply Hm. right; assumption. }
    cbn [app lookup_scan fmap list_fmap fst].
    destruct (Nat.eqb_spec (length m) (length n)) as [Hl|Hl]; cbn [negb].
    + rewrite Z.eqb_refl. cbn [negb]. destruct (decide (m = n)) as [->|Hne].
      * rewrite He. rewrite decide_True by left. reflexivity.
      * rewrite IH'. destruct (M !! (p, n)); [|reflexivity].
        apply decide_ext. rewrite elem_of_cons. split; [auto|]. intros [E|?]; [injection E as ->; contradiction|assumption].
    + rewrite IH'. destruct (M !! (p, n)); [|reflexivity].
      apply decide_ext. rewrite elem_of_cons. split; [auto|]. intros [E|?]; [injection E as ->; contradiction|assumption].
Qed.

Lemma lookup_scan_spec d p n : Inv d -> u64 p ->
  lookup_scan p n (from_key enc_in (d_treen d) (le64 p)) =
    match d_treen d !! (p, n) with Some e => Ok (de_ino e) | None => Err ENOENT end.
Proof.
  intros H Hp. rewrite (scan_split_in (d_treen d) p Hp).
  2: { intros k v Hk. apply (treen_u64 _ _ _ H Hk). }
  rewrite (lookup_scan_mine p n _ _ (d_treen d)).
  - destruct (d_treen d !! (p, n)) as [e|] eqn:E; [|reflexivity]. apply decide_True.
    apply elem_of_list_fmap. exists ((p, n), e). split; [reflexivity|].
    apply elem_of_list_filter. split; [reflexivity|]. apply elem_of_from. split; [assumption|].
    apply (scan_before p n).
  - intros k e Hin. apply elem_of_list_filter in Hin as [Hk Hin]. apply elem_of_from in Hin as [Hin _]. auto.
  - intros k e Hin. apply elem_of_list_filter in Hin as [Hk _]. assumption.
Qed.
Lemma lookup_spec d p n : Inv d -> u64 p -> p <> 0 -> Z.of_nat (length n) <= 503 ->
  lookup d p n = match d_treen d !! (p, n) with Some e => Ok (de_ino e) | None => Err ENOENT end.
Proof.
  intros H Hp Hp0 Hn. unfold lookup, check_name, MAX_NAME. destruct (Z.ltb_spec (511 - 8) (Z.of_nat (length n))); [lia|].
  cbn [negb]. unfold INVALID_INO. destruct (Z.eqb_spec p 0); [contradiction|]. apply lookup_scan_spec; assumption.
Qed.
Lemma valid_name_len n : valid_name n -> Z.of_nat (length n) <= 503.
Proof.
  unfold valid_name, check_name, MAX_NAME. destruct (Z.ltb_spec (511 - 8) (Z.of_nat (length n))); [discriminate|]. lia.
Qed.
(** the lookup answer in all cases *)
Lemma lookup_Ok d p n c : Inv d -> u64 p ->
  lookup d p n = Ok c <-> p <> 0 /\ exists e, d_treen d !! (p, n) = Some e /\ de_ino e = c.
Proof.
  intros H Hp. split.
  - intros E. assert (Hn : Z.of_nat (length n) <= 503 /\ p <> 0).
    { unfold lookup, check_name, MAX_NAME in E. destruct (Z.ltb_spec (511 - 8) (Z.of_nat (length n))); [discriminate|].
      cbn in E. unfold INVALID_INO in E. destruct (Z.eqb_spec p 0); [discriminate|]. lia. }
    destruct Hn as [Hn Hp0]. split; [assumption|]. rewrite lookup_spec in E by assumption.
    destruct (d_treen d !! (p, n)) as [e|] eqn:He; [|discriminate]. injection E as <-. eauto.
  - intros (Hp0 & e & He & <-). destruct (inv_treen _ H _ _ _ He) as (_ & Hv & _).
    rewrite lookup_spec by (auto using valid_name_len). rewrite He. reflexivity.
Qed.

(** ** changing attributes or flags in place *)
Lemma reshape_inv d x i j : Inv d -> d_inodes d !! x = Some i -> i_parent j = i_parent i ->
  ftype (a_mode (i_attr j)) = ftype (a_mode (i_attr i)) ->
  Inv (set_inodes (<[x := j]> (d_inodes d)) d).
Proof.
  intros H Hx Hp Ht.
  assert (Hl : forall y k, (<[x := j]> (d_inodes d)) !! y = Some k -> exists k', d_inodes d !! y = Some k' /\
     i_parent k = i_parent k' /\ ftype (a_mode (i_attr k)) = ftype (a_mode (i_attr k'))).
  { intros y k. destruct (decide (y = x)) as [->|Hne].
    - rewrite lookup_insert. intros E. injection E as <-. eauto.
    - rewrite lookup_insert_ne by congruence. eauto. }
  assert (Hr : forall y k', d_inodes d !! y = Some k' -> exists k, (<[x := j]> (d_inodes d)) !! y = Some k /\
     i_parent k = i_parent k' /\ ftype (a_mode (i_attr k)) = ftype (a_mode (i_attr k'))).
  { intros y k Hy. destruct (decide (y = x)) as [->|Hne].
    - rewrite lookup_insert. assert (k = i) by congruence. subst. eauto.
    - rewrite lookup_insert_ne by congruence. eauto. }
  split; cbn.
  - destruct (inv_next _ H) as (n & Hn1 & Hn2 & Hn3). exists n. split_and!; try lia; auto.
    intros y k Hy. destruct (Hl _ _ Hy) as (k' & Hk' & _). eauto.
  - destruct (inv_root _ H) as (k & Hk & Hk1 & Hk2). destruct (Hr _ _ Hk) as (k' & ? & ? & ?).
    exists k'. split_and!; auto; congruence.
  - apply (inv_root_orph _ H).
  - intros p c e He. destruct (inv_treei _ H _ _ _ He) as (F1 & F2 & F3 & (k & Fk & Fd) & (k2 & Fk2 & Fp) & Fn).
    split_and!; auto; try lia.
    + destruct (Hr _ _ Fk) as (k' & ? & ? & ?). exists k'. split; cbn; auto; congruence.
    + destruct (Hr _ _ Fk2) as (k' & ? & ? & ?). exists k'. split; auto; congruence.
  - apply (inv_treen _ H).
  - intros c k Hk Hpar. destruct (Hl _ _ Hk) as (k' & Hk' & E & _). rewrite E in *. eapply inv_parent; eauto.
  - intros c Hc. destruct (inv_orphan _ H _ Hc) as (k & Hk & Hk0). destruct (Hr _ _ Hk) as (k' & ? & ? & ?).
    exists k'. split; auto; congruence.
  - intros c k Hk Hne Hpar. destruct (Hl _ _ Hk) as (k' & Hk' & E & _). eapply inv_parent0; eauto. congruence.
  - intros c b Hb. destruct (inv_links _ H _ _ Hb) as (k & Hk & Hk0). destruct (Hr _ _ Hk) as (k' & ? & ? & ?).
    exists k'. split; auto; congruence.
Qed.
Lemma links_inv d x i b : Inv d -> d_inodes d !! x = Some i -> ftype (a_mode (i_attr i)) = S_IFLNK ->
  Inv (set_links (<[x := b]> (d_links d)) d).
Proof.
  intros H Hx Ht. destruct H as [I1 I2 I3 I4 I5 I6 I7 I8 I9]. split; cbn; auto.
  intros c b'. destruct (decide (c = x)) as [->|Hne]; [eauto|]. rewrite lookup_insert_ne by congruence. apply I9.
Qed.

(** ** adding an entry *)
Definition added (p : Z) (n : bytes) (a : attrs) (k : Z) (d : db) : db :=
  Db (Some (k + 1)) (<[k := mkinode a p]> (d_inodes d))
     (<[(p, k) := Dirent 0 0 k n]> (d_treei d)) (<[(p, n) := Dirent 0 0 k n]> (d_treen d))
     (d_orphans d) (d_links d).
Lemma added_inv d p n a k : Inv d -> is_dir d p -> d_treen d !! (p, n) = None -> valid_name n ->
  d_next d = Some k -> k + 1 < 2 ^ 64 -> Inv (added p n a k d).
Proof.
  intros H (pi & Hpi & Hpd) Hnone Hv Hk Hlt.
  destruct (inv_next _ H) as (k' & Hk' & Hk2 & Hr). rewrite Hk in Hk'. injection Hk' as <-.
  pose proof (Hr _ _ Hpi) as Hprange.
  assert (Hfresh : d_inodes d !! k = None).
  { destruct (d_inodes d !! k) eqn:E; [|reflexivity]. specialize (Hr _ _ E). lia. }
  assert (Hne : forall x i, d_inodes d !! x = Some i -> x <> k) by (intros x i Hx ->; congruence).
  assert (Hti : forall q c e, d_treei d !! (q, c) = Some e -> c <> k).
  { intros q c e He. destruct (inv_treei _ H _ _ _ He) as (_ & _ & _ & _ & (j & Hj & _) & _). eauto. }
  assert (Hdir : forall q, is_dir d q -> is_dir (added p n a k d) q).
  { intros q (j & Hj & Hd). exists j. split; [|assumption]. cbn. rewrite lookup_insert_ne; [assumption|]. apply not_eq_sym. eauto. }
  split; cbn.
  - exists (k + 1). split_and!; try lia; [reflexivity|]. intros x i. destruct (decide (x = k)) as [->|Hx]; [lia|].
    rewrite lookup_insert_ne by congruence. intros Hi. specialize (Hr _ _ Hi). lia.
  - rewrite lookup_insert_ne by lia. apply (inv_root _ H).
  - apply (inv_root_orph _ H).
  - intros q c e He. destruct (decide ((p, k) = (q, c))) as [E|E].
    + injection E as <- <-. rewrite lookup_insert in He. injection He as <-. cbn. split_and!; try lia; try reflexivity.
      * apply Hdir. eexists; eauto.
      * rewrite lookup_insert. eexists. split; reflexivity.
      * rewrite lookup_insert. reflexivity.
    + rewrite lookup_insert_ne in He by assumption.
      destruct (inv_treei _ H _ _ _ He) as (F1 & F2 & F3 & Fd & (j & Fj & Fp) & Fn). split_and!; auto; try lia.
      * exists j. rewrite lookup_insert_ne; [auto|]. apply not_eq_sym. eauto.
      * rewrite lookup_insert_ne; [assumption|]. intros E2. injection E2 as <- E2. rewrite <- E2, Hnone in Fn. discriminate.
  - intros q m e He. destruct (decide ((p, n) = (q, m))) as [E|E].
    + injection E as <- <-. rewrite lookup_insert in He. injection He as <-. cbn. rewrite lookup_insert. auto.
    + rewrite lookup_insert_ne in He by assumption. destruct (inv_treen _ H _ _ _ He) as (F1 & F2 & F3).
      split_and!; auto. rewrite lookup_insert_ne; [assumption|]. intros E2. injection E2 as <- E2.
      apply (Hti _ _ _ F3). congruence.
  - intros c i Hi Hpar. destruct (decide (c = k)) as [->|Hc].
    + rewrite lookup_insert in Hi. injection Hi as <-. cbn. rewrite lookup_insert. eauto.
    + rewrite lookup_insert_ne in Hi by congruence. destruct (inv_parent _ H _ _ Hi Hpar) as [e He]. exists e.
      rewrite lookup_insert_ne by congruence. assumption.
  - intros c Hc. destruct (inv_orphan _ H _ Hc) as (i & Hi & Hp). exists i. rewrite lookup_insert_ne; [auto|]. apply not_eq_sym; eauto.
  - intros c i Hi Hc1 Hpar. destruct (decide (c = k)) as [->|Hc].
    + rewrite lookup_insert in Hi. injection Hi as <-. cbn in Hpar. lia.
    + rewrite lookup_insert_ne in Hi by congruence. eapply inv_parent0; eauto.
  - intros c b Hb. destruct (inv_links _ H _ _ Hb) as (i & Hi & Hl). exists i. rewrite lookup_insert_ne; [auto|]. apply not_eq_sym; eauto.
Qed.

(** ** transactions *)
Definition refs_ok (r : refs) : Prop := forall x n b, r !! x = Some (n, b) -> 0 <= n.
(** rollback hooks only give back non-negative amounts *)
Definition hooks_ok (hs : list hook) : Prop :=
  Forall (fun h => match h with RbIncref _ n => 0 <= n | RbDecref _ => True end) hs.
Record TInv (t : tx) : Prop := {
  tinv_db : Inv (t_db t); tinv_refs : refs_ok (t_refs t); tinv_hooks : hooks_ok (t_hooks t) }.

Lemma refs_ok_doom_all R r : refs_ok r -> refs_ok (doom_all R r).
Proof.
  intros H x n b. rewrite doom_all_lookup. destruct (decide (x ∈ R)); [|apply H].
  intros E. injection E as <- <-. unfold refcount. destruct (r !! x) as [[m b]|] eqn:E; [eapply H; eauto|lia].
Qed.
Lemma refcount_nonneg r x : refs_ok r -> 0 <= refcount r x.
Proof. intros H. unfold refcount. destruct (r !! x) as [[m b]|] eqn:E; [eapply H; eauto|lia]. Qed.

Lemma tx_clean_spec t : TInv t -> exists R : gset Z,
  (forall x, x ∈ R <-> gone (t_db t) (t_refs t) x) /\
  tx_clean t = Done (Tx (cleaned R (t_db t)) (doom_all R (t_refs t)) (t_hooks t) (t_rw t)) /\
  TInv (Tx (cleaned R (t_db t)) (doom_all R (t_refs t)) (t_hooks t) (t_rw t)).
Proof.
  intros [H Hr Hh]. destruct (clean_orphans_spec (t_db t) (t_refs t) H) as (R & HR & E & Hi).
  exists R. split_and!; auto.
  - unfold tx_clean. rewrite E. reflexivity.
  - split; [assumption|apply refs_ok_doom_all; assumption|assumption].
Qed.

(** Calls within the documented preconditions: the parent of a new entry is an existing
    directory and inode numbers are not exhausted; counts are unsigned. *)
Definition room (d : db) : Prop := exists k, d_next d = Some k /\ k + 1 < 2 ^ 64.
Definition legal (t : tx) (o : op) : Prop :=
  match o with
  | OEmplace p n a => is_dir (t_db t) p /\ room (t_db t)
  | ORelease _ n => 0 <= n
  | _ => True
  end.

Lemma allocate_spec d k : d_next d = Some k -> k + 1 < 2 ^ 64 -> 0 <= k ->
  allocate d = Done (k, set_next (Some (k + 1)) d).
Proof. intros E Hk H0. unfold allocate. rewrite E. rewrite w64_id by lia. reflexivity. Qed.

(** the old entry of a name that is to be replaced *)
Definition detached_name (d : db) (p : Z) (n : bytes) : db :=
  match d_treen d !! (p, n) with
  | Some e => match d_inodes d !! de_ino e with Some i => detach1 p (de_ino e) n i d | None => d end
  | None => d
  end.

Lemma treen_child d p n e : Inv d -> d_treen d !! (p, n) = Some e ->
  d_treei d !! (p, de_ino e) = Some e /\ de_name e = n /\ exists i, d_inodes d !! de_ino e = Some i /\ i_parent i = p.
Proof.
  intros H He. destruct (inv_treen _ H _ _ _ He) as (Hn & _ & Hi). split_and!; auto.
  destruct (inv_treei _ H _ _ _ Hi) as (_ & _ & _ & _ & Hx & _). assumption.
Qed.

Lemma detached_name_spec d p n : Inv d ->
  Inv (detached_name d p n) /\ d_treen (detached_name d p n) !! (p, n) = None /\
  d_next (detached_name d p n) = d_next d /\
  (forall q, is_dir d q -> is_dir (detached_name d p n) q).
Proof.
  intros H. unfold detached_name. destruct (d_treen d !! (p, n)) as [e|] eqn:He; [|auto].
  destruct (treen_child _ _ _ _ H He) as (Hti & <- & (i & Hi & Hp)). rewrite Hi. split_and!.
  - apply detach1_inv; assumption.
  - cbn. apply lookup_delete.
  - reflexivity.
  - intros q (j & Hj & Hd). unfold is_dir. cbn. destruct (decide (q = de_ino e)) as [->|Hne].
    + rewrite lookup_insert. eexists. split; [reflexivity|]. cbn. congruence.
    + rewrite lookup_insert_ne by congruence. eauto.
Qed.

Lemma emplace_spec t p n a : TInv t -> is_dir (t_db t) p -> room (t_db t) ->
  let d := t_db t in
  (exists err, check_name n true = Err err /\ emplace t p n a = Done (Err err, t)) \/
  (valid_name n /\ exists e i, d_treen d !! (p, n) = Some e /\ d_inodes d !! de_ino e = Some i /\
     ftype (a_mode (i_attr i)) = ftype (a_mode a) /\
     let t' := Tx (set_inodes (<[de_ino e := mkinode a p]> (d_inodes d)) d) (t_refs t) (t_hooks t)
                  (match t_rw t with None => None | Some s => Some (s ∖ {[de_ino e]}) end) in
     emplace t p n a = Done (Ok (de_ino e), t') /\ TInv t') \/
  (valid_name n /\
   (forall e i, d_treen d !! (p, n) = Some e -> d_inodes d !! de_ino e = Some i ->
      ftype (a_mode (i_attr i)) <> ftype (a_mode a)) /\
   exists k (R : gset Z), d_next d = Some k /\ d_inodes d !! k = None /\
     let d1 := added p n a k (detached_name d p n) in
     Inv d1 /\ (forall x, x ∈ R <-> gone d1 (t_refs t) x) /\
     let t' := Tx (cleaned R d1) (doom_all R (t_refs t)) (t_hooks t) (t_rw t) in
     emplace t p n a = Done (Ok k, t') /\ TInv t').
Proof.
  intros HT Hdir (k & Hk & Hlt) d. pose proof (tinv_db _ HT) as H. fold d in H, Hdir, Hk.
  destruct (check_name n true) as [[]|err] eqn:Hcn.
  2: { left. exists err. split; [reflexivity|]. unfold emplace. rewrite Hcn. reflexivity. }
  right. change (check_name n true = Ok tt) with (valid_name n) in Hcn.
  assert (Hk0 : 0 <= k). { destruct (inv_next _ H) as (k' & Hk' & ? & _). rewrite Hk in Hk'. injection Hk' as <-. lia. }
  assert (Hfresh : d_inodes d !! k = None).
  { destruct (d_inodes d !! k) eqn:E; [|reflexivity]. destruct (inv_next _ H) as (k' & Hk' & ? & Hr).
    rewrite Hk in Hk'. injection Hk' as <-. specialize (Hr _ _ E). lia. }
  destruct (detached_name_spec d p n H) as (Hi0 & Hn0 & Hk1 & Hd0).
  set (d0 := detached_name d p n) in *.
  assert (Hd1 : Inv (added p n a k d0)) by (apply added_inv; auto; congruence).
  assert (Hfr : forall F,
    (F = dlet (ino, d) := allocate d0 in
      let d := set_inodes (<[ino := mkinode a p]> (d_inodes d)) d in
      let d := set_treen (<[(p, n) := Dirent 0 0 ino n]> (d_treen d)) d in
      let d := set_treei (<[(p, ino) := Dirent 0 0 ino n]> (d_treei d)) d in
      dlet t := tx_clean (with_db d t) in
      Done (Ok ino, t)) ->
    exists R : gset Z, (forall x, x ∈ R <-> gone (added p n a k d0) (t_refs t) x) /\
     let t' := Tx (cleaned R (added p n a k d0)) (doom_all R (t_refs t)) (t_hooks t) (t_rw t) in
     F = Done (Ok k, t') /\ TInv t').
  { intros F ->. rewrite (allocate_spec d0 k) by (auto; congruence). cbn [obind]. cbn zeta.
    destruct (tx_clean_spec (Tx (added p n a k d0) (t_refs t) (t_hooks t) (t_rw t))) as (R & HR & E & HT').
    { split; [assumption|apply (tinv_refs _ HT)|apply (tinv_hooks _ HT)]. }
    exists R. split; [exact HR|]. cbn zeta.
    match goal with |- context [tx_clean ?x] =>
      change x with (Tx (added p n a k d0) (t_refs t) (t_hooks t) (t_rw t)) end.
    rewrite E. cbn [obind t_db t_refs t_hooks t_rw] in *. auto. }
  destruct (d_treen d !! (p, n)) as [e|] eqn:He.
  - destruct (treen_child _ _ _ _ H He) as (Hti & Hname & (i & Hi & Hp)).
    destruct (decide (ftype (a_mode (i_attr i)) = ftype (a_mode a))) as [Heq|Hneq].
    + left. split; [assumption|]. exists e, i. split_and!; auto. cbn zeta. split.
      * unfold emplace. rewrite Hcn. fold d. rewrite He, Hi. rewrite (proj2 (Z.eqb_eq _ _) Heq). reflexivity.
      * split; [|apply (tinv_refs _ HT)|apply (tinv_hooks _ HT)]. apply (reshape_inv _ _ i); auto; cbn; congruence.
    + right. split; [assumption|]. split; [intros; congruence|]. 
      destruct (Hfr _ eq_refl) as (R & HR & E & HT'). exists k, R. cbn zeta. split_and!; auto.
      rewrite <- E. unfold emplace. rewrite Hcn. fold d. rewrite He, Hi. rewrite (proj2 (Z.eqb_neq _ _) Hneq).
      rewrite (make_orphan_attached _ _ _ _ _ H Hti Hi). cbn [snd]. unfold d0, detached_name. rewrite He, Hi, Hname. reflexivity.
  - right. split; [assumption|]. split; [intros; congruence|].
    destruct (Hfr _ eq_refl) as (R & HR & E & HT'). exists k, R. cbn zeta. split_and!; auto.
    rewrite <- E. unfold emplace. rewrite Hcn. fold d. rewrite He. unfold d0, detached_name. rewrite He. reflexivity.
Qed.

Lemma unlink_ino_spec t c : TInv t ->
  let d := t_db t in
  (c = 1 /\ unlink_ino t c = Done (Err EIO, t)) \/
  (d_inodes d !! c = None /\ unlink_ino t c = Done (Err ENOENT, t)) \/
  (exists d1, (c ∈ d_orphans d /\ d1 = d \/
     exists p e i, d_treei d !! (p, c) = Some e /\ d_inodes d !! c = Some i /\ d1 = detach1 p c (de_name e) i d) /\
   Inv d1 /\ exists R : gset Z, (forall x, x ∈ R <-> gone d1 (t_refs t) x) /\
     let t' := Tx (cleaned R d1) (doom_all R (t_refs t)) (t_hooks t) (t_rw t) in
     unlink_ino t c = Done (Ok tt, t') /\ TInv t').
Proof.
  intros HT d. pose proof (tinv_db _ HT) as H. fold d in H.
  assert (Hgen : forall d1, make_orphan d c = (Ok tt, d1) -> Inv d1 ->
    exists R : gset Z, (forall x, x ∈ R <-> gone d1 (t_refs t) x) /\
     let t' := Tx (cleaned R d1) (doom_all R (t_refs t)) (t_hooks t) (t_rw t) in
     unlink_ino t c = Done (Ok tt, t') /\ TInv t').
  { intros d1 E Hd1. destruct (tx_clean_spec (with_db d1 t)) as (R & HR & E' & HT').
    { split; [assumption|apply (tinv_refs _ HT)|apply (tinv_hooks _ HT)]. }
    exists R. split; [exact HR|]. cbn zeta. unfold unlink_ino. fold d. rewrite E, E'. auto. }
  destruct (make_orphan_cases d c H) as [[Hc E]|[[Hc E]|[[Hc E]|(p & e & i & He & Hi & E)]]].
  - left. split; [assumption|]. unfold unlink_ino. fold d. rewrite E. destruct t; reflexivity.
  - right. left. split; [assumption|]. unfold unlink_ino. fold d. rewrite E. destruct t; reflexivity.
  - right. right. exists d. split; [auto|]. split; [assumption|]. apply Hgen; assumption.
  - right. right. eexists. split; [right; eauto 10|]. split; [apply detach1_inv; assumption|].
    apply Hgen; [assumption|]. apply detach1_inv; assumption.
Qed.

Lemma incref_ok r x n : refs_ok r -> 0 <= n -> refs_ok (incref r x n).2.
Proof.
  intros H Hn. unfold incref. destruct (r !! x) as [[m []]|] eqn:E; cbn; auto.
  - intros y k b. destruct (decide (y = x)) as [->|Hne].
    + rewrite lookup_insert. intros E'. injection E' as <- <-. apply w64_range.
    + rewrite lookup_insert_ne by congruence. apply H.
  - intros y k b. destruct (decide (y = x)) as [->|Hne].
    + rewrite lookup_insert. intros E'. injection E' as <- <-. assumption.
    + rewrite lookup_insert_ne by congruence. apply H.
Qed.
Lemma decref_cases r x n : 0 < n ->
  (n <= refcount r x /\ exists b, r !! x = Some (refcount r x, b) /\
     decref r x n = Done (Ok (refcount r x - n), <[x := (refcount r x - n, b)]> r)) \/
  (refcount r x < n /\ decref r x n = Throw).
Proof.
  intros Hn. unfold decref. destruct (Z.eqb_spec n 0); [lia|]. unfold refcount.
  destruct (r !! x) as [[m b]|] eqn:E; [|right; split; [lia|reflexivity]].
  destruct (Z.ltb_spec m n); [right; split; [lia|reflexivity]|]. left. split; [lia|]. eauto.
Qed.

Lemma fold_orphan_inv l d : Inv d -> Inv (fold_left (fun d ino => (make_orphan d ino).2) l d).
Proof. revert d. induction l as [|x l IH]; intros d H; [assumption|]. cbn. apply IH, make_orphan_inv, H. Qed.

(** Every legal operation either ends normally, keeping the invariant, or it is a release
    of more references than are held, which throws. *)
Lemma step_inv t o : TInv t -> legal t o ->
  (exists r t', step t o = Done (r, t') /\ TInv t') \/
  (step t o = Throw /\ exists x n, o = ORelease x n /\ refcount (t_refs t) x < n).
Proof.
  intros HT Hl. pose proof (tinv_db _ HT) as H. pose proof (tinv_refs _ HT) as Hr. pose proof (tinv_hooks _ HT) as Hh. destruct o; cbn [step legal] in *.
  - left. destruct Hl as [Hd Hro].
    destruct (emplace_spec t p n a HT Hd Hro) as [(err & _ & E)|[(_ & e & i & _ & _ & _ & E & HT')|(_ & _ & k & R & _ & _ & _ & _ & E & HT')]];
      rewrite E; cbn; eauto.
  - left. destruct (unlink_ino_spec t ino HT) as [(_ & E)|[(_ & E)|(d1 & _ & _ & R & _ & E & HT')]]; rewrite E; eauto.
  - left. unfold unlink_child. destruct (unlink_ino_spec t child HT) as [(_ & E)|[(_ & E)|(d1 & _ & _ & R & _ & E & HT')]]; rewrite E; eauto.
  - left. unfold unlink_name. destruct (d_treen (t_db t) !! (p, n)) as [e|]; [|eauto].
    destruct (unlink_ino_spec t (de_ino e) HT) as [(_ & E)|[(_ & E)|(d1 & _ & _ & R & _ & E & HT')]]; rewrite E; eauto.
  - left. destruct (tx_clean_spec t HT) as (R & _ & E & HT'). rewrite E. cbn. eauto.
  - left. unfold writelink. destruct (d_inodes (t_db t) !! ino) as [i|] eqn:E; [|eauto].
    destruct (Z.eqb_spec (ftype (a_mode (i_attr i))) S_IFLNK) as [Et|Et]; cbn [negb]; [|eauto].
    eexists _, _. split; [reflexivity|]. split; [|assumption|assumption]. cbn.
    set (j := Inode (i_flags i) (i_parent i) (set_size (Z.of_nat (length dest)) (i_attr i))).
    assert (HD : Inv (set_inodes (<[ino := j]> (d_inodes (t_db t))) (t_db t))) by (apply (reshape_inv _ _ i); auto).
    apply (links_inv _ ino j dest HD); [apply lookup_insert|assumption].
  - left. unfold update_flags. destruct (d_inodes (t_db t) !! ino) as [i|] eqn:E; [|eauto].
    eexists _, _. split; [reflexivity|]. split; [|assumption|assumption]. apply (reshape_inv _ _ i); auto.
  - left. unfold start_dir_rewrite. destruct (t_rw t); [eauto|].
    destruct (from_key _ _ _); eexists _, _; (split; [reflexivity|]); [assumption|]. split; assumption.
  - left. unfold finish_dir_rewrite. destruct (t_rw t) as [s|]; [|eauto].
    eexists _, _. split; [reflexivity|]. split; [|assumption|assumption]. cbn. apply fold_orphan_inv. assumption.
  - left. unfold lock. pose proof (incref_ok (t_refs t) ino 1 Hr ltac:(lia)) as Hi.
    destruct (incref (t_refs t) ino 1) as [[z|err] r'] eqn:E; eexists _, _; (split; [reflexivity|]); split; cbn in *; try assumption.
    apply Forall_app. split; [assumption|]. constructor; [exact I|constructor].
  - unfold release. destruct (Z.eqb_spec n 0) as [->|Hn]; [left; eauto|].
    destruct (decref_cases (t_refs t) ino n ltac:(lia)) as [(Hle & b & E & ->)|(Hlt & ->)].
    + left. cbn. eexists _, _. split; [reflexivity|]. split; [assumption| |]; cbn.
      * intros y k b'. destruct (decide (y = ino)) as [->|Hne].
        -- rewrite lookup_insert. intros E'. injection E' as <- <-. lia.
        -- rewrite lookup_insert_ne by congruence. apply Hr.
      * apply Forall_app. split; [assumption|]. constructor; [assumption|constructor].
    + right. split; [reflexivity|]. eauto 10.
Qed.
