(** Property theorems C47, C48 (see PropsTxn.v). *)
From Verif Require Import TxnGlobal PropsCache PropsTxn PropsTxn2.

(** ** C47: one writer; the lock of the reference table *)
(** Who performs an event: the write transaction chain or a reader (None: begin and crash). *)
Inductive actor := AWriter | AReader (id : Z).
Definition actor_of (e : gev) : option actor :=
  match e with
  | GBeginRO | GBeginRW | GCrash _ => None
  | GNest | GOp _ | GHook _ | GCommit | GAbort | GDrop => Some AWriter
  | GRLock id _ | GRRelease id _ _ | GRHook id _ | GRCommit id | GRAbort id | GRDrop id => Some (AReader id)
  end.
Definition owner_actor (o : owner) : actor := match o with OW _ => AWriter | OR id => AReader id end.
Lemma run_rollbacks_nil r r' : run_rollbacks r (rev []) = Done r' -> r' = r.
Proof. cbn. intros E. injection E as <-. reflexivity. Qed.

(** A transaction that changes the reference table owns its lock, so nobody else does: it owned it
    before, or the lock was free and it owns it afterwards. *)
Theorem C47_changes_need_lock : forall n g e x g', greachable n g -> glegal g e -> gstep g e = Some (Done (x, g')) ->
  g_refs g' <> g_refs g -> (forall root, e <> GCrash root) ->
  exists a, actor_of e = Some a /\
    ((exists o, g_owner g = Some o /\ owner_actor o = a) \/ (g_owner g = None /\ exists o, g_owner g' = Some o /\ owner_actor o = a)).
Proof.
  intros n g e x g' Hg Hl Es Hne Hnc. pose proof (greachable_inv _ _ Hg) as HG. apply gstep_gt in Es.
  destruct Es; try subst g; cbn [g_refs g_owner] in *; try (exfalso; apply Hne; reflexivity).
  - exists AWriter. split; [reflexivity|]. destruct (uses_refs _ o) eqn:Eu.
    + destruct H0 as (o' & Ha & ->). unfold acquire_w in Ha. cbn in Ha. destruct ow as [[m|id]|]; [|discriminate|]; injection Ha as <-; [left|right]; eauto.
    + exfalso. apply Hne. pose proof (gi_frames _ _ HG) as HF. cbn in HF. inversion HF as [|? ? [Hf1 Hf2] _]; subst.
      assert (HT : TInv (frame_tx (GW comm r ow (f :: fs) rs nx log) f)) by (split; cbn; [assumption|apply (gi_refs _ _ HG)|constructor]).
      destruct (step_more _ _ _ _ HT (Hl f fs eq_refl) H) as (_ & _ & _ & Hus & _). exact (Hus Eu).
  - exists AWriter. split; [reflexivity|]. left. destruct ow as [[m|id]|]; [eauto| |]; exfalso; apply Hne; apply run_rollbacks_nil;
      (assert (Hall : Forall (fun f => frame_refs f = []) [f]) by (apply (gi_no_w _ _ HG); cbn; discriminate)); inversion Hall as [|? ? E _]; subst; rewrite E in H0; exact H0.
  - exists AWriter. split; [reflexivity|]. left. destruct ow as [[m|id]|]; [eauto| |]; exfalso; apply Hne; apply run_rollbacks_nil;
      (assert (Hall : Forall (fun f => frame_refs f = []) (f :: fs)) by (apply (gi_no_w _ _ HG); cbn; discriminate)); inversion Hall as [|? ? E _]; subst; rewrite E in H0; exact H0.
  - exists (AReader id). split; [destruct H0 as [(y & -> & ->)|(y & k & _ & -> & ->)]; reflexivity|].
    unfold acquire_r in H1. cbn in H1. destruct ow as [[m|j]|]; [discriminate| |injection H1 as <-; right; eauto].
    destruct (Z.eqb_spec j id) as [->|]; [|discriminate]. left. eauto.
  - exists (AReader id). split; [reflexivity|]. left.
    assert (Hd : ow = Some (OR id) \/ ow <> Some (OR id)) by (destruct ow as [[m|j]|]; [right; discriminate| |right; discriminate]; destruct (Z.eq_dec j id) as [->|]; [auto|right; congruence]).
    destruct Hd as [->|Hno]; [eauto|]. exfalso. apply Hne. apply run_rollbacks_nil. rewrite <- (gi_no_r _ _ HG id rd H Hno). assumption.
  - exists (AReader id). split; [reflexivity|]. left.
    assert (Hd : ow = Some (OR id) \/ ow <> Some (OR id)) by (destruct ow as [[m|j]|]; [right; discriminate| |right; discriminate]; destruct (Z.eq_dec j id) as [->|]; [auto|right; congruence]).
    destruct Hd as [->|Hno]; [eauto|]. exfalso. apply Hne. apply run_rollbacks_nil. rewrite <- (gi_no_r _ _ HG id rd H Hno). assumption.
  - exfalso. eapply Hnc. reflexivity.
Qed.
Print Assumptions C47_changes_need_lock.
(** The owner keeps the lock until its transaction ends; a nested transaction that commits hands it
    to its parent. *)
Theorem C47_held_to_the_end : forall n g e x g' o, greachable n g -> gstep g e = Some (Done (x, g')) -> g_owner g = Some o ->
  g_owner g' = Some o \/ (exists root, e = GCrash root) \/
  match o with
  | OR id => e = GRCommit id \/ e = GRAbort id \/ e = GRDrop id
  | OW m => length (g_writer g) = S m /\
      ((e = GAbort \/ e = GDrop) /\ g_owner g' = None \/
       e = GCommit /\ g_owner g' = (match m with O => None | S k => Some (OW k) end))
  end.
Proof.
  intros n g e x g' o Hg Es Ho. pose proof (greachable_inv _ _ Hg) as HG. apply gstep_gt in Es.
  assert (Hw : forall m (fs : list frame) f, g_writer g = f :: fs -> (o = OW m -> m = length fs -> length (g_writer g) = S m)).
  { intros m fs f -> -> ->. reflexivity. }
  destruct Es; try subst g; cbn [g_owner g_writer] in *; try subst ow; auto.
  - left. destruct (uses_refs _ o0); [|assumption]. destruct H0 as (o' & Ha & ->). unfold acquire_w in Ha. cbn in Ha. destruct o; [congruence|discriminate].
  - destruct o as [m|j]; [|auto]. cbn [end_w]. destruct (Nat.eqb_spec m 0) as [->|]; [|auto]. right. right. split; [reflexivity|]. right. auto.
  - destruct o as [m|j]; [|auto]. cbn [end_w]. destruct (Nat.eqb_spec m 0) as [->|]; [|auto]. right. right. split; [reflexivity|]. right. auto.
  - destruct o as [m|j]; [|auto]. cbn [end_w]. destruct (Nat.eqb_spec m (length (p :: fs))) as [->|]; [|auto]. right. right. cbn [length] in *. split; [lia|]. right. split; [reflexivity|]. f_equal. f_equal. lia.
  - destruct o as [m|j]; [|auto]. cbn [end_w]. destruct (Nat.eqb_spec m (length fs)) as [->|]; [|auto]. right. right. split; [reflexivity|]. left. auto.
  - destruct o as [m|j]; [|auto]. cbn [end_w]. destruct (Nat.eqb_spec m (length fs)) as [->|]; [|auto]. right. right. split; [reflexivity|]. left. auto.
  - left. unfold acquire_r in H1. cbn in H1. destruct o as [m|j]; [discriminate|]. destruct (j =? id); [congruence|discriminate].
  - destruct o as [m|j]; [auto|]. cbn [end_r]. destruct (Z.eqb_spec j id) as [->|]; auto.
  - destruct o as [m|j]; [auto|]. cbn [end_r]. destruct (Z.eqb_spec j id) as [->|]; auto.
  - destruct o as [m|j]; [auto|]. cbn [end_r]. destruct (Z.eqb_spec j id) as [->|]; auto.
  - destruct o as [m|j]; [auto|]. cbn [end_r]. destruct (Z.eqb_spec j id) as [->|]; auto.
  - right. left. eauto.
Qed.
Print Assumptions C47_held_to_the_end.
(** An operation that does not take the lock does not look at the table either. *)
Theorem C47_no_hidden_reads : forall d r1 r2 hs rw o, uses_refs (Tx d r1 hs rw) o = false ->
  match step (Tx d r1 hs rw) o, step (Tx d r2 hs rw) o with
  | Done (x1, t1), Done (x2, t2) => x1 = x2 /\ t_db t1 = t_db t2 /\ t_hooks t1 = t_hooks t2 /\ t_rw t1 = t_rw t2 /\ t_refs t1 = r1 /\ t_refs t2 = r2
  | Throw, Throw | Crash, Crash | Diverge, Diverge => True
  | _, _ => False
  end.
Proof.
  intros d r1 r2 hs rw o Hu.
  assert (Hul : forall c, (match make_orphan d c with (Ok _, _) => true | _ => false end) = false ->
    match unlink_ino (Tx d r1 hs rw) c, unlink_ino (Tx d r2 hs rw) c with
    | Done (x1, t1), Done (x2, t2) => x1 = x2 /\ t_db t1 = t_db t2 /\ t_hooks t1 = t_hooks t2 /\ t_rw t1 = t_rw t2 /\ t_refs t1 = r1 /\ t_refs t2 = r2
    | Throw, Throw | Crash, Crash | Diverge, Diverge => True
    | _, _ => False
    end).
  { intros c Hc. unfold unlink_ino. cbn [t_db]. destruct (make_orphan d c) as [[?|?] ?]; [discriminate|]. cbn. auto 10. }
  destruct o as [p n a|c|p c|p n| |y b|y s c|y| |y|y k]; cbn [uses_refs step t_db] in *; try discriminate.
  - unfold drop_val, emplace. cbn [t_db t_refs t_hooks t_rw] in *. destruct (check_name n true); [|cbn; auto 10].
    destruct (d_treen d !! (p, n)) as [e|]; [|discriminate]. destruct (d_inodes d !! de_ino e) as [oi|]; [|cbn; auto 10].
    destruct (ftype (a_mode (i_attr oi)) =? ftype (a_mode a)); [|discriminate]. cbn. auto 10.
  - apply Hul. assumption.
  - apply Hul. assumption.
  - unfold unlink_name. cbn [t_db]. destruct (d_treen d !! (p, n)) as [e|]; [|cbn; auto 10]. apply Hul. assumption.
  - unfold writelink. cbn [t_db t_refs t_hooks t_rw]. destruct (d_inodes d !! y) as [i|]; [destruct (negb (ftype (a_mode (i_attr i)) =? S_IFLNK))|]; cbn; auto 10.
  - unfold update_flags. cbn [t_db t_refs t_hooks t_rw]. destruct (d_inodes d !! y) as [i|]; cbn; auto 10.
  - unfold start_dir_rewrite. cbn [t_db t_refs t_hooks t_rw]. destruct rw as [s|]; [cbn; auto 10|]. destruct (from_key enc_ii (d_treei d) (le64 y)); cbn; auto 10.
  - unfold finish_dir_rewrite. cbn [t_db t_refs t_hooks t_rw]. destruct rw as [s|]; cbn; auto 10.
  - cbn in *. apply negb_false_iff in Hu. unfold release. rewrite Hu. cbn. auto 10.
Qed.
Print Assumptions C47_no_hidden_reads.
(** Others wait: while a reader owns the lock, neither the writer nor another reader can lock,
    release, remove or clean; while the writer owns it, no reader can lock or release.  And no
    second top-level write transaction begins while one is open. *)
Theorem C47_others_wait : forall n g, greachable n g ->
  (forall id, g_owner g = Some (OR id) ->
     (forall f fs o, g_writer g = f :: fs -> uses_refs (frame_tx g f) o = true -> gstep g (GOp o) = None) /\
     (forall j x, j <> id -> gstep g (GRLock j x) = None) /\ (forall j x k, j <> id -> k <> 0 -> gstep g (GRRelease j x k) = None)) /\
  (forall m, g_owner g = Some (OW m) -> (forall j x, gstep g (GRLock j x) = None) /\ (forall j x k, k <> 0 -> gstep g (GRRelease j x k) = None)) /\
  (g_writer g <> [] -> gstep g GBeginRW = None).
Proof.
  intros n g _. destruct g as [comm r ow ws rs nx log]. cbn [g_owner g_writer]. split; [|split].
  - intros id ->. split_and!.
    + intros f fs o -> Hu. unfold gstep. cbv zeta. rewrite Hu. reflexivity.
    + intros j x Hj. unfold gstep. cbv zeta. destruct (rs !! j); [|reflexivity]. unfold acquire_r. cbn [g_owner]. destruct (Z.eqb_spec id j) as [->|]; [contradiction|reflexivity].
    + intros j x k Hj Hk. unfold gstep. cbv zeta. destruct (rs !! j); [|reflexivity]. rewrite (proj2 (Z.eqb_neq k 0) Hk). unfold acquire_r. cbn [g_owner]. destruct (Z.eqb_spec id j) as [->|]; [contradiction|reflexivity].
  - intros m ->. split.
    + intros j x. unfold gstep. cbv zeta. destruct (rs !! j); reflexivity.
    + intros j x k Hk. unfold gstep. cbv zeta. destruct (rs !! j); [|reflexivity]. rewrite (proj2 (Z.eqb_neq k 0) Hk). reflexivity.
  - intros Hw. destruct ws; [contradiction|reflexivity].
Qed.
Print Assumptions C47_others_wait.
Example C47_sample :
  let g := gstate [GBeginRW; GOp (OEmplace 1 (nm 100) dirA); GCommit; GBeginRO; GBeginRO; GBeginRW; GRLock 0 2] in
  g_owner g = Some (OR 0) /\ gstep g (GRLock 1 2) = None /\ gstep g (GOp (OUnlinkIno 2)) = None /\
  (exists g', gstep g (GOp (OFlags 2 [0] [])) = Some (Done (Ok tt, g')) /\ g_owner g' = Some (OR 0)).
Proof. cbn zeta. split; [vm_compute; reflexivity|]. split; [vm_compute; reflexivity|]. split; [vm_compute; reflexivity|]. eexists. split; [vm_compute; reflexivity|]. vm_compute. reflexivity. Qed.

(** ** C48: locks protect against concurrent removal *)
(** reference hooks of open transactions other than reader [eid] *)
Definition oth (eid : option Z) (g : gworld) : list hook :=
  match eid, g_owner g with
  | Some i, Some (OR j) => if j =? i then [] else open_refs g
  | _, _ => open_refs g
  end.
Record Held (eid : option Z) (x : Z) (g : gworld) : Prop := {
  h_comm : d_inodes (g_comm g) !! x <> None;
  h_frames : Forall (fun f => d_inodes (f_db f) !! x <> None) (g_writer g);
  h_doom : doomed (g_refs g) x = false;
  h_count : 1 + decs x (oth eid g) <= refcount (g_refs g) x }.
(** no release of [x], no crash, and reader [eid] does not roll back *)
Definition keeps (eid : option Z) (x : Z) (er : gev * res unit) : Prop :=
  match er with
  | (GOp (ORelease y k), _) | (GRRelease _ y k, _) => y <> x \/ k = 0
  | (GCrash _, _) => False
  | (GRAbort i, _) | (GRCommit i, Err _) => eid <> Some i
  | _ => True
  end.
Lemma decs_open_w comm r m ws rs nx log x : decs x (open_refs (GW comm r (Some (OW m)) ws rs nx log)) = decs x (concat (map frame_refs ws)).
Proof. reflexivity. Qed.
Lemma oth_le eid g x : 0 <= decs x (oth eid g) <= decs x (open_refs g).
Proof. unfold oth. pose proof (decs_nonneg x (open_refs g)). destruct eid as [i|]; [|lia]. destruct (g_owner g) as [[m|j]|]; try lia. destruct (j =? i); cbn; lia. Qed.
Lemma new_hooks_keeps x o res : (match o with ORelease y k => y <> x \/ k = 0 | _ => True end) -> incs x (new_hooks o res) = 0.
Proof.
  destruct o as [| | | | | | | | |y|y k]; destruct res as [[]|err]; try reflexivity. cbn. intros [Hy| ->]; [|reflexivity]. destruct (k =? 0); [reflexivity|]. cbn.
  rewrite (proj2 (Z.eqb_neq y x)) by assumption. reflexivity.
Qed.
Lemma held_step N eid x g e r g' : GInv N g -> N + 1 < 2 ^ 64 -> glegal g e -> gt g e r g' -> keeps eid x (e, r) -> Held eid x g -> Held eid x g'.
Proof.
  intros HG HN Hl Hgt Hk [H1 H2 H3 H4].
  assert (Hop : forall t o res t', TInv t -> t_refs t = g_refs g -> t_hooks t = [] -> legal t o -> step t o = Done (res, t') ->
     (match o with ORelease y k => y <> x \/ k = 0 | _ => True end) ->
     refcount (t_refs t') x = refcount (g_refs g) x + decs x (new_hooks o res) /\ t_hooks t' = new_hooks o res /\ doomed (t_refs t') x = false /\
     (d_inodes (t_db t) !! x <> None -> d_inodes (t_db t') !! x <> None)).
  { intros t o res t' HT Er Eh Hlg Es Hko. pose proof (oth_le eid g x) as Ho.
    destruct (step_more _ _ _ _ HT Hlg Es) as (_ & Hrem & Hdm & _ & Hhk). rewrite Er in *. rewrite Eh in Hhk.
    assert (Hd' : doomed (t_refs t') x = false) by (rewrite Hdm by lia; assumption).
    split_and!; auto.
    - assert (Hrc : refcount (t_refs t') x = refcount (t_refs t) x + decs x (new_hooks o res) - incs x (new_hooks o res)).
      { apply (step_pot _ _ _ _ x HT Hlg Es). rewrite Er. pose proof (gi_pot _ _ HG x). pose proof (incs_nonneg x _ (open_hooks_ok _ _ HG)). lia. }
      rewrite Er, new_hooks_keeps in Hrc by assumption. lia.
    - intros Hx Hn. rewrite (Hrem x Hx Hn) in Hd'. discriminate. }
  destruct Hgt as [comm r ow ws rs nx log|comm r ow rs nx log|comm r ow f fs rs nx log|comm r ow f fs rs nx log o res t ow' g Hs How|comm r ow f fs rs nx log u
    |comm r ow f rs nx log l Hc|comm r ow f rs nx log l r' err Hc Hr|comm r ow f p fs rs nx log|comm r ow f fs rs nx log l r' Ha Hr|comm r ow f fs rs nx log
    |comm r ow ws rs nx log id rd o e res t o' g Hrd Ho Ha Hs Hdb|comm r ow ws rs nx log id rd y Hrd|comm r ow ws rs nx log id rd u Hrd
    |comm r ow ws rs nx log id rd l Hrd Hc|comm r ow ws rs nx log id rd l r' err Hrd Hc Hr|comm r ow ws rs nx log id rd l r' Hrd Ha Hr|comm r ow ws rs nx log id rd Hrd
    |comm r ow ws rs nx log root d r' Ho]; try (subst g); cbn [g_comm g_refs g_owner g_writer g_readers g_next] in *.
  - split; cbn [g_comm g_refs g_writer]; auto.
    assert (Eo : oth eid (GW comm r ow ws (<[nx:=Reader comm []]> rs) (nx + 1) log) = oth eid (GW comm r ow ws rs nx log)).
    { assert (Eo : open_refs (GW comm r ow ws (<[nx:=Reader comm []]> rs) (nx + 1) log) = open_refs (GW comm r ow ws rs nx log)).
      { unfold open_refs. cbn. destruct ow as [[m|j]|]; try reflexivity. destruct (decide (j = nx)) as [->|]; [|rewrite lookup_insert_ne by congruence; reflexivity].
        exfalso. pose proof (gi_own_r _ _ HG nx eq_refl) as Hn. cbn in Hn. destruct (rs !! nx) as [rd|] eqn:E; [|contradiction].
        destruct (gi_readers _ _ HG nx rd E) as (_ & _ & Hlt & _). cbn in Hlt. lia. }
      unfold oth. rewrite Eo. reflexivity. }
    rewrite Eo. assumption.
  - assert (Hnow : forall m, ow <> Some (OW m)).
    { intros m ->. destruct (gi_own_w _ _ HG m eq_refl) as [Hm _]. cbn in Hm. lia. }
    split; cbn [g_comm g_refs g_writer]; auto.
  - inversion H2; subst. split; cbn [g_comm g_refs g_writer]; auto.
  - inversion H2 as [|? ? Hfx H2']; subst. pose proof (gi_frames _ _ HG) as HF. cbn in HF. inversion HF as [|? ? [Hf1 Hf2] _]; subst.
    edestruct (Hop (frame_tx (GW comm r ow (f :: fs) rs nx log) f) o res t) as (Hrc & Hhk & Hdm & Hpr);
      [split; cbn; [assumption|apply (gi_refs _ _ HG)|constructor]|reflexivity|reflexivity|exact (Hl f fs eq_refl)|exact Hs| |].
    { destruct o; try exact I. exact Hk. }
    split; cbn [g_comm g_refs g_writer]; auto. rewrite Hrc.
    destruct (uses_refs (frame_tx (GW comm r ow (f :: fs) rs nx log) f) o) eqn:Eu.
    + destruct How as (o' & Ha & ->). unfold acquire_w in Ha. cbn in Ha.
      assert (Ho' : exists m, o' = OW m /\ decs x (oth eid (GW comm r ow (f :: fs) rs nx log)) = decs x (concat (map frame_refs (f :: fs)))).
      { destruct ow as [[m|id]|]; [|discriminate|]; injection Ha as <-.
        - exists m. split; [reflexivity|]. unfold oth. cbn. destruct eid; reflexivity.
        - eexists. split; [reflexivity|]. rewrite concat_nil_frames; [unfold oth; cbn; destruct eid; reflexivity|]. apply (gi_no_w _ _ HG). cbn. discriminate. }
      destruct Ho' as (m & -> & Eo). rewrite Eo in H4.
      assert (Eo' : decs x (oth eid (GW comm (t_refs t) (Some (OW m)) (Frame (t_db t) (f_hooks f ++ map HRef (t_hooks t)) (t_rw t) :: fs) rs nx log)) = decs x (concat (map frame_refs (f :: fs))) + decs x (new_hooks o res)).
      { unfold oth. cbn [g_owner]. transitivity (decs x (concat (map frame_refs (Frame (t_db t) (f_hooks f ++ map HRef (t_hooks t)) (t_rw t) :: fs)))); [destruct eid; reflexivity|].
        cbn [map concat]. rewrite frame_refs_op, Hhk, !decs_app. lia. }
      rewrite Eo'. lia.
    + subst ow'. rewrite (new_hooks_uses _ _ res Eu) in *. cbn [decs] in *.
      assert (Eo' : decs x (oth eid (GW comm (t_refs t) ow (Frame (t_db t) (f_hooks f ++ map HRef (t_hooks t)) (t_rw t) :: fs) rs nx log)) = decs x (oth eid (GW comm r ow (f :: fs) rs nx log))).
      { assert (E1 : open_refs (GW comm (t_refs t) ow (Frame (t_db t) (f_hooks f ++ map HRef (t_hooks t)) (t_rw t) :: fs) rs nx log) = open_refs (GW comm r ow (f :: fs) rs nx log)).
        { unfold open_refs. cbn [g_owner g_readers g_writer map concat]. rewrite frame_refs_op, Hhk, app_nil_r. reflexivity. }
        unfold oth. rewrite E1. reflexivity. }
      rewrite Eo'. lia.
  - inversion H2; subst. split; cbn [g_comm g_refs g_writer]; auto.
    assert (E1 : open_refs (GW comm r ow (Frame (f_db f) (f_hooks f ++ [HUser u false]) (f_rw f) :: fs) rs nx log) = open_refs (GW comm r ow (f :: fs) rs nx log)).
    { unfold open_refs. cbn [g_owner g_readers g_writer map concat]. unfold frame_refs at 1. cbn [f_hooks]. rewrite refhooks_app. change (refhooks [HUser u false]) with (@nil hook). rewrite app_nil_r. reflexivity. }
    unfold oth in *. rewrite E1. assumption.
  - inversion H2; subst. split; cbn [g_comm g_refs g_writer]; auto.
    pose proof (oth_le eid (GW comm r ow [f] rs nx log) x).
    assert (E1 : decs x (oth eid (GW (f_db f) r (end_w ow 0 false) [] rs nx (log ++ l))) <= decs x (oth eid (GW comm r ow [f] rs nx log))); [|lia].
    destruct ow as [[m|j]|].
    + unfold oth, end_w, open_refs. cbn [g_owner g_readers g_writer]. pose proof (decs_nonneg x (concat (map frame_refs [f]))). destruct (m =? 0)%nat, eid; cbn in *; lia.
    + unfold oth, end_w, open_refs. cbn [g_owner g_readers g_writer]. lia.
    + unfold oth, end_w, open_refs. cbn [g_owner g_readers g_writer]. lia.
  - inversion H2; subst. pose proof (gi_frames _ _ HG) as HF. cbn in HF. inversion HF as [|? ? [Hf1 Hf2] _]; subst.
    destruct (refs_after_rollback _ _ _ r' HG ltac:(lia) Hf2 (fun y => frame_incs _ _ f [] y HG eq_refl) Hr) as [Hrc Hdm]. cbn [g_refs] in Hrc, Hdm.
    split; cbn [g_comm g_refs g_writer]; auto; [rewrite Hdm; assumption|]. rewrite Hrc. unfold bal. pose proof (incs_nonneg x _ Hf2).
    assert (E1 : decs x (oth eid (GW comm r' (end_w ow 0 false) [] rs nx (log ++ l))) + decs x (frame_refs f) <= decs x (oth eid (GW comm r ow [f] rs nx log))); [|lia].
    assert (Hn : (forall m, ow <> Some (OW m)) -> frame_refs f = []) by (intros Hn; pose proof (gi_no_w _ _ HG Hn) as Hall; inversion Hall; assumption).
    destruct ow as [[m|j]|].
    + unfold oth, end_w, open_refs. cbn [g_owner g_readers g_writer map concat]. rewrite app_nil_r. destruct (m =? 0)%nat, eid; cbn [decs]; try lia;
        destruct (gi_own_w _ _ HG m eq_refl) as [Hm _]; cbn in Hm; assert (m = 0)%nat by lia; subst; cbn; lia.
    + rewrite Hn by discriminate. unfold oth, end_w, open_refs. cbn [g_owner g_readers g_writer decs]. lia.
    + rewrite Hn by discriminate. unfold oth, end_w, open_refs. cbn [g_owner g_readers g_writer decs]. lia.
  - inversion H2 as [|? ? ? H2']; subst. inversion H2'; subst. split; cbn [g_comm g_refs g_writer]; auto.
    assert (E1 : decs x (oth eid (GW comm r (end_w ow (length (p :: fs)) true) (Frame (f_db f) (f_hooks p ++ f_hooks f) (f_rw p) :: fs) rs nx log)) <= decs x (oth eid (GW comm r ow (f :: p :: fs) rs nx log))); [|lia].
    assert (Ef : frame_refs (Frame (f_db f) (f_hooks p ++ f_hooks f) (f_rw p)) = frame_refs p ++ frame_refs f) by (unfold frame_refs; cbn; apply refhooks_app).
    destruct ow as [[m|j]|].
    + unfold oth, end_w, open_refs. cbn [g_owner g_readers g_writer]. destruct (m =? length (p :: fs))%nat, eid; cbn [g_owner map concat]; rewrite Ef, !decs_app; lia.
    + unfold oth, end_w, open_refs. cbn [g_owner g_readers g_writer]. lia.
    + unfold oth, end_w, open_refs. cbn [g_owner g_readers g_writer]. lia.
  - inversion H2; subst. pose proof (gi_frames _ _ HG) as HF. cbn in HF. inversion HF as [|? ? [Hf1 Hf2] _]; subst.
    destruct (refs_after_rollback _ _ _ r' HG ltac:(lia) Hf2 (fun y => frame_incs _ _ f fs y HG eq_refl) Hr) as [Hrc Hdm]. cbn [g_refs] in Hrc, Hdm.
    split; cbn [g_comm g_refs g_writer]; auto; [rewrite Hdm; assumption|]. rewrite Hrc. unfold bal. pose proof (incs_nonneg x _ Hf2).
    assert (E1 : decs x (oth eid (GW comm r' (end_w ow (length fs) false) fs rs nx (log ++ l))) + decs x (frame_refs f) <= decs x (oth eid (GW comm r ow (f :: fs) rs nx log))); [|lia].
    assert (Hn : (forall m, ow <> Some (OW m)) -> frame_refs f = []) by (intros Hn; pose proof (gi_no_w _ _ HG Hn) as Hall; inversion Hall; assumption).
    destruct ow as [[m|j]|].
    + pose proof (decs_nonneg x (concat (map frame_refs fs))). unfold oth, end_w, open_refs. cbn [g_owner g_readers g_writer map concat]. rewrite ?decs_app.
      destruct (m =? length fs)%nat, eid; cbn [g_owner decs]; rewrite ?decs_app; lia.
    + rewrite Hn by discriminate. unfold oth, end_w, open_refs. cbn [g_owner g_readers g_writer decs]. lia.
    + rewrite Hn by discriminate. unfold oth, end_w, open_refs. cbn [g_owner g_readers g_writer decs]. lia.
  - inversion H2; subst. split; cbn [g_comm g_refs g_writer]; auto.
    assert (E1 : decs x (oth eid (GW comm r (end_w ow (length fs) false) fs rs nx (log ++ []))) <= decs x (oth eid (GW comm r ow (f :: fs) rs nx log))); [|lia].
    destruct ow as [[m|j]|].
    + pose proof (decs_nonneg x (concat (map frame_refs fs))). pose proof (decs_nonneg x (frame_refs f)). unfold oth, end_w, open_refs. cbn [g_owner g_readers g_writer map concat].
      destruct (m =? length fs)%nat, eid; cbn [g_owner decs]; rewrite ?decs_app; lia.
    + unfold oth, end_w, open_refs. cbn [g_owner g_readers g_writer]. lia.
    + unfold oth, end_w, open_refs. cbn [g_owner g_readers g_writer]. lia.
  - destruct (gi_readers _ _ HG id rd Hrd) as (R1 & R2 & R3 & R4).
    edestruct (Hop (reader_tx (GW comm r ow ws rs nx log) rd) o res t) as (Hrc & Hhk & Hdm & Hpr);
      [split; cbn; [assumption|apply (gi_refs _ _ HG)|constructor]|reflexivity|reflexivity| |exact Hs| |].
    { destruct Ho as [(y & -> & ->)|(y & k & Hk0 & -> & ->)]; [exact I|exact Hl]. }
    { destruct Ho as [(y & -> & ->)|(y & k & Hk0 & -> & ->)]; [exact I|exact Hk]. }
    split; cbn [g_comm g_refs g_writer]; auto. rewrite Hrc.
    assert (Ho2 : o' = OR id /\ (ow = Some (OR id) \/ ow = None)).
    { unfold acquire_r in Ha. cbn in Ha. destruct ow as [[m|j]|]; [discriminate| |injection Ha as <-; auto].
      destruct (Z.eqb_spec j id) as [->|]; [|discriminate]. injection Ha as <-. auto. }
    destruct Ho2 as [-> How].
    assert (Hor : open_refs (GW comm r ow ws rs nx log) = refhooks (r_hooks rd)).
    { unfold open_refs. cbn. destruct How as [->| ->]; [rewrite Hrd; reflexivity|]. symmetry. apply (gi_no_r _ _ HG id rd Hrd). discriminate. }
    assert (Hor' : open_refs (GW comm (t_refs t) (Some (OR id)) ws (<[id:=Reader (r_snap rd) (r_hooks rd ++ map HRef (t_hooks t))]> rs) nx log) = refhooks (r_hooks rd) ++ new_hooks o res).
    { unfold open_refs. cbn. rewrite lookup_insert. cbn [r_hooks]. rewrite refhooks_app, refhooks_HRef, Hhk. reflexivity. }
    pose proof (decs_nonneg x (new_hooks o res)). pose proof (oth_le eid (GW comm r ow ws rs nx log) x) as Hol.
    assert (Hcase : (exists i, eid = Some i /\ i = id) \/ (forall i, eid = Some i -> i <> id)).
    { destruct eid as [i|]; [|right; discriminate]. destruct (Z.eq_dec i id) as [->|]; [left; eauto|right; congruence]. }
    destruct Hcase as [(i & -> & ->)|Hne].
    + unfold oth. cbn [g_owner]. rewrite Z.eqb_refl. cbn [decs]. lia.
    + assert (E1 : oth eid (GW comm r ow ws rs nx log) = refhooks (r_hooks rd)).
      { unfold oth. rewrite Hor. cbn [g_owner]. destruct eid as [i|]; [|reflexivity]. destruct How as [->| ->]; [|reflexivity]. destruct (Z.eqb_spec id i) as [->|]; [exfalso; eapply Hne; reflexivity|reflexivity]. }
      assert (E2 : oth eid (GW comm (t_refs t) (Some (OR id)) ws (<[id:=Reader (r_snap rd) (r_hooks rd ++ map HRef (t_hooks t))]> rs) nx log) = refhooks (r_hooks rd) ++ new_hooks o res).
      { unfold oth. rewrite Hor'. cbn [g_owner]. destruct eid as [i|]; [|reflexivity]. destruct (Z.eqb_spec id i) as [->|]; [exfalso; eapply Hne; reflexivity|reflexivity]. }
      rewrite E1 in H4. rewrite E2, decs_app. lia.
  - split; auto.
  - split; cbn [g_comm g_refs g_writer]; auto.
    assert (E1 : open_refs (GW comm r ow ws (<[id:=Reader (r_snap rd) (r_hooks rd ++ [HUser u false])]> rs) nx log) = open_refs (GW comm r ow ws rs nx log)).
    { unfold open_refs. cbn. destruct ow as [[m|j]|]; try reflexivity. destruct (decide (j = id)) as [->|]; [|rewrite lookup_insert_ne by congruence; reflexivity].
      rewrite lookup_insert, Hrd. cbn [r_hooks]. rewrite refhooks_app. change (refhooks [HUser u false]) with (@nil hook). apply app_nil_r. }
    unfold oth in *. rewrite E1. assumption.
  - split; cbn [g_comm g_refs g_writer]; auto.
    assert (E1 : decs x (oth eid (GW comm r (end_r ow id) ws (delete id rs) nx (log ++ l))) <= decs x (oth eid (GW comm r ow ws rs nx log))); [|lia].
    pose proof (oth_le eid (GW comm r ow ws rs nx log) x) as Hol. destruct ow as [[m|j]|].
    + unfold oth, end_r, open_refs. cbn [g_owner g_readers g_writer]. lia.
    + unfold end_r. destruct (Z.eqb_spec j id) as [->|]; [match goal with |- decs x (oth eid ?w) <= _ => assert (E0 : oth eid w = []) by (unfold oth, open_refs; cbn; destruct eid; reflexivity); rewrite E0; exact (proj1 Hol) end|].
      unfold oth, open_refs. cbn [g_owner g_readers g_writer]. rewrite lookup_delete_ne by congruence. lia.
    + unfold oth, end_r, open_refs. cbn [g_owner g_readers g_writer]. lia.
  - destruct (gi_readers _ _ HG id rd Hrd) as (R1 & R2 & R3 & R4).
    destruct (refs_after_rollback _ _ _ r' HG ltac:(lia) R2 (fun y => reader_incs _ _ id rd y HG Hrd) Hr) as [Hrc Hdm]. cbn [g_refs] in Hrc, Hdm.
    split; cbn [g_comm g_refs g_writer]; auto; [rewrite Hdm; assumption|]. rewrite Hrc. unfold bal. pose proof (incs_nonneg x _ R2). cbn in Hk.
    assert (E1 : decs x (oth eid (GW comm r' (end_r ow id) ws (delete id rs) nx (log ++ l))) + decs x (refhooks (r_hooks rd)) <= decs x (oth eid (GW comm r ow ws rs nx log))); [|lia].
    destruct ow as [[m|j]|].
    + rewrite (gi_no_r _ _ HG id rd Hrd) by discriminate. unfold oth, end_r, open_refs. cbn [g_owner g_readers g_writer decs]. lia.
    + unfold end_r. destruct (Z.eqb_spec j id) as [->|Hj].
      * unfold oth, open_refs. cbn [g_owner g_readers g_writer]. rewrite Hrd. destruct eid as [i|]; cbn [decs]; [|lia]. destruct (Z.eqb_spec id i) as [->|]; [congruence|lia].
      * rewrite (gi_no_r _ _ HG id rd Hrd) by (cbn; congruence). unfold oth, open_refs. cbn [g_owner g_readers g_writer decs]. rewrite lookup_delete_ne by congruence. lia.
    + rewrite (gi_no_r _ _ HG id rd Hrd) by discriminate. unfold oth, end_r, open_refs. cbn [g_owner g_readers g_writer decs]. lia.
  - destruct (gi_readers _ _ HG id rd Hrd) as (R1 & R2 & R3 & R4).
    destruct (refs_after_rollback _ _ _ r' HG ltac:(lia) R2 (fun y => reader_incs _ _ id rd y HG Hrd) Hr) as [Hrc Hdm]. cbn [g_refs] in Hrc, Hdm.
    split; cbn [g_comm g_refs g_writer]; auto; [rewrite Hdm; assumption|]. rewrite Hrc. unfold bal. pose proof (incs_nonneg x _ R2). cbn in Hk.
    assert (E1 : decs x (oth eid (GW comm r' (end_r ow id) ws (delete id rs) nx (log ++ l))) + decs x (refhooks (r_hooks rd)) <= decs x (oth eid (GW comm r ow ws rs nx log))); [|lia].
    destruct ow as [[m|j]|].
    + rewrite (gi_no_r _ _ HG id rd Hrd) by discriminate. unfold oth, end_r, open_refs. cbn [g_owner g_readers g_writer decs]. lia.
    + unfold end_r. destruct (Z.eqb_spec j id) as [->|Hj].
      * unfold oth, open_refs. cbn [g_owner g_readers g_writer]. rewrite Hrd. destruct eid as [i|]; cbn [decs]; [|lia]. destruct (Z.eqb_spec id i) as [->|]; [congruence|lia].
      * rewrite (gi_no_r _ _ HG id rd Hrd) by (cbn; congruence). unfold oth, open_refs. cbn [g_owner g_readers g_writer decs]. rewrite lookup_delete_ne by congruence. lia.
    + rewrite (gi_no_r _ _ HG id rd Hrd) by discriminate. unfold oth, end_r, open_refs. cbn [g_owner g_readers g_writer decs]. lia.
  - split; cbn [g_comm g_refs g_writer]; auto.
    assert (E1 : decs x (oth eid (GW comm r (end_r ow id) ws (delete id rs) nx log)) <= decs x (oth eid (GW comm r ow ws rs nx log))); [|lia].
    pose proof (oth_le eid (GW comm r ow ws rs nx log) x) as Hol. destruct ow as [[m|j]|].
    + unfold oth, end_r, open_refs. cbn [g_owner g_readers g_writer]. lia.
    + unfold end_r. destruct (Z.eqb_spec j id) as [->|]; [match goal with |- decs x (oth eid ?w) <= _ => assert (E0 : oth eid w = []) by (unfold oth, open_refs; cbn; destruct eid; reflexivity); rewrite E0; exact (proj1 Hol) end|].
      unfold oth, open_refs. cbn [g_owner g_readers g_writer]. rewrite lookup_delete_ne by congruence. lia.
    + unfold oth, end_r, open_refs. cbn [g_owner g_readers g_writer]. lia.
  - contradiction.
Qed.
Lemma held_run eid x l : forall N g g', GInv N g -> 0 <= N -> N + Z.of_nat (length l) < 2 ^ 64 -> grun g l g' -> Forall (keeps eid x) l -> Held eid x g -> Held eid x g'.
Proof.
  induction l as [|[e r] l IH]; intros N g g' HG H0 HN Hr Hk HH; inversion Hr; subst; [exact HH|]. cbn [length] in HN. inversion Hk; subst.
  eapply (IH (N + 1) g1); [eapply gstep_inv; eauto; lia|lia|lia|assumption|assumption|]. eapply held_step; eauto; [lia|]. apply gstep_gt. assumption.
Qed.

(** what everybody who looks from now on sees: the committed database and the open write transactions *)
Definition gnow (g : gworld) (d : db) : Prop := d = g_comm g \/ exists f, In f (g_writer g) /\ d = f_db f.
Lemma held_now eid x g d : Held eid x g -> gnow g d -> has_inode d x.
Proof.
  intros [H1 H2 _ _] Hd. assert (Hn : d_inodes d !! x <> None).
  { destruct Hd as [->|(f & Hf & ->)]; [assumption|]. rewrite Forall_forall in H2. apply H2. apply elem_of_list_In. assumption. }
  apply has_inode_iff. destruct (d_inodes d !! x); [eauto|contradiction].
Qed.
(** A reader locks an inode that exists in its snapshot.  If that succeeds, the inode exists now,
    also for concurrent writers, and it keeps existing whatever anyone does, until someone
    releases it, the reader rolls the lock back, or the process restarts: removals only orphan it. *)
Theorem C48_reader_lock_protects : forall n g id rd x g1 l g', greachable n g -> g_readers g !! id = Some rd -> has_inode (r_snap rd) x ->
  gstep g (GRLock id x) = Some (Done (Ok tt, g1)) -> grun g1 l g' -> Forall (keeps (Some id) x) l ->
  Z.of_nat (n + 1 + length l) < 2 ^ 64 ->
  forall d, gnow g' d -> has_inode d x.
Proof.
  intros n g id rd x g1 l g' Hg Hrd Hx Es Hr Hk Hb d Hd. pose proof (greachable_inv _ _ Hg) as HG.
  eapply held_now; [|exact Hd].
  pose proof (gstep_inv _ _ (GRLock id x) _ _ HG I Es ltac:(lia) ltac:(lia)) as HG1.
  eapply (held_run (Some id) x l (Z.of_nat n + 1) g1 g'); [exact HG1|lia|lia|assumption|assumption|].
  destruct (gi_readers _ _ HG id rd Hrd) as (R1 & R2 & R3 & R4). apply has_inode_iff in Hx as [i Hi].
  apply gstep_gt in Es. inversion Es as [| | | | | | | | | |comm r ow ws rs nx log id' rd' o e res t o' g2 Hrd' Ho Ha Hs Hdb| | | | | | |]; subst. subst g2.
  destruct Ho as [(y & -> & Ey)|(y & k & _ & _ & Ey)]; [|discriminate]. injection Ey as <- <-. cbn in Hrd. assert (rd' = rd) by congruence. subst rd'.
  cbn [step] in Hs. unfold lock in Hs. cbn [reader_tx t_refs g_refs] in Hs.
  assert (Hnd : doomed r x = false).
  { unfold doomed. unfold incref in Hs. destruct (r !! x) as [[k [|]]|]; [discriminate| |]; reflexivity. }
  assert (Hinc : exists t0, t = t0 /\ doomed (t_refs t) x = false /\ 1 <= refcount (t_refs t) x).
  { exists t. split; [reflexivity|]. unfold incref in Hs. pose proof (gi_pot _ _ HG x) as Hp. cbn [g_refs] in Hp.
    pose proof (incs_nonneg x _ (open_hooks_ok _ _ HG)) as Hnn. pose proof (refcount_nonneg _ x (gi_refs _ _ HG)) as Hrn. cbn [g_refs] in Hrn.
    unfold refcount in Hp, Hrn. destruct (r !! x) as [[k [|]]|] eqn:Ex; [discriminate| |]; injection Hs as <-; cbn [t_refs]; unfold doomed, refcount; rewrite lookup_insert; (split; [reflexivity|]); [|lia].
    rewrite w64_id by lia. lia. }
  destruct Hinc as (t0 & _ & Hd' & Hc').
  assert (Hsub : d_inodes comm !! x <> None).
  { destruct R4 as [R4 _]. destruct (R4 x) as [|Hdm]; [congruence|assumption|]. cbn in Hdm. congruence. }
  split; cbn [g_comm g_refs g_writer].
  - exact Hsub.
  - pose proof (gi_chain _ _ HG) as Hch. cbn in Hch. clear - Hch Hsub Hnd. induction ws as [|f fs IH]; [constructor|]. destruct Hch as [[Hs _] Hch].
    specialize (IH Hch). constructor; [|assumption]. destruct (Hs x) as [|Hdm]; [|assumption|congruence].
    destruct fs as [|p fs]; [exact Hsub|]. inversion IH. assumption.
  - assumption.
  - unfold oth. cbn [g_owner]. unfold acquire_r in Ha. cbn in Ha.
    assert (Eo : o' = OR id) by (destruct ow as [[m|j]|]; [discriminate| |congruence]; destruct (Z.eqb_spec j id) as [->|]; [congruence|discriminate]). subst o'.
    rewrite Z.eqb_refl. cbn. lia.
Qed.
Print Assumptions C48_reader_lock_protects.
(** The same for references of transactions that have ended, whoever made them: once nobody has
    uncommitted reference changes, a positive reference count protects. *)
Theorem C48_committed_reference_protects : forall n g x l g', greachable n g -> g_owner g = None ->
  0 < refcount (g_refs g) x -> doomed (g_refs g) x = false -> (forall d, gnow g d -> has_inode d x) ->
  grun g l g' -> Forall (keeps None x) l -> Z.of_nat (n + length l) < 2 ^ 64 ->
  forall d, gnow g' d -> has_inode d x.
Proof.
  intros n g x l g' Hg Ho Hrc Hdm Hin Hr Hk Hb d Hd. eapply held_now; [|exact Hd].
  eapply (held_run None x l (Z.of_nat n) g g'); [apply greachable_inv; assumption|lia|lia|assumption|assumption|].
  assert (Hn : forall d0, gnow g d0 -> d_inodes d0 !! x <> None).
  { intros d0 H0. pose proof (Hin d0 H0) as Hh. apply has_inode_iff in Hh as [i Hi]. congruence. }
  split; auto.
  - apply Hn. left. reflexivity.
  - apply Forall_forall. intros f Hf. apply Hn. right. exists f. split; [apply elem_of_list_In; assumption|reflexivity].
  - unfold oth, open_refs. rewrite Ho. cbn. lia.
Qed.
Print Assumptions C48_committed_reference_protects.
(** A reader locks /d/e (3) and commits; the writer unlinks /d, /d/e and commits; 3 is still there. *)
Definition c48_begin : list gev := [GBeginRW; GOp (OEmplace 1 (nm 100) dirA); GOp (OEmplace 2 (nm 101) regA); GCommit; GBeginRO; GBeginRW].
Definition c48_rest : list gev := [GRCommit 0; GOp (OUnlinkIno 3); GOp (OUnlinkIno 2); GCommit; GBeginRW; GOp OClean; GCommit].
Example C48_sample : exists rd, g_readers (gstate c48_begin) !! 0 = Some rd /\ (exists a, getattr (r_snap rd) 3 = Ok a) /\
  let g := gstate (c48_begin ++ GRLock 0 3 :: c48_rest) in
  greachable 14 g /\ getattr (g_comm g) 2 = Err ENOENT /\ getattr (g_comm g) 3 = Ok regA /\ is_orphan (g_comm g) 3.
Proof.
  eexists. split; [vm_compute; reflexivity|]. split; [eexists; vm_compute; reflexivity|]. cbn zeta.
  split; [apply (gstate_reachable (c48_begin ++ GRLock 0 3 :: c48_rest)); [vm_compute; reflexivity|cbn; lia]|].
  split; [vm_compute; reflexivity|]. split; [vm_compute; reflexivity|]. split; [discriminate|vm_compute; reflexivity].
Qed.
