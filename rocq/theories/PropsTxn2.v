(** Property theorems C28, C29, C47, C48 (see PropsTxn.v). *)
From Verif Require Import TxnGlobal PropsCache PropsTxn.

(** ** C28: nested transactions *)
(** A history during which at least the [k] outermost write transactions and one more stay open. *)
Inductive ginside (k : nat) : gworld -> list (gev * res unit) -> gworld -> Prop :=
| gin_nil g : (k < length (g_writer g))%nat -> ginside k g [] g
| gin_cons g e x g1 l g2 : (k < length (g_writer g))%nat -> glegal g e -> gstep g e = Some (Done (x, g1)) ->
    ginside k g1 l g2 -> ginside k g ((e, x) :: l) g2.
Lemma ginside_start k g l g' : ginside k g l g' -> (k < length (g_writer g))%nat.
Proof. destruct 1; assumption. Qed.

Lemma gt_inside k g e x g' : gt g e x g' -> (0 < k < length (g_writer g))%nat -> (k < length (g_writer g'))%nat ->
  g_comm g' = g_comm g /\ (forall ws base, g_writer g = ws ++ base -> length base = k -> exists ws', g_writer g' = ws' ++ base).
Proof.
  intros H Hk Hk'.
  assert (Hc : forall (f : frame) fs ws base, f :: fs = ws ++ base -> length base = k -> (k < S (length fs))%nat -> exists ws1, ws = f :: ws1 /\ fs = ws1 ++ base).
  { intros f fs ws base E Hl Hlt. destruct ws as [|w ws]; cbn in E; [subst base; cbn in Hl; lia|]. injection E as -> ->. eauto. }
  destruct H; try subst g; cbn [g_comm g_writer length] in *; try lia; (split; [reflexivity|]); intros ws0 base E Hl; eauto.
  - exists (Frame (f_db f) [] None :: ws0). rewrite E. reflexivity.
  - destruct (Hc _ _ _ _ E Hl) as (ws1 & -> & ->); [lia|]. eexists (_ :: ws1). reflexivity.
  - destruct (Hc _ _ _ _ E Hl) as (ws1 & -> & ->); [lia|]. eexists (_ :: ws1). reflexivity.
  - destruct (Hc _ _ _ _ E Hl) as (ws1 & -> & E1); [cbn; lia|]. destruct (Hc _ _ _ _ E1 Hl) as (ws2 & -> & ->); [lia|]. eexists (_ :: ws2). reflexivity.
  - destruct (Hc _ _ _ _ E Hl) as (ws1 & -> & ->); [lia|]. eauto.
  - destruct (Hc _ _ _ _ E Hl) as (ws1 & -> & ->); [lia|]. eauto.
Qed.
Lemma ginside_keeps k g l g' : ginside k g l g' -> (0 < k)%nat ->
  g_comm g' = g_comm g /\ (forall ws base, g_writer g = ws ++ base -> length base = k -> exists ws', g_writer g' = ws' ++ base).
Proof.
  intros H Hk. induction H as [g Hl|g e x g1 l g2 Hl _ Es Hin IH]; [eauto|].
  destruct (gt_inside k g e x g1 (gstep_gt _ _ _ _ Es) ltac:(lia) (ginside_start _ _ _ _ Hin)) as [A B]. destruct IH as [A' B'].
  split; [congruence|]. intros ws base E Hb. destruct (B ws base E Hb) as [ws1 E1]. eauto.
Qed.
Lemma ginside_run k g l g' : ginside k g l g' -> grun g l g'.
Proof. induction 1; econstructor; eauto. Qed.

(** A nested transaction runs next to its (frozen) parents: from its begin to its end, with
    arbitrary operations, further nesting and other threads' readers in between, the parents and
    the committed database do not change.  Then abort (or destruction) leaves the parents exactly
    as they were; commit makes its view the parent's view and appends its hooks to the parent's,
    and changes nothing else. *)
Theorem C28_nested : forall n g p ps x1 g1 l g2 f fs x g', greachable n g -> g_writer g = p :: ps ->
  gstep g GNest = Some (Done (x1, g1)) -> ginside (length (p :: ps)) g1 l g2 ->
  (* the nested transaction is the innermost one (again) *)
  g_writer g2 = f :: fs -> length fs = length (p :: ps) ->
  (* meanwhile *)
  g_writer g2 = f :: p :: ps /\ g_comm g2 = g_comm g /\
  (* abort *)
  (gstep g2 GAbort = Some (Done (x, g')) -> x = Ok tt /\ g_writer g' = g_writer g /\ g_comm g' = g_comm g /\ g_readers g' = g_readers g2) /\
  (* destruction *)
  (gstep g2 GDrop = Some (Done (x, g')) -> g_writer g' = g_writer g /\ g_comm g' = g_comm g /\ g_readers g' = g_readers g2 /\ g_refs g' = g_refs g2 /\ g_log g' = g_log g2) /\
  (* commit *)
  (gstep g2 GCommit = Some (Done (x, g')) -> x = Ok tt /\
     (exists p', g_writer g' = p' :: ps /\ f_db p' = f_db f /\ f_hooks p' = f_hooks p ++ f_hooks f) /\
     g_comm g' = g_comm g /\ g_readers g' = g_readers g2 /\ g_refs g' = g_refs g2 /\ g_log g' = g_log g2).
Proof.
  intros n g p ps x1 g1 l g2 f fs0 x g' Hg Hw En Hin Hfs Hlen. apply gstep_gt in En. inversion En; subst; try norop. cbn in Hw. injection Hw as -> ->.
  destruct (ginside_keeps _ _ _ _ Hin) as [Hcomm Hbase]; [cbn; lia|]. cbn [g_comm g_writer] in Hcomm, Hbase.
  destruct (Hbase [Frame (f_db p) [] None] (p :: ps) eq_refl eq_refl) as [ws' Ew].
  assert (Hws : g_writer g2 = f :: p :: ps).
  { rewrite Hfs in *. destruct ws' as [|w ws']; cbn in Ew; [subst; cbn in *; injection Ew as -> ->; cbn in Hlen; lia|].
    injection Ew as -> ->. rewrite app_length in Hlen. destruct ws'; [reflexivity|cbn in Hlen; lia]. }
  cbn [g_comm g_writer]. split; [assumption|]. split; [assumption|].
  destruct g2 as [comm2 r2 ow2 ws2 rs2 nx2 log2]. cbn in Hws, Hcomm. subst ws2 comm2.
  split; [|split]; intros Es; apply gstep_gt in Es; inversion Es; subst; try norop; cbn [g_writer g_comm g_readers g_refs g_log].
  - auto.
  - rewrite app_nil_r. auto.
  - split_and!; auto. eexists. split_and!; reflexivity.
Qed.
Print Assumptions C28_nested.

(** *** References: a ledger.  For a fixed inode it books every successful lock and release on
    the transaction that made it; commit passes the account on to the parent, or finally to
    [l_kept]; abort deletes it; destruction without abort does not (a finding: the destructor runs no
    rollback hooks, cache.hpp:488). *)
Record ledger := Led { l_kept : Z; l_stack : list Z; l_readers : list (Z * Z); l_next : Z }.
Definition bump (id k : Z) (l : list (Z * Z)) : list (Z * Z) := map (fun '(j, m) => if j =? id then (j, m + k) else (j, m)) l.
Definition without (id : Z) (l : list (Z * Z)) : list (Z * Z) := List.filter (fun '(j, _) => negb (j =? id)) l.
Definition total (l : list (Z * Z)) : Z := foldr (fun '(_, m) s => m + s) 0 l.
Definition sum (l : list Z) : Z := foldr Z.add 0 l.
Definition led_step (x : Z) (d : ledger) (e : gev) (res : res unit) : ledger :=
  let '(Led kept st rs nx) := d in
  let add (k : Z) := match st with a :: s => (a + k) :: s | [] => [] end in
  match e, res with
  | GBeginRO, _ => Led kept st ((nx, 0) :: rs) (nx + 1)
  | GBeginRW, _ | GNest, _ => Led kept (0 :: st) rs nx
  | GOp (OLock y), Ok _ => Led kept (add (if y =? x then 1 else 0)) rs nx
  | GOp (ORelease y k), Ok _ => Led kept (add (if y =? x then - k else 0)) rs nx
  | GCommit, Ok _ => match st with a :: b :: s => Led kept (a + b :: s) rs nx | [a] => Led (kept + a) [] rs nx | [] => d end
  | GCommit, Err _ | GAbort, _ => Led kept (tl st) rs nx
  | GDrop, _ => match st with a :: s => Led (kept + a) s rs nx | [] => d end
  | GRLock id y, Ok _ => Led kept st (bump id (if y =? x then 1 else 0) rs) nx
  | GRRelease id y k, Ok _ => Led kept st (bump id (if y =? x then - k else 0) rs) nx
  | GRCommit id, Ok _ | GRDrop id, _ => Led (kept + (total rs - total (without id rs))) st (without id rs) nx
  | GRCommit id, Err _ | GRAbort id, _ => Led kept st (without id rs) nx
  | GCrash _, _ => Led 0 [] [] nx
  | _, _ => d
  end.
Fixpoint led_run (x : Z) (d : ledger) (l : list (gev * res unit)) : ledger :=
  match l with [] => d | (e, r) :: l => led_run x (led_step x d e r) l end.

Definition bal (x : Z) (hs : list hook) : Z := decs x hs - incs x hs.
Lemma bal_app x a b : bal x (a ++ b) = bal x a + bal x b.
Proof. unfold bal. rewrite incs_app, decs_app. lia. Qed.
Record LInv (x : Z) (g : gworld) (d : ledger) : Prop := {
  li_sum : refcount (g_refs g) x = l_kept d + sum (l_stack d) + total (l_readers d);
  li_stack : Forall2 (fun f a => a = bal x (frame_refs f)) (g_writer g) (l_stack d);
  li_readers : forall id m, In (id, m) (l_readers d) -> exists rd, g_readers g !! id = Some rd /\ m = bal x (refhooks (r_hooks rd));
  li_dup : List.NoDup (map fst (l_readers d));
  li_dom : forall id rd, g_readers g !! id = Some rd -> In id (map fst (l_readers d));
  li_next : l_next d = g_next g }.
Lemma sum_cons a s : sum (a :: s) = a + sum s. Proof. reflexivity. Qed.
Lemma total_cons j k l : total ((j, k) :: l) = k + total l. Proof. reflexivity. Qed.
Lemma without_cons id j k l : without id ((j, k) :: l) = if j =? id then without id l else (j, k) :: without id l.
Proof. unfold without. cbn. destruct (j =? id); reflexivity. Qed.
Lemma bump_cons id v j k l : bump id v ((j, k) :: l) = (if j =? id then (j, k + v) else (j, k)) :: bump id v l. Proof. reflexivity. Qed.
Lemma without_same id l : ~ In id (map fst l) -> without id l = l.
Proof. induction l as [|[j k] l IH]; [reflexivity|]. intros H. rewrite without_cons. cbn in H. destruct (Z.eqb_spec j id); [tauto|]. rewrite IH by tauto. reflexivity. Qed.
Lemma bump_same id v l : ~ In id (map fst l) -> bump id v l = l.
Proof. induction l as [|[j k] l IH]; [reflexivity|]. intros H. rewrite bump_cons. cbn in H. destruct (Z.eqb_spec j id); [tauto|]. rewrite IH by tauto. reflexivity. Qed.
Lemma total_without id l m : List.NoDup (map fst l) -> In (id, m) l -> total (without id l) = total l - m.
Proof.
  induction l as [|[j k] l IH]; [intros _ []|]. intros Hd [E|Hin]; inversion Hd as [|? ? Hn Hd']; subst; rewrite without_cons, total_cons.
  - injection E as -> ->. rewrite Z.eqb_refl, without_same by assumption. lia.
  - destruct (Z.eqb_spec j id) as [->|Hne]; [exfalso; apply Hn; apply in_map_iff; exists (id, m); auto|]. rewrite total_cons, IH by assumption. lia.
Qed.
Lemma total_bump id k l m : List.NoDup (map fst l) -> In (id, m) l -> total (bump id k l) = total l + k.
Proof.
  induction l as [|[j q] l IH]; [intros _ []|]. intros Hd [E|Hin]; inversion Hd as [|? ? Hn Hd']; subst; rewrite bump_cons, total_cons.
  - injection E as -> ->. rewrite Z.eqb_refl, bump_same by assumption. rewrite total_cons. lia.
  - destruct (Z.eqb_spec j id) as [->|Hne]; [exfalso; apply Hn; apply in_map_iff; exists (id, m); auto|]. rewrite total_cons, IH by assumption. lia.
Qed.
Lemma bump_fst id k l : map fst (bump id k l) = map fst l.
Proof. unfold bump. rewrite map_map. apply map_ext. intros [j m]. destruct (j =? id); reflexivity. Qed.
Lemma bump_in id k l i m : In (i, m) (bump id k l) -> exists m0, In (i, m0) l /\ m = m0 + (if i =? id then k else 0).
Proof.
  unfold bump. intros H. apply in_map_iff in H as ([j q] & E & Hin). destruct (Z.eqb_spec j id) as [->|]; injection E as <- <-.
  - exists q. rewrite Z.eqb_refl. auto.
  - exists q. rewrite (proj2 (Z.eqb_neq j id)) by assumption. split; [assumption|lia].
Qed.
Lemma without_in id l i m : In (i, m) (without id l) <-> In (i, m) l /\ i <> id.
Proof. unfold without. rewrite filter_In. rewrite negb_true_iff, Z.eqb_neq. reflexivity. Qed.
Lemma without_fst id l i : In i (map fst (without id l)) <-> In i (map fst l) /\ i <> id.
Proof.
  rewrite !in_map_iff. split.
  - intros ([j m] & <- & H). apply without_in in H as [H ?]. split; [exists (j, m); auto|assumption].
  - intros [([j m] & <- & H) Hne]. exists (j, m). split; [reflexivity|]. apply without_in. auto.
Qed.
Lemma without_nodup id l : List.NoDup (map fst l) -> List.NoDup (map fst (without id l)).
Proof.
  induction l as [|[j m] l IH]; cbn; [auto|]. intros H. inversion H as [|? ? Hn Hd]; subst. destruct (j =? id); cbn; [auto|]. constructor; [|auto].
  intros Hin. apply Hn. apply (without_fst id l j). assumption.
Qed.

Lemma refs_after_rollback N g hs r' : GInv N g -> N < 2 ^ 64 -> hooks_ok hs -> (forall x, incs x hs <= incs x (open_refs g)) ->
  run_rollbacks (g_refs g) (rev hs) = Done r' ->
  (forall x, refcount r' x = refcount (g_refs g) x - bal x hs) /\ (forall x, doomed r' x = doomed (g_refs g) x).
Proof.
  intros H HN Hh Hi E. destruct (run_rollbacks_spec _ (g_refs g) r' (gi_refs _ _ H) (hooks_ok_rev _ Hh)) as (_ & B & C); [|exact E|].
  - intros y. rewrite incs_rev. pose proof (gi_pot _ _ H y). specialize (Hi y). lia.
  - split; [|exact C]. intros x. rewrite B, decs_rev, incs_rev. unfold bal. lia.
Qed.
Lemma hooks_ok_frames N g : GInv N g -> hooks_ok (concat (map frame_refs (g_writer g))).
Proof. intros H. pose proof (gi_frames _ _ H) as HF. induction HF as [|f fs [_ Hf] _ IH]; cbn; [constructor|]. apply hooks_ok_app. auto. Qed.
Lemma frame_incs N g f fs x : GInv N g -> g_writer g = f :: fs -> incs x (frame_refs f) <= incs x (open_refs g).
Proof.
  intros H Hw. unfold open_refs. pose proof (hooks_ok_frames _ _ H) as Hok. rewrite Hw in *. cbn in Hok. apply hooks_ok_app in Hok as [_ Hok].
  pose proof (incs_nonneg x _ Hok) as Hnn. pose proof (incs_nonneg x _ (open_hooks_ok _ _ H)) as Hno. unfold open_refs in Hno. rewrite Hw in Hno.
  destruct (g_owner g) as [[m|id]|] eqn:Eo.
  - cbn [map concat]. rewrite incs_app. lia.
  - assert (Hall : Forall (fun f => frame_refs f = []) (g_writer g)) by (apply (gi_no_w _ _ H); congruence). rewrite Hw in Hall. inversion Hall as [|? ? Hf _]; subst. rewrite Hf. exact Hno.
  - assert (Hall : Forall (fun f => frame_refs f = []) (g_writer g)) by (apply (gi_no_w _ _ H); congruence). rewrite Hw in Hall. inversion Hall as [|? ? Hf _]; subst. rewrite Hf. exact Hno.
Qed.
Lemma reader_incs N g id rd x : GInv N g -> g_readers g !! id = Some rd -> incs x (refhooks (r_hooks rd)) <= incs x (open_refs g).
Proof.
  intros H Hr. pose proof (incs_nonneg x _ (open_hooks_ok _ _ H)) as Hno.
  assert (Hd : g_owner g = Some (OR id) \/ g_owner g <> Some (OR id)).
  { destruct (g_owner g) as [[m|j]|]; [right; discriminate| |right; discriminate]. destruct (Z.eq_dec j id) as [->|]; [auto|right; congruence]. }
  destruct Hd as [Eo|Eo].
  - unfold open_refs. rewrite Eo, Hr. lia.
  - rewrite (gi_no_r _ _ H id rd Hr Eo). exact Hno.
Qed.
Lemma new_hooks_bal x o res : bal x (new_hooks o res) = match o, res with OLock y, Ok _ => if y =? x then 1 else 0 | ORelease y k, Ok _ => if y =? x then - k else 0 | _, _ => 0 end.
Proof.
  destruct o as [| | | | | | | | |y|y k]; destruct res as [[]|err]; try reflexivity.
  - unfold bal. cbn. destruct (y =? x); lia.
  - unfold bal, new_hooks. destruct (Z.eqb_spec k 0) as [->|]; cbn; destruct (y =? x); lia.
Qed.

Lemma linv_step N g e r g' x d : GInv N g -> N + 1 < 2 ^ 64 -> glegal g e -> gt g e r g' -> LInv x g d -> LInv x g' (led_step x d e r).
Proof.
  intros HG HN Hl Hgt [L1 L2 L3 L4 L5 L6]. destruct d as [kept st rl nl]. cbn [l_kept l_stack l_readers l_next] in *.
  assert (Hop : forall t o res t', TInv t -> t_refs t = g_refs g -> t_hooks t = [] -> legal t o -> step t o = Done (res, t') ->
     refcount (t_refs t') x = refcount (g_refs g) x + bal x (new_hooks o res) /\ t_hooks t' = new_hooks o res).
  { intros t o res t' HT Er Eh Hlg Es. rewrite <- Er. split.
    - assert (refcount (t_refs t') x = refcount (t_refs t) x + decs x (new_hooks o res) - incs x (new_hooks o res)); [|unfold bal; lia].
      apply (step_pot _ _ _ _ x HT Hlg Es). rewrite Er. pose proof (gi_pot _ _ HG x). pose proof (incs_nonneg x _ (open_hooks_ok _ _ HG)). lia.
    - destruct (step_more _ _ _ _ HT Hlg Es) as (_ & _ & _ & _ & ->). rewrite Eh. reflexivity. }
  assert (Hrb : forall id, List.NoDup (map fst rl) -> forall m, In (id, m) rl -> total (without id rl) = total rl - m) by (intros; apply total_without; assumption).
  assert (Hdel : forall id (rs : gmap Z reader), (forall i m, In (i, m) rl -> exists rd, rs !! i = Some rd /\ m = bal x (refhooks (r_hooks rd))) ->
     forall i m, In (i, m) (without id rl) -> exists rd, delete id rs !! i = Some rd /\ m = bal x (refhooks (r_hooks rd))).
  { intros id rs H i m Hin. apply without_in in Hin as [Hin Hne]. destruct (H i m Hin) as (rd & E & Em). exists rd. rewrite lookup_delete_ne by congruence. auto. }
  assert (Hdom : forall id (rs : gmap Z reader), (forall i rd, rs !! i = Some rd -> In i (map fst rl)) ->
     forall i rd, delete id rs !! i = Some rd -> In i (map fst (without id rl))).
  { intros id rs H i rd E. apply lookup_delete_Some in E as [Hne E]. apply without_fst. split; [eauto|congruence]. }
  assert (Hmem : forall id rd, g_readers g !! id = Some rd -> In (id, bal x (refhooks (r_hooks rd))) rl).
  { intros id rd E. pose proof (L5 id rd E) as Hin. apply in_map_iff in Hin as ([j m] & Ej & Hin). cbn in Ej. subst j. destruct (L3 id m Hin) as (rd' & E' & ->). congruence. }
  destruct Hgt as [comm r ow ws rs nx log|comm r ow rs nx log|comm r ow f fs rs nx log|comm r ow f fs rs nx log o res t ow' g Hs How|comm r ow f fs rs nx log u
    |comm r ow f rs nx log l Hc|comm r ow f rs nx log l r' err Hc Hr|comm r ow f p fs rs nx log|comm r ow f fs rs nx log l r' Ha Hr|comm r ow f fs rs nx log
    |comm r ow ws rs nx log id rd o e res t o' g Hrd Ho Ha Hs Hdb|comm r ow ws rs nx log id rd y Hrd|comm r ow ws rs nx log id rd u Hrd
    |comm r ow ws rs nx log id rd l Hrd Hc|comm r ow ws rs nx log id rd l r' err Hrd Hc Hr|comm r ow ws rs nx log id rd l r' Hrd Ha Hr|comm r ow ws rs nx log id rd Hrd
    |comm r ow ws rs nx log root d r' Ho]; try (subst g); cbn [g_comm g_refs g_owner g_writer g_readers g_next] in *; subst nl.
  - (* begin ro *) cbn [led_step]. split; cbn [l_kept l_stack l_readers l_next g_refs g_writer g_readers g_next]; auto.
    + intros id m [E|Hin]; [injection E as <- <-; rewrite lookup_insert; eexists; split; [reflexivity|reflexivity]|].
      destruct (L3 id m Hin) as (rd & E & Em). destruct (gi_readers _ _ HG id rd E) as (_ & _ & Hlt & _). cbn in Hlt. rewrite lookup_insert_ne by lia. eauto.
    + cbn. constructor; [|assumption]. intros Hin. apply in_map_iff in Hin as ([j m] & Ej & Hin). cbn in Ej. subst j. destruct (L3 nx m Hin) as (rd & E & _).
      destruct (gi_readers _ _ HG nx rd E) as (_ & _ & Hlt & _). cbn in Hlt. lia.
    + intros id rd E. cbn. destruct (decide (id = nx)) as [->|]; [auto|]. rewrite lookup_insert_ne in E by congruence. right. eauto.
  - inversion L2; subst. cbn [led_step]. split; cbn; auto.
  - cbn [led_step]. split; cbn; auto.
  - inversion L2 as [|? a ? s Ea L2']; subst.
    pose proof (gi_frames _ _ HG) as HF. cbn in HF. inversion HF as [|? ? [Hf1 Hf2] _]; subst.
    edestruct (Hop (frame_tx (GW comm r ow (f :: fs) rs nx log) f) o res t) as [Hrc Hhk];
      [split; cbn; [assumption|apply (gi_refs _ _ HG)|constructor]|reflexivity|reflexivity|exact (Hl f fs eq_refl)|exact Hs|].
    assert (Eq : led_step x (Led kept (bal x (frame_refs f) :: s) rl nx) (GOp o) res = Led kept ((bal x (frame_refs f) + bal x (new_hooks o res)) :: s) rl nx).
    { rewrite new_hooks_bal. destruct o as [| | | | | | | | |y|y k]; destruct res as [[]|err]; cbn [led_step]; rewrite ?Z.add_0_r; reflexivity. }
    rewrite Eq. split; cbn [l_kept l_stack l_readers l_next g_refs g_writer g_readers g_next]; auto.
    + rewrite ?sum_cons in *. lia.
    + constructor; [|assumption]. rewrite frame_refs_op, Hhk, bal_app. reflexivity.
  - inversion L2 as [|? a ? s Ea L2']; subst. cbn [led_step]. split; cbn [l_kept l_stack l_readers l_next g_refs g_writer g_readers g_next]; auto.
    constructor; [|assumption]. f_equal. unfold frame_refs. cbn. rewrite refhooks_app. unfold refhooks at 3. cbn. rewrite app_nil_r. reflexivity.
  - inversion L2 as [|? a ? s Ea L2']; subst. inversion L2'; subst. cbn [led_step]. split; cbn [l_kept l_stack l_readers l_next g_refs g_writer g_readers g_next]; auto.
    rewrite ?sum_cons in *. lia.
  - inversion L2 as [|? a ? s Ea L2']; subst. inversion L2'; subst. cbn [led_step tl].
    pose proof (gi_frames _ _ HG) as HF. cbn in HF. inversion HF as [|? ? [Hf1 Hf2] _]; subst.
    destruct (refs_after_rollback _ _ _ r' HG ltac:(lia) Hf2 (fun y => frame_incs _ _ f [] y HG eq_refl) Hr) as [Hrc _].
    split; cbn [l_kept l_stack l_readers l_next g_refs g_writer g_readers g_next]; auto. rewrite Hrc. cbn [g_refs]. rewrite ?sum_cons in *. lia.
  - inversion L2 as [|? a ? s Ea L2']; subst. inversion L2' as [|? b ? s' Eb L2'']; subst. cbn [led_step].
    split; cbn [l_kept l_stack l_readers l_next g_refs g_writer g_readers g_next]; auto.
    + rewrite ?sum_cons in *. lia.
    + constructor; [|assumption]. change (frame_refs (Frame (f_db f) (f_hooks p ++ f_hooks f) (f_rw p))) with (refhooks (f_hooks p ++ f_hooks f)). rewrite refhooks_app, bal_app. unfold frame_refs. lia.
  - inversion L2 as [|? a ? s Ea L2']; subst. cbn [led_step tl].
    pose proof (gi_frames _ _ HG) as HF. cbn in HF. inversion HF as [|? ? [Hf1 Hf2] _]; subst.
    destruct (refs_after_rollback _ _ _ r' HG ltac:(lia) Hf2 (fun y => frame_incs _ _ f fs y HG eq_refl) Hr) as [Hrc _].
    split; cbn [l_kept l_stack l_readers l_next g_refs g_writer g_readers g_next]; auto. rewrite Hrc. cbn [g_refs]. rewrite ?sum_cons in *. lia.
  - inversion L2 as [|? a ? s Ea L2']; subst. cbn [led_step].
    split; cbn [l_kept l_stack l_readers l_next g_refs g_writer g_readers g_next]; auto. rewrite ?sum_cons in *. lia.
  - destruct (gi_readers _ _ HG id rd Hrd) as (R1 & R2 & R3 & R4). pose proof (Hmem id rd Hrd) as Hin.
    edestruct (Hop (reader_tx (GW comm r ow ws rs nx log) rd) o res t) as [Hrc Hhk];
      [split; cbn; [assumption|apply (gi_refs _ _ HG)|constructor]|reflexivity|reflexivity| |exact Hs|].
    { destruct Ho as [(y & -> & ->)|(y & k & Hk & -> & ->)]; [exact I|exact Hl]. }
    assert (Eq : led_step x (Led kept st rl nx) e res = Led kept st (match res with Ok _ => bump id (bal x (new_hooks o res)) rl | Err _ => rl end) nx).
    { rewrite new_hooks_bal. destruct Ho as [(y & -> & ->)|(y & k & Hk & -> & ->)]; destruct res as [[]|err]; reflexivity. }
    assert (Hz : (match res with Ok _ => True | Err _ => bal x (new_hooks o res) = 0 end)).
    { destruct res as [|err]; [exact I|]. destruct o; reflexivity. }
    rewrite Eq. assert (Hnew : refhooks (r_hooks rd ++ map HRef (t_hooks t)) = refhooks (r_hooks rd) ++ new_hooks o res) by (rewrite refhooks_app, refhooks_HRef, Hhk; reflexivity).
    destruct res as [u|err]; split; cbn [l_kept l_stack l_readers l_next g_refs g_writer g_readers g_next]; auto.
    + rewrite (total_bump id _ rl _ L4 Hin). lia.
    + intros i m Hi. apply bump_in in Hi as (m0 & Hi & ->). destruct (L3 i m0 Hi) as (rd0 & E0 & ->). destruct (Z.eqb_spec i id) as [->|Hne].
      * rewrite lookup_insert. eexists. split; [reflexivity|]. cbn [r_hooks]. rewrite Hnew, bal_app. congruence.
      * rewrite lookup_insert_ne by congruence. exists rd0. split; [assumption|lia].
    + rewrite bump_fst. assumption.
    + intros i rd0 E0. rewrite bump_fst. destruct (decide (i = id)) as [->|]; [eauto|]. rewrite lookup_insert_ne in E0 by congruence. eauto.
    + lia.
    + intros i m Hi. destruct (L3 i m Hi) as (rd0 & E0 & ->). destruct (decide (i = id)) as [->|Hne].
      * rewrite lookup_insert. eexists. split; [reflexivity|]. cbn [r_hooks]. rewrite Hnew, bal_app. rewrite Hz. replace rd with rd0 by congruence. lia.
      * rewrite lookup_insert_ne by congruence. exists rd0. auto.
    + intros i rd0 E0. destruct (decide (i = id)) as [->|]; [eauto|]. rewrite lookup_insert_ne in E0 by congruence. eauto.
  - (* release 0 *) cbn [led_step]. assert (Eb : (if y =? x then - 0 else 0) = 0) by (destruct (y =? x); reflexivity). rewrite Eb.
    assert (Hb : bump id 0 rl = rl). { unfold bump. rewrite <- (map_id rl) at 2. apply map_ext. intros [j m]. destruct (j =? id); [f_equal; lia|reflexivity]. }
    rewrite Hb. split; auto.
  - cbn [led_step]. assert (Eq : refhooks (r_hooks rd ++ [HUser u false]) = refhooks (r_hooks rd)) by (rewrite refhooks_app; unfold refhooks at 2; cbn; apply app_nil_r).
    split; cbn [l_kept l_stack l_readers l_next g_refs g_writer g_readers g_next]; auto.
    + intros i m Hi. destruct (L3 i m Hi) as (rd0 & E0 & ->). destruct (decide (i = id)) as [->|Hne].
      * rewrite lookup_insert. eexists. split; [reflexivity|]. cbn [r_hooks]. rewrite Eq. congruence.
      * rewrite lookup_insert_ne by congruence. exists rd0. auto.
    + intros i rd0 E0. destruct (decide (i = id)) as [->|]; [eauto|]. rewrite lookup_insert_ne in E0 by congruence. eauto.
  - cbn [led_step]. split; cbn [l_kept l_stack l_readers l_next g_refs g_writer g_readers g_next]; auto; try lia.
    + apply without_nodup. assumption.
    + apply Hdom. assumption.
  - destruct (gi_readers _ _ HG id rd Hrd) as (R1 & R2 & R3 & R4). cbn [led_step].
    destruct (refs_after_rollback _ _ _ r' HG ltac:(lia) R2 (fun y => reader_incs _ _ id rd y HG Hrd) Hr) as [Hrc _].
    split; cbn [l_kept l_stack l_readers l_next g_refs g_writer g_readers g_next]; auto.
    + rewrite Hrc. cbn [g_refs]. rewrite (Hrb id L4 _ (Hmem id rd Hrd)). lia.
    + apply without_nodup. assumption.
    + apply Hdom. assumption.
  - destruct (gi_readers _ _ HG id rd Hrd) as (R1 & R2 & R3 & R4). cbn [led_step].
    destruct (refs_after_rollback _ _ _ r' HG ltac:(lia) R2 (fun y => reader_incs _ _ id rd y HG Hrd) Hr) as [Hrc _].
    split; cbn [l_kept l_stack l_readers l_next g_refs g_writer g_readers g_next]; auto.
    + rewrite Hrc. cbn [g_refs]. rewrite (Hrb id L4 _ (Hmem id rd Hrd)). lia.
    + apply without_nodup. assumption.
    + apply Hdom. assumption.
  - cbn [led_step]. split; cbn [l_kept l_stack l_readers l_next g_refs g_writer g_readers g_next]; auto; try lia.
    + apply without_nodup. assumption.
    + apply Hdom. assumption.
  - cbn [led_step]. pose proof (gi_comm _ _ HG) as Hi. cbn in Hi.
    destruct (open_cache_spec root comm) as (R & HR & E & _); [rewrite init_db_id; assumption|]. rewrite E in Ho. injection Ho as <- <-.
    split; cbn [l_kept l_stack l_readers l_next g_refs g_writer g_readers g_next]; auto.
    + rewrite refcount_doom_all. unfold refcount. rewrite lookup_empty. reflexivity.
    + intros i m [].
    + constructor.
    + intros i rd E0. rewrite lookup_empty in E0. discriminate.
Qed.
Lemma linv_open root g x : gopen root = Done g -> LInv x g (Led 0 [] [] 0).
Proof.
  unfold gopen. destruct (open_cache_spec root db_empty (init_db_inv root)) as (R & _ & E & _). rewrite E. cbn [obind]. intros Eg. injection Eg as <-.
  split; cbn -[cleaned init_db]; auto.
  - rewrite refcount_doom_all. unfold refcount. rewrite lookup_empty. reflexivity.
  - intros id m [].
  - constructor.
  - intros id rd Er. rewrite lookup_empty in Er. discriminate.
Qed.
Lemma linv_run x l : forall N g g' d, GInv N g -> 0 <= N -> N + Z.of_nat (length l) < 2 ^ 64 -> grun g l g' -> LInv x g d -> LInv x g' (led_run x d l).
Proof.
  induction l as [|[e r] l IH]; intros N g g' d HG H0 HN Hr HL; inversion Hr; subst; [exact HL|]. cbn [length] in HN. cbn [led_run].
  eapply (IH (N + 1) g1); [eapply gstep_inv; eauto; lia|lia|lia|assumption|]. eapply linv_step; eauto; [lia|]. apply gstep_gt. assumption.
Qed.
(** In every state of every history, the number of references of an inode is what the ledger says:
    the references made by successfully ended transactions plus those of the open ones.  An aborted
    transaction (or one whose commit fails) contributes nothing, at any depth of nesting. *)
Theorem C28_reference_ledger : forall root g0 l g x, gopen root = Done g0 -> grun g0 l g -> Z.of_nat (length l) < 2 ^ 64 ->
  let d := led_run x (Led 0 [] [] 0) l in
  refcount (g_refs g) x = l_kept d + sum (l_stack d) + total (l_readers d) /\
  length (l_stack d) = length (g_writer g) /\
  (forall id, In id (map fst (l_readers d)) <-> g_readers g !! id <> None).
Proof.
  intros root g0 l g x Ho Hr Hl. cbn zeta.
  destruct (linv_run x l 0 g0 g _ (gopen_inv _ _ Ho) ltac:(lia) ltac:(lia) Hr (linv_open _ _ x Ho)) as [L1 L2 L3 L4 L5 L6].
  split_and!.
  - exact L1.
  - symmetry. eapply Forall2_length. exact L2.
  - intros id. split.
    + intros Hin. apply in_map_iff in Hin as ([j m] & Ej & Hin). cbn in Ej. subst j. destruct (L3 id m Hin) as (rd & E & _). congruence.
    + intros Hn. destruct (g_readers g !! id) as [rd|] eqn:E; [eauto|contradiction].
Qed.
Print Assumptions C28_reference_ledger.
(** A history with two levels: the inner transaction is aborted, the middle one committed. *)
Definition c28_events : list gev :=
  [GBeginRW; GOp (OEmplace 1 (nm 100) dirA); GOp (OLock 2); GNest; GHook (okhook 1); GOp (OEmplace 2 (nm 101) regA); GOp (OLock 2); GOp (OLock 3);
   GNest; GHook (okhook 2); GOp (ORelease 2 2); GOp (OUnlinkIno 3); GOp (OEmplace 1 (nm 102) regA); GAbort; GCommit].
Example C28_sample : let g := gstate c28_events in greachable 15 g /\ length (g_writer g) = 1%nat /\
  refcount (g_refs g) 2 = 2 /\ refcount (g_refs g) 3 = 1 /\ g_log g = [CRB 2] /\
  (exists f, g_writer g = [f] /\ lookup (f_db f) 2 (nm 101) = Ok 3 /\ lookup (f_db f) 1 (nm 102) = Err ENOENT /\ user_hooks (f_hooks f) = [okhook 1]) /\
  lookup (g_comm g) 1 (nm 100) = Err ENOENT.
Proof.
  cbn zeta. split; [apply (gstate_reachable c28_events); [vm_compute; reflexivity|cbn; lia]|].
  split; [vm_compute; reflexivity|]. split; [vm_compute; reflexivity|]. split; [vm_compute; reflexivity|]. split; [vm_compute; reflexivity|].
  split; [|vm_compute; reflexivity]. eexists. split; [vm_compute; reflexivity|]. split; [vm_compute; reflexivity|]. split; vm_compute; reflexivity.
Qed.
(** Findings.  A transaction that is destroyed without commit or abort gives its references to
    nobody: they stay for ever (and its rollback hooks never run). *)
Theorem C28_drop_leaks_refuted : exists g, greachable 7 g /\ g_writer g = [] /\ g_readers g = ∅ /\ refcount (g_refs g) 2 = 1 /\ g_log g = [] /\ d_inodes (g_comm g) !! 2 <> None.
Proof.
  pose (l := [GBeginRW; GOp (OEmplace 1 (nm 100) dirA); GCommit; GBeginRW; GHook (okhook 1); GOp (OLock 2); GDrop]).
  exists (gstate l). split; [apply (gstate_reachable l); [vm_compute; reflexivity|cbn; lia]|].
  split; [vm_compute; reflexivity|]. split; [vm_compute; reflexivity|]. split; [vm_compute; reflexivity|]. split; vm_compute; [reflexivity|discriminate].
Qed.
Print Assumptions C28_drop_leaks_refuted.
(** ... and a nested transaction that releases its parent's lock and is destroyed makes the parent's
    abort throw out of a rollback hook. *)
Theorem C28_drop_then_abort_refuted : exists g, greachable 6 g /\ gstep g GAbort = Some Throw.
Proof.
  pose (l := [GBeginRW; GOp (OEmplace 1 (nm 100) dirA); GOp (OLock 2); GNest; GOp (ORelease 2 1); GDrop]).
  exists (gstate l). split; [apply (gstate_reachable l); [vm_compute; reflexivity|cbn; lia]|]. vm_compute. reflexivity.
Qed.
Print Assumptions C28_drop_then_abort_refuted.

(** ** C29: crash and restart at any point *)
Theorem C29_crash_recovery : forall n g root, greachable n g -> exists g',
  gstep g (GCrash root) = Some (Done (Ok tt, g')) /\
  (* exactly the committed tree minus what is reclaimable when nobody holds anything *)
  pruned (g_comm g) (g_comm g') (reclaimable (g_comm g) ∅) /\
  (forall x, ~ is_orphan (g_comm g') x) /\
  (* no inode is locked, no transaction is open, nobody owns the reference table *)
  (forall x, refcount (g_refs g') x = 0) /\ g_writer g' = [] /\ g_readers g' = ∅ /\ g_owner g' = None /\
  (* the tree is consistent *)
  consistent (g_comm g').
Proof.
  intros n g root Hg. pose proof (gi_comm _ _ (greachable_inv _ _ Hg)) as Hi. destruct g as [comm r ow ws rs nx log]. cbn in Hi |- *.
  destruct (open_cache_spec root comm) as (R & HR & E & Hd & Hr & Hno); [rewrite init_db_id; assumption|]. rewrite E. cbn [obind].
  rewrite init_db_id in * by assumption. eexists. split; [reflexivity|]. cbn [g_comm g_refs g_writer g_readers g_owner].
  split_and!; auto.
  - eapply pruned_iff; [|eapply cleaned_pruned; [exact Hi|exact Hd|apply refs_ok_empty|exact HR]].
    intros x. rewrite HR. symmetry. apply reclaimable_gone; [assumption|apply refs_ok_empty].
  - intros x Hx. apply is_orphan_iff in Hx; [|assumption]. rewrite Hno in Hx. apply not_elem_of_empty in Hx. assumption.
  - intros x. rewrite refcount_doom_all. unfold refcount. rewrite lookup_empty. reflexivity.
  - apply inv_consistent. assumption.
Qed.
Print Assumptions C29_crash_recovery.
(** a crash with a committed held orphan (3), an open write transaction and a reader *)
Definition c29_events : list gev :=
  [GBeginRW; GOp (OEmplace 1 (nm 100) dirA); GOp (OEmplace 2 (nm 101) dirA); GOp (OEmplace 3 (nm 102) regA); GOp (OLock 3); GOp (OUnlinkIno 3); GCommit;
   GBeginRO; GBeginRW; GOp (OEmplace 1 (nm 103) regA)].
Example C29_sample : let g := gstate c29_events in greachable 10 g /\ is_orphan (g_comm g) 3 /\ length (g_writer g) = 1%nat /\
  exists g', gstep g (GCrash (A 0)) = Some (Done (Ok tt, g')) /\ getattr (g_comm g') 3 = Err ENOENT /\ getattr (g_comm g') 4 = Err ENOENT /\
    lookup (g_comm g') 1 (nm 100) = Ok 2 /\ lookup (g_comm g') 1 (nm 103) = Err ENOENT.
Proof.
  cbn zeta. split; [apply (gstate_reachable c29_events); [vm_compute; reflexivity|cbn; lia]|].
  split; [split; [discriminate|vm_compute; reflexivity]|]. split; [vm_compute; reflexivity|]. eexists. split; [vm_compute; reflexivity|].
  split; [vm_compute; reflexivity|]. split; [vm_compute; reflexivity|]. split; vm_compute; reflexivity.
Qed.
