(** The invariant of the multi-thread model. *)
From Verif Require Export TxnFacts.

Fixpoint incs (x : Z) (hs : list hook) : Z :=
  match hs with [] => 0 | RbIncref y n :: hs => (if y =? x then n else 0) + incs x hs | RbDecref _ :: hs => incs x hs end.
Fixpoint decs (x : Z) (hs : list hook) : Z :=
  match hs with [] => 0 | RbDecref y :: hs => (if y =? x then 1 else 0) + decs x hs | RbIncref _ _ :: hs => decs x hs end.
Lemma incs_app x a b : incs x (a ++ b) = incs x a + incs x b.
Proof. induction a as [|[y|y n] a IH]; cbn; lia. Qed.
Lemma decs_app x a b : decs x (a ++ b) = decs x a + decs x b.
Proof. induction a as [|[y|y n] a IH]; cbn; lia. Qed.
Lemma incs_rev x a : incs x (rev a) = incs x a.
Proof. induction a as [|h a IH]; [reflexivity|]. cbn [rev]. rewrite incs_app, IH. destruct h as [y|y n]; cbn; lia. Qed.
Lemma decs_rev x a : decs x (rev a) = decs x a.
Proof. induction a as [|h a IH]; [reflexivity|]. cbn [rev]. rewrite decs_app, IH. destruct h as [y|y n]; cbn; lia. Qed.
Lemma incs_nonneg x hs : hooks_ok hs -> 0 <= incs x hs.
Proof. induction 1 as [|[y|y n] hs Hh _ IH]; cbn; [lia|lia|destruct (y =? x); lia]. Qed.
Lemma decs_nonneg x hs : 0 <= decs x hs.
Proof. induction hs as [|[y|y n] hs IH]; cbn; [lia|destruct (y =? x); lia|lia]. Qed.

Lemma run_rollback_one r h r' : refs_ok r -> (match h with RbIncref _ n => 0 <= n | _ => True end) ->
  (forall x, refcount r x + incs x [h] < 2 ^ 64) -> run_rollback r h = Done r' ->
  refs_ok r' /\ (forall x, refcount r' x = refcount r x - decs x [h] + incs x [h]) /\ (forall x, doomed r' x = doomed r x).
Proof.
  intros Hr Hh Hb E. destruct h as [y|y n]; cbn [run_rollback] in E.
  - destruct (decref_cases r y 1 ltac:(lia)) as [(Hle & b & Ey & Ed)|(_ & Ed)]; rewrite Ed in E; cbn [obind] in E; [|discriminate].
    injection E as <-. split_and!.
    + intros z k c. destruct (decide (z = y)) as [->|]; [rewrite lookup_insert|rewrite lookup_insert_ne by congruence; apply Hr]. intros Eq. injection Eq as <- _. lia.
    + intros x. cbn [decs incs]. unfold refcount at 1. destruct (Z.eqb_spec y x) as [<-|Hne]; [rewrite lookup_insert; lia|].
      rewrite lookup_insert_ne by congruence. fold (refcount r x). lia.
    + intros x. unfold doomed. destruct (decide (x = y)) as [->|]; [rewrite lookup_insert, Ey; reflexivity|rewrite lookup_insert_ne by congruence; reflexivity].
  - unfold incref in E. destruct (r !! y) as [[m [|]]|] eqn:Ey; try discriminate; injection E as <-.
    + assert (Hm : 0 <= m) by (eapply Hr; eassumption).
      assert (Hw : w64 (m + n) = m + n). { apply w64_small. specialize (Hb y). unfold refcount in Hb. rewrite Ey in Hb. cbn in Hb. rewrite Z.eqb_refl in Hb. lia. }
      rewrite Hw. split_and!.
      * intros z k c. destruct (decide (z = y)) as [->|]; [rewrite lookup_insert|rewrite lookup_insert_ne by congruence; apply Hr]. intros Eq. injection Eq as <- _. lia.
      * intros x. cbn [decs incs]. unfold refcount. destruct (Z.eqb_spec y x) as [<-|Hne]; [rewrite lookup_insert, Ey; lia|].
        rewrite lookup_insert_ne by congruence. lia.
      * intros x. unfold doomed. destruct (decide (x = y)) as [->|]; [rewrite lookup_insert, Ey; reflexivity|rewrite lookup_insert_ne by congruence; reflexivity].
    + split_and!.
      * intros z k c. destruct (decide (z = y)) as [->|]; [rewrite lookup_insert|rewrite lookup_insert_ne by congruence; apply Hr]. intros Eq. injection Eq as <- _. lia.
      * intros x. cbn [decs incs]. unfold refcount. destruct (Z.eqb_spec y x) as [<-|Hne]; [rewrite lookup_insert, Ey; lia|].
        rewrite lookup_insert_ne by congruence. lia.
      * intros x. unfold doomed. destruct (decide (x = y)) as [->|]; [rewrite lookup_insert, Ey; reflexivity|rewrite lookup_insert_ne by congruence; reflexivity].
Qed.
Lemma run_rollbacks_spec hs : forall r r', refs_ok r -> hooks_ok hs ->
  (forall x, refcount r x + incs x hs < 2 ^ 64) -> run_rollbacks r hs = Done r' ->
  refs_ok r' /\ (forall x, refcount r' x = refcount r x - decs x hs + incs x hs) /\ (forall x, doomed r' x = doomed r x).
Proof.
  induction hs as [|h hs IH]; intros r r' Hr Hh Hb E.
  - injection E as <-. split_and!; auto. intros x. cbn. lia.
  - cbn [run_rollbacks] in E. inversion Hh as [|? ? Hh1 Hh2]; subst. destruct (run_rollback r h) as [r1| | |] eqn:E1; try discriminate. cbn [obind] in E.
    assert (Hi : forall x, incs x (h :: hs) = incs x [h] + incs x hs) by (intros x; exact (incs_app x [h] hs)).
    assert (Hd : forall x, decs x (h :: hs) = decs x [h] + decs x hs) by (intros x; exact (decs_app x [h] hs)).
    destruct (run_rollback_one r h r1 Hr Hh1) as (A & B & C); [|exact E1|].
    { intros x. specialize (Hb x). rewrite Hi in Hb. pose proof (incs_nonneg x hs Hh2). lia. }
    destruct (IH r1 r' A Hh2) as (A' & B' & C'); [|exact E|].
    { intros x. specialize (Hb x). rewrite Hi in Hb. rewrite B. pose proof (decs_nonneg x [h]). lia. }
    split_and!; [assumption| |intros x; rewrite C'; apply C]. intros x. rewrite B', B, Hi, Hd. lia.
Qed.
Lemma hooks_ok_rev hs : hooks_ok hs -> hooks_ok (rev hs).
Proof. apply Forall_rev. Qed.
Lemma hooks_ok_app a b : hooks_ok (a ++ b) <-> hooks_ok a /\ hooks_ok b.
Proof. unfold hooks_ok. apply Forall_app. Qed.

(** ** invariant *)
(** everything in [d] is in [d'] or doomed, and [d'] has used at least as many numbers *)
Definition sub (r : refs) (d d' : db) : Prop :=
  (forall x, d_inodes d !! x <> None -> d_inodes d' !! x <> None \/ doomed r x = true) /\ next_le d d'.
Lemma sub_refl r d : Inv d -> sub r d d.
Proof. intros H. split; [auto|apply next_le_refl; assumption]. Qed.
Lemma sub_trans r d1 d2 d3 : sub r d1 d2 -> sub r d2 d3 -> sub r d1 d3.
Proof.
  intros [A B] [A' B']. split; [|eapply next_le_trans; eassumption]. intros x Hx. destruct (A x Hx) as [Hx2|]; [|auto]. apply A'. assumption.
Qed.
Lemma sub_mono r r' d d' : (forall x, doomed r x = true -> doomed r' x = true) -> sub r d d' -> sub r' d d'.
Proof. intros Hm [A B]. split; [|assumption]. intros x Hx. destruct (A x Hx); auto. Qed.

Definition base (comm : db) (fs : list frame) : db := match fs with [] => comm | p :: _ => f_db p end.
Fixpoint chained (r : refs) (comm : db) (ws : list frame) : Prop :=
  match ws with [] => True | f :: fs => sub r (base comm fs) (f_db f) /\ chained r comm fs end.
Lemma chained_mono r r' comm ws : (forall x, doomed r x = true -> doomed r' x = true) -> chained r comm ws -> chained r' comm ws.
Proof. intros Hm. induction ws as [|f fs IH]; cbn; [auto|]. intros [A B]. split; [eapply sub_mono; eassumption|auto]. Qed.

Definition frame_refs (f : frame) : list hook := refhooks (f_hooks f).
(** the hooks on references of the open transactions: they all belong to the mutex owner *)
Definition open_refs (g : gworld) : list hook :=
  match g_owner g with
  | None => []
  | Some (OR id) => match g_readers g !! id with Some rd => refhooks (r_hooks rd) | None => [] end
  | Some (OW _) => concat (map frame_refs (g_writer g))
  end.
Record GInv (N : Z) (g : gworld) : Prop := {
  gi_comm : Inv (g_comm g);
  gi_refs : refs_ok (g_refs g);
  gi_frames : Forall (fun f => Inv (f_db f) /\ hooks_ok (frame_refs f)) (g_writer g);
  gi_readers : forall id rd, g_readers g !! id = Some rd ->
    Inv (r_snap rd) /\ hooks_ok (refhooks (r_hooks rd)) /\ id < g_next g /\ sub (g_refs g) (r_snap rd) (g_comm g);
  gi_chain : chained (g_refs g) (g_comm g) (g_writer g);
  gi_pot : forall x, refcount (g_refs g) x + incs x (open_refs g) <= N;
  gi_own_r : forall id, g_owner g = Some (OR id) -> g_readers g !! id <> None;
  gi_own_w : forall m, g_owner g = Some (OW m) -> (m < length (g_writer g))%nat /\
     Forall (fun f => frame_refs f = []) (drop (length (g_writer g) - m) (g_writer g));
  gi_no_r : forall id rd, g_readers g !! id = Some rd -> g_owner g <> Some (OR id) -> refhooks (r_hooks rd) = [];
  gi_no_w : (forall m, g_owner g <> Some (OW m)) -> Forall (fun f => frame_refs f = []) (g_writer g) }.
Lemma concat_nil_frames ws : Forall (fun f => frame_refs f = []) ws -> concat (map frame_refs ws) = [].
Proof. induction 1 as [|f ws Hf _ IH]; [reflexivity|]. cbn. rewrite Hf, IH. reflexivity. Qed.
Lemma open_hooks_ok N g : GInv N g -> hooks_ok (open_refs g).
Proof.
  intros H. unfold open_refs. destruct (g_owner g) as [[m|id]|]; [| |constructor].
  - pose proof (gi_frames _ _ H) as HF. induction HF as [|f fs [_ Hf] _ IH]; cbn; [constructor|]. apply hooks_ok_app. auto.
  - destruct (g_readers g !! id) as [rd|] eqn:E; [|constructor]. apply (gi_readers _ _ H _ _ E).
Qed.

Lemma gopen_inv root g : gopen root = Done g -> GInv 0 g.
Proof.
  unfold gopen. destruct (open_cache_spec root db_empty (init_db_inv root)) as (R & _ & E & Hi & Hr & _). rewrite E. cbn [obind]. intros Eg. injection Eg as <-.
  split; cbn -[cleaned init_db]; auto; try discriminate.
  - intros x. rewrite refcount_doom_all. unfold refcount. rewrite lookup_empty. lia.
Qed.
