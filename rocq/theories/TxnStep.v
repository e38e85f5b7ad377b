(** Every event keeps the invariant. *)
From Verif Require Export TxnInv.

Lemma step_pot t o res t' x : TInv t -> legal t o -> step t o = Done (res, t') -> refcount (t_refs t) x + 1 < 2 ^ 64 ->
  refcount (t_refs t') x + incs x (new_hooks o res) <= refcount (t_refs t) x + 1 /\
  refcount (t_refs t') x = refcount (t_refs t) x + decs x (new_hooks o res) - incs x (new_hooks o res).
Proof.
  intros HT Hl E Hb. rewrite (step_refcount _ _ _ _ x HT Hl E). pose proof (refcount_nonneg _ x (tinv_refs _ HT)) as H0.
  destruct o as [| | | | | | | | |y|y n]; try (cbn; lia); destruct res as [[]|err]; try (cbn; lia).
  - cbn [count_after new_hooks incs decs]. destruct (y =? x); [rewrite w64_small by lia|]; lia.
  - cbn [count_after new_hooks]. cbn in Hl. destruct (Z.eqb_spec n 0) as [->|]; cbn [incs decs]; destruct (y =? x); lia.
Qed.
Lemma new_hooks_uses t o res : uses_refs t o = false -> new_hooks o res = [].
Proof. destruct o, res; cbn; auto; try discriminate. destruct (_ =? 0); [auto|discriminate]. Qed.
Lemma new_hooks_ok t o res : legal t o -> hooks_ok (new_hooks o res).
Proof.
  destruct o, res; cbn; intros Hl; try constructor; auto; try constructor. destruct (_ =? 0); constructor; auto; constructor.
Qed.
Lemma drop_cons_pos {A} (a b : A) l n : (0 < n)%nat -> drop n (a :: l) = drop n (b :: l).
Proof. destruct n; [lia|reflexivity]. Qed.
Lemma frame_refs_op f d l rw : frame_refs (Frame d (f_hooks f ++ map HRef l) rw) = frame_refs f ++ l.
Proof. unfold frame_refs. cbn. rewrite refhooks_app, refhooks_HRef. reflexivity. Qed.
Lemma sub_step t o res t' : TInv t -> legal t o -> step t o = Done (res, t') -> sub (t_refs t') (t_db t) (t_db t').
Proof.
  intros HT Hl E. destruct (step_more _ _ _ _ HT Hl E) as (_ & Hrem & _). split.
  - intros x Hx. destruct (d_inodes (t_db t') !! x) eqn:E'; [left; discriminate|right; auto].
  - eapply fr_next. apply (step_fr _ _ _ _ HT Hl E).
Qed.

(** an operation of a write transaction *)
Lemma op_w_inv N comm r ow f fs rs nx log o res t ow' :
  let g := GW comm r ow (f :: fs) rs nx log in
  GInv N g -> N + 1 < 2 ^ 64 -> legal (frame_tx g f) o -> step (frame_tx g f) o = Done (res, t) ->
  (if uses_refs (frame_tx g f) o then exists o', acquire_w g = Some o' /\ ow' = Some o' else ow' = ow) ->
  GInv (N + 1) (GW comm (t_refs t) ow' (Frame (t_db t) (f_hooks f ++ map HRef (t_hooks t)) (t_rw t) :: fs) rs nx log).
Proof.
  intros g H HN Hl E How. pose proof (gi_frames _ _ H) as HF. cbn [g g_writer] in HF. inversion HF as [|? ? [Hf1 Hf2] HF']; subst.
  assert (HT : TInv (frame_tx g f)) by (split; cbn; [assumption|apply (gi_refs _ _ H)|constructor]).
  destruct (step_more _ _ _ _ HT Hl E) as (Hdm & Hrem & Hdh & Huse & Hhk).
  destruct (step_fr _ _ _ _ HT Hl E) as [HT' _].
  assert (Hpot : forall x, refcount r x + incs x (open_refs g) <= N) by apply (gi_pot _ _ H).
  pose proof (fun x => incs_nonneg x _ (open_hooks_ok _ _ H)) as Hnn.
  assert (Hp : forall x, refcount (t_refs t) x + incs x (new_hooks o res) <= refcount r x + 1).
  { intros x. apply (step_pot _ _ _ _ x HT Hl E). cbn. specialize (Hpot x). specialize (Hnn x). lia. }
  cbn [frame_tx t_hooks app] in Hhk. cbn [frame_tx t_refs t_db g g_refs] in Hdm, Huse, Hdh, Hrem.
  assert (Hno : uses_refs (frame_tx g f) o = false -> new_hooks o res = []) by apply new_hooks_uses.
  assert (Hown : match ow' with Some (OW m) => (m < S (length fs))%nat /\ (ow = Some (OW m) \/ ow = None /\ m = length fs) | _ => ow' = ow /\ uses_refs (frame_tx g f) o = false end).
  { destruct (uses_refs (frame_tx g f) o).
    - destruct How as (o' & Ha & ->). unfold acquire_w in Ha. cbn in Ha. unfold depth in Ha. cbn in Ha. rewrite Nat.sub_0_r in Ha.
      destruct ow as [[m|id]|]; [|discriminate|]; injection Ha as <-; [|split; [lia|auto]].
      split; [|auto]. apply (gi_own_w _ _ H m eq_refl).
    - subst ow'. destruct ow as [[m|id]|]; auto. split; [|auto]. apply (gi_own_w _ _ H m eq_refl). }
  assert (Hfr : ow' = None \/ (exists id, ow' = Some (OR id)) -> t_refs t = r /\ new_hooks o res = [] /\ ow' = ow).
  { intros Ho. destruct ow' as [[m|id]|]; [destruct Ho as [|[? ?]]; discriminate| |]; destruct Hown as [-> Hu]; auto. }
  split; cbn [g_comm g_refs g_owner g_writer g_readers g_next].
  - apply (gi_comm _ _ H).
  - apply (tinv_refs _ HT').
  - constructor; [|assumption]. split; [apply (tinv_db _ HT')|]. rewrite frame_refs_op, Hhk. apply hooks_ok_app. split; [assumption|].
    eapply new_hooks_ok. eassumption.
  - intros id rd Hrd. destruct (gi_readers _ _ H id rd Hrd) as (A & B & C & D). split_and!; auto. eapply sub_mono; [exact Hdm|exact D].
  - destruct (gi_chain _ _ H) as [A B]. split; [|eapply chained_mono; [exact Hdm|exact B]].
    eapply sub_trans; [eapply sub_mono; [exact Hdm|exact A]|]. apply (sub_step _ _ _ _ HT Hl E).
  - intros x. specialize (Hpot x). specialize (Hp x). unfold open_refs in *. cbn [g g_owner g_writer g_readers] in *.
    destruct ow' as [[m|id]|].
    + cbn [map concat]. rewrite frame_refs_op, Hhk, !incs_app.
      assert (Hc : incs x (concat (map frame_refs (f :: fs))) = incs x (match ow with None => [] | Some (OR id) => match rs !! id with Some rd => refhooks (r_hooks rd) | None => [] end | Some (OW _) => concat (map frame_refs (f :: fs)) end)).
      { destruct Hown as [_ [->|[-> _]]]; [reflexivity|]. rewrite concat_nil_frames; [reflexivity|]. apply (gi_no_w _ _ H). cbn. discriminate. }
      rewrite <- Hc in Hpot. cbn [map concat] in Hpot. rewrite incs_app in Hpot. lia.
    + destruct Hfr as (Er & En & Eo); [eauto|]. rewrite Er, En in Hp. rewrite Er. rewrite <- Eo in Hpot. cbn [incs] in *. lia.
    + destruct Hfr as (Er & En & Eo); [eauto|]. rewrite Er, En in Hp. rewrite Er. rewrite <- Eo in Hpot. cbn [incs] in *. lia.
  - intros id Ho. subst ow'. destruct Hfr as (_ & _ & <-); [eauto|]. apply (gi_own_r _ _ H id). reflexivity.
  - intros m Ho. subst ow'. destruct Hown as [Hm Hc]. cbn [length]. split; [lia|]. rewrite (drop_cons_pos _ f) by lia.
    destruct Hc as [->|[-> ->]]; [apply (gi_own_w _ _ H m eq_refl)|]. replace (S (length fs) - length fs)%nat with 1%nat by lia. cbn [drop].
    assert (Hall : Forall (fun f => frame_refs f = []) (f :: fs)) by (apply (gi_no_w _ _ H); cbn; discriminate). rewrite drop_0. inversion Hall. assumption.
  - intros id rd Hrd Ho. apply (gi_no_r _ _ H id rd Hrd). cbn. intros ->. destruct ow' as [[m|j]|].
    + destruct Hown as [_ [?|[? _]]]; discriminate.
    + destruct Hown as [? _]. congruence.
    + destruct Hown as [? _]. congruence.
  - intros Hno_w. destruct ow' as [[m|j]|]; [exfalso; eapply Hno_w; reflexivity| |].
    + destruct Hfr as (_ & Hn & <-); [eauto|]. assert (Hall : Forall (fun f => frame_refs f = []) (f :: fs)) by (apply (gi_no_w _ _ H); cbn; discriminate).
      inversion Hall; subst. constructor; [|assumption]. rewrite frame_refs_op, Hhk, Hn, app_nil_r. assumption.
    + destruct Hfr as (_ & Hn & <-); [eauto|]. assert (Hall : Forall (fun f => frame_refs f = []) (f :: fs)) by (apply (gi_no_w _ _ H); cbn; discriminate).
      inversion Hall; subst. constructor; [|assumption]. rewrite frame_refs_op, Hhk, Hn, app_nil_r. assumption.
Qed.

(** lock or release by a reader *)
Lemma op_r_inv N comm r ow ws rs nx log id rd o res t o' :
  let g := GW comm r ow ws rs nx log in
  GInv N g -> N + 1 < 2 ^ 64 -> rs !! id = Some rd -> legal (reader_tx g rd) o -> uses_refs (reader_tx g rd) o = true ->
  step (reader_tx g rd) o = Done (res, t) -> t_db t = r_snap rd -> acquire_r g id = Some o' ->
  GInv (N + 1) (GW comm (t_refs t) (Some o') ws (<[id := Reader (r_snap rd) (r_hooks rd ++ map HRef (t_hooks t))]> rs) nx log).
Proof.
  intros g H HN Hrd Hl Hus E Hdb Ha. destruct (gi_readers _ _ H id rd Hrd) as (R1 & R2 & R3 & R4).
  assert (HT : TInv (reader_tx g rd)) by (split; cbn; [assumption|apply (gi_refs _ _ H)|constructor]).
  destruct (step_more _ _ _ _ HT Hl E) as (Hdm & Hrem & Hdh & Huse & Hhk).
  destruct (step_fr _ _ _ _ HT Hl E) as [HT' _].
  assert (Hpot : forall x, refcount r x + incs x (open_refs g) <= N) by apply (gi_pot _ _ H).
  pose proof (fun x => incs_nonneg x _ (open_hooks_ok _ _ H)) as Hnn.
  assert (Hp : forall x, refcount (t_refs t) x + incs x (new_hooks o res) <= refcount r x + 1).
  { intros x. apply (step_pot _ _ _ _ x HT Hl E). cbn. specialize (Hpot x). specialize (Hnn x). lia. }
  cbn [reader_tx t_hooks app] in Hhk. cbn [reader_tx t_refs t_db g g_refs] in Hdm, Hdh, Hrem.
  assert (Ho : o' = OR id /\ (ow = Some (OR id) \/ ow = None)).
  { unfold acquire_r in Ha. cbn in Ha. destruct ow as [[m|j]|]; [discriminate| |injection Ha as <-; auto].
    destruct (Z.eqb_spec j id) as [->|]; [|discriminate]. injection Ha as <-. auto. }
  destruct Ho as [-> How].
  assert (Hnw : forall m, ow <> Some (OW m)) by (intros m ->; destruct How; discriminate).
  assert (Hor : open_refs g = refhooks (r_hooks rd)).
  { unfold open_refs. cbn. destruct How as [->| ->]; [rewrite Hrd; reflexivity|]. symmetry. apply (gi_no_r _ _ H id rd Hrd). discriminate. }
  split; cbn [g_comm g_refs g_owner g_writer g_readers g_next].
  - apply (gi_comm _ _ H).
  - apply (tinv_refs _ HT').
  - apply (gi_frames _ _ H).
  - intros j rd' Hj. destruct (decide (j = id)) as [->|Hne].
    + rewrite lookup_insert in Hj. injection Hj as <-. cbn [r_snap r_hooks]. split_and!; auto.
      * rewrite refhooks_app, refhooks_HRef, Hhk. apply hooks_ok_app. split; [assumption|]. eapply new_hooks_ok. eassumption.
      * eapply sub_mono; [exact Hdm|exact R4].
    + rewrite lookup_insert_ne in Hj by congruence. destruct (gi_readers _ _ H j rd' Hj) as (A & B & C & D). split_and!; auto.
      eapply sub_mono; [exact Hdm|exact D].
  - eapply chained_mono; [exact Hdm|]. apply (gi_chain _ _ H).
  - intros x. specialize (Hpot x). specialize (Hp x). rewrite Hor in Hpot. unfold open_refs. cbn. rewrite lookup_insert. cbn [r_hooks].
    rewrite refhooks_app, refhooks_HRef, Hhk, incs_app. lia.
  - intros j Ej. injection Ej as <-. rewrite lookup_insert. discriminate.
  - discriminate.
  - intros j rd' Hj Hne. rewrite lookup_insert_ne in Hj by congruence. apply (gi_no_r _ _ H j rd' Hj). cbn. destruct How as [->| ->]; congruence.
  - intros _. apply (gi_no_w _ _ H). exact Hnw.
Qed.

(** the end of the innermost write transaction [f]: [r'] are the references after its rollback
    hooks ran or not *)
Lemma end_w_inv N comm r ow f fs rs nx log comm' r' l :
  GInv N (GW comm r ow (f :: fs) rs nx log) -> N < 2 ^ 64 ->
  r' = r \/ run_rollbacks r (rev (frame_refs f)) = Done r' ->
  comm' = comm \/ fs = [] /\ comm' = f_db f ->
  GInv N (GW comm' r' (end_w ow (length fs) false) fs rs nx (log ++ l)).
Proof.
  intros H HN Hr Hc. pose proof (gi_frames _ _ H) as HF. cbn [g_writer] in HF. inversion HF as [|? ? [Hf1 Hf2] HF']; subst.
  assert (Hpot : forall x, refcount r x + incs x (open_refs (GW comm r ow (f :: fs) rs nx log)) <= N) by apply (gi_pot _ _ H).
  assert (Hinc : forall x, incs x (frame_refs f) + (match ow with Some (OW _) => incs x (concat (map frame_refs fs)) | _ => 0 end) <= incs x (open_refs (GW comm r ow (f :: fs) rs nx log))).
  { intros x. destruct ow as [[m|id]|] eqn:Eo.
    - unfold open_refs. cbn. rewrite incs_app. lia.
    - assert (Hn : frame_refs f = []).
      { assert (Hall : Forall (fun f => frame_refs f = []) (f :: fs)) by (apply (gi_no_w _ _ H); cbn; discriminate). inversion Hall. assumption. }
      rewrite Hn. pose proof (incs_nonneg x _ (open_hooks_ok _ _ H)) as Hq. cbn [incs]. lia.
    - assert (Hn : frame_refs f = []).
      { assert (Hall : Forall (fun f => frame_refs f = []) (f :: fs)) by (apply (gi_no_w _ _ H); cbn; discriminate). inversion Hall. assumption. }
      rewrite Hn. cbn. lia. }
  pose proof (fun x => incs_nonneg x _ (open_hooks_ok _ _ H)) as Hnn.
  pose proof (fun x => incs_nonneg x _ Hf2) as Hnf.
  assert (Hr' : refs_ok r' /\ (forall x, refcount r' x <= refcount r x + incs x (frame_refs f)) /\ (forall x, doomed r' x = doomed r x)).
  { destruct Hr as [->|Hr].
    - split_and!; auto; [apply (gi_refs _ _ H)|]. intros x. specialize (Hnf x). lia.
    - edestruct (run_rollbacks_spec _ r r' (gi_refs _ _ H) (hooks_ok_rev _ Hf2)) as (A & B & C); [|exact Hr|].
      { intros x. rewrite incs_rev. specialize (Hpot x). specialize (Hinc x).
        destruct ow as [[m|id]|]; cbv iota in Hinc; try lia.
        assert (0 <= incs x (concat (map frame_refs fs))); [|lia]. apply incs_nonneg. clear - HF'. induction HF' as [|q l [_ Hq] _ IH]; cbn; [constructor|]. apply hooks_ok_app; auto. }
      split_and!; auto. intros x. rewrite B. rewrite decs_rev, incs_rev. pose proof (decs_nonneg x (frame_refs f)). cbn. lia. }
  destruct Hr' as (Hrok & Hle & Hdm).
  assert (Hdm' : forall x, doomed r x = true -> doomed r' x = true) by (intros x; rewrite Hdm; auto).
  destruct (gi_chain _ _ H) as [Hch1 Hch2]. cbn [g_comm g_writer g_refs] in Hch1, Hch2.
  assert (Hend : forall m, end_w ow (length fs) false = Some (OW m) -> ow = Some (OW m) /\ (m < length fs)%nat).
  { intros m. unfold end_w. destruct ow as [[k|id]|] eqn:Eo; try discriminate. destruct (Nat.eqb_spec k (length fs)) as [->|Hne]; [discriminate|].
    intros Em. injection Em as ->. split; [reflexivity|]. destruct (gi_own_w _ _ H m eq_refl) as [Hm _]. cbn in Hm. lia. }
  assert (Hendr : forall id, end_w ow (length fs) false = Some (OR id) <-> ow = Some (OR id)).
  { intros id. unfold end_w. destruct ow as [[k|j]|]; [|tauto|tauto]. destruct (k =? length fs)%nat; split; discriminate. }
  split; cbn [g_comm g_refs g_owner g_writer g_readers g_next].
  - destruct Hc as [->|[_ ->]]; [apply (gi_comm _ _ H)|assumption].
  - assumption.
  - assumption.
  - intros id rd Hrd. destruct (gi_readers _ _ H id rd Hrd) as (A & B & C & D). cbn in D. split_and!; auto. eapply sub_mono; [exact Hdm'|].
    destruct Hc as [->|[-> ->]]; [assumption|]. eapply sub_trans; [exact D|]. exact Hch1.
  - destruct Hc as [->|[-> ->]]; [eapply chained_mono; [exact Hdm'|exact Hch2]|exact I].
  - intros x. specialize (Hpot x). specialize (Hinc x). specialize (Hle x). specialize (Hnn x). specialize (Hnf x).
    unfold open_refs. cbn [g_owner g_writer g_readers].
    destruct (end_w ow (length fs) false) as [[m|id]|] eqn:Ee.
    + destruct (Hend m eq_refl) as [-> _]. lia.
    + pose proof (proj1 (Hendr id) eq_refl) as ->.
      assert (Hn : frame_refs f = []).
      { assert (Hall : Forall (fun f => frame_refs f = []) (f :: fs)) by (apply (gi_no_w _ _ H); cbn; discriminate). inversion Hall. assumption. }
      rewrite Hn in Hle. unfold open_refs in Hpot. cbn in Hle, Hpot. lia.
    + destruct ow as [[k|id]|]; [|cbn in Ee; discriminate|cbn [incs]; cbv iota in Hinc; lia]. cbn [incs]. cbv iota in Hinc.
      assert (0 <= incs x (concat (map frame_refs fs))); [|lia].
      apply incs_nonneg. clear - HF'. induction HF' as [|q l' [_ Hq] _ IH]; cbn; [constructor|]. apply hooks_ok_app; auto.
  - intros id Ho. apply Hendr in Ho. apply (gi_own_r _ _ H id Ho).
  - intros m Ho. destruct (Hend m Ho) as [-> Hm]. split; [assumption|]. destruct (gi_own_w _ _ H m eq_refl) as [_ Hd]. cbn [g_writer length] in Hd.
    replace (S (length fs) - m)%nat with (S (length fs - m)) in Hd by lia. exact Hd.
  - intros id rd Hrd Ho. apply (gi_no_r _ _ H id rd Hrd). intros E. apply Ho. apply Hendr. exact E.
  - intros Hno. destruct ow as [[k|id]|].
    + unfold end_w in Hno. destruct (Nat.eqb_spec k (length fs)) as [->|Hne]; [|exfalso; eapply Hno; reflexivity].
      destruct (gi_own_w _ _ H (length fs) eq_refl) as [_ Hd]. cbn [g_writer length] in Hd. replace (S (length fs) - length fs)%nat with 1%nat in Hd by lia. cbn [drop] in Hd. rewrite drop_0 in Hd. exact Hd.
    + assert (Hall : Forall (fun f => frame_refs f = []) (f :: fs)) by (apply (gi_no_w _ _ H); cbn; discriminate). inversion Hall. assumption.
    + assert (Hall : Forall (fun f => frame_refs f = []) (f :: fs)) by (apply (gi_no_w _ _ H); cbn; discriminate). inversion Hall. assumption.
Qed.

Lemma end_r_inv N comm r ow ws rs nx log id rd r' l :
  GInv N (GW comm r ow ws rs nx log) -> N < 2 ^ 64 -> rs !! id = Some rd ->
  r' = r \/ run_rollbacks r (rev (refhooks (r_hooks rd))) = Done r' ->
  GInv N (GW comm r' (end_r ow id) ws (delete id rs) nx (log ++ l)).
Proof.
  intros H HN Hrd Hr. destruct (gi_readers _ _ H id rd Hrd) as (R1 & R2 & R3 & R4).
  assert (Hpot : forall x, refcount r x + incs x (open_refs (GW comm r ow ws rs nx log)) <= N) by apply (gi_pot _ _ H).
  assert (Hinc : ow = Some (OR id) /\ open_refs (GW comm r ow ws rs nx log) = refhooks (r_hooks rd) \/ ow <> Some (OR id) /\ refhooks (r_hooks rd) = []).
  { destruct ow as [[m|j]|]; [right|destruct (decide (j = id)) as [->|]; [left|right]|right].
    - split; [discriminate|]. apply (gi_no_r _ _ H id rd Hrd). discriminate.
    - split; [reflexivity|]. unfold open_refs. cbn. rewrite Hrd. reflexivity.
    - split; [congruence|]. apply (gi_no_r _ _ H id rd Hrd). cbn. congruence.
    - split; [discriminate|]. apply (gi_no_r _ _ H id rd Hrd). discriminate. }
  pose proof (fun x => incs_nonneg x _ R2) as Hnf. pose proof (fun x => incs_nonneg x _ (open_hooks_ok _ _ H)) as Hnn.
  assert (Hr' : refs_ok r' /\ (forall x, refcount r' x <= refcount r x + incs x (refhooks (r_hooks rd))) /\ (forall x, doomed r' x = doomed r x)).
  { destruct Hr as [->|Hr].
    - split_and!; auto; [apply (gi_refs _ _ H)|]. intros x. specialize (Hnf x). lia.
    - edestruct (run_rollbacks_spec _ r r' (gi_refs _ _ H) (hooks_ok_rev _ R2)) as (A & B & C); [|exact Hr|].
      { cbn. intros x. rewrite incs_rev. specialize (Hpot x). specialize (Hnn x). destruct Hinc as [[_ Hi]|[_ Hi]]; [rewrite Hi in Hpot; lia|rewrite Hi; cbn; lia]. }
      split_and!; auto. intros x. rewrite B. rewrite decs_rev, incs_rev. pose proof (decs_nonneg x (refhooks (r_hooks rd))). cbn. lia. }
  destruct Hr' as (Hrok & Hle & Hdm).
  assert (Hdm' : forall x, doomed r x = true -> doomed r' x = true) by (intros x; rewrite Hdm; auto).
  assert (Hend : forall m, end_r ow id = Some (OW m) <-> ow = Some (OW m)).
  { intros m. unfold end_r. destruct ow as [[k|j]|]; [tauto| |tauto]. destruct (j =? id); split; discriminate. }
  assert (Hendr : forall j, end_r ow id = Some (OR j) <-> ow = Some (OR j) /\ j <> id).
  { intros j. unfold end_r. destruct ow as [[k|i]|]; [split; [discriminate|intros [? _]; discriminate]| |split; [discriminate|intros [? _]; discriminate]].
    destruct (Z.eqb_spec i id) as [->|]; split; try discriminate; try congruence.
    - intros [Ej ?]. congruence.
    - intros Ej. split; congruence.
    - intros [Ej _]. congruence. }
  split; cbn [g_comm g_refs g_owner g_writer g_readers g_next].
  - apply (gi_comm _ _ H).
  - assumption.
  - apply (gi_frames _ _ H).
  - intros j rd' Hj. apply lookup_delete_Some in Hj as [_ Hj]. destruct (gi_readers _ _ H j rd' Hj) as (A & B & C & D). split_and!; auto. eapply sub_mono; [exact Hdm'|exact D].
  - eapply chained_mono; [exact Hdm'|apply (gi_chain _ _ H)].
  - intros x. specialize (Hpot x). specialize (Hle x). specialize (Hnn x). specialize (Hnf x).
    unfold open_refs. cbn [g_owner g_writer g_readers]. destruct Hinc as [[-> Hi]|[Hne Hi]].
    + cbn. rewrite Z.eqb_refl. cbn. rewrite Hi in Hpot. lia.
    + rewrite Hi in Hle. cbn in Hle. unfold open_refs in Hpot. cbn [g_owner g_writer g_readers] in Hpot.
      destruct (end_r ow id) as [[m|j]|] eqn:Ee.
      * pose proof (proj1 (Hend m) eq_refl) as ->. lia.
      * destruct (proj1 (Hendr j) eq_refl) as [-> Hj]. rewrite lookup_delete_ne by congruence. lia.
      * destruct ow as [[m|j]|]; cbn in Ee; try discriminate; [|cbn in Hpot |- *; lia]. destruct (Z.eqb_spec j id) as [->|]; [congruence|discriminate].
  - intros j Ho. apply Hendr in Ho as [-> Hj]. rewrite lookup_delete_ne by congruence. apply (gi_own_r _ _ H j). reflexivity.
  - intros m Ho. apply Hend in Ho. subst. apply (gi_own_w _ _ H m). reflexivity.
  - intros j rd' Hj Ho. apply lookup_delete_Some in Hj as [Hne Hj]. apply (gi_no_r _ _ H j rd' Hj). intros E. apply Ho. apply Hendr. split; [exact E|congruence].
  - intros Hno. apply (gi_no_w _ _ H). intros m E. eapply Hno. apply Hend. exact E.
Qed.

Lemma GInv_le N N' g : N <= N' -> GInv N g -> GInv N' g.
Proof. intros Hle [A B C D E F G K L M]. split; auto. intros x. specialize (F x). lia. Qed.

Lemma nest_commit_inv N comm r ow f p fs rs nx log :
  GInv N (GW comm r ow (f :: p :: fs) rs nx log) ->
  GInv N (GW comm r (end_w ow (length (p :: fs)) true) (Frame (f_db f) (f_hooks p ++ f_hooks f) (f_rw p) :: fs) rs nx log).
Proof.
  intros H. pose proof (gi_frames _ _ H) as HF. cbn [g_writer] in HF. inversion HF as [|? ? [Hf1 Hf2] HF']; subst. inversion HF' as [|? ? [Hp1 Hp2] HF'']; subst.
  set (pf := Frame (f_db f) (f_hooks p ++ f_hooks f) (f_rw p)).
  assert (Epf : frame_refs pf = frame_refs p ++ frame_refs f) by (unfold frame_refs, pf; cbn; apply refhooks_app).
  destruct (gi_chain _ _ H) as [Hch1 [Hch2 Hch3]]. cbn [g_comm g_writer g_refs base] in Hch1, Hch2, Hch3.
  assert (Hend : forall m, end_w ow (length (p :: fs)) true = Some (OW m) -> exists k, ow = Some (OW k) /\ (k = S (length fs) /\ m = length fs \/ k = m /\ (m <= length fs)%nat)).
  { intros m. unfold end_w. destruct ow as [[k|id]|] eqn:Eo; try discriminate. cbn [length]. destruct (Nat.eqb_spec k (S (length fs))) as [->|Hne].
    - intros Em. injection Em as <-. exists (S (length fs)). split; [reflexivity|]. left. split; [reflexivity|lia].
    - intros Em. injection Em as ->. exists m. split; [reflexivity|]. right. split; [reflexivity|]. destruct (gi_own_w _ _ H m eq_refl) as [Hm _]. cbn in Hm. lia. }
  assert (Hendr : forall id, end_w ow (length (p :: fs)) true = Some (OR id) <-> ow = Some (OR id)).
  { intros id. unfold end_w. destruct ow as [[k|j]|]; [|tauto|tauto]. destruct (k =? length (p :: fs))%nat; split; discriminate. }
  assert (Hnw : (forall m, end_w ow (length (p :: fs)) true <> Some (OW m)) -> forall m, ow <> Some (OW m)).
  { intros Hn m ->. cbn in Hn. destruct (m =? S (length fs))%nat; eapply Hn; reflexivity. }
  split; cbn [g_comm g_refs g_owner g_writer g_readers g_next].
  - apply (gi_comm _ _ H).
  - apply (gi_refs _ _ H).
  - constructor; [|assumption]. split; [assumption|]. rewrite Epf. apply hooks_ok_app. auto.
  - apply (gi_readers _ _ H).
  - split; [|assumption]. eapply sub_trans; eassumption.
  - intros x. pose proof (gi_pot _ _ H x) as Hpot. unfold open_refs in *. cbn [g_owner g_writer g_readers g_refs] in *.
    destruct (end_w ow (length (p :: fs)) true) as [[m|id]|] eqn:Ee.
    + destruct (Hend m eq_refl) as (k & -> & _). cbn [map concat] in *. rewrite Epf. rewrite !incs_app in *. lia.
    + pose proof (proj1 (Hendr id) eq_refl) as ->. exact Hpot.
    + destruct ow as [[k|j]|]; cbn in Ee; [destruct (k =? S (length fs))%nat; discriminate|discriminate|exact Hpot].
  - intros id Ho. apply Hendr in Ho. apply (gi_own_r _ _ H id Ho).
  - intros m Ho. destruct (Hend m Ho) as (k & -> & Hk). destruct (gi_own_w _ _ H k eq_refl) as [Hkl Hd]. cbn [g_writer length] in *.
    destruct Hk as [[-> ->]|[-> Hm]]; (split; [lia|]).
    + replace (S (S (length fs)) - S (length fs))%nat with 1%nat in Hd by lia. replace (S (length fs) - length fs)%nat with 1%nat by lia.
      cbn [drop] in *. rewrite drop_0 in *. inversion Hd. assumption.
    + replace (S (S (length fs)) - m)%nat with (S (S (length fs - m))) in Hd by lia. replace (S (length fs) - m)%nat with (S (length fs - m)) by lia. exact Hd.
  - intros id rd Hrd Ho. apply (gi_no_r _ _ H id rd Hrd). intros E. apply Ho. apply Hendr. exact E.
  - intros Hno. pose proof (gi_no_w _ _ H (Hnw Hno)) as Hall. cbn [g_writer] in Hall. inversion Hall as [|? ? Hf Hall']; subst. inversion Hall' as [|? ? Hp Hall'']; subst.
    constructor; [|assumption]. rewrite Epf, Hf, Hp. reflexivity.
Qed.
