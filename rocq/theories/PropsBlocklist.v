(** Property theorems C01-C09 (blocklist).  Only statements, [exact]s, witnesses
    and [Print Assumptions]. *)
From Coq Require Import Sorted.
From Verif Require Import Prelude Blocklist BlocklistSpec BlocklistProofs BlocklistSem BlocklistMain
  BlocklistMore BlocklistThm BlocklistFinal BlocklistSmall BlocklistTwice.

(** ** Full statements (some are false of the code, see the [_refuted] theorems) *)
Definition C01_full : Prop := forall h b, Forall valid_req h -> run bl_fresh h = Done b ->
  forall x, state_of b x = expected h x.
Definition C02_full : Prop := forall h b, Forall valid_req h -> run bl_fresh h = Done b ->
  forall s, 0 <= s <= 3 -> blocks b s = nblocks (state_of b) s (2 ^ 64).
Definition C03_full : Prop := forall h b, Forall valid_req h -> run bl_fresh h = Done b ->
  exists b', fsck b = Done b'.
Definition C06_full : Prop := forall h b start size r, Forall valid_req h -> run bl_fresh h = Done b ->
  0 <= start < 2 ^ 63 -> 0 <= size -> start + size + 8192 < 2 ^ 64 ->
  truncate_access b start size = Done r ->
  r <= size /\ forall p, start <= p < start + r -> state_of b (p / 4096) <> ABSENT.
Definition C06_safe_full : Prop := forall h b start size, Forall valid_req h -> run bl_fresh h = Done b ->
  0 <= start < 2 ^ 63 -> 0 <= size -> start + size + 8192 < 2 ^ 64 ->
  truncate_access b start size <> Crash.

(** a fair sample history: overlapping, splitting, deleting, three states *)
Definition sample : list req :=
  [mkReq 0 10 0; mkReq 20 10 1; mkReq 4 6 2; mkReq 25 1 3; mkReq 22 1 ABSENT; mkReq 8 17 1; mkReq 0 70000 0].
Lemma sample_valid : Forall valid_req sample.
Proof. repeat constructor; unfold valid_req, ABSENT; simpl; lia. Qed.
Ltac solve_good :=
  repeat split; intros s c (k & Hk & Hk1 & -> & ->); cbn [r_start r_count r_state] in *;
  first [assert (k = 0) as -> by lia | assert (k = 0 \/ k = 1) as [-> | ->] by lia];
  vm_compute; repeat (first [left; reflexivity | right]); try reflexivity; try discriminate.
Lemma sample_safe : all_calls safe_req (fun _ => ABSENT) sample.
Proof. solve_good. Qed.

(** ** C01 *)
Theorem C01_state_last_mark_partial : forall h, Forall valid_req h ->
  all_calls safe_req (fun _ => ABSENT) h ->
  exists b, run bl_fresh h = Done b /\ forall x, state_of b x = expected h x.
Proof. intros h Hv Hs. destruct (run_safe h Hv Hs) as (b & Hr & _ & Hx). exists b; auto. Qed.
Print Assumptions C01_state_last_mark_partial.

(** single-block marks need no further condition *)
Theorem C01_state_single_blocks : forall h, Forall valid_req h -> Forall (fun r => r_count r = 1) h ->
  exists b, run bl_fresh h = Done b /\ forall x, state_of b x = expected h x.
Proof. intros h Hv Hs. apply C01_state_last_mark_partial; [assumption|apply single_safe; assumption]. Qed.
Print Assumptions C01_state_single_blocks.

(** the exact condition under which one call of [mark] of at most 65535 blocks
    keeps a proper list proper and gives every block the right state *)
Theorem C01_exact_condition : forall b s c v, CInv b -> ok_piece s c v ->
  exists b', mark b s c v = Done b' /\
    ((CInv b' /\ forall x, state_of b' x = upd (state_of b) (mkReq s c v) x)
     <-> ~ bad_overlap s c (live b) /\ ~ zero_pat s c v (live b)).
Proof.
  intros b s c v HC Hok. rewrite mark_single by apply Hok.
  destruct (mark_internal_clean_iff b s c v HC Hok) as (b' & H1 & _ & H2). exists b'. split; [exact H1|exact H2].
Qed.
Print Assumptions C01_exact_condition.

Theorem C01_refuted : ~ C01_full.
Proof.
  intros H. pose (h := [mkReq 2 2 1; mkReq 4 4 2; mkReq 2 4 ABSENT]).
  destruct (run bl_fresh h) as [b| | |] eqn:E; try (vm_compute in E; discriminate).
  specialize (H h b). assert (Hv : Forall valid_req h) by (repeat constructor; unfold valid_req, ABSENT; simpl; lia).
  specialize (H Hv E 4). vm_compute in E. injection E as <-. vm_compute in H. discriminate.
Qed.
Print Assumptions C01_refuted.

(** On the first 65535 blocks the defect is described exactly by the states:
    histories without such a call behave as specified in every respect ... *)
Theorem C01_C02_C03_small_files_partial : forall h, Forall small_req h ->
  all_calls (fun f r => ~ mark_bug f r) (fun _ => ABSENT) h ->
  exists b b', run bl_fresh h = Done b /\ (forall x, state_of b x = expected h x) /\
    (forall s, 0 <= s <= 3 -> blocks b s = nblocks (expected h) s (2 ^ 64)) /\ fsck b = Done b'.
Proof. exact small_history. Qed.
Print Assumptions C01_C02_C03_small_files_partial.

(** ... and the first such call always does damage. *)
Theorem C01_C03_small_files_bug : forall h r, Forall small_req (h ++ [r]) ->
  all_calls (fun f r => ~ mark_bug f r) (fun _ => ABSENT) h -> mark_bug (expected h) r ->
  exists b, run bl_fresh (h ++ [r]) = Done b /\
    (fsck b = Throw \/ exists x, state_of b x <> expected (h ++ [r]) x).
Proof. exact small_history_bug. Qed.
Print Assumptions C01_C03_small_files_bug.

Example small_sample : let h := [mkReq 0 10 0; mkReq 4 3 2; mkReq 3 2 ABSENT] in
  Forall small_req h /\ all_calls (fun f r => ~ mark_bug f r) (fun _ => ABSENT) h /\
  mark_bug (expected h) (mkReq 0 2 1).
Proof.
  cbn zeta. split_and!.
  - repeat apply Forall_cons_2; try apply Forall_nil_2; unfold small_req, ABSENT; simpl; lia.
  - split; [|split; [|split; [|exact I]]]; intros (_ & H1 & H2 & H3); vm_compute in H1, H2; auto.
  - unfold mark_bug. cbn [r_start r_count r_state]. split_and!; try (vm_compute; congruence).
    right. split; [vm_compute; congruence|]. intros x Hx.
    assert (x = 0 \/ x = 1 \/ x = 2) as [-> | [-> | ->] ] by lia; vm_compute; reflexivity.
Qed.

Example C01_sample : exists b, run bl_fresh sample = Done b /\ state_of b 5 = 0 /\ state_of b 69999 = 0 /\
  state_of b 70000 = ABSENT.
Proof.
  destruct (C01_state_last_mark_partial sample sample_valid sample_safe) as (b & Hr & Hx).
  exists b. split; [exact Hr|]. rewrite !Hx. vm_compute. auto.
Qed.

(** ** C02 *)
Theorem C02_counters_partial : forall h b, Forall valid_req h -> all_calls safe_req (fun _ => ABSENT) h ->
  run bl_fresh h = Done b ->
  (forall s, 0 <= s <= 3 -> blocks b s = nblocks (expected h) s (2 ^ 64)) /\
  present_blocks b = Z.of_nat (length (filter (fun x => expected h x <> ABSENT) (seqZ 0 (2 ^ 64)))).
Proof. exact counts_safe. Qed.
Print Assumptions C02_counters_partial.

(** for every history, safe or not, present_blocks() is the sum of the four counters *)
Theorem C02_present_is_sum : forall h b, Forall valid_req h -> run bl_fresh h = Done b ->
  present_blocks b = (blocks b 0 + blocks b 1 + blocks b 2 + blocks b 3) mod 2 ^ 64.
Proof.
  intros h b Hv Hr. destruct (run_W h bl_fresh WInv_fresh Hv) as (b' & Hr' & HW).
  rewrite Hr in Hr'. injection Hr' as <-. exact (present_sum b HW).
Qed.
Print Assumptions C02_present_is_sum.

Lemma two_read (N : Z) (f : Z -> Z) : 8 <= N ->
  (forall x, f x = if (6 <=? x) && (x <? 8) then 0 else if (2 <=? x) && (x <? 6) then 2 else ABSENT) ->
  nblocks f 0 N = 2.
Proof.
  intros HN Hf. rewrite (nblocks_ext _ _ 0 _ Hf). unfold nblocks.
  rewrite (seqZ_split 0 8 N) by lia. rewrite filter_app, app_length.
  rewrite (filter_none _ (seqZ (0 + 8) _)); [reflexivity|].
  intros x Hx. apply elem_of_seqZ in Hx. unfold ABSENT.
  destruct (Z.leb_spec 6 x), (Z.ltb_spec x 8), (Z.leb_spec 2 x), (Z.ltb_spec x 6); simpl; lia.
Qed.

Definition C02_witness : list req := [mkReq 2 2 1; mkReq 4 4 0; mkReq 2 4 2].
Lemma C02_witness_run : exists b, run bl_fresh C02_witness = Done b /\ blocks b 0 = 4 /\
  forall x, state_of b x = if (6 <=? x) && (x <? 8) then 0 else if (2 <=? x) && (x <? 6) then 2 else ABSENT.
Proof.
  destruct (run bl_fresh C02_witness) as [b| | |] eqn:E; try (vm_compute in E; discriminate).
  exists b. split; [reflexivity|]. vm_compute in E. injection E as <-. split; [reflexivity|].
  intros x. unfold state_of, live. cbn [bl_n bl_slots take state_in e_start e_count e_state].
  change (w64 (2 + 4)) with 6. change (w64 (4 + 4)) with 8. unfold ABSENT.
  destruct (Z.leb_spec 2 x), (Z.ltb_spec x 6), (Z.leb_spec 4 x), (Z.ltb_spec x 8), (Z.leb_spec 6 x);
    cbn [andb]; try reflexivity; lia.
Qed.

(** the counter says four READ blocks, only blocks 6 and 7 are *)
Theorem C02_refuted : ~ C02_full.
Proof.
  intros H. destruct C02_witness_run as (b & Hr & Hb & Hx).
  assert (Hv : Forall valid_req C02_witness) by (repeat constructor; unfold valid_req, ABSENT; simpl; lia).
  specialize (H C02_witness b Hv Hr 0 ltac:(lia)). rewrite Hb, (two_read (2 ^ 64) _ ltac:(lia) Hx) in H. lia.
Qed.
Print Assumptions C02_refuted.

Example C02_sample : exists b, run bl_fresh sample = Done b /\ blocks b 0 = 70000 /\ present_blocks b = 70000.
Proof. eexists. split; [vm_compute; reflexivity|]. vm_compute. auto. Qed.

(** ** C03 *)
Theorem C03_fsck_partial : forall h b, Forall valid_req h -> all_calls good_req (fun _ => ABSENT) h ->
  run bl_fresh h = Done b -> exists b', fsck b = Done b' /\ forall x, state_of b' x = expected h x.
Proof.
  intros h b Hv Hg Hr.
  destruct (run_C h bl_fresh (fun _ => ABSENT) CInv_fresh (fun x => eq_refl) Hv Hg) as (b1 & Hr1 & HC & Hx).
  rewrite Hr in Hr1. injection Hr1 as <-.
  destruct (fsck_C b HC) as (b' & Hf & _ & Hx' & _). exists b'. split; [exact Hf|].
  intros x. rewrite Hx', Hx. reflexivity.
Qed.
Print Assumptions C03_fsck_partial.

(** fsck accepts a list reached by marks exactly when its runs are disjoint and nonempty *)
Theorem C03_fsck_exact : forall h b, Forall valid_req h -> run bl_fresh h = Done b ->
  (exists b', fsck b = Done b') <-> clean (live b).
Proof.
  intros h b Hv Hr. destruct (run_W h bl_fresh WInv_fresh Hv) as (b' & Hr' & HW).
  rewrite Hr in Hr'. injection Hr' as <-. pose proof HW as (_ & HB & _). pose proof (fsck_W b HW) as Hf.
  rewrite <- (clean_cleanb (live b) HB). destruct (cleanb 0 (live b)).
  - destruct Hf as (b' & Hf & _). split; eauto.
  - rewrite Hf. split; [intros [? ?]|]; discriminate.
Qed.
Print Assumptions C03_fsck_exact.

Theorem C03_refuted : ~ C03_full.
Proof.
  intros H. pose (h := [mkReq 0 10 0; mkReq 0 5 ABSENT]).
  destruct (run bl_fresh h) as [b| | |] eqn:E; try (vm_compute in E; discriminate).
  assert (Hv : Forall valid_req h) by (repeat constructor; unfold valid_req, ABSENT; simpl; lia).
  destruct (H h b Hv E) as [b' Hf]. vm_compute in E. injection E as <-. vm_compute in Hf. discriminate.
Qed.
Print Assumptions C03_refuted.

Example C03_sample : exists h, Forall valid_req h /\ all_calls good_req (fun _ => ABSENT) h /\ length h = 3%nat.
Proof.
  exists [mkReq 0 10 0; mkReq 20 10 1; mkReq 4 6 2]. split_and!; [| |reflexivity].
  - repeat apply Forall_cons_2; try apply Forall_nil_2; unfold valid_req; simpl; lia.
  - split; [|split; [|split; [|exact I]]]; split; intros s c (k & Hk & Hk1 & -> & ->);
      cbn [r_start r_count r_state] in *; assert (k = 0) as -> by lia.
    + right; left; reflexivity.
    + left; reflexivity.
    + right; left; reflexivity.
    + left; reflexivity.
    + right; right; right; left; reflexivity.
    + right; right. exists 10. split; [lia|vm_compute; discriminate].
Qed.

(** ** C04 *)
Theorem C04_mark_no_crash : forall h, Forall valid_req h -> exists b, run bl_fresh h = Done b.
Proof. intros h Hv. destruct (run_W h bl_fresh WInv_fresh Hv) as (b & Hr & _). exists b. exact Hr. Qed.
Print Assumptions C04_mark_no_crash.
Example C04_sample : Forall valid_req sample. Proof. exact sample_valid. Qed.

(** ** C05 *)
Theorem C05_growth : forall h b r, Forall valid_req h -> run bl_fresh h = Done b -> valid_req r ->
  exists b', mark b (r_start r) (r_count r) (r_state r) = Done b' /\
    nentries b' <= nentries b + 2 * ((r_count r + 65534) / 65535) /\ nentries b' <= Z.of_nat (capacity b').
Proof.
  intros h b r Hv Hr Hvr. destruct (run_W h bl_fresh WInv_fresh Hv) as (b' & Hr' & HW).
  rewrite Hr in Hr'. injection Hr' as <-. destruct (mark_growth b r HW Hvr) as (b' & H1 & _ & H2 & H3). exists b'; auto.
Qed.
Print Assumptions C05_growth.
Example C05_sample : exists b, run bl_fresh [mkReq 0 9 0; mkReq 3 2 1] = Done b /\ nentries b = 3.
Proof. eexists. split; [vm_compute; reflexivity|]. vm_compute. reflexivity. Qed.

(** ** C06, C07 *)
Theorem C06_C07_access_partial : forall h b start size,
  Forall valid_req h -> all_calls safe_req (fun _ => ABSENT) h -> run bl_fresh h = Done b ->
  0 <= start -> start mod 4096 = 0 -> 0 <= size -> start + size + 8192 < 2 ^ 64 ->
  (exists y, (start + size + 4095) / 4096 - 1 <= y /\ start / 4096 <= y /\ expected h y <> ABSENT) ->
  exists res, truncate_access b start size = Done res /\ 0 <= res <= size /\
    (forall p, start <= p < start + res -> expected h (p / 4096) <> ABSENT) /\
    (res < size -> expected h ((start + res) / 4096) = ABSENT /\ (start + res) mod 4096 = 0).
Proof. exact access_aligned. Qed.
Print Assumptions C06_C07_access_partial.

Theorem C06_absent_start : forall h b start size,
  Forall valid_req h -> all_calls safe_req (fun _ => ABSENT) h -> run bl_fresh h = Done b ->
  (start < 0 \/ (start < 2 ^ 63 /\ expected h (start / 4096) = ABSENT)) -> truncate_access b start size = Done 0.
Proof. exact access_absent. Qed.
Print Assumptions C06_absent_start.

(** a stale slot behind the last entry is taken for an entry *)
Theorem C06_refuted_stale : ~ C06_full.
Proof.
  intros H. pose (h := [mkReq 0 4 1; mkReq 4 4 3; mkReq 4 4 ABSENT]).
  destruct (run bl_fresh h) as [b| | |] eqn:E; try (vm_compute in E; discriminate).
  assert (Hv : Forall valid_req h) by (repeat constructor; unfold valid_req, ABSENT; simpl; lia).
  specialize (H h b 0 32768 32768 Hv E ltac:(lia) ltac:(lia) ltac:(lia)).
  vm_compute in E. injection E as <-.
  destruct (H ltac:(vm_compute; reflexivity)) as [_ Hp]. apply (Hp 20000); [lia|vm_compute; reflexivity].
Qed.
Print Assumptions C06_refuted_stale.

(** an unaligned start lets the tail of the range run past the last present block *)
Theorem C06_refuted_unaligned : ~ C06_full.
Proof.
  intros H. pose (h := [mkReq 0 1 1]).
  destruct (run bl_fresh h) as [b| | |] eqn:E; try (vm_compute in E; discriminate).
  assert (Hv : Forall valid_req h) by (repeat constructor; unfold valid_req, ABSENT; simpl; lia).
  specialize (H h b 4095 2 2 Hv E ltac:(lia) ltac:(lia) ltac:(lia)).
  vm_compute in E. injection E as <-.
  destruct (H ltac:(vm_compute; reflexivity)) as [_ Hp]. apply (Hp 4096); [lia|vm_compute; reflexivity].
Qed.
Print Assumptions C06_refuted_unaligned.

(** with a completely filled file the slot behind the last entry is outside of it *)
Theorem C06_refuted_out_of_bounds : ~ C06_safe_full.
Proof.
  intros H. pose (h := map (fun i => mkReq (2 * i) 1 0) (seqZ 0 224)).
  destruct (run bl_fresh h) as [b| | |] eqn:E; try (vm_compute in E; discriminate).
  assert (Hv : Forall valid_req h).
  { apply Forall_forall. intros r Hr. unfold h in Hr. apply elem_of_list_fmap in Hr as (i & -> & Hi).
    apply elem_of_seqZ in Hi. unfold valid_req. simpl. lia. }
  apply (H h b 1826816 8192 Hv E); try lia. vm_compute in E. injection E as <-. vm_compute. reflexivity.
Qed.
Print Assumptions C06_refuted_out_of_bounds.

Example C06_sample : exists b, run bl_fresh [mkReq 0 4 1; mkReq 4 4 3; mkReq 9 1 0] = Done b /\
  truncate_access b 0 (9 * 4096) = Done (8 * 4096).
Proof. eexists. split; [vm_compute; reflexivity|]. vm_compute. reflexivity. Qed.

(** ** C08 *)
Theorem C08_fsck_reopen : forall h b, Forall valid_req h -> run bl_fresh h = Done b ->
  open_file (Some b) = Done b /\
  (fsck b = Throw \/
   exists b', fsck b = Done b' /\ (forall x, state_of b' x = state_of b x) /\
     (forall s, blocks b' s = blocks b s) /\ present_blocks b' = present_blocks b /\ nentries b' = nentries b /\
     nentries b' <= Z.of_nat (capacity b') <= Z.of_nat (capacity b)).
Proof. exact fsck_any. Qed.
Print Assumptions C08_fsck_reopen.

Theorem C08_sessions : forall es, Forall valid_req (marks_of es) ->
  all_calls good_req (fun _ => ABSENT) (marks_of es) ->
  exists b, session bl_fresh es = Done b /\ forall x, state_of b x = expected (marks_of es) x.
Proof.
  intros es Hv Hg.
  destruct (session_C es bl_fresh (fun _ => ABSENT) CInv_fresh (fun x => eq_refl) Hv Hg) as (b & Hr & _ & Hx). eauto.
Qed.
Print Assumptions C08_sessions.
Example C08_sample : exists b, session bl_fresh [EMark (mkReq 0 9 0); EFsck; EReopen; EMark (mkReq 3 2 1); EFsck] = Done b
  /\ nentries b = 3.
Proof. eexists. split; [vm_compute; reflexivity|]. vm_compute. reflexivity. Qed.

(** ** C09 *)
Definition C09_local_full : Prop := forall h b r b', Forall valid_req (h ++ [r]) -> run bl_fresh h = Done b ->
  mark b (r_start r) (r_count r) (r_state r) = Done b' ->
  forall x, ~ (r_start r <= x < r_start r + r_count r) -> state_of b' x = state_of b x.
Definition C09_idempotent_full : Prop := forall h b r b1 b2, Forall valid_req (h ++ [r]) -> run bl_fresh h = Done b ->
  mark b (r_start r) (r_count r) (r_state r) = Done b1 -> mark b1 (r_start r) (r_count r) (r_state r) = Done b2 ->
  forall x, state_of b2 x = state_of b1 x.

(** A call changes nothing outside of its range, even if it gets its own range wrong, as long as the
    calls before it were safe. *)
Theorem C09_locality_partial : forall h b r, Forall valid_req (h ++ [r]) ->
  all_calls safe_req (fun _ => ABSENT) h -> run bl_fresh h = Done b ->
  exists b', mark b (r_start r) (r_count r) (r_state r) = Done b' /\
    forall x, ~ (r_start r <= x < r_start r + r_count r) -> state_of b' x = state_of b x.
Proof. exact locality_any. Qed.
Print Assumptions C09_locality_partial.

(** for calls of any length *)
Theorem C09_idempotent_partial : forall h b r, Forall valid_req (h ++ [r]) ->
  all_calls safe_req (fun _ => ABSENT) (h ++ [r]) -> run bl_fresh h = Done b ->
  exists b1 b2, mark b (r_start r) (r_count r) (r_state r) = Done b1 /\
    mark b1 (r_start r) (r_count r) (r_state r) = Done b2 /\
    (forall x, state_of b2 x = state_of b1 x) /\ (forall s, 0 <= s <= 3 -> blocks b2 s = blocks b1 s).
Proof. exact idempotent_any. Qed.
Print Assumptions C09_idempotent_partial.

(** A call that erases the range 0..9 when a run lies at 0..3 and another at 5..19 leaves 5..9 behind
    the first time and erases them when it is repeated. *)
Definition again_h : list req := [mkReq 0 4 1; mkReq 5 15 2].
Definition again_r : req := mkReq 0 10 ABSENT.
Theorem C09_refuted_idempotent : ~ C09_idempotent_full.
Proof.
  intros H.
  assert (Hv : Forall valid_req (again_h ++ [again_r])) by (repeat constructor; vm_compute; discriminate).
  assert (Hr : exists b b1 b2, run bl_fresh again_h = Done b /\ mark b 0 10 ABSENT = Done b1 /\ mark b1 0 10 ABSENT = Done b2 /\
    state_of b1 5 = 2 /\ state_of b2 5 = -1).
  { eexists _, _, _. split; [vm_compute; reflexivity|]. split; [vm_compute; reflexivity|]. split; [vm_compute; reflexivity|]. split; reflexivity. }
  destruct Hr as (b & b1 & b2 & E0 & E1 & E2 & S1 & S2). specialize (H _ _ again_r b1 b2 Hv E0 E1 E2 5). rewrite S1, S2 in H. discriminate H.
Qed.
Print Assumptions C09_refuted_idempotent.

(** After two such calls the runs overlap in a way that a third call, on 7..19, takes away block 5. *)
Definition away_h : list req := [mkReq 0 4 1; mkReq 5 15 2; mkReq 0 10 1; mkReq 2 5 ABSENT].
Definition away_r : req := mkReq 7 13 3.
Theorem C09_refuted_local : ~ C09_local_full.
Proof.
  intros H.
  assert (Hv : Forall valid_req (away_h ++ [away_r])) by (repeat constructor; vm_compute; discriminate).
  assert (Hr : exists b b1, run bl_fresh away_h = Done b /\ mark b 7 13 3 = Done b1 /\ state_of b 5 = 2 /\ state_of b1 5 = -1).
  { eexists _, _. split; [vm_compute; reflexivity|]. split; [vm_compute; reflexivity|]. split; reflexivity. }
  destruct Hr as (b & b1 & E0 & E1 & S1 & S2). specialize (H _ _ away_r b1 Hv E0 E1 5). rewrite S1, S2 in H. specialize (H ltac:(cbn; lia)). discriminate H.
Qed.
Print Assumptions C09_refuted_local.

(** an unsafe last call (the one that C09_refuted_idempotent repeats), and a safe call of four pieces *)
Example C09_sample_local : Forall valid_req (again_h ++ [again_r]) /\ all_calls safe_req (fun _ => ABSENT) again_h /\
  ~ safe_req (fold_left upd again_h (fun _ => ABSENT)) again_r.
Proof.
  split; [repeat constructor; vm_compute; discriminate|]. split.
  - split; [|split; [|exact I]]; intros s c (k & Hk & Hc & -> & ->); cbn in Hc; assert (k = 0) as -> by lia; right; left; reflexivity.
  - intros H. destruct (H 0 10) as [E|[E|[E|[E|E]]]]; [exists 0; cbn; split_and!; lia|vm_compute in E; congruence..].
Qed.
Example C09_sample_long : let r := mkReq 100 200000 3 in
  Forall valid_req ([mkReq 0 65635 1] ++ [r]) /\ all_calls safe_req (fun _ => ABSENT) ([mkReq 0 65635 1] ++ [r]) /\
  exists b1 b2, run bl_fresh ([mkReq 0 65635 1] ++ [r]) = Done b1 /\ mark b1 100 200000 3 = Done b2 /\ nentries b1 = 5 /\ nentries b2 = 5 /\ blocks b2 3 = 200000.
Proof.
  split; [repeat constructor; vm_compute; discriminate|]. split.
  - split; [|split; [|exact I]].
    + intros s c _. right; left. reflexivity.
    + intros s c (k & Hk & Hc & -> & ->). cbn [r_start r_count r_state] in *. right. unfold upd, covers; cbn [r_start r_count r_state].
      assert (k = 0 \/ k = 1 \/ k = 2 \/ k = 3) as [->|[->|[->| ->]]] by lia; vm_compute; first [left; reflexivity|right; right; left; reflexivity].
  - eexists _, _. split; [vm_compute; reflexivity|]. split; [vm_compute; reflexivity|]. vm_compute. auto.
Qed.
