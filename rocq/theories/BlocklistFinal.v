(** Blocklist: the lemmas behind the property theorems. *)
From Coq Require Import Sorted.
From Verif Require Import Prelude Blocklist BlocklistSpec BlocklistProofs BlocklistSem BlocklistMain BlocklistMore BlocklistThm.
Ltac Zify.zify_post_hook ::= Z.div_mod_to_equations.

Lemma run_safe h : Forall valid_req h -> all_calls safe_req (fun _ => ABSENT) h ->
  exists b, run bl_fresh h = Done b /\ DInv b /\ forall x, state_of b x = expected h x.
Proof.
  intros Hv Hs. destruct (run_D h bl_fresh (fun _ => ABSENT) DInv_fresh) as (b & Hr & HD & Hx); [|assumption|assumption|].
  - intros x. unfold state_of. rewrite live_fresh. reflexivity.
  - exists b. auto.
Qed.

Lemma nblocks_ext f g s n : (forall x, f x = g x) -> nblocks f s n = nblocks g s n.
Proof. intros E. unfold nblocks. f_equal. f_equal. apply filter_ext_in. intros x _. rewrite E. reflexivity. Qed.

Lemma present_sum b : WInv b -> present_blocks b = w64 (blocks b 0 + blocks b 1 + blocks b 2 + blocks b 3).
Proof.
  intros HW. unfold present_blocks, blocks. rewrite (w64_total b HW). unfold totl, ABSENT.
  change (0 =? -1) with false. change (1 =? -1) with false. change (2 =? -1) with false. change (3 =? -1) with false.
  cbn [fold_left nth Z.to_nat Pos.to_nat Pos.iter_op Nat.add Init.Nat.add]. f_equal; lia.
Qed.

Lemma partition_count (f : Z -> Z) l : (forall x, x ∈ l -> -1 <= f x <= 3) ->
  Z.of_nat (length (filter (fun x => f x <> ABSENT) l)) =
  Z.of_nat (length (filter (fun x => f x = 0) l)) + Z.of_nat (length (filter (fun x => f x = 1) l)) +
  Z.of_nat (length (filter (fun x => f x = 2) l)) + Z.of_nat (length (filter (fun x => f x = 3) l)).
Proof.
  intros Hb. induction l as [|a l IH]; [reflexivity|].
  assert (IH' := IH ltac:(intros; apply Hb; right; assumption)).
  assert (Ha := Hb a ltac:(left)). unfold ABSENT in *.
  rewrite !filter_cons. repeat destruct (decide _); cbn [length]; lia.
Qed.

Lemma expected_range h x : Forall valid_req h -> -1 <= expected h x <= 3.
Proof.
  unfold expected. assert (H0 : forall y, -1 <= (fun _ : Z => ABSENT) y <= 3) by (unfold ABSENT; intros; lia).
  revert H0. generalize (fun _ : Z => ABSENT). induction h as [|r h IH]; intros f Hf Hv; simpl; [apply Hf|].
  inversion Hv as [|? ? Hr Hv']; subst. apply IH; auto. intros y. unfold upd. destruct (covers r y); auto. apply Hr.
Qed.

Lemma counts_safe h b : Forall valid_req h -> all_calls safe_req (fun _ => ABSENT) h ->
  run bl_fresh h = Done b ->
  (forall s, 0 <= s <= 3 -> blocks b s = nblocks (expected h) s (2 ^ 64)) /\
  present_blocks b = Z.of_nat (length (filter (fun x => expected h x <> ABSENT) (seqZ 0 (2 ^ 64)))).
Proof.
  intros Hv Hs Hr. destruct (run_safe h Hv Hs) as (b' & Hr' & HD & Hx). rewrite Hr in Hr'. injection Hr' as <-.
  assert (Hb : forall s, 0 <= s <= 3 -> blocks b s = nblocks (expected h) s (2 ^ 64)).
  { intros s Hs'. rewrite blocks_D by assumption. apply nblocks_ext, Hx. }
  split; [assumption|]. rewrite present_sum by apply HD.
  rewrite partition_count by (intros; apply expected_range; assumption).
  rewrite (Hb 0), (Hb 1), (Hb 2), (Hb 3) by lia. unfold nblocks. rewrite w64_id; [reflexivity|].
  rewrite <- partition_count by (intros; apply expected_range; assumption).
  split; [lia|].
  pose proof HD as ((_ & HB & _) & _).
  (* the last block number is never present *)
  assert (Hlast : expected h (2 ^ 64 - 1) = ABSENT).
  { rewrite <- Hx. apply state_in_none; [assumption|]. eapply Forall_impl; [exact HB|].
    intros e He. unfold hit, ebound, xend in *. lia. }
  rewrite (seqZ_split 0 (2 ^ 64 - 1) (2 ^ 64)) by lia. rewrite filter_app, app_length.
  replace (2 ^ 64 - (2 ^ 64 - 1)) with 1 by lia. rewrite Z.add_0_l.
  rewrite (filter_none _ (seqZ (2 ^ 64 - 1) 1)).
  - rewrite Nat.add_0_r. pose proof (filter_length (fun x => expected h x <> ABSENT) (seqZ 0 (2 ^ 64 - 1))) as Hl.
    rewrite seqZ_length in Hl. lia.
  - intros x Hxx. apply elem_of_seqZ in Hxx. assert (x = 2 ^ 64 - 1) as -> by lia. intros H; apply H, Hlast.
Qed.

(** single-block marks *)
Lemma single_safe h : Forall (fun r => r_count r = 1) h -> forall f, all_calls safe_req f h.
Proof.
  induction 1 as [|r h Hr Hh IH]; intros f; simpl; [auto|]. split; [|apply IH].
  intros s c (k & Hk & Hk1 & -> & ->). left. lia.
Qed.

(** sessions *)
Lemma open_W b : WInv b -> open_file (Some b) = Done b.
Proof.
  intros ((Hl & Hle & Hc & Hm & Hok) & _). unfold open_file. unfold file_size.
  rewrite Hm. change (magic =? magic) with true. cbn [negb].
  replace (_ mod 512 =? 0) with true; [reflexivity|]. symmetry. apply Z.eqb_eq. lia.
Qed.

Lemma session_C es : forall b f, CInv b -> (forall x, state_of b x = f x) -> Forall valid_req (marks_of es) ->
  all_calls good_req f (marks_of es) ->
  exists b', session b es = Done b' /\ CInv b' /\ forall x, state_of b' x = fold_left upd (marks_of es) f x.
Proof.
  induction es as [|e es IH]; intros b f HC Hf Hv Hg; [simpl; eauto|].
  destruct e as [r| |]; cbn [session do_event marks_of flat_map app] in *.
  - fold (marks_of es) in *. inversion Hv; subst. destruct Hg as [Hg1 Hg2].
    destruct (mark_C b r HC) as (b1 & -> & HC1 & Hx1); auto.
    { eapply good_ext; [|exact Hg1]. auto. }
    cbn [obind fold_left]. apply IH; auto. intros x. rewrite Hx1. unfold upd. destruct (covers r x); auto.
  - fold (marks_of es) in *. destruct (fsck_C b HC) as (b1 & -> & HC1 & Hx1 & _). cbn [obind].
    apply IH; auto. intros x. rewrite Hx1. auto.
  - fold (marks_of es) in *. rewrite open_W by apply HC. cbn [obind]. apply IH; auto.
Qed.

Lemma fsck_any h b : Forall valid_req h -> run bl_fresh h = Done b ->
  open_file (Some b) = Done b /\
  (fsck b = Throw \/
   exists b', fsck b = Done b' /\ (forall x, state_of b' x = state_of b x) /\
     (forall s, blocks b' s = blocks b s) /\ present_blocks b' = present_blocks b /\ nentries b' = nentries b /\
     nentries b' <= Z.of_nat (capacity b') <= Z.of_nat (capacity b)).
Proof.
  intros Hv Hr. destruct (run_W h bl_fresh WInv_fresh Hv) as (b' & Hr' & HW). rewrite Hr in Hr'. injection Hr' as <-.
  split; [apply open_W; assumption|]. pose proof (fsck_W b HW) as Hf.
  destruct (cleanb 0 (live b)); [|auto]. right. destruct Hf as (b' & Hf & HW' & Hl & Hc & Hn).
  exists b'. split_and!; auto.
  - intros x. unfold state_of. rewrite Hl. reflexivity.
  - intros s. unfold blocks. rewrite Hc. reflexivity.
  - unfold present_blocks. rewrite Hc. reflexivity.
  - unfold nentries. rewrite Hn. reflexivity.
  - destruct HW' as ((_ & Hle & _) & _). unfold nentries, capacity. lia.
  - unfold fsck in Hf. destruct (fsck_loop _ _ _ _) as [c| | |]; cbn [obind] in Hf; try discriminate.
    destruct (bool_decide _); [|discriminate].
    destruct (shrink_capacity b b' HW Hf) as (_ & H & _). lia.
Qed.

(** truncate_access for aligned offsets *)
Lemma access_aligned h b start size :
  Forall valid_req h -> all_calls safe_req (fun _ => ABSENT) h -> run bl_fresh h = Done b ->
  0 <= start -> start mod 4096 = 0 -> 0 <= size -> start + size + 8192 < 2 ^ 64 ->
  (exists y, (start + size + 4095) / 4096 - 1 <= y /\ start / 4096 <= y /\ expected h y <> ABSENT) ->
  exists res, truncate_access b start size = Done res /\ 0 <= res <= size /\
    (forall p, start <= p < start + res -> expected h (p / 4096) <> ABSENT) /\
    (res < size -> expected h ((start + res) / 4096) = ABSENT /\ (start + res) mod 4096 = 0).
Proof.
  intros Hv Hs Hr Hst Hal Hsz Hov (y & Hy1 & Hy2 & Hy).
  destruct (run_safe h Hv Hs) as (b' & Hr' & HD & Hx). rewrite Hr in Hr'. injection Hr' as <-.
  destruct (truncate_access_D b start size HD Hst Hsz) as (res & Hta & Hb & Hz & Hp & Hmax & Hall).
  { unfold PAGE. lia. }
  { exists y. rewrite Hx. unfold PAGE. replace (start + size + 4096 - 1) with (start + size + 4095) by lia. auto. }
  exists res. unfold blk, PAGE in *. rewrite Hal in *. rewrite !Z.sub_0_r in *.
  split_and!; auto; try lia.
  - intros p Hpp. rewrite <- Hx. apply Hp. lia.
  - intros Hlt. rewrite <- Hx. 
    destruct (Z.eq_dec (state_of b (start / 4096)) ABSENT) as [Ha|Ha].
    + rewrite (Hz Ha), Z.add_0_r. auto.
    + destruct (Hmax Hlt) as [H|H]; [|contradiction]. split; [assumption|].
      destruct (Z.eq_dec ((start + res) mod 4096) 0) as [|Hne]; [assumption|]. exfalso.
      (* the byte before lies in the same block and was allowed *)
      destruct (Z.eq_dec res 0) as [->|Hr0]; [rewrite Z.add_0_r in H; contradiction|].
      apply (Hp (start + res - 1)); [lia|]. rewrite <- H. f_equal.
      clear - Hne. lia.
Qed.

Lemma access_absent h b start size :
  Forall valid_req h -> all_calls safe_req (fun _ => ABSENT) h -> run bl_fresh h = Done b ->
  (start < 0 \/ (start < 2 ^ 63 /\ expected h (start / 4096) = ABSENT)) -> truncate_access b start size = Done 0.
Proof.
  intros Hv Hs Hr Hc. unfold truncate_access.
  destruct (Z.ltb_spec start 0) as [|Hst]; [reflexivity|]. destruct Hc as [?|[Hst2 Ha]]; [lia|].
  destruct (run_safe h Hv Hs) as (b' & Hr' & HD & Hx). rewrite Hr in Hr'. injection Hr' as <-.
  destruct HD as ((HR & HB & HS) & HD). rewrite <- Hx in Ha. unfold PAGE.
  rewrite (search_rep b _ _ _ HR HB HS). cbn [obind]. pose proof (rep_n _ _ _ HR) as Hn.
  destruct (Nat.eqb_spec (ub (live b) (start / 4096)) (bl_n b)) as [|Hne]; [reflexivity|].
  destruct (lookup_lt_is_Some_2 (live b) (ub (live b) (start / 4096))) as [e He].
  { pose proof (ub_le (live b) (start / 4096)). lia. }
  rewrite (rd_rep _ _ _ _ _ HR He). cbn [obind].
  assert (Hbe : ebound e) by (rewrite Forall_lookup in HB; eauto).
  rewrite contains_x by assumption.
  pose proof (state_in_absent _ _ HB Ha) as Hn'. rewrite Forall_lookup in Hn'. specialize (Hn' _ _ He).
  unfold hit in Hn'. replace ((_ <=? _) && _) with false by lia. reflexivity.
Qed.

Lemma all_calls_app P h : forall f r, all_calls P f (h ++ [r]) -> all_calls P f h /\ P (fold_left upd h f) r.
Proof.
  induction h as [|a h IH]; intros f r; simpl; [tauto|]. intros [H1 H2]. destruct (IH _ _ H2). tauto.
Qed.

Lemma after_safe h b r : Forall valid_req (h ++ [r]) ->
  all_calls safe_req (fun _ => ABSENT) (h ++ [r]) -> run bl_fresh h = Done b ->
  DInv b /\ valid_req r /\ safe_req (state_of b) r.
Proof.
  intros Hv Hs Hr. apply Forall_app in Hv as [Hv1 Hv2]. inversion Hv2; subst.
  apply all_calls_app in Hs as [Hs1 Hs2].
  destruct (run_safe h Hv1 Hs1) as (b' & Hr' & HD & Hx). rewrite Hr in Hr'. injection Hr' as <-.
  split_and!; auto. eapply safe_ext; [|exact Hs2]. intros x. symmetry. apply Hx.
Qed.

Lemma locality h b r : Forall valid_req (h ++ [r]) ->
  all_calls safe_req (fun _ => ABSENT) (h ++ [r]) -> run bl_fresh h = Done b ->
  exists b', mark b (r_start r) (r_count r) (r_state r) = Done b' /\
    forall x, ~ (r_start r <= x < r_start r + r_count r) -> state_of b' x = state_of b x.
Proof.
  intros Hv Hs Hr. destruct (after_safe h b r Hv Hs Hr) as (HD & Hvr & Hsr).
  destruct (mark_D b r HD Hvr Hsr) as (b' & Hm & _ & Hx). exists b'. split; [assumption|].
  intros x Hn. rewrite Hx. unfold upd, covers. replace ((_ <=? _) && _) with false by lia. reflexivity.
Qed.

Lemma idempotent h b r : Forall valid_req (h ++ [r]) ->
  all_calls safe_req (fun _ => ABSENT) (h ++ [r]) -> run bl_fresh h = Done b ->
  1 <= r_count r <= 65535 ->
  exists b1 b2, mark b (r_start r) (r_count r) (r_state r) = Done b1 /\
    mark b1 (r_start r) (r_count r) (r_state r) = Done b2 /\
    (forall x, state_of b2 x = state_of b1 x) /\ (forall s, 0 <= s <= 3 -> blocks b2 s = blocks b1 s).
Proof.
  intros Hv Hs Hr Hc. destruct (after_safe h b r Hv Hs Hr) as (HD & Hvr & Hsr).
  destruct (mark_twice b r HD Hvr Hc Hsr) as (b1 & b2 & H1 & H2 & HD1 & HD2 & Hx).
  exists b1, b2. split_and!; auto. intros s Hsr'. rewrite !blocks_D by assumption. apply nblocks_ext, Hx.
Qed.
