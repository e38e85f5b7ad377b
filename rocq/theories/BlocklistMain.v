(** Proofs about the blocklist model: histories. *)
From Coq Require Import Sorted.
From Verif Require Import Prelude Blocklist BlocklistSpec BlocklistProofs BlocklistSem.
Ltac Zify.zify_post_hook ::= Z.div_mod_to_equations.

(** ** Invariants *)
(** holds in every reachable state *)
Definition WInv (b : bl) : Prop :=
  rep b (live b) (fun s => total s (live b)) /\ Forall ebound (live b) /\ ends_sorted (live b).
(** the entries do not overlap *)
Definition DInv (b : bl) : Prop := WInv b /\ disjoint_l (live b).

Lemma rep_live b L T : rep b L T -> live b = L.
Proof. intros H; apply H. Qed.

Lemma WInv_intro b L : rep b L (fun s => total s L) -> Forall ebound L -> ends_sorted L -> WInv b.
Proof.
  intros HR HB HS. pose proof (rep_live _ _ _ HR) as E. unfold WInv. rewrite E. auto.
Qed.

Lemma live_fresh : live bl_fresh = [].
Proof. reflexivity. Qed.
Lemma WInv_fresh : WInv bl_fresh.
Proof.
  apply WInv_intro with (L := []); [|constructor|constructor].
  split_and!; [reflexivity| |reflexivity|].
  - simpl. lia.
  - split; reflexivity.
Qed.
Lemma DInv_fresh : DInv bl_fresh.
Proof. split; [apply WInv_fresh|]. rewrite live_fresh. constructor. Qed.

(** ** One piece *)
Definition ok_piece (s c v : Z) : Prop :=
  0 <= s /\ 1 <= c <= 65535 /\ s + c < 2 ^ 64 /\ -1 <= v <= 3.

Lemma mark_internal_W b s c v : WInv b -> ok_piece s c v ->
  exists b' A B C, mark_internal b s c v = Done b' /\ WInv b' /\
    live b = A ++ B ++ C /\ live b' = mark_list s c v A B C /\
    Forall (fun e => xend e <= s) A /\
    Forall (fun e => s < xend e <= s + c) B /\
    Forall (fun e => s + c < xend e) C.
Proof.
  intros (HR & HB & HS) (Hs & Hc & He & Hv).
  destruct (cut (live b) s (s + c) HS ltac:(lia)) as (A & B & C & E & HA & HBB & HC & Hu1 & Hu2).
  rewrite E in HR, HB, HS, Hu1, Hu2. rewrite !Forall_app in HB. destruct HB as (HbA & HbB & HbC).
  destruct (mark_internal_rep s c v b A B C _ Hs Hc He Hv HR HbA HbB HbC HS HA HBB HC Hu1 Hu2)
    as (b' & Hm & HR').
  exists b', A, B, C. split_and!; auto.
  - eapply WInv_intro.
    + eapply rep_T; [exact HR'|]. intros; simpl; lia.
    + apply mark_list_bound; assumption.
    + apply mark_list_ends; assumption.
  - eapply rep_live; eassumption.
Qed.

Lemma mark_internal_D b s c v : DInv b -> ok_piece s c v -> ~ bad_overlap s c (live b) ->
  exists b', mark_internal b s c v = Done b' /\ DInv b' /\
    forall x, state_of b' x = if (s <=? x) && (x <? s + c) then v else state_of b x.
Proof.
  intros (HW & HD) Hok Hnb.
  destruct (mark_internal_W b s c v HW Hok) as (b' & A & B & C & Hm & HW' & E & E' & HA & HB & HC).
  destruct HW as (_ & Hbd & _). destruct Hok as (Hs & Hc & He & Hv).
  rewrite E in Hbd, HD, Hnb. rewrite !Forall_app in Hbd. destruct Hbd as (HbA & HbB & HbC).
  exists b'. split_and!; auto.
  - split; [assumption|]. rewrite E'. apply mark_list_disjoint; assumption.
  - intros x. unfold state_of. rewrite E', E. apply mark_list_state; assumption.
Qed.

Lemma safe_not_bad b s c : DInv b -> 1 <= c -> safe_piece (state_of b) s c -> ~ bad_overlap s c (live b).
Proof.
  intros ((_ & HB & _) & HD) Hc Hsafe (e1 & e2 & H1 & H2 & Hst & Hx1 & Hx2).
  assert (Hh1 : state_of b s = e_state e1).
  { apply state_in_hit; auto. unfold hit; lia. }
  assert (Hh2 : state_of b (s + c - 1) = e_state e2).
  { apply state_in_hit; auto. unfold hit; lia. }
  assert (Hh3 : state_of b (s + c) = e_state e2).
  { apply state_in_hit; auto. unfold hit; lia. }
  rewrite Forall_forall in HB.
  assert (ebound e1 /\ ebound e2) as [Hb1 Hb2] by (split; apply HB, elem_of_list_In; assumption).
  destruct Hsafe as [->|[Ha|[Ha|[Ha|Ha]]]].
  -
    (* e1 and e2 both contain block s, so they are the same entry *)
    apply In_nth_error in H1 as [i1 H1]. apply In_nth_error in H2 as [i2 H2].
    assert (Hord : forall i j a b0, nth_error (live b) i = Some a -> nth_error (live b) j = Some b0 ->
              (i < j)%nat -> xend a <= e_start b0).
    { clear -HD. unfold disjoint_l in HD. induction HD as [|x l Hs IH Hall]; intros i j a b0 Hi Hj Hij.
      - destruct i; discriminate.
      - destruct j as [|j]; [lia|]. destruct i as [|i]; simpl in *.
        + injection Hi as <-. rewrite Forall_forall in Hall. apply Hall.
          apply elem_of_list_In. eapply nth_error_In; eassumption.
        + eapply IH; eauto; lia. }
    destruct (Nat.lt_trichotomy i1 i2) as [Hlt|[->|Hlt]].
    + pose proof (Hord _ _ _ _ H1 H2 Hlt). lia.
    + rewrite H1 in H2. injection H2 as ->. lia.
    + pose proof (Hord _ _ _ _ H2 H1 Hlt). lia.
  - unfold ABSENT, ebound in *; lia.
  - unfold ABSENT, ebound in *; lia.
  - unfold ABSENT, ebound in *; lia.
  - congruence.
Qed.

(** ** mark as an iteration over pieces *)
Lemma iter_invariant (I : bl -> Z -> Prop) start count v :
  0 <= start -> 0 <= count -> start + count < 2 ^ 64 ->
  (forall b s c, piece start count s c -> I b s ->
     exists b', mark_internal b s c v = Done b' /\ I b' (s + c)) ->
  forall (n : nat) b, I b start -> 65535 * Z.of_nat n <= count ->
  exists b' j, 0 <= j <= Z.of_nat n /\
    Nat.iter n (fun acc => mark_body acc v) (Done (b, start, count))
      = Done (b', start + 65535 * j, count - 65535 * j) /\
    I b' (start + 65535 * j) /\
    (j = Z.of_nat n \/ count - 65535 * j <= 65535) /\ (0 < count -> 65535 * j < count).
Proof.
  intros Hs Hc He Hstep. induction n as [|n IH]; intros b HI Hn.
  - exists b, 0. split_and!; simpl; try lia; auto.
    + rewrite Z.mul_0_r, Z.add_0_r, Z.sub_0_r. reflexivity.
    + rewrite Z.mul_0_r, Z.add_0_r. assumption.
  - destruct (IH b HI ltac:(lia)) as (b1 & j & Hj & Hit & HI1 & Hor & Hlt).
    rewrite Nat.iter_succ. rewrite Hit. unfold mark_body. cbn [obind]. unfold LIMIT.
    destruct (Z.ltb_spec 65535 (count - 65535 * j)) as [Hgt|Hle].
    + destruct (Hstep b1 (start + 65535 * j) 65535) as (b2 & Hm & HI2); auto.
      { exists j. split_and!; lia. }
      rewrite Hm. cbn [obind]. exists b2, (j + 1). split_and!; try lia.
      * rewrite !w64_id by lia.
        replace (start + 65535 * (j + 1)) with (start + 65535 * j + 65535) by lia.
        replace (count - 65535 * (j + 1)) with (count - 65535 * j - 65535) by lia. reflexivity.
      * replace (start + 65535 * (j + 1)) with (start + 65535 * j + 65535) by lia. assumption.
    + exists b1, j. split_and!; auto; lia.
Qed.

Lemma mark_invariant (I : bl -> Z -> Prop) start count v b :
  0 <= start -> 0 <= count -> start + count < 2 ^ 64 ->
  (forall b s c, piece start count s c -> I b s ->
     exists b', mark_internal b s c v = Done b' /\ I b' (s + c)) ->
  I b start -> exists b', mark b start count v = Done b' /\ I b' (start + count).
Proof.
  intros Hs Hc He Hstep HI. unfold mark.
  rewrite N2Nat.inj_iter.
  assert (Hn : Z.of_nat (N.to_nat (Z.to_N (count / LIMIT))) = count / 65535).
  { unfold LIMIT. lia. }
  destruct (iter_invariant I start count v Hs Hc He Hstep (N.to_nat (Z.to_N (count / LIMIT))) b HI)
    as (b1 & j & Hj & -> & HI1 & Hor & Hlt).
  { rewrite Hn. lia. }
  cbn [obind]. rewrite Hn in *.
  destruct (Z.ltb_spec 0 (count - 65535 * j)) as [Hp|Hz].
  - destruct (Hstep b1 (start + 65535 * j) (count - 65535 * j)) as (b2 & Hm & HI2); auto.
    { exists j. split_and!; lia. }
    rewrite Hm. exists b2. split; [reflexivity|].
    replace (start + count) with (start + 65535 * j + (count - 65535 * j)) by lia. assumption.
  - assert (count = 0) as -> by lia. exists b1. split; [reflexivity|].
    replace (start + 0) with (start + 65535 * j) by lia. assumption.
Qed.

Lemma piece_ok start count v s c : 0 <= start -> start + count < 2 ^ 64 -> -1 <= v <= 3 ->
  piece start count s c -> ok_piece s c v.
Proof. intros ? ? ? (k & ? & ? & -> & ->). unfold ok_piece. lia. Qed.

Lemma mark_W b r : WInv b -> valid_req r ->
  exists b', mark b (r_start r) (r_count r) (r_state r) = Done b' /\ WInv b'.
Proof.
  intros HW (Hs & Hc & He & Hv).
  assert (Hstep : forall b s c, piece (r_start r) (r_count r) s c -> WInv b ->
     exists b', mark_internal b s c (r_state r) = Done b' /\ WInv b').
  { intros b0 s c Hp HW0.
    assert (Hok : ok_piece s c (r_state r)) by exact (piece_ok _ _ _ _ _ Hs He Hv Hp).
    destruct (mark_internal_W b0 s c (r_state r) HW0 Hok) as (b' & A & B & C & Hm & HW' & _); eauto. }
  destruct (mark_invariant (fun b _ => WInv b) (r_start r) (r_count r) (r_state r) b Hs Hc He Hstep HW)
    as (b' & ? & ?); eauto.
Qed.

Lemma mark_D b r : DInv b -> valid_req r -> safe_req (state_of b) r ->
  exists b', mark b (r_start r) (r_count r) (r_state r) = Done b' /\ DInv b' /\
    forall x, state_of b' x = upd (state_of b) r x.
Proof.
  intros HD (Hs & Hc & He & Hv) Hsafe.
  destruct (mark_invariant (fun b' p => DInv b' /\
      forall x, state_of b' x = if (r_start r <=? x) && (x <? p) then r_state r else state_of b x)
      (r_start r) (r_count r) (r_state r) b Hs Hc He) as (b' & Hm & HD' & Hx).
  - intros b0 s c Hp (HD0 & Hx0).
    assert (Hok : ok_piece s c (r_state r)) by exact (piece_ok _ _ _ _ _ Hs He Hv Hp).
    assert (Hge : r_start r <= s) by (destruct Hp as (k & ? & ? & -> & _); lia).
    assert (Hsp : safe_piece (state_of b0) s c).
    { specialize (Hsafe s c Hp). unfold safe_piece in *. unfold ok_piece in Hok.
      rewrite !Hx0.
      replace ((r_start r <=? s) && (s <? s)) with false by lia.
      replace ((r_start r <=? s + c) && (s + c <? s)) with false by lia.
      replace ((r_start r <=? s + c - 1) && (s + c - 1 <? s)) with false by lia. assumption. }
    destruct (mark_internal_D b0 s c (r_state r) HD0 Hok) as (b1 & Hm1 & HD1 & Hx1).
    { apply safe_not_bad; auto. unfold ok_piece in Hok; lia. }
    exists b1. split_and!; auto. intros x. rewrite Hx1, Hx0.
    unfold ok_piece in Hok.
    destruct (Z.leb_spec s x), (Z.ltb_spec x (s + c)), (Z.leb_spec (r_start r) x), (Z.ltb_spec x s); simpl; try reflexivity; lia.
  - split; [assumption|]. intros x. replace ((_ <=? _) && _) with false by lia. reflexivity.
  - exists b'. split_and!; auto.
Qed.

Lemma run_W h : forall b, WInv b -> Forall valid_req h -> exists b', run b h = Done b' /\ WInv b'.
Proof.
  induction h as [|r h IH]; intros b HW Hv; simpl; [eauto|].
  inversion Hv; subst. destruct (mark_W b r HW) as (b1 & -> & HW1); auto. simpl. auto.
Qed.

Lemma all_calls_ext (P : (Z -> Z) -> req -> Prop) : (forall f g r, (forall x, f x = g x) -> P f r -> P g r) ->
  forall h f g, (forall x, f x = g x) -> all_calls P f h -> all_calls P g h.
Proof.
  intros HP. induction h as [|r h IH]; intros f g E; simpl; [auto|].
  intros [H1 H2]. split; [eapply HP; eauto|]. eapply IH; [|exact H2].
  intros x. unfold upd. destruct (covers r x); auto.
Qed.

Lemma safe_ext f g r : (forall x, f x = g x) -> safe_req f r -> safe_req g r.
Proof. intros E H s c Hp. specialize (H s c Hp). unfold safe_piece in *. rewrite <- !E. assumption. Qed.
Lemma tidy_ext f g r : (forall x, f x = g x) -> tidy_req f r -> tidy_req g r.
Proof.
  intros E H s c Hp. specialize (H s c Hp). unfold tidy_piece in *. rewrite <- !E.
  destruct H as [H|[H|(x & Hx & H)]]; auto. right; right. exists x. rewrite <- !E. auto.
Qed.

Lemma fold_upd_ext h : forall f g, (forall x, f x = g x) ->
  forall x, fold_left upd h f x = fold_left upd h g x.
Proof.
  induction h as [|r h IH]; intros f g E x; simpl; [auto|].
  apply IH. intros y. unfold upd. destruct (covers r y); auto.
Qed.

Lemma run_D h : forall b f, DInv b -> (forall x, state_of b x = f x) -> Forall valid_req h ->
  all_calls safe_req f h ->
  exists b', run b h = Done b' /\ DInv b' /\ forall x, state_of b' x = fold_left upd h f x.
Proof.
  induction h as [|r h IH]; intros b f HD Hf Hv Hs; simpl; [eauto|].
  inversion Hv; subst. destruct Hs as [Hs1 Hs2].
  destruct (mark_D b r HD) as (b1 & -> & HD1 & Hx1); auto.
  { eapply safe_ext; [|exact Hs1]. auto. }
  simpl. apply IH; auto. intros x. rewrite Hx1. unfold upd. destruct (covers r x); auto.
Qed.

(** ** Counters *)
Lemma w64_total b : WInv b -> bl_cnt b = totl (fun s => total s (live b)).
Proof. intros ((_ & _ & H & _) & _). exact H. Qed.

Lemma filter_none {X} (P : X -> Prop) `{!forall x, Decision (P x)} (l : list X) :
  (forall x, x ∈ l -> ~ P x) -> filter P l = [].
Proof.
  intros HH. induction l as [|a l IH]; [reflexivity|]. rewrite filter_cons_False.
  - apply IH. intros x Hx. apply HH. right; assumption.
  - apply HH. left.
Qed.
Lemma filter_all {X} (P : X -> Prop) `{!forall x, Decision (P x)} (l : list X) :
  (forall x, x ∈ l -> P x) -> filter P l = l.
Proof.
  intros HH. induction l as [|a l IH]; [reflexivity|]. rewrite filter_cons_True.
  - f_equal. apply IH. intros x Hx. apply HH. right; assumption.
  - apply HH. left.
Qed.
Lemma filter_ext_in {X} (P Q : X -> Prop) `{!forall x, Decision (P x)} `{!forall x, Decision (Q x)} (l : list X) :
  (forall x, x ∈ l -> P x <-> Q x) -> filter P l = filter Q l.
Proof.
  intros HH. induction l as [|a l IH]; [reflexivity|].
  assert (Ha := HH a ltac:(left)).
  assert (IH' : filter P l = filter Q l) by (apply IH; intros; apply HH; right; assumption).
  destruct (decide (P a)).
  - rewrite !filter_cons_True by tauto. f_equal. assumption.
  - rewrite !filter_cons_False by tauto. assumption.
Qed.

Lemma seqZ_split m a n : 0 <= a <= n -> seqZ m n = seqZ m a ++ seqZ (m + a) (n - a).
Proof. intros H. rewrite <- seqZ_app by lia. f_equal. lia. Qed.

Lemma count_total s (N : Z) : 0 <= s -> forall L m,
  Forall ebound L -> disjoint_l L -> Forall (fun e => m <= e_start e) L ->
  Forall (fun e => xend e <= N) L -> m <= N ->
  Z.of_nat (length (filter (fun x => state_in L x = s) (seqZ m (N - m)))) = total s L.
Proof.
  intros Hs. induction L as [|e L IH]; intros m HB HD Hst Hen HmN.
  - rewrite filter_none; [reflexivity|]. intros x _. simpl. unfold ABSENT. lia.
  - inversion HB as [|? ? Hbe HbL]; subst. inversion Hst as [|? ? Hse HsL]; subst.
    inversion Hen as [|? ? Hee HeL]; subst. apply SS_cons in HD as [HD Hall].
    assert (Hcnt : 0 <= e_count e) by (unfold ebound in Hbe; lia).
    rewrite (seqZ_split m (e_start e - m)) by (unfold xend in *; lia).
    replace (m + (e_start e - m)) with (e_start e) by lia.
    replace (N - m - (e_start e - m)) with (N - e_start e) by lia.
    rewrite (seqZ_split (e_start e) (e_count e)) by (unfold xend in *; lia).
    fold (xend e). replace (N - e_start e - e_count e) with (N - xend e) by (unfold xend; lia).
    rewrite !filter_app, !app_length.
    rewrite (filter_none _ (seqZ m _)).
    2:{ intros x Hx. apply elem_of_seqZ in Hx. rewrite state_in_none; [unfold ABSENT; lia|assumption|].
        constructor; [unfold hit; lia|]. eapply Forall_impl; [exact Hall|]. unfold hit, xend in *; simpl; intros; lia. }
    assert (Hin : forall x, x ∈ seqZ (e_start e) (e_count e) -> state_in (e :: L) x = e_state e).
    { intros x Hx. apply elem_of_seqZ in Hx. rewrite state_in_cons by assumption.
      unfold xend. replace ((_ <=? _) && _) with true by lia. reflexivity. }
    assert (Hmid : Z.of_nat (length (filter (fun x => state_in (e :: L) x = s) (seqZ (e_start e) (e_count e))))
                   = if e_state e =? s then e_count e else 0).
    { destruct (Z.eqb_spec (e_state e) s) as [E|E].
      - rewrite filter_all; [rewrite seqZ_length; lia|]. intros x Hx. rewrite Hin; assumption.
      - rewrite filter_none; [reflexivity|]. intros x Hx. rewrite Hin; assumption. }
    assert (Hrest : filter (fun x => state_in (e :: L) x = s) (seqZ (xend e) (N - xend e))
                    = filter (fun x => state_in L x = s) (seqZ (xend e) (N - xend e))).
    { apply filter_ext_in. intros x Hx. apply elem_of_seqZ in Hx. rewrite state_in_cons by assumption.
      replace ((_ <=? _) && _) with false by lia. reflexivity. }
    rewrite Hrest, !Nat2Z.inj_add, Hmid, (IH (xend e)) by assumption. cbn [total length]. lia.
Qed.

Lemma total_le s L N m : Forall ebound L -> disjoint_l L -> Forall (fun e => m <= e_start e) L ->
  Forall (fun e => xend e <= N) L -> m <= N -> total s L <= N - m.
Proof.
  revert m. induction L as [|e L IH]; intros m HB HD Hst Hen Hm; simpl; [lia|].
  inversion HB as [|? ? Hbe HbL]; subst. inversion Hst as [|? ? Hse HsL]; subst.
  inversion Hen as [|? ? Hee HeL]; subst. apply SS_cons in HD as [HD Hall].
  specialize (IH (xend e) HbL HD Hall HeL Hee). unfold ebound, xend in *.
  destruct (e_state e =? s); lia.
Qed.

Lemma blocks_D b s : DInv b -> 0 <= s <= 3 -> blocks b s = nblocks (state_of b) s (2 ^ 64).
Proof.
  intros (HW & HD) Hs. assert (HWc := w64_total b HW). destruct HW as (HR & HB & HS).
  assert (Hst : Forall (fun e => 0 <= e_start e) (live b)).
  { eapply Forall_impl; [exact HB|]. unfold ebound; simpl; intros; lia. }
  assert (Hen : Forall (fun e => xend e <= 2 ^ 64 - 1) (live b)).
  { eapply Forall_impl; [exact HB|]. unfold ebound; simpl; intros; lia. }
  assert (Hen' : Forall (fun e => xend e <= 2 ^ 64) (live b)).
  { eapply Forall_impl; [exact HB|]. unfold ebound; simpl; intros; lia. }
  unfold nblocks, state_of.
  pose proof (count_total s (2 ^ 64) ltac:(lia) (live b) 0 HB HD Hst Hen' ltac:(lia)) as Hc.
  rewrite Z.sub_0_r in Hc. rewrite Hc.
  pose proof (total_le s (live b) (2 ^ 64 - 1) 0 HB HD Hst Hen ltac:(lia)) as Hle.
  pose proof (total_nonneg s (live b) HB) as Hnn.
  unfold blocks. rewrite (proj2 (Z.eqb_neq _ _)) by (unfold ABSENT; lia). rewrite HWc.
  assert (Hst' : s = 0 \/ s = 1 \/ s = 2 \/ s = 3) by lia.
  destruct Hst' as [ -> | [ -> | [ -> | -> ] ] ]; cbn [totl nth Z.to_nat Pos.to_nat Pos.iter_op Nat.add]; apply w64_id; lia.
Qed.
