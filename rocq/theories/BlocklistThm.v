(** Proofs about the blocklist model: statements about the API. *)
From Coq Require Import Sorted.
From Verif Require Import Prelude Blocklist BlocklistSpec BlocklistProofs BlocklistSem BlocklistMain BlocklistMore.
Ltac Zify.zify_post_hook ::= Z.div_mod_to_equations.

(** ** clean histories *)
Definition CInv (b : bl) : Prop := DInv b /\ Forall pos (live b).

Lemma CInv_fresh : CInv bl_fresh.
Proof. split; [apply DInv_fresh|]. rewrite live_fresh. constructor. Qed.

Lemma tidy_not_zero b s c v : DInv b -> ok_piece s c v -> tidy_piece (state_of b) s c v ->
  ~ zero_pat s c v (live b).
Proof.
  intros ((_ & HB & _) & HD) Hok Ht (e & Hin & Es & Hx & Hse).
  unfold ok_piece in Hok.
  assert (Hh : forall x, s <= x <= s + c -> state_of b x = e_state e).
  { intros x Hxx. apply state_in_hit; auto. unfold hit; lia. }
  rewrite Forall_forall in HB. assert (ebound e) as Hbe by (apply HB, elem_of_list_In; assumption).
  destruct Ht as [Ha|[Ha|(x & Hxx & Ha)]].
  - rewrite Hh in Ha by lia. unfold ebound, ABSENT in *. lia.
  - rewrite Hh in Ha by lia. contradiction.
  - rewrite !Hh in Ha by lia. contradiction.
Qed.

Lemma mark_internal_C b s c v : CInv b -> ok_piece s c v ->
  ~ bad_overlap s c (live b) -> ~ zero_pat s c v (live b) ->
  exists b', mark_internal b s c v = Done b' /\ CInv b' /\
    forall x, state_of b' x = if (s <=? x) && (x <? s + c) then v else state_of b x.
Proof.
  intros (HDI & HP) Hok Hnb Hnz.
  destruct (mark_internal_D b s c v HDI Hok Hnb) as (b' & Hm & HDI' & Hx).
  exists b'. split_and!; auto. split; [assumption|].
  destruct HDI as (HW & HD).
  destruct (mark_internal_W b s c v HW Hok) as (b2 & A & B & C & Hm2 & HW' & E & E' & HA & HB & HC).
  rewrite Hm in Hm2. injection Hm2 as <-.
  destruct HW as (_ & Hbd & _). destruct Hok as (Hs & Hc & He & Hv).
  rewrite E in Hbd, HP, Hnz. rewrite !Forall_app in Hbd. destruct Hbd as (HbA & HbB & HbC).
  rewrite E'. apply mark_list_pos; assumption.
Qed.

(** exact characterisation of a clean result for one piece *)
Lemma mark_internal_clean_iff b s c v : CInv b -> ok_piece s c v ->
  exists b', mark_internal b s c v = Done b' /\ WInv b' /\
    ((CInv b' /\ forall x, state_of b' x = if (s <=? x) && (x <? s + c) then v else state_of b x)
     <-> ~ bad_overlap s c (live b) /\ ~ zero_pat s c v (live b)).
Proof.
  intros (HDI & HP) Hok. pose proof HDI as (HW & HD).
  destruct (mark_internal_W b s c v HW Hok) as (b' & A & B & C & Hm & HW' & E & E' & HA & HB & HC).
  exists b'. split_and!; auto.
  destruct HW as (_ & Hbd & _). pose proof Hok as (Hs & Hc & He & Hv).
  assert (Hbd' := Hbd). rewrite E, !Forall_app in Hbd'. destruct Hbd' as (HbA & HbB & HbC).
  rewrite E in HD. split.
  - intros [[[_ HD'] HP'] Hst]. split; [intros Hbad|intros Hz].
    + rewrite E in Hbad. destruct (mark_list_bad s c v A B C Hs Hc He Hv HbA HbB HbC HA HB HC HD Hbad) as [H1 H2].
      destruct (Z.eq_dec v ABSENT) as [Ea|Ea].
      * apply (H1 Ea). rewrite <- E'. specialize (Hst (s + c - 1)). unfold state_of in Hst. rewrite Hst.
        replace ((_ <=? _) && _) with true by lia. assumption.
      * apply (H2 Ea). rewrite <- E'. assumption.
    + rewrite E in Hz. rewrite E' in HP'.
      eapply (mark_list_zero s c v A B C); eauto.
  - intros [Hnb Hnz]. destruct (mark_internal_C b s c v (conj HDI HP) Hok Hnb Hnz) as (b2 & Hm2 & HC2 & Hx2).
    rewrite Hm in Hm2. injection Hm2 as <-. auto.
Qed.

Definition good_req (f : Z -> Z) (r : req) : Prop := safe_req f r /\ tidy_req f r.

Lemma good_ext f g r : (forall x, f x = g x) -> good_req f r -> good_req g r.
Proof. intros E [H1 H2]; split; [eapply safe_ext|eapply tidy_ext]; eauto. Qed.

Lemma mark_C b r : CInv b -> valid_req r -> good_req (state_of b) r ->
  exists b', mark b (r_start r) (r_count r) (r_state r) = Done b' /\ CInv b' /\
    forall x, state_of b' x = upd (state_of b) r x.
Proof.
  intros HCI (Hs & Hc & He & Hv) [Hsafe Htidy].
  destruct (mark_invariant (fun b' p => CInv b' /\
      forall x, state_of b' x = if (r_start r <=? x) && (x <? p) then r_state r else state_of b x)
      (r_start r) (r_count r) (r_state r) b Hs Hc He) as (b' & Hm & HD' & Hx).
  - intros b0 s c Hp (HC0 & Hx0).
    assert (Hok : ok_piece s c (r_state r)) by exact (piece_ok _ _ _ _ _ Hs He Hv Hp).
    assert (Hge : r_start r <= s) by (destruct Hp as (k & ? & ? & -> & _); lia).
    assert (Hfx : forall x, s <= x -> state_of b0 x = state_of b x).
    { intros x Hxx. rewrite Hx0. replace ((_ <=? _) && _) with false by lia. reflexivity. }
    assert (Hsp : safe_piece (state_of b0) s c).
    { specialize (Hsafe s c Hp). unfold safe_piece in *. unfold ok_piece in Hok.
      rewrite !Hfx by lia. assumption. }
    assert (Htp : tidy_piece (state_of b0) s c (r_state r)).
    { specialize (Htidy s c Hp). unfold tidy_piece in *. unfold ok_piece in Hok.
      rewrite !Hfx by lia. destruct Htidy as [H|[H|(x & Hxx & H)]]; auto.
      right; right. exists x. rewrite !Hfx by lia. auto. }
    pose proof HC0 as [HD0 _].
    destruct (mark_internal_C b0 s c (r_state r) HC0 Hok) as (b1 & Hm1 & HC1 & Hx1).
    { apply safe_not_bad; auto. unfold ok_piece in Hok; lia. }
    { apply tidy_not_zero; auto. }
    exists b1. split_and!; auto. intros x. rewrite Hx1, Hx0.
    unfold ok_piece in Hok.
    destruct (Z.leb_spec s x), (Z.ltb_spec x (s + c)), (Z.leb_spec (r_start r) x), (Z.ltb_spec x s); simpl; try reflexivity; lia.
  - split; [assumption|]. intros x. replace ((_ <=? _) && _) with false by lia. reflexivity.
  - exists b'. split_and!; auto.
Qed.

Lemma run_C h : forall b f, CInv b -> (forall x, state_of b x = f x) -> Forall valid_req h ->
  all_calls good_req f h ->
  exists b', run b h = Done b' /\ CInv b' /\ forall x, state_of b' x = fold_left upd h f x.
Proof.
  induction h as [|r h IH]; intros b f HD Hf Hv Hs; simpl; [eauto|].
  inversion Hv; subst. destruct Hs as [Hs1 Hs2].
  destruct (mark_C b r HD) as (b1 & -> & HD1 & Hx1); auto.
  { eapply good_ext; [|exact Hs1]. auto. }
  simpl. apply IH; auto. intros x. rewrite Hx1. unfold upd. destruct (covers r x); auto.
Qed.

Lemma fsck_C b : CInv b -> exists b', fsck b = Done b' /\ CInv b' /\
  (forall x, state_of b' x = state_of b x) /\ bl_cnt b' = bl_cnt b /\ nentries b' = nentries b.
Proof.
  intros ((HW & HD) & HP). pose proof (fsck_W b HW) as Hf. pose proof HW as (_ & HB & _).
  rewrite (proj2 (clean_cleanb (live b) HB)) in Hf by (split; assumption).
  destruct Hf as (b' & Hf & HW' & Hl & Hc & Hn). exists b'. split_and!; auto.
  - split; [split|]; rewrite ?Hl; assumption.
  - intros x. unfold state_of. rewrite Hl. reflexivity.
  - unfold nentries. rewrite Hn. reflexivity.
Qed.

(** ** growth of the entry list *)
Lemma finish_length P s c v Q : (length (finish P s c v Q) <= length P + 1 + length Q)%nat.
Proof.
  unfold finish. destruct (_ =? _); [rewrite app_length; lia|].
  assert (Hn : (length (merge_next (new_of s c v) Q) <= 1 + length Q)%nat).
  { unfold merge_next. destruct Q as [|q Q']; simpl; [lia|]. destruct (mergeable _ _); simpl; lia. }
  revert Hn. generalize (merge_next (new_of s c v) Q). intros R Hn.
  unfold merge_prev. destruct (list_eq_nil_dec P) as [->|HP].
  { simpl. lia. }
  destruct (exists_last HP) as (P' & p & ->). rewrite last_snoc.
  destruct R as [|r R]; [rewrite !app_length; simpl; lia|].
  simpl in Hn. destruct (mergeable p r); rewrite ?removelast_last, !app_length; simpl; lia.
Qed.

Lemma mark_list_length s c v A B C : (length (mark_list s c v A B C) <= length (A ++ B ++ C) + 2)%nat.
Proof.
  unfold mark_list. pose proof (finish_length (A ++ left_part s B C) s c v (right_part s c B C)) as H.
  assert (Hl : (length (left_part s B C) <= 1)%nat).
  { unfold left_part. destruct (B ++ C); simpl; [lia|]. destruct (_ <=? _); [|simpl; lia].
    destruct B; simpl; [lia|]. destruct (_ =? _); simpl; lia. }
  assert (Hr : (length (right_part s c B C) <= length C)%nat).
  { assert (Ht : (length (trim_right (s + c) C) <= length C)%nat).
    { destruct C; simpl; [lia|]. destruct (_ <=? _); simpl; lia. }
    unfold right_part. destruct B; [assumption|]. destruct (_ =? _); [lia|assumption]. }
  rewrite !app_length in *. lia.
Qed.

Lemma mark_growth b r : WInv b -> valid_req r ->
  exists b', mark b (r_start r) (r_count r) (r_state r) = Done b' /\ WInv b' /\
    nentries b' <= nentries b + 2 * ((r_count r + 65534) / 65535) /\ nentries b' <= Z.of_nat (capacity b').
Proof.
  intros HW (Hs & Hc & He & Hv).
  destruct (mark_invariant (fun b' p => WInv b' /\
      nentries b' <= nentries b + 2 * ((p - r_start r + 65534) / 65535) /\
      r_start r <= p)
      (r_start r) (r_count r) (r_state r) b Hs Hc He) as (b' & Hm & HD' & Hx).
  - intros b0 s c Hp (HW0 & Hn0 & Hge).
    assert (Hok : ok_piece s c (r_state r)) by exact (piece_ok _ _ _ _ _ Hs He Hv Hp).
    destruct (mark_internal_W b0 s c (r_state r) HW0 Hok) as (b1 & A & B & C & Hm1 & HW1 & E & E' & _).
    exists b1. split_and!; auto; [|unfold ok_piece in Hok; lia].
    pose proof (mark_list_length s c (r_state r) A B C) as Hlen. rewrite <- E, <- E' in Hlen.
    pose proof HW0 as (HR0 & _). pose proof HW1 as (HR1 & _).
    apply rep_n in HR0, HR1. unfold nentries in *.
    destruct Hp as (k & Hk0 & Hk1 & -> & ->). lia.
  - split_and!; auto; lia.
  - exists b'. split_and!; auto; [lia|].
    destruct HD' as ((_ & Hle & _) & _). unfold nentries, capacity. lia.
Qed.

(** ** idempotence *)
Lemma mark_single b s c v : 1 <= c <= 65535 -> mark b s c v = mark_internal b s c v.
Proof.
  intros Hc. unfold mark, LIMIT.
  assert (c < 65535 \/ c = 65535) as [H| ->] by lia.
  - rewrite Z.div_small by lia. simpl. rewrite (proj2 (Z.ltb_lt _ _)) by lia. reflexivity.
  - reflexivity.
Qed.

Lemma mark_twice b r : DInv b -> valid_req r -> 1 <= r_count r <= 65535 -> safe_req (state_of b) r ->
  exists b1 b2, mark b (r_start r) (r_count r) (r_state r) = Done b1 /\
    mark b1 (r_start r) (r_count r) (r_state r) = Done b2 /\ DInv b1 /\ DInv b2 /\
    (forall x, state_of b2 x = state_of b1 x).
Proof.
  intros HD Hv Hcnt Hsafe. destruct r as [s c v]; simpl in *.
  assert (Hok : ok_piece s c v) by (unfold valid_req, ok_piece in *; simpl in *; lia).
  assert (Hsp : safe_piece (state_of b) s c).
  { apply (Hsafe s c). exists 0. simpl. split_and!; lia. }
  rewrite mark_single by assumption.
  destruct (mark_internal_D b s c v HD Hok) as (b1 & Hm1 & HD1 & Hx1).
  { apply safe_not_bad; auto. lia. }
  exists b1.
  assert (Hnb : ~ bad_overlap s c (live b1)).
  { destruct (Z.eq_dec v ABSENT) as [Ea|Ea].
    - apply safe_not_bad; auto; [lia|]. right; left. rewrite Hx1.
      replace ((_ <=? _) && _) with true by lia. assumption.
    - destruct HD as (HW & HDj).
      destruct (mark_internal_W b s c v HW Hok) as (b1' & A & B & C & Hm2 & HW' & E & E' & HA & HB & HC).
      rewrite Hm1 in Hm2. injection Hm2 as <-.
      destruct HW as (_ & Hbd & _). destruct Hok as (Hs & Hc & He & Hv').
      rewrite E, !Forall_app in Hbd. destruct Hbd as (HbA & HbB & HbC).
      destruct (mark_list_run s c v A B C Hs Hc He Hv' HbA HbB HbC HA HB HC Ea) as (e & Hin & Hle & Hge).
      rewrite <- E' in Hin. intros (e1 & e2 & H1 & H2 & Es & Hxx1 & Hxx2).
      destruct HD1 as (_ & HDj1).
      (* e and e1 overlap at s, e and e2 at s+c-1 *)
      assert (Huniq : forall a b0 x, In a (live b1) -> In b0 (live b1) -> hit a x -> hit b0 x -> a = b0).
      { clear -HDj1. unfold disjoint_l in HDj1. induction HDj1 as [|y l Hs IH Hall]; intros a b0 x Ha Hb Hha Hhb; [destruct Ha|].
        rewrite Forall_forall in Hall. unfold hit in *.
        destruct Ha as [->|Ha], Hb as [->|Hb]; auto.
        - specialize (Hall b0 (proj2 (elem_of_list_In _ _) Hb)). lia.
        - specialize (Hall a (proj2 (elem_of_list_In _ _) Ha)). lia.
        - eapply IH; eauto. }
      assert (e = e1) as -> by (apply (Huniq e e1 s); auto; unfold hit; lia).
      assert (e1 = e2) as -> by (apply (Huniq e1 e2 (s + c - 1)); auto; unfold hit; lia).
      lia. }
  destruct (mark_internal_D b1 s c v HD1 Hok Hnb) as (b2 & Hm2 & HD2 & Hx2).
  exists b2. rewrite mark_single by assumption. split_and!; auto.
  intros x. rewrite Hx2, Hx1. destruct (_ && _); reflexivity.
Qed.

(** ** truncate_access *)
Global Instance hit_dec e x : Decision (hit e x).
Proof. unfold hit. apply _. Defined.
Lemma state_present_entry L x : Forall ebound L -> disjoint_l L -> state_in L x <> ABSENT ->
  exists i e, L !! i = Some e /\ hit e x /\ ub L x = i.
Proof.
  intros HB HD Hx. pose proof (disjoint_ends L HB HD) as HS.
  assert (Hex : exists i e, L !! i = Some e /\ hit e x).
  { destruct (decide (Exists (fun e => hit e x) L)) as [H|H].
    - apply Exists_exists in H as (e & Hin & Hh). apply elem_of_list_lookup in Hin as [i Hi]. eauto.
    - exfalso. apply Hx. apply state_in_none; [assumption|]. apply Forall_Exists_neg. exact H. }
  destruct Hex as (i & e & Hi & Hh). exists i, e. split_and!; auto.
  apply ub_unique; auto.
  - apply lookup_lt_Some in Hi. lia.
  - intros j a Hj Ha. assert (xend a <= e_start e).
    { clear -HD Hi Hj Ha. unfold disjoint_l in HD. revert i j Hi Hj Ha. induction HD as [|y l Hs IH Hall]; intros i j Hi Hj Ha.
      - rewrite lookup_nil in Hi; discriminate.
      - destruct i as [|i]; [lia|]. simpl in Hi. destruct j as [|j]; simpl in Ha.
        + injection Ha as <-. rewrite Forall_forall in Hall. apply Hall. eapply elem_of_list_lookup_2; eauto.
        + eapply IH; eauto; lia. }
    unfold hit in Hh. lia.
  - intros j a Hj Ha. pose proof (ub_lt_iff L x _ a HS Ha) as H1. pose proof (ub_lt_iff L x _ e HS Hi) as H2.
    unfold hit in Hh. lia.
Qed.

Lemma disjoint_lookup L i j a b : disjoint_l L -> L !! i = Some a -> L !! j = Some b -> (i < j)%nat ->
  xend a <= e_start b.
Proof.
  unfold disjoint_l. intros HD. revert i j. induction HD as [|y l Hs IH Hall]; intros i j Hi Hj Hij.
  - rewrite lookup_nil in Hi; discriminate.
  - destruct j as [|j]; [lia|]. destruct i as [|i]; simpl in *.
    + injection Hi as <-. rewrite Forall_forall in Hall. apply Hall. eapply elem_of_list_lookup_2; eauto.
    + eapply IH; eauto; lia.
Qed.

Lemma ta_loop_spec b L T re (last : nat) (el : entry) :
  rep b L T -> Forall ebound L -> disjoint_l L ->
  L !! last = Some el -> re <= xend el ->
  forall fuel it e, L !! it = Some e -> (it <= last)%nat -> (last - it < fuel)%nat ->
  exists r, ta_loop fuel b re it (xend e) = Done r /\
    xend e <= r < 2 ^ 64 /\
    (forall x, xend e <= x < r -> state_in L x <> ABSENT) /\
    (re <= r \/ state_in L r = ABSENT).
Proof.
  intros HR HB HD Hlast Hre. pose proof (rep_n _ _ _ HR) as Hn.
  induction fuel as [|fuel IH]; intros it e Hit Hle Hf; [lia|].
  cbn [ta_loop]. assert (Hbe : ebound e) by (rewrite Forall_lookup in HB; eauto).
  destruct (Z.ltb_spec (xend e) re) as [Hlt|Hge].
  - assert (Hne : (it < last)%nat).
    { destruct (decide (it = last)) as [->|]; [|lia]. rewrite Hlast in Hit. injection Hit as ->. lia. }
    assert (Hll : (last < length L)%nat) by (apply lookup_lt_Some in Hlast; assumption).
    rewrite (proj2 (Nat.eqb_neq _ _)) by lia. cbn [negb andb].
    destruct (lookup_lt_is_Some_2 L (S it)) as [e' He']; [lia|].
    rewrite (rd_rep _ _ _ _ _ HR He'). cbn [obind].
    assert (Hbe' : ebound e') by (rewrite Forall_lookup in HB; eauto).
    pose proof (disjoint_lookup L it (S it) e e' HD Hit He' ltac:(lia)) as Hord.
    destruct (Z.eqb_spec (e_start e') (xend e)) as [Eq|Ne]; cbn [negb].
    + rewrite e_end_x by assumption.
      destruct (IH (S it) e' He' ltac:(lia) ltac:(lia)) as (r & Hr & Hb & Hp & Hend).
      exists r. split_and!; auto; try (unfold ebound, xend in *; lia).
      intros x Hx. destruct (Z.lt_ge_cases x (xend e')).
      * assert (Hs : state_in L x = e_state e').
        { apply state_in_hit; auto; [|unfold hit; lia]. apply elem_of_list_In. eapply elem_of_list_lookup_2; eauto. }
        rewrite Hs. unfold ebound, ABSENT in *. lia.
      * apply Hp. lia.
    + exists (xend e). split_and!; try (unfold ebound, xend in *; lia); auto.
      right. apply state_in_none; [assumption|]. apply Forall_lookup. intros j a Ha. unfold hit.
      destruct (decide (j <= it)%nat) as [Hj|Hj].
      * assert (xend a <= xend e); [|lia].
        destruct (decide (j = it)) as [->|]; [rewrite Hit in Ha; injection Ha as ->; lia|].
        pose proof (disjoint_lookup L j it a e HD Ha Hit ltac:(lia)). unfold ebound, xend in *. lia.
      * assert (e_start e' <= e_start a); [|lia].
        destruct (decide (j = S it)) as [->|]; [rewrite He' in Ha; injection Ha as ->; lia|].
        pose proof (disjoint_lookup L (S it) j e' a HD He' Ha ltac:(lia)). unfold ebound, xend in *. lia.
  - rewrite andb_false_r. exists (xend e). split_and!; try (unfold ebound, xend in *; lia); auto.
Qed.

(** bytes of a file *)
Definition blk (p : Z) : Z := p / PAGE.

Lemma truncate_access_D b start size :
  DInv b -> 0 <= start -> 0 <= size -> start + size + 2 * PAGE < 2 ^ 64 ->
  (* some block at or behind the last requested one is present *)
  (exists y, (start + size + PAGE - 1) / PAGE - 1 <= y /\ start / PAGE <= y /\ state_of b y <> ABSENT) ->
  exists res, truncate_access b start size = Done res /\ 0 <= res <= size /\
    (state_of b (blk start) = ABSENT -> res = 0) /\
    (* never more than the offset in the first page beyond the present blocks *)
    (forall p, start <= p < start + res - start mod PAGE -> state_of b (blk p) <> ABSENT) /\
    (* maximal *)
    (res < size -> state_of b (blk (start - start mod PAGE + res)) = ABSENT \/ state_of b (blk start) = ABSENT) /\
    ((forall p, start <= p < start + size -> state_of b (blk p) <> ABSENT) -> res = size).
Proof.
  intros ((HR & HB & HS) & HD) Hst Hsz Hov (y & Hy1 & Hy2 & Hyp).
  unfold truncate_access, blk, PAGE in *. rewrite (proj2 (Z.ltb_ge _ _)) by lia.
  rewrite w64_id by lia.
  set (sb := start / 4096) in *. set (re := (start + size + 4096 - 1) / 4096) in *.
  rewrite (search_rep b _ _ sb HR HB HS). cbn [obind].
  pose proof (rep_n _ _ _ HR) as Hn. unfold state_of in *.
  destruct (Z.eq_dec (state_in (live b) sb) ABSENT) as [Ha|Hp].
  - (* absent *)
    exists 0. split.
    { destruct (Nat.eqb_spec (ub (live b) sb) (bl_n b)) as [|Hne]; [reflexivity|].
      destruct (lookup_lt_is_Some_2 (live b) (ub (live b) sb)) as [e He].
      { pose proof (ub_le (live b) sb). lia. }
      rewrite (rd_rep _ _ _ _ _ HR He). cbn [obind].
      assert (Hbe : ebound e) by (rewrite Forall_lookup in HB; eauto).
      rewrite contains_x by assumption.
      pose proof (state_in_absent _ _ HB Ha) as Hn'. rewrite Forall_lookup in Hn'. specialize (Hn' _ _ He).
      unfold hit in Hn'. replace ((_ <=? _) && _) with false by lia. reflexivity. }
    split_and!; try lia; auto.
    intros Hall. destruct (Z.eq_dec size 0); [lia|]. exfalso. apply (Hall start); [lia|exact Ha].
  - destruct (state_present_entry (live b) sb HB HD Hp) as (i & e & Hi & Hh & Hu).
    destruct (state_present_entry (live b) y HB HD Hyp) as (il & el & Hil & Hhl & Hul).
    rewrite Hu. assert (Hil' : (i < length (live b))%nat) by (apply lookup_lt_Some in Hi; assumption).
    rewrite (proj2 (Nat.eqb_neq _ _)) by lia.
    rewrite (rd_rep _ _ _ _ _ HR Hi). cbn [obind].
    assert (Hbe : ebound e) by (rewrite Forall_lookup in HB; eauto).
    rewrite contains_x by assumption. unfold hit in Hh.
    replace (negb ((_ <=? _) && _)) with false by lia.
    rewrite e_end_x by assumption.
    assert (Hile : (i <= il)%nat) by (rewrite <- Hu, <- Hul; apply ub_mono; assumption).
    assert (Hlt : (il < length (live b))%nat) by (apply lookup_lt_Some in Hil; assumption).
    destruct (ta_loop_spec b _ _ re il el HR HB HD Hil ltac:(unfold hit in Hhl; lia) (S (bl_n b)) i e Hi Hile ltac:(lia))
      as (r & -> & Hr1 & Hr2 & Hr3).
    cbn [obind].
    set (eb := Z.min (re + 1) r).
    assert (Heb : sb < eb). { subst eb. unfold re, sb in *. lia. }
    assert (Hebr : eb <= r) by (subst eb; lia).
    assert (Hebm : eb * 4096 <= 2 ^ 64 + 4096). { subst eb. unfold re. lia. }
    assert (Hpres : forall x, sb <= x < r -> state_in (live b) x <> ABSENT).
    { intros x Hx. destruct (Z.lt_ge_cases x (xend e)).
      - assert (Hs : state_in (live b) x = e_state e).
        { apply state_in_hit; auto; [|unfold hit; lia]. apply elem_of_list_In. eapply elem_of_list_lookup_2; eauto. }
        rewrite Hs. unfold ebound, ABSENT in *. lia.
      - apply Hr2. lia. }
    destruct (Z.lt_ge_cases ((eb - sb) * 4096) (2 ^ 64)) as [Hsmall|Hbig].
    + rewrite w64_id by lia.
      exists (Z.min size ((eb - sb) * 4096)). split_and!; try reflexivity; try lia.
      * intros p Hpp. apply Hpres. unfold sb in *. split; [apply Z.div_le_mono; lia|].
        apply Z.lt_le_trans with eb; [|lia]. apply Z.div_lt_upper_bound; lia.
      * intros Hlt2. left. destruct Hr3 as [Hge|Hab].
        -- exfalso. assert (re <= eb) by (subst eb; lia). unfold re, sb in *. lia.
        -- assert (eb = r).
           { subst eb. destruct (Z.lt_ge_cases (re + 1) r); [|lia]. exfalso. unfold re, sb in *; lia. }
           replace ((start - start mod 4096 + Z.min size ((eb - sb) * 4096)) / 4096) with r; [assumption|].
           rewrite Z.min_r by lia. rewrite <- H. unfold sb.
           replace (start - start mod 4096 + (eb - start / 4096) * 4096) with (eb * 4096) by (pose proof (Z.div_mod start 4096); lia).
           rewrite Z.div_mul by lia. reflexivity.
      * intros Hall. destruct (Z.lt_ge_cases ((eb - sb) * 4096) size) as [Hc|]; [|lia]. exfalso.
        destruct Hr3 as [Hge|Hab].
        -- assert (re <= eb) by (subst eb; lia). unfold re, sb in *. lia.
        -- assert (eb = r) as Er.
           { subst eb. destruct (Z.lt_ge_cases (re + 1) r); [|lia]. exfalso. unfold re, sb in *; lia. }
           apply (Hall (eb * 4096)); [unfold sb in *; lia|]. rewrite Z.div_mul by lia. rewrite Er. assumption.
    + exfalso. assert (eb <= re + 1) by (subst eb; lia).
      assert (H1 : re * 4096 <= start + size + 4096 - 1) by (unfold re; lia).
      assert (H2 : start < (sb + 1) * 4096) by (unfold sb; lia).
      clearbody re sb eb. lia.
Qed.
