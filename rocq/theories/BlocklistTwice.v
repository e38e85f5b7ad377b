(** Repeating a call of mark() of any length.  Nothing is modelled here. *)
From Coq Require Import Sorted.
From Verif Require Import Prelude Blocklist BlocklistSpec BlocklistProofs BlocklistSem BlocklistMain BlocklistMore BlocklistThm BlocklistFinal.
Ltac Zify.zify_post_hook ::= Z.div_mod_to_equations.

(** one entry spans [x, y) *)
Definition spanned (L : list entry) (x y : Z) : Prop := exists e, In e L /\ e_start e <= x /\ y <= xend e.

Lemma mc_spanned x y : merge_closed (fun L => Forall ebound L /\ spanned L x y).
Proof.
  intros P p q Q Hm [Hbd (e & Hin & H1 & H2)]. split; [apply mc_ebound; assumption|].
  pose proof (merge_end p q Hm) as Hme.
  apply Forall_app in Hbd as [_ Hbd]. inversion Hbd as [|? ? Hbp Hbq]; subst. inversion Hbq as [|? ? Hbq' _]; subst.
  unfold ebound, xend in *. unfold mergeable in Hm.
  apply in_app_iff in Hin as [Hin|[->|[->|Hin]]].
  + exists e. split_and!; auto. apply in_app_iff; auto.
  + exists (merge e q). split_and!; [apply in_app_iff; simpl; auto|simpl; lia|unfold xend in *; simpl in *; lia].
  + exists (merge p e). split_and!; [apply in_app_iff; simpl; auto|unfold xend in *; simpl in *; lia|unfold xend in *; simpl in *; lia].
  + exists e. split_and!; auto. apply in_app_iff; simpl; auto.
Qed.

(** what lies in one entry outside of the piece stays in one entry *)
Lemma mark_internal_span b s c v x y b' : WInv b -> ok_piece s c v -> mark_internal b s c v = Done b' ->
  x < y -> (exists e, In e (live b) /\ e_start e <= x /\ y <= xend e /\ (xend e <= s \/ s + c <= e_start e)) ->
  spanned (live b') x y.
Proof.
  intros HW Hok Hm Hxy (e & Hin & Hx & Hy & Hd).
  destruct (mark_internal_W b s c v HW Hok) as (b1 & A & B & C & Hm1 & HW' & E & E' & HA & HB & HC).
  rewrite Hm in Hm1. injection Hm1 as <-.
  destruct HW as (_ & Hbd & _). destruct Hok as (Hs & Hc & He & Hv).
  rewrite E, !Forall_app in Hbd. destruct Hbd as (HbA & HbB & HbC). rewrite E in Hin.
  rewrite E'.
  assert (Hbase : In e A \/ In e (right_part s c B C)).
  { rewrite !in_app_iff in Hin. pose proof HA as HA'. pose proof HB as HB'. pose proof HC as HC'. rewrite Forall_forall in HA', HB', HC'.
    assert (HeB : In e B -> False).
    { intros Hi. apply elem_of_list_In in Hi. specialize (HB' _ Hi). lia. }
    destruct Hin as [Hi|[Hi|Hi]]; [left; exact Hi|contradiction|]. right.
    apply elem_of_list_In in Hi. specialize (HC' _ Hi). apply elem_of_list_In in Hi.
    assert (Ht : In e (trim_right (s + c) C)).
    { destruct C as [|c0 C']; [exact Hi|]. cbn [trim_right]. destruct (Z.leb_spec (e_start c0) (s + c - 1)); [|exact Hi].
      destruct Hi as [->|Hi]; [lia|right; exact Hi]. }
    unfold right_part. destruct B as [|b0 B0]; [exact Ht|]. destruct (_ =? _); [exact Hi|exact Ht]. }
  enough (Forall ebound (mark_list s c v A B C) /\ spanned (mark_list s c v A B C) x y) by tauto.
  pose proof (left_part_bound s c v A B C Hs Hc He Hv HbA HbB HbC HA HB HC) as Hlb.
  pose proof (right_part_bound s c v A B C Hs Hc He Hv HbA HbB HbC HA HB HC) as Hrb.
  apply (mark_list_ind s c v A B C Hs Hc He Hv HbA HbB HbC HA HB HC (fun L => Forall ebound L /\ spanned L x y)).
  - apply mc_spanned.
  - intros Hne. split; [rewrite !Forall_app, Forall_cons; split_and!; auto; apply new_bound; auto|].
    exists e. split_and!; auto. rewrite !in_app_iff. cbn [In]. tauto.
  - intros _. split; [rewrite !Forall_app; split_and!; auto|]. exists e. split_and!; auto. rewrite !in_app_iff. tauto.
Qed.

Lemma in_unique b e1 e2 x : DInv b -> In e1 (live b) -> In e2 (live b) -> hit e1 x -> hit e2 x -> e1 = e2.
Proof.
  intros [_ HD]. revert e1 e2. unfold disjoint_l in HD. induction HD as [|y l Hs IH Hall]; intros a b0 Ha Hb Hha Hhb; [destruct Ha|].
  rewrite Forall_forall in Hall. unfold hit in *.
  destruct Ha as [->|Ha], Hb as [->|Hb]; auto.
  - specialize (Hall b0 (proj2 (elem_of_list_In _ _) Hb)). lia.
  - specialize (Hall a (proj2 (elem_of_list_In _ _) Ha)). lia.
Qed.
Lemma span_not_bad b s c : DInv b -> 1 <= c -> spanned (live b) s (s + c) -> ~ bad_overlap s c (live b).
Proof.
  intros HD Hc (e & Hin & Hle & Hge) (e1 & e2 & H1 & H2 & Es & Hxx1 & Hxx2).
  assert (e = e1) as -> by (apply (in_unique b e e1 s HD); auto; unfold hit; lia).
  assert (e1 = e2) as -> by (apply (in_unique b e1 e2 (s + c - 1) HD); auto; unfold hit; lia). lia.
Qed.
Lemma mark_internal_run b s c v b' : WInv b -> ok_piece s c v -> v <> ABSENT -> mark_internal b s c v = Done b' -> spanned (live b') s (s + c).
Proof.
  intros HW Hok Ha Hm. destruct (mark_internal_W b s c v HW Hok) as (b1 & A & B & C & Hm1 & HW' & E & E' & HA & HB & HC).
  rewrite Hm in Hm1. injection Hm1 as <-. destruct HW as (_ & Hbd & _). destruct Hok as (Hs & Hc & He & Hv).
  rewrite E, !Forall_app in Hbd. destruct Hbd as (HbA & HbB & HbC). rewrite E'.
  exact (mark_list_run s c v A B C Hs Hc He Hv HbA HbB HbC HA HB HC Ha).
Qed.

(** two different pieces of a call do not meet, and are too long together for one entry *)
Lemma pieces_apart start count s c s' c' : piece start count s c -> piece start count s' c' ->
  (s = s' /\ c = c') \/ (s + 65535 <= s' /\ c = 65535) \/ (s' + 65535 <= s /\ c' = 65535).
Proof.
  intros (k & Hk & Hk' & -> & ->) (j & Hj & Hj' & -> & ->). assert (k = j \/ k < j \/ j < k) as [->|[|]] by lia; [left; auto|right; left; lia|right; right; lia].
Qed.

(** an entry that spans one piece avoids every other piece that is spanned, or that is to be marked
    and lies behind *)
Lemma span_disjoint b start count s c s' c' e e' : DInv b -> piece start count s c -> piece start count s' c' -> s <> s' ->
  In e (live b) -> e_start e <= s -> s + c <= xend e -> In e' (live b) -> e_start e' <= s' -> s' + c' <= xend e' ->
  xend e <= s' \/ s' + c' <= e_start e.
Proof.
  intros HD Hp Hp' Hne Hin H1 H2 Hin' H1' H2'.
  assert (Hbd : ebound e) by (destruct HD as [(_ & Hb & _) _]; rewrite Forall_forall in Hb; apply Hb, elem_of_list_In, Hin).
  assert (Hc1 : 1 <= c <= 65535 /\ 1 <= c' <= 65535).
  { destruct Hp as (k & ? & ? & _ & ->), Hp' as (j & ? & ? & _ & ->). lia. }
  destruct (pieces_apart _ _ _ _ _ _ Hp Hp') as [[? _]|[[Ha Hb]|[Ha Hb]]]; [contradiction| |]; destruct (Z.le_gt_cases (xend e) s') as [|Hg]; auto; right.
  - exfalso. unfold ebound, xend in *. lia.
  - destruct (Z.le_gt_cases (s' + c') (e_start e)) as [|Hl]; [assumption|]. exfalso.
    assert (e = e').
    { apply (in_unique b e e' (Z.max (e_start e) s') HD); auto; unfold hit; lia. }
    subst e'. unfold ebound, xend in *. lia.
Qed.

(** the first call leaves every piece in one entry *)
Lemma mark_spans b r : DInv b -> valid_req r -> r_state r <> ABSENT -> safe_req (state_of b) r ->
  exists b', mark b (r_start r) (r_count r) (r_state r) = Done b' /\ DInv b' /\
    (forall x, state_of b' x = upd (state_of b) r x) /\
    forall s c, piece (r_start r) (r_count r) s c -> spanned (live b') s (s + c).
Proof.
  intros HD (Hs & Hc & He & Hv) Ha Hsafe.
  destruct (mark_invariant (fun b' p => (DInv b' /\
      forall x, state_of b' x = if (r_start r <=? x) && (x <? p) then r_state r else state_of b x) /\
      forall s c, piece (r_start r) (r_count r) s c -> s < p -> spanned (live b') s (s + c))
      (r_start r) (r_count r) (r_state r) b Hs Hc He) as (b' & Hm & (HD' & Hx) & Hsp).
  - intros b0 s c Hp ((HD0 & Hx0) & Hsp0).
    assert (Hok : ok_piece s c (r_state r)) by exact (piece_ok _ _ _ _ _ Hs He Hv Hp).
    assert (Hge : r_start r <= s) by (destruct Hp as (k & ? & ? & -> & _); lia).
    assert (Hsp : safe_piece (state_of b0) s c).
    { specialize (Hsafe s c Hp). unfold safe_piece in *. unfold ok_piece in Hok.
      rewrite !Hx0.
      replace ((r_start r <=? s) && (s <? s)) with false by lia.
      replace ((r_start r <=? s + c) && (s + c <? s)) with false by lia.
      replace ((r_start r <=? s + c - 1) && (s + c - 1 <? s)) with false by lia. assumption. }
    destruct (mark_internal_D b0 s c (r_state r) HD0 Hok) as (b1 & Hm1 & HD1 & Hx1).
    { apply safe_not_bad; auto. unfold ok_piece in Hok; lia. }
    exists b1. split; [exact Hm1|]. split; [split|].
    + exact HD1.
    + intros x. rewrite Hx1, Hx0. unfold ok_piece in Hok.
      destruct (Z.leb_spec s x), (Z.ltb_spec x (s + c)), (Z.leb_spec (r_start r) x), (Z.ltb_spec x s); simpl; try reflexivity; lia.
    + intros s' c' Hp' Hlt. destruct (pieces_apart _ _ _ _ _ _ Hp Hp') as [[<- <-]|[[Hl Hc']|[Hl Hc']]].
      * eapply mark_internal_run; [apply HD0|exact Hok|exact Ha|exact Hm1].
      * exfalso. lia.
      * assert (H1c' : 1 <= c') by (destruct Hp' as (j & ? & ? & _ & ->); lia).
        eapply mark_internal_span; [apply HD0|exact Hok|exact Hm1|lia|].
        destruct (Hsp0 s' c' Hp' ltac:(lia)) as (e & Hin & H1 & H2). exists e. split_and!; auto. left.
        assert (Hbd : ebound e) by (destruct HD0 as [(_ & Hb & _) _]; rewrite Forall_forall in Hb; apply Hb, elem_of_list_In, Hin).
        unfold ebound, xend in *. lia.
  - split; [split; [assumption|]; intros x; replace ((_ <=? _) && _) with false by lia; reflexivity|].
    intros s c (k & ? & ? & -> & _) Hlt. lia.
  - exists b'. split_and!; auto. intros s c Hp. apply Hsp; [exact Hp|]. destruct Hp as (k & ? & ? & -> & _). lia.
Qed.

(** a call on pieces that lie in one entry each *)
Lemma mark_spanned b r : DInv b -> valid_req r -> r_state r <> ABSENT ->
  (forall s c, piece (r_start r) (r_count r) s c -> spanned (live b) s (s + c)) ->
  exists b', mark b (r_start r) (r_count r) (r_state r) = Done b' /\ DInv b' /\ forall x, state_of b' x = upd (state_of b) r x.
Proof.
  intros HD (Hs & Hc & He & Hv) Ha Hspan.
  destruct (mark_invariant (fun b' p => (DInv b' /\
      forall x, state_of b' x = if (r_start r <=? x) && (x <? p) then r_state r else state_of b x) /\
      forall s c, piece (r_start r) (r_count r) s c -> spanned (live b') s (s + c))
      (r_start r) (r_count r) (r_state r) b Hs Hc He) as (b' & Hm & (HD' & Hx) & _).
  - intros b0 s c Hp ((HD0 & Hx0) & Hsp0).
    assert (Hok : ok_piece s c (r_state r)) by exact (piece_ok _ _ _ _ _ Hs He Hv Hp).
    assert (Hge : r_start r <= s) by (destruct Hp as (k & ? & ? & -> & _); lia).
    destruct (mark_internal_D b0 s c (r_state r) HD0 Hok) as (b1 & Hm1 & HD1 & Hx1).
    { apply span_not_bad; auto. unfold ok_piece in Hok; lia. }
    exists b1. split; [exact Hm1|]. split; [split|].
    + exact HD1.
    + intros x. rewrite Hx1, Hx0. unfold ok_piece in Hok.
      destruct (Z.leb_spec s x), (Z.ltb_spec x (s + c)), (Z.leb_spec (r_start r) x), (Z.ltb_spec x s); simpl; try reflexivity; lia.
    + intros s' c' Hp'. destruct (decide (s = s')) as [<-|Hn].
      { destruct (pieces_apart _ _ _ _ _ _ Hp Hp') as [[_ <-]|[[Hl _]|[Hl _]]]; [|lia|lia].
        eapply mark_internal_run; [apply HD0|exact Hok|exact Ha|exact Hm1]. }
      assert (H1c' : 1 <= c') by (destruct Hp' as (j & ? & ? & _ & ->); lia).
      eapply mark_internal_span; [apply HD0|exact Hok|exact Hm1|lia|].
      destruct (Hsp0 s' c' Hp') as (e & Hin & H1 & H2). destruct (Hsp0 s c Hp) as (e' & Hin' & H1' & H2').
      exists e. split_and!; auto. eapply (span_disjoint b0 _ _ s' c' s c e e' HD0 Hp' Hp); auto.
  - split; [split; [assumption|]; intros x; replace ((_ <=? _) && _) with false by lia; reflexivity|exact Hspan].
  - exists b'. split_and!; auto.
Qed.

Lemma mark_again b r : DInv b -> valid_req r -> safe_req (state_of b) r ->
  exists b1 b2, mark b (r_start r) (r_count r) (r_state r) = Done b1 /\
    mark b1 (r_start r) (r_count r) (r_state r) = Done b2 /\ DInv b1 /\ DInv b2 /\
    (forall x, state_of b2 x = state_of b1 x).
Proof.
  intros HD Hv Hsafe. destruct (Z.eq_dec (r_state r) ABSENT) as [Ea|Ea].
  - destruct (mark_D b r HD Hv Hsafe) as (b1 & Hm1 & HD1 & Hx1).
    destruct (mark_D b1 r HD1 Hv) as (b2 & Hm2 & HD2 & Hx2).
    { intros s c Hp. right; left. rewrite Hx1. unfold upd, covers. destruct Hv as (? & ? & ? & _). destruct Hp as (k & ? & ? & -> & _).
      replace ((_ <=? _) && _) with true by lia. exact Ea. }
    exists b1, b2. split_and!; auto. intros x. rewrite Hx2, Hx1. unfold upd. destruct (covers r x) eqn:Ec; [|rewrite Hx1; unfold upd; rewrite Ec]; reflexivity.
  - destruct (mark_spans b r HD Hv Ea Hsafe) as (b1 & Hm1 & HD1 & Hx1 & Hsp).
    destruct (mark_spanned b1 r HD1 Hv Ea Hsp) as (b2 & Hm2 & HD2 & Hx2).
    exists b1, b2. split_and!; auto. intros x. rewrite Hx2. unfold upd. destruct (covers r x) eqn:Ec; [rewrite Hx1; unfold upd; rewrite Ec|]; reflexivity.
Qed.

Lemma idempotent_any h b r : Forall valid_req (h ++ [r]) ->
  all_calls safe_req (fun _ => ABSENT) (h ++ [r]) -> run bl_fresh h = Done b ->
  exists b1 b2, mark b (r_start r) (r_count r) (r_state r) = Done b1 /\
    mark b1 (r_start r) (r_count r) (r_state r) = Done b2 /\
    (forall x, state_of b2 x = state_of b1 x) /\ (forall s, 0 <= s <= 3 -> blocks b2 s = blocks b1 s).
Proof.
  intros Hv Hs Hr. destruct (after_safe h b r Hv Hs Hr) as (HD & Hvr & Hsr).
  destruct (mark_again b r HD Hvr Hsr) as (b1 & b2 & H1 & H2 & HD1 & HD2 & Hx).
  exists b1, b2. split_and!; auto. intros s Hsr'. rewrite !blocks_D by assumption. apply nblocks_ext, Hx.
Qed.

(** ** Locality of one call, whatever its range *)
(** the entries that reach behind [p] are disjoint *)
Definition tail_dis (p : Z) (L : list entry) : Prop := disjoint_l (filter (fun e => p < xend e) L).
Lemma mc_tail p : merge_closed (fun L => Forall ebound L /\ ends_sorted L /\ tail_dis p L).
Proof.
  intros P a q Q Hm (Hbd & He & Ht). split; [apply mc_ebound; assumption|]. split; [apply mc_ends; assumption|].
  pose proof (merge_end a q Hm) as Hme. unfold tail_dis in *. rewrite filter_app, !filter_cons in *. rewrite Hme.
  apply Forall_app in Hbd as [_ Hbd]. inversion Hbd as [|? ? Hba Hbq]; subst. inversion Hbq as [|? ? Hbq' _]; subst.
  unfold ends_sorted in He. rewrite SS_app in He. destruct He as (_ & _ & Hall).
  assert (Haq : xend a <= xend q) by (unfold mergeable, ebound, xend in *; lia).
  destruct (decide (p < xend q)) as [Hq|Hq]; [|destruct (decide (p < xend a)); [lia|exact Ht]].
  unfold disjoint_l in *. destruct (decide (p < xend a)) as [Ha|Ha].
  - rewrite SS_app, !SS_cons in Ht |- *. destruct Ht as (H1 & (H23 & H4) & H5). apply SS_cons in H23 as [H2 H3]. split_and!; auto.
    + eapply Forall_impl; [exact H3|]. cbn. rewrite Hme. auto.
    + eapply Forall_impl; [exact H5|]. cbn. intros x Hx. inversion Hx as [|? ? Hxa Hx']; subst. inversion Hx'; subst. constructor; auto.
  - assert (HP : filter (fun e => p < xend e) P = []).
    { apply elem_of_nil_inv. intros x Hx. apply elem_of_list_filter in Hx as [Hx1 Hx2]. rewrite Forall_forall in Hall. specialize (Hall x Hx2).
      inversion Hall; subst. lia. }
    rewrite HP in *. cbn [app] in *. apply SS_cons in Ht as (H1 & H2). apply SS_cons. split; auto.
    eapply Forall_impl; [exact H2|]. cbn. rewrite Hme. auto.
Qed.
Lemma tail_filter p A B : Forall (fun e => xend e <= p) A -> Forall (fun e => p < xend e) B -> filter (fun e => p < xend e) (A ++ B) = B.
Proof.
  intros HA HB. rewrite filter_app. assert (filter (fun e => p < xend e) A = []) as ->.
  { apply elem_of_nil_inv. intros x Hx. apply elem_of_list_filter in Hx as [Hx1 Hx2]. rewrite Forall_forall in HA. specialize (HA x Hx2). lia. }
  cbn [app]. clear HA. induction HB as [|x l Hx Hl IH]; [reflexivity|]. rewrite filter_cons. destruct (decide _); [rewrite IH; reflexivity|contradiction].
Qed.
Lemma mc_local x v : merge_closed (fun L => Forall ebound L /\ state_in L x = v).
Proof.
  intros P p q Q Hm [Hbd He]. split; [apply mc_ebound; assumption|]. apply Forall_app in Hbd as [HP Hbd]. inversion Hbd as [|? ? Hp Hbq]; subst. inversion Hbq; subst.
  apply state_in_merge; assumption.
Qed.

Lemma mark_internal_local b s c v : WInv b -> tail_dis s (live b) -> ok_piece s c v ->
  exists b', mark_internal b s c v = Done b' /\ WInv b' /\ tail_dis (s + c) (live b') /\
    forall x, x < s \/ s + c <= x -> state_of b' x = state_of b x.
Proof.
  intros HW Ht Hok. destruct (mark_internal_W b s c v HW Hok) as (b' & A & B & C & Hm & HW' & E & E' & HA & HB & HC).
  exists b'. split; [exact Hm|]. split; [exact HW'|].
  destruct HW as (_ & Hbd & He). pose proof He as He2. destruct Hok as (Hs & Hc & Hec & Hv).
  rewrite E, !Forall_app in Hbd. destruct Hbd as (HbA & HbB & HbC).
  assert (HD : disjoint_l (B ++ C)).
  { unfold tail_dis in Ht. rewrite E, tail_filter in Ht; [exact Ht|exact HA|]. apply Forall_app. split; eapply Forall_impl; [exact HB| |exact HC|]; cbn; intros; lia. }
  rewrite E in He2.
  pose proof (left_part_bound s c v A B C Hs Hc Hec Hv HbA HbB HbC HA HB HC) as Hlb.
  pose proof (right_part_bound s c v A B C Hs Hc Hec Hv HbA HbB HbC HA HB HC) as Hrb.
  pose proof (left_part_end s c v A B C Hs Hc Hec Hv HbA HbB HbC HA HB HC) as Hle.
  pose proof (right_part_end s c v A B C Hs Hc Hec Hv HbA HbB HbC HA HB HC) as Hre.
  assert (HrD : disjoint_l (right_part s c B C)).
  { refine (right_disjoint s c v [] B C Hs Hc Hec Hv _ HbB HbC _ HB HC HD); constructor. }
  assert (Hbase : forall n, n = [] \/ (n = [new_of s c v] /\ v <> ABSENT) -> Forall ebound (A ++ left_part s B C ++ n ++ right_part s c B C) /\ ends_sorted (A ++ left_part s B C ++ n ++ right_part s c B C)).
  { intros n Hn. assert (Forall ebound n /\ Forall (fun e => xend e = s + c) n /\ ends_sorted n) as (Hn1 & Hn2 & Hn3).
    { destruct Hn as [->|[-> Hne]]; [repeat constructor|]. split; [|split]; [constructor; [apply new_bound; auto|constructor]|repeat constructor|unfold ends_sorted; repeat constructor]. }
    split; [rewrite !Forall_app; auto|].
    assert (HeC : ends_sorted C /\ ends_sorted A).
    { unfold ends_sorted in *. rewrite !SS_app in He2. tauto. }
    pose proof (right_part_sorted s c v A B C Hs Hc Hec Hv HbA HbB HbC HA HB HC (proj1 HeC)) as Hrs. pose proof (left_part_sorted s c v A B C Hs Hc Hec Hv HbA HbB HbC HA HB HC) as Hls.
    unfold ends_sorted in *. rewrite !SS_app. rewrite Forall_forall in HA, Hle, Hre, Hn2.
    destruct HeC as [_ HeA]. clear Hn. split_and!; auto; rewrite ?Forall_forall; intros x Hx; rewrite Forall_forall; intros y Hy; rewrite ?elem_of_app in Hy;
      repeat (match type of Hy with _ \/ _ => destruct Hy as [Hy|Hy] end);
      repeat match goal with H : _ ∈ A |- _ => apply HA in H | H : _ ∈ left_part _ _ _ |- _ => apply Hle in H | H : _ ∈ right_part _ _ _ _ |- _ => apply Hre in H | H : _ ∈ n |- _ => apply Hn2 in H end; lia. }
  split.
  - rewrite E'. enough (Forall ebound (mark_list s c v A B C) /\ ends_sorted (mark_list s c v A B C) /\ tail_dis (s + c) (mark_list s c v A B C)) by tauto.
    assert (Htl : forall n, n = [] \/ (n = [new_of s c v] /\ v <> ABSENT) -> tail_dis (s + c) (A ++ left_part s B C ++ n ++ right_part s c B C)).
    { intros n Hn. unfold tail_dis. rewrite !app_assoc, tail_filter; [exact HrD| |exact Hre].
      rewrite !Forall_app. split_and!; [eapply Forall_impl; [exact HA|]; cbn; lia|eapply Forall_impl; [exact Hle|]; cbn; lia|].
      destruct Hn as [->|[-> _]]; [constructor|]. repeat constructor. unfold new_of, xend; cbn. lia. }
    apply (mark_list_ind s c v A B C Hs Hc Hec Hv HbA HbB HbC HA HB HC (fun L => Forall ebound L /\ ends_sorted L /\ tail_dis (s + c) L)).
    + apply mc_tail.
    + intros Hne. destruct (Hbase [new_of s c v] ltac:(auto)) as [H1 H2]. split_and!; [exact H1|exact H2|]. exact (Htl [new_of s c v] ltac:(auto)).
    + intros _. destruct (Hbase [] ltac:(auto)) as [H1 H2]. split_and!; [exact H1|exact H2|]. exact (Htl [] ltac:(auto)).
  - intros x Hx. unfold state_of. rewrite E', E.
    enough (Forall ebound (mark_list s c v A B C) /\ state_in (mark_list s c v A B C) x = state_in (A ++ B ++ C) x) by tauto.
    assert (Hst : forall n, n = [] \/ (n = [new_of s c v] /\ v <> ABSENT) -> state_in (A ++ left_part s B C ++ n ++ right_part s c B C) x = state_in (A ++ B ++ C) x).
    { intros n Hn. assert (Forall ebound n /\ state_in n x = ABSENT) as (Hn1 & Hn2).
      { destruct Hn as [->|[-> Hne]]; [split; [constructor|reflexivity]|]. assert (ebound (new_of s c v)) by (apply new_bound; auto).
        split; [constructor; auto|]. rewrite state_in_cons by assumption. unfold new_of, xend. cbn [e_start e_count e_state state_in].
        replace ((_ <=? _) && _) with false by lia. reflexivity. }
      rewrite (state_in_app A) by assumption. rewrite (state_in_app A) by assumption.
      destruct (state_in A x =? ABSENT); [|reflexivity].
      rewrite (state_in_app (left_part s B C)) by assumption. rewrite (state_in_app n) by assumption. rewrite Hn2. rewrite Z.eqb_refl.
      destruct Hx as [Hx|Hx].
      - rewrite <- (state_before s c v [] B C Hs Hc Hec Hv ltac:(constructor) HbB HbC ltac:(constructor) HB HC HD x Hx).
        destruct (Z.eqb_spec (state_in (B ++ C) x) ABSENT) as [Ea|]; [|reflexivity]. rewrite Ea.
        apply state_in_none; [exact Hrb|].
        (* what is right of the piece is hit before it only if it was hit already *)
        apply state_in_absent in Ea; [|apply Forall_app; auto]. apply Forall_app in Ea as [_ EaC].
        destruct (right_part_cases s c v A B C Hs Hc Hec Hv HbA HbB HbC HA HB HC) as [-> | ->]; [exact EaC|].
        destruct C as [|c0 C']; [constructor|]. cbn [trim_right]. inversion EaC; subst. destruct (_ <=? _); constructor; auto. unfold hit, right_of; cbn. lia.
      - assert (Hl0 : state_in (left_part s B C) x = ABSENT).
        { apply state_in_none; [exact Hlb|]. eapply Forall_impl; [exact Hle|]. unfold hit; cbn; intros; lia. }
        rewrite Hl0, Z.eqb_refl. rewrite (state_in_app B) by assumption.
        assert (HB0 : state_in B x = ABSENT).
        { apply state_in_none; [exact HbB|]. eapply Forall_impl; [exact HB|]. unfold hit; cbn; intros; lia. }
        rewrite HB0, Z.eqb_refl.
        destruct (right_part_cases s c v A B C Hs Hc Hec Hv HbA HbB HbC HA HB HC) as [-> | ->]; [reflexivity|].
        refine (state_after s c v [] B C Hs Hc Hec Hv _ HbB HbC _ HB HC HD x Hx); constructor. }
    apply (mark_list_ind s c v A B C Hs Hc Hec Hv HbA HbB HbC HA HB HC (fun L => Forall ebound L /\ state_in L x = state_in (A ++ B ++ C) x)).
    + apply mc_local.
    + intros Hne. split; [apply (Hbase [new_of s c v] ltac:(auto))|]. exact (Hst [new_of s c v] ltac:(auto)).
    + intros _. split; [apply (Hbase [] ltac:(auto))|]. exact (Hst [] ltac:(auto)).
Qed.

Lemma disjoint_filter (P : entry -> Prop) `{forall e, Decision (P e)} L : disjoint_l L -> disjoint_l (filter P L).
Proof.
  unfold disjoint_l. induction 1 as [|x l Hs IH Hall]; [constructor|]. rewrite filter_cons. destruct (decide (P x)); [|exact IH].
  constructor; [exact IH|]. rewrite Forall_forall in *. intros y Hy. apply elem_of_list_filter in Hy as [_ Hy]. auto.
Qed.
Lemma mark_local b r : DInv b -> valid_req r ->
  exists b', mark b (r_start r) (r_count r) (r_state r) = Done b' /\ WInv b' /\
    forall x, ~ (r_start r <= x < r_start r + r_count r) -> state_of b' x = state_of b x.
Proof.
  intros [HW HD] (Hs & Hc & He & Hv).
  destruct (mark_invariant (fun b' p => WInv b' /\ tail_dis p (live b') /\ r_start r <= p /\
      forall x, ~ (r_start r <= x < r_start r + r_count r) -> state_of b' x = state_of b x)
      (r_start r) (r_count r) (r_state r) b Hs Hc He) as (b' & Hm & HW' & _ & _ & Hx).
  - intros b0 s c Hp (HW0 & Ht0 & Hge & Hx0).
    assert (Hok : ok_piece s c (r_state r)) by exact (piece_ok _ _ _ _ _ Hs He Hv Hp).
    destruct (mark_internal_local b0 s c (r_state r) HW0 Ht0 Hok) as (b1 & Hm1 & HW1 & Ht1 & Hx1).
    exists b1. split_and!; auto; [destruct Hp as (k & ? & ? & -> & ->); lia|]. intros x Hx. rewrite Hx1; [apply Hx0; exact Hx|].
    destruct Hp as (k & ? & ? & -> & ->). lia.
  - split_and!; auto; [|lia]. apply disjoint_filter. exact HD.
  - exists b'. split_and!; auto.
Qed.
Lemma after_safe' h b : Forall valid_req h -> all_calls safe_req (fun _ => ABSENT) h -> run bl_fresh h = Done b -> DInv b.
Proof.
  intros Hv Hs Hr. destruct (run_safe h Hv Hs) as (b' & Hr' & HD & _). congruence.
Qed.
Lemma locality_any h b r : Forall valid_req (h ++ [r]) ->
  all_calls safe_req (fun _ => ABSENT) h -> run bl_fresh h = Done b ->
  exists b', mark b (r_start r) (r_count r) (r_state r) = Done b' /\
    forall x, ~ (r_start r <= x < r_start r + r_count r) -> state_of b' x = state_of b x.
Proof.
  intros Hv Hs Hr. apply Forall_app in Hv as [Hv Hvr]. inversion Hvr; subst.
  destruct (mark_local b r (after_safe' h b Hv Hs Hr)) as (b' & Hm & _ & Hx); eauto.
Qed.
