(** Proofs about the blocklist model: structural part.  Every operation is
    related to an operation on the list of live entries. *)
From Coq Require Import Sorted.
From Verif Require Import Prelude Blocklist.
Ltac Zify.zify_post_hook ::= Z.div_mod_to_equations.

(** ** Well-formedness notions *)
Definition xend (e : entry) : Z := e_start e + e_count e.

Definition ebound (e : entry) : Prop :=
  0 <= e_start e /\ 0 <= e_count e <= 65535 /\ xend e < 2 ^ 64 /\ 0 <= e_state e <= 3.

Definition ends_sorted (l : list entry) : Prop :=
  StronglySorted (fun a b => xend a <= xend b) l.

Definition disjoint_l (l : list entry) : Prop :=
  StronglySorted (fun a b => xend a <= e_start b) l.

(** number of blocks recorded for a state *)
Fixpoint total (s : Z) (l : list entry) : Z :=
  match l with
  | [] => 0
  | e :: l => (if e_state e =? s then e_count e else 0) + total s l
  end.

Definition totl (T : Z -> Z) : list Z := [w64 (T 0); w64 (T 1); w64 (T 2); w64 (T 3)].

(** file geometry: sizes are multiples of 4096 bytes *)
Definition okfile (b : bl) : Prop :=
  bl_magic b = magic /\ Z.of_nat (length (bl_slots b)) mod 256 = 224.

Definition rep (b : bl) (L : list entry) (T : Z -> Z) : Prop :=
  live b = L /\ (bl_n b <= length (bl_slots b))%nat /\ bl_cnt b = totl T /\ okfile b.

Lemma e_end_x e : ebound e -> e_end e = xend e.
Proof. unfold ebound, e_end, xend; intros H. apply w64_id. unfold xend in *; lia. Qed.

Lemma contains_x e x : ebound e ->
  contains e x = (e_start e <=? x) && (x <? xend e).
Proof. intros H; unfold contains. rewrite e_end_x by assumption. reflexivity. Qed.

Lemma total_app s l1 l2 : total s (l1 ++ l2) = total s l1 + total s l2.
Proof. induction l1 as [|e l IH]; simpl; lia. Qed.

Lemma total_nonneg s l : Forall ebound l -> 0 <= total s l.
Proof.
  induction 1 as [|e l He Hl IH]; simpl; [lia|].
  destruct (e_state e =? s); unfold ebound in He; lia.
Qed.

(** ** Slot level lemmas *)
Section slots.
  Implicit Types b : bl.

  Lemma rep_n b L T : rep b L T -> bl_n b = length L.
  Proof. intros (HL & Hn & _). rewrite <- HL. unfold live. rewrite take_length. lia. Qed.

  Lemma rep_slots b L T : rep b L T -> bl_slots b = L ++ drop (length L) (bl_slots b).
  Proof.
    intros H. pose proof (rep_n _ _ _ H) as Hn. destruct H as (HL & _).
    rewrite <- HL at 1. unfold live. rewrite <- Hn. symmetry. apply take_drop.
  Qed.

  Lemma rep_intro b L T tl :
    bl_slots b = L ++ tl -> bl_n b = length L -> bl_cnt b = totl T -> okfile b -> rep b L T.
  Proof.
    intros Hs Hn Hc Ho. split_and!; auto.
    - unfold live. rewrite Hs, Hn. apply take_app.
    - rewrite Hs, Hn, app_length. lia.
  Qed.

  Lemma rep_T b L T T' : rep b L T -> (forall s, 0 <= s <= 3 -> T s = T' s) -> rep b L T'.
  Proof.
    intros (H1 & H2 & H3 & H4) HT. split_and!; auto. rewrite H3. unfold totl.
    rewrite !HT by lia. reflexivity.
  Qed.

  Lemma rd_rep b L T i e : rep b L T -> L !! i = Some e -> rd b i = Done e.
  Proof.
    intros H Hi. unfold rd. rewrite (rep_slots _ _ _ H).
    rewrite lookup_app_l by (apply lookup_lt_Some in Hi; assumption). rewrite Hi. reflexivity.
  Qed.

  Lemma wr_rep b L T i e :
    rep b L T -> (i < length L)%nat ->
    exists b', wr b i e = Done b' /\ rep b' (<[i := e]> L) T /\ bl_n b' = bl_n b.
  Proof.
    intros H Hi. pose proof (rep_n _ _ _ H) as Hn. pose proof (rep_slots _ _ _ H) as Hs.
    destruct H as (HL & Hle & Hc & Hm & Ho).
    unfold wr. rewrite (proj2 (Nat.ltb_lt _ _)) by lia.
    eexists; split; [reflexivity|]. split; [|reflexivity].
    apply rep_intro with (tl := drop (length L) (bl_slots b)); cbn [bl_magic bl_slots bl_n bl_cnt].
    - rewrite Hs at 1. apply insert_app_l. assumption.
    - rewrite insert_length; assumption.
    - assumption.
    - split; cbn [bl_magic bl_slots bl_n bl_cnt]; [assumption|]. rewrite insert_length. assumption.
  Qed.

  Lemma bump_l_totl T st d :
    0 <= st <= 3 ->
    bump_l (totl T) st d = Done (totl (fun s => if s =? st then T s + d else T s)).
  Proof.
    intros H. unfold bump_l. rewrite (proj2 (Z.leb_le _ _)) by lia.
    assert (Hst : st = 0 \/ st = 1 \/ st = 2 \/ st = 3) by lia.
    destruct Hst as [ -> | [ -> | [ -> | -> ] ] ]; simpl; unfold totl, w64; simpl;
      rewrite Z.add_mod_idemp_l by lia; reflexivity.
  Qed.

  Lemma bump_rep b L T st d :
    rep b L T -> 0 <= st <= 3 ->
    exists b', bump b st d = Done b' /\
      rep b' L (fun s => if s =? st then T s + d else T s) /\ bl_n b' = bl_n b.
  Proof.
    intros (HL & Hle & Hc & Ho) Hst. unfold bump. rewrite Hc, bump_l_totl by assumption. simpl.
    eexists; split; [reflexivity|]. split; [split_and!|]; auto.
  Qed.

  Lemma unaccount_totl es : forall T,
    Forall ebound es ->
    unaccount (totl T) es = Done (totl (fun s => T s - total s es)).
  Proof.
    induction es as [|e es IH]; intros T H; simpl.
    - f_equal. unfold totl. rewrite !Z.sub_0_r. reflexivity.
    - inversion H as [|? ? He Hes]; subst. unfold ebound in He.
      rewrite bump_l_totl by lia. simpl. rewrite IH by assumption. f_equal.
      assert (Hk : forall k, (if k =? e_state e then T k + - e_count e else T k) - total k es
                        = T k - ((if e_state e =? k then e_count e else 0) + total k es)).
      { intros k. destruct (Z.eqb_spec k (e_state e)), (Z.eqb_spec (e_state e) k); lia. }
      unfold totl. rewrite !Hk. reflexivity.
  Qed.

  Lemma delete_range_rep b P M Q T :
    rep b (P ++ M ++ Q) T -> Forall ebound M ->
    exists b', delete_range b (length P) (length P + length M) = Done b' /\
      rep b' (P ++ Q) (fun s => T s - total s M) /\ bl_n b' = (length P + length Q)%nat.
  Proof.
    intros H HM. pose proof (rep_n _ _ _ H) as Hn. pose proof (rep_slots _ _ _ H) as Hs.
    destruct H as (HL & Hle & Hc & Hm & Ho).
    rewrite !app_length in Hn.
    set (tl := drop (length (P ++ M ++ Q)) (bl_slots b)) in *.
    unfold delete_range, assert_.
    rewrite (proj2 (Nat.leb_le _ _)) by lia.
    rewrite (proj2 (Nat.leb_le _ _)) by lia.
    rewrite (proj2 (Nat.leb_le _ _)) by lia.
    rewrite (proj2 (Nat.leb_le _ _)) by assumption.
    replace (length P + length M - length P)%nat with (length M) by lia.
    replace (bl_n b - (length P + length M))%nat with (length Q) by lia.
    rewrite Hs. rewrite <- !app_assoc.
    rewrite drop_app. rewrite take_app. rewrite Hc, unaccount_totl by assumption. cbn [obind].
    eexists; split; [reflexivity|].
    rewrite take_app.
    replace (drop (length P + length M) (P ++ M ++ Q ++ tl)) with (Q ++ tl).
    2:{ rewrite <- drop_drop. rewrite drop_app. rewrite drop_app. reflexivity. }
    rewrite take_app.
    split; [|cbn [bl_n]; lia].
    apply rep_intro with (tl := drop (length P + length Q) (P ++ M ++ Q ++ tl)); cbn [bl_magic bl_slots bl_n bl_cnt].
    - rewrite <- app_assoc. reflexivity.
    - rewrite app_length. lia.
    - reflexivity.
    - split; cbn [bl_magic bl_slots bl_n bl_cnt]; [assumption|].
      rewrite Hs in Ho. rewrite <- Ho. f_equal.
      rewrite !app_length, drop_length, !app_length. lia.
  Qed.

  Lemma require_space_rep b L T :
    rep b L T ->
    exists b', require_space b = Done b' /\ rep b' L T /\ (length L < length (bl_slots b'))%nat.
  Proof.
    intros H. pose proof (rep_n _ _ _ H) as Hn. pose proof (rep_slots _ _ _ H) as Hs.
    destruct H as (HL & Hle & Hc & Hm & Ho).
    unfold require_space, assert_, capacity.
    destruct (Nat.eqb_spec (length (bl_slots b)) (bl_n b)) as [Heq|Hne]; unfold grow; cbn [bl_magic bl_slots bl_n bl_cnt].
    - rewrite (proj2 (Nat.ltb_lt _ _)) by (rewrite app_length, replicate_length; lia).
      eexists; split; [reflexivity|]. split; [|cbn [bl_slots]; rewrite app_length, replicate_length; lia].
      apply rep_intro with (tl := drop (length L) (bl_slots b) ++ replicate 256 e_zero); cbn [bl_magic bl_slots bl_n bl_cnt]; auto.
      + rewrite app_assoc. rewrite <- Hs. reflexivity.
      + split; cbn [bl_magic bl_slots bl_n bl_cnt]; [assumption|]. rewrite app_length, replicate_length.
        lia.
    - rewrite (proj2 (Nat.ltb_lt _ _)) by lia.
      eexists; split; [reflexivity|]. split; [|lia]. split_and!; auto. split; auto.
  Qed.

  Lemma insert_before_rep b P Q T e :
    rep b (P ++ Q) T ->
    exists b', insert_before b (length P) e = Done b' /\ rep b' (P ++ e :: Q) T.
  Proof.
    intros H. pose proof (rep_n _ _ _ H) as Hn. rewrite app_length in Hn.
    unfold insert_before. rewrite (proj2 (Nat.leb_le _ _)) by lia.
    destruct (require_space_rep _ _ _ H) as (b' & -> & H' & Hlt). simpl.
    pose proof (rep_n _ _ _ H') as Hn'. pose proof (rep_slots _ _ _ H') as Hs'.
    destruct H' as (HL' & Hle' & Hc' & Hm' & Ho').
    set (tl := drop (length (P ++ Q)) (bl_slots b')) in *.
    replace (bl_n b - length P)%nat with (length Q) by lia.
    eexists; split; [reflexivity|].
    rewrite Hs'. rewrite <- app_assoc. rewrite take_app, drop_app, take_app.
    apply rep_intro with (tl := drop (S (bl_n b')) (P ++ Q ++ tl)); cbn [bl_magic bl_slots bl_n bl_cnt].
    - rewrite <- app_assoc. reflexivity.
    - rewrite !app_length in *. simpl. lia.
    - assumption.
    - split; cbn [bl_magic bl_slots bl_n bl_cnt]; [assumption|]. 
      assert (Hlen : length (P ++ e :: Q ++ drop (S (bl_n b')) (P ++ Q ++ tl)) = length (bl_slots b')).
      { rewrite Hs' in Hlt |- *. rewrite Hn', !app_length in *. simpl.
        rewrite app_length, drop_length, !app_length. lia. }
      rewrite Hlen. exact Ho'.
  Qed.
End slots.

(** ** Searching *)
Fixpoint ub (l : list entry) (x : Z) : nat :=
  match l with
  | [] => 0
  | e :: l => if xend e <=? x then S (ub l x) else 0
  end.

Lemma ub_le l x : (ub l x <= length l)%nat.
Proof. induction l as [|e l IH]; simpl; [lia|]. destruct (xend e <=? x); simpl; lia. Qed.

Lemma ub_take l x : Forall (fun e => xend e <= x) (take (ub l x) l).
Proof.
  induction l as [|e l IH]; simpl; [constructor|].
  destruct (Z.leb_spec (xend e) x); simpl; constructor; auto.
Qed.

Lemma ub_drop l x : ends_sorted l -> Forall (fun e => x < xend e) (drop (ub l x) l).
Proof.
  induction 1 as [|e l Hs IH Hall]; simpl; [constructor|].
  destruct (Z.leb_spec (xend e) x); simpl; [assumption|].
  constructor; [assumption|]. eapply Forall_impl; [exact Hall|]. simpl; intros; lia.
Qed.

Lemma ub_mono l x y : x <= y -> (ub l x <= ub l y)%nat.
Proof.
  intros Hxy. induction l as [|e l IH]; simpl; [lia|].
  destruct (Z.leb_spec (xend e) x); destruct (Z.leb_spec (xend e) y); lia.
Qed.

Lemma ub_lt_iff l x i e : ends_sorted l -> l !! i = Some e ->
  ((i < ub l x)%nat <-> xend e <= x).
Proof.
  intros Hs Hi. split; intros H.
  - pose proof (ub_take l x) as Ht. rewrite Forall_lookup in Ht.
    apply (Ht i). rewrite lookup_take by assumption. assumption.
  - destruct (decide (i < ub l x)%nat) as [|Hn]; [assumption|exfalso].
    pose proof (ub_drop l x Hs) as Hd. rewrite Forall_lookup in Hd.
    specialize (Hd (i - ub l x)%nat e). rewrite lookup_drop in Hd.
    replace (ub l x + (i - ub l x))%nat with i in Hd by lia. specialize (Hd Hi). lia.
Qed.

Lemma ub_unique l x i : ends_sorted l -> (i <= length l)%nat ->
  (forall j e, (j < i)%nat -> l !! j = Some e -> xend e <= x) ->
  (forall j e, (i <= j)%nat -> l !! j = Some e -> x < xend e) -> ub l x = i.
Proof.
  intros Hs Hi H1 H2. pose proof (ub_le l x) as Hu.
  destruct (Nat.lt_trichotomy (ub l x) i) as [Hlt|[Heq|Hgt]]; [|assumption|].
  - destruct (lookup_lt_is_Some_2 l (ub l x)) as [e He]; [lia|].
    specialize (H1 _ _ Hlt He). apply (ub_lt_iff l x _ e Hs He) in H1. lia.
  - destruct (lookup_lt_is_Some_2 l i) as [e He]; [lia|].
    specialize (H2 i e ltac:(lia) He). apply (ub_lt_iff l x _ e Hs He) in Hgt. lia.
Qed.

Lemma div2_lt_pos n : (0 < n)%nat -> (Nat.div2 n < n)%nat.
Proof. intros. apply Nat.lt_div2. assumption. Qed.

Lemma ub_loop_correct b L T x : rep b L T -> Forall ebound L -> ends_sorted L ->
  forall fuel first len, (len <= fuel)%nat -> (first + len <= length L)%nat ->
  (first <= ub L x <= first + len)%nat ->
  ub_loop fuel b x first len = Done (ub L x).
Proof.
  intros HR HB HS. induction fuel as [|fuel IH]; intros first len Hf Hl Hu.
  - assert (len = 0)%nat as -> by lia. simpl. f_equal. lia.
  - destruct len as [|len]; [simpl; f_equal; lia|].
    cbn [ub_loop]. pose proof (div2_lt_pos (S len) ltac:(lia)) as Hd.
    set (half := Nat.div2 (S len)) in *.
    destruct (lookup_lt_is_Some_2 L (first + half)%nat) as [e He]; [lia|].
    rewrite (rd_rep _ _ _ _ _ HR He). simpl.
    rewrite Forall_lookup in HB. specialize (HB _ _ He). rewrite e_end_x by assumption.
    pose proof (ub_lt_iff L x _ e HS He) as Hiff.
    destruct (Z.ltb_spec x (xend e)).
    + apply IH; lia.
    + apply IH; lia.
Qed.

Lemma search_rep b L T x : rep b L T -> Forall ebound L -> ends_sorted L ->
  search_entry b x = Done (ub L x).
Proof.
  intros HR HB HS. unfold search_entry. rewrite (rep_n _ _ _ HR).
  eapply ub_loop_correct; eauto; try lia. pose proof (ub_le L x). lia.
Qed.

(** The live list, cut by the two searches of [find_overlapping_entries]. *)
Lemma cut L x y : ends_sorted L -> x <= y ->
  exists A B C, L = A ++ B ++ C /\
    Forall (fun e => xend e <= x) A /\
    Forall (fun e => x < xend e <= y) B /\
    Forall (fun e => y < xend e) C /\
    ub L x = length A /\ ub L y = (length A + length B)%nat.
Proof.
  intros HS Hxy. pose proof (ub_mono L x y Hxy) as Hm.
  pose proof (ub_le L y) as Hle.
  exists (take (ub L x) L), (drop (ub L x) (take (ub L y) L)), (drop (ub L y) L).
  split_and!.
  - assert (Ht : take (ub L x) L ++ drop (ub L x) (take (ub L y) L) = take (ub L y) L).
    { rewrite <- (take_drop (ub L x) (take (ub L y) L)) at 2. f_equal.
      rewrite take_take. f_equal. lia. }
    rewrite app_assoc, Ht, take_drop. reflexivity.
  - apply ub_take.
  - apply Forall_lookup. intros i e Hi. rewrite lookup_drop in Hi.
    apply lookup_take_Some in Hi as [Hi Hlt].
    pose proof (ub_lt_iff L x _ e HS Hi). pose proof (ub_lt_iff L y _ e HS Hi). lia.
  - apply ub_drop. assumption.
  - rewrite take_length. lia.
  - rewrite drop_length, !take_length. lia.
Qed.

(** ** Merging *)
Definition mergeable (p q : entry) : bool :=
  (xend p =? e_start q) && (e_state p =? e_state q) && (e_count p + e_count q <=? 65535).
Definition merge (p q : entry) : entry := mkE (e_start p) (e_count p + e_count q) (e_state p).

Lemma merge_bound p q : ebound p -> ebound q -> mergeable p q = true -> ebound (merge p q).
Proof. unfold ebound, mergeable, merge, xend; simpl; intros; lia. Qed.
Lemma merge_end p q : mergeable p q = true -> xend (merge p q) = xend q.
Proof. unfold mergeable, merge, xend; simpl; intros; lia. Qed.
Lemma merge_total s p q l : mergeable p q = true ->
  total s (merge p q :: l) = total s (p :: q :: l).
Proof.
  intros H. unfold mergeable in H. simpl.
  destruct (Z.eqb_spec (e_state p) s), (Z.eqb_spec (e_state q) s); lia.
Qed.

Lemma try_merge_rep b P p q Q T :
  rep b (P ++ p :: q :: Q) T -> ebound p -> ebound q ->
  if mergeable p q
  then exists b', try_merge_with_previous b (S (length P)) = Done (true, length P, b') /\
                  rep b' (P ++ merge p q :: Q) T
  else try_merge_with_previous b (S (length P)) = Done (false, S (length P), b).
Proof.
  intros HR Hp Hq.
  assert (Hlp : (P ++ p :: q :: Q) !! length P = Some p).
  { rewrite lookup_app_r by lia. rewrite Nat.sub_diag. reflexivity. }
  assert (Hlq : (P ++ p :: q :: Q) !! S (length P) = Some q).
  { rewrite lookup_app_r by lia. replace (S (length P) - length P)%nat with 1%nat by lia. reflexivity. }
  unfold try_merge_with_previous. cbn [Nat.eqb].
  replace (S (length P) - 1)%nat with (length P) by lia.
  rewrite (rd_rep _ _ _ _ _ HR Hlp). cbn [obind].
  rewrite (rd_rep _ _ _ _ _ HR Hlq). cbn [obind].
  rewrite e_end_x by assumption.
  unfold mergeable.
  destruct (Z.eqb_spec (xend p) (e_start q)) as [H1|H1]; simpl; [|reflexivity].
  destruct (Z.eqb_spec (e_state p) (e_state q)) as [H2|H2]; simpl; [|reflexivity].
  destruct (Z.ltb_spec 65535 (e_count p + e_count q)) as [H3|H3].
  - rewrite (proj2 (Z.leb_gt _ _)) by lia. reflexivity.
  - rewrite (proj2 (Z.leb_le _ _)) by lia.
    destruct (wr_rep b _ T (length P) (mkE (e_start p) (e_count p + e_count q) (e_state p)) HR)
      as (b1 & -> & HR1 & Hn1); [rewrite app_length; simpl; lia|]. cbn [obind].
    destruct (bump_rep b1 _ T (e_state p) (e_count q) HR1) as (b2 & -> & HR2 & Hn2);
      [unfold ebound in Hp; lia|]. cbn [obind].
    assert (Heq : <[length P:={| e_start := e_start p; e_count := e_count p + e_count q; e_state := e_state p |}]> (P ++ p :: q :: Q)
            = (P ++ [merge p q]) ++ [q] ++ Q).
    { rewrite insert_app_r_alt by lia. rewrite Nat.sub_diag. simpl. rewrite <- app_assoc. reflexivity. }
    rewrite Heq in HR2.
    unfold delete_entry. pose proof (rep_n _ _ _ HR2) as Hn3. rewrite !app_length in Hn3. simpl in Hn3.
    rewrite (proj2 (Nat.eqb_neq _ _)) by lia.
    destruct (delete_range_rep b2 (P ++ [merge p q]) [q] Q _ HR2) as (b3 & Hd & HR3 & _); [apply Forall_singleton; assumption|].
    rewrite !app_length in Hd. simpl in Hd.
    replace (length P + 1)%nat with (S (length P)) in Hd by lia.
    replace (S (length P) + 1)%nat with (S (S (length P))) in Hd by lia.
    rewrite Hd. cbn [obind]. eexists; split; [reflexivity|].
    rewrite <- app_assoc in HR3. simpl in HR3. eapply rep_T; [exact HR3|].
    intros s Hs. simpl. destruct (Z.eqb_spec s (e_state p)), (Z.eqb_spec (e_state q) s); lia.
Qed.

(** merge with the following entry, then with the preceding one *)
Definition merge_next (e : entry) (Q : list entry) : list entry :=
  match Q with
  | q :: Q' => if mergeable e q then merge e q :: Q' else e :: Q
  | [] => [e]
  end.
Definition merge_prev (P : list entry) (R : list entry) : list entry :=
  match last P, R with
  | Some p, r :: R' => if mergeable p r then removelast P ++ merge p r :: R' else P ++ R
  | _, _ => P ++ R
  end.

Lemma merge_around_rep b P e Q T :
  rep b (P ++ e :: Q) T -> Forall ebound P -> ebound e -> Forall ebound Q ->
  exists b', merge_around b (length P) = Done b' /\
    rep b' (merge_prev P (merge_next e Q)) T.
Proof.
  intros HR HP He HQ. unfold merge_around.
  pose proof (rep_n _ _ _ HR) as Hn. rewrite app_length in Hn. simpl in Hn.
  assert (Hstep : exists b1, 
    (if negb (S (length P) =? bl_n b)%nat then
       dlet (success, merged, b) := try_merge_with_previous b (S (length P)) in
       Done (if success : bool then merged else length P, b)
     else Done (length P, b)) = Done (length P, b1) /\ rep b1 (P ++ merge_next e Q) T).
  { destruct Q as [|q Q'].
    - simpl in Hn. rewrite (proj2 (Nat.eqb_eq _ _)) by lia. simpl. eauto.
    - simpl in Hn. rewrite (proj2 (Nat.eqb_neq _ _)) by lia. cbn [negb].
      inversion HQ as [|? ? Hq HQ']; subst.
      pose proof (try_merge_rep b P e q Q' T HR He Hq) as Hm.
      unfold merge_next. destruct (mergeable e q).
      + destruct Hm as (b1 & -> & HR1). simpl. eauto.
      + rewrite Hm. simpl. eauto. }
  destruct Hstep as (b1 & -> & HR1). cbn [obind].
  assert (Hr : exists r R, merge_next e Q = r :: R /\ ebound r).
  { unfold merge_next. destruct Q as [|q Q']; [eauto|].
    destruct (mergeable e q) eqn:Hm; [|eauto]. eexists _, _; split; [reflexivity|].
    inversion HQ; subst. apply merge_bound; auto. }
  destruct Hr as (r & R & Hr & Hbr). rewrite Hr in *.
  destruct (list_eq_nil_dec P) as [->|HPne].
  { simpl. eexists; split; [reflexivity|]. exact HR1. }
  destruct (exists_last HPne) as (P' & p & ->).
  unfold merge_prev. rewrite last_snoc.
  rewrite app_length. simpl. replace (length P' + 1)%nat with (S (length P')) by lia.
  rewrite <- app_assoc in HR1. simpl in HR1.
  apply Forall_app in HP as [HP' Hp]. inversion Hp as [|? ? Hp1 _]; subst.
  pose proof (try_merge_rep b1 P' p r R T HR1 Hp1 Hbr) as Hm.
  destruct (mergeable p r).
  - destruct Hm as (b2 & -> & HR2). cbn [obind]. eexists; split; [reflexivity|].
    rewrite removelast_last. exact HR2.
  - rewrite Hm. cbn [obind]. eexists; split; [reflexivity|]. rewrite <- app_assoc. exact HR1.
Qed.

(** ** mark_internal *)
Definition left_of (e : entry) (start : Z) : entry := mkE (e_start e) (start - e_start e) (e_state e).
Definition right_of (e : entry) (end_ : Z) : entry := mkE end_ (xend e - end_) (e_state e).
Definition new_of (start count state : Z) : entry := mkE start count state.

Definition trim_right (end_ : Z) (C : list entry) : list entry :=
  match C with
  | c :: C' => if e_start c <=? end_ - 1 then right_of c end_ :: C' else C
  | [] => []
  end.

Definition finish (P : list entry) (start count state : Z) (Q : list entry) : list entry :=
  if state =? ABSENT then P ++ Q else merge_prev P (merge_next (new_of start count state) Q).

Definition newtot (count state s : Z) : Z := if state =? s then count else 0.

Lemma merge_prev_total s P R : total s (merge_prev P R) = total s P + total s R.
Proof.
  unfold merge_prev. destruct (list_eq_nil_dec P) as [->|HP].
  - destruct R; simpl; reflexivity.
  - destruct (exists_last HP) as (P' & p & ->). rewrite last_snoc. destruct R as [|r R].
    + rewrite total_app. reflexivity.
    + destruct (mergeable p r) eqn:Hm; rewrite !total_app; [|reflexivity].
      rewrite removelast_last. rewrite merge_total by assumption. simpl. lia.
Qed.

Lemma merge_next_total s e Q : total s (merge_next e Q) = total s (e :: Q).
Proof.
  unfold merge_next. destruct Q as [|q Q]; [reflexivity|].
  destruct (mergeable e q) eqn:Hm; [|reflexivity]. apply merge_total; assumption.
Qed.

Lemma finish_total s P start count state Q : 0 <= s ->
  total s (finish P start count state Q) = total s P + newtot count state s + total s Q.
Proof.
  intros Hs. unfold finish, newtot. destruct (Z.eqb_spec state ABSENT) as [->|H].
  - rewrite total_app. unfold ABSENT. destruct (Z.eqb_spec (-1) s); lia.
  - rewrite merge_prev_total, merge_next_total. simpl. lia.
Qed.

Section mark.
  Variables (start count state : Z).
  Hypothesis Hs0 : 0 <= start.
  Hypothesis Hc : 1 <= count <= 65535.
  Hypothesis He : start + count < 2 ^ 64.
  Hypothesis Hst : -1 <= state <= 3.
  Let end_ := start + count.

  Lemma w64_end : w64 (start + count) = end_.
  Proof using All. apply w64_id. lia. Qed.
  Lemma w64_end1 : w64 (end_ - 1) = end_ - 1.
  Proof using All. apply w64_id. subst end_; lia. Qed.

  Lemma new_bound : state <> ABSENT -> ebound (new_of start count state).
  Proof using All. unfold ABSENT, ebound, new_of, xend; simpl; lia. Qed.

  Lemma right_bound c : ebound c -> end_ < xend c -> e_start c <= end_ - 1 -> ebound (right_of c end_).
  Proof using All. unfold ebound, right_of, xend; subst end_; simpl; intros; lia. Qed.

  Lemma trim_right_bound C : Forall ebound C -> Forall (fun e => end_ < xend e) C ->
    Forall ebound (trim_right end_ C).
  Proof using All.
    intros HB HE. destruct C as [|c C]; [constructor|]. simpl.
    inversion HB; inversion HE; subst. destruct (Z.leb_spec (e_start c) (end_ - 1)); constructor; auto.
    apply right_bound; auto.
  Qed.

  Lemma mark_trim_end_rep b P c Q T :
    rep b (P ++ c :: Q) T -> ebound c -> end_ < xend c -> e_start c <= end_ - 1 ->
    exists b', mark_trim_end b (length P) end_ = Done b' /\
      rep b' (P ++ right_of c end_ :: Q) (fun s => T s - total s [c] + total s [right_of c end_]).
  Proof using All.
    intros HR Hb Hx Hle. unfold mark_trim_end.
    rewrite (rd_rep _ _ _ (length P) c HR)
      by (rewrite lookup_app_r by lia; rewrite Nat.sub_diag; reflexivity).
    cbn [obind]. rewrite e_end_x by assumption.
    assert (Hw : w16 (xend c - end_) = xend c - end_).
    { apply w16_id. unfold ebound, xend in *. subst end_. lia. }
    rewrite Hw.
    destruct (wr_rep b _ T (length P) (mkE end_ (xend c - end_) (e_state c)) HR) as (b1 & -> & HR1 & Hn1);
      [rewrite app_length; simpl; lia|]. cbn [obind].
    rewrite w64_end1.
    assert (HB' : ebound (right_of c end_)) by (apply right_bound; assumption).
    fold (right_of c end_). unfold assert_.
    rewrite contains_x by assumption. 
    replace (negb _) with true by (unfold right_of; simpl; lia).
    replace (e_count (right_of c end_) <? e_count c) with true
      by (unfold right_of, xend in *; simpl; lia).
    destruct (bump_rep b1 _ T (e_state (right_of c end_)) (- (e_count c - e_count (right_of c end_))) HR1)
      as (b2 & -> & HR2 & _); [unfold ebound in HB'; lia|].
    eexists; split; [reflexivity|].
    replace (<[length P:=right_of c end_]> (P ++ c :: Q)) with (P ++ right_of c end_ :: Q) in HR2
      by (rewrite insert_app_r_alt by lia; rewrite Nat.sub_diag; reflexivity).
    eapply rep_T; [exact HR2|]. intros s Hs. simpl.
    destruct (Z.eqb_spec s (e_state c)), (Z.eqb_spec (e_state c) s); lia.
  Qed.

  Lemma mark_tail_rep b P M Q T so :
    rep b (P ++ M ++ Q) T -> Forall ebound P -> Forall ebound M -> Forall ebound Q ->
    Forall (fun e => end_ < xend e) Q ->
    (P = [] /\ so = bl_n b \/ length P = S so) ->
    exists b',
      mark_tail b so (length P + length M)
        (match Q with q :: _ => e_start q <=? end_ - 1 | [] => false end) start count state = Done b' /\
      rep b' (finish P start count state (trim_right end_ Q))
        (fun s => T s - total s M - total s Q + newtot count state s + total s (trim_right end_ Q)).
  Proof using All.
    intros HR HBP HBM HBQ HQ Hso. unfold mark_tail. rewrite w64_end.
    assert (H1 : exists b1,
      (if match Q with q :: _ => e_start q <=? end_ - 1 | [] => false end
       then mark_trim_end b (length P + length M) end_ else Done b) = Done b1 /\
      rep b1 (P ++ M ++ trim_right end_ Q) (fun s => T s - total s Q + total s (trim_right end_ Q))).
    { destruct Q as [|q Q'].
      - eexists; split; [reflexivity|]. eapply rep_T; [exact HR|]. intros; simpl; lia.
      - simpl. inversion HBQ; inversion HQ; subst.
        destruct (Z.leb_spec (e_start q) (end_ - 1)).
        + rewrite <- app_length. rewrite app_assoc in HR.
          destruct (mark_trim_end_rep _ _ _ _ _ HR) as (b1 & -> & HR1); auto.
          eexists; split; [reflexivity|]. rewrite app_assoc.
          eapply rep_T; [exact HR1|]. intros s _. simpl. lia.
        + eexists; split; [reflexivity|]. eapply rep_T; [exact HR|]. intros s _; simpl; lia. }
    destruct H1 as (b1 & -> & HR1). cbn [obind].
    assert (Hdb : (if (so =? bl_n b1)%nat then 0%nat else S so) = length P).
    { pose proof (rep_n _ _ _ HR) as Hn. pose proof (rep_n _ _ _ HR1) as Hn1.
      assert (length (trim_right end_ Q) = length Q) as Hl.
      { destruct Q as [|q Q']; [reflexivity|]. simpl. destruct (e_start q <=? end_ - 1); reflexivity. }
      rewrite !app_length in Hn, Hn1. rewrite Hl in Hn1.
      destruct Hso as [[-> ->]|HP].
      - simpl in *. rewrite (proj2 (Nat.eqb_eq _ _)) by lia. reflexivity.
      - rewrite (proj2 (Nat.eqb_neq _ _)) by lia. lia. }
    rewrite Hdb.
    destruct (delete_range_rep _ _ _ _ _ HR1 HBM) as (b2 & -> & HR2 & _). cbn [obind].
    unfold finish. destruct (Z.eqb_spec state ABSENT) as [Ha|Ha].
    - eexists; split; [reflexivity|]. eapply rep_T; [exact HR2|].
      intros s Hs. simpl. unfold newtot. destruct (Z.eqb_spec state s); unfold ABSENT in *; lia.
    - assert (Hw : w8 state = state) by (apply w8_id; unfold ABSENT in *; lia). rewrite Hw.
      destruct (insert_before_rep _ _ _ _ (mkE start count state) HR2) as (b3 & -> & HR3). cbn [obind].
      rewrite (rd_rep _ _ _ (length P) (mkE start count state) HR3)
        by (rewrite lookup_app_r by lia; rewrite Nat.sub_diag; reflexivity).
      cbn [obind e_state e_count].
      destruct (bump_rep _ _ _ state count HR3) as (b4 & -> & HR4 & _); [unfold ABSENT in *; lia|].
      cbn [obind].
      destruct (merge_around_rep _ _ _ _ _ HR4) as (b5 & -> & HR5); auto.
      + apply new_bound; assumption.
      + apply trim_right_bound; assumption.
      + eexists; split; [reflexivity|]. eapply rep_T; [exact HR5|].
        intros s Hs. simpl. unfold newtot.
        destruct (Z.eqb_spec s state), (Z.eqb_spec state s); lia.
  Qed.

  Lemma mark_exact_rep b P e M Q T :
    rep b (P ++ e :: M ++ Q) T -> Forall ebound P -> ebound e -> Forall ebound M -> Forall ebound Q ->
    exists b',
      mark_exact b (length P) (S (length P + length M)) e start count state = Done b' /\
      rep b' (finish P start count state Q)
        (fun s => T s - total s (e :: M) + newtot count state s).
  Proof using All.
    intros HR HBP HBe HBM HBQ. unfold mark_exact, finish.
    destruct (Z.eqb_spec state ABSENT) as [Ha|Ha].
    - destruct (delete_range_rep b P (e :: M) Q T HR) as (b1 & Hd & HR1 & _); [constructor; assumption|].
      simpl length in Hd. replace (length P + S (length M))%nat with (S (length P + length M)) in Hd by lia.
      rewrite Hd. eexists; split; [reflexivity|]. eapply rep_T; [exact HR1|].
      intros s Hs. unfold newtot. destruct (Z.eqb_spec state s); unfold ABSENT in *; lia.
    - assert (Hw : w8 state = state) by (apply w8_id; unfold ABSENT in *; lia). rewrite Hw.
      destruct (bump_rep _ _ _ (e_state e) (- e_count e) HR) as (b1 & -> & HR1 & _); [unfold ebound in HBe; lia|].
      cbn [obind].
      destruct (wr_rep b1 _ _ (length P) (mkE start count state) HR1) as (b2 & -> & HR2 & _);
        [rewrite app_length; simpl; lia|]. cbn [obind].
      replace (<[length P:={| e_start := start; e_count := count; e_state := state |}]> (P ++ e :: M ++ Q))
        with ((P ++ [new_of start count state]) ++ M ++ Q) in HR2
        by (rewrite insert_app_r_alt by lia; rewrite Nat.sub_diag; rewrite <- app_assoc; reflexivity).
      destruct (bump_rep _ _ _ state count HR2) as (b3 & -> & HR3 & _); [unfold ABSENT in *; lia|].
      cbn [obind].
      destruct (delete_range_rep _ _ _ _ _ HR3 HBM) as (b4 & Hd & HR4 & _).
      rewrite app_length in Hd. simpl length in Hd.
      replace (length P + 1)%nat with (S (length P)) in Hd by lia.
      replace (S (length P) + length M)%nat with (S (length P + length M)) in Hd by lia.
      rewrite Hd. cbn [obind]. rewrite <- app_assoc in HR4. simpl in HR4.
      destruct (merge_around_rep _ _ _ _ _ HR4) as (b5 & -> & HR5); auto using new_bound.
      eexists; split; [reflexivity|]. eapply rep_T; [exact HR5|].
      intros s Hs. simpl. unfold newtot.
      destruct (Z.eqb_spec s state), (Z.eqb_spec state s); try lia;
        destruct (Z.eqb_spec s (e_state e)), (Z.eqb_spec (e_state e) s); lia.
  Qed.

  Lemma mark_trim_start_rep b P e Q T :
    rep b (P ++ e :: Q) T -> ebound e -> e_start e < start < xend e ->
    exists b', mark_trim_start b (length P) e start = Done b' /\
      rep b' (P ++ left_of e start :: Q) (fun s => T s - total s [e] + total s [left_of e start]).
  Proof using All.
    intros HR Hb Hx. unfold mark_trim_start.
    assert (Hw : w16 (start - e_start e) = start - e_start e).
    { apply w16_id. unfold ebound, xend in *. lia. }
    rewrite Hw. fold (left_of e start).
    destruct (wr_rep b _ T (length P) (left_of e start) HR) as (b1 & -> & HR1 & Hn1);
      [rewrite app_length; simpl; lia|]. cbn [obind].
    assert (HB' : ebound (left_of e start)).
    { unfold ebound, left_of, xend in *; simpl; lia. }
    rewrite e_end_x by assumption. unfold assert_.
    replace (xend (left_of e start) =? start) with true by (unfold left_of, xend; simpl; lia).
    replace (e_count (left_of e start) <? e_count e) with true by (unfold left_of, xend in *; simpl; lia).
    replace (0 <? e_count (left_of e start)) with true by (unfold left_of; simpl; lia).
    destruct (bump_rep b1 _ T (e_state (left_of e start)) (- (e_count e - e_count (left_of e start))) HR1)
      as (b2 & -> & HR2 & _); [unfold ebound in HB'; lia|].
    eexists; split; [reflexivity|].
    replace (<[length P:=left_of e start]> (P ++ e :: Q)) with (P ++ left_of e start :: Q) in HR2
      by (rewrite insert_app_r_alt by lia; rewrite Nat.sub_diag; reflexivity).
    eapply rep_T; [exact HR2|]. intros s Hs. simpl.
    destruct (Z.eqb_spec s (e_state e)), (Z.eqb_spec (e_state e) s); lia.
  Qed.

  Lemma split_entry_rep b P e Q T :
    rep b (P ++ e :: Q) T -> ebound e -> e_start e <= start < xend e ->
    exists b', split_entry b (length P) start = Done b' /\
      rep b' (P ++ left_of e start :: right_of e start :: Q) T.
  Proof using All.
    intros HR Hb Hx. unfold split_entry.
    rewrite (rd_rep _ _ _ (length P) e HR)
      by (rewrite lookup_app_r by lia; rewrite Nat.sub_diag; reflexivity).
    cbn [obind]. rewrite e_end_x by assumption. unfold assert_.
    rewrite (proj2 (Z.leb_le _ _)) by lia. rewrite (proj2 (Z.ltb_lt _ _)) by lia.
    assert (Hw1 : w16 (start - e_start e) = start - e_start e).
    { apply w16_id. unfold ebound, xend in *. lia. }
    assert (Hw2 : w16 (xend e - start) = xend e - start).
    { apply w16_id. unfold ebound, xend in *. lia. }
    rewrite Hw1, Hw2. fold (left_of e start). fold (right_of e start).
    destruct (wr_rep b _ T (length P) (left_of e start) HR) as (b1 & -> & HR1 & Hn1);
      [rewrite app_length; simpl; lia|]. cbn [obind].
    replace (<[length P:=left_of e start]> (P ++ e :: Q)) with ((P ++ [left_of e start]) ++ Q) in HR1
      by (rewrite insert_app_r_alt by lia; rewrite Nat.sub_diag; rewrite <- app_assoc; reflexivity).
    destruct (insert_before_rep _ _ _ _ (right_of e start) HR1) as (b2 & Hi & HR2).
    rewrite app_length in Hi. simpl in Hi. replace (length P + 1)%nat with (S (length P)) in Hi by lia.
    rewrite Hi. cbn [obind]. rewrite <- app_assoc in HR2. simpl in HR2.
    rewrite (rd_rep _ _ _ (length P) (left_of e start) HR2)
      by (rewrite lookup_app_r by lia; rewrite Nat.sub_diag; reflexivity).
    rewrite (rd_rep _ _ _ (S (length P)) (right_of e start) HR2)
      by (rewrite lookup_app_r by lia; replace (S (length P) - length P)%nat with 1%nat by lia; reflexivity).
    cbn [obind].
    assert (HB1 : ebound (left_of e start)) by (unfold ebound, left_of, xend in *; simpl; lia).
    assert (HB2 : ebound (right_of e start)) by (unfold ebound, right_of, xend in *; simpl; lia).
    rewrite !e_end_x by assumption.
    replace (xend (left_of e start) =? start) with true by (unfold left_of, xend; simpl; lia).
    replace (xend (right_of e start) =? xend e) with true by (unfold right_of, xend; simpl; lia).
    replace (e_count (left_of e start) + e_count (right_of e start) =? e_count e) with true
      by (unfold left_of, right_of, xend; simpl; lia).
    eexists; split; [reflexivity|]. exact HR2.
  Qed.

  (** what is left of the first overlapped entry / of the entries behind *)
  Definition left_part (B C : list entry) : list entry :=
    match B ++ C with
    | e :: _ =>
      if e_start e <=? start then
        match B with
        | [] => [left_of e start]
        | b :: _ => if e_start b =? start then [] else [left_of b start]
        end
      else []
    | [] => []
    end.
  Definition right_part (B C : list entry) : list entry :=
    match B with
    | b :: _ => if e_start b =? start then C else trim_right end_ C
    | [] => trim_right end_ C
    end.
End mark.

Definition mark_list (start count state : Z) (A B C : list entry) : list entry :=
  finish (A ++ left_part start B C) start count state (right_part start count B C).


Lemma lookup_mid {X} (P : list X) e Q : (P ++ e :: Q) !! length P = Some e.
Proof. rewrite lookup_app_r by lia. rewrite Nat.sub_diag. reflexivity. Qed.

Lemma rd_mid b P e Q T : rep b (P ++ e :: Q) T -> rd b (length P) = Done e.
Proof. intros H. eapply rd_rep; [exact H|apply lookup_mid]. Qed.

Section mark2.
  Variables (start count state : Z) (b : bl) (A B C : list entry) (T : Z -> Z).
  Hypothesis Hs0 : 0 <= start.
  Hypothesis Hc : 1 <= count <= 65535.
  Hypothesis He : start + count < 2 ^ 64.
  Hypothesis Hst : -1 <= state <= 3.
  Hypothesis HR : rep b (A ++ B ++ C) T.
  Hypothesis HbA : Forall ebound A.
  Hypothesis HbB : Forall ebound B.
  Hypothesis HbC : Forall ebound C.
  Hypothesis HS : ends_sorted (A ++ B ++ C).
  Hypothesis HA : Forall (fun e => xend e <= start) A.
  Hypothesis HB : Forall (fun e => start < xend e <= start + count) B.
  Hypothesis HC : Forall (fun e => start + count < xend e) C.
  Hypothesis Hu1 : ub (A ++ B ++ C) start = length A.
  Hypothesis Hu2 : ub (A ++ B ++ C) (start + count) = (length A + length B)%nat.
  Local Notation end_ := (start + count).

  Lemma HbL : Forall ebound (A ++ B ++ C).
  Proof using All. rewrite !Forall_app; auto. Qed.

  (** the iterator returned for the start of the range *)
  Lemma find_rep :
    exists so, find_overlapping_entries b start count = Done (so, (length A + length B)%nat) /\
      match B ++ C with
      | e :: _ => if e_start e <=? start then so = length A
                  else (A = [] /\ so = bl_n b \/ length A = S so)
      | [] => A = [] /\ so = bl_n b \/ length A = S so
      end.
  Proof using All.
    pose proof (rep_n _ _ _ HR) as Hn. rewrite app_length in Hn.
    unfold find_overlapping_entries. rewrite (w64_end start count state) by assumption.
    destruct (Nat.eqb_spec (bl_n b) 0) as [Hz|Hnz].
    { assert (A = [] /\ B ++ C = []) as (-> & HBC).
      { split; apply length_zero_iff_nil; lia. }
      rewrite HBC. apply app_nil in HBC as [-> ->]. simpl. exists (bl_n b). rewrite Hz. auto. }
    rewrite (search_rep b _ T start HR HbL HS). rewrite Hu1. cbn [obind].
    assert (Hcase : B ++ C = [] \/ exists e R, B ++ C = e :: R) by (destruct (B ++ C); eauto).
    destruct Hcase as [HBC|(e & R & HBC)].
    { rewrite HBC in *. simpl in Hn. rewrite Nat.add_0_r in Hn. rewrite Hn, Nat.eqb_refl.
      apply app_nil in HBC as [HB0 HC0]. rewrite HB0. simpl. rewrite Nat.add_0_r.
      exists (length A - 1)%nat. split; [reflexivity|]. right; lia. }
    rewrite HBC in Hn. simpl in Hn. rewrite (proj2 (Nat.eqb_neq _ _)) by lia.
    assert (Hrd : rd b (length A) = Done e) by (eapply rd_mid; rewrite <- HBC; exact HR).
    rewrite Hrd. cbn [obind].
    assert (Hbe : ebound e /\ start < xend e).
    { assert (Forall ebound (e :: R)) as Hb1 by (rewrite <- HBC; apply Forall_app; auto).
      assert (Forall (fun e => start < xend e) (e :: R)) as Hb2.
      { rewrite <- HBC. apply Forall_app; split; eapply Forall_impl; eauto; simpl; intros; lia. }
      inversion Hb1; inversion Hb2; auto. }
    rewrite contains_x by tauto.
    rewrite (search_rep b _ T (start + count) HR HbL HS), Hu2. cbn [obind]. rewrite HBC.
    destruct (Z.leb_spec (e_start e) start) as [Hle|Hgt].
    - rewrite (proj2 (Z.ltb_lt _ _)) by tauto. simpl. eauto.
    - simpl. destruct (Nat.eqb_spec (length A) 0) as [HA0|HA0].
      + eexists; split; [reflexivity|]. left. apply length_zero_iff_nil in HA0. auto.
      + eexists; split; [reflexivity|]. right. lia.
  Qed.

  Let L' := mark_list start count state A B C.

  (** the case "start is not inside any entry" *)
  Lemma mark_internal_gap :
    match B ++ C with e :: _ => start < e_start e | [] => True end ->
    exists b', mark_internal b start count state = Done b' /\
      rep b' L' (fun s => T s - total s (A ++ B ++ C) + total s L').
  Proof using All.
    intros Hgap. pose proof (rep_n _ _ _ HR) as Hn. rewrite !app_length in Hn.
    destruct find_rep as (so & Hf & Hso).
    assert (Hso' : A = [] /\ so = bl_n b \/ length A = S so).
    { destruct (B ++ C) as [|e R]; [assumption|]. rewrite (proj2 (Z.leb_gt _ _)) in Hso by lia. assumption. }
    clear Hso. unfold mark_internal. rewrite Hf. cbn [obind].
    rewrite (w64_end start count state) by assumption.
    (* case 5 is not taken *)
    assert (H5 : negb (so =? bl_n b)%nat && (so =? length A + length B)%nat = false).
    { destruct Hso' as [[-> ->]|HA']; [rewrite Nat.eqb_refl; reflexivity|].
      rewrite (proj2 (Nat.eqb_neq so (length A + length B))) by lia. apply andb_false_r. }
    rewrite H5. cbn [obind].
    assert (Hsc : (if negb (so =? bl_n b)%nat then dlet e := rd b so in Done (contains e start) else Done false)
                  = Done false).
    { destruct Hso' as [[-> ->]|HA']; [rewrite Nat.eqb_refl; reflexivity|].
      rewrite (proj2 (Nat.eqb_neq so (bl_n b))) by lia. cbn [negb].
      destruct (lookup_lt_is_Some_2 A so) as [a Ha]; [lia|].
      rewrite (rd_rep _ _ _ so a HR) by (rewrite lookup_app_l by lia; assumption). cbn [obind].
      rewrite Forall_lookup in HA, HbA. rewrite contains_x by eauto. pose proof (HA _ _ Ha) as Hx.
      simpl in Hx. f_equal. lia. }
    rewrite Hsc. cbn [obind].
    assert (Hec : (if negb (length A + length B =? bl_n b)%nat
                   then dlet e := rd b (length A + length B) in Done (contains e (w64 (end_ - 1))) else Done false)
                  = Done (match C with q :: _ => e_start q <=? end_ - 1 | [] => false end)).
    { destruct C as [|c C'] eqn:EC.
      - simpl in Hn. rewrite Nat.add_0_r in Hn. rewrite Hn, Nat.eqb_refl. reflexivity.
      - simpl in Hn. rewrite (proj2 (Nat.eqb_neq _ (bl_n b))) by lia. cbn [negb].
        rewrite <- app_length.
        rewrite (rd_mid b (A ++ B) c C' T) by (rewrite <- app_assoc; exact HR). cbn [obind].
        inversion HbC; inversion HC; subst.
        rewrite (w64_end1 start count state) by assumption. rewrite contains_x by assumption.
        f_equal. lia. }
    rewrite Hec. cbn [obind].
    destruct (mark_tail_rep start count state Hs0 Hc He Hst b A B C T so) as (b' & Hd & HR'); auto.
    rewrite Hd. eexists; split; [reflexivity|].
    assert (HL' : L' = finish A start count state (trim_right end_ C)).
    { unfold L', mark_list, left_part, right_part.
      destruct B as [|b0 B0]; simpl.
      - destruct C as [|c C0]; simpl; [rewrite app_nil_r; reflexivity|].
        simpl in Hgap. rewrite (proj2 (Z.leb_gt _ _)) by lia. rewrite app_nil_r. reflexivity.
      - simpl in Hgap. rewrite (proj2 (Z.leb_gt _ _)) by lia. rewrite (proj2 (Z.eqb_neq _ _)) by lia.
        rewrite app_nil_r. reflexivity. }
    rewrite HL'. eapply rep_T; [exact HR'|]. intros s Hs.
    rewrite finish_total by lia. rewrite !total_app. lia.
  Qed.

  (** the case "start lies in an entry that ends behind the range" *)
  Lemma mark_internal_inside c C' :
    B = [] -> C = c :: C' -> e_start c <= start ->
    exists b', mark_internal b start count state = Done b' /\
      rep b' L' (fun s => T s - total s (A ++ B ++ C) + total s L').
  Proof using All.
    intros HB0 HC0 Hle. pose proof (rep_n _ _ _ HR) as Hn. rewrite !app_length in Hn.
    destruct find_rep as (so & Hf & Hso). rewrite HB0, HC0 in Hso. simpl in Hso.
    rewrite (proj2 (Z.leb_le _ _)) in Hso by lia. subst so.
    unfold mark_internal. rewrite Hf. cbn [obind].
    rewrite (w64_end start count state) by assumption.
    rewrite HB0, HC0 in Hn. simpl in Hn.
    replace (length A + length B)%nat with (length A) by (rewrite HB0; simpl; lia).
    rewrite Nat.eqb_refl. rewrite (proj2 (Nat.eqb_neq (length A) (bl_n b))) by lia. cbn [negb andb].
    assert (Hbc : ebound c /\ start + count < xend c).
    { rewrite HC0 in HbC, HC. inversion HbC; inversion HC; auto. }
    destruct Hbc as [Hbc Hxc].
    assert (HR0 : rep b (A ++ c :: C') T) by (rewrite HB0, HC0 in HR; exact HR).
    destruct (split_entry_rep start count state Hs0 Hc He Hst b A c C' T HR0 Hbc) as (b1 & -> & HR1); [lia|].
    cbn [obind].
    pose proof (rep_n _ _ _ HR1) as Hn1. rewrite app_length in Hn1. simpl in Hn1.
    rewrite (proj2 (Nat.eqb_neq (length A) (bl_n b1))) by lia. cbn [negb].
    rewrite (rd_mid _ _ _ _ _ HR1). cbn [obind].
    assert (HB1 : ebound (left_of c start)) by (unfold ebound, left_of, xend in *; simpl; lia).
    assert (HB2 : ebound (right_of c start)) by (unfold ebound, right_of, xend in *; simpl; lia).
    assert (HX1 : xend (left_of c start) = start) by (unfold left_of, xend; simpl; lia).
    assert (HX2 : xend (right_of c start) = xend c) by (unfold right_of, xend; simpl; lia).
    rewrite contains_x by assumption. rewrite HX1.
    replace ((_ <=? start) && (start <? start)) with false by lia.
    rewrite (proj2 (Nat.eqb_neq (S (length A)) (bl_n b1))) by lia. cbn [negb].
    assert (HR1' : rep b1 ((A ++ [left_of c start]) ++ right_of c start :: C') T)
      by (rewrite <- app_assoc; exact HR1).
    assert (Hlen : length (A ++ [left_of c start]) = S (length A)) by (rewrite app_length; simpl; lia).
    pose proof (rd_mid _ _ _ _ _ HR1') as Hrd. rewrite Hlen in Hrd. rewrite Hrd. cbn [obind].
    rewrite contains_x by assumption. rewrite HX2.
    rewrite (w64_end1 start count state) by assumption.
    destruct (mark_tail_rep start count state Hs0 Hc He Hst b1 (A ++ [left_of c start]) []
                (right_of c start :: C') T (length A)) as (b' & Hd & HR').
    { exact HR1'. }
    { apply Forall_app; split; [assumption|]. apply Forall_singleton; assumption. }
    { constructor. }
    { rewrite HC0 in HbC. inversion HbC; constructor; auto. }
    { rewrite HC0 in HC. inversion HC; subst. constructor; auto. rewrite HX2. assumption. }
    { right. assumption. }
    rewrite Hlen in Hd. simpl length in Hd. rewrite Nat.add_0_r in Hd.
    cbv beta iota in Hd.
    replace ((e_start (right_of c start) <=? end_ - 1) && (end_ - 1 <? xend c))
      with (e_start (right_of c start) <=? end_ - 1) by (simpl; lia).
    rewrite Hd. eexists; split; [reflexivity|].
    assert (Htr : trim_right end_ (right_of c start :: C') = right_of c end_ :: C').
    { simpl. rewrite (proj2 (Z.leb_le _ _)) by lia. unfold right_of at 1. rewrite HX2. reflexivity. }
    assert (HL' : L' = finish (A ++ [left_of c start]) start count state (trim_right end_ (right_of c start :: C'))).
    { rewrite Htr. unfold L', mark_list, left_part, right_part. rewrite HB0, HC0. simpl.
      rewrite (proj2 (Z.leb_le _ _)) by lia. rewrite (proj2 (Z.leb_le _ _)) by (lia). reflexivity. }
    rewrite HL'. eapply rep_T; [exact HR'|]. intros s Hs.
    rewrite finish_total by lia. rewrite !total_app. rewrite HB0, HC0. simpl.
    destruct (Z.eqb_spec (e_state c) s); unfold xend in *; simpl; lia.
  Qed.

  (** the case "start lies in an entry that ends inside the range" *)
  Lemma mark_internal_overlap e B' :
    B = e :: B' -> e_start e <= start ->
    exists b', mark_internal b start count state = Done b' /\
      rep b' L' (fun s => T s - total s (A ++ B ++ C) + total s L').
  Proof using All.
    intros HB0 Hle. pose proof (rep_n _ _ _ HR) as Hn. rewrite !app_length in Hn.
    destruct find_rep as (so & Hf & Hso). rewrite HB0 in Hso. simpl in Hso.
    rewrite (proj2 (Z.leb_le _ _)) in Hso by lia. subst so.
    unfold mark_internal. rewrite Hf. cbn [obind].
    rewrite (w64_end start count state) by assumption.
    rewrite HB0 in Hn. simpl in Hn.
    rewrite (proj2 (Nat.eqb_neq (length A) (length A + length B))) by (rewrite HB0; simpl; lia).
    rewrite (proj2 (Nat.eqb_neq (length A) (bl_n b))) by lia. cbn [negb andb obind].
    rewrite (proj2 (Nat.eqb_neq (length A) (bl_n b))) by lia. cbn [negb].
    assert (HR0 : rep b (A ++ e :: B' ++ C) T) by (rewrite HB0 in HR; exact HR).
    rewrite (rd_mid _ _ _ _ _ HR0). cbn [obind].
    assert (Hbe : ebound e /\ start < xend e <= start + count).
    { rewrite HB0 in HbB, HB. inversion HbB; inversion HB; auto. }
    destruct Hbe as [Hbe Hxe].
    assert (HbB' : Forall ebound B') by (rewrite HB0 in HbB; inversion HbB; assumption).
    rewrite contains_x by assumption.
    replace ((_ <=? start) && (start <? _)) with true by lia.
    set (ec := match C with q :: _ => e_start q <=? end_ - 1 | [] => false end).
    assert (Hec : (if negb (length A + length B =? bl_n b)%nat
                   then dlet e := rd b (length A + length B) in Done (contains e (w64 (end_ - 1))) else Done false)
                  = Done ec).
    { subst ec. destruct C as [|c C'] eqn:EC.
      - simpl in Hn. rewrite (proj2 (Nat.eqb_eq _ (bl_n b))) by (rewrite HB0; simpl; lia). reflexivity.
      - simpl in Hn. rewrite (proj2 (Nat.eqb_neq _ (bl_n b))) by (rewrite HB0; simpl; lia). cbn [negb].
        rewrite <- app_length.
        rewrite (rd_mid b (A ++ B) c C' T) by (rewrite <- app_assoc; exact HR). cbn [obind].
        inversion HbC; inversion HC; subst.
        rewrite (w64_end1 start count state) by assumption. rewrite contains_x by assumption.
        f_equal. lia. }
    rewrite Hec. cbn [obind].
    destruct (Z.eqb_spec (e_start e) start) as [Hex|Hex].
    - (* exact *)
      rewrite (proj2 (Z.leb_le _ _)) by (unfold xend in Hxe; lia). cbn [andb].
      destruct (mark_exact_rep start count state Hs0 Hc He Hst b A e B' C T) as (b' & Hd & HR'); auto.
      replace (length A + length B)%nat with (S (length A + length B')) by (rewrite HB0; simpl; lia).
      rewrite Hd. eexists; split; [reflexivity|].
      assert (HL' : L' = finish A start count state C).
      { unfold L', mark_list, left_part, right_part. rewrite HB0. simpl.
        rewrite (proj2 (Z.leb_le _ _)) by lia. rewrite (proj2 (Z.eqb_eq _ _)) by assumption.
        rewrite app_nil_r. reflexivity. }
      rewrite HL'. eapply rep_T; [exact HR'|]. intros s Hs.
      rewrite finish_total by lia. rewrite !total_app, HB0. simpl. lia.
    - cbn [andb].
      destruct (mark_trim_start_rep start count state Hs0 Hc He Hst b A e (B' ++ C) T HR0 Hbe) as (b1 & -> & HR1); [lia|].
      cbn [obind].
      assert (HB1 : ebound (left_of e start)) by (unfold ebound, left_of, xend in *; simpl; lia).
      assert (Hlen : length (A ++ [left_of e start]) = S (length A)) by (rewrite app_length; simpl; lia).
      destruct (mark_tail_rep start count state Hs0 Hc He Hst b1 (A ++ [left_of e start]) B' C
                  _ (length A) ltac:(rewrite <- app_assoc; exact HR1)) as (b' & Hd & HR'); auto.
      { apply Forall_app; split; [assumption|]. apply Forall_singleton; assumption. }
      rewrite Hlen in Hd. 
      replace (length A + length B)%nat with (S (length A) + length B')%nat by (rewrite HB0; simpl; lia).
      fold ec in Hd. rewrite Hd. eexists; split; [reflexivity|].
      assert (HL' : L' = finish (A ++ [left_of e start]) start count state (trim_right end_ C)).
      { unfold L', mark_list, left_part, right_part. rewrite HB0. simpl.
        rewrite (proj2 (Z.leb_le _ _)) by lia. rewrite (proj2 (Z.eqb_neq _ _)) by assumption. reflexivity. }
      rewrite HL'. eapply rep_T; [exact HR'|]. intros s Hs.
      rewrite finish_total by lia. rewrite !total_app, HB0. simpl. lia.
  Qed.

  Lemma mark_internal_rep :
    exists b', mark_internal b start count state = Done b' /\
      rep b' L' (fun s => T s - total s (A ++ B ++ C) + total s L').
  Proof using All.
    assert (HcB : B = [] \/ exists e B', B = e :: B') by (destruct B; eauto).
    assert (HcC : C = [] \/ exists c C', C = c :: C') by (destruct C; eauto).
    destruct HcB as [HB0|(e & B' & HB0)].
    - destruct HcC as [HC0|(c & C' & HC0)].
      + apply mark_internal_gap. rewrite HB0, HC0. exact I.
      + destruct (Z.leb_spec (e_start c) start).
        * eapply mark_internal_inside; eauto.
        * apply mark_internal_gap. rewrite HB0, HC0. simpl. assumption.
    - destruct (Z.leb_spec (e_start e) start).
      + eapply mark_internal_overlap; eauto.
      + apply mark_internal_gap. rewrite HB0. simpl. assumption.
  Qed.
End mark2.
