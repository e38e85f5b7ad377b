(** Proofs about the blocklist model: fsck, shrink, truncate_access, growth. *)
From Coq Require Import Sorted.
From Verif Require Import Prelude Blocklist BlocklistSpec BlocklistProofs BlocklistSem BlocklistMain.
Ltac Zify.zify_post_hook ::= Z.div_mod_to_equations.

(** ** shrink *)
Lemma shrink_W b : WInv b ->
  exists b', shrink b = Done b' /\ WInv b' /\ live b' = live b /\ bl_cnt b' = bl_cnt b /\ bl_n b' = bl_n b.
Proof.
  intros HW. pose proof HW as (HR & HB & HS). pose proof (rep_n _ _ _ HR) as Hn.
  destruct HR as (_ & Hle & Hc & Hm & Hok).
  unfold shrink, file_size.
  set (len := Z.of_nat (length (bl_slots b))) in *.
  assert (Hln : 0 <= len) by lia.
  destruct (Z.leb_spec ((512 + 16 * len) / 4096) 1); [exists b; auto|].
  destruct (Z.eqb_spec ((512 + Z.of_nat (bl_n b) * 16 + 4096 - 1) / 4096) ((512 + 16 * len) / 4096)); [exists b; auto|].
  set (rq := (512 + Z.of_nat (bl_n b) * 16 + 4096 - 1) / 4096) in *.
  assert (Hrq : rq * 4096 < 512 + 16 * len) by lia.
  assert (Hcap : Z.of_nat (bl_n b) <= (rq * 4096 - 512) / 16) by lia.
  unfold assert_. rewrite (proj2 (Z.ltb_lt _ _)) by assumption. rewrite (proj2 (Z.leb_le _ _)) by assumption.
  eexists; split; [reflexivity|].
  set (nc := Z.to_nat ((rq * 4096 - 512) / 16)).
  assert (Hnc : (bl_n b <= nc)%nat) by (subst nc; lia).
  assert (Hlive : take (bl_n b) (take nc (bl_slots b)) = live b).
  { rewrite take_take. unfold live. f_equal. lia. }
  split_and!; auto.
  apply WInv_intro with (L := live b); auto.
  split_and!; cbn [bl_n bl_slots bl_cnt bl_magic]; auto.
  - rewrite take_length. lia.
  - split; cbn [bl_n bl_slots bl_cnt bl_magic]; auto. rewrite take_length. subst nc len. lia.
Qed.

Lemma shrink_capacity b b' : WInv b -> shrink b = Done b' -> 
  (bl_n b' <= capacity b')%nat /\ (capacity b' <= capacity b)%nat /\ 
  Z.of_nat (capacity b') <= Z.of_nat (bl_n b') + 479.
Proof.
  intros HW Hs. pose proof HW as (HR & HB & HS).
  destruct HR as (_ & Hle & Hc & Hm & Hok). revert Hs.
  unfold shrink, file_size, capacity.
  set (len := Z.of_nat (length (bl_slots b))) in *.
  destruct (Z.leb_spec ((512 + 16 * len) / 4096) 1) as [H1|H1].
  { intros [= <-]. subst len. lia. }
  destruct (Z.eqb_spec ((512 + Z.of_nat (bl_n b) * 16 + 4096 - 1) / 4096) ((512 + 16 * len) / 4096)) as [H2|H2].
  { intros [= <-]. subst len. lia. }
  unfold assert_. destruct (_ <? _) eqn:E1; [|discriminate]. destruct (_ <=? _) eqn:E2; [|discriminate].
  intros [= <-]. cbn [bl_slots bl_n]. rewrite take_length. subst len. lia.
Qed.

(** ** fsck *)
Definition clean (L : list entry) : Prop := disjoint_l L /\ Forall pos L.

Fixpoint cleanb (pe : Z) (L : list entry) : bool :=
  match L with
  | [] => true
  | e :: L => (pe <=? e_start e) && (0 <? e_count e) && cleanb (xend e) L
  end.

Lemma cleanb_spec L : Forall ebound L -> forall pe,
  cleanb pe L = true <-> (clean L /\ Forall (fun e => pe <= e_start e) L).
Proof.
  induction 1 as [|e L He HL IH]; intros pe.
  - simpl. split; [|auto]. intros _. split; [split; constructor|constructor].
  - cbn [cleanb]. rewrite !andb_true_iff, IH. unfold clean, disjoint_l. rewrite SS_cons, !Forall_cons.
    unfold pos. unfold ebound, xend in *. split.
    + intros ((H1 & H2) & (H3 & H4) & H5). split_and!; auto; try lia.
      eapply Forall_impl; [exact H5|]. simpl; intros; lia.
    + intros (((H1 & H2) & H3 & H4) & H5 & H6). split_and!; auto; lia.
Qed.

Lemma fsck_loop_spec L : Forall ebound L -> forall pe ps T, ps <= pe ->
  fsck_loop L pe ps (totl T) =
  if cleanb pe L then Done (totl (fun s => T s + total s L)) else Throw.
Proof.
  induction 1 as [|e L He HL IH]; intros pe ps T Hp; cbn [fsck_loop cleanb].
  - f_equal. unfold totl, total. rewrite !Z.add_0_r. reflexivity.
  - destruct (Z.ltb_spec (e_start e) pe); destruct (Z.leb_spec pe (e_start e)); try lia; cbn [andb]; [reflexivity|].
    rewrite (proj2 (Z.ltb_ge (e_start e) ps)) by lia.
    destruct (Z.eqb_spec (e_count e) 0); destruct (Z.ltb_spec 0 (e_count e)); unfold ebound in He; try lia; cbn [andb]; [reflexivity|].
    rewrite bump_l_totl by lia. cbn [obind]. rewrite e_end_x by (unfold ebound; lia).
    rewrite IH by (unfold xend; lia). destruct (cleanb (xend e) L); [|reflexivity]. f_equal.
    assert (Hk : forall k, (if k =? e_state e then T k + e_count e else T k) + total k L = T k + total k (e :: L)).
    { intros k. cbn [total]. destruct (Z.eqb_spec k (e_state e)), (Z.eqb_spec (e_state e) k); lia. }
    unfold totl. rewrite !Hk. reflexivity.
Qed.

Lemma fsck_W b : WInv b ->
  if cleanb 0 (live b)
  then exists b', fsck b = Done b' /\ WInv b' /\ live b' = live b /\ bl_cnt b' = bl_cnt b /\ bl_n b' = bl_n b
  else fsck b = Throw.
Proof.
  intros HW. pose proof (w64_total b HW) as Hc. pose proof HW as (_ & HB & _).
  unfold fsck. change [0; 0; 0; 0] with (totl (fun _ => 0)).
  rewrite fsck_loop_spec by (assumption || lia).
  destruct (cleanb 0 (live b)); [|reflexivity]. cbn [obind].
  rewrite bool_decide_true by (rewrite Hc; unfold totl; reflexivity).
  apply shrink_W; assumption.
Qed.

Lemma clean_cleanb L : Forall ebound L -> cleanb 0 L = true <-> clean L.
Proof.
  intros HB. rewrite cleanb_spec by assumption. split; [tauto|]. intros H; split; [assumption|].
  eapply Forall_impl; [exact HB|]. unfold ebound; simpl; intros; lia.
Qed.

(** ** empty runs *)
Definition zero_pat (start count state : Z) (L : list entry) : Prop :=
  exists e, In e L /\ e_start e = start /\ start + count < xend e /\ e_state e <> state.

Lemma mc_pos : merge_closed (Forall pos).
Proof.
  intros P p q Q Hm H. apply Forall_app in H as [HP H].
  inversion H as [|? ? Hp H']; subst. inversion H'; subst.
  apply Forall_app; split; [assumption|]. constructor; [unfold pos, merge in *; simpl; lia|assumption].
Qed.

Section zero.
  Variables (start count state : Z) (A B C : list entry).
  Hypothesis Hs0 : 0 <= start.
  Hypothesis Hc : 1 <= count <= 65535.
  Hypothesis He : start + count < 2 ^ 64.
  Hypothesis Hst : -1 <= state <= 3.
  Hypothesis HbA : Forall ebound A.
  Hypothesis HbB : Forall ebound B.
  Hypothesis HbC : Forall ebound C.
  Hypothesis HA : Forall (fun e => xend e <= start) A.
  Hypothesis HB : Forall (fun e => start < xend e <= start + count) B.
  Hypothesis HC : Forall (fun e => start + count < xend e) C.
  Local Notation end_ := (start + count).

  Lemma trim_right_pos : Forall pos C -> Forall pos (trim_right end_ C).
  Proof using HC HbC.
    intros HP. destruct C as [|c C']; [constructor|]. simpl. inversion HP; inversion HC; subst.
    destruct (_ <=? _); constructor; auto. unfold pos, right_of; simpl. lia.
  Qed.

  Lemma mark_list_pos : Forall pos (A ++ B ++ C) -> ~ zero_pat start count state (A ++ B ++ C) ->
    Forall pos (mark_list start count state A B C).
  Proof using All.
    intros HP Hnz. rewrite !Forall_app in HP. destruct HP as (HPA & HPB & HPC).
    assert (HRP : Forall pos (right_part start count B C)).
    { unfold right_part. destruct B as [|b B']; [apply trim_right_pos; assumption|].
      destruct (_ =? _); [assumption|apply trim_right_pos; assumption]. }
    assert (Hgood : Forall pos (left_part start B C) -> Forall pos (mark_list start count state A B C)).
    { intros HLP. apply mark_list_ind; auto; [apply mc_pos| |]; intros; rewrite !Forall_app, ?Forall_cons;
        split_and!; auto. unfold pos, new_of; simpl; lia. }
    destruct (left_part_spec start count state A B C) as [E|(e & Hin & Hhd & Hx & E & Hne)]; auto.
    { apply Hgood. rewrite E. constructor. }
    destruct (Z.eq_dec (e_start e) start) as [Es|Es].
    2:{ apply Hgood. rewrite E. apply Forall_singleton. unfold pos, left_of; simpl. lia. }
    (* the range starts with a run: only case 5 *)
    assert (HB0 : B = []) by (destruct B; [reflexivity|]; specialize (Hne ltac:(discriminate)); lia).
    subst B. simpl in Hin, Hhd. destruct C as [|c C']; [discriminate|]. simpl in Hhd. injection Hhd as ->.
    inversion HC as [|? ? Hxe HC']; subst. inversion HbC as [|? ? Hbe HbC']; subst.
    inversion HPC as [|? ? Hpe HPC']; subst.
    assert (Hse : e_state e = state).
    { destruct (Z.eq_dec (e_state e) state); [assumption|]. exfalso. apply Hnz. exists e. split_and!; auto.
      apply in_app_iff. right. simpl. auto. }
    assert (Hres : mark_list (e_start e) count state A [] (e :: C') = A ++ e :: C').
    { unfold mark_list, right_part. rewrite E. simpl.
      rewrite (proj2 (Z.leb_le _ _)) by lia. unfold finish.
      rewrite (proj2 (Z.eqb_neq _ _)) by (unfold ABSENT, ebound in *; lia).
      unfold merge_next.
      assert (Hm1 : mergeable (new_of (e_start e) count state) (right_of e (e_start e + count)) = true).
      { unfold mergeable, new_of, right_of, xend, ebound in *; simpl. lia. }
      rewrite Hm1. 
      assert (Hme : merge (new_of (e_start e) count state) (right_of e (e_start e + count)) = e).
      { unfold merge, new_of, right_of, xend; simpl. destruct e as [es ec est]; simpl in *. f_equal; lia. }
      rewrite Hme. unfold merge_prev. rewrite last_snoc.
      assert (Hm2 : mergeable (left_of e (e_start e)) e = true).
      { unfold mergeable, left_of, xend, ebound in *; simpl. lia. }
      rewrite Hm2, removelast_last. f_equal. f_equal.
      unfold merge, left_of; simpl. destruct e; simpl in *; f_equal; lia. }
    rewrite Hres. rewrite Forall_app, Forall_cons. auto.
  Qed.

  (** an empty run really stays behind *)
  Lemma mark_list_zero : disjoint_l (A ++ B ++ C) -> zero_pat start count state (A ++ B ++ C) ->
    ~ Forall pos (mark_list start count state A B C).
  Proof using All.
    intros HD (e & Hin & Es & Hx & Hse) HP.
    assert (HinC : In e C).
    { apply in_app_iff in Hin as [Hin|Hin].
      - rewrite Forall_forall in HA. specialize (HA e (proj2 (elem_of_list_In _ _) Hin)). lia.
      - apply in_app_iff in Hin as [Hin|Hin]; [|assumption].
        rewrite Forall_forall in HB. specialize (HB e (proj2 (elem_of_list_In _ _) Hin)). lia. }
    assert (Hhd : B = [] /\ exists C', C = e :: C').
    { assert (Hcase : B ++ C = [] \/ exists h R, B ++ C = h :: R) by (destruct (B ++ C); eauto).
      destruct Hcase as [E|(h & R & E)].
      { apply app_nil in E as [_ ->]. destruct HinC. }
      assert (HinR : In e (B ++ C)) by (apply in_app_iff; auto).
      pose proof (head_starts A B C HD h R E) as Hhs.
      assert (Hxh : start < xend h).
      { assert (Forall (fun e => start < xend e) (B ++ C)) as Hb2.
        { apply Forall_app; split; eapply Forall_impl; eauto; simpl; intros; lia. }
        rewrite E in Hb2. inversion Hb2; assumption. }
      rewrite E in HinR. destruct HinR as [->|HinR].
      - destruct B as [|b B'].
        + simpl in E. eauto.
        + simpl in E. injection E as -> _. inversion HB; subst. lia.
      - rewrite Forall_forall in Hhs. specialize (Hhs e (proj2 (elem_of_list_In _ _) HinR)). lia. }
    destruct Hhd as (-> & C' & ->). inversion HbC as [|? ? Hbe HbC']; subst.
    assert (Hz : In (left_of e (e_start e)) (mark_list (e_start e) count state A [] (e :: C'))).
    { unfold mark_list, left_part, right_part. simpl.
      rewrite (proj2 (Z.leb_le (e_start e) (e_start e))) by lia.
      rewrite (proj2 (Z.leb_le (e_start e) (e_start e + count - 1))) by lia.
      unfold finish. destruct (Z.eqb_spec state ABSENT) as [Ha|Ha].
      - apply in_app_iff. left. apply in_app_iff. right. left. reflexivity.
      - assert (Hm1 : mergeable (new_of (e_start e) count state) (right_of e (e_start e + count)) = false).
        { unfold mergeable, new_of, right_of; simpl. lia. }
        unfold merge_next. rewrite Hm1. unfold merge_prev. rewrite last_snoc.
        assert (Hm2 : mergeable (left_of e (e_start e)) (new_of (e_start e) count state) = false).
        { unfold mergeable, new_of, left_of; simpl. lia. }
        rewrite Hm2. apply in_app_iff. left. apply in_app_iff. right. left. reflexivity. }
    rewrite Forall_forall in HP. specialize (HP _ (proj2 (elem_of_list_In _ _) Hz)).
    unfold pos, left_of in HP; simpl in HP. lia.
  Qed.

  (** what happens in the mishandled pattern *)
  Lemma mark_list_bad : disjoint_l (A ++ B ++ C) -> bad_overlap start count (A ++ B ++ C) ->
    (state = ABSENT -> state_in (mark_list start count state A B C) (end_ - 1) <> ABSENT) /\
    (state <> ABSENT -> ~ disjoint_l (mark_list start count state A B C)).
  Proof using All.
    intros HD (e1 & e2 & H1 & H2 & Es & Hx1 & Hx2).
    (* e1 is the head of B, e2 the head of C *)
    assert (Hb : exists B', B = e1 :: B').
    { assert (Hin : In e1 B).
      { apply in_app_iff in H1 as [Hin|Hin].
        - rewrite Forall_forall in HA. specialize (HA e1 (proj2 (elem_of_list_In _ _) Hin)). lia.
        - apply in_app_iff in Hin as [Hin|Hin]; [assumption|].
          rewrite Forall_forall in HC. specialize (HC e1 (proj2 (elem_of_list_In _ _) Hin)). lia. }
      destruct B as [|b B']; [destruct Hin|]. destruct Hin as [->|Hin]; [eauto|].
      pose proof (head_starts A (b :: B') C HD b (B' ++ C) eq_refl) as Hhs.
      rewrite Forall_forall in Hhs. specialize (Hhs e1).
      assert (e1 ∈ B' ++ C) as Hel by (apply elem_of_app; left; apply elem_of_list_In; assumption).
      specialize (Hhs Hel). inversion HB; subst. simpl in Hhs. lia. }
    destruct Hb as (B' & ->).
    assert (Hcc : exists C', C = e2 :: C').
    { assert (Hin : In e2 C).
      { apply in_app_iff in H2 as [Hin|Hin].
        - rewrite Forall_forall in HA. specialize (HA e2 (proj2 (elem_of_list_In _ _) Hin)). lia.
        - apply in_app_iff in Hin as [Hin|Hin]; [|assumption].
          rewrite Forall_forall in HB. specialize (HB e2 (proj2 (elem_of_list_In _ _) Hin)). lia. }
      pose proof (disj_parts A (e1 :: B') C HD) as (_ & _ & HDC).
      destruct C as [|c C']; [destruct Hin|]. destruct Hin as [->|Hin]; [eauto|].
      apply SS_cons in HDC as [_ Hall]. rewrite Forall_forall in Hall.
      specialize (Hall e2 (proj2 (elem_of_list_In _ _) Hin)). inversion HC; subst. simpl in *. lia. }
    destruct Hcc as (C' & ->). inversion HbC as [|? ? Hb2 HbC']; subst.
    assert (Hml : mark_list (e_start e1) count state A (e1 :: B') (e2 :: C')
                  = finish A (e_start e1) count state (e2 :: C')).
    { unfold mark_list, left_part, right_part. simpl.
      rewrite (proj2 (Z.leb_le _ _)) by lia. rewrite Z.eqb_refl. rewrite app_nil_r. reflexivity. }
    rewrite Hml. split; intros Ha; unfold finish.
    - rewrite (proj2 (Z.eqb_eq _ _)) by assumption.
      rewrite state_in_app by assumption.
      rewrite (state_in_none A); [|assumption|].
      2:{ eapply Forall_impl; [exact HA|]. unfold hit; simpl; intros; lia. }
      rewrite Z.eqb_refl. rewrite state_in_cons by assumption.
      replace ((_ <=? _) && _) with true by lia. unfold ABSENT, ebound in *. lia.
    - rewrite (proj2 (Z.eqb_neq _ _)) by assumption.
      assert (Hm1 : mergeable (new_of (e_start e1) count state) e2 = false).
      { unfold mergeable, new_of, xend in *; simpl. lia. }
      unfold merge_next. rewrite Hm1. intros HD'.
      assert (Hex : exists P n, merge_prev A (new_of (e_start e1) count state :: e2 :: C') = P ++ n :: e2 :: C'
                    /\ xend n = e_start e1 + count).
      { unfold merge_prev. destruct (list_eq_nil_dec A) as [->|HAne].
        - exists [], (new_of (e_start e1) count state). split; [reflexivity|]. reflexivity.
        - destruct (exists_last HAne) as (A' & a & ->). rewrite last_snoc.
          destruct (mergeable a _) eqn:Hm.
          + rewrite removelast_last. eexists A', _. split; [reflexivity|].
            rewrite merge_end by assumption. reflexivity.
          + exists (A' ++ [a]), (new_of (e_start e1) count state). split; reflexivity. }
      destruct Hex as (P & n & E & Hxn). rewrite E in HD'. unfold disjoint_l in HD'.
      rewrite SS_app, SS_cons in HD'. destruct HD' as (_ & (_ & Hall) & _).
      inversion Hall; subst. lia.
  Qed.

  (** some run covers the whole piece *)
  Lemma mark_list_run : state <> ABSENT ->
    exists e, In e (mark_list start count state A B C) /\ e_start e <= start /\ end_ <= xend e.
  Proof using All.
    intros Ha. 
    apply (mark_list_ind start count state A B C Hs0 Hc He Hst HbA HbB HbC HA HB HC
             (fun L => Forall ebound L /\ exists e, In e L /\ e_start e <= start /\ end_ <= xend e)).
    - intros P p q Q Hm [Hbd (e & Hin & H1 & H2)]. split; [apply mc_ebound; assumption|].
      pose proof (merge_end p q Hm) as Hme.
      apply Forall_app in Hbd as [_ Hbd]. inversion Hbd as [|? ? Hbp Hbq]; subst. inversion Hbq as [|? ? Hbq' _]; subst.
      unfold ebound, xend in *. unfold mergeable in Hm.
      apply in_app_iff in Hin as [Hin|[->|[->|Hin]]].
      + exists e. split_and!; auto. apply in_app_iff; auto.
      + exists (merge e q). split_and!; [apply in_app_iff; simpl; auto|simpl; lia|unfold xend in *; simpl in *; lia].
      + exists (merge p e). split_and!; [apply in_app_iff; simpl; auto|unfold xend in *; simpl in *; lia|unfold xend in *; simpl in *; lia].
      + exists e. split_and!; auto. apply in_app_iff; simpl; auto.
    - intros _. split.
      + rewrite !Forall_app, Forall_cons. split_and!; auto.
        * exact (left_part_bound start count state A B C Hs0 Hc He Hst HbA HbB HbC HA HB HC).
        * apply new_bound; auto.
        * exact (right_part_bound start count state A B C Hs0 Hc He Hst HbA HbB HbC HA HB HC).
      + exists (new_of start count state). split_and!.
        * apply in_app_iff. right. apply in_app_iff. right. left. reflexivity.
        * simpl. lia.
        * unfold xend; simpl; lia.
    - intros E. contradiction.
  Qed.
End zero.
