(** Proofs about the blocklist model: meaning of the entry list. *)
From Coq Require Import Sorted.
From Verif Require Import Prelude Blocklist BlocklistProofs.
Ltac Zify.zify_post_hook ::= Z.div_mod_to_equations.

(** ** Sorting lemmas *)
Lemma SS_app {X} (R : X -> X -> Prop) l1 l2 :
  StronglySorted R (l1 ++ l2) <->
  StronglySorted R l1 /\ StronglySorted R l2 /\ Forall (fun x => Forall (R x) l2) l1.
Proof.
  induction l1 as [|x l1 IH]; simpl.
  - split; [intros H; split_and!; auto; constructor|tauto].
  - split.
    + intros H. inversion H as [|? ? Hs Hall]; subst. apply Forall_app in Hall as [H1 H2].
      apply IH in Hs as (Ha & Hb & Hc). split_and!; [constructor; auto|auto|constructor; auto].
    + intros (H1 & H2 & H3). inversion H1; subst. inversion H3; subst.
      constructor; [apply IH; auto|]. apply Forall_app; auto.
Qed.

Lemma SS_cons {X} (R : X -> X -> Prop) x l :
  StronglySorted R (x :: l) <-> StronglySorted R l /\ Forall (R x) l.
Proof. split; [intros H; inversion H; auto|intros []; constructor; auto]. Qed.

Lemma SS_nil {X} (R : X -> X -> Prop) : StronglySorted R [] <-> True.
Proof. split; [auto|constructor]. Qed.

Lemma disjoint_ends L : Forall ebound L -> disjoint_l L -> ends_sorted L.
Proof.
  intros HB. induction 1 as [|e l Hs IH Hall]; [constructor|].
  inversion HB; subst. constructor; [apply IH; assumption|].
  rewrite Forall_forall in *. intros x Hx. specialize (Hall x Hx).
  assert (ebound x) by auto. unfold ebound, xend in *. lia.
Qed.

(** ** Predicates closed under merging adjacent entries *)
Definition merge_closed (Phi : list entry -> Prop) : Prop :=
  forall P p q Q, mergeable p q = true -> Phi (P ++ p :: q :: Q) -> Phi (P ++ merge p q :: Q).

Lemma finish_ind (Phi : list entry -> Prop) P start count state Q :
  merge_closed Phi -> state <> ABSENT ->
  Phi (P ++ new_of start count state :: Q) -> Phi (finish P start count state Q).
Proof.
  intros Hm Ha H. unfold finish. rewrite (proj2 (Z.eqb_neq _ _)) by assumption.
  assert (H1 : Phi (P ++ merge_next (new_of start count state) Q)).
  { unfold merge_next. destruct Q as [|q Q']; [assumption|].
    destruct (mergeable _ q) eqn:E; [|assumption]. apply Hm; assumption. }
  revert H1. generalize (merge_next (new_of start count state) Q). intros R H1.
  unfold merge_prev. destruct (list_eq_nil_dec P) as [->|HP].
  { simpl. assumption. }
  destruct (exists_last HP) as (P' & p & ->). rewrite last_snoc.
  destruct R as [|r R']; [assumption|].
  destruct (mergeable p r) eqn:E; [|assumption].
  rewrite removelast_last. apply Hm; [assumption|]. rewrite <- app_assoc in H1. exact H1.
Qed.

Lemma mc_ebound : merge_closed (Forall ebound).
Proof.
  intros P p q Q Hm H. apply Forall_app in H as [HP H].
  inversion H as [|? ? Hp H']; subst. inversion H'; subst.
  apply Forall_app; split; [assumption|]. constructor; [apply merge_bound; assumption|assumption].
Qed.

Lemma mc_ends : merge_closed ends_sorted.
Proof.
  intros P p q Q Hm H. unfold ends_sorted in *. rewrite SS_app in *.
  destruct H as (HP & H & Hx). rewrite !SS_cons in H. destruct H as ((HQ & Hq) & Hp).
  rewrite SS_cons. pose proof (merge_end p q Hm) as Hme. split_and!; auto.
  - eapply Forall_impl; [exact Hq|]. simpl. intros; lia.
  - eapply Forall_impl; [exact Hx|]. simpl. intros x Hxx. inversion Hxx as [|? ? ? Hxx']; subst.
    inversion Hxx'; subst. constructor; [lia|assumption].
Qed.

Lemma mc_disjoint : merge_closed disjoint_l.
Proof.
  intros P p q Q Hm H. unfold disjoint_l in *. rewrite SS_app in *.
  destruct H as (HP & H & Hx). rewrite !SS_cons in H. destruct H as ((HQ & Hq) & Hp).
  rewrite SS_cons. pose proof (merge_end p q Hm) as Hme. split_and!; auto.
  - eapply Forall_impl; [exact Hq|]. simpl. intros; lia.
  - eapply Forall_impl; [exact Hx|]. simpl. intros x Hxx. inversion Hxx as [|? ? ? Hxx']; subst.
    inversion Hxx'; subst. constructor; [assumption|assumption].
Qed.

(** counts positive *)
Definition pos (e : entry) : Prop := 0 < e_count e.

(** ** The state function *)
Definition hit (e : entry) (x : Z) : Prop := e_start e <= x < xend e.

Lemma state_in_cons e L x : ebound e ->
  state_in (e :: L) x = if (e_start e <=? x) && (x <? xend e) then e_state e else state_in L x.
Proof.
  intros H. simpl. rewrite <- (e_end_x e) by assumption. unfold e_end.
  destruct (e_start e <=? x), (x <? w64 (e_start e + e_count e)); reflexivity.
Qed.

Lemma state_in_app L1 L2 x : Forall ebound L1 ->
  state_in (L1 ++ L2) x = if state_in L1 x =? ABSENT then state_in L2 x else state_in L1 x.
Proof.
  induction 1 as [|e L1 He HL IH]; [reflexivity|].
  rewrite <- app_comm_cons. rewrite !state_in_cons by assumption.
  destruct ((e_start e <=? x) && (x <? xend e)).
  - rewrite (proj2 (Z.eqb_neq _ _)); [reflexivity|]. unfold ABSENT, ebound in *. lia.
  - exact IH.
Qed.

Lemma state_in_none L x : Forall ebound L -> Forall (fun e => ~ hit e x) L -> state_in L x = ABSENT.
Proof.
  intros HB. induction 1 as [|e L He HL IH]; [reflexivity|].
  inversion HB; subst. rewrite state_in_cons by assumption. unfold hit in He.
  replace ((_ <=? _) && _) with false by lia. auto.
Qed.

Lemma state_in_absent L x : Forall ebound L -> state_in L x = ABSENT -> Forall (fun e => ~ hit e x) L.
Proof.
  induction 1 as [|e L He HL IH]; [constructor|]. rewrite state_in_cons by assumption.
  destruct ((e_start e <=? x) && (x <? xend e)) eqn:E; intros H.
  - unfold ebound, ABSENT in *. lia.
  - constructor; [unfold hit; lia|auto].
Qed.

Lemma state_in_hit L x e : Forall ebound L -> disjoint_l L -> In e L -> hit e x -> state_in L x = e_state e.
Proof.
  intros HB HD Hin Hh. induction HD as [|a L Hs IH Hall]; [destruct Hin|].
  inversion HB; subst. rewrite state_in_cons by assumption.
  destruct Hin as [->|Hin].
  - unfold hit in Hh. replace ((_ <=? _) && _) with true by lia. reflexivity.
  - rewrite Forall_forall in Hall. specialize (Hall e (proj2 (elem_of_list_In _ _) Hin)).
    unfold hit in Hh. replace ((_ <=? _) && _) with false by lia. auto.
Qed.

Lemma state_in_merge P p q Q x :
  mergeable p q = true -> Forall ebound P -> ebound p -> ebound q ->
  state_in (P ++ merge p q :: Q) x = state_in (P ++ p :: q :: Q) x.
Proof.
  intros Hm HP Hp Hq. rewrite !state_in_app by assumption.
  assert (Hb := merge_bound p q Hp Hq Hm).
  rewrite !state_in_cons by assumption.
  pose proof (merge_end p q Hm) as He. rewrite He.
  unfold mergeable in Hm. unfold ebound, xend in *.
  cbn [merge e_start e_state].
  destruct (Z.eqb_spec (state_in P x) ABSENT); [|reflexivity].
  destruct (Z.leb_spec (e_start p) x), (Z.ltb_spec x (e_start p + e_count p)),
    (Z.leb_spec (e_start q) x), (Z.ltb_spec x (e_start q + e_count q)); simpl; lia.
Qed.

Lemma mc_sem f : merge_closed (fun L => Forall ebound L /\ forall x, state_in L x = f x).
Proof.
  intros P p q Q Hm [HB Hf]. split; [apply mc_ebound; assumption|].
  intros x. rewrite <- Hf. apply Forall_app in HB as [HP H].
  inversion H as [|? ? Hp H']; subst. inversion H'; subst. apply state_in_merge; assumption.
Qed.

(** ** Cut lists *)
Section cut.
  Variables (start count state : Z) (A B C : list entry).
  Hypothesis Hs0 : 0 <= start.
  Hypothesis Hc : 1 <= count <= 65535.
  Hypothesis He : start + count < 2 ^ 64.
  Hypothesis Hst : -1 <= state <= 3.
  Hypothesis HbA : Forall ebound A.
  Hypothesis HbB : Forall ebound B.
  Hypothesis HbC : Forall ebound C.
  Hypothesis HA : Forall (fun e => xend e <= start) A.
  Hypothesis HB : Forall (fun e => start < xend e <= start + count) B.
  Hypothesis HC : Forall (fun e => start + count < xend e) C.
  Local Notation end_ := (start + count).

  Lemma left_part_spec : 
    left_part start B C = [] \/
    exists e, In e (B ++ C) /\ hd_error (B ++ C) = Some e /\ e_start e <= start < xend e /\
              left_part start B C = [left_of e start] /\ (B <> [] -> e_start e < start).
  Proof using All.
    unfold left_part. destruct B as [|b B']; simpl.
    - destruct C as [|c C']; [auto|]. destruct (Z.leb_spec (e_start c) start); [|auto].
      right. exists c. inversion HC; subst. split_and!; simpl; auto; try lia; try congruence.
    - destruct (Z.leb_spec (e_start b) start); [|auto]. destruct (Z.eqb_spec (e_start b) start); [auto|].
      right. exists b. inversion HB; subst. split_and!; simpl; auto; try lia.
  Qed.

  Lemma left_part_bound : Forall ebound (left_part start B C).
  Proof using All.
    destruct left_part_spec as [->|(e & Hin & _ & Hx & -> & _)]; [constructor|].
    apply Forall_singleton. assert (ebound e).
    { assert (Forall ebound (B ++ C)) as HbBC by (apply Forall_app; auto).
      rewrite Forall_forall in HbBC. apply HbBC. apply elem_of_list_In. assumption. }
    unfold ebound, left_of, xend in *; simpl; lia.
  Qed.

  Lemma left_part_end : Forall (fun e => xend e = start) (left_part start B C).
  Proof using All.
    destruct left_part_spec as [->|(e & Hin & _ & Hx & -> & _)]; [constructor|].
    apply Forall_singleton. unfold left_of, xend; simpl; lia.
  Qed.

  Lemma trim_right_end : Forall (fun e => end_ < xend e) (trim_right end_ C).
  Proof using All.
    destruct C as [|c C']; [constructor|]. simpl. inversion HC; subst.
    destruct (e_start c <=? end_ - 1); constructor; auto. unfold right_of, xend in *; simpl; lia.
  Qed.

  Lemma right_part_cases : right_part start count B C = C \/ right_part start count B C = trim_right end_ C.
  Proof using All. unfold right_part. destruct B as [|b B']; [auto|]. destruct (_ =? _); auto. Qed.

  Lemma right_part_bound : Forall ebound (right_part start count B C).
  Proof using All.
    destruct right_part_cases as [-> | ->]; [assumption|].
    apply trim_right_bound with (state := state); assumption.
  Qed.
  Lemma right_part_end : Forall (fun e => end_ < xend e) (right_part start count B C).
  Proof using All. destruct right_part_cases as [-> | ->]; [assumption|apply trim_right_end]. Qed.
  Lemma right_part_sorted : ends_sorted C -> ends_sorted (right_part start count B C).
  Proof using All.
    intros HS. destruct right_part_cases as [-> | ->]; [assumption|].
    destruct C as [|c C']; [constructor|]. simpl. destruct (e_start c <=? end_ - 1); [|assumption].
    apply SS_cons in HS as [H1 H2]. apply SS_cons. split; [assumption|].
    eapply Forall_impl; [exact H2|]. simpl. unfold right_of, xend; simpl. intros; lia.
  Qed.

  Lemma left_part_sorted R : StronglySorted R (left_part start B C).
  Proof using All.
    destruct left_part_spec as [->|(e & Hin & _ & Hx & -> & _)]; repeat constructor.
  Qed.

  Local Notation base := (A ++ left_part start B C ++ (new_of start count state :: right_part start count B C)).
  Local Notation base0 := (A ++ left_part start B C ++ right_part start count B C).

  Lemma mark_list_ind (Phi : list entry -> Prop) :
    merge_closed Phi -> (state <> ABSENT -> Phi base) -> (state = ABSENT -> Phi base0) ->
    Phi (mark_list start count state A B C).
  Proof using All.
    intros Hm H1 H0. unfold mark_list. destruct (Z.eq_dec state ABSENT) as [E|E].
    - unfold finish. rewrite (proj2 (Z.eqb_eq _ _)) by assumption. rewrite <- app_assoc. auto.
    - apply finish_ind; auto. rewrite <- app_assoc. auto.
  Qed.

  Lemma mark_list_bound : Forall ebound (mark_list start count state A B C).
  Proof using All.
    apply mark_list_ind; [apply mc_ebound| |]; intros Ha; rewrite !Forall_app; split_and!;
      auto using left_part_bound, right_part_bound.
    constructor; [apply new_bound; auto|apply right_part_bound].
  Qed.

  Lemma mark_list_ends : ends_sorted (A ++ B ++ C) -> ends_sorted (mark_list start count state A B C).
  Proof using All.
    intros HS. unfold ends_sorted in HS. rewrite !SS_app in HS. destruct HS as (HSA & (HSB & HSC & _) & _).
    pose proof left_part_end as HL. pose proof right_part_end as HR.
    pose proof (right_part_sorted HSC) as HRS.
    pose proof HA as HA1. rewrite Forall_forall in HA1, HL, HR.
    apply mark_list_ind; [apply mc_ends| |]; intros Ha; unfold ends_sorted;
      rewrite !SS_app, ?SS_cons; split_and!; auto using left_part_sorted;
      rewrite ?Forall_forall; intros x Hx; rewrite ?Forall_forall; try intros y Hy;
      try (rewrite ?elem_of_app, ?elem_of_cons in Hy);
      try specialize (HA1 _ Hx); try specialize (HL _ Hx); try specialize (HR _ Hx);
      repeat match goal with H : _ \/ _ |- _ => destruct H as [Hy|Hy] end; subst;
      try specialize (HL _ Hy); try specialize (HR _ Hy);
      unfold new_of, xend in *; simpl in *; lia.
  Qed.

  (** The pattern that the exact-match path of mark_internal mishandles. *)
  Definition bad_overlap (L : list entry) : Prop :=
    exists e1 e2, In e1 L /\ In e2 L /\ e_start e1 = start /\ start < xend e1 <= end_ /\
                  e_start e2 < end_ < xend e2.

  Hypothesis HD : disjoint_l (A ++ B ++ C).

  Lemma disj_parts : disjoint_l A /\ disjoint_l B /\ disjoint_l C.
  Proof using HD. unfold disjoint_l in HD. rewrite !SS_app in HD. destruct HD as (H1 & (H2 & H3 & H4) & H5).
    split_and!; assumption. Qed.

  Lemma head_starts e R : B ++ C = e :: R -> Forall (fun x => xend e <= e_start x) R.
  Proof using HD.
    intros E. unfold disjoint_l in HD. rewrite E in HD. rewrite SS_app in HD.
    destruct HD as (_ & H & _). apply SS_cons in H as [_ H]. exact H.
  Qed.

  (** entries behind the head of [C] start behind the range *)
  Lemma trim_right_starts : Forall (fun e => end_ <= e_start e) (trim_right end_ C).
  Proof using All.
    pose proof disj_parts as (_ & _ & HDC).
    destruct C as [|c C']; [constructor|]. simpl. inversion HC; subst.
    apply SS_cons in HDC as [_ H].
    assert (Forall (fun e => end_ <= e_start e) C').
    { eapply Forall_impl; [exact H|]. simpl; intros; lia. }
    destruct (Z.leb_spec (e_start c) (end_ - 1)); constructor; auto; simpl; lia.
  Qed.

  Lemma not_bad_right : ~ bad_overlap (A ++ B ++ C) -> right_part start count B C = trim_right end_ C.
  Proof using All.
    intros Hnb. unfold right_part. destruct B as [|b B']; [reflexivity|].
    destruct (Z.eqb_spec (e_start b) start) as [E|E]; [|reflexivity].
    destruct C as [|c C']; [reflexivity|]. simpl.
    destruct (Z.leb_spec (e_start c) (end_ - 1)) as [Hle|Hgt]; [|reflexivity].
    exfalso. apply Hnb. inversion HB; inversion HC; subst. exists b, c. split_and!; auto; try lia.
    - apply in_app_iff. right. left. reflexivity.
    - apply in_app_iff. right. apply in_app_iff. right. left. reflexivity.
  Qed.

  Lemma right_starts : ~ bad_overlap (A ++ B ++ C) ->
    Forall (fun e => end_ <= e_start e) (right_part start count B C).
  Proof using All. intros H. rewrite not_bad_right by assumption. apply trim_right_starts. Qed.

  Lemma right_disjoint : disjoint_l (right_part start count B C).
  Proof using All.
    pose proof disj_parts as (_ & _ & HDC).
    destruct right_part_cases as [-> | ->]; [assumption|].
    destruct C as [|c C']; [constructor|]. simpl. apply SS_cons in HDC as [H1 H2].
    destruct (_ <=? _); apply SS_cons; split; auto.
    eapply Forall_impl; [exact H2|]. simpl. unfold right_of, xend; simpl; intros; lia.
  Qed.

  Lemma mark_list_disjoint : ~ bad_overlap (A ++ B ++ C) -> disjoint_l (mark_list start count state A B C).
  Proof using All.
    intros Hnb. pose proof disj_parts as (HDA & HDB & HDC).
    pose proof left_part_end as HL. pose proof (right_starts Hnb) as HR.
    assert (HAl : forall a, In a A -> Forall (fun y => xend a <= e_start y) (left_part start B C)).
    { intros a Ha. destruct left_part_spec as [->|(e & Hin & _ & Hx & -> & _)]; [constructor|].
      apply Forall_singleton. simpl. unfold disjoint_l in HD. rewrite SS_app in HD.
      destruct HD as (_ & _ & H). rewrite Forall_forall in H.
      specialize (H a (proj2 (elem_of_list_In _ _) Ha)). rewrite Forall_forall in H.
      apply H. apply elem_of_list_In. assumption. }
    pose proof HA as HA1. rewrite Forall_forall in HA1, HL, HR.
    assert (Hge : 0 <= count) by lia.
    apply mark_list_ind; [apply mc_disjoint| |]; intros Ha; unfold disjoint_l;
      rewrite !SS_app, ?SS_cons; split_and!; auto using left_part_sorted; try exact right_disjoint;
      rewrite ?Forall_forall; intros x Hx; rewrite ?Forall_forall; try intros y Hy;
      try (rewrite ?elem_of_app, ?elem_of_cons in Hy);
      try specialize (HAl _ (proj1 (elem_of_list_In _ _) Hx)); try rewrite Forall_forall in HAl;
      try specialize (HA1 _ Hx); try specialize (HL _ Hx); try specialize (HR _ Hx);
      repeat match goal with H : _ \/ _ |- _ => destruct H as [Hy|Hy] end; subst;
      try specialize (HL _ Hy); try specialize (HR _ Hy); try specialize (HAl _ Hy);
      unfold new_of, xend in *; simpl in *; lia.
  Qed.

  Lemma state_A x : start <= x -> state_in A x = ABSENT.
  Proof using All.
    intros Hx. apply state_in_none; [assumption|]. eapply Forall_impl; [exact HA|].
    unfold hit; simpl; intros; lia.
  Qed.
  Lemma state_B x : end_ <= x -> state_in B x = ABSENT.
  Proof using All.
    intros Hx. apply state_in_none; [assumption|]. eapply Forall_impl; [exact HB|].
    unfold hit; simpl; intros; lia.
  Qed.

  (** before the range *)
  Lemma state_before x : x < start -> state_in (B ++ C) x = state_in (left_part start B C) x.
  Proof using All.
    intros Hx. assert (HbBC : Forall ebound (B ++ C)) by (apply Forall_app; auto).
    assert (Hcase : B ++ C = [] \/ exists e R, B ++ C = e :: R) by (destruct (B ++ C); eauto).
    destruct Hcase as [E|(e & R & E)].
    - unfold left_part. rewrite E. reflexivity.
    - pose proof (head_starts e R E) as Hst'. 
      assert (Hxe : start < xend e).
      { assert (Forall (fun e => start < xend e) (B ++ C)) as Hb2.
        { apply Forall_app; split; eapply Forall_impl; eauto; simpl; intros; lia. }
        rewrite E in Hb2. inversion Hb2; assumption. }
      rewrite E in HbBC |- *. inversion HbBC; subst.
      rewrite state_in_cons by assumption.
      assert (Htl : state_in R x = ABSENT).
      { apply state_in_none; [assumption|]. eapply Forall_impl; [exact Hst'|]. unfold hit; simpl; intros; lia. }
      rewrite Htl.
      destruct left_part_spec as [El|(e' & Hin & Hhd & Hx' & El & _)].
      + rewrite El. simpl. unfold left_part in El. rewrite E in El.
        assert (start <= e_start e).
        { destruct (Z.leb_spec (e_start e) start); [|lia]. destruct B as [|b B']; [discriminate|].
          simpl in E. injection E as -> _. destruct (Z.eqb_spec (e_start e) start); [lia|discriminate]. }
        replace ((_ <=? _) && _) with false by lia. reflexivity.
      + rewrite E in Hhd. simpl in Hhd. injection Hhd as <-. rewrite El.
        rewrite state_in_cons by (unfold ebound, left_of, xend in *; simpl; lia).
        unfold xend in *. simpl.
        destruct (Z.leb_spec (e_start e) x), (Z.ltb_spec x (e_start e + e_count e)),
           (Z.ltb_spec x (e_start e + (start - e_start e))); simpl; try reflexivity; lia.
  Qed.

  (** behind the range *)
  Lemma state_after x : end_ <= x -> state_in (trim_right end_ C) x = state_in C x.
  Proof using All.
    intros Hx. destruct C as [|c C']; [reflexivity|]. simpl trim_right.
    destruct (Z.leb_spec (e_start c) (end_ - 1)); [|reflexivity].
    inversion HbC; inversion HC; subst. rewrite !state_in_cons.
    - assert (Hxr : xend (right_of c end_) = xend c) by (unfold right_of, xend; simpl; lia).
      rewrite Hxr. cbn [right_of e_start e_state].
      destruct (Z.leb_spec (e_start c) x), (Z.ltb_spec x (xend c)),
        (Z.leb_spec end_ x); simpl; try reflexivity; lia.
    - assumption.
    - unfold ebound, right_of, xend in *; simpl; lia.
  Qed.

  Theorem mark_list_state x : ~ bad_overlap (A ++ B ++ C) ->
    state_in (mark_list start count state A B C) x =
    if (start <=? x) && (x <? end_) then state else state_in (A ++ B ++ C) x.
  Proof using All.
    intros Hnb. revert x.
    pose proof left_part_bound as HLb. pose proof right_part_bound as HRb.
    pose proof (right_starts Hnb) as HRs. pose proof left_part_end as HLe.
    assert (HLx : forall x, start <= x -> state_in (left_part start B C) x = ABSENT).
    { intros x Hx. apply state_in_none; [assumption|]. eapply Forall_impl; [exact HLe|].
      unfold hit; simpl; intros; lia. }
    assert (HRx : forall x, x < end_ -> state_in (right_part start count B C) x = ABSENT).
    { intros x Hx. apply state_in_none; [assumption|]. eapply Forall_impl; [exact HRs|].
      unfold hit; simpl; intros; lia. }
    assert (Hrr : forall x, end_ <= x -> state_in (right_part start count B C) x = state_in C x).
    { intros x Hx. rewrite not_bad_right by assumption. apply state_after; assumption. }
    apply (mark_list_ind (fun L => Forall ebound L /\ forall x, state_in L x =
      if (start <=? x) && (x <? end_) then state else state_in (A ++ B ++ C) x)).
    - apply mc_sem.
    - intros Ha. assert (HN := new_bound start count state Hs0 Hc He Hst Ha).
      split.
      { rewrite !Forall_app, Forall_cons; auto. }
      intros x. rewrite !state_in_app by assumption.
      rewrite state_in_cons by assumption.
      replace (xend (new_of start count state)) with end_ by reflexivity.
      cbn [new_of e_start e_state].
      destruct (Z.leb_spec start x) as [H1|H1]; cbn [andb].
      + rewrite state_A, HLx by lia. rewrite Z.eqb_refl.
        destruct (Z.ltb_spec x end_) as [H2|H2]; [reflexivity|].
        rewrite state_B by lia. rewrite Z.eqb_refl. apply Hrr. lia.
      + destruct (Z.eqb_spec (state_in A x) ABSENT); [|reflexivity].
        rewrite HRx by lia. rewrite <- state_in_app by assumption. rewrite state_before by lia.
        destruct (Z.eqb_spec (state_in (left_part start B C) x) ABSENT); auto.
    - intros Ha. split.
      { rewrite !Forall_app; auto. }
      intros x. rewrite !state_in_app by assumption.
      destruct (Z.leb_spec start x) as [H1|H1]; cbn [andb].
      + rewrite state_A, HLx by lia. rewrite Z.eqb_refl.
        destruct (Z.ltb_spec x end_) as [H2|H2]; [rewrite HRx by lia; auto|].
        rewrite state_B by lia. rewrite Z.eqb_refl. apply Hrr. lia.
      + destruct (Z.eqb_spec (state_in A x) ABSENT); [|reflexivity].
        rewrite HRx by lia. rewrite <- state_in_app by assumption. rewrite state_before by lia.
        destruct (Z.eqb_spec (state_in (left_part start B C) x) ABSENT); auto.
  Qed.
End cut.
