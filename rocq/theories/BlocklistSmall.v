(** Blocklists of files of up to 65535 blocks: runs are always maximal there,
    so that the defects of mark() can be described exactly by the states. *)
From Coq Require Import Sorted.
From Verif Require Import Prelude Blocklist BlocklistSpec BlocklistProofs BlocklistSem BlocklistMain
  BlocklistMore BlocklistThm BlocklistFinal.

Definition apart (a b : entry) : Prop := ~ (xend a = e_start b /\ e_state a = e_state b).
Definition maxl (L : list entry) : Prop := Sorted apart L.
Definition smalll (L : list entry) : Prop := Forall (fun e => xend e <= 65535) L.

Lemma Sorted_cons2 {X} (R : X -> X -> Prop) a b l : Sorted R (a :: b :: l) <-> R a b /\ Sorted R (b :: l).
Proof.
  split.
  - intros H. inversion H as [|? ? H1 H2]; subst. inversion H2; subst. auto.
  - intros [H1 H2]. constructor; [assumption|]. constructor; assumption.
Qed.
Lemma Sorted_app {X} (R : X -> X -> Prop) P x Q : Sorted R (P ++ x :: Q) <-> Sorted R (P ++ [x]) /\ Sorted R (x :: Q).
Proof.
  induction P as [|p P IH]; simpl.
  - split; [|tauto]. intros H. split; [repeat constructor|assumption].
  - destruct P as [|p' P]; simpl in *.
    + rewrite !Sorted_cons2. split.
      * intros [H1 H2]. split; [split; [assumption|repeat constructor]|assumption].
      * intros [[H1 H2] H3]. split; assumption.
    + rewrite !Sorted_cons2. rewrite IH. tauto.
Qed.
Lemma Sorted_app_l {X} (R : X -> X -> Prop) P Q : Sorted R (P ++ Q) -> Sorted R P.
Proof.
  revert Q. induction P as [|p P IH]; intros Q; [constructor|]. simpl. destruct P as [|p' P]; [repeat constructor|].
  simpl. rewrite !Sorted_cons2. intros [H1 H2]. split; [assumption|]. eapply IH. exact H2.
Qed.
Lemma Sorted_app_r {X} (R : X -> X -> Prop) P Q : Sorted R (P ++ Q) -> Sorted R Q.
Proof.
  induction P as [|p P IH]; [auto|]. simpl. intros H. apply IH. inversion H; assumption.
Qed.
Lemma Sorted_swap_last P x y : e_start x = e_start y -> e_state x = e_state y ->
  maxl (P ++ [x]) -> maxl (P ++ [y]).
Proof.
  unfold maxl. intros E1 E2. destruct (list_eq_nil_dec P) as [->|HP]; [intros; repeat constructor|].
  destruct (exists_last HP) as (P' & p & ->). rewrite <- !app_assoc. simpl.
  intros H. apply Sorted_app in H as [H1 H2]. apply Sorted_app. split; [assumption|].
  apply Sorted_cons2 in H2 as [H2 _]. apply Sorted_cons2. split; [|repeat constructor].
  unfold apart in *. rewrite <- E1, <- E2. assumption.
Qed.
Lemma Sorted_swap_first x y Q : xend x = xend y -> e_state x = e_state y -> maxl (x :: Q) -> maxl (y :: Q).
Proof.
  unfold maxl. intros E1 E2. destruct Q as [|q Q]; [intros; repeat constructor|].
  rewrite !Sorted_cons2. unfold apart. rewrite E1, E2. auto.
Qed.

Lemma not_mergeable p q : xend q <= 65535 -> 0 <= e_start p -> mergeable p q = false -> apart p q.
Proof. unfold mergeable, apart, xend. intros. lia. Qed.

Lemma merge_next_max e Q : smalll Q -> 0 <= e_start e -> maxl Q -> maxl (merge_next e Q) /\
  smalll (merge_next e Q) \/ 65535 < xend e.
Proof.
  intros HQ He HM. destruct (Z.lt_ge_cases 65535 (xend e)) as [|Hx]; [auto|left].
  unfold merge_next. destruct Q as [|q Q]; [split; [repeat constructor|constructor; [assumption|constructor]]|].
  inversion HQ; subst. destruct (mergeable e q) eqn:Hm.
  - split.
    + apply Sorted_swap_first with (x := q); [|unfold mergeable, merge in *; simpl; lia|assumption].
      rewrite merge_end by assumption. reflexivity.
    + constructor; [rewrite merge_end by assumption; assumption|assumption].
  - split; [|constructor; assumption]. apply Sorted_cons2. split; [|assumption]. apply not_mergeable; assumption.
Qed.

Lemma merge_prev_max P R : Forall ebound P -> smalll R -> smalll P -> maxl P -> maxl R ->
  maxl (merge_prev P R) /\ smalll (merge_prev P R).
Proof.
  intros HB HR HP HMP HMR. unfold merge_prev. destruct (list_eq_nil_dec P) as [->|HPn].
  { destruct R; simpl; auto. }
  destruct (exists_last HPn) as (P' & p & ->). rewrite last_snoc.
  destruct R as [|r R]; [rewrite app_nil_r; auto|].
  apply Forall_app in HB as [_ HB]. inversion HB as [|? ? Hbp _]; subst. inversion HR; subst.
  destruct (mergeable p r) eqn:Hm.
  - rewrite removelast_last. split.
    + apply Sorted_app. split.
      * eapply Sorted_swap_last; [| |exact HMP]; reflexivity.
      * apply Sorted_swap_first with (x := r); [rewrite merge_end by assumption; reflexivity
          |unfold mergeable, merge in *; simpl; lia|assumption].
    + apply Forall_app in HP as [HP _]. apply Forall_app. split; [assumption|].
      constructor; [rewrite merge_end by assumption; assumption|assumption].
  - split; [|apply Forall_app; auto]. rewrite <- app_assoc. simpl. apply Sorted_app. split; [assumption|].
    apply Sorted_cons2. split; [|assumption]. apply not_mergeable; auto. unfold ebound in *; lia.
Qed.

Lemma mark_list_max s c v A B C :
  0 <= s -> 1 <= c -> s + c <= 65535 ->
  Forall ebound A -> Forall ebound B -> Forall ebound C ->
  Forall (fun e => xend e <= s) A -> Forall (fun e => s < xend e <= s + c) B -> Forall (fun e => s + c < xend e) C ->
  maxl (A ++ B ++ C) -> smalll (A ++ B ++ C) -> ~ bad_overlap s c (A ++ B ++ C) ->
  maxl (mark_list s c v A B C) /\ smalll (mark_list s c v A B C).
Proof.
  intros Hs Hc He HbA HbB HbC HA HB HC HM HS Hnb.
  assert (HSA : smalll A /\ smalll B /\ smalll C).
  { unfold smalll in *. rewrite !Forall_app in HS. tauto. }
  destruct HSA as (HSA & HSB & HSC).
  (* the left part *)
  assert (HP : maxl (A ++ left_part s B C) /\ smalll (A ++ left_part s B C) /\ Forall ebound (A ++ left_part s B C)
               /\ Forall (fun e => xend e <= s) (A ++ left_part s B C)).
  { assert (HMA : maxl A) by (eapply Sorted_app_l; exact HM).
    assert (Hsub : forall e, hd_error (B ++ C) = Some e -> e_start e <= s < xend e -> ebound e ->
       maxl (A ++ [left_of e s]) /\ smalll (A ++ [left_of e s]) /\ Forall ebound (A ++ [left_of e s])
        /\ Forall (fun e => xend e <= s) (A ++ [left_of e s])).
    { intros e Hhd Hx Hbe. destruct (B ++ C) as [|e' BC] eqn:EBC; [discriminate|]. injection Hhd as ->.
      split_and!.
      - eapply Sorted_swap_last with (x := e); [reflexivity|reflexivity|]. apply Sorted_app in HM. apply HM.
      - apply Forall_app. split; [assumption|]. constructor; [|constructor]. unfold left_of, xend; simpl; lia.
      - apply Forall_app. split; [assumption|]. constructor; [|constructor]. unfold left_of, ebound, xend in *; simpl; lia.
      - apply Forall_app. split; [assumption|]. constructor; [|constructor]. unfold left_of, xend; simpl; lia. }
    unfold left_part. destruct B as [|b B'].
    - simpl in *. destruct C as [|e C']; simpl in *; [rewrite app_nil_r; auto|].
      destruct (Z.leb_spec (e_start e) s); [|rewrite app_nil_r; auto].
      inversion HbC; inversion HC; subst. apply Hsub; auto. lia.
    - cbn [app]. destruct (Z.leb_spec (e_start b) s); [|rewrite app_nil_r; auto].
      destruct (Z.eqb_spec (e_start b) s); [rewrite app_nil_r; auto|].
      inversion HbB; inversion HB; subst. apply Hsub; auto. lia. }
  destruct HP as (HP1 & HP2 & HP3 & HP4).
  assert (HQ : maxl (right_part s c B C) /\ smalll (right_part s c B C)
               /\ Forall (fun e => s < e_start e) (firstn 1 (right_part s c B C))).
  { assert (HMC : maxl C) by (eapply Sorted_app_r; eapply Sorted_app_r; exact HM).
    assert (Htrim : maxl (trim_right (s + c) C) /\ smalll (trim_right (s + c) C)
               /\ Forall (fun e => s < e_start e) (firstn 1 (trim_right (s + c) C))).
    { destruct C as [|e C']; simpl; [split_and!; constructor|].
      inversion HSC; inversion HC; subst.
      destruct (Z.leb_spec (e_start e) (s + c - 1)).
      - split_and!.
        + apply Sorted_swap_first with (x := e); auto. unfold right_of, xend; simpl; lia.
        + constructor; [unfold right_of, xend in *; simpl; lia|assumption].
        + cbn [firstn]. constructor; [simpl; lia|constructor].
      - split_and!; auto. cbn [firstn]. constructor; [lia|constructor]. }
    unfold right_part. destruct B as [|b B']; [assumption|]. destruct (Z.eqb_spec (e_start b) s) as [Ebs|_]; [|assumption].
    split_and!; auto. destruct C as [|e C']; cbn [firstn]; [constructor|]. constructor; [|constructor].
    apply Forall_inv in HB, HC.
    destruct (Z.lt_ge_cases (e_start e) (s + c)); [|lia]. exfalso. apply Hnb.
    exists b, e. split_and!; try lia; apply in_or_app; right; [left; reflexivity|].
    simpl. right. apply in_or_app. right. left. reflexivity. }
  destruct HQ as (HQ1 & HQ2 & HQ3).
  unfold mark_list, finish. destruct (Z.eqb_spec v ABSENT) as [Ev|Ev].
  - split; [|apply Forall_app; auto].
    destruct (list_eq_nil_dec (A ++ left_part s B C)) as [E|HPn]; [rewrite E; assumption|].
    destruct (exists_last HPn) as (P' & p & E). rewrite E in *. clear E.
    rewrite <- app_assoc. destruct (right_part s c B C) as [|q Q]; [rewrite app_nil_r; assumption|].
    simpl. apply Sorted_app. split; [assumption|]. apply Sorted_cons2. split; [|assumption].
    apply Forall_app in HP4 as [_ HP4]. inversion HP4; inversion HQ3; subst. unfold apart. lia.
  - destruct (merge_next_max (new_of s c v) (right_part s c B C)) as [[H1 H2]|H]; auto.
    + apply merge_prev_max; assumption.
    + exfalso; unfold new_of, xend in H; simpl in H; lia.
Qed.

(** The invariant for small files. *)
Definition SInv (b : bl) : Prop := CInv b /\ maxl (live b) /\ smalll (live b).

Lemma SInv_fresh : SInv bl_fresh.
Proof. split; [apply CInv_fresh|]. rewrite live_fresh. split; constructor. Qed.

Lemma pairwise L a b : disjoint_l L -> Forall pos L -> maxl L -> In a L -> In b L -> apart a b.
Proof.
  unfold disjoint_l, maxl. intros HD HP HM. induction HD as [|x l Hs IH Hall]; [intros []|].
  inversion HP as [|? ? Hpx HPl]; subst. intros Ha Hb (E1 & E2).
  assert (HMl : Sorted apart l) by (inversion HM; assumption).
  rewrite Forall_forall in Hall, HPl.
  destruct Ha as [->|Ha], Hb as [->|Hb].
  - unfold pos, xend in *. lia.
  - destruct l as [|h l]; [destruct Hb|]. apply Sorted_cons2 in HM as [HMh _].
    destruct Hb as [->|Hb]; [apply HMh; auto|].
    assert (H1 := Hall h ltac:(left)). assert (H2 := HPl h ltac:(left)).
    apply SS_cons in Hs as [_ Hs]. rewrite Forall_forall in Hs. specialize (Hs b (proj2 (elem_of_list_In _ _) Hb)).
    unfold pos, xend in *. lia.
  - specialize (Hall a (proj2 (elem_of_list_In _ _) Ha)).
    specialize (HPl a (proj2 (elem_of_list_In _ _) Ha)). unfold pos, xend in *. lia.
  - apply (IH (proj2 (Forall_forall _ _) HPl) HMl Ha Hb). split; assumption.
Qed.

Section api.
  Context (b : bl) (HS : SInv b).
  Local Notation f := (state_of b).

  Lemma si_eb e : In e (live b) -> ebound e.
  Proof using HS. destruct HS as ((((_ & HB & _) & _) & _) & _). rewrite Forall_forall in HB.
    intros H. apply HB, elem_of_list_In, H. Qed.
  Lemma si_pos e : In e (live b) -> 0 < e_count e.
  Proof using HS. destruct HS as ((_ & HP) & _). rewrite Forall_forall in HP.
    intros H. apply HP, elem_of_list_In, H. Qed.
  Lemma si_hit e x : In e (live b) -> hit e x -> f x = e_state e.
  Proof using HS. destruct HS as (((HW & HD) & _) & _). intros. apply state_in_hit; auto. apply HW. Qed.
  Lemma si_present x : f x <> ABSENT -> exists e, In e (live b) /\ hit e x.
  Proof using HS.
    destruct HS as (((HW & HD) & _) & _). intros H.
    destruct (state_present_entry (live b) x) as (i & e & Hi & Hh & _); auto; [apply HW|].
    exists e. split; [|assumption]. apply elem_of_list_In. eapply elem_of_list_lookup_2; eauto.
  Qed.
  Lemma si_after e : In e (live b) -> f (xend e) <> e_state e.
  Proof using HS.
    intros Hin E. pose proof (si_eb e Hin) as Hbe. pose proof (si_pos e Hin) as Hpe.
    destruct (si_present (xend e)) as (e2 & Hin2 & Hh2); [unfold ebound, ABSENT in *; lia|].
    pose proof (si_hit e2 _ Hin2 Hh2) as E2.
    destruct HS as (((HW & HD) & HP) & HM & _).
    assert (Hs : e_start e2 = xend e).
    { destruct (Z.eq_dec (e_start e2) (xend e)); [assumption|exfalso].
      (* e2 also contains the last block of e *)
      pose proof Hin as Hi. pose proof Hin2 as Hi2. apply elem_of_list_In, elem_of_list_lookup in Hi as [i Hi].
      apply elem_of_list_In, elem_of_list_lookup in Hi2 as [j Hj]. unfold hit in Hh2.
      destruct (Nat.lt_trichotomy i j) as [Hl|[->|Hl]].
      - pose proof (disjoint_lookup _ _ _ _ _ HD Hi Hj Hl). lia.
      - rewrite Hi in Hj. injection Hj as ->. lia.
      - pose proof (disjoint_lookup _ _ _ _ _ HD Hj Hi Hl). unfold xend in *. lia. }
    apply (pairwise (live b) e e2 HD HP HM Hin Hin2). split; congruence.
  Qed.
  Lemma si_start s : f s <> ABSENT /\ f (s - 1) <> f s <-> exists e, In e (live b) /\ e_start e = s.
  Proof using HS.
    split.
    - intros [H1 H2]. destruct (si_present s H1) as (e & Hin & Hh). exists e. split; [assumption|].
      destruct (Z.eq_dec (e_start e) s); [assumption|exfalso]. apply H2.
      rewrite (si_hit e (s - 1)), (si_hit e s); auto. unfold hit in *; lia.
    - intros (e & Hin & <-). pose proof (si_eb e Hin) as Hbe. pose proof (si_pos e Hin) as Hpe.
      assert (Hfs : f (e_start e) = e_state e) by (apply si_hit; auto; unfold hit, xend; lia).
      split; [rewrite Hfs; unfold ebound, ABSENT in *; lia|]. intros E.
      destruct (si_present (e_start e - 1)) as (e2 & Hin2 & Hh2); [rewrite E, Hfs; unfold ebound, ABSENT in *; lia|].
      pose proof (si_hit e2 _ Hin2 Hh2) as E2. unfold hit in Hh2.
      destruct (Z.eq_dec (xend e2) (e_start e)) as [Ex|Nx].
      + apply (si_after e2 Hin2). rewrite Ex, <- E2. congruence.
      + destruct HS as (((HW & HD) & HP) & HM & _).
        pose proof Hin as Hi. pose proof Hin2 as Hi2. apply elem_of_list_In, elem_of_list_lookup in Hi as [i Hi].
        apply elem_of_list_In, elem_of_list_lookup in Hi2 as [j Hj].
        destruct (Nat.lt_trichotomy i j) as [Hl|[->|Hl]].
        * pose proof (disjoint_lookup _ _ _ _ _ HD Hi Hj Hl). unfold xend in *. lia.
        * rewrite Hi in Hj. injection Hj as ->. lia.
        * pose proof (disjoint_lookup _ _ _ _ _ HD Hj Hi Hl). lia.
  Qed.
  (** the run of [s] reaches exactly as far as the state does not change *)
  Lemma si_reach e y : In e (live b) -> e_start e <= y ->
    (y < xend e <-> forall x, e_start e <= x <= y -> f x = e_state e).
  Proof using HS.
    intros Hin Hy. split.
    - intros Hlt x Hx. apply si_hit; auto. unfold hit; lia.
    - intros Hall. destruct (Z.lt_ge_cases y (xend e)); [assumption|exfalso].
      apply (si_after e Hin). apply Hall. pose proof (si_eb e Hin). unfold ebound, xend in *. lia.
  Qed.
End api.

Lemma si_bug b s c v : SInv b -> 1 <= c ->
  (bad_overlap s c (live b) \/ zero_pat s c v (live b)) <-> mark_bug (state_of b) (mkReq s c v).
Proof.
  intros HS Hc. unfold mark_bug. cbn [r_start r_count r_state]. split.
  - intros [(e1 & e2 & H1 & H2 & <- & Hx1 & Hx2)|(e & H1 & <- & Hx & Hv)].
    + assert (Hs : state_of b (e_start e1) <> ABSENT /\ state_of b (e_start e1 - 1) <> state_of b (e_start e1)).
      { apply (si_start b HS). exists e1; auto. }
      pose proof (si_pos b HS e1 H1) as Hp1.
      assert (Hne : xend e1 <> e_start e1 + c).
      { intros E. assert (E1 : state_of b (e_start e1 + c - 1) = e_state e1) by (apply si_hit; auto; unfold hit; lia).
        assert (E2 : state_of b (e_start e1 + c - 1) = e_state e2) by (apply si_hit; auto; unfold hit; lia).
        assert (E3 : state_of b (e_start e1 + c) = e_state e2) by (apply si_hit; auto; unfold hit; lia).
        apply (si_after b HS e1 H1). rewrite E. congruence. }
      split; [lia|]. split; [apply Hs|]. split; [apply Hs|]. left. split.
      * exists (xend e1). split; [lia|]. rewrite (si_hit b HS e1 (e_start e1)) by (auto; unfold hit; lia).
        apply si_after; auto.
      * rewrite (si_hit b HS e2 (e_start e1 + c - 1)), (si_hit b HS e2 (e_start e1 + c)) by (auto; unfold hit; lia).
        split; [reflexivity|]. pose proof (si_eb b HS e2 H2). unfold ebound, ABSENT in *. lia.
    + assert (Hs : state_of b (e_start e) <> ABSENT /\ state_of b (e_start e - 1) <> state_of b (e_start e)).
      { apply (si_start b HS). exists e; auto. }
      assert (Hh : forall x, e_start e <= x <= e_start e + c -> state_of b x = e_state e).
      { intros x Hxx. apply si_hit; auto. unfold hit; lia. }
      split; [lia|]. split; [apply Hs|]. split; [apply Hs|]. right. split; [rewrite Hh by lia; auto|].
      intros x Hxx. rewrite !Hh by lia. reflexivity.
  - intros (_ & H1 & H2 & H3). destruct (proj1 (si_start b HS s) (conj H1 H2)) as (e & Hin & <-).
    pose proof (si_eb b HS e Hin) as Hbe. pose proof (si_pos b HS e Hin) as Hpe.
    assert (Hfs : state_of b (e_start e) = e_state e) by (apply si_hit; auto; unfold hit, xend; lia).
    destruct H3 as [((x & Hx & Hne) & E & Hp)|[Hv Hall]].
    + left. destruct (si_present b HS (e_start e + c - 1)) as (e2 & Hin2 & Hh2); [congruence|].
      exists e, e2. split_and!; auto.
      * unfold xend. lia.
      * destruct (Z.lt_ge_cases x (xend e)); [|lia]. exfalso. apply Hne. rewrite Hfs. apply si_hit; auto. unfold hit; lia.
      * unfold hit in Hh2. lia.
      * unfold hit in Hh2. destruct (Z.eq_dec (xend e2) (e_start e + c)) as [Ex|]; [|lia]. exfalso.
        apply (si_after b HS e2 Hin2). rewrite Ex, <- E. apply si_hit; auto.
    + right. exists e. split_and!; auto; [|congruence].
      apply (si_reach b HS e (e_start e + c) Hin); [lia|]. intros x Hx. rewrite <- Hfs. apply Hall. lia.
Qed.

Lemma upd_zero f r x : r_count r = 0 -> upd f r x = f x.
Proof. intros E. unfold upd, covers. rewrite E. replace ((_ <=? _) && _) with false by lia. reflexivity. Qed.

Lemma small_ok r : small_req r -> 0 < r_count r -> ok_piece (r_start r) (r_count r) (r_state r).
Proof. unfold small_req, ok_piece. lia. Qed.

Lemma small_step b r : SInv b -> small_req r -> ~ mark_bug (state_of b) r ->
  exists b', mark b (r_start r) (r_count r) (r_state r) = Done b' /\ SInv b' /\
    forall x, state_of b' x = upd (state_of b) r x.
Proof.
  intros HS Hr Hb. destruct (Z.eq_dec (r_count r) 0) as [E|Hc].
  { exists b. split; [|split; [assumption|intros x; rewrite upd_zero by assumption; reflexivity]].
    rewrite E. reflexivity. }
  destruct r as [s c v]. cbn [r_start r_count r_state] in *.
  assert (Hok : ok_piece s c v) by (apply (small_ok (mkReq s c v) Hr); unfold small_req in Hr; simpl in *; lia).
  rewrite <- (si_bug b s c v HS) in Hb by (unfold ok_piece in Hok; lia).
  rewrite mark_single by apply Hok.
  pose proof HS as (HC & HM & HSm).
  destruct (mark_internal_C b s c v HC Hok) as (b' & Hm & HC' & Hx); [tauto|tauto|].
  exists b'. split_and!; auto. split; [assumption|].
  destruct HC as ((HW & HD) & HP).
  destruct (mark_internal_W b s c v HW Hok) as (b2 & A & B & C & Hm2 & HW' & E & E' & HA & HB & HC).
  rewrite Hm in Hm2. injection Hm2 as <-. destruct HW as (_ & Hbd & _).
  rewrite E', E in *. rewrite !Forall_app in Hbd. destruct Hbd as (HbA & HbB & HbC).
  unfold small_req in Hr; simpl in Hr.
  apply mark_list_max; auto; unfold ok_piece in Hok; try lia; try tauto.
Qed.

Lemma mark_internal_bad b s c v : CInv b -> ok_piece s c v ->
  bad_overlap s c (live b) \/ zero_pat s c v (live b) ->
  exists b', mark_internal b s c v = Done b' /\ WInv b' /\
    (~ clean (live b') \/ (v = ABSENT /\ state_of b' (s + c - 1) <> ABSENT)).
Proof.
  intros (HDI & HP) Hok Hbad. pose proof HDI as (HW & HD).
  destruct (mark_internal_W b s c v HW Hok) as (b' & A & B & C & Hm & HW' & E & E' & HA & HB & HC).
  exists b'. split_and!; auto.
  destruct HW as (_ & Hbd & _). pose proof Hok as (Hs & Hc & He & Hv).
  assert (Hbd' := Hbd). rewrite E, !Forall_app in Hbd'. destruct Hbd' as (HbA & HbB & HbC).
  rewrite E in HD. destruct Hbad as [Hbad|Hz].
  - rewrite E in Hbad. destruct (mark_list_bad s c v A B C Hs Hc He Hv HbA HbB HbC HA HB HC HD Hbad) as [H1 H2].
    destruct (Z.eq_dec v ABSENT) as [Ea|Ea].
    + right. split; [assumption|]. unfold state_of. rewrite E'. apply H1; assumption.
    + left. intros [HD' _]. apply (H2 Ea). rewrite <- E'. assumption.
  - left. intros [_ HP']. rewrite E in Hz. rewrite E' in HP'.
    eapply (mark_list_zero s c v A B C); eauto.
Qed.

Lemma small_bug b r : SInv b -> small_req r -> mark_bug (state_of b) r ->
  exists b', mark b (r_start r) (r_count r) (r_state r) = Done b' /\
    (fsck b' = Throw \/ exists x, state_of b' x <> upd (state_of b) r x).
Proof.
  intros HS Hr Hb. destruct r as [s c v]. pose proof Hb as (Hc & _). cbn [r_start r_count r_state] in *.
  assert (Hok : ok_piece s c v) by (apply (small_ok (mkReq s c v) Hr); simpl; lia).
  rewrite <- (si_bug b s c v HS) in Hb by lia. rewrite mark_single by apply Hok.
  pose proof HS as (HC & HM & HSm).
  destruct (mark_internal_bad b s c v HC Hok Hb) as (b' & Hm & HW' & Hor).
  exists b'. split; [assumption|].
  pose proof (fsck_W b' HW') as Hf. pose proof HW' as (_ & HB' & _).
  destruct Hor as [Hn|[-> Hx]].
  - left. rewrite <- (clean_cleanb _ HB') in Hn. destruct (cleanb 0 (live b')); [exfalso; auto|assumption].
  - right. exists (s + c - 1). unfold upd, covers. cbn [r_start r_count r_state].
    replace ((_ <=? _) && _) with true by lia. assumption.
Qed.

Lemma mark_bug_ext f g r : (forall x, f x = g x) -> mark_bug f r -> mark_bug g r.
Proof.
  intros E (H0 & H1 & H2 & H3). unfold mark_bug. rewrite <- !E. split_and!; auto.
  destruct H3 as [((x & Hx & Hne) & H)|[Hne Hall]].
  - left. split; [|assumption]. exists x. rewrite <- E. auto.
  - right. split; [assumption|]. intros x Hx. rewrite <- E. auto.
Qed.

Lemma run_S h : forall b f, SInv b -> (forall x, state_of b x = f x) -> Forall small_req h ->
  all_calls (fun f r => ~ mark_bug f r) f h ->
  exists b', run b h = Done b' /\ SInv b' /\ forall x, state_of b' x = fold_left upd h f x.
Proof.
  induction h as [|r h IH]; intros b f HS Hf Hv Hs; simpl; [eauto|].
  inversion Hv; subst. destruct Hs as [Hs1 Hs2].
  destruct (small_step b r HS) as (b1 & -> & HS1 & Hx1); auto.
  { intros Hb. apply Hs1. eapply mark_bug_ext; [|exact Hb]. exact Hf. }
  simpl. apply IH; auto. intros x. rewrite Hx1. unfold upd. destruct (covers r x); auto.
Qed.

Lemma small_history h : Forall small_req h -> all_calls (fun f r => ~ mark_bug f r) (fun _ => ABSENT) h ->
  exists b b', run bl_fresh h = Done b /\ (forall x, state_of b x = expected h x) /\
    (forall s, 0 <= s <= 3 -> blocks b s = nblocks (expected h) s (2 ^ 64)) /\ fsck b = Done b'.
Proof.
  intros Hv Hg. destruct (run_S h bl_fresh (fun _ => ABSENT) SInv_fresh (fun x => eq_refl) Hv Hg) as (b & Hr & HS & Hx).
  pose proof HS as (HC & _). destruct (fsck_C b HC) as (b' & Hf & _).
  exists b, b'. split_and!; auto. intros s Hs. rewrite blocks_D; [|apply HC|assumption]. apply nblocks_ext, Hx.
Qed.

Lemma run_app h1 h2 b : run b (h1 ++ h2) = dlet b := run b h1 in run b h2.
Proof.
  revert b. induction h1 as [|r h1 IH]; intros b; simpl; [reflexivity|].
  destruct (mark _ _ _ _); simpl; auto.
Qed.

Lemma small_history_bug h r : Forall small_req (h ++ [r]) ->
  all_calls (fun f r => ~ mark_bug f r) (fun _ => ABSENT) h -> mark_bug (expected h) r ->
  exists b, run bl_fresh (h ++ [r]) = Done b /\
    (fsck b = Throw \/ exists x, state_of b x <> expected (h ++ [r]) x).
Proof.
  intros Hv Hg Hb. apply Forall_app in Hv as [Hv Hr]. apply Forall_inv in Hr.
  destruct (run_S h bl_fresh (fun _ => ABSENT) SInv_fresh (fun x => eq_refl) Hv Hg) as (b & Hrun & HS & Hx).
  destruct (small_bug b r HS Hr) as (b' & Hm & Hor).
  { eapply mark_bug_ext; [|exact Hb]. intros x. symmetry. apply Hx. }
  exists b'. split. { rewrite run_app, Hrun. simpl. rewrite Hm. reflexivity. }
  destruct Hor as [?|[x Hne]]; [auto|]. right. exists x. unfold expected. rewrite fold_left_app. simpl.
  intros E. apply Hne. rewrite E. unfold upd. destruct (covers r x); [reflexivity|]. symmetry. apply Hx.
Qed.
