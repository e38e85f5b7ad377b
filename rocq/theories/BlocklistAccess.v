(** Exactly what truncate_access (blocklist.cpp:599-627) returns.  Nothing is modelled here. *)
From Coq Require Import Sorted.
From Verif Require Import Prelude Blocklist BlocklistSpec BlocklistProofs BlocklistSem BlocklistMain
  BlocklistMore BlocklistThm BlocklistFinal.

(** what the loop makes of the end [E] of the last run: it looks at the slot behind *)
Definition past_end (b : bl) (E : Z) : outcome Z :=
  match bl_slots b !! bl_n b with
  | None => Crash
  | Some e => Done (if e_start e =? E then e_end e else E)
  end.
Lemma ta_loop_exact b L T re : rep b L T -> Forall ebound L -> disjoint_l L -> Forall pos L ->
  forall fuel it e, L !! it = Some e -> (length L - it < fuel)%nat ->
  exists E, xend e <= E < 2 ^ 64 /\ (forall x, xend e <= x < E -> state_in L x <> ABSENT) /\
    (re <= E /\ ta_loop fuel b re it (xend e) = Done E \/
     E < re /\ state_in L E = ABSENT /\
       ((exists y, E < y /\ state_in L y <> ABSENT) /\ ta_loop fuel b re it (xend e) = Done E \/
        (forall y, E <= y -> state_in L y = ABSENT) /\ ta_loop fuel b re it (xend e) = past_end b E)).
Proof.
  intros HR HB HD HP. pose proof (rep_n _ _ _ HR) as Hn.
  induction fuel as [|fuel IH]; intros it e Hit Hf; [lia|].
  assert (Hll : (it < length L)%nat) by (apply lookup_lt_Some in Hit; assumption).
  cbn [ta_loop]. assert (Hbe : ebound e) by (rewrite Forall_lookup in HB; eauto).
  rewrite (proj2 (Nat.eqb_neq _ _)) by lia. cbn [negb andb].
  destruct (Z.ltb_spec (xend e) re) as [Hlt|Hge]; [|exists (xend e); split; [unfold ebound in Hbe; lia|]; split; [lia|]; left; auto].
  assert (Hbefore : forall j a, (j <= it)%nat -> L !! j = Some a -> xend a <= xend e).
  { intros j a Hj Ha. destruct (decide (j = it)) as [->|]; [rewrite Hit in Ha; injection Ha as ->; lia|].
    pose proof (disjoint_lookup L j it a e HD Ha Hit ltac:(lia)). unfold ebound, xend in *. lia. }
  destruct (decide (S it < length L)%nat) as [Hm|Hm].
  - destruct (lookup_lt_is_Some_2 L (S it)) as [e' He']; [lia|].
    rewrite (rd_rep _ _ _ _ _ HR He'). cbn [obind].
    assert (Hbe' : ebound e') by (rewrite Forall_lookup in HB; eauto).
    assert (Hpe' : pos e') by (rewrite Forall_lookup in HP; eauto).
    pose proof (disjoint_lookup L it (S it) e e' HD Hit He' ltac:(lia)) as Hord.
    assert (Hin : forall x, e_start e' <= x < xend e' -> state_in L x <> ABSENT).
    { intros x Hx. assert (Hs : state_in L x = e_state e').
      { apply state_in_hit; auto. apply elem_of_list_In. eapply elem_of_list_lookup_2; eauto. }
      rewrite Hs. unfold ebound, ABSENT in *. lia. }
    destruct (Z.eqb_spec (e_start e') (xend e)) as [Eq|Ne]; cbn [negb].
    + rewrite e_end_x by assumption. destruct (IH (S it) e' He' ltac:(lia)) as (E & HE & Hp & Hres).
      exists E. split; [unfold ebound, xend in *; lia|]. split; [|exact Hres].
      intros x Hx. destruct (Z.lt_ge_cases x (xend e')); [apply Hin; lia|apply Hp; lia].
    + exists (xend e). split; [unfold ebound in Hbe; lia|]. split; [lia|]. right. split; [exact Hlt|].
      split; [|left; split; [|reflexivity]].
      * apply state_in_none; [assumption|]. apply Forall_lookup. intros j a Ha. unfold hit.
        destruct (decide (j <= it)%nat) as [Hj|Hj]; [pose proof (Hbefore j a Hj Ha); lia|].
        assert (e_start e' <= e_start a); [|lia].
        destruct (decide (j = S it)) as [->|]; [rewrite He' in Ha; injection Ha as ->; lia|].
        pose proof (disjoint_lookup L (S it) j e' a HD He' Ha ltac:(lia)). unfold ebound, xend in *. lia.
      * exists (e_start e'). split; [lia|]. apply Hin. unfold pos, xend in *. lia.
  - assert (Hlast : S it = length L) by lia. exists (xend e). split; [unfold ebound in Hbe; lia|]. split; [lia|]. right. split; [exact Hlt|].
    assert (Hno : forall y, xend e <= y -> state_in L y = ABSENT).
    { intros y Hy. apply state_in_none; [assumption|]. apply Forall_lookup. intros j a Ha. unfold hit.
      pose proof (lookup_lt_Some _ _ _ Ha). pose proof (Hbefore j a ltac:(lia) Ha). lia. }
    split; [apply Hno; lia|]. right. split; [exact Hno|].
    unfold past_end, rd. rewrite Hlast, <- Hn. destruct (bl_slots b !! bl_n b) as [e'|]; cbn [obind]; [|reflexivity].
    destruct (Z.eqb_spec (e_start e') (xend e)); cbn [negb]; [|reflexivity].
    destruct fuel as [|fuel]; [lia|]. cbn [ta_loop]. rewrite Nat.eqb_refl. reflexivity.
Qed.

(** ** the whole function *)
Lemma access_exact b start size : CInv b -> 0 <= start -> 0 <= size -> start + size + 8192 < 2 ^ 64 -> state_of b (start / 4096) <> ABSENT ->
  exists E, start / 4096 < E /\ (forall x, start / 4096 <= x < E -> state_of b x <> ABSENT) /\
    (start + size <= E * 4096 /\ truncate_access b start size = Done size \/
     E * 4096 < start + size /\ state_of b E = ABSENT /\
       ((exists y, E < y /\ state_of b y <> ABSENT) /\ truncate_access b start size = Done (Z.min size ((E - start / 4096) * 4096)) \/
        (forall y, E <= y -> state_of b y = ABSENT) /\
          truncate_access b start size = match bl_slots b !! bl_n b with
            | None => Crash
            | Some e => Done (Z.min size (w64 ((Z.min ((start + size + 4095) / 4096 + 1) (if e_start e =? E then e_end e else E) - start / 4096) * 4096)))
            end)).
Proof.
  intros (((HR & HB & HS) & HD) & HP) Hst Hsz Hov Hp.
  unfold truncate_access, PAGE. rewrite (proj2 (Z.ltb_ge _ _)) by lia. rewrite w64_id by lia. replace (start + size + 4096 - 1) with (start + size + 4095) by lia.
  set (sb := start / 4096) in *. set (re := (start + size + 4095) / 4096) in *.
  rewrite (search_rep b _ _ sb HR HB HS). cbn [obind]. pose proof (rep_n _ _ _ HR) as Hn. unfold state_of in *.
  destruct (state_present_entry (live b) sb HB HD Hp) as (i & e & Hi & Hh & Hu). rewrite Hu.
  assert (Hil : (i < length (live b))%nat) by (apply lookup_lt_Some in Hi; assumption).
  rewrite (proj2 (Nat.eqb_neq _ _)) by lia. rewrite (rd_rep _ _ _ _ _ HR Hi). cbn [obind].
  assert (Hbe : ebound e) by (rewrite Forall_lookup in HB; eauto).
  rewrite contains_x by assumption. unfold hit in Hh. replace (negb ((_ <=? _) && _)) with false by lia.
  rewrite e_end_x by assumption.
  destruct (ta_loop_exact b _ _ re HR HB HD HP (S (bl_n b)) i e Hi ltac:(lia)) as (E & HE & Hpres & Hres).
  assert (Hre : re * 4096 <= start + size + 4095 < re * 4096 + 4096) by (subst re; lia). assert (Hsb : sb * 4096 <= start < sb * 4096 + 4096) by (subst sb; lia).
  exists E. split; [lia|]. split.
  { intros x Hx. destruct (Z.lt_ge_cases x (xend e)); [|apply Hpres; lia].
    assert (Hs : state_in (live b) x = e_state e) by (apply state_in_hit; auto; [apply elem_of_list_In; eapply elem_of_list_lookup_2; eauto|unfold hit; lia]).
    rewrite Hs. unfold ebound, ABSENT in *. lia. }
  destruct Hres as [(HEr & ->)|(HEr & Hab & Hres)]; [left|right].
  - split; [lia|]. cbn [obind]. f_equal. rewrite w64_id by lia. lia.
  - split; [lia|]. split; [exact Hab|]. destruct Hres as [[Hy ->]|[Hy ->]]; [left|right]; (split; [exact Hy|]); cbn [obind].
    + f_equal. rewrite w64_id by lia. lia.
    + unfold past_end. destruct (bl_slots b !! bl_n b) as [e'|]; cbn [obind]; reflexivity.
Qed.
(** what the caller expects of the answer [r]: a prefix of the range, present, and as long as possible *)
Definition right_answer (st : Z -> Z) (start size r : Z) : Prop :=
  0 <= r <= size /\ (forall p, start <= p < start + r -> st (p / 4096) <> ABSENT) /\ (r < size -> st ((start + r) / 4096) = ABSENT).
Lemma access_iff b start size : CInv b -> 0 <= start -> 0 <= size -> start + size + 8192 < 2 ^ 64 -> state_of b (start / 4096) <> ABSENT ->
  (exists r, truncate_access b start size = Done r /\ right_answer (state_of b) start size r) <->
  (forall p, start <= p < start + size -> state_of b (p / 4096) <> ABSENT) \/
  (start mod 4096 = 0 /\ exists E, start / 4096 < E /\ state_of b E = ABSENT /\ (forall x, start / 4096 <= x < E -> state_of b x <> ABSENT) /\
    ((exists y, E < y /\ state_of b y <> ABSENT) \/ exists e, bl_slots b !! bl_n b = Some e /\ (e_start e = E -> e_end e = E))).
Proof.
  intros HC Hst Hsz Hov Hp. destruct (access_exact b start size HC Hst Hsz Hov Hp) as (E & HE & Hpres & Hres).
  assert (Hsb : start / 4096 * 4096 <= start < start / 4096 * 4096 + 4096) by lia. assert (Hmod : start mod 4096 = start - start / 4096 * 4096) by lia.
  assert (Hre : (start + size + 4095) / 4096 * 4096 <= start + size + 4095 < (start + size + 4095) / 4096 * 4096 + 4096) by lia.
  revert Hsb Hmod Hre Hres Hpres HE Hp. generalize (start / 4096) as sb. generalize ((start + size + 4095) / 4096) as re. intros re sb Hsb Hmod Hre Hres Hpres HE Hp.
  destruct Hres as [[Hle Hta]|(Hlt & Hab & Hres)].
  { assert (Hall : forall p, start <= p < start + size -> state_of b (p / 4096) <> ABSENT) by (intros p Hpp; apply Hpres; split; [apply Z.div_le_lower_bound|apply Z.div_lt_upper_bound]; lia).
    split; [intros _; left; exact Hall|]. intros _. exists size. split; [exact Hta|]. split; [lia|]. split; [exact Hall|lia]. }
  assert (Hnot : ~ forall p, start <= p < start + size -> state_of b (p / 4096) <> ABSENT).
  { intros Hall. apply (Hall (E * 4096)); [lia|]. rewrite Z.div_mul by lia. exact Hab. }
  assert (Hfirst : forall E', sb < E' -> state_of b E' = ABSENT -> (forall x, sb <= x < E' -> state_of b x <> ABSENT) -> E' = E).
  { intros E' H1 H2 H3. destruct (Z.lt_trichotomy E' E) as [H|[H|H]]; [|exact H|]; exfalso; [apply (Hpres E'); [lia|exact H2]|apply (H3 E); [lia|exact Hab]]. }
  assert (Htoo : forall r, right_answer (state_of b) start size r -> start + r <= E * 4096).
  { intros r (Hr1 & Hr2 & _). destruct (Z.le_gt_cases (start + r) (E * 4096)) as [|Hgt]; [assumption|]. exfalso. apply (Hr2 (E * 4096)); [lia|]. rewrite Z.div_mul by lia. exact Hab. }
  assert (Hfew : forall r, right_answer (state_of b) start size r -> E * 4096 <= start + r).
  { intros r (Hr1 & _ & Hr2). destruct (Z.le_gt_cases (E * 4096) (start + r)) as [|Hgt]; [assumption|]. exfalso. apply (Hpres ((start + r) / 4096)); [|apply Hr2; lia]. split; [apply Z.div_le_lower_bound|apply Z.div_lt_upper_bound]; lia. }
  assert (Hgood : start mod 4096 = 0 -> right_answer (state_of b) start size (Z.min size ((E - sb) * 4096))).
  { intros Hal. rewrite Z.min_r by lia. split; [lia|]. split.
    - intros p Hpp. apply Hpres. split; [apply Z.div_le_lower_bound|apply Z.div_lt_upper_bound]; lia.
    - intros _. replace (start + (E - sb) * 4096) with (E * 4096) by lia. rewrite Z.div_mul by lia. exact Hab. }
  destruct Hres as [[Hy Hta]|[Hy Hta]].
  - split.
    + intros (r & Er & Hr). rewrite Hta in Er. injection Er as <-. right. assert (Hal : start mod 4096 = 0) by (pose proof (Htoo _ Hr); lia). split; [exact Hal|]. exists E. auto.
    + intros [?|(Hal & _)]; [contradiction|]. eexists. split; [exact Hta|]. apply Hgood. exact Hal.
  - split.
    + intros (r & Er & Hr). rewrite Hta in Er. destruct (bl_slots b !! bl_n b) as [e|] eqn:Es; [|discriminate Er]. injection Er as <-. pose proof (Htoo _ Hr) as Ht. pose proof (Hfew _ Hr) as Hf. right.
      set (X := if e_start e =? E then e_end e else E) in *.
      assert (HX : start mod 4096 = 0 /\ X = E).
      { assert (HX0 : 0 <= X < 2 ^ 64) by (subst X; destruct (e_start e =? E); [apply Z.mod_pos_bound; lia|lia]).
        destruct (Z.le_gt_cases sb (Z.min (re + 1) X)) as [Hge|Hls].
        - clearbody X. rewrite w64_id in Ht, Hf by lia. set (M := Z.min (re + 1) X) in *. assert (M = E) by lia. split; lia.
        - exfalso. assert (Hneg : w64 ((Z.min (re + 1) X - sb) * 4096) = (Z.min (re + 1) X - sb) * 4096 + 2 ^ 64) by (unfold w64; symmetry; apply Z.mod_unique with (-1); lia). rewrite Hneg in Ht, Hf. lia. }
      destruct HX as [Hal HX]. split; [exact Hal|]. exists E. split; [exact HE|]. split; [exact Hab|]. split; [exact Hpres|]. right. exists e. split; [reflexivity|]. intros <-. subst X. rewrite Z.eqb_refl in HX. exact HX.
    + intros [?|(Hal & E' & H1 & H2 & H3 & H4)]; [contradiction|]. rewrite (Hfirst E' H1 H2 H3) in *. destruct H4 as [(y & Hy1 & Hy2)|(e & Es & He)]; [exfalso; apply Hy2, Hy; lia|].
      rewrite Es in Hta. assert (HX : (if e_start e =? E then e_end e else E) = E) by (destruct (Z.eqb_spec (e_start e) E); auto). rewrite HX in Hta. replace (Z.min (re + 1) E) with E in Hta by lia. rewrite w64_id in Hta by lia. eexists. split; [exact Hta|]. apply Hgood. exact Hal.
Qed.
